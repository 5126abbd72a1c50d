(** Vocabulary for beam directions and wedges *)
From Coq Require Import Reals List ZArith.
From Verif Require Import Prelude Lin.
Local Open Scope R_scope.

(** the angle, up to whole turns, is in the wedge: its start included, its end not *)
Definition in_wedge (turn angle : R) (w : R * R) : Prop := exists k : Z, fst w <= angle + IZR k * turn < snd w.
(** the direction from the sample to the source, by azimuth (in the horizontal plane, from x towards z) and polar angle (from y), in degrees *)
Definition towards (azim pola : R) : v3 :=
  let a := azim * PI / 180 in let p := pola * PI / 180 in V3 (sin p * cos a) (cos p) (sin p * sin a).
