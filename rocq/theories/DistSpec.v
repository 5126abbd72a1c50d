(** Vocabulary for the properties of the detector distortion functions. *)
From Coq Require Import Reals List.
Import ListNotations.
Local Open Scope R_scope.

(** the quadrant of a point; the axes belong to the quadrant with the larger coordinates *)
Definition quadrant (n : nat) (q : R * R) : Prop :=
  match n with
  | 1%nat => 0 <= fst q /\ 0 <= snd q
  | 2%nat => fst q < 0 /\ 0 <= snd q
  | 3%nat => fst q < 0 /\ snd q < 0
  | 4%nat => 0 <= fst q /\ snd q < 0
  | _ => False
  end.
(** the displacement of quadrant n in a list of eight parameters *)
Definition displacement (p : list R) (n : nat) : R * R := (nth (2 * n - 2) p 0, nth (2 * n - 1) p 0).
Definition radius (q : R * R) : R := sqrt (fst q * fst q + snd q * snd q).
(** h is the azimuth of the point q *)
Definition polar (q : R * R) (r h : R) : Prop := q = (r * cos h, r * sin h).
(** strength of the radial distortion at azimuth h *)
Definition strength (p : list R) (h : R) : R := nth 0 p 0 * cos (2 * h) + nth 1 p 0 * cos (4 * h) + nth 2 p 0.
(** the three exponents are 2 *)
Definition quadratic (p : list R) : Prop := nth 3 p 0 = 2 /\ nth 4 p 0 = 2 /\ nth 5 p 0 = 2.
(** largest radius of the GE detector in mm *)
Definition rho_max : R := 2048 / 10.
