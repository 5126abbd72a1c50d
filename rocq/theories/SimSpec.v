(** Vocabulary for the theorems about simulated rotation series *)
From Coq Require Import Reals.
From Verif Require Import Prelude XfModel XfSpec RotModel SimModel.
Local Open Scope R_scope.

(** a range, run through in the given sense, takes an angle: the way from its start to the angle is not longer than the range (with the
    tolerance of C37; a range without length takes every angle).  A NaN is taken by the ranges that take every angle *)
Definition tolerance : R := 15 / 10 ^ 9.
Definition takes (ccw : bool) (r : R * R) (a : option R) : Prop :=
  exists w, arc_length (arc_start ccw r) (arc_stop ccw r) w /\
    (w < tolerance \/ match a with
                      | Some x => exists th, arc_length (arc_start ccw r) x th /\ th <= w + tolerance
                      | None => 2 * PI - tolerance < w /\ arc_start ccw r < arc_stop ccw r
                      end).
(** a range that goes down is meant clockwise *)
Definition decreasing (r : R * R) : Prop := snd r < fst r.
(** one of the ranges takes the angle, each read in its own sense *)
Definition taken_own_sense (rs : list (R * R)) (a : option R) : Prop :=
  exists r b, In r rs /\ (b = false <-> decreasing r) /\ takes b r a.
(** one of the ranges takes the angle, every range from the first decreasing one on being read clockwise *)
Definition taken_sticky (rs : list (R * R)) (a : option R) : Prop :=
  exists i r b, nth_error rs i = Some r /\ (b = false <-> exists j r', (j <= i)%nat /\ nth_error rs j = Some r' /\ decreasing r') /\ takes b r a.
(** one of the ranges takes the angle counter-clockwise *)
Definition taken_ccw (rs : list (R * R)) (a : option R) : Prop := exists r, In r rs /\ takes true r a.

(** [gives R l m]: [m] lists, in the order of [l], what the elements of [l] that give something give *)
Inductive gives {A B} (R : A -> B -> Prop) : list A -> list B -> Prop :=
| gives_nil : gives R [] []
| gives_yes : forall a b l m, R a b -> gives R l m -> gives R (a :: l) (b :: m)
| gives_no : forall a l m, (forall b, ~ R a b) -> gives R l m -> gives R (a :: l) m.
(** an omega brought into the period [lo, hi]; the two ends, which are the same angle, are told apart by where the omega was *)
Definition brought (lo hi o o' : R) : Prop := lo <= o' <= hi /\ (exists k : Z, o' = o + IZR k * (2 * PI)) /\ (o' = hi -> lo < o) /\ (o' = lo -> o <= lo).
(** the energy of a wavelength, for the constant [K] *)
Definition energy (K w : R) : R := K / w.
