(** Vocabulary for planes seen from the origin and sides of pixels *)
From Coq Require Import Reals List ZArith.
From Verif Require Import Prelude Lin.
Local Open Scope R_scope.

(** the point (x, y) of a plane with axes the columns of [r] and origin [t] *)
Definition place (r : m3) (t : v3) (pt : R * R) : v3 := vadd (vadd (vscale (fst pt) (col0 r)) (vscale (snd pt) (col1 r))) t.
(** both on one line through the origin *)
Definition on_line_with (p q : v3) : Prop := exists u, q = vscale u p.
(** that line meets the plane in one point: it is not parallel to it *)
Definition crosses (r : m3) (p : v3) : Prop := dot (cross (col0 r) (col1 r)) p <> 0.

(** [d] is the distance of two directions on the circle *)
Definition turn_between (a b d : R) : Prop := 0 <= d <= PI /\ exists k : Z, a - b = d + 2 * PI * IZR k \/ a - b = - d + 2 * PI * IZR k.
(** the sides of a pixel w wide and h high with its centre at a point: pairs of corners *)
Inductive side (w h : R) (pt : R * R) : R * R -> R * R -> Prop :=
| side_row y : y = snd pt - h / 2 \/ y = snd pt + h / 2 -> side w h pt (fst pt - w / 2, y) (fst pt + w / 2, y)
| side_col x : x = fst pt - w / 2 \/ x = fst pt + w / 2 -> side w h pt (x, snd pt - h / 2) (x, snd pt + h / 2).
(** [m] is the largest value of a measure on the sides *)
Definition largest (w h : R) (pt : R * R) (measure : R * R -> R * R -> R -> Prop) (m : R) : Prop :=
  (forall c1 c2 d, side w h pt c1 c2 -> measure c1 c2 d -> d <= m) /\ exists c1 c2, side w h pt c1 c2 /\ measure c1 c2 m.
