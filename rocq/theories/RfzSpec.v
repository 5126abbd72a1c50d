(** Vocabulary for the properties of the Rodrigues fundamental zones and their sampling. *)
From Coq Require Import Reals List ZArith.
From Verif Require Import Prelude Lin RotModel RotSpec RfzModel.
Local Open Scope R_scope.

(** the Laue group of each of the 32 crystallographic point groups, in the order of the International Tables *)
Definition laue_of (pg : Z) : option laue :=
  if (pg <? 1)%Z then None else if (pg <=? 2)%Z then Some Ci else if (pg <=? 5)%Z then Some C2h else if (pg <=? 8)%Z then Some D2h
  else if (pg <=? 11)%Z then Some C4h else if (pg <=? 15)%Z then Some D4h else if (pg <=? 17)%Z then Some C3i else if (pg <=? 20)%Z then Some D3d
  else if (pg <=? 23)%Z then Some C6h else if (pg <=? 27)%Z then Some D6h else if (pg <=? 29)%Z then Some Th else if (pg <=? 32)%Z then Some Oh else None.
(** the quaternion q is the rotation by twice the arc tangent of t about the axis; t infinite is a half turn *)
Definition stands_for (ax : v3) (t : option R) (q : q4) : Prop :=
  match t with
  | None => q = Q4 0 (vx ax) (vy ax) (vz ax)
  | Some t => unitq q /\ 0 < qw q /\ qx q = qw q * (t * vx ax) /\ qy q = qw q * (t * vy ax) /\ qz q = qw q * (t * vz ax)
  end.
(** Among the orientations q.s equivalent to q, none is a smaller rotation than q: the scalar part of a unit quaternion is the cosine of half
    the angle.  [e] is a relative allowance. *)
Definition smallest (e : R) (G : list q4) (q : q4) : Prop := forall s, In s G -> Rabs (qw (hmul q s)) <= (1 + e) * Rabs (qw q).
(** every other equivalent orientation is a larger rotation, by a margin *)
Definition clearly_smallest (e : R) (G : list q4) (q : q4) : Prop :=
  forall s, In s G -> qw s * qw s <> 1 -> Rabs (qw (hmul q s)) <= (1 - e) * Rabs (qw q).
(** the same orientation of a crystal with the symmetries G *)
Definition equivalent (G : list q4) (p q : q4) : Prop := exists s, In s G /\ (p = hmul q s \/ p = negq (hmul q s)).
(** the largest coordinate in absolute value: which cube surface the point lies on *)
Definition shell (v : v3) (m : R) : Prop :=
  Rabs (vx v) <= m /\ Rabs (vy v) <= m /\ Rabs (vz v) <= m /\ (Rabs (vx v) = m \/ Rabs (vy v) = m \/ Rabs (vz v) = m).
(** what the sampling is meant to return: the orientations of the points of a cubic grid with 2 N + 1 points along each axis, spacing [delta], moved by
    [shift] cells, that lie in the cube and whose Rodrigues vector is in the zone of the point group *)
Definition sampled (pg N : Z) (delta shift half_edge : R) (q : q4) : Prop :=
  exists i j k ro, (- N <= i <= N)%Z /\ (- N <= j <= N)%Z /\ (- N <= k <= N)%Z /\
    Rabs ((IZR i + shift) * delta) <= half_edge /\ Rabs ((IZR j + shift) * delta) <= half_edge /\ Rabs ((IZR k + shift) * delta) <= half_edge /\
    cu2ro (V3 ((IZR i + shift) * delta) ((IZR j + shift) * delta) ((IZR k + shift) * delta)) = Ok ro /\
    insideFZ ro pg = Ok (Some true) /\ q = ro2qu ro.
