(** Specification vocabulary for phase transformation variants. *)
From Coq Require Import Reals List.
From Verif Require Import Prelude Lin.
Import ListNotations.
Local Open Scope R_scope.

(** a point group: a finite group of orthogonal matrices, each listed once *)
Definition point_group (G : list m3) : Prop :=
  NoDup G /\ In mI G /\ (forall a b, In a G -> In b G -> In (mm a b) G) /\ (forall a, In a G -> In (mt a) G) /\ (forall a, In a G -> orthogonal a).
(** the directions of [u] and [v] *)
Definition direction (u : v3) : v3 := vscale (/ norm u) u.
(** [t] is the rotation that makes the child's plane and direction parallel to those of the parent *)
Definition aligns (t : m3) (p1 p2 d1 d2 : v3) : Prop :=
  rotation t /\ mv t (direction p2) = direction p1 /\ mv t (direction d2) = direction d1.
(** the operation [s] of the child, seen in the parent *)
Definition seen (t s : m3) : m3 := mm t (mm s (mt t)).
(** the squared distance of two matrices *)
Definition dist2 (a b : m3) : R := tr (mm (mt (msub a b)) (msub a b)).
(** no operation of the child, seen in the parent, is nearly but not exactly an operation of the parent *)
Definition distinct_ops (t : m3) (G1 G2 : list m3) : Prop :=
  forall s g, In s G2 -> In g G1 -> seen t s = g \/ (1 / 1000000) * (1 / 1000000) <= dist2 (seen t s) g.
(** two variants that differ by an operation of the child are the same orientation *)
Definition same_variant (G2 : list m3) (v w : m3) : Prop := exists s, In s G2 /\ w = mm v s.
(** the operations that both phases have *)
Definition common (t : m3) (G1 G2 : list m3) (h : list m3) : Prop :=
  NoDup h /\ forall g, In g h <-> In g G1 /\ exists s, In s G2 /\ seen t s = g.
