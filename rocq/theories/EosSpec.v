(** Vocabulary for the equation of state. *)
From Coq Require Import Reals List.
Import ListNotations.
Local Open Scope R_scope.

(** the pressure of the third order Birch-Murnaghan equation for volume v, reference volume v0, bulk modulus k and its derivative kp *)
Definition birch_murnaghan (v0 k kp v : R) : R :=
  3 * k / 2 * (Rpower (v0 / v) (7 / 3) - Rpower (v0 / v) (5 / 3)) * (1 + 3 / 4 * (kp - 4) * (Rpower (v0 / v) (2 / 3) - 1)).
(** the value of a polynomial given by its coefficients, highest power first *)
Fixpoint value (p : list R) (x : R) : R :=
  match p with [] => 0 | a :: t => a * x ^ (length t) + value t x end.
(** what is assumed of root finding: the real roots of a polynomial that is not zero, all of them and nothing else *)
Definition finds_roots (roots : list R -> list R) : Prop :=
  forall p, (exists a, In a p /\ a <> 0) -> forall x, In x (roots p) <-> value p x = 0.
(** v is the largest volume not above v0 at which the pressure is p *)
Definition largest_volume (v0 k kp p v : R) : Prop :=
  0 < v <= v0 /\ birch_murnaghan v0 k kp v = p /\ forall w, 0 < w <= v0 -> birch_murnaghan v0 k kp w = p -> w <= v.
