(** Vocabulary for tomography and rings *)
From Coq Require Import String Reals QArith List ZArith.
From Verif Require Import Prelude.
Import ListNotations.

(** the value at a row and a column *)
Definition at_ {A} (im : list (list A)) (r c : nat) : option A := match nth_error im r with Some row => nth_error row c | None => None end.
(** [out] is the piece of [l] of [w] values from [o] on *)
Definition piece {A} (l out : list A) (o w : Z) : Prop :=
  (0 <= o /\ 0 <= w /\ o + w <= Z.of_nat (length l))%Z /\ length out = Z.to_nat w /\ forall k, (Z.of_nat k < w)%Z -> nth_error out k = nth_error l (Z.to_nat o + k).
(** labels of the objects of a binary image, from 1 to [n]; the background has 0 *)
Definition labels_objects (b : list bool) (labels : list nat) (n : nat) : Prop :=
  length labels = length b /\ forall i l, nth_error labels i = Some l -> (l <= n)%nat /\ (l = 0%nat <-> nth_error b i = Some false).
(** the number of pixels of an object *)
Definition pixels (labels : list nat) (k : nat) : nat := count_occ Nat.eq_dec labels k.
(** pixels of objects with small size get [v], but for the object of the last label; all others stay *)
Definition small_changed (labels : list nat) (n : nat) (small : nat -> Prop) (v : bool) (b out : list bool) : Prop :=
  length out = length b /\ forall i k p, nth_error labels i = Some k -> nth_error b i = Some p ->
    ((1 <= k < n)%nat -> small (pixels labels k) -> nth_error out i = Some v) /\
    (~ ((1 <= k < n)%nat /\ small (pixels labels k)) -> nth_error out i = Some p).
