(** Vocabulary for preprocessed images *)
From Coq Require Import String Ascii QArith List.
From Verif Require Import Prelude.
Import ListNotations.
Local Open Scope Q_scope.

(** a cache of [num] frames: frame k is what [f] makes of raw frame start + k, at the k-th of [num] equal steps from [a] to [b] *)
Definition shows {A} (f : A -> A) (raw : list A) (start num : nat) (a b : Q) (frames : list A) (omega : list (Q * Q)) : Prop :=
  List.length frames = num /\ List.length omega = num /\
  forall k, (k < num)%nat -> exists x lo hi, nth_error raw (start + k) = Some x /\ nth_error frames k = Some (f x) /\ nth_error omega k = Some (lo, hi) /\
    lo == a + inject_Z (Z.of_nat k) * ((b - a) / inject_Z (Z.of_nat num)) /\ hi == a + inject_Z (Z.of_nat (S k)) * ((b - a) / inject_Z (Z.of_nat num)).
(** the character does not occur in the text *)
Fixpoint lacks (c : ascii) (s : string) : Prop := match s with EmptyString => True | String d r => d <> c /\ lacks c r end.
