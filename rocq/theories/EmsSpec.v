(** Specification vocabulary for the choice, storage, cleaning and filtering of eta-omega maps. *)
From Coq Require Import Reals List QArith Permutation Sorted.
From Verif Require Import Prelude PlaneModel PlaneSpec.
Import ListNotations.
Local Close Scope Q_scope.
Local Open Scope R_scope.

(** [d] is the median of the numbers [l]: with them in order, the middle one or the mean of the two middle ones *)
Definition median_of (l : list R) (d : R) : Prop :=
  exists s, Permutation l s /\ StronglySorted Rle s /\ l <> [] /\
    d = (nth (Nat.div (List.length l - 1) 2) s 0 + nth (Nat.div (List.length l) 2) s 0) / 2.
(** the numbers, that is everything but the NaNs, of a list *)
Inductive numbers_of : list (option R) -> list R -> Prop :=
| no_nil : numbers_of [] []
| no_num : forall x l r, numbers_of l r -> numbers_of (Some x :: l) (x :: r)
| no_nan : forall l r, numbers_of l r -> numbers_of (None :: l) r.
(** a rectangular map with [n] columns, and its columns *)
Definition rectangular (n : nat) (m : list (list (option R))) : Prop := Forall (fun row => List.length row = n) m.
Definition the_column (j : nat) (m : list (list (option R))) (c : list (option R)) : Prop :=
  Forall2 (fun row x => nth_error row j = Some x) m c.

(** plane data whose reflections are numbered in the order in which they were given *)
Definition numbered {H} (s : pd (nat * H)) : Prop :=
  forall r x m, nth_error (data s) r = Some x -> nth_error (tsort s) r = Some m -> fst (snd x) = m.
