(** Specification vocabulary for the convolution and the SNIP background.  A [cell] is a number ([Some]) or a NaN ([None]). *)
From Coq Require Import Reals List ZArith.
From Verif Require Import Prelude EomModel SnpModel.
Import ListNotations.
Local Open Scope R_scope.
Local Notation length := List.length.

Definition at_index (a : list cell) (j : Z) : cell := nth (Z.to_nat j) a None.
(** the value of the array at any integer position: beyond its ends the fill value, the nearest value, or the array repeated *)
Definition extended (b : boundary) (fill : R) (a : list cell) (j : Z) : cell :=
  let n := Z.of_nat (length a) in
  if ((0 <=? j) && (j <? n))%Z then at_index a j
  else match b with
       | BFill => Some fill
       | BExtend => if (j <? 0)%Z then at_index a 0 else at_index a (n - 1)
       | BWrap => at_index a (j mod n)
       | BNone => None
       end.
Fixpoint sum_to (n : nat) (g : nat -> R) : R := match n with O => 0 | S k => sum_to k g + g k end.
(** the sum of the values of [f] under the reversed kernel, and the part of the kernel over numbers *)
Definition weighted (f : Z -> cell) (ker : list R) (i : nat) : R :=
  let nk := length ker in
  sum_to nk (fun k => match f (Z.of_nat (i + k) - Z.of_nat (Nat.div nk 2))%Z with Some x => x * nth (nk - 1 - k) ker 0 | None => 0 end).
Definition weight (f : Z -> cell) (ker : list R) (i : nat) : R :=
  let nk := length ker in
  sum_to nk (fun k => match f (Z.of_nat (i + k) - Z.of_nat (Nat.div nk 2))%Z with Some _ => nth (nk - 1 - k) ker 0 | None => 0 end).
Definition kernel_sum (ker : list R) : R := sum_to (length ker) (fun k => nth k ker 0).
Definition no_nan (a : list cell) : Prop := forall c, In c a -> c <> None.

(** the array as the convolution sees it: hidden values are NaNs, and NaNs may be filled *)
Definition seen (o : options) (a : list cell) (i : nat) : cell :=
  match o_mask o with
  | Some m => if nth i m false then None else nth i a None
  | None => nth i a None
  end.
Definition used (o : options) (a : list cell) (i : nat) : cell :=
  match seen o a i with
  | None => if o_nan_fill o then Some (o_fill o) else None
  | Some x => Some x
  end.
Definition has_gap (o : options) (a : list cell) : Prop := exists i, (i < length a)%nat /\ used o a i = None.
Definition field (o : options) (a : list cell) : Z -> cell := extended (o_boundary o) (o_fill o) (map (used o a) (seq 0 (length a))).
Definition mask_fits (o : options) (a : list cell) : Prop := match o_mask o with Some m => length m = length a | None => True end.
Definition kernel_fits (o : options) (ker : list R) (a : list cell) : Prop :=
  Nat.odd (length ker) = true /\ (o_boundary o = BNone -> (length ker <= length a)%nat) /\
  (o_normalize o = true \/ has_gap o a -> 1 / 100 <= kernel_sum ker).
(** without a border, the places where the kernel lies within the array *)
Definition inside (o : options) (ker : list R) (a : list cell) (i : nat) : Prop :=
  o_boundary o = BNone -> (Nat.div (length ker) 2 <= i /\ i + Nat.div (length ker) 2 < length a)%nat.
(** the value at [i]:the weighted sum, or over gaps the weighted mean of the numbers under the kernel *)
Definition convolved (o : options) (ker : list R) (a : list cell) (i : nat) (c : cell) : Prop :=
  let g := field o a in
  (~ has_gap o a -> o_normalize o = true -> c = Some (weighted g ker i / kernel_sum ker)) /\
  (~ has_gap o a -> o_normalize o = false -> c = Some (weighted g ker i)) /\
  (has_gap o a -> weight g ker i <> 0 -> o_normalize o = true -> c = Some (weighted g ker i / weight g ker i)) /\
  (has_gap o a -> weight g ker i <> 0 -> o_normalize o = false -> c = Some (weighted g ker i / weight g ker i * kernel_sum ker)) /\
  (has_gap o a -> weight g ker i = 0 -> o_normalize o = true -> c = used o a i) /\
  (has_gap o a -> weight g ker i = 0 -> o_normalize o = false -> c = match used o a i with Some x => Some (x * kernel_sum ker) | None => None end).

(** ** the background in the scaled space *)
(** a row without its hidden values *)
Definition visible (mask : list bool) (z : list cell) : list cell :=
  map (fun i => if nth i mask false then None else nth i z None) (seq 0 (length z)).
(** the mean of the numbers among the neighbours at distance [p] (the nearest value beyond the ends), or the value itself *)
Definition neighbour (z : list cell) (j : Z) : cell := extended BExtend 0 z j.
Definition clipped (z : list cell) (p i : nat) (c : R) : R :=
  match neighbour z (Z.of_nat i - Z.of_nat p), neighbour z (Z.of_nat i + Z.of_nat p) with
  | Some x, Some y => (x + y) / 2
  | Some x, None => x
  | None, Some y => y
  | None, None => c
  end.
(** one pass: each number becomes the lowest of itself and of the means of its neighbours at distances 1 to [w] *)
Definition lowest (v : R) (l : list R) : Prop := In v l /\ forall x, In x l -> v <= x.
Definition one_pass (mask : list bool) (w : nat) (z z' : list cell) : Prop :=
  length z' = length z /\
  forall i, (i < length z)%nat ->
    match nth i (visible mask z) None with
    | None => nth i z' None = None
    | Some x => exists v, nth i z' None = Some v /\ lowest v (x :: map (fun p => clipped (visible mask z) p i x) (seq 1 w))
    end.
Inductive passes (mask : list bool) (w : nat) : nat -> list cell -> list cell -> Prop :=
| passes_none z : passes mask w 0 z z
| passes_more k z z' r : one_pass mask w z z' -> passes mask w k z' r -> passes mask w (S k) z r.

(** ** the image *)
Definition pixel (y : list (list cell)) (k i : nat) : cell := nth i (nth k y []) None.
Definition rectangle (y : list (list cell)) (n : nat) : Prop := forall row, In row y -> length row = n.
(** a pixel that is a NaN or not above the threshold is hidden *)
Definition hidden (threshold : option R) (c : cell) : Prop :=
  match c with None => True | Some x => match threshold with Some t => x <= t | None => False end end.
Definition lower_bound (m : R) (y : list (list cell)) : Prop := forall row x, In row y -> In (Some x) row -> m <= x.
