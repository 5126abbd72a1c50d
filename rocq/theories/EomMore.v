(** The edges of the eta bins, and the sum over a row of the map. *)
From Coq Require Import Reals List ZArith Lra Lia Bool.
From Verif Require Import Prelude Lin TensorModel RotModel RotProofs2 TasksModel FibModel FibProofs EomModel EomSpec EomProofs.
Import ListNotations.
Local Open Scope R_scope.
Local Notation length := List.length.

Lemma edge_lemma lo x : 0 <= x <= 2 * PI -> mapAngle (x + lo) (Some (lo, lo + 2 * PI)) ARad = Ok (lo + x).
Proof.
  intros Hx. replace (lo + x) with (x + lo) by ring. apply (map_same _ _ _ _ (2 * PI)); [reflexivity|ring|lra].
Qed.

Lemma py_int_pos x : 0 <= x -> exists n, py_int x = Z.of_nat n /\ INR n <= x < INR n + 1.
Proof.
  intros Hx. unfold py_int. destruct (Rle_dec 0 x); [|lra]. destruct (base_Int_part x) as [H1 H2].
  assert (H0 : (0 <= Int_part x)%Z). { assert ((-1 < Int_part x)%Z); [|lia]. apply lt_IZR. cbn. lra. }
  exists (Z.to_nat (Int_part x)). rewrite Z2Nat.id by auto. split; auto.
  rewrite INR_IZR_INZ, Z2Nat.id by auto. lra.
Qed.

Lemma edges_lemma delta lo : 0 < delta ->
  exists n, INR n * delta <= 360 < (INR n + 1) * delta /\
    eta_edges delta (lo, lo + 2 * PI) = Ok (map (fun k => lo + delta * INR k * (PI / 180)) (seq 0 (S n))).
Proof.
  intros Hd. pose proof PI_RGT_0 as Hp. destruct (py_int_pos (360 / delta)) as (n & En & H1 & H2).
  { apply Rmult_le_pos; [lra|]. left. apply Rinv_0_lt_compat. lra. }
  assert (K : 360 = 360 / delta * delta) by (field; lra).
  assert (L1 : INR n * delta <= 360) by (rewrite K; apply Rmult_le_compat_r; lra).
  assert (L2 : 360 < (INR n + 1) * delta) by (rewrite K at 1; apply Rmult_lt_compat_r; lra).
  exists n. split; [lra|]. unfold eta_edges. destruct (Req_EM_T delta 0); [lra|]. rewrite En.
  replace (Z.ltb (Z.of_nat n + 1) 0) with false by (symmetry; apply Z.ltb_ge; lia).
  replace (Z.to_nat (Z.of_nat n + 1)) with (S n) by lia.
  apply map_res_all. intros k Hk. apply in_seq in Hk. cbn [fst]. apply edge_lemma.
  assert (Hk0 : 0 <= INR k) by apply pos_INR. assert (Hkn : INR k <= INR n) by (apply le_INR; lia).
  assert (L3 : delta * INR k <= 360) by nra.
  assert (L0 : 0 <= delta * INR k) by nra.
  split; [apply Rmult_le_pos; lra|]. replace (2 * PI) with (360 * (PI / 180)) by field. apply Rmult_le_compat_r; lra.
Qed.

(** ** every angle between the first and the last edge is in exactly one bin *)
Lemma increasing_nth l : (forall k, (S k < length l)%nat -> nth k l 0 < nth (S k) l 0) -> increasing l.
Proof.
  induction l as [|a t IH]; intros H; [exact I|]. destruct t as [|b t]; [exact I|]. split.
  - apply (H 0%nat). cbn. lia.
  - apply IH. intros k Hk. apply (H (S k)). cbn [length] in *. lia.
Qed.
Lemma nth_increasing l : increasing l -> forall k, (S k < length l)%nat -> nth k l 0 < nth (S k) l 0.
Proof.
  induction l as [|a t IH]; intros H k Hk; [cbn in Hk; lia|]. destruct t as [|b t]; [cbn in Hk; lia|]. destruct H as [H1 H2].
  destruct k as [|k]; [exact H1|]. apply (IH H2 k). cbn [length] in *. lia.
Qed.
Lemma increasing_lt l : increasing l -> forall j k, (j < k < length l)%nat -> nth j l 0 < nth k l 0.
Proof.
  intros H j k. induction k as [|k IH]; intros Hk; [lia|]. pose proof (nth_increasing l H k ltac:(lia)).
  destruct (Nat.eq_dec j k) as [->|]; auto. specialize (IH ltac:(lia)). lra.
Qed.
Lemma bin_unique edges b b' eta : increasing edges -> in_bin edges b eta -> in_bin edges b' eta -> b = b'.
Proof.
  intros Hi (H1 & H2 & H3) (K1 & K2 & K3).
  destruct (Nat.lt_trichotomy b b') as [L|[L|L]]; auto; exfalso.
  - assert (Q : nth (S b) edges 0 <= nth b' edges 0).
    { destruct (Nat.eq_dec (S b) b') as [->|]; [lra|]. left. apply increasing_lt; auto. lia. }
    destruct H3 as [H3|[H3 _]]; [lra|lia].
  - assert (Q : nth (S b') edges 0 <= nth b edges 0).
    { destruct (Nat.eq_dec (S b') b) as [->|]; [lra|]. left. apply increasing_lt; auto. lia. }
    destruct K3 as [K3|[K3 _]]; [lra|lia].
Qed.
Lemma bin_exists edges eta : (2 <= length edges)%nat -> nth 0 edges 0 <= eta <= nth (length edges - 1) edges 0 ->
  exists b, in_bin edges b eta.
Proof.
  intros HL [H1 H2].
  assert (K : forall n, (S n < length edges)%nat -> eta < nth (S n) edges 0 -> exists b, in_bin edges b eta).
  { induction n as [|n IH]; intros Hn Hlt; [exists 0%nat; split; auto|].
    destruct (Rlt_dec eta (nth (S n) edges 0)) as [L|L]; [apply IH; auto; lia|]. exists (S n). split; auto. split; [lra|auto]. }
  destruct (Rlt_dec eta (nth (length edges - 1) edges 0)) as [L|L].
  - apply (K (length edges - 2)%nat); [lia|]. replace (S (length edges - 2)) with (length edges - 1)%nat by lia. auto.
  - destruct (Rle_dec (nth (length edges - 2) edges 0) eta) as [M|M].
    + exists (length edges - 2)%nat. replace (S (length edges - 2)) with (length edges - 1)%nat by lia.
      split; [lia|]. split; [auto|]. right. split; [lia|replace (S (length edges - 2)) with (length edges - 1)%nat by lia; apply Rle_antisym; [auto|apply Rnot_lt_le; auto]].
    + destruct (Nat.eq_dec (length edges) 2) as [E2|E2]; [rewrite E2 in *; cbn in *; lra|].
      apply (K (length edges - 3)%nat); [lia|]. replace (S (length edges - 3)) with (length edges - 2)%nat by lia. lra.
Qed.

(** ** the sum over a row *)
Lemma total_zero {A} (f : A -> R) l : (forall a, In a l -> f a = 0) -> total (map f l) = 0.
Proof.
  induction l as [|a t IH]; intros H; [reflexivity|]. unfold total in *. cbn [map fold_right].
  rewrite (H a) by (left; auto). rewrite IH by (intros; apply H; right; auto). ring.
Qed.
Lemma total_plus {A} (f g : A -> R) l : total (map (fun a => f a + g a) l) = total (map f l) + total (map g l).
Proof. unfold total. induction l as [|a t IH]; cbn [map fold_right]; [ring|]. rewrite IH. ring. Qed.
Lemma total_one (b : nat) (x : R) l : NoDup l -> In b l -> total (map (fun k => if Nat.eqb k b then x else 0) l) = x.
Proof.
  intros Hn Hb. induction Hn as [|a t Ha Ht IH]; [destruct Hb|]. unfold total in *. cbn [map fold_right].
  destruct (Nat.eqb_spec a b) as [->|E].
  - assert (K : total (map (fun k => if Nat.eqb k b then x else 0) t) = 0); [|unfold total in K; rewrite K; ring].
    apply total_zero. intros k Hk. destruct (Nat.eqb_spec k b) as [->|]; [contradiction|reflexivity].
  - destruct Hb as [Hb|Hb]; [congruence|]. rewrite IH by auto. ring.
Qed.
Lemma total_bins (P : nat -> nat -> bool) (f : nat -> R) bins ids : NoDup bins ->
  (forall i, In i ids -> exists b, In b bins /\ forall b', In b' bins -> (P b' i = true <-> b' = b)) ->
  total (map (fun b => total (map f (filter (P b) ids))) bins) = total (map f ids).
Proof.
  intros Hn. induction ids as [|i t IH]; intros H; [apply total_zero; reflexivity|].
  rewrite (map_ext _ (fun b => (if P b i then f i else 0) + total (map f (filter (P b) t)))).
  2:{ intros b. cbn [filter]. destruct (P b i); unfold total; cbn [map fold_right]; ring. }
  rewrite total_plus, IH by (intros; apply H; right; auto). unfold total at 3. cbn [map fold_right]. fold (total (map f t)). f_equal.
  destruct (H i (or_introl eq_refl)) as (b & Hb & HP).
  rewrite (map_ext_in _ (fun k => if Nat.eqb k b then f i else 0)); [apply total_one; auto|].
  intros k Hk. specialize (HP k Hk). destruct (Nat.eqb_spec k b) as [->|E].
  - rewrite (proj2 HP eq_refl). reflexivity.
  - destruct (P k i); [elim E; apply HP; reflexivity|reflexivity].
Qed.
Definition value (c : cell) : R := match c with Some x => x | None => 0 end.
Lemma row_lemma edges tthr threshold v f : increasing edges -> (2 <= length edges)%nat ->
  (forall p, In p (v_pix v) -> nth 0 edges 0 <= snd p <= nth (length edges - 1) edges 0) ->
  total (map (fun b => value (the_cell edges tthr threshold v f b)) (seq 0 (length edges - 1)))
  = total (map (fun i => level threshold (intensity v f i)) (ring_ids tthr (v_pix v))).
Proof.
  intros Hi HL Hp.
  rewrite (map_ext _ (fun b => total (map (fun i => level threshold (intensity v f i)) (cell_ids edges tthr v b)))).
  2:{ intros b. rewrite the_cell_val. unfold cell_sum. destruct (Nat.eqb_spec (length (cell_ids edges tthr v b)) 0) as [E|E]; [|reflexivity].
      apply length_zero_iff_nil in E. rewrite E. reflexivity. }
  unfold cell_ids. apply total_bins; [apply seq_NoDup|]. intros i Hin.
  destruct (bin_exists edges (eta_of v i) HL) as (b & Hb).
  { unfold eta_of. apply Hp. apply nth_In. eapply ring_ids_lt; eauto. }
  exists b. split; [apply in_seq; destruct Hb; lia|]. intros b' Hb'. apply in_seq in Hb'. rewrite binb_iff by lia.
  split; [|intros ->; auto]. intros K. eapply bin_unique; eauto.
Qed.
