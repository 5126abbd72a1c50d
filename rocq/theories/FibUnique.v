(** Lemmas about uniqueVectors. *)
From Coq Require Import Reals List ZArith Lra Lia Psatz Permutation Sorted.
From Verif Require Import Prelude FibModel.
Import ListNotations.
Local Open Scope R_scope.
Local Notation length := List.length.

(** ** sorting *)
Section Sort.
Context {A : Type} (le : A -> A -> bool).
Lemma insert_perm : forall x l, Permutation (insert_by le x l) (x :: l).
Proof.
  intros x l; induction l as [|y r IH]; cbn [insert_by]; [apply Permutation_refl|]. destruct (le x y); [apply Permutation_refl|].
  apply perm_trans with (y :: x :: r); [now constructor|constructor].
Qed.
Lemma sort_perm : forall l, Permutation (sort_by le l) l.
Proof. induction l as [|x r IH]; [constructor|]. cbn [sort_by fold_right]. etransitivity; [apply insert_perm|]. now constructor. Qed.
Variable P : A -> Prop.
Hypothesis total : forall a b, le a b = true \/ le b a = true.
Hypothesis trans : forall a b c, P a -> P b -> P c -> le a b = true -> le b c = true -> le a c = true.
Lemma insert_sorted : forall x l, P x -> Forall P l -> StronglySorted (fun a b => le a b = true) l -> StronglySorted (fun a b => le a b = true) (insert_by le x l).
Proof.
  intros x l PX; induction l as [|y r IH]; intros F H; cbn [insert_by]; [repeat constructor|]. inversion H as [|? ? H1 H2]; inversion F as [|? ? F1 F2]; subst.
  destruct (le x y) eqn:E.
  - constructor; [assumption|]. constructor; [assumption|]. rewrite Forall_forall in *. intros z Z. apply (trans x y z); auto.
  - constructor; [auto|]. rewrite Forall_forall in *. intros z Z. apply (Permutation_in _ (insert_perm x r)) in Z. destruct Z as [<-|Z]; [|auto].
    destruct (total x y); congruence.
Qed.
Lemma sort_sorted : forall l, Forall P l -> StronglySorted (fun a b => le a b = true) (sort_by le l).
Proof.
  induction l as [|x r IH]; intros F; [constructor|]. inversion F; subst. cbn [sort_by fold_right]. apply insert_sorted; auto.
  rewrite Forall_forall in *. intros y Y. apply (Permutation_in _ (sort_perm r)) in Y. auto.
Qed.
End Sort.
Lemma sorted_nth : forall {A} (T : A -> A -> Prop) l d i j, StronglySorted T l -> (i < j < length l)%nat -> T (nth i l d) (nth j l d).
Proof.
  intros A T l d; induction l as [|x r IH]; intros i j H L; cbn [length] in L; [lia|]. inversion H as [|? ? H1 H2]; subst. destruct j as [|j]; [lia|].
  destruct i as [|i]; cbn [nth].
  - rewrite Forall_forall in H2. apply H2, nth_In. lia.
  - apply IH; [assumption|lia].
Qed.

(** ** numbering of a row *)
Lemma index_of_ok : forall i l, In i l -> (index_of i l < length l)%nat /\ nth (index_of i l) l 0%nat = i.
Proof.
  intros i l; induction l as [|x r IH]; intros H; [destruct H|]. cbn [index_of length]. destruct (Nat.eqb x i) eqn:E; cbn [nth].
  - apply Nat.eqb_eq in E. split; [lia|assumption].
  - destruct H as [->|H]; [rewrite Nat.eqb_refl in E; discriminate|]. destruct (IH H). cbn [Nat.add nth]. split; [lia|assumption].
Qed.
Lemma cumsum_length : forall tol srt p n, length (cumsum_gaps tol p n srt) = length srt.
Proof. intros tol; induction srt as [|x r IH]; intros p n; cbn [cumsum_gaps length]; [reflexivity|]. cbv zeta. cbn [length]. now rewrite IH. Qed.
Lemma rowints_length : forall tol srt, length (rowints tol srt) = length srt.
Proof. intros tol [|x r]; cbn [rowints length]; [reflexivity|]. now rewrite cumsum_length. Qed.
Lemma cumsum_step : forall tol srt p n i, (i < length srt)%nat ->
  nth (S i) (n :: cumsum_gaps tol p n srt) 0%nat =
  if Rlt_dec tol (Rabs (nth (S i) (p :: srt) 0 - nth i (p :: srt) 0)) then (nth i (n :: cumsum_gaps tol p n srt) 0 + 1)%nat else nth i (n :: cumsum_gaps tol p n srt) 0%nat.
Proof.
  intros tol; induction srt as [|x r IH]; intros p n i L; cbn [length] in L; [lia|]. destruct i as [|i].
  - reflexivity.
  - cbn [cumsum_gaps]. set (n' := if Rlt_dec tol (Rabs (x - p)) then (n + 1)%nat else n). cbv zeta.
    change (nth (S (S i)) (n :: n' :: cumsum_gaps tol x n' r) 0%nat) with (nth (S i) (n' :: cumsum_gaps tol x n' r) 0%nat).
    change (nth (S i) (n :: n' :: cumsum_gaps tol x n' r) 0%nat) with (nth i (n' :: cumsum_gaps tol x n' r) 0%nat).
    change (nth (S (S i)) (p :: x :: r) 0) with (nth (S i) (x :: r) 0). change (nth (S i) (p :: x :: r) 0) with (nth i (x :: r) 0). apply IH. lia.
Qed.
Section Rank.
Variables (tol : R) (srt : list R).
Hypothesis SS : StronglySorted Rle srt.
Let L := rowints tol srt.
Lemma rank_step : forall i, (S i < length srt)%nat ->
  (nth (S i) L 0%nat = nth i L 0%nat /\ nth (S i) srt 0 - nth i srt 0 <= tol) \/ (nth (S i) L 0%nat = (nth i L 0 + 1)%nat /\ tol < nth (S i) srt 0 - nth i srt 0).
Proof.
  intros i H. unfold L. pose proof (sorted_nth Rle srt 0 i (S i) SS ltac:(lia)) as LE. destruct srt as [|x r]; cbn [length] in H; [lia|]. cbn [rowints].
  rewrite (cumsum_step tol r x 1 i) by lia. rewrite Rabs_right by lra. destruct (Rlt_dec _ _); [right|left]; (split; [reflexivity|lra]).
Qed.
Lemma rank_between : forall a k, (a + k < length srt)%nat ->
  (nth a L 0 <= nth (a + k) L 0)%nat /\ (nth a L 0%nat = nth (a + k) L 0%nat -> nth (a + k) srt 0 - nth a srt 0 <= INR k * tol) /\
  ((nth a L 0 < nth (a + k) L 0)%nat -> tol < nth (a + k) srt 0 - nth a srt 0).
Proof.
  intros a; induction k as [|k IH]; intros H.
  - rewrite Nat.add_0_r. split; [lia|]. split; [intros _; simpl; lra|lia].
  - destruct (IH ltac:(lia)) as (I1 & I2 & I3). rewrite Nat.add_succ_r in *. rewrite S_INR.
    pose proof (sorted_nth Rle srt 0 (a + k) (S (a + k)) SS ltac:(lia)) as LE.
    assert (LA : nth a srt 0 <= nth (a + k) srt 0). { destruct k as [|k']; [rewrite Nat.add_0_r; lra|]. apply (sorted_nth Rle srt 0 a _ SS). lia. }
    destruct (rank_step (a + k) ltac:(lia)) as [[E D]|[E D]]; rewrite E.
    + split; [lia|]. split; [intros Q; specialize (I2 Q); lra|]. intros Q. specialize (I3 Q). lra.
    + split; [lia|]. split; [lia|]. intros _. lra.
Qed.
End Rank.

Lemma argsort_perm : forall row, Permutation (argsort row) (seq 0 (length row)).
Proof. intros row. apply sort_perm. Qed.
Lemma rle_iff : forall a b, rle a b = true <-> a <= b.
Proof. intros a b. unfold rle. destruct (Rle_dec a b); split; (tauto || discriminate). Qed.
Lemma argsort_sorted : forall row, StronglySorted Rle (map (fun i => nth i row 0) (argsort row)).
Proof.
  intros row. assert (H : StronglySorted (fun a b => rle (nth a row 0) (nth b row 0) = true) (argsort row)).
  { apply (sort_sorted _ (fun _ => True)).
    - intros a b. rewrite !rle_iff. lra.
    - intros a b c _ _ _. rewrite !rle_iff. lra.
    - apply Forall_forall. trivial. }
  induction H as [|x r H IH F]; [constructor|]. cbn [map]. constructor; [assumption|]. rewrite Forall_forall in *. intros y Y. apply in_map_iff in Y. destruct Y as (j & <- & J).
  apply rle_iff. now apply F.
Qed.
Lemma iv_row_length : forall tol row, length (iv_row tol row) = length row.
Proof. intros tol row. unfold iv_row. now rewrite map_length, seq_length. Qed.
(** equal numbers: the values are close; a smaller number: the value is smaller by more than the tolerance *)
Lemma iv_row_facts : forall tol row i j, 0 <= tol -> (i < length row)%nat -> (j < length row)%nat ->
  let n := fun k => nth k (iv_row tol row) 0%nat in
  (n i = n j -> Rabs (nth i row 0 - nth j row 0) <= (INR (length row) - 1) * tol) /\ ((n i < n j)%nat -> nth i row 0 + tol < nth j row 0).
Proof.
  intros tol row i j T HI HJ. cbv zeta. unfold iv_row.
  set (ord := argsort row). set (srt := map (fun k => nth k row 0) ord). set (g := fun k => nth (index_of k ord) (rowints tol srt) 0%nat).
  assert (G : forall k, (k < length row)%nat -> nth k (map g (seq 0 (length row))) 0%nat = g k).
  { intros k K. rewrite (nth_indep _ 0%nat (g 0%nat)) by now rewrite map_length, seq_length. rewrite map_nth, seq_nth by assumption. reflexivity. }
  rewrite !G by assumption. unfold g. clear G.
  assert (PO : forall k, (k < length row)%nat -> (index_of k ord < length srt)%nat /\ nth (index_of k ord) srt 0 = nth k row 0).
  { intros k K. assert (I : In k ord). { apply (Permutation_in _ (Permutation_sym (argsort_perm row))). apply in_seq. lia. }
    destruct (index_of_ok k ord I) as [A B]. unfold srt. rewrite map_length. split; [assumption|].
    rewrite (nth_indep _ 0 (nth 0%nat row 0)) by now rewrite map_length. rewrite (map_nth (fun k => nth k row 0)). now rewrite B. }
  destruct (PO i HI) as [A1 A2]. destruct (PO j HJ) as [B1 B2]. set (p := index_of i ord) in *. set (q := index_of j ord) in *. rewrite <- A2, <- B2.
  pose proof (argsort_sorted row) as SS. fold ord in SS. fold srt in SS.
  assert (LN : length srt = length row). { unfold srt, ord. rewrite map_length. rewrite (Permutation_length (argsort_perm row)). now rewrite seq_length. }
  assert (B : forall a b, (a <= b)%nat -> (b < length srt)%nat -> (nth a (rowints tol srt) 0 <= nth b (rowints tol srt) 0)%nat /\
     (nth a (rowints tol srt) 0%nat = nth b (rowints tol srt) 0%nat -> 0 <= nth b srt 0 - nth a srt 0 <= (INR (length row) - 1) * tol) /\
     ((nth a (rowints tol srt) 0 < nth b (rowints tol srt) 0)%nat -> tol < nth b srt 0 - nth a srt 0)).
  { intros a b AB BL. destruct (rank_between tol srt SS a (b - a) ltac:(lia)) as (I1 & I2 & I3). replace (a + (b - a))%nat with b in * by lia.
    split; [assumption|]. split; [|assumption]. intros E. specialize (I2 E). split.
    - destruct (Nat.eq_dec a b) as [->|NE]; [lra|]. pose proof (sorted_nth Rle srt 0 a b SS ltac:(lia)). lra.
    - apply Rle_trans with (1 := I2). apply Rmult_le_compat_r; [assumption|]. rewrite minus_INR by lia. pose proof (pos_INR a). assert (INR b + 1 <= INR (length row)); [|lra].
      rewrite <- S_INR. apply le_INR. lia. }
  split.
  - intros E. destruct (le_ge_dec p q) as [PQ|PQ].
    + destruct (B p q PQ B1) as (_ & I2 & _). specialize (I2 E). rewrite Rabs_left1; lra.
    + destruct (B q p PQ A1) as (_ & I2 & _). specialize (I2 (eq_sym E)). rewrite Rabs_right; lra.
  - intros E. destruct (le_ge_dec p q) as [PQ|PQ].
    + destruct (B p q PQ B1) as (_ & _ & I3). specialize (I3 E). lra.
    + destruct (B q p PQ A1) as (I1 & _). lia.
Qed.

(** ** lexicographic order *)
Lemma lex_refl : forall a, lex_le a a = true.
Proof. induction a as [|x a IH]; [reflexivity|]. cbn [lex_le]. now rewrite Nat.eqb_refl. Qed.
Lemma lex_total : forall a b, lex_le a b = true \/ lex_le b a = true.
Proof.
  induction a as [|x a IH]; intros [|y b]; auto. cbn [lex_le]. rewrite (Nat.eqb_sym y x). destruct (Nat.eqb x y) eqn:E; [apply IH|].
  apply Nat.eqb_neq in E. rewrite !Nat.leb_le. lia.
Qed.
Lemma lex_trans : forall a b c, length a = length b -> length b = length c -> lex_le a b = true -> lex_le b c = true -> lex_le a c = true.
Proof.
  induction a as [|x a IH]; intros [|y b] [|z c] L1 L2 H1 H2; try reflexivity; try discriminate. cbn [lex_le length] in *.
  destruct (Nat.eqb x y) eqn:E1.
  - apply Nat.eqb_eq in E1. subst y. destruct (Nat.eqb x z); [|assumption]. apply (IH b c); auto.
  - destruct (Nat.eqb y z) eqn:E2.
    + apply Nat.eqb_eq in E2. subst z. rewrite E1. assumption.
    + apply Nat.eqb_neq in E1, E2. apply Nat.leb_le in H1, H2. destruct (Nat.eqb x z) eqn:E3; [apply Nat.eqb_eq in E3; lia|]. apply Nat.leb_le. lia.
Qed.
Lemma lex_antisym : forall a b, length a = length b -> lex_le a b = true -> lex_le b a = true -> a = b.
Proof.
  induction a as [|x a IH]; intros [|y b] L H1 H2; try reflexivity; try discriminate. cbn [lex_le length] in *. rewrite (Nat.eqb_sym y x) in H2.
  destruct (Nat.eqb x y) eqn:E.
  - apply Nat.eqb_eq in E. subst y. f_equal. apply IH; auto.
  - apply Nat.eqb_neq in E. apply Nat.leb_le in H1, H2. lia.
Qed.
(** strictly before: some entry is smaller and all entries before it are equal *)
Lemma lex_strict : forall a b, length a = length b -> lex_le a b = true -> a <> b ->
  exists k, (k < length a)%nat /\ (nth k a 0 < nth k b 0)%nat /\ forall j, (j < k)%nat -> nth j a 0%nat = nth j b 0%nat.
Proof.
  induction a as [|x a IH]; intros [|y b] L H N; try discriminate; [congruence|]. cbn [lex_le length] in *. destruct (Nat.eqb x y) eqn:E.
  - apply Nat.eqb_eq in E. subst y. destruct (IH b) as (k & K1 & K2 & K3); [lia|assumption|congruence|]. exists (S k). cbn [nth]. split; [lia|]. split; [assumption|].
    intros [|j] J; [reflexivity|]. cbn [nth]. apply K3. lia.
  - apply Nat.eqb_neq in E. apply Nat.leb_le in H. exists 0%nat. cbn [nth]. split; [lia|]. split; [lia|]. lia.
Qed.
Lemma key_eqb_iff : forall a b, key_eqb a b = true <-> a = b.
Proof.
  induction a as [|x a IH]; intros [|y b]; cbn [key_eqb]; try (split; congruence). rewrite andb_true_iff, Nat.eqb_eq, IH. split; [intros [-> ->]; reflexivity|]. intros E. injection E. auto.
Qed.

(** ** one column of each run *)
Section Pick.
Variables (iv : list (list nat)).
Definition before (a b : nat) : Prop := lex_le (rev (key iv a)) (rev (key iv b)) = true.
Lemma key_length : forall c, length (key iv c) = length iv.
Proof. intros c. unfold key. apply map_length. Qed.
Lemma rk_length : forall a b, length (rev (key iv a)) = length (rev (key iv b)).
Proof. intros. now rewrite !rev_length, !key_length. Qed.
Lemma before_trans : forall a b c, before a b -> before b c -> before a c.
Proof. intros a b c. unfold before. apply lex_trans; apply rk_length. Qed.
Lemma before_antisym : forall a b, before a b -> before b a -> key iv a = key iv b.
Proof.
  intros a b H1 H2. assert (E : rev (key iv a) = rev (key iv b)) by (apply lex_antisym; [apply rk_length|assumption|assumption]).
  rewrite <- (rev_involutive (key iv a)), E. apply rev_involutive.
Qed.
Lemma pick_sub : forall l prev c, In c (pick iv prev l) -> In c l.
Proof.
  induction l as [|x r IH]; intros prev c H; cbn [pick] in H; [destruct H|]. apply in_app_or in H. destruct H as [H|H]; [|right; eapply IH; eassumption].
  destruct (key_eqb _ _); [destruct H|]. destruct H as [->|[]]. now left.
Qed.
Lemma pick_cover : forall l prev c, In c l -> exists k, In k (prev :: pick iv prev l) /\ key iv k = key iv c.
Proof.
  induction l as [|x r IH]; intros prev c H; [destruct H|]. cbn [pick]. destruct (key_eqb (key iv x) (key iv prev)) eqn:E.
  - apply key_eqb_iff in E. cbn [app]. destruct H as [->|H]; [exists prev; split; [now left|congruence]|]. destruct (IH x c H) as (k & [<-|K] & Q).
    + exists prev. split; [now left|congruence].
    + exists k. split; [now right|assumption].
  - cbn [app]. destruct H as [->|H]; [exists c; split; [right; now left|reflexivity]|]. destruct (IH x c H) as (k & K & Q). exists k. split; [now right|assumption].
Qed.
Lemma pick_strict : forall l prev, StronglySorted before (prev :: l) ->
  StronglySorted (fun a b => before a b /\ key iv a <> key iv b) (prev :: pick iv prev l).
Proof.
  induction l as [|x r IH]; intros prev H; cbn [pick]; [repeat constructor|]. inversion H as [|? ? H1 H2]; subst. inversion H1 as [|? ? H3 H4]; subst.
  inversion H2 as [|? ? H5 H6]; subst. pose proof (IH x H1) as K. inversion K as [|? ? K1 K2]; subst.
  destruct (key_eqb (key iv x) (key iv prev)) eqn:E; cbn [app].
  - apply key_eqb_iff in E. constructor; [assumption|]. rewrite Forall_forall in *. intros e EI. destruct (K2 e EI) as [B N]. split; [|congruence].
    unfold before in *. now rewrite <- E.
  - assert (NE : key iv x <> key iv prev) by (intros Q; apply key_eqb_iff in Q; congruence). constructor; [assumption|]. constructor; [split; [assumption|congruence]|].
    rewrite Forall_forall in *. intros e EI. destruct (K2 e EI) as [B N]. split; [now apply before_trans with x|]. intros Q. apply NE. apply before_antisym; [|assumption].
    unfold before in *. now rewrite Q.
Qed.
End Pick.

(** ** the whole function *)
Section Unique.
Variables (d : nat) (v : list (list R)) (tol : R).
Hypothesis T0 : 0 <= tol.
Hypothesis LEN : (2 <= length v)%nat.
Let rows := map (fun k => map (fun c => nth k c 0) v) (seq 0 d).
Let iv := map (iv_row tol) rows.
Lemma key_nth : forall c k, (k < d)%nat -> nth k (key iv c) 0%nat = nth c (iv_row tol (map (fun x => nth k x 0) v)) 0%nat.
Proof.
  intros c k K. unfold key, iv, rows. rewrite !map_map. set (f := fun x => _). rewrite (nth_indep _ 0%nat (f 0%nat)) by now rewrite map_length, seq_length.
  rewrite map_nth, seq_nth by assumption. reflexivity.
Qed.
Lemma row_nth : forall c k, (c < length v)%nat -> nth c (map (fun x => nth k x 0) v) 0 = nth k (nth c v []) 0.
Proof.
  intros c k C. set (f := fun x => nth k x 0). rewrite (nth_indep _ 0 (f [])) by now rewrite map_length. now rewrite map_nth.
Qed.
Lemma iv_len : length iv = d.
Proof. unfold iv, rows. now rewrite !map_length, seq_length. Qed.
Lemma key_close : forall a b, (a < length v)%nat -> (b < length v)%nat -> forall k, (k < d)%nat -> nth k (key iv a) 0%nat = nth k (key iv b) 0%nat ->
  Rabs (nth k (nth a v []) 0 - nth k (nth b v []) 0) <= (INR (length v) - 1) * tol.
Proof.
  intros a b A B k K E. rewrite !key_nth in E by assumption. destruct (iv_row_facts tol (map (fun x => nth k x 0) v) a b T0) as [F _]; try now rewrite map_length.
  specialize (F E). rewrite !row_nth, map_length in F by assumption. exact F.
Qed.
Lemma key_less : forall a b, (a < length v)%nat -> (b < length v)%nat -> forall k, (k < d)%nat -> (nth k (key iv a) 0 < nth k (key iv b) 0)%nat ->
  nth k (nth a v []) 0 + tol < nth k (nth b v []) 0.
Proof.
  intros a b A B k K E. rewrite !key_nth in E by assumption. destruct (iv_row_facts tol (map (fun x => nth k x 0) v) a b T0) as [_ F]; try now rewrite map_length.
  specialize (F E). rewrite !row_nth in F by assumption. exact F.
Qed.
Lemma strictly_before : forall a b, (a < length v)%nat -> (b < length v)%nat -> before iv a b -> key iv a <> key iv b ->
  exists k, (k < d)%nat /\ nth k (nth a v []) 0 + tol < nth k (nth b v []) 0 /\
    forall m, (k < m < d)%nat -> Rabs (nth m (nth a v []) 0 - nth m (nth b v []) 0) <= (INR (length v) - 1) * tol.
Proof.
  intros a b A B H N. destruct (lex_strict (rev (key iv a)) (rev (key iv b))) as (k & K1 & K2 & K3).
  - apply rk_length.
  - exact H.
  - intros E. apply N. rewrite <- (rev_involutive (key iv a)), E. apply rev_involutive.
  - rewrite rev_length, key_length, iv_len in K1. rewrite !rev_nth, !key_length, iv_len in K2 by (rewrite key_length, iv_len; lia).
    exists (d - S k)%nat. split; [lia|]. split; [apply key_less; auto; lia|]. intros m M. apply key_close; auto; [lia|].
    specialize (K3 (d - S m)%nat ltac:(lia)). rewrite !rev_nth, !key_length, iv_len in K3 by (rewrite key_length, iv_len; lia). now replace (d - S (d - S m))%nat with m in K3 by lia.
Qed.
Lemma unique_vectors_lemma : exists out, uniqueVectors d v tol = Ok out /\ (forall u, In u out -> In u v) /\
  (forall u, In u v -> exists w, In w out /\ forall k, (k < d)%nat -> Rabs (nth k u 0 - nth k w 0) <= (INR (length v) - 1) * tol) /\
  (forall i j u w, (i < j)%nat -> nth_error out i = Some u -> nth_error out j = Some w ->
     exists k, (k < d)%nat /\ nth k u 0 + tol < nth k w 0 /\ forall m, (k < m < d)%nat -> Rabs (nth m u 0 - nth m w 0) <= (INR (length v) - 1) * tol).
Proof.
  assert (E : uniqueVectors d v tol = match lexsort iv (length v) with [] => Err IndexError | f :: r => Ok (map (fun c => nth c v []) (f :: pick iv f r)) end).
  { unfold uniqueVectors. destruct v as [|x [|y l]]; cbn [length] in LEN; [lia|lia|]. reflexivity. }
  assert (PM : Permutation (lexsort iv (length v)) (seq 0 (length v))) by apply sort_perm.
  assert (SD : StronglySorted (before iv) (lexsort iv (length v))).
  { apply (sort_sorted _ (fun _ => True)); [intros; apply lex_total| |apply Forall_forall; trivial]. intros a b c _ _ _. apply lex_trans; apply rk_length. }
  rewrite E. destruct (lexsort iv (length v)) as [|f r].
  { apply Permutation_length in PM. rewrite seq_length in PM. cbn [length] in PM. lia. }
  eexists. split; [reflexivity|]. set (ks := f :: pick iv f r). assert (KB : forall c, In c ks -> (c < length v)%nat).
  { intros c C. assert (In c (f :: r)) as I by (destruct C as [->|C]; [now left|right; eapply pick_sub; eassumption]). apply (Permutation_in _ PM) in I. apply in_seq in I. lia. }
  split; [|split].
  - intros u U. apply in_map_iff in U. destruct U as (c & <- & C). apply nth_In. now apply KB.
  - intros u U. destruct (In_nth v u [] U) as (c & C & <-). assert (I : In c (f :: r)) by (apply (Permutation_in _ (Permutation_sym PM)), in_seq; lia).
    assert (X : exists k, In k ks /\ key iv k = key iv c). { destruct I as [->|I]; [exists c; split; [now left|reflexivity]|now apply pick_cover]. }
    destruct X as (k & KI & KE). exists (nth k v []). split; [apply (in_map (fun c => nth c v [])); exact KI|]. intros j J. apply key_close; auto. now rewrite KE.
  - intros i j u w IJ UI WJ. rewrite nth_error_map in UI, WJ. destruct (nth_error ks i) as [a|] eqn:EA; [|discriminate]. destruct (nth_error ks j) as [b|] eqn:EB; [|discriminate].
    injection UI as <-. injection WJ as <-. pose proof (pick_strict iv r f SD) as ST. fold ks in ST.
    assert (JL : (j < length ks)%nat) by (apply nth_error_Some; congruence). pose proof (sorted_nth _ ks 0%nat i j ST ltac:(lia)) as [B N].
    rewrite (nth_error_nth ks i _ EA), (nth_error_nth ks j _ EB) in *. apply strictly_before; auto; apply KB; eapply nth_error_In; eassumption.
Qed.
End Unique.
