(** medians, cleaning and filtering *)
From Coq Require Import Reals List ZArith Permutation Sorted Lra Lia Bool.
From Verif Require Import Prelude Lin TensorModel RotModel FibModel EomModel EmsModel EmsSpec.
Import ListNotations.
Local Open Scope R_scope.
Local Notation length := List.length.

Lemma rle_iff' a b : rle a b = true <-> a <= b.
Proof. unfold rle. destruct (Rle_dec a b); split; intros; auto; try discriminate; contradiction. Qed.
Lemma insert_perm x l : Permutation (x :: l) (insert_r x l).
Proof. induction l as [|y t IH]; [apply Permutation_refl|]. cbn [insert_r]. destruct (rle x y); [apply Permutation_refl|]. etransitivity; [apply perm_swap|]. apply perm_skip, IH. Qed.
Lemma sort_perm l : Permutation l (sort_r l).
Proof. induction l as [|x t IH]; [constructor|]. cbn [sort_r]. etransitivity; [apply perm_skip, IH|]. apply insert_perm. Qed.
Lemma insert_sorted x l : StronglySorted Rle l -> StronglySorted Rle (insert_r x l).
Proof.
  induction 1 as [|y t HS IH HF]; [repeat constructor|]. cbn [insert_r]. destruct (rle x y) eqn:E.
  - apply rle_iff' in E. constructor; [constructor; auto|]. constructor; auto. rewrite Forall_forall in *. intros z Hz. specialize (HF z Hz). lra.
  - assert (y < x) by (unfold rle in E; destruct (Rle_dec x y); [discriminate|lra]). constructor; auto.
    rewrite Forall_forall in *. intros z Hz. apply (Permutation_in z (Permutation_sym (insert_perm x t))) in Hz. destruct Hz as [<-|Hz]; [lra|auto].
Qed.
Lemma sort_sorted l : StronglySorted Rle (sort_r l).
Proof. induction l as [|x t IH]; [constructor|]. apply insert_sorted, IH. Qed.
Lemma median_lemma l d : median l = Some d -> median_of l d.
Proof.
  unfold median. destruct l as [|x t]; [discriminate|]. set (l := x :: t). intros E.
  change (length l) with (S (length t)) in E. cbn [length] in E. injection E as <-. exists (sort_r l).
  split; [apply sort_perm|]. split; [apply sort_sorted|]. split; [discriminate|]. reflexivity.
Qed.
Lemma median_none l : median l = None <-> l = [].
Proof. unfold median. destruct l as [|x t]; cbn [length]; split; intros; auto; discriminate. Qed.
Lemma sorted_perm_eq : forall l m, StronglySorted Rle l -> StronglySorted Rle m -> Permutation l m -> l = m.
Proof.
  induction l as [|x t IH]; intros m Hl Hm P; [apply Permutation_nil in P; auto|].
  destruct m as [|y u]; [apply Permutation_sym, Permutation_nil in P; discriminate|].
  inversion Hl as [|? ? Ht Fx]; inversion Hm as [|? ? Hu Fy]; subst. rewrite Forall_forall in Fx, Fy.
  assert (E : x = y).
  { assert (A : In y (x :: t)) by (eapply Permutation_in; [apply Permutation_sym, P|left; auto]).
    assert (B : In x (y :: u)) by (eapply Permutation_in; [apply P|left; auto]).
    destruct A as [A|A]; auto. destruct B as [B|B]; auto. specialize (Fx _ A). specialize (Fy _ B). lra. }
  subst y. f_equal. apply IH; auto. eapply Permutation_cons_inv; eauto.
Qed.
Lemma median_unique l d d' : median_of l d -> median_of l d' -> d = d'.
Proof.
  intros (s & P & S1 & _ & ->) (s' & P' & S2 & _ & ->).
  rewrite (sorted_perm_eq s s' S1 S2); auto. etransitivity; [apply Permutation_sym, P|auto].
Qed.
Lemma median_shift l d c : median_of l d -> median_of (map (fun x => x - c) l) (d - c).
Proof.
  intros (s & P & S1 & N & ->). exists (map (fun x => x - c) s). rewrite map_length.
  assert (Lp : length s = length l) by (symmetry; apply Permutation_length, P).
  assert (L0 : (0 < length l)%nat) by (destruct l; [congruence|cbn; lia]).
  split; [apply Permutation_map, P|]. split; [|split].
  - clear - S1. induction S1 as [|x t HS IH HF]; cbn [map]; constructor; auto. rewrite Forall_forall in *. intros z Hz. apply in_map_iff in Hz.
    destruct Hz as (y & <- & Hy). specialize (HF y Hy). lra.
  - destruct l; [congruence|discriminate].
  - assert (K : forall k, (k < length s)%nat -> nth k (map (fun x => x - c) s) 0 = nth k s 0 - c).
    { intros k Hk. rewrite nth_indep with (d' := 0 - c) by (rewrite map_length; auto). apply (map_nth (fun x => x - c)). }
    rewrite !K; [lra| |].
    + apply Nat.div_lt_upper_bound; lia.
    + apply Nat.div_lt_upper_bound; lia.
Qed.
Lemma median_some l d : median_of l d -> median l = Some d.
Proof.
  intros M. destruct (median l) as [d'|] eqn:E.
  - f_equal. apply (median_unique l); auto. apply median_lemma; auto.
  - apply median_none in E. destruct M as (s & _ & _ & N & _). congruence.
Qed.
Lemma sorted_nth s i : StronglySorted Rle s -> (i < length s)%nat -> nth 0 s 0 <= nth i s 0.
Proof.
  intros H Hi. destruct H as [|x t HS HF]; [cbn in Hi; lia|]. destruct i as [|i]; cbn [nth]; [lra|].
  rewrite Forall_forall in HF. apply HF, nth_In. cbn in Hi. lia.
Qed.
(** some number is not above the median *)
Lemma median_low l d : median_of l d -> exists x, In x l /\ x <= d.
Proof.
  intros (s & P & S1 & N & E). assert (Lp : length s = length l) by (symmetry; apply Permutation_length, P).
  assert (L0 : (0 < length l)%nat) by (destruct l; [congruence|cbn; lia]).
  exists (nth 0 s 0). split; [eapply Permutation_in; [apply Permutation_sym, P|apply nth_In; lia]|].
  assert (A := sorted_nth s (Nat.div (length l - 1) 2) S1). assert (B := sorted_nth s (Nat.div (length l) 2) S1).
  rewrite E. cut (nth 0 s 0 <= nth (Nat.div (length l - 1) 2) s 0 /\ nth 0 s 0 <= nth (Nat.div (length l) 2) s 0); [lra|].
  split; [apply A|apply B]; apply Nat.div_lt_upper_bound; lia.
Qed.
Lemma numbers_spec l : numbers_of l (numbers l).
Proof. induction l as [|[x|] t IH]; cbn; constructor; auto. Qed.
Lemma numbers_det l r : numbers_of l r -> r = numbers l.
Proof. induction 1 as [|x l r H IH|l r H IH]; [reflexivity| |]; rewrite IH; reflexivity. Qed.
Lemma numbers_in l x : In x (numbers l) <-> In (Some x) l.
Proof.
  unfold numbers. rewrite in_flat_map. split.
  - intros ([y|] & Hy & Hx); [destruct Hx as [<-|[]]; auto|contradiction].
  - intros H. exists (Some x). split; [auto|left; reflexivity].
Qed.

Lemma np_min_lemma : forall l d, l <> [] -> (forall c, In c l -> exists x, c = Some x /\ d <= x) -> In (Some d) l -> np_min l = Some d.
Proof.
  assert (K : forall l d, l <> [] -> (forall c, In c l -> exists x, c = Some x /\ d <= x) -> exists m, np_min l = Some m /\ d <= m /\ (forall x, In (Some x) l -> m <= x)).
  { induction l as [|c t IH]; intros d N H; [congruence|]. destruct (H c (or_introl eq_refl)) as (x & -> & Hx). destruct t as [|c' t].
    - exists x. cbn. split; [reflexivity|]. split; auto. intros y [E|[]]. injection E as <-. lra.
    - destruct (IH d) as (m & Em & Hm & Hl); [discriminate|intros; apply H; right; auto|].
      exists (Rmin x m). change (np_min (Some x :: c' :: t)) with (match np_min (c' :: t) with Some y => Some (Rmin x y) | None => None end). rewrite Em.
      split; [reflexivity|]. split; [apply Rmin_glb; auto|]. intros y [E|Hy]; [injection E as <-; apply Rmin_l|]. eapply Rle_trans; [apply Rmin_r|]. auto. }
  intros l d N H I. destruct (K l d N H) as (m & Em & Hm & Hl). rewrite Em. f_equal. specialize (Hl d I). lra.
Qed.
(** every cleaned value is the excess over the median, zero for NaNs and below the median *)
Lemma clean_lemma m d : median_of (numbers m) d ->
  clean_map m = Ok (map (fun c => Some (match c with Some x => Rmax (x - d) 0 | None => 0 end)) m).
Proof.
  intros M. unfold clean_map. rewrite (median_some _ _ M). rewrite map_map.
  match goal with |- context [map ?g m] => assert (E : map g m = map (fun c => Some (match c with Some x => Rmax x d | None => d end)) m) end.
  { apply map_ext. intros [x|]; cbn.
    - unfold rle. destruct (Rle_dec x d) as [L|L]; [rewrite Rmax_right by lra|rewrite Rmax_left by lra]; reflexivity.
    - unfold rle. destruct (Rle_dec d d); reflexivity. }
  rewrite E. destruct m as [|c0 t]; [destruct M as (s & _ & _ & N & _); elim N; reflexivity|]. set (m := c0 :: t) in *.
  assert (Q : np_min (map (fun c => Some (match c with Some x => Rmax x d | None => d end)) m) = Some d).
  { apply np_min_lemma; [discriminate| |].
    - intros c Hc. apply in_map_iff in Hc. destruct Hc as ([x|] & <- & _); eexists; split; try reflexivity; [apply Rmax_r|lra].
    - destruct (median_low _ _ M) as (x & Hx & Hd). apply numbers_in in Hx. apply in_map_iff. exists (Some x). split; auto. rewrite Rmax_right by lra. reflexivity. }
  rewrite Q. change (map (fun c => Some match c with Some x => Rmax x d | None => d end) m) with
    (Some match c0 with Some x => Rmax x d | None => d end :: map (fun c => Some match c with Some x => Rmax x d | None => d end) t) at 1.
  cbv iota. f_equal. rewrite map_map. apply map_ext. intros [x|]; cbn [osub]; f_equal; [|lra].
  unfold Rmax. destruct (Rle_dec x d), (Rle_dec (x - d) 0); lra.
Qed.
Lemma clean_nan m : m <> [] -> (forall c, In c m -> c = None) -> clean_map m = Ok m.
Proof.
  intros N H. assert (E : numbers m = []) by (clear N; induction m as [|c t IH]; [reflexivity|]; rewrite (H c (or_introl eq_refl)); cbn; apply IH; intros; apply H; right; auto).
  unfold clean_map. rewrite E. change (median []) with (@None R). rewrite map_map.
  match goal with |- context [map ?g m] => assert (K : map g m = m) by (rewrite <- (map_id m) at 2; apply map_ext; intros [x|]; reflexivity) end.
  rewrite K. destruct m as [|c t]; [congruence|]. f_equal. etransitivity; [|apply map_id]. apply map_ext_in. intros x Hx. rewrite (H x Hx). reflexivity.
Qed.

(** ** filtering *)
Lemma filter_length n m : length (filter_map n m) = length m.
Proof. apply map_length. Qed.
Lemma filter_rect n m : rectangular n (filter_map n m).
Proof. unfold rectangular, filter_map. apply Forall_forall. intros row H. apply in_map_iff in H. destruct H as (r & <- & _). rewrite map_length, seq_length. reflexivity. Qed.
Lemma filter_cell n m i j row : (j < n)%nat -> nth_error m i = Some row ->
  exists row', nth_error (filter_map n m) i = Some row' /\ nth_error row' j = Some (osub (nth j row None) (nanmedian (column m j))).
Proof.
  intros Hj Hi. unfold filter_map. rewrite nth_error_map. unfold cell in *. rewrite Hi. cbn [option_map]. eexists. split; [reflexivity|].
  rewrite nth_error_map. rewrite (nth_error_nth' (seq 0 n) 0%nat) by (rewrite seq_length; auto). rewrite seq_nth by auto. reflexivity.
Qed.
Lemma column_spec j m n : rectangular n m -> (j < n)%nat -> the_column j m (column m j).
Proof.
  unfold rectangular, the_column, column. intros H Hj. induction H as [|row t Hr HF IH]; cbn [map]; constructor; auto. apply nth_error_nth'. lia.
Qed.
Lemma column_det j m c : the_column j m c -> c = column m j.
Proof. unfold the_column, column. induction 1; cbn [map]; [reflexivity|]. f_equal; auto. symmetry. apply nth_error_nth; auto. Qed.
Lemma column_filter n m j : (j < n)%nat -> column (filter_map n m) j = map (fun c => osub c (nanmedian (column m j))) (column m j).
Proof.
  intros Hj. unfold column at 1 3. unfold filter_map. rewrite !map_map. apply map_ext. intros row.
  rewrite nth_indep with (d' := osub (nth 0%nat row None) (nanmedian (column m 0))) by (rewrite map_length, seq_length; auto).
  rewrite (map_nth (fun j => osub (nth j row None) (nanmedian (column m j)))). rewrite seq_nth by auto. reflexivity.
Qed.
Lemma numbers_sub l c : numbers (map (fun x => osub x (Some c)) l) = map (fun x => x - c) (numbers l).
Proof. induction l as [|[x|] t IH]; cbn; auto. f_equal. exact IH. Qed.
Lemma numbers_sub_nan l : numbers (map (fun x => osub x None) l) = [].
Proof. induction l as [|[x|] t IH]; cbn; auto. Qed.
Lemma median_filtered n m j : (j < n)%nat -> nanmedian (column (filter_map n m) j) = match nanmedian (column m j) with Some _ => Some 0 | None => None end.
Proof.
  intros Hj. rewrite (column_filter n m j Hj). destruct (nanmedian (column m j)) as [d|] eqn:E; unfold nanmedian in *.
  - rewrite numbers_sub. apply median_some. replace 0 with (d - d) by lra. apply median_shift, median_lemma, E.
  - rewrite numbers_sub_nan. reflexivity.
Qed.
Lemma filter_twice n m : filter_map n (filter_map n m) = filter_map n m.
Proof.
  set (g := filter_map n m). unfold filter_map at 1. rewrite <- (map_id g) at 2. apply map_ext_in. intros row Hrow. unfold g, filter_map in Hrow. apply in_map_iff in Hrow. destruct Hrow as (r0 & <- & Hr0).
  apply map_ext_in. intros j Hj. apply in_seq in Hj. unfold g. rewrite median_filtered by lia.
  rewrite nth_indep with (d' := osub (nth 0%nat r0 None) (nanmedian (column m 0))) by (rewrite map_length, seq_length; lia).
  rewrite (map_nth (fun j => osub (nth j r0 None) (nanmedian (column m j)))). rewrite seq_nth by lia. cbn [plus].
  destruct (nanmedian (column m j)) as [d|]; destruct (nth j r0 None) as [x|]; cbn [osub]; auto. f_equal. lra.
Qed.
