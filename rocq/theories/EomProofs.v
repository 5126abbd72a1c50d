(** Lemmas about the eta-omega maps. *)
From Coq Require Import Reals List ZArith Lra Lia Permutation Bool.
From Verif Require Import Prelude Lin TensorModel RotModel TasksModel TasksProofs FibModel FibProofs EomModel EomSpec.
Import ListNotations.
Local Open Scope R_scope.
Local Notation length := List.length.

Lemma rle_iff a b : rle a b = true <-> a <= b.
Proof. unfold rle. destruct (Rle_dec a b); split; intros; auto; try discriminate; lra. Qed.
Lemma rlt_iff a b : rlt a b = true <-> a < b.
Proof. unfold rlt. destruct (Rlt_dec a b); split; intros; auto; try discriminate; lra. Qed.

Lemma sorted_step l : sorted l = true -> forall k, (S k < length l)%nat -> nth k l 0 <= nth (S k) l 0.
Proof.
  induction l as [|a t IH]; intros Hs k Hk; [cbn in Hk; lia|].
  destruct t as [|b t]; [cbn in Hk; lia|]. cbn [sorted] in Hs. apply andb_true_iff in Hs as [H1 H2].
  apply rle_iff in H1. destruct k as [|k]; [cbn; auto|].
  change (nth (S k) (a :: b :: t) 0) with (nth k (b :: t) 0). change (nth (S (S k)) (a :: b :: t) 0) with (nth (S k) (b :: t) 0).
  apply IH; auto. cbn [length] in *. lia.
Qed.
Lemma increasing_sorted l : increasing l -> sorted l = true.
Proof.
  induction l as [|a t IH]; intros H; [reflexivity|]. destruct t as [|b t]; [reflexivity|].
  destruct H as [H1 H2]. change (rle a b && sorted (b :: t) = true). rewrite (IH H2), andb_true_r. apply rle_iff. lra.
Qed.

(** the decision of [in_bin] *)
Definition binb (edges : list R) (b : nat) (eta : R) : bool := before edges (S b) eta && negb (before edges b eta).
Lemma binb_iff edges b eta : (S b < length edges)%nat -> (binb edges b eta = true <-> in_bin edges b eta).
Proof.
  intros Hb. unfold binb, before, in_bin.
  replace (Nat.eqb b (length edges - 1)) with false by (symmetry; apply Nat.eqb_neq; lia).
  rewrite andb_true_iff, negb_true_iff.
  assert (Hlt : forall x y, rlt x y = false <-> y <= x) by (intros x y; unfold rlt; destruct (Rlt_dec x y); split; intros; auto; try discriminate; lra).
  rewrite Hlt. destruct (Nat.eqb_spec (S b) (length edges - 1)) as [E|E].
  - rewrite rle_iff. split.
    + intros [H1 H2]. split; auto. split; auto. destruct (Req_dec eta (nth (S b) edges 0)); [right; split; [lia|auto]|left; lra].
    + intros (_ & H1 & [H2|[H2 H3]]); split; auto; lra.
  - rewrite rlt_iff. split.
    + intros [H1 H2]. split; auto.
    + intros (_ & H1 & [H2|[H2 H3]]); split; auto; try lra. lia.
Qed.
Lemma before_step edges k x : sorted edges = true -> (S k < length edges)%nat -> before edges k x = true -> before edges (S k) x = true.
Proof.
  intros Hs Hk. unfold before.
  replace (Nat.eqb k (length edges - 1)) with false by (symmetry; apply Nat.eqb_neq; lia).
  rewrite rlt_iff. intros H. pose proof (sorted_step _ Hs k Hk).
  destruct (Nat.eqb (S k) (length edges - 1)); [apply rle_iff|apply rlt_iff]; lra.
Qed.

Lemma total_app a b : total (a ++ b) = total a + total b.
Proof. unfold total. induction a; cbn [app fold_right]; [ring|]. rewrite IHa. ring. Qed.
Lemma osum_some {A} (f : A -> R) l : osum (map (fun i => Some (f i)) l) = Some (total (map f l)).
Proof. induction l as [|a t IH]; [reflexivity|]. cbn [map osum fold_right]. unfold osum in IH. rewrite IH. reflexivity. Qed.
Lemma total_split {A} (f : A -> R) (P Q : A -> bool) l : (forall i, P i = true -> Q i = true) ->
  total (map f (filter Q l)) - total (map f (filter P l)) = total (map f (filter (fun i => Q i && negb (P i)) l)).
Proof.
  intros H. induction l as [|a t IH]; [cbn; ring|]. cbn [filter]. pose proof (H a) as Ha.
  destruct (P a) eqn:EP; destruct (Q a) eqn:EQ; cbn [andb negb map total fold_right]; unfold total in *; try lra.
Qed.
Lemma count_split {A} (P Q : A -> bool) l : (forall i, P i = true -> Q i = true) ->
  (Z.of_nat (length (filter Q l)) - Z.of_nat (length (filter P l)) = Z.of_nat (length (filter (fun i => Q i && negb (P i)) l)))%Z.
Proof.
  intros H. induction l as [|a t IH]; [reflexivity|]. cbn [filter]. pose proof (H a) as Ha.
  destruct (P a) eqn:EP; destruct (Q a) eqn:EQ; cbn [andb negb length]; try lia.
Qed.
Lemma filter_map {A B} (f : A -> B) (P : B -> bool) l : filter P (map f l) = map f (filter (fun i => P (f i)) l).
Proof. induction l as [|a t IH]; [reflexivity|]. cbn [map filter]. destruct (P (f a)); cbn [map]; rewrite IH; reflexivity. Qed.
Lemma combine_map {A B C} (f : A -> B) (g : A -> C) l : combine (map f l) (map g l) = map (fun i => (f i, g i)) l.
Proof. induction l as [|a t IH]; [reflexivity|]. cbn [map combine]. rewrite IH. reflexivity. Qed.

Lemma running_lemma edges (eta f : nat -> R) ids k :
  running edges (map (fun i => (eta i, Some (f i))) ids) k
  = Some (total (map f (filter (fun i => before edges k (eta i)) ids))).
Proof. unfold running. rewrite filter_map, map_map. cbn [fst snd]. apply osum_some. Qed.

Lemma hist_lemma edges (eta f : nat -> R) ids : sorted edges = true ->
  hist_weights edges (map (fun i => (eta i, Some (f i))) ids)
  = Ok (map (fun k => Some (total (map f (filter (fun i => binb edges k (eta i)) ids)))) (seq 0 (length edges - 1))).
Proof.
  intros Hs. unfold hist_weights. rewrite Hs. f_equal. apply map_ext_in. intros k Hk. apply in_seq in Hk.
  rewrite !running_lemma. cbn [osub]. f_equal. unfold binb.
  apply (total_split f (fun i => before edges k (eta i)) (fun i => before edges (S k) (eta i))).
  intros i. apply before_step; auto. lia.
Qed.
Lemma counts_lemma edges (eta : nat -> R) ids : sorted edges = true ->
  hist_counts edges (map eta ids)
  = Ok (map (fun k => Z.of_nat (length (filter (fun i => binb edges k (eta i)) ids))) (seq 0 (length edges - 1))).
Proof.
  intros Hs. unfold hist_counts. rewrite Hs. f_equal. apply map_ext_in. intros k Hk. apply in_seq in Hk.
  unfold counted. rewrite !filter_map, !map_length. unfold binb.
  apply (count_split (fun i => before edges k (eta i)) (fun i => before edges (S k) (eta i))).
  intros i. apply before_step; auto. lia.
Qed.

(** ** one detector *)
Definition eta_of (v : view) (i : nat) : R := snd (nth i (v_pix v) (0, 0)).
Definition cell_ids (edges : list R) (tthr : R * R) (v : view) (b : nat) : list nat :=
  filter (fun i => binb edges b (eta_of v i)) (ring_ids tthr (v_pix v)).
Definition the_cell (edges : list R) (tthr : R * R) (threshold : option R) (v : view) (f b : nat) : cell :=
  match cell_ids edges tthr v b with
  | [] => None
  | ids => Some (total (map (fun i => level threshold (intensity v f i)) ids))
  end.

Lemma in_cell_ids edges tthr v b i : (S b < length edges)%nat -> (In i (cell_ids edges tthr v b) <-> seen edges tthr b v i).
Proof.
  intros Hb. unfold cell_ids, ring_ids, seen. rewrite !filter_In, in_seq, (binb_iff _ _ _ Hb). unfold in_range, eta_of.
  rewrite andb_true_iff, !rle_iff. split.
  - intros [[Hi H1] H2]. exists (nth i (v_pix v) (0, 0)). split; [apply nth_error_nth'; lia|]. split; [exact H1|exact H2].
  - intros (p & E & H1 & H2). pose proof (nth_error_nth _ _ (0, 0) E) as E'. unfold pix in *. rewrite E'.
    split; [split|]; auto. split; [lia|]. cbn. apply nth_error_Some. congruence.
Qed.

Lemma level_cell threshold x : threshold_cell threshold (Some x) = Some (level threshold x).
Proof. destruct threshold as [t|]; [|reflexivity]. cbn. unfold rlt. destruct (Rlt_dec x t); reflexivity. Qed.
Lemma map_res_all {A B} (f : A -> result B) (g : A -> B) l : (forall a, In a l -> f a = Ok (g a)) -> map_res f l = Ok (map g l).
Proof.
  induction l as [|a t IH]; intros H; [reflexivity|]. cbn [map_res map]. rewrite (H a) by (left; auto). cbn [rbind].
  rewrite IH by (intros; apply H; right; auto). reflexivity.
Qed.
Lemma take_lemma threshold v f ids nrows : full_frames v nrows -> (f < nrows)%nat ->
  (forall i, In i ids -> (i < length (v_pix v))%nat) ->
  take (map (threshold_cell threshold) (nth f (v_ims v) [])) ids = Ok (map (fun i => Some (level threshold (intensity v f i))) ids).
Proof.
  intros [Hn HF] Hf Hi. unfold take. apply map_res_all. intros i Hin. specialize (Hi i Hin).
  assert (Him : In (nth f (v_ims v) []) (v_ims v)) by (apply nth_In; lia).
  rewrite Forall_forall in HF. destruct (HF _ Him) as [HL HN].
  rewrite nth_error_map. unfold intensity.
  destruct (nth_error (nth f (v_ims v) []) i) as [c|] eqn:E; [|apply nth_error_None in E; exfalso; apply (Nat.lt_irrefl i); eapply Nat.lt_le_trans; [exact Hi|rewrite <- HL; exact E]].
  cbn [option_map]. rewrite Forall_forall in HN. destruct c as [x|]; [|elim (HN None); auto; eapply nth_error_In; eauto].
  rewrite level_cell. reflexivity.
Qed.

Lemma ring_ids_lt tthr px i : In i (ring_ids tthr px) -> (i < length px)%nat.
Proof. unfold ring_ids. rewrite filter_In, in_seq. lia. Qed.
Definition the_bins (edges : list R) (tthr : R * R) (v : view) : list nat :=
  filter (fun b => negb (Nat.eqb (length (cell_ids edges tthr v b)) 0)) (seq 0 (length edges - 1)).
Definition the_params (edges : list R) (v : view) (tthr : R * R) : option rparams :=
  match ring_ids tthr (v_pix v) with
  | [] => None
  | ids => Some (RParams (map (eta_of v) ids) ids (the_bins edges tthr v))
  end.
Lemma params_lemma edges v tthr : sorted edges = true -> ring_params edges (v_pix v) tthr = Ok (the_params edges v tthr).
Proof.
  intros Hs. unfold ring_params, the_params. destruct (ring_ids tthr (v_pix v)) as [|i0 t] eqn:E; [reflexivity|].
  rewrite <- E. change (fun i => snd (nth i (v_pix v) (0, 0))) with (eta_of v). rewrite (counts_lemma _ _ _ Hs). cbn [rbind].
  rewrite map_length, seq_length. unfold the_bins. do 3 f_equal. apply filter_ext_in. intros b Hb. apply in_seq in Hb.
  f_equal. rewrite nth_indep with (d' := (fun k => Z.of_nat (length (cell_ids edges tthr v k))) 0%nat) by (rewrite map_length, seq_length; lia).
  change (fun k => Z.of_nat (length (filter (fun i => binb edges k (eta_of v i)) (ring_ids tthr (v_pix v)))))
    with (fun k => Z.of_nat (length (cell_ids edges tthr v k))).
  rewrite (map_nth (fun k => Z.of_nat (length (cell_ids edges tthr v k)))), seq_nth by lia. cbn [Nat.add].
  destruct (Nat.eqb_spec (length (cell_ids edges tthr v b)) 0) as [K|K]; [rewrite K; reflexivity|].
  apply Z.eqb_neq. lia.
Qed.

Definition pair_dec (x y : nat * nat) : {x = y} + {x <> y}.
Proof. decide equality; apply Nat.eq_dec. Defined.

Section Panel.
Variables (edges : list R) (ranges : list (R * R)) (threshold : option R) (v : view) (nrows : nat).
Hypothesis Hs : sorted edges = true.
Hypothesis Hv : full_frames v nrows.

Lemma write_lemma m row ring tthr : (row < nrows)%nat -> nth_error ranges ring = Some tthr ->
  exists m', one_write edges threshold (map (the_params edges v) ranges) (v_ims v) m (row, ring) = Ok m' /\
    (forall b, (S b < length edges)%nat -> cell_ids edges tthr v b <> [] -> m' ring row b = the_cell edges tthr threshold v row b) /\
    (forall r f b, ~ (r = ring /\ f = row /\ cell_ids edges tthr v b <> []) -> m' r f b = m r f b).
Proof.
  intros Hrow Hring. unfold one_write. destruct Hv as [Hn HF].
  rewrite (nth_error_nth' (v_ims v) [] (n := row)) by lia.
  rewrite nth_error_map, Hring. cbn [option_map]. unfold the_params.
  destruct (ring_ids tthr (v_pix v)) as [|i0 t] eqn:E.
  - exists m. split; [reflexivity|]. split; auto. intros b _ Hb. elim Hb. unfold cell_ids. rewrite E. reflexivity.
  - rewrite <- E. cbn [r_ids r_etas r_bins].
    rewrite (take_lemma threshold v row _ nrows Hv Hrow) by (intros i; apply ring_ids_lt). cbn [rbind].
    rewrite combine_map, (hist_lemma edges (eta_of v) (fun i => level threshold (intensity v row i)) _ Hs). cbn [rbind].
    eexists. split; [reflexivity|]. unfold write, the_bins.
    assert (Hin : forall b, existsb (Nat.eqb b) (filter (fun b => negb (Nat.eqb (length (cell_ids edges tthr v b)) 0)) (seq 0 (length edges - 1))) = true
                  <-> (b < length edges - 1)%nat /\ cell_ids edges tthr v b <> []).
    { intros b. rewrite existsb_exists. split.
      - intros (x & Hx & Ex). apply Nat.eqb_eq in Ex. subst x. apply filter_In in Hx as [H1 H2]. apply in_seq in H1.
        split; [lia|]. intros K. rewrite K in H2. discriminate.
      - intros [H1 H2]. exists b. split; [|apply Nat.eqb_refl]. apply filter_In. split; [apply in_seq; lia|].
        destruct (cell_ids edges tthr v b); [congruence|reflexivity]. }
    split.
    + intros b Hb Hc. rewrite !Nat.eqb_refl. cbn [andb]. rewrite (proj2 (Hin b)) by (split; [lia|auto]).
      rewrite nth_indep with (d' := (fun k => Some (total (map (fun i => level threshold (intensity v row i)) (cell_ids edges tthr v k)))) 0%nat)
        by (rewrite map_length, seq_length; lia).
      rewrite (map_nth (fun k => Some (total (map (fun i => level threshold (intensity v row i)) (cell_ids edges tthr v k))))), seq_nth by lia.
      unfold the_cell. cbn [Nat.add]. destruct (cell_ids edges tthr v b); [congruence|reflexivity].
    + intros r f b Hne. destruct (Nat.eqb_spec r ring) as [Er|Er]; [|reflexivity].
      destruct (Nat.eqb_spec f row) as [Ef|Ef]; [|reflexivity]. cbn [andb].
      destruct (existsb _ _) eqn:K; [|reflexivity]. apply Hin in K. elim Hne. tauto.
Qed.

Lemma run_lemma evs : (forall f r, In (f, r) evs -> (f < nrows)%nat /\ (r < length ranges)%nat) -> forall m,
  exists m', run_writes edges threshold (map (the_params edges v) ranges) (v_ims v) evs m = Ok m' /\
    forall r f b tthr, nth_error ranges r = Some tthr -> (S b < length edges)%nat ->
      (In (f, r) evs /\ cell_ids edges tthr v b <> [] -> m' r f b = the_cell edges tthr threshold v f b) /\
      (~ (In (f, r) evs /\ cell_ids edges tthr v b <> []) -> m' r f b = m r f b).
Proof.
  induction evs as [|[row ring] t IH]; intros Hev m.
  - exists m. split; [reflexivity|]. intros. split; [intros [[] _]|auto].
  - destruct (Hev row ring) as [H1 H2]; [left; auto|].
    destruct (nth_error ranges ring) as [tthr|] eqn:E; [|apply nth_error_None in E; lia].
    destruct (write_lemma m row ring tthr H1 E) as (m1 & E1 & W1 & W2).
    destruct (IH (fun f r H => Hev f r (or_intror H)) m1) as (m' & E' & HM).
    exists m'. cbn [run_writes]. rewrite E1. cbn [rbind]. split; [exact E'|].
    intros r f b tr Er Hb. destruct (HM r f b tr Er Hb) as [M1 M2].
    destruct (in_dec pair_dec (f, r) t) as [Hin|Hin].
    + split.
      * intros [_ K]. apply M1. auto.
      * intros K. assert (Kc : ~ cell_ids edges tr v b <> []) by (intros Q; apply K; split; [right|]; auto).
        rewrite M2 by tauto. apply W2. intros (-> & -> & Q). rewrite E in Er. injection Er as <-. auto.
    + rewrite M2 by tauto. split.
      * intros [[Q|Q] K]; [|contradiction]. injection Q as <- <-. rewrite E in Er. injection Er as <-. apply W1; auto.
      * intros K. apply W2. intros (-> & -> & Q). rewrite E in Er. injection Er as <-. apply K. split; [left|]; auto.
Qed.

Lemma polar_lemma evs : (2 <= length edges)%nat -> (forall f r, In (f, r) evs <-> (f < nrows)%nat /\ (r < length ranges)%nat) ->
  exists m, polar_maps edges ranges threshold evs v = Ok m /\
  forall r tthr f b, nth_error ranges r = Some tthr -> (f < nrows)%nat -> (S b < length edges)%nat ->
    m r f b = the_cell edges tthr threshold v f b.
Proof.
  intros HL Hev. unfold polar_maps. replace (Nat.ltb (length edges) 2) with false by (symmetry; apply Nat.ltb_ge; auto).
  rewrite (map_res_all _ (the_params edges v)) by (intros; apply params_lemma; auto). cbn [rbind].
  destruct (run_lemma evs (fun f r => proj1 (Hev f r)) nan_maps) as (m & E & HM). exists m. split; auto.
  intros r tthr f b Hr Hf Hb. destruct (HM r f b tthr Hr Hb) as [M1 M2].
  destruct (cell_ids edges tthr v b) as [|i0 t] eqn:Ec.
  - rewrite M2 by (intros [_ Q]; congruence). unfold the_cell. rewrite Ec. reflexivity.
  - apply M1. split; [|discriminate]. apply Hev. split; auto. apply nth_error_Some. congruence.
Qed.
End Panel.

(** ** schedules *)
Lemma merged_in {A} (ls : list (list A)) out : merged ls out -> forall x, In x out <-> In x (concat ls).
Proof.
  induction 1 as [ls H|l1 l2 x t out H IH]; intros y.
  - split; [intros []|]. rewrite in_concat. intros (l & Hl & Hy). rewrite Forall_forall in H. rewrite (H l Hl) in Hy. auto.
  - cbn [In]. rewrite IH, !concat_app. cbn [concat]. rewrite !in_app_iff. cbn [In]. tauto.
Qed.
Lemma schedule_in workers nrows nrings evs : (1 <= workers)%Z -> schedule workers nrows nrings evs ->
  forall f r, In (f, r) evs <-> (f < nrows)%nat /\ (r < nrings)%nat.
Proof.
  intros Hw (tasks & E & H) f r.
  destruct (distribute_tasks_correct (Z.of_nat nrows) workers) as (rs & E' & HC & _); try lia.
  rewrite E in E'. injection E' as <-.
  assert (K : In (f, r) evs <-> In (f, r) (flat_map (task_events nrings) tasks)).
  { destruct (_ || _)%bool; [rewrite H; tauto|]. rewrite (merged_in _ _ H), flat_map_concat_map. tauto. }
  rewrite K, in_flat_map. unfold task_events. split.
  - intros (tk & Htk & Hin). apply in_flat_map in Hin as (z & Hz & Hin). apply in_map_iff in Hin as (q & Eq & Hq).
    injection Eq as <- <-. apply in_seq in Hq.
    assert (Hz' : In z (zrange 0 (Z.of_nat nrows))) by (rewrite <- HC; apply in_concat; eexists; split; [apply in_map; exact Htk|exact Hz]).
    apply in_zrange in Hz'. lia.
  - intros [Hf Hr]. assert (Hz : In (Z.of_nat f) (zrange 0 (Z.of_nat nrows))) by (apply in_zrange; lia).
    rewrite <- HC in Hz. apply in_concat in Hz as (l & Hl & Hz). apply in_map_iff in Hl as (tk & <- & Htk).
    exists tk. split; auto. apply in_flat_map. exists (Z.of_nat f). split; auto. apply in_map_iff. exists r.
    rewrite Nat2Z.id. split; auto. apply in_seq. lia.
Qed.

(** ** several detectors *)
Definition cell_sum (edges : list R) (tthr : R * R) (threshold : option R) (f b : nat) (v : view) : R :=
  total (map (fun i => level threshold (intensity v f i)) (cell_ids edges tthr v b)).
Lemma the_cell_val edges tthr threshold v f b :
  the_cell edges tthr threshold v f b = if Nat.eqb (length (cell_ids edges tthr v b)) 0 then None else Some (cell_sum edges tthr threshold f b v).
Proof. unfold the_cell, cell_sum. destruct (cell_ids edges tthr v b); reflexivity. Qed.
Lemma pack_fold (edges : list R) tthr threshold f b vs : forall acc,
  fold_left (fun acc (c : cell) => match c with Some x => acc + x | None => acc end) (map (fun v => the_cell edges tthr threshold v f b) vs) acc
  = acc + total (map (cell_sum edges tthr threshold f b) vs).
Proof.
  induction vs as [|v t IH]; intros acc; [cbn; ring|]. cbn [map fold_left]. rewrite IH, the_cell_val.
  unfold total. cbn [fold_right]. destruct (Nat.eqb_spec (length (cell_ids edges tthr v b)) 0) as [E|E]; [|ring].
  unfold cell_sum at 2. apply length_zero_iff_nil in E. rewrite E. cbn. ring.
Qed.
Lemma pack_none cs : pack_cell cs = None <-> Forall (fun c => c = None) cs.
Proof.
  unfold pack_cell. destruct (Nat.eqb_spec (length (filter (fun b => b) (map (fun c : cell => match c with Some _ => true | None => false end) cs))) 0) as [E|E].
  - split; auto. intros _. apply length_zero_iff_nil in E. induction cs as [|[x|] t IH]; constructor; auto; discriminate.
  - split; [discriminate|]. intros H. elim E. clear E. induction H as [|c t Hc _ IH]; [reflexivity|]. subst c. exact IH.
Qed.

Definition all_ids (edges : list R) (tthr : R * R) (vs : list view) (b : nat) : list (nat * nat) :=
  flat_map (fun d => map (pair d) (cell_ids edges tthr (nth d vs (View [] [])) b)) (seq 0 (length vs)).
Lemma nodup_cell_ids edges tthr v b : NoDup (cell_ids edges tthr v b).
Proof. unfold cell_ids, ring_ids. do 2 apply NoDup_filter. apply seq_NoDup. Qed.
Lemma nodup_pairs (g : nat -> list nat) l : NoDup l -> (forall d, NoDup (g d)) -> NoDup (flat_map (fun d => map (pair d) (g d)) l).
Proof.
  intros Hl Hg. induction Hl as [|d t Hd Ht IH]; [constructor|]. cbn [flat_map].
  assert (K : forall x : nat * nat, In x (map (pair d) (g d)) -> ~ In x (flat_map (fun d => map (pair d) (g d)) t)).
  { intros x Hx Hy. apply in_map_iff in Hx as (i & <- & _). apply in_flat_map in Hy as (d' & Hd' & Hy). apply in_map_iff in Hy as (j & Ej & _).
    injection Ej as -> _. contradiction. }
  revert K. generalize (FinFun.Injective_map_NoDup (f := pair d) (l := g d)).
  intros HI. specialize (HI ltac:(intros x y Q; injection Q; auto) (Hg d)).
  induction HI as [|x u Hx Hu IH2]; intros K; [exact IH|]. cbn [app]. constructor.
  - rewrite in_app_iff. intros [Q|Q]; [contradiction|]. apply (K x); [left; auto|auto].
  - apply IH2. intros y Hy. apply K. right; auto.
Qed.
Lemma total_flat {A B} (f : B -> R) (g : A -> list B) l : total (map f (flat_map g l)) = total (map (fun a => total (map f (g a))) l).
Proof. induction l as [|a t IH]; [reflexivity|]. cbn [flat_map map]. rewrite map_app, total_app, IH. reflexivity. Qed.
Lemma map_seq_nth {A B} (f : A -> B) (d : A) l : map (fun k => f (nth k l d)) (seq 0 (length l)) = map f l.
Proof.
  induction l as [|a t IH]; [reflexivity|]. cbn [length seq map nth]. f_equal. rewrite <- seq_shift, map_map. exact IH.
Qed.

Lemma pack_right edges tthr threshold vs f b : (S b < length edges)%nat ->
  right_cell edges tthr threshold vs f b (pack_cell (map (fun v => the_cell edges tthr threshold v f b) vs)).
Proof.
  intros Hb. destruct (pack_cell _) as [s|] eqn:E.
  - exists (all_ids edges tthr vs b). split; [|split; [|split]].
    + unfold all_ids. apply nodup_pairs; [apply seq_NoDup|intros; apply nodup_cell_ids].
    + intros K. assert (Q : pack_cell (map (fun v => the_cell edges tthr threshold v f b) vs) = None); [|congruence].
      apply pack_none. apply Forall_forall. intros c Hc. apply in_map_iff in Hc as (v & <- & Hv).
      rewrite the_cell_val. destruct (Nat.eqb_spec (length (cell_ids edges tthr v b)) 0) as [Z|Z]; [reflexivity|].
      destruct (In_nth _ _ (View [] []) Hv) as (d & Hd & Ed).
      destruct (cell_ids edges tthr v b) as [|i t] eqn:Ei; [cbn in Z; congruence|].
      assert (Hin : In (d, i) (all_ids edges tthr vs b)).
      { unfold all_ids. apply in_flat_map. exists d. split; [apply in_seq; lia|]. rewrite Ed, Ei. left. reflexivity. }
      rewrite K in Hin. destruct Hin.
    + intros d i. unfold all_ids. rewrite in_flat_map. split.
      * intros (d' & Hd & Hin). apply in_map_iff in Hin as (j & Ej & Hj). injection Ej as -> ->. apply in_seq in Hd.
        exists (nth d vs (View [] [])). split; [apply nth_error_nth'; lia|]. apply in_cell_ids; auto.
      * intros (v & Ev & Hseen). pose proof (nth_error_nth _ _ (View [] []) Ev) as En. exists d. split.
        -- apply in_seq. split; [lia|]. cbn. apply nth_error_Some. congruence.
        -- rewrite En. apply in_map. apply in_cell_ids; auto.
    + unfold pack_cell in E. destruct (Nat.eqb _ 0); [discriminate|]. injection E as <-. rewrite pack_fold, Rplus_0_l.
      unfold all_ids. rewrite total_flat.
      rewrite <- (map_seq_nth (cell_sum edges tthr threshold f b) (View [] []) vs). f_equal. apply map_ext. intros d.
      rewrite map_map. reflexivity.
  - intros v i Hv Hseen. rewrite pack_none, Forall_forall in E.
    assert (K : the_cell edges tthr threshold v f b = None) by (apply E; apply in_map_iff; eauto).
    rewrite the_cell_val in K. apply in_cell_ids in Hseen; auto.
    destruct (cell_ids edges tthr v b); [destruct Hseen|discriminate].
Qed.
