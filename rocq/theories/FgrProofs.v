(** Lemmas for grain fitting. *)
From Coq Require Import Reals List ZArith Permutation Lia Lra.
From Verif Require Import Prelude Lin TensorModel RotModel RotSpec RotProofs2 FibModel EomModel EmsProofs CluProofs FgrModel FgrSpec.
Import ListNotations.
Local Open Scope R_scope.
Local Notation length := List.length.

Lemma Forall2_impl_in {A B} (Q Q' : A -> B -> Prop) l k : (forall x y, In x l -> In y k -> Q x y -> Q' x y) -> Forall2 Q l k -> Forall2 Q' l k.
Proof. intros H F. induction F; constructor; [apply H; [now left|now left|auto]|]. apply IHF. intros. apply H; [now right|now right|auto]. Qed.
Lemma NoDup_app_disj {A} (l1 l2 : list A) x : NoDup (l1 ++ l2) -> In x l1 -> ~ In x l2.
Proof.
  induction l1 as [|a t IH]; cbn [app]; intros ND Hi Hj; [destruct Hi|]. apply NoDup_cons_iff in ND. destruct ND as [N ND].
  destruct Hi as [->|Hi]; [|now apply (IH ND)]. apply N. apply in_or_app. now right.
Qed.
Lemma F2_length {A B} (Q : A -> B -> Prop) l k : Forall2 Q l k -> length l = length k.
Proof. intros F. induction F; cbn; auto. Qed.
Lemma nth_error_ext : forall {C} (l l' : list C), (forall j, nth_error l j = nth_error l' j) -> l = l'.
Proof.
  intros C l. induction l as [|a t IH]; intros [|b k] H; auto; try (specialize (H 0%nat); discriminate H).
  pose proof (H 0%nat) as H0. injection H0 as <-. f_equal. apply IH. intros j. exact (H (S j)).
Qed.

Section AllGrains.
Context {P : Type}.
Variable one : P -> P * result (R * option R).
Notation tbl := (list (Z * P)).
(** the outcome for a number: of the row with that index *)
Definition good (t : tbl) (g : Z) (f : fitted P) : Prop := exists i k p, row_index (length t) g = Some i /\ nth_error t i = Some (k, p) /\ fit_of one p f /\ f_id f = g.
Definition bad (t : tbl) (g : Z) (e : exn) : Prop := exists i k p, row_index (length t) g = Some i /\ nth_error t i = Some (k, p) /\ snd (one p) = Err e.
Definition in_table (n : nat) (gs : list Z) : Prop := (forall g, In g gs -> exists i, row_index n g = Some i) /\ NoDup (map (row_index n) gs).

Lemma row_index_lt n g i : row_index n g = Some i -> (i < n)%nat.
Proof.
  unfold row_index. destruct ((0 <=? g)%Z && (g <? Z.of_nat n)%Z)%bool eqn:E.
  - intros H. injection H as <-. apply Bool.andb_true_iff in E. destruct E as [A B]. apply Z.leb_le in A. apply Z.ltb_lt in B. lia.
  - destruct ((- Z.of_nat n <=? g)%Z && (g <? 0)%Z)%bool eqn:F; [|discriminate]. intros H. injection H as <-.
    apply Bool.andb_true_iff in F. destruct F as [A B]. apply Z.leb_le in A. apply Z.ltb_lt in B. lia.
Qed.
Lemma row_index_pos n j : (j < n)%nat -> row_index n (Z.of_nat j) = Some j.
Proof.
  intros H. unfold row_index. replace (0 <=? Z.of_nat j)%Z with true by (symmetry; apply Z.leb_le; lia).
  replace (Z.of_nat j <? Z.of_nat n)%Z with true by (symmetry; apply Z.ltb_lt; lia). cbn [andb]. now rewrite Nat2Z.id.
Qed.

Definition shown (t t' : tbl) (g : Z) (v : viewed) : Prop := exists k p q, row_index (length t) g = Some (v_row v) /\ nth_error t (v_row v) = Some (k, p) /\
  one p = (q, Ok (v_compl v, v_chisq v)) /\ v_id v = g /\ nth_error t' (v_row v) = Some (k, q).
Lemma run_spec gs : forall t, in_table (length t) gs -> exists t' r, run one t gs = (t', r) /\ length t' = length t /\
  (forall i, ~ In (Some i) (map (row_index (length t)) gs) -> nth_error t' i = nth_error t i) /\
  match r with Ok vs => Forall2 (shown t t') gs vs | Err e => exists g, In g gs /\ bad t g e end.
Proof.
  induction gs as [|g gs IH]; intros t [IR ND]; cbn [run].
  { exists t, (Ok []). repeat split; auto. }
  destruct (IR g (or_introl eq_refl)) as [i Hi]. pose proof (row_index_lt _ _ _ Hi) as Li.
  unfold task. rewrite Hi. destruct (nth_error t i) as [[k p]|] eqn:E; [|apply nth_error_None in E; lia].
  destruct (one p) as [q [[c x]|e]] eqn:O; cbn [rbind fst snd].
  2:{ exists (set_nth i (k, q) t), (Err e). rewrite set_nth_length. split; [reflexivity|]. split; [reflexivity|]. split.
      - intros j Hj. apply set_nth_ne. intros ->. apply Hj. left. exact Hi.
      - exists g. split; [now left|]. exists i, k, p. rewrite O. auto. }
  cbn [map] in ND. apply NoDup_cons_iff in ND. destruct ND as [NI ND].
  destruct (IH (set_nth i (k, q) t)) as (t' & r & ER & L & Same & R).
  { rewrite set_nth_length. split; [intros; apply IR; now right|exact ND]. }
  rewrite set_nth_length in L, Same. rewrite ER. exists t'. eexists. split; [reflexivity|]. split; [exact L|]. split.
  { intros j Hj. cbn [map] in Hj. rewrite Same by (intros Z; apply Hj; now right). apply set_nth_ne. intros ->. apply Hj. left. exact Hi. }
  destruct r as [vs|e]; cbn [rbind].
  - constructor.
    + exists k, p, q. cbn [v_row v_compl v_chisq v_id]. split; [exact Hi|]. split; [exact E|]. split; [exact O|]. split; [reflexivity|].
      rewrite Same by (rewrite <- Hi; exact NI). now apply set_nth_eq.
    + eapply Forall2_impl_in; [|exact R]. intros g' v Hg Hv (k' & p' & q' & A & B & C & D & F).
      rewrite set_nth_length in A. exists k', p', q'. split; [exact A|]. split; [|auto].
      rewrite <- B. symmetry. apply set_nth_ne. intros EQ. apply NI. rewrite Hi, EQ, <- A. apply in_map. exact Hg.
  - destruct R as (g' & Hg & i' & k' & p' & A & B & C). exists g'. split; [now right|]. rewrite set_nth_length in A. exists i', k', p'.
    split; [exact A|]. split; [|exact C]. rewrite <- B. symmetry. apply set_nth_ne. intros EQ. apply NI. rewrite Hi, EQ, <- A. apply in_map. exact Hg.
Qed.
Lemma serial_spec gs t : in_table (length t) gs -> exists t' r, serial one t gs = (t', r) /\ length t' = length t /\
  (forall i, ~ In (Some i) (map (row_index (length t)) gs) -> nth_error t' i = nth_error t i) /\
  match r with Ok fs => Forall2 (good t) gs fs /\ (forall g i k p, In g gs -> row_index (length t) g = Some i -> nth_error t i = Some (k, p) -> nth_error t' i = Some (k, fst (one p)))
             | Err e => exists g, In g gs /\ bad t g e end.
Proof.
  intros IT. destruct (run_spec gs t IT) as (t' & r & E & L & Same & R). unfold serial. rewrite E. exists t'. eexists. split; [reflexivity|].
  split; [exact L|]. split; [exact Same|]. destruct r as [vs|e]; cbn [rbind]; [|exact R].
  assert (X : exists fs, map_res (read_view t') vs = Ok fs /\ Forall2 (good t) gs fs).
  { clear - R. induction R as [|g v gs vs (k & p & q & A & B & C & D & F) R IH]; [exists []; split; [reflexivity|constructor]|].
    destruct IH as (fs & Ef & Ff). cbn [map_res]. unfold read_view at 1. rewrite F. cbn [rbind]. rewrite Ef. cbn [rbind]. eexists. split; [reflexivity|].
    constructor; [|exact Ff]. exists (v_row v), k, p. unfold fit_of. cbn [f_id f_params f_compl f_chisq]. auto. }
  destruct X as (fs & -> & Ff). split; [exact Ff|]. intros g i k p Hg Hi Hp.
  clear - R Hg Hi Hp. induction R as [|g' v gs vs (k' & p' & q' & A & B & C & D & F) R IH]; [destruct Hg|].
  destruct Hg as [->|Hg]; [|auto]. rewrite Hi in A. injection A as A. subst i. rewrite Hp in B. injection B as <- <-. rewrite C. exact F.
Qed.

(** a worker's copy agrees with the table on the rows it has not yet touched *)
Lemma worker_spec ids t0 chunks : forall t, length t = length t0 -> in_table (length t0) (map (fun j => nth j ids 0%Z) (concat chunks)) ->
  (forall g i, In g (map (fun j => nth j ids 0%Z) (concat chunks)) -> row_index (length t0) g = Some i -> nth_error t i = nth_error t0 i) ->
  (forall j r, In (j, r) (worker one t ids chunks) -> match r with Ok f => good t0 (nth j ids 0%Z) f | Err e => exists j', In j' (concat chunks) /\ bad t0 (nth j' ids 0%Z) e end) /\
  (forall j, In j (concat chunks) -> exists r, In (j, r) (worker one t ids chunks)).
Proof.
  induction chunks as [|c cs IH]; intros t L IT AG; [split; [intros ? ? []|intros ? []]|].
  cbn [concat] in IT, AG. rewrite map_app in IT, AG. destruct IT as [IR ND]. rewrite map_app in ND.
  assert (ITc : in_table (length t) (map (fun j => nth j ids 0%Z) c)).
  { rewrite L. split; [intros; apply IR; apply in_or_app; now left|]. eapply NoDup_app_l; exact ND. }
  destruct (serial_spec _ t ITc) as (t' & r & E & L' & Same & R). cbn [worker]. rewrite E.
  destruct (IH t') as [IH1 IH2].
  { congruence. }
  { split; [intros; apply IR; apply in_or_app; now right|]. eapply NoDup_app_r; exact ND. }
  { intros g i Hg Hi. rewrite Same; [apply AG with g; [apply in_or_app; now right|exact Hi]|]. rewrite L. intros Z.
    apply (NoDup_app_disj _ _ _ ND Z). rewrite <- Hi. apply in_map. exact Hg. }
  assert (AGc : forall g i, In g (map (fun j => nth j ids 0%Z) c) -> row_index (length t0) g = Some i -> nth_error t i = nth_error t0 i).
  { intros. apply AG with g; auto. apply in_or_app. now left. }
  split.
  - intros j r' Hin. apply in_app_or in Hin. destruct Hin as [Hin|Hin].
    + destruct r as [fs|e].
      * destruct R as [R _]. assert (X : exists f, r' = Ok f /\ good t (nth j ids 0%Z) f).
        { clear - R Hin. revert fs R Hin. induction c as [|a c IHc]; intros fs R Hin; [destruct Hin|]. cbn [map] in R.
          inversion R as [|g f gs fs' Rf Rs]; subst. cbn [map combine] in Hin. destruct Hin as [Hin|Hin]; [injection Hin as <- <-; eauto|]. eapply IHc; eauto. }
        destruct X as (f & -> & i & k & p & A & B & C). exists i, k, p. rewrite L in A. split; [exact A|]. split; [|exact C]. rewrite <- B. symmetry. eapply AGc; [|exact A].
        apply (in_map (fun j => nth j ids 0%Z)). clear - Hin. apply in_combine_l in Hin. exact Hin.
      * apply in_map_iff in Hin. destruct Hin as (j0 & Hj & Hin). injection Hj as <- <-. destruct R as (g & Hg & i & k & p & A & B & C).
        apply in_map_iff in Hg. destruct Hg as (j' & <- & Hj'). exists j'. split; [cbn [concat]; apply in_or_app; now left|]. exists i, k, p. rewrite L in A. split; [exact A|]. split; [|exact C].
        rewrite <- B. symmetry. eapply AGc; [|exact A]. apply (in_map (fun j => nth j ids 0%Z)). exact Hj'.
    + specialize (IH1 j r' Hin). destruct r' as [f|e]; [exact IH1|]. destruct IH1 as (j' & Hj & Hb). exists j'. split; [cbn [concat]; apply in_or_app; now right|exact Hb].
  - intros j Hj. cbn [concat] in Hj. apply in_app_or in Hj. destruct Hj as [Hj|Hj].
    + destruct r as [fs|e].
      * destruct R as [R _]. assert (LL : length fs = length c) by (apply F2_length in R; rewrite map_length in R; auto).
        assert (X : exists r, In (j, r) (combine c (map (@Ok (fitted P)) fs))).
        { clear - LL Hj. revert fs LL. induction c as [|a c IHc]; intros fs LL; [destruct Hj|]. destruct fs as [|f fs]; [discriminate|]. cbn [map combine].
          destruct Hj as [->|Hj]; [eexists; now left|]. destruct (IHc Hj fs) as [r Hr]; [cbn in LL; lia|]. exists r. now right. }
        destruct X as [r Hr]. exists r. apply in_or_app. now left.
      * exists (Err e). apply in_or_app. left. apply (in_map (fun j => (j, Err e))). exact Hj.
    + destruct (IH2 j Hj) as [r' Hr]. exists r'. apply in_or_app. now right.
Qed.
Lemma map_res_cases {A B} (f : A -> result B) l : (exists rs, map_res f l = Ok rs /\ Forall2 (fun a b => f a = Ok b) l rs) \/ (exists e a, map_res f l = Err e /\ In a l /\ f a = Err e).
Proof.
  induction l as [|a t IH]; [left; exists []; split; [reflexivity|constructor]|]. cbn [map_res]. destruct (f a) as [b|e] eqn:E; cbn [rbind].
  - destruct IH as [(rs & -> & F)|(e & a' & -> & I & Fe)]; cbn [rbind]; [left; eexists; split; [reflexivity|now constructor]|].
    right. exists e, a'. split; [reflexivity|]. split; [now right|exact Fe].
  - right. exists e, a. split; [reflexivity|]. split; [now left|exact E].
Qed.
Lemma in_table_sub n ids js js' : (forall j, In j js -> (j < length ids)%nat) -> in_table n ids -> Permutation js js' -> NoDup js' -> in_table n (map (fun j => nth j ids 0%Z) js).
Proof.
  intros Lt [IR ND] Pm ND'. split.
  - intros g Hg. apply in_map_iff in Hg. destruct Hg as (j & <- & Hj). apply IR. apply nth_In. auto.
  - rewrite map_map. assert (NDj : NoDup js) by (eapply Permutation_NoDup; [symmetry; exact Pm|exact ND']). clear ND' Pm.
    induction js as [|j js IH]; [constructor|]. apply NoDup_cons_iff in NDj. destruct NDj as [NI NDj]. cbn [map]. constructor; [|apply IH; auto; intros; apply Lt; now right].
    intros Z. apply in_map_iff in Z. destruct Z as (j' & E & Hj'). assert (j = j'); [|subst; contradiction].
    assert (A : (j < length ids)%nat) by (apply Lt; now left). assert (B : (j' < length ids)%nat) by (apply Lt; now right).
    rewrite (NoDup_nth (map (row_index n) ids) None) in ND. symmetry. apply ND; rewrite ?map_length; auto.
    rewrite !(nth_indep _ None (row_index n 0%Z)) by (rewrite map_length; auto). rewrite !map_nth. exact E.
Qed.
Lemma concat_in {A} (x : list A) (ll : list (list A)) a : In x ll -> In a x -> In a (concat ll).
Proof. intros H K. apply in_concat. eauto. Qed.
Lemma NoDup_concat_part {A} (ll : list (list A)) l : NoDup (concat ll) -> In l ll -> NoDup l.
Proof. induction ll as [|x t IH]; intros ND I; [destruct I|]. cbn [concat] in ND. destruct I as [->|I]; [eapply NoDup_app_l; exact ND|]. apply IH; auto. eapply NoDup_app_r; exact ND. Qed.
Lemma concat_map_in {A} (s : list (list (list A))) w : In w s -> forall a, In a (concat w) -> In a (concat (concat s)).
Proof. intros I a K. apply in_concat in K. destruct K as (c & Ic & Ia). apply in_concat. exists c. split; auto. apply in_concat. eauto. Qed.
Lemma concat_map_nodup {A} (s : list (list (list A))) w : NoDup (concat (concat s)) -> In w s -> NoDup (concat w).
Proof.
  induction s as [|x t IH]; intros ND I; [destruct I|]. cbn [concat] in ND. rewrite concat_app in ND. destruct I as [->|I]; [eapply NoDup_app_l; exact ND|]. apply IH; auto. eapply NoDup_app_r; exact ND.
Qed.
Lemma parallel_spec t ids s : in_table (length t) ids -> shares_out (length ids) s ->
  match parallel one t ids s with
  | Ok fs => Forall2 (good t) ids fs
  | Err e => exists g, In g ids /\ bad t g e
  end.
Proof.
  intros IT SH. assert (NDs : NoDup (concat (concat s))) by (eapply Permutation_NoDup; [symmetry; exact SH|apply seq_NoDup]).
  assert (Lt : forall j, In j (concat (concat s)) -> (j < length ids)%nat) by (intros j Hj; apply (Permutation_in _ SH) in Hj; apply in_seq in Hj; lia).
  assert (W : forall w, In w s -> (forall j r, In (j, r) (worker one t ids w) -> match r with Ok f => good t (nth j ids 0%Z) f | Err e => exists j', In j' (concat w) /\ bad t (nth j' ids 0%Z) e end) /\
    (forall j, In j (concat w) -> exists r, In (j, r) (worker one t ids w))).
  { intros w Hw. apply worker_spec; auto. eapply in_table_sub; [|exact IT|reflexivity|].
    - intros j Hj. apply Lt. eapply concat_map_in; eauto.
    - eapply concat_map_nodup; eauto. }
  unfold parallel. set (look := fun j => _).
  assert (LK : forall j, (j < length ids)%nat -> match look j with Ok f => good t (nth j ids 0%Z) f | Err e => exists g, In g ids /\ bad t g e end).
  { intros j Hj. unfold look. assert (I : In j (concat (concat s))) by (apply (Permutation_in _ (Permutation_sym SH)); apply in_seq; lia).
    apply in_concat in I. destruct I as (c & Ic & Ij). apply in_concat in Ic. destruct Ic as (w & Iw & Ic). destruct (W w Iw) as [W1 W2].
    destruct (W2 j (concat_in _ _ _ Ic Ij)) as [r Hr].
    destruct (find (fun x => Nat.eqb (fst x) j) (flat_map (worker one t ids) s)) as [[j' r']|] eqn:F.
    - apply find_some in F. destruct F as [F1 F2]. cbn [fst] in F2. apply Nat.eqb_eq in F2. subst j'. apply in_flat_map in F1. destruct F1 as (w' & Iw' & F1).
      destruct (W w' Iw') as [W1' _]. specialize (W1' j r' F1). destruct r' as [f|e]; [exact W1'|]. destruct W1' as (j' & Hj' & Hb). exists (nth j' ids 0%Z). split; [|exact Hb].
      apply nth_In. apply Lt. eapply concat_map_in; eauto.
    - exfalso. assert (I : In (j, r) (flat_map (worker one t ids) s)) by (apply in_flat_map; eauto). pose proof (find_none _ _ F _ I) as N. cbn [fst] in N. rewrite Nat.eqb_refl in N. discriminate. }
  destruct (map_res_cases look (seq 0 (length ids))) as [(rs & -> & F)|(e & j & -> & I & Fe)].
  - clear - F LK. assert (G : forall n ids' (rs : list (fitted P)), (forall k, (k < length ids')%nat -> match look (n + k)%nat with Ok f => good t (nth k ids' 0%Z) f | Err e => exists g, In g ids /\ bad t g e end) ->
      Forall2 (fun a b => look a = Ok b) (seq n (length ids')) rs -> Forall2 (good t) ids' rs).
    { intros n ids'. revert n. induction ids' as [|g gs IH]; intros n rs' H F'; cbn [length seq] in F'; inversion F' as [|a b l l' Fb Fl]; subst; constructor.
      - specialize (H 0%nat ltac:(cbn; lia)). rewrite Nat.add_0_r, Fb in H. exact H.
      - apply (IH (S n)); [|exact Fl]. intros k Hk. specialize (H (S k) ltac:(cbn; lia)). rewrite Nat.add_succ_r in H. exact H. }
    apply (G 0%nat); [|exact F]. intros k Hk. exact (LK k Hk).
  - apply in_seq in I. specialize (LK j ltac:(lia)). rewrite Fe in LK. exact LK.
Qed.
Lemma numbered_table (t : tbl) : numbered t -> in_table (length t) (map fst t) /\ map fst t = map Z.of_nat (seq 0 (length t)).
Proof.
  intros N. assert (E : map fst t = map Z.of_nat (seq 0 (length t))).
  { apply nth_error_ext. intros j. rewrite !nth_error_map. destruct (nth_error t j) as [[k p]|] eqn:E.
    - cbn [option_map fst]. pose proof (N _ _ _ E) as ->. assert (L : (j < length t)%nat) by (apply nth_error_Some; congruence).
      rewrite (nth_error_nth' _ 0%nat) by (rewrite seq_length; auto). rewrite seq_nth by auto. reflexivity.
    - cbn [option_map]. apply nth_error_None in E. replace (nth_error (seq 0 (length t)) j) with (@None nat); auto. symmetry. apply nth_error_None. rewrite seq_length. auto. }
  split; [|exact E]. rewrite E. split.
  - intros g Hg. apply in_map_iff in Hg. destruct Hg as (j & <- & Hj). apply in_seq in Hj. exists j. apply row_index_pos. lia.
  - rewrite map_map. rewrite (map_ext_in _ (fun j => Some j)); [|intros j Hj; apply in_seq in Hj; apply row_index_pos; lia].
    apply FinFun.Injective_map_NoDup; [intros a b H; injection H; auto|apply seq_NoDup].
Qed.
End AllGrains.
