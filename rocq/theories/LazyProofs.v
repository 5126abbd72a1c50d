(** Lemmas for C56-C57. *)
From Verif Require Import Prelude LazyModel LazySpec.

Section Lock.
Variables (content : list nat) (loads_ok : nat -> bool).

Definition holds_lock (pc : lpc) : bool :=
  match pc with LCheck2 | LLoad | LSetFlag | LRelease | LFail => true | _ => false end.

Definition pcok (s : lstate) (pc : lpc) : Prop :=
  match pc with
  | LCheck1 | LAcquire | LCheck2 | LRaised => True
  | LLoad | LFail => l_flag s = false /\ l_good s = 0
  | LSetFlag => l_flag s = false /\ l_list s = content /\ l_good s = 1
  | LRelease | LUse => l_flag s = true
  | LDone v => v = content
  end.

Record linv (s : lstate) : Prop := {
  i_lock : forall w pc, nth_error (l_pcs s) w = Some pc -> (holds_lock pc = true <-> l_lock s = Some w);
  i_lockr : forall w, l_lock s = Some w -> w < length (l_pcs s);
  i_pc : forall w pc, nth_error (l_pcs s) w = Some pc -> pcok s pc;
  i_flag : l_flag s = true -> l_list s = content /\ l_good s = 1;
  i_good : l_flag s = false -> l_good s = 0 \/ l_good s = 1 /\ exists w, nth_error (l_pcs s) w = Some LSetFlag
}.

Lemma linit_inv n : linv (linit n).
Proof.
  assert (A : forall w pc, nth_error (repeat LCheck1 n) w = Some pc -> pc = LCheck1).
  { intros w pc H. apply nth_error_In, repeat_spec in H. auto. }
  constructor; cbn; try discriminate; auto.
  - intros w pc H. apply A in H. subst. cbn. split; discriminate.
  - intros w pc H. apply A in H. subst. exact I.
Qed.

Lemma lstep_inv s s' w : linv s -> lstep content loads_ok s w = Some s' -> linv s'.
Proof.
  intros I H. unfold lstep in H. destruct (nth_error (l_pcs s) w) as [pc|] eqn:Ew; [|discriminate].
  assert (Lw : w < length (l_pcs s)) by (apply nth_error_Some; congruence).
  pose proof (i_pc _ I _ _ Ew) as Hpc. pose proof (i_lock _ I _ _ Ew) as Hlk.
  assert (G : forall pc' w2 q, nth_error (set_nth w pc' (l_pcs s)) w2 = Some q ->
            (w2 = w /\ q = pc') \/ (w2 <> w /\ nth_error (l_pcs s) w2 = Some q)).
  { intros pc' w2 q Hq. destruct (Nat.eq_dec w w2) as [<-|Hne].
    - rewrite set_nth_eq in Hq by auto. left; split; congruence.
    - rewrite set_nth_ne in Hq by auto. right; auto. }
  assert (K : forall w2 q, w2 <> w -> holds_lock pc = true -> nth_error (l_pcs s) w2 = Some q -> holds_lock q = false).
  { intros w2 q Hne Hh Hq. destruct (holds_lock q) eqn:E; auto. apply (i_lock _ I _ _ Hq) in E. apply Hlk in Hh. congruence. }
  destruct pc; cbn [holds_lock pcok] in *.
  - (* check 1 *)
    injection H as <-. constructor; cbn [l_flag l_lock l_list l_loads l_good l_pcs].
    + intros w2 q Hq. apply G in Hq as [[-> ->]|[Hne Hq]]; [|apply (i_lock _ I _ _ Hq)].
      destruct (l_flag s); cbn [holds_lock]; exact Hlk.
    + rewrite set_nth_length. apply (i_lockr _ I).
    + intros w2 q Hq. apply G in Hq as [[-> ->]|[Hne Hq]]; [|apply (i_pc _ I _ _ Hq)].
      destruct (l_flag s) eqn:Ef; cbn; auto.
    + apply (i_flag _ I).
    + intros Hf. destruct (i_good _ I Hf) as [Hg|[Hg [w2 Hw2]]]; [auto|right]. split; auto. exists w2.
      rewrite set_nth_ne; auto. intros ->. congruence.
  - (* acquire *)
    destruct (l_lock s) eqn:El; [discriminate|]. injection H as <-. constructor; cbn [l_flag l_lock l_list l_loads l_good l_pcs].
    + intros w2 q Hq. apply G in Hq as [[-> ->]|[Hne Hq]]; [cbn; tauto|].
      pose proof (i_lock _ I _ _ Hq) as Hl. rewrite El in Hl. split; [intros Hh; apply Hl in Hh; discriminate|congruence].
    + intros w2 E. injection E as <-. rewrite set_nth_length. auto.
    + intros w2 q Hq. apply G in Hq as [[-> ->]|[Hne Hq]]; [exact Logic.I|apply (i_pc _ I _ _ Hq)].
    + apply (i_flag _ I).
    + intros Hf. destruct (i_good _ I Hf) as [Hg|[Hg [w2 Hw2]]]; [auto|right]. split; auto. exists w2.
      rewrite set_nth_ne; auto. intros ->. congruence.
  - (* check 2 *)
    injection H as <-. constructor; cbn [l_flag l_lock l_list l_loads l_good l_pcs].
    + intros w2 q Hq. apply G in Hq as [[-> ->]|[Hne Hq]]; [|apply (i_lock _ I _ _ Hq)].
      destruct (l_flag s); cbn [holds_lock]; exact Hlk.
    + rewrite set_nth_length. apply (i_lockr _ I).
    + intros w2 q Hq. apply G in Hq as [[-> ->]|[Hne Hq]]; [|apply (i_pc _ I _ _ Hq)].
      destruct (l_flag s) eqn:Ef; cbn [pcok l_flag l_good]; auto. split; auto.
      destruct (i_good _ I Ef) as [Hg|[Hg [w2 Hw2]]]; auto. exfalso.
      destruct (Nat.eq_dec w2 w) as [->|Hne]; [congruence|]. specialize (K w2 _ Hne eq_refl Hw2). discriminate.
    + apply (i_flag _ I).
    + intros Hf. destruct (i_good _ I Hf) as [Hg|[Hg [w2 Hw2]]]; [auto|right]. split; auto. exists w2.
      rewrite set_nth_ne; auto. intros ->. congruence.
  - (* load *)
    destruct Hpc as [Hf Hg].
    destruct (loads_ok (l_loads s)); injection H as <-; constructor; cbn [l_flag l_lock l_list l_loads l_good l_pcs].
    + intros w2 q Hq. apply G in Hq as [[-> ->]|[Hne Hq]]; [exact Hlk|apply (i_lock _ I _ _ Hq)].
    + rewrite set_nth_length. apply (i_lockr _ I).
    + intros w2 q Hq. apply G in Hq as [[-> ->]|[Hne Hq]]; [cbn; auto|].
      specialize (K w2 q Hne eq_refl Hq). pose proof (i_pc _ I _ _ Hq) as Hok.
      destruct q; cbn in *; try discriminate; auto.
    + congruence.
    + intros _. right. split; [lia|]. exists w. apply set_nth_eq; auto.
    + intros w2 q Hq. apply G in Hq as [[-> ->]|[Hne Hq]]; [exact Hlk|apply (i_lock _ I _ _ Hq)].
    + rewrite set_nth_length. apply (i_lockr _ I).
    + intros w2 q Hq. apply G in Hq as [[-> ->]|[Hne Hq]]; [cbn; auto|apply (i_pc _ I _ _ Hq)].
    + congruence.
    + auto.
  - (* set flag *)
    destruct Hpc as (Hf & Hl & Hg). injection H as <-; constructor; cbn [l_flag l_lock l_list l_loads l_good l_pcs].
    + intros w2 q Hq. apply G in Hq as [[-> ->]|[Hne Hq]]; [exact Hlk|apply (i_lock _ I _ _ Hq)].
    + rewrite set_nth_length. apply (i_lockr _ I).
    + intros w2 q Hq. apply G in Hq as [[-> ->]|[Hne Hq]]; [cbn; auto|].
      specialize (K w2 q Hne eq_refl Hq). pose proof (i_pc _ I _ _ Hq) as Hok.
      destruct q; cbn in *; try discriminate; auto.
    + auto.
    + discriminate.
  - (* release *)
    injection H as <-; constructor; cbn [l_flag l_lock l_list l_loads l_good l_pcs].
    + intros w2 q Hq. apply G in Hq as [[-> ->]|[Hne Hq]]; [cbn; split; discriminate|].
      rewrite (K w2 q Hne eq_refl Hq). split; discriminate.
    + discriminate.
    + intros w2 q Hq. apply G in Hq as [[-> ->]|[Hne Hq]]; [cbn; auto|apply (i_pc _ I _ _ Hq)].
    + apply (i_flag _ I).
    + congruence.
  - (* fail *)
    destruct Hpc as [Hf Hg]. injection H as <-; constructor; cbn [l_flag l_lock l_list l_loads l_good l_pcs].
    + intros w2 q Hq. apply G in Hq as [[-> ->]|[Hne Hq]]; [cbn; split; discriminate|].
      rewrite (K w2 q Hne eq_refl Hq). split; discriminate.
    + discriminate.
    + intros w2 q Hq. apply G in Hq as [[-> ->]|[Hne Hq]]; [cbn; auto|apply (i_pc _ I _ _ Hq)].
    + congruence.
    + auto.
  - (* use *)
    destruct (i_flag _ I Hpc) as [Hl Hg].
    injection H as <-; constructor; cbn [l_flag l_lock l_list l_loads l_good l_pcs].
    + intros w2 q Hq. apply G in Hq as [[-> ->]|[Hne Hq]]; [exact Hlk|apply (i_lock _ I _ _ Hq)].
    + rewrite set_nth_length. apply (i_lockr _ I).
    + intros w2 q Hq. apply G in Hq as [[-> ->]|[Hne Hq]]; [cbn; auto|apply (i_pc _ I _ _ Hq)].
    + auto.
    + congruence.
  - discriminate.
  - discriminate.
Qed.

Lemma lrun_inv sched : forall s s', linv s -> lrun content loads_ok s sched = Some s' -> linv s'.
Proof.
  induction sched as [|w sched IH]; cbn [lrun]; intros s s' I H; [injection H as <-; auto|].
  destruct (lstep content loads_ok s w) as [s1|] eqn:E; [|discriminate]. eapply IH; [|exact H]. eapply lstep_inv; eauto.
Qed.

Lemma lazy_safe n sched s : lrun content loads_ok (linit n) sched = Some s ->
  (forall w v, nth_error (l_pcs s) w = Some (LDone v) -> v = content) /\ l_good s <= 1.
Proof.
  intros H. pose proof (lrun_inv _ _ _ (linit_inv n) H) as I. split.
  - intros w v Hw. apply (i_pc _ I _ _ Hw).
  - destruct (l_flag s) eqn:E; [destruct (i_flag _ I E); lia|]. destruct (i_good _ I E) as [?|[? _]]; lia.
Qed.

Lemma lazy_no_deadlock n sched s : lrun content loads_ok (linit n) sched = Some s ->
  forallb l_stopped (l_pcs s) = true \/ exists w s', lstep content loads_ok s w = Some s'.
Proof.
  intros H. pose proof (lrun_inv _ _ _ (linit_inv n) H) as I.
  destruct (forallb l_stopped (l_pcs s)) eqn:E; [auto|right].
  assert (A : exists pc, In pc (l_pcs s) /\ l_stopped pc = false).
  { clear -E. induction (l_pcs s) as [|x l IH]; cbn in E; [discriminate|]. destruct (l_stopped x) eqn:Ex.
    - destruct (IH E) as (y & ? & ?). exists y. cbn; auto.
    - exists x. cbn; auto. }
  destruct A as (pc & Hin & Hs). apply In_nth_error in Hin as [w Hw].
  destruct pc; try discriminate Hs.
  2:{ destruct (l_lock s) as [w2|] eqn:El.
      - pose proof (i_lockr _ I _ El) as Hr. destruct (nth_error (l_pcs s) w2) as [q|] eqn:Eq; [|apply nth_error_None in Eq; lia].
        pose proof (proj2 (i_lock _ I _ _ Eq) El) as Hh. exists w2. unfold lstep. rewrite Eq.
        destruct q; try discriminate Hh; eauto. destruct (loads_ok _); eauto.
      - exists w. unfold lstep. rewrite Hw, El. eauto. }
  all: exists w; unfold lstep; rewrite Hw; eauto.
  destruct (loads_ok _); eauto.
Qed.

Definition lwork (pc : lpc) : nat :=
  match pc with LCheck1 => 7 | LAcquire => 6 | LCheck2 => 5 | LLoad => 4 | LSetFlag => 3 | LRelease => 2 | LFail => 1 | LUse => 1
           | LDone _ | LRaised => 0 end.
Lemma lsum_set_nth l w x x' : nth_error l w = Some x ->
  list_sum (map lwork (set_nth w x' l)) + lwork x = list_sum (map lwork l) + lwork x'.
Proof.
  unfold list_sum. revert w; induction l as [|y l IH]; intros [|w] H; cbn [map fold_right set_nth nth_error] in *; try discriminate.
  - injection H as ->. lia.
  - apply IH in H. lia.
Qed.

Lemma lstep_work s s' w : lstep content loads_ok s w = Some s' ->
  list_sum (map lwork (l_pcs s')) < list_sum (map lwork (l_pcs s)).
Proof.
  unfold lstep. destruct (nth_error (l_pcs s) w) as [pc|] eqn:Ew; [|discriminate]. destruct pc; try discriminate.
  2: destruct (l_lock s); [discriminate|].
  4: destruct (loads_ok _).
  all: intros H; injection H as <-; cbn [l_pcs].
  all: try (match goal with |- context [if ?b then _ else _] => destruct b end).
  all: match goal with |- context [set_nth _ ?x' _] => pose proof (lsum_set_nth _ _ _ x' Ew) as Hs end; cbn [lwork] in *; lia.
Qed.

Lemma lazy_bounded n sched s : lrun content loads_ok (linit n) sched = Some s -> length sched <= 7 * n.
Proof.
  intros H. enough (length sched + list_sum (map lwork (l_pcs s)) <= list_sum (map lwork (l_pcs (linit n)))) as G.
  { assert (E : list_sum (map lwork (l_pcs (linit n))) = 7 * n).
    { cbn [linit l_pcs]. clear. unfold list_sum. induction n as [|n IH]; cbn [repeat map fold_right]; [lia|]. rewrite IH. cbn [lwork]. lia. }
    lia. }
  revert H. generalize (linit n) as s0. induction sched as [|w sched IH]; cbn [lrun length]; intros s0 H; [injection H as <-; lia|].
  destruct (lstep content loads_ok s0 w) as [s1|] eqn:E; [|discriminate]. apply lstep_work in E. apply IH in H. lia.
Qed.

Lemma lazy_raise_needs_failed_load n sched s w : lrun content loads_ok (linit n) sched = Some s ->
  (forall k, loads_ok k = true) -> nth_error (l_pcs s) w <> Some LRaised.
Proof.
  intros H Hok.
  enough (forall w, nth_error (l_pcs s) w <> Some LRaised /\ nth_error (l_pcs s) w <> Some LFail) by firstorder.
  revert H. assert (G : forall w, nth_error (l_pcs (linit n)) w <> Some LRaised /\ nth_error (l_pcs (linit n)) w <> Some LFail).
  { intros w0. cbn. split; intros E; apply nth_error_In, repeat_spec in E; discriminate. }
  revert G. generalize (linit n) as s0. induction sched as [|w1 sched IH]; cbn [lrun]; intros s0 G H; [injection H as <-; auto|].
  destruct (lstep content loads_ok s0 w1) as [s1|] eqn:E; [|discriminate]. eapply IH; [|exact H].
  clear -E G Hok. unfold lstep in E. destruct (nth_error (l_pcs s0) w1) as [pc|] eqn:Ew; [|discriminate].
  assert (Lw : w1 < length (l_pcs s0)) by (apply nth_error_Some; congruence).
  assert (A : forall pc', pc' <> LRaised -> pc' <> LFail -> forall w,
     nth_error (set_nth w1 pc' (l_pcs s0)) w <> Some LRaised /\ nth_error (set_nth w1 pc' (l_pcs s0)) w <> Some LFail).
  { intros pc' H1 H2 w. destruct (Nat.eq_dec w1 w) as [<-|Hne].
    - rewrite set_nth_eq by auto. split; congruence.
    - rewrite set_nth_ne by auto. apply G. }
  destruct pc; try discriminate.
  - injection E as <-. cbn [l_pcs]. apply A; destruct (l_flag s0); discriminate.
  - destruct (l_lock s0); [discriminate|]. injection E as <-. apply A; discriminate.
  - injection E as <-. cbn [l_pcs]. apply A; destruct (l_flag s0); discriminate.
  - rewrite Hok in E. injection E as <-. apply A; discriminate.
  - injection E as <-. apply A; discriminate.
  - injection E as <-. apply A; discriminate.
  - destruct (G w1). congruence.
  - injection E as <-. apply A; discriminate.
Qed.
End Lock.

Section Lru.
Context {C : Type}.
Implicit Types (l : list ((nat * nat) * C)).

Lemma fc_lookup_in k l c : fc_lookup k l = Some c -> In (k, c) l.
Proof.
  induction l as [|[[p i] c'] l IH]; cbn; [discriminate|]. destruct (Nat.eqb_spec p (fst k)), (Nat.eqb_spec i (snd k)); cbn [andb];
    try (intros H; right; auto; fail). intros E. injection E as <-. left. destruct k; cbn in *; subst; reflexivity.
Qed.

Lemma in_firstn_in {A} (x : A) k (l : list A) : In x (firstn k l) -> In x l.
Proof. revert k; induction l as [|y l IH]; intros [|k]; cbn; try tauto. intros [?|?]; eauto. Qed.

(** Everything on disk or in the cache was written by an event of the history. *)
Definition fc_ok (es : list (fevent C)) (s : fcache C) : Prop :=
  (forall p i c, fc_disk s p = Some (i, c) -> In (FWrite p i c) es) /\
  (forall p i c, In ((p, i), c) (fc_cache s) -> In (FWrite p i c) es) /\
  length (fc_cache s) <= 2.

Lemma fc_remove_length k l : length (fc_remove k l) <= length l.
Proof. apply (cnt_le _ l). Qed.
Lemma fc_remove_length_in k c l : In (k, c) l -> length (fc_remove k l) < length l.
Proof.
  induction l as [|e l IH]; cbn; [contradiction|]. intros [-> |H].
  - rewrite !Nat.eqb_refl. cbn. pose proof (fc_remove_length k l). unfold fc_remove in *. lia.
  - specialize (IH H). unfold fc_remove in *. destruct (negb _); cbn; lia.
Qed.

Lemma fc_step_ok es s e s' o : fc_ok es s -> In e es -> stat_identifies es -> fc_step s e = (s', o) ->
  fc_ok es s' /\
  o = match e with FWrite _ _ _ => None
      | FLoad p => Some (match fc_disk s p with Some (_, c) => Ok c | None => Err OSError end) end.
Proof.
  intros (D & K & L) He Hid H. destruct e as [p i c|p]; cbn [fc_step] in H.
  - injection H as <- <-. split; auto. split; [|split]; cbn; auto.
    intros q j d. destruct (Nat.eqb_spec q p); [|apply D]. intros E. injection E as <- <-. subst. auto.
  - destruct (fc_disk s p) as [[i c]|] eqn:Ed; [|injection H as <- <-; split; auto; repeat split; auto].
    destruct (fc_lookup (p, i) (fc_cache s)) as [c'|] eqn:El; injection H as <- <-.
    + apply fc_lookup_in in El. assert (c' = c) by (eapply (Hid p i); [apply K|apply D]; auto). subst c'.
      split; [|reflexivity]. split; [|split]; cbn [fc_disk fc_cache]; auto.
      * intros q j d [E|Hin]; [injection E as <- <- <-; auto|]. unfold fc_remove in Hin. apply filter_In in Hin. apply K. tauto.
      * cbn [length]. pose proof (fc_remove_length_in _ _ _ El). lia.
    + split; [|reflexivity]. split; [|split]; cbn [fc_disk fc_cache]; auto.
      * intros q j d [E|Hin]; [injection E as <- <- <-; auto|]. apply K. destruct (fc_cache s); [contradiction|]. destruct Hin as [<-|[]]; left; auto.
      * destruct (fc_cache s); cbn; lia.
Qed.

Lemma fc_run_ok es0 es : forall s disk, fc_ok es0 s -> (forall e, In e es -> In e es0) -> stat_identifies es0 ->
  (forall p, option_map snd (fc_disk s p) = disk p) ->
  snd (fc_run s es) = plain_reads disk es /\ length (fc_cache (fst (fc_run s es))) <= 2.
Proof.
  induction es as [|e es IH]; intros s disk Hok Hin Hid Hd; cbn [fc_run plain_reads]; [split; [auto|apply Hok]|].
  destruct (fc_step s e) as [s1 o] eqn:E. destruct (fc_run s1 es) as [s2 os] eqn:Er. cbn [fst snd].
  destruct (fc_step_ok _ _ _ _ _ Hok (Hin e (or_introl eq_refl)) Hid E) as [Hok1 Ho].
  assert (Hin' : forall x, In x es -> In x es0) by (intros; apply Hin; right; auto).
  destruct e as [p i c|p].
  - cbn in E. injection E as <- <-.
    match type of Hok1 with fc_ok _ ?st => pose proof (IH st (fun q => if Nat.eqb q p then Some c else disk q) Hok1 Hin' Hid) as IH1 end.
    rewrite Er in IH1. cbn [fst snd] in IH1. destruct IH1 as [H1 H2].
    + intros q. cbn [fc_disk]. destruct (Nat.eqb q p); [reflexivity|apply Hd].
    + split; auto. cbn [plain_reads]. f_equal. auto.
  - assert (Hd1 : forall q, option_map snd (fc_disk s1 q) = disk q).
    { cbn in E. destruct (fc_disk s p) as [[i c]|]; [destruct (fc_lookup _ _)|]; injection E as <- _; exact Hd. }
    pose proof (IH s1 disk Hok1 Hin' Hid Hd1) as IH1. rewrite Er in IH1. cbn [fst snd] in IH1. destruct IH1 as [H1 H2].
    split; auto. cbn [plain_reads]. f_equal; auto. rewrite Ho. rewrite <- Hd. destruct (fc_disk s p) as [[i c]|]; reflexivity.
Qed.

Lemma file_cache_transparent (es : list (fevent C)) : stat_identifies es ->
  snd (fc_run fc_init es) = plain_reads (fun _ => None) es /\ length (fc_cache (fst (fc_run fc_init es))) <= 2.
Proof.
  intros H. apply (fc_run_ok es); auto. split; [|split]; cbn; try discriminate; try contradiction; lia.
Qed.
End Lru.
