(** Lemmas for ParallelProps. *)
From Verif Require Import Prelude ParallelModel.

Section ParallelProofs.
  Context {X R : Type}.
  Variable f : X -> result R.
  Variable logok : R -> bool.
  Variable var : list X.
  Variable nprocs : nat.
  Notation pstate := (pstate X R).
  Notation pstep := (pstep f logok var nprocs).
  Notation prun := (prun f logok var nprocs).
  Notation pinit := (@pinit X R nprocs).
  Notation n := (length var).

  Definition qc (i : nat) (q : option (option (nat * X))) : nat :=
    match q with Some (Some (j, _)) => Nat.b2n (Nat.eqb i j) | _ => 0 end.
  Definition isbusy (i : nat) (w : worker X R) : bool :=
    match w with Busy j _ => Nat.eqb i j | _ => false end.
  Definition outis (i : nat) (p : nat * R) : bool := Nat.eqb i (fst p).
  Definition results (m : mainpc R) : list (option R) :=
    match m with Collect _ r | Join r | Return r => r | _ => [] end.
  Definition gc (i : nat) (r : list (option R)) : nat :=
    match nth_error r i with Some (Some _) => 1 | _ => 0 end.
  Definition isSome (o : option R) : bool := match o with Some _ => true | None => false end.
  Definition sent (m : mainpc R) : nat := match m with PutTask i => i | _ => n end.
  Definition total (i : nat) (s : pstate) : nat :=
    qc i (qin s) + cnt (isbusy i) (ws s) + cnt (outis i) (qout s) + gc i (results (main s)).

  Definition task (i : nat) (x : X) := nth_error var i = Some x.
  Definition answer (i : nat) (r : R) := exists x, task i x /\ f x = Ok r.

  Record inv (s : pstate) : Prop := {
    i_tot : forall i, total i s <= Nat.b2n (Nat.ltb i (sent (main s)));
    i_sent : sent (main s) <= n;
    i_qin : forall i x, qin s = Some (Some (i, x)) -> task i x;
    i_busy : forall i x, In (Busy i x) (ws s) -> task i x;
    i_out : forall i r, In (i, r) (qout s) -> answer i r;
    i_res : forall i r, nth_error (results (main s)) i = Some (Some r) -> answer i r;
    i_main : match main s with
             | Collect c r => length r = n /\ cnt isSome r = c /\ c <= n
             | Join r | Return r => length r = n /\ cnt isSome r = n
             | _ => True
             end;
    i_ws : length (ws s) = nprocs }.

  Lemma inv_init : inv pinit.
  Proof.
    assert (H0 : forall i, cnt (isbusy i) (repeat (Idle (X := X) (R := R)) nprocs) = 0).
    { intros i. unfold cnt. clear. induction nprocs; cbn; auto. }
    constructor; cbn [pinit main qin ws qout sent results]; try discriminate; try contradiction; auto; try lia.
    - intros i. unfold total. cbn [pinit main qin ws qout results qc]. rewrite H0. unfold gc.
      destruct i; cbn; lia.
    - intros i x H. apply repeat_spec in H. discriminate.
    - intros [|i] r; discriminate.
    - apply repeat_length.
  Qed.

  Lemma gc_set i j r (l : list (option R)) : nth_error l j = Some None ->
    gc i (set_nth j (Some r) l) = gc i l + Nat.b2n (Nat.eqb i j).
  Proof.
    intros H. unfold gc. destruct (Nat.eqb_spec i j) as [->|Hne].
    - rewrite H, set_nth_eq by (apply nth_error_Some; congruence). reflexivity.
    - rewrite set_nth_ne by congruence. cbn. lia.
  Qed.

  Lemma gc_repeat i k : gc i (repeat None k) = 0.
  Proof.
    unfold gc. destruct (nth_error (repeat None k) i) as [[r|]|] eqn:E; auto.
    apply nth_error_In, repeat_spec in E. discriminate.
  Qed.

  Lemma set_nth_in {A} i (x y : A) l : In y (set_nth i x l) -> y = x \/ In y l.
  Proof.
    revert i; induction l as [|z l IH]; intros [|i]; cbn; auto.
    - intros [H|H]; auto.
    - intros [H|H]; auto. apply IH in H. tauto.
  Qed.

  (** the slot of an answer that is in the output queue is still free *)
  Lemma slot_free s c res k i r : inv s -> main s = Collect c res -> nth_error (qout s) k = Some (i, r) ->
    nth_error res i = Some None /\ i < n.
  Proof.
    intros H Em Ek. pose proof (i_tot s H i) as Ht. unfold total in Ht.
    assert (Hc : 0 < cnt (outis i) (qout s)).
    { apply (cnt_in _ _ (i, r)); [eapply nth_error_In; eauto|]. unfold outis. cbn. apply Nat.eqb_refl. }
    rewrite Em in Ht. cbn [sent results] in Ht.
    assert (Hi : i < n) by (destruct (Nat.ltb_spec i n); cbn in Ht; lia).
    split; [|exact Hi]. pose proof (i_main s H) as Hm. rewrite Em in Hm. destruct Hm as (Hl & _).
    destruct (nth_error res i) as [[r'|]|] eqn:E; auto.
    - unfold gc in Ht. rewrite E in Ht. destruct (Nat.ltb i n); cbn in Ht; lia.
    - apply nth_error_None in E. lia.
  Qed.

  Lemma inv_step s a s' : inv s -> pstep s a = Some s' -> inv s'.
  Proof.
    intros H E. destruct a as [k|w]; cbn [ParallelModel.pstep] in E.
    - unfold main_step in E. destruct (main s) as [i|j|c res|res|res] eqn:Em.
      + destruct (nth_error var i) as [x|] eqn:Ev.
        * destruct (qin s) as [q|] eqn:Eq; [discriminate|]. injection E as <-.
          assert (Hi : i < n) by (apply nth_error_Some; congruence).
          pose proof (i_tot s H) as Ht. destruct H. constructor; cbn [main qin ws qout sent results] in *; auto; try lia.
          -- intros j. specialize (Ht j). unfold total in *. rewrite Em, Eq in Ht.
             cbn [main qin ws qout sent results qc] in *.
             destruct (Nat.eqb_spec j i) as [->|Hne]; cbn.
             ++ destruct (Nat.ltb_spec i (S i)); [|lia]. destruct (Nat.ltb_spec i i); [lia|]. cbn in *. lia.
             ++ destruct (Nat.ltb_spec j i); destruct (Nat.ltb_spec j (S i)); cbn in *; lia.
          -- intros j y [= -> ->]. exact Ev.
          -- intros j r. destruct j; discriminate.
        * injection E as <-. apply nth_error_None in Ev.
          pose proof (i_sent s H) as Hsn. rewrite Em in Hsn. cbn in Hsn. assert (i = n) by lia. subst i.
          destruct H. rewrite Em in *. constructor; cbn [main qin ws qout sent results] in *; auto.
          intros j. specialize (i_tot0 j). unfold total in *. rewrite Em in i_tot0. cbn in *. exact i_tot0.
      + destruct (Nat.ltb j nprocs).
        * destruct (qin s) as [q|] eqn:Eq; [discriminate|]. injection E as <-.
          destruct H. rewrite Em in *. constructor; cbn [main qin ws qout sent results] in *; auto; try discriminate.
          intros i. specialize (i_tot0 i). unfold total in *. rewrite Em, Eq in i_tot0. cbn in *. exact i_tot0.
        * injection E as <-. destruct H. rewrite Em in *.
          constructor; cbn [main qin ws qout sent results] in *; auto; try discriminate.
          -- intros i. specialize (i_tot0 i). unfold total in *. rewrite Em in i_tot0.
             cbn [main qin ws qout sent results] in *. rewrite gc_repeat.
             assert (gc i [] = 0) by (unfold gc; destruct i; reflexivity). lia.
          -- intros i r Hr. apply nth_error_In, repeat_spec in Hr. discriminate.
          -- rewrite repeat_length. split; [auto|]. split; [|lia].
             unfold cnt. clear. induction (length var); cbn; auto.
      + destruct (Nat.ltb_spec c n) as [Hc|Hc].
        * destruct (nth_error (qout s) k) as [[i r]|] eqn:Ek; [|discriminate]. injection E as <-.
          destruct (slot_free s c res k i r H Em Ek) as [Hfree Hi].
          assert (Ha : answer i r) by (eapply i_out; eauto; eapply nth_error_In; eauto).
          destruct H. rewrite Em in *. constructor; cbn [main qin ws qout sent results] in *; auto.
          -- intros j. specialize (i_tot0 j). unfold total in *. rewrite Em in i_tot0.
             cbn [main qin ws qout sent results] in *.
             rewrite (gc_set j i r res Hfree).
             pose proof (cnt_remove_nth (outis j) (qout s) k (i, r) Ek) as Hr.
             unfold outis at 2 in Hr. cbn [fst skipn] in Hr. lia.
          -- intros j r' Hin. apply i_out0. apply in_app_or in Hin.
             rewrite <- (firstn_skipn k (qout s)). apply in_or_app. destruct Hin as [Hin|Hin]; [auto|right].
             assert (G : forall (l : list (nat * R)) m y, In y (skipn (S m) l) -> In y (skipn m l)).
             { clear. induction l as [|z l IH]; intros [|m] y Hy; cbn in *; auto. }
             apply G. exact Hin.
          -- intros j r' Hj. destruct (Nat.eq_dec i j) as [->|Hne].
             ++ rewrite set_nth_eq in Hj by (apply nth_error_Some; congruence). injection Hj as <-. exact Ha.
             ++ rewrite set_nth_ne in Hj by auto. auto.
          -- rewrite set_nth_length. destruct i_main0 as (L & C & _). split; [auto|]. split; [|lia].
             pose proof (cnt_set_nth isSome res i None (Some r) Hfree) as Hs. cbn in Hs. lia.
        * injection E as <-. destruct H. rewrite Em in *.
          constructor; cbn [main qin ws qout sent results] in *; auto.
          -- intros j. specialize (i_tot0 j). unfold total in *. rewrite Em in i_tot0. exact i_tot0.
          -- destruct i_main0 as (L & C & ?). split; [auto|lia].
      + destruct (forallb _ (ws s)); [|discriminate]. injection E as <-. destruct H. rewrite Em in *.
        constructor; cbn [main qin ws qout sent results] in *; auto.
        intros j. specialize (i_tot0 j). unfold total in *. rewrite Em in i_tot0. exact i_tot0.
      + discriminate.
    - unfold worker_step in E. destruct (nth_error (ws s) w) as [wk|] eqn:Ew; [|discriminate].
      pose proof (nth_error_In _ _ Ew) as Hwin. pose proof H as H'.
      destruct wk as [|i x|r| |]; [| | |discriminate|discriminate].
      + destruct (qin s) as [[[i x]|]|] eqn:Eq; [| |discriminate]; injection E as <-.
        * destruct H. constructor; cbn [main qin ws qout] in *; auto; try discriminate.
          -- intros j. specialize (i_tot0 j). unfold total in *. cbn [main qin ws qout] in *. rewrite Eq in i_tot0.
             pose proof (cnt_set_nth (isbusy j) (ws s) w Idle (Busy i x) Ew) as Hs. cbn in *. lia.
          -- intros j y Hj. apply set_nth_in in Hj as [[= -> ->]|Hj]; auto.
          -- rewrite set_nth_length. auto.
        * destruct H. constructor; cbn [main qin ws qout] in *; auto; try discriminate.
          -- intros j. specialize (i_tot0 j). unfold total in *. cbn [main qin ws qout] in *. rewrite Eq in i_tot0.
             pose proof (cnt_set_nth (isbusy j) (ws s) w Idle Exited Ew) as Hs. cbn in *. lia.
          -- intros j y Hj. apply set_nth_in in Hj as [Hj|Hj]; [discriminate|auto].
          -- rewrite set_nth_length. auto.
      + destruct (f x) as [r|e] eqn:Ef; injection E as <-.
        * destruct H. constructor; cbn [main qin ws qout] in *; auto.
          -- intros j. specialize (i_tot0 j). unfold total in *. cbn [main qin ws qout] in *.
             pose proof (cnt_set_nth (isbusy j) (ws s) w (Busy i x) (Log r) Ew) as Hs.
             rewrite cnt_app. unfold cnt at 3. cbn in *. unfold outis at 2. cbn. destruct (Nat.eqb j i); cbn in *; lia.
          -- intros j y Hj. apply set_nth_in in Hj as [Hj|Hj]; [discriminate|auto].
          -- intros j r' Hj. apply in_app_or in Hj as [Hj|[[= <- <-]|[]]]; [auto|]. exists x. auto.
          -- rewrite set_nth_length. auto.
        * destruct H. constructor; cbn [main qin ws qout] in *; auto.
          -- intros j. specialize (i_tot0 j). unfold total in *. cbn [main qin ws qout] in *.
             pose proof (cnt_set_nth (isbusy j) (ws s) w (Busy i x) Died Ew) as Hs. cbn in *. lia.
          -- intros j y Hj. apply set_nth_in in Hj as [Hj|Hj]; [discriminate|auto].
          -- rewrite set_nth_length. auto.
      + injection E as <-. destruct H. constructor; cbn [main qin ws qout] in *; auto.
        * intros j. specialize (i_tot0 j). unfold total in *. cbn [main qin ws qout] in *.
          pose proof (cnt_set_nth (isbusy j) (ws s) w (Log r) (if logok r then Idle else Died) Ew) as Hs.
          destruct (logok r); cbn in *; lia.
        * intros j y Hj. apply set_nth_in in Hj as [Hj|Hj]; [destruct (logok r); discriminate|auto].
        * rewrite set_nth_length. auto.
  Qed.

  Lemma inv_run acts : forall s s', inv s -> prun s acts = Some s' -> inv s'.
  Proof.
    induction acts as [|a acts IH]; intros s s' H E; cbn in E; [injection E as <-; auto|].
    destruct (pstep s a) as [s1|] eqn:E1; [|discriminate]. eapply IH; [|exact E]. eapply inv_step; eauto.
  Qed.

  Lemma all_some (l : list (option R)) : cnt isSome l = length l -> exists rs, l = map Some rs.
  Proof.
    induction l as [|o l IH]; intros H; [exists []; reflexivity|].
    unfold cnt in *. cbn in H. destruct o as [r|]; cbn in H.
    - destruct IH as (rs & ->); [lia|]. exists (r :: rs). reflexivity.
    - exfalso. pose proof (cnt_le isSome l). unfold cnt in *. lia.
  Qed.

  Lemma parallel_safe acts s' res : prun pinit acts = Some s' -> main s' = Return res ->
    exists rs, res = map Some rs /\ Forall2 (fun x r => f x = Ok r) var rs.
  Proof.
    intros E Em. pose proof (inv_run acts _ _ inv_init E) as H.
    pose proof (i_main s' H) as Hm. rewrite Em in Hm. destruct Hm as [L C].
    destruct (all_some res) as (rs & ->); [congruence|]. exists rs. split; [auto|].
    rewrite map_length in L. pose proof (i_res s' H) as Hr. rewrite Em in Hr. cbn in Hr. unfold answer, task in Hr.
    clear - L Hr. revert rs L Hr. generalize var as v.
    induction v as [|x v IH]; intros [|r rs] L Hr; cbn in L; try lia; constructor.
    - destruct (Hr 0 r eq_refl) as (x' & [= <-] & Hf). exact Hf.
    - apply IH; [lia|]. intros i r' Hi. apply (Hr (S i) r' Hi).
  Qed.

  (** ** liveness: total function, printable results, at least one process *)
  Definition isexit (w : worker X R) : bool := match w with Exited => true | _ => false end.
  Definition stopq (q : option (option (nat * X))) : nat := match q with Some None => 1 | _ => 0 end.
  Definition nottask (q : option (option (nat * X))) : Prop := match q with Some (Some _) => False | _ => True end.

  Record live (s : pstate) : Prop := {
    l_tot : forall i, i < sent (main s) -> total i s = 1;
    l_died : ~ In Died (ws s);
    l_main : match main s with
             | PutTask _ => cnt isexit (ws s) = 0 /\ stopq (qin s) = 0
             | PutStop j => j <= nprocs /\ cnt isexit (ws s) + stopq (qin s) = j /\ (1 <= j -> nottask (qin s))
             | Collect _ _ | Join _ => cnt isexit (ws s) + stopq (qin s) = nprocs /\ nottask (qin s)
             | Return _ => True
             end }.

  (** every step makes progress *)
  Definition wweight (w : worker X R) : nat := match w with Busy _ _ => 3 | Log _ => 1 | _ => 0 end.
  Definition qweight (q : option (option (nat * X))) : nat := match q with Some (Some _) => 4 | Some None => 1 | None => 0 end.
  Definition mweight (m : mainpc R) : nat :=
    match m with
    | PutTask i => 5 * (n - i) + 2 * nprocs + n + 4
    | PutStop j => 2 * (nprocs - j) + n + 3
    | Collect c _ => (n - c) + 2
    | Join _ => 1
    | Return _ => 0
    end.
  Definition weight (s : pstate) : nat :=
    mweight (main s) + qweight (qin s) + fold_right (fun w k => wweight w + k) 0 (ws s).

  Lemma wsum_set l k w w' : nth_error l k = Some w ->
    fold_right (fun w k => wweight w + k) 0 (set_nth k w' l) + wweight w
    = fold_right (fun w k => wweight w + k) 0 l + wweight w'.
  Proof.
    revert k; induction l as [|x l IH]; intros [|k] H; cbn in *; try discriminate.
    - injection H as ->. lia.
    - specialize (IH k H). lia.
  Qed.

  Lemma weight_step s a s' : inv s -> pstep s a = Some s' -> weight s' < weight s.
  Proof.
    intros Hi E. destruct a as [k|w]; cbn [ParallelModel.pstep] in E.
    - unfold main_step in E. unfold weight. pose proof (i_sent s Hi) as Hs. destruct (main s) as [i|j|c res|res|res].
      + destruct (nth_error var i) as [x|] eqn:Ev.
        * destruct (qin s); [discriminate|]. injection E as <-. cbn.
          assert (i < n) by (apply nth_error_Some; congruence). lia.
        * injection E as <-. cbn. lia.
      + destruct (Nat.ltb_spec j nprocs).
        * destruct (qin s); [discriminate|]. injection E as <-. cbn. lia.
        * injection E as <-. cbn. lia.
      + destruct (Nat.ltb_spec c n).
        * destruct (nth_error (qout s) k) as [[i r]|]; [|discriminate]. injection E as <-. cbn. lia.
        * injection E as <-. cbn. lia.
      + destruct (forallb _ _); [|discriminate]. injection E as <-. cbn. lia.
      + discriminate.
    - unfold worker_step in E. unfold weight. destruct (nth_error (ws s) w) as [wk|] eqn:Ew; [|discriminate].
      pose proof (fun w' => wsum_set (ws s) w wk w' Ew) as Hs. destruct wk as [|i x|r| |]; try discriminate.
      + destruct (qin s) as [[[i x]|]|]; try discriminate; injection E as <-; cbn [main qin ws qout qweight].
        * specialize (Hs (Busy i x)). cbn [wweight] in Hs. lia.
        * specialize (Hs Exited). cbn [wweight] in Hs. lia.
      + destruct (f x) as [r|e]; injection E as <-; cbn [main qin ws qout].
        * specialize (Hs (Log r)). cbn [wweight] in Hs. lia.
        * specialize (Hs Died). cbn [wweight] in Hs. lia.
      + injection E as <-; cbn [main qin ws qout]. specialize (Hs (if logok r then Idle else Died)).
        destruct (logok r); cbn [wweight] in Hs; lia.
  Qed.

  Lemma weight_run acts : forall s s', inv s -> prun s acts = Some s' -> length acts + weight s' <= weight s.
  Proof.
    induction acts as [|a acts IH]; intros s s' H E; cbn in E; [injection E as <-; cbn; lia|].
    destruct (pstep s a) as [s1|] eqn:E1; [|discriminate].
    pose proof (weight_step s a s1 H E1). pose proof (IH s1 s' (inv_step _ _ _ H E1) E). cbn. lia.
  Qed.

  Lemma parallel_bounded acts s' : prun pinit acts = Some s' -> length acts <= 6 * n + 2 * nprocs + 4.
  Proof.
    intros E. pose proof (weight_run acts _ _ inv_init E) as H. unfold weight in H. cbn in H.
    assert (Hz : fold_right (fun w k => wweight w + k) 0 (repeat (Idle (X := X) (R := R)) nprocs) = 0).
    { clear. induction nprocs; cbn; auto. }
    rewrite Hz in H. lia.
  Qed.

  Hypothesis f_total : forall x, In x var -> exists r, f x = Ok r.
  Hypothesis log_total : forall r, logok r = true.
  Hypothesis procs : 1 <= nprocs.

  Lemma live_init : live pinit.
  Proof.
    constructor; cbn; try lia.
    - intros H. apply repeat_spec in H. discriminate.
    - split; [|reflexivity]. unfold cnt. clear. induction nprocs; cbn; auto.
  Qed.

  Lemma live_step s a s' : inv s -> live s -> pstep s a = Some s' -> live s'.
  Proof.
    intros Hi H E. pose proof (inv_step s a s' Hi E) as Hi'. destruct a as [k|w]; cbn [ParallelModel.pstep] in E.
    - unfold main_step in E. destruct (main s) as [i|j|c res|res|res] eqn:Em.
      + destruct (nth_error var i) as [x|] eqn:Ev.
        * destruct (qin s) as [q|] eqn:Eq; [discriminate|]. injection E as <-.
          pose proof (i_tot s Hi) as Ht. destruct H. rewrite Em in *.
          constructor; cbn [main qin ws qout sent results stopq] in *; auto.
          -- intros j Hj. unfold total in *. rewrite Em, Eq in *. cbn [main qin ws qout sent results qc] in *.
             destruct (Nat.eqb_spec j i) as [->|Hne]; cbn.
             ++ specialize (Ht i). cbn [sent results qc] in Ht. destruct (Nat.ltb_spec i i); [lia|]. cbn in Ht.
                cbn [results]. lia.
             ++ specialize (l_tot0 j ltac:(lia)). cbn in *. lia.
          -- tauto.
        * injection E as <-. apply nth_error_None in Ev. pose proof (i_sent s Hi) as Hs. rewrite Em in Hs. cbn in Hs.
          assert (i = n) by lia. subst i. destruct H. rewrite Em in *.
          constructor; cbn [main qin ws qout sent results] in *; auto.
          -- intros j Hj. specialize (l_tot0 j Hj). unfold total in *. rewrite Em in *. exact l_tot0.
          -- destruct l_main0. repeat split; lia.
      + destruct (Nat.ltb_spec j nprocs) as [Hj|Hj].
        * destruct (qin s) as [q|] eqn:Eq; [discriminate|]. injection E as <-.
          destruct H. rewrite Em in *. constructor; cbn [main qin ws qout sent results stopq nottask] in *; auto.
          -- intros i Hl. specialize (l_tot0 i Hl). unfold total in *. rewrite Em, Eq in *. exact l_tot0.
          -- rewrite Eq in l_main0. cbn in l_main0. repeat split; try lia; auto.
        * injection E as <-. destruct H. rewrite Em in *.
          constructor; cbn [main qin ws qout sent results] in *; auto.
          -- intros i Hl. specialize (l_tot0 i Hl). unfold total in *. rewrite Em in *. cbn [main qin ws qout results] in *.
             rewrite gc_repeat. assert (gc i [] = 0) by (unfold gc; destruct i; reflexivity). lia.
          -- destruct l_main0 as (? & ? & Hq). split; [lia|]. apply Hq. lia.
      + destruct (Nat.ltb_spec c n) as [Hc|Hc].
        * destruct (nth_error (qout s) k) as [[i r]|] eqn:Ek; [|discriminate]. injection E as <-.
          destruct (slot_free s c res k i r Hi Em Ek) as [Hfree Hin].
          destruct H. rewrite Em in *. constructor; cbn [main qin ws qout sent results] in *; auto.
          intros j Hj. specialize (l_tot0 j Hj). unfold total in *. rewrite Em in l_tot0. cbn [main qin ws qout results] in *.
          rewrite (gc_set j i r res Hfree).
          pose proof (cnt_remove_nth (outis j) (qout s) k (i, r) Ek) as Hr.
          unfold outis at 2 in Hr. cbn [fst skipn] in Hr. lia.
        * injection E as <-. destruct H. rewrite Em in *.
          constructor; cbn [main qin ws qout sent results] in *; auto.
          intros j Hj. specialize (l_tot0 j Hj). unfold total in *. rewrite Em in l_tot0. exact l_tot0.
      + destruct (forallb _ (ws s)); [|discriminate]. injection E as <-. destruct H. rewrite Em in *.
        constructor; cbn [main qin ws qout sent results] in *; auto.
        intros j Hj. specialize (l_tot0 j Hj). unfold total in *. rewrite Em in l_tot0. exact l_tot0.
      + discriminate.
    - unfold worker_step in E. destruct (nth_error (ws s) w) as [wk|] eqn:Ew; [|discriminate].
      pose proof (nth_error_In _ _ Ew) as Hwin.
      destruct wk as [|i x|r| |]; [| | |discriminate|discriminate].
      + destruct (qin s) as [[[i x]|]|] eqn:Eq; [| |discriminate]; injection E as <-.
        * destruct H. constructor; cbn [main qin ws qout stopq nottask] in *; auto.
          -- intros j Hj. specialize (l_tot0 j Hj). unfold total in *. cbn [main qin ws qout] in *. rewrite Eq in l_tot0.
             pose proof (cnt_set_nth (isbusy j) (ws s) w Idle (Busy i x) Ew) as Hs. cbn in *. lia.
          -- intros Hd. apply set_nth_in in Hd as [Hd|Hd]; [discriminate|auto].
          -- pose proof (cnt_set_nth isexit (ws s) w Idle (Busy i x) Ew) as Hs. rewrite Eq in l_main0. cbn in Hs, l_main0.
             destruct (main s); auto; repeat split; try tauto; lia.
        * destruct H. constructor; cbn [main qin ws qout stopq nottask] in *; auto.
          -- intros j Hj. specialize (l_tot0 j Hj). unfold total in *. cbn [main qin ws qout] in *. rewrite Eq in l_tot0.
             pose proof (cnt_set_nth (isbusy j) (ws s) w Idle Exited Ew) as Hs. cbn in *. lia.
          -- intros Hd. apply set_nth_in in Hd as [Hd|Hd]; [discriminate|auto].
          -- pose proof (cnt_set_nth isexit (ws s) w Idle Exited Ew) as Hs. rewrite Eq in l_main0. cbn in Hs, l_main0.
             destruct (main s); auto; repeat split; try tauto; lia.
      + assert (Hx : In x var) by (eapply nth_error_In; apply (i_busy s Hi i x Hwin)).
        destruct (f_total x Hx) as (r & Ef). rewrite Ef in E. injection E as <-.
        destruct H. constructor; cbn [main qin ws qout] in *; auto.
        * intros j Hj. specialize (l_tot0 j Hj). unfold total in *. cbn [main qin ws qout] in *.
          pose proof (cnt_set_nth (isbusy j) (ws s) w (Busy i x) (Log r) Ew) as Hs.
          rewrite cnt_app. unfold cnt at 3. cbn in *. unfold outis at 2. cbn. destruct (Nat.eqb j i); cbn in *; lia.
        * intros Hd. apply set_nth_in in Hd as [Hd|Hd]; [discriminate|auto].
        * pose proof (cnt_set_nth isexit (ws s) w (Busy i x) (Log r) Ew) as Hs. cbn in Hs.
          destruct (main s); auto; repeat split; try tauto; lia.
      + rewrite log_total in E. injection E as <-. destruct H. constructor; cbn [main qin ws qout] in *; auto.
        * intros j Hj. specialize (l_tot0 j Hj). unfold total in *. cbn [main qin ws qout] in *.
          pose proof (cnt_set_nth (isbusy j) (ws s) w (Log r) Idle Ew) as Hs. cbn in *. lia.
        * intros Hd. apply set_nth_in in Hd as [Hd|Hd]; [discriminate|auto].
        * pose proof (cnt_set_nth isexit (ws s) w (Log r) Idle Ew) as Hs. cbn in Hs.
          destruct (main s); auto; repeat split; try tauto; lia.
  Qed.

  Lemma live_run acts : forall s s', inv s -> live s -> prun s acts = Some s' -> live s'.
  Proof.
    induction acts as [|a acts IH]; intros s s' H L E; cbn in E; [injection E as <-; auto|].
    destruct (pstep s a) as [s1|] eqn:E1; [|discriminate]. eapply IH; [| |exact E].
    - eapply inv_step; eauto.
    - eapply live_step; eauto.
  Qed.

  (** a worker that is not finished and has something to do can move *)
  Lemma worker_moves s : inv s -> live s ->
    (exists w, In w (ws s) /\ isexit w = false) -> (qin s <> None \/ exists w, In w (ws s) /\ isexit w = false /\ w <> Idle) ->
    exists a s', pstep s a = Some s'.
  Proof.
    intros Hi H (w & Hw & Hx) Hq.
    assert (Hmove : forall w, In w (ws s) -> isexit w = false -> (w <> Idle \/ qin s <> None) -> exists a s', pstep s a = Some s').
    { clear - H. intros w Hw Hx Hc. apply In_nth_error in Hw as (k & Ek). exists (Worker k). cbn. unfold worker_step. rewrite Ek.
      destruct w as [|i x|r| |]; try discriminate.
      - destruct (qin s) as [[[i x]|]|]; eauto. destruct Hc; congruence.
      - destruct (f x); eauto.
      - eauto.
      - exfalso. apply (l_died s H). eapply nth_error_In; eauto. }
    destruct Hq as [Hq|(w' & Hw' & Hx' & Hne)]; eauto.
  Qed.

  Lemma not_stuck s : inv s -> live s -> (forall res, main s <> Return res) -> exists a s', pstep s a = Some s'.
  Proof.
    intros Hi H Hr. pose proof (l_main s H) as Hm. pose proof (i_ws s Hi) as Hw.
    assert (Hne : cnt isexit (ws s) < nprocs -> exists w, In w (ws s) /\ isexit w = false).
    { intros Hc. apply cnt_lt. lia. }
    destruct (main s) as [i|j|c res|res|res] eqn:Em.
    - destruct (nth_error var i) as [x|] eqn:Ev.
      + destruct (qin s) eqn:Eq.
        * apply worker_moves; auto; [apply Hne; lia|]. left. congruence.
        * exists (Main 0). cbn. unfold main_step. rewrite Em, Ev, Eq. eauto.
      + exists (Main 0). cbn. unfold main_step. rewrite Em, Ev. eauto.
    - destruct (Nat.ltb_spec j nprocs) as [Hj|Hj].
      + destruct (qin s) as [q|] eqn:Eq.
        * apply worker_moves; auto; [apply Hne; lia|]. left. congruence.
        * exists (Main 0). cbn. unfold main_step. rewrite Em, Eq. destruct (Nat.ltb_spec j nprocs); [eauto|lia].
      + exists (Main 0). cbn. unfold main_step. rewrite Em. destruct (Nat.ltb_spec j nprocs); [lia|eauto].
    - destruct (Nat.ltb_spec c n) as [Hc|Hc].
      + destruct (qout s) as [|[i r] q] eqn:Eo.
        * (* some answer is still being computed *)
          pose proof (i_main s Hi) as Hm2. rewrite Em in Hm2. destruct Hm2 as (L & C & _).
          destruct (cnt_lt isSome res ltac:(lia)) as (o & Ho & Hof). destruct o; [discriminate|].
          apply In_nth_error in Ho as (i & Ei).
          assert (Hin : i < n) by (rewrite <- L; apply nth_error_Some; congruence).
          pose proof (l_tot s H i) as Ht. rewrite Em in Ht. specialize (Ht Hin).
          unfold total in Ht. rewrite Eo, Em in Ht. cbn [results] in Ht. unfold gc in Ht. rewrite Ei in Ht.
          unfold cnt at 2 in Ht. cbn in Ht.
          destruct Hm as [_ Hq]. assert (Hq0 : qc i (qin s) = 0) by (destruct (qin s) as [[[? ?]|]|]; [contradiction|reflexivity|reflexivity]).
          destruct (cnt_pos (isbusy i) (ws s) ltac:(lia)) as (w & Hwin & Hb).
          destruct w; try discriminate. apply worker_moves; auto.
          -- eexists; split; [exact Hwin|reflexivity].
          -- right. eexists; split; [exact Hwin|]. split; [reflexivity|discriminate].
        * exists (Main 0). cbn. unfold main_step. rewrite Em, Eo. destruct (Nat.ltb_spec c n); [cbn; eauto|lia].
      + exists (Main 0). cbn. unfold main_step. rewrite Em. destruct (Nat.ltb_spec c n); [lia|eauto].
    - destruct (forallb (fun w => match w with Exited | Died => true | _ => false end) (ws s)) eqn:Ef.
      + exists (Main 0). cbn. unfold main_step. rewrite Em, Ef. eauto.
      + assert (Hc : cnt isexit (ws s) < nprocs).
        { rewrite <- Hw. clear - Ef. unfold cnt. induction (ws s) as [|w l IH]; [discriminate|]. cbn in *.
          pose proof (cnt_le isexit l) as Hl. unfold cnt in Hl.
          destruct w; cbn in *; try lia; specialize (IH Ef); lia. }
        apply worker_moves; auto. left. destruct Hm as [Hm _]. intros Hq. rewrite Hq in Hm. cbn in Hm. lia.
    - exfalso. eapply Hr; eauto.
  Qed.

  Lemma parallel_live acts s' : prun pinit acts = Some s' -> (forall a, pstep s' a = None) ->
    exists rs, main s' = Return (map Some rs) /\ Forall2 (fun x r => f x = Ok r) var rs.
  Proof.
    intros E Hn. pose proof (inv_run acts _ _ inv_init E) as Hi. pose proof (live_run acts _ _ inv_init live_init E) as Hl.
    destruct (main s') as [i|j|c res|res|res] eqn:Em;
      try (exfalso; destruct (not_stuck s' Hi Hl) as (a & s2 & Ea); [intros r; congruence|rewrite Hn in Ea; discriminate]).
    destruct (parallel_safe acts s' res E Em) as (rs & -> & Hf). eauto.
  Qed.
End ParallelProofs.

Lemma parallel_deadlock_lemma : exists acts s,
  prun (fun x : nat => Ok x) (fun _ => false) [10; 20] 1 (pinit 1) acts = Some s /\
  (forall res, main s <> Return res) /\
  (forall a, pstep (fun x : nat => Ok x) (fun _ => false) [10; 20] 1 s a = None).
Proof.
  exists [Main 0; Worker 0; Worker 0; Worker 0; Main 0; Main 0].
  eexists. split; [vm_compute; reflexivity|]. split; [discriminate|].
  intros [k|[|w]]; cbn; try reflexivity. unfold worker_step. cbn. destruct w; reflexivity.
Qed.

Lemma parallel_args_dropped_lemma : exists (func : nat -> list nat -> unit -> result nat) args x,
  worker_function func args tt x <> func x args tt.
Proof. exists (fun x args _ => Ok (x + fold_right Nat.add 0 args)), [5], 1. discriminate. Qed.
