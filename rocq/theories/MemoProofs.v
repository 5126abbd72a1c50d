(** Lemmas for MemoProps. *)
From Verif Require Import Prelude MemoModel MemoSpec.
From Coq Require Import String Permutation.
Open Scope Z_scope.

Section CacheProofs.
  Set Default Proof Using "Type".
  Context {A K V : Type}.
  Variable K_eq : forall a b : K, {a = b} + {a <> b}.
  Variable key : A -> result K.
  Variable func : A -> result V.
  Notation lookup := (lookup K_eq).
  Notation call := (call K_eq key func).
  Notation mstep := (mstep K_eq key func).
  Notation mrun := (mrun K_eq key func).

  Definition keys (c : list (K * V)) := map fst c.

  Lemma evict_suffix tb (c : list (K * V)) : exists d, c = d ++ fst (evict tb c).
  Proof.
    induction c as [|x c IH]; cbn [evict].
    - exists []. destruct (tb _); reflexivity.
    - destruct (tb _); [|exists []; reflexivity].
      destruct IH as (d & E). exists (x :: d). cbn. congruence.
  Qed.

  Lemma evict_le m (c : list (K * V)) c' : evict (fun n => m <=? n) c = (c', None) ->
    Z.of_nat (List.length c') < m /\
    (0 <= m -> Z.of_nat (List.length c') = Z.min (m - 1) (Z.of_nat (List.length c))).
  Proof.
    revert c'. induction c as [|x c IH]; intros c' E; cbn [evict] in E.
    - destruct (m <=? Z.of_nat (List.length (@nil (K * V)))) eqn:L; [discriminate|]. injection E as <-. cbn in *. lia.
    - destruct (m <=? Z.of_nat (List.length (x :: c))) eqn:L.
      + apply IH in E. cbn [List.length] in *. lia.
      + injection E as <-. cbn [List.length] in *. lia.
  Qed.

  Lemma evict_lt m (c : list (K * V)) c' : evict (fun n => m <? n) c = (c', None) ->
    Z.of_nat (List.length c') <= m.
  Proof.
    revert c'. induction c as [|x c IH]; intros c' E; cbn [evict] in E.
    - destruct (m <? Z.of_nat (List.length (@nil (K * V)))) eqn:L; [discriminate|]. injection E as <-. cbn in *. lia.
    - destruct (m <? Z.of_nat (List.length (x :: c))) eqn:L.
      + apply IH in E. auto.
      + injection E as <-. cbn [List.length] in *. lia.
  Qed.

  Lemma evict_err tb (c : list (K * V)) c' e : evict tb c = (c', Some e) -> c' = [] /\ e = KeyError /\ tb 0 = true.
  Proof.
    revert c'. induction c as [|x c IH]; intros c' E; cbn [evict] in E.
    - cbn in E. destruct (tb 0) eqn:L; [|discriminate]. injection E as <- <-. auto.
    - destruct (tb (Z.of_nat (List.length (x :: c)))); [apply IH; auto|discriminate].
  Qed.

  Lemma lookup_in k (c : list (K * V)) v : lookup k c = Some v -> In (k, v) c.
  Proof.
    induction c as [|(k', v') c IH]; cbn; [discriminate|]. destruct (K_eq k k'); [intros [= ->]; left; congruence|auto].
  Qed.

  Lemma lookup_none k (c : list (K * V)) : lookup k c = None -> ~ In k (keys c).
  Proof.
    induction c as [|(k', v') c IH]; cbn; [auto|]. destruct (K_eq k k'); [discriminate|].
    intros H [E|E]; [congruence|]. apply IH; auto.
  Qed.

  Lemma keys_app a b : keys (a ++ b) = keys a ++ keys b.
  Proof. apply map_app. Qed.

  Lemma keys_remove k (c : list (K * V)) : keys (remove_key K_eq k c) = remove K_eq k (keys c).
  Proof.
    induction c as [|(k', v') c IH]; cbn; [reflexivity|]. destruct (K_eq k k'); cbn; auto. f_equal. apply IH.
  Qed.

  (** entries come from calls of the history *)
  Definition origin (h : list (mop A)) (k : K) (v : V) : Prop :=
    exists a, In (Call a) h /\ key a = Ok k /\ func a = Ok v.

  Lemma call_origin s h a : (forall k v, In (k, v) (cache s) -> origin h k v) ->
    (forall k v, In (k, v) (cache (snd (call s a))) -> origin (h ++ [Call a]) k v) /\
    (forall k v, key a = Ok k -> fst (call s a) = Ok v -> origin (h ++ [Call a]) k v).
  Proof.
    intros Hc.
    assert (Hm : forall k v, origin h k v -> origin (h ++ [Call a]) k v).
    { intros k v (b & Hb & H). exists b. split; [apply in_or_app; auto|auto]. }
    unfold MemoModel.call. destruct (key a) as [k|e] eqn:Ek.
    2:{ cbn. split; [auto|discriminate]. }
    destruct (lookup k (cache s)) as [v|] eqn:El.
    - cbn. apply lookup_in in El. split.
      + intros k' v' Hin. apply in_app_or in Hin as [Hin|[[= <- <-]|[]]]; [|auto].
        unfold remove_key in Hin. apply filter_In in Hin as [Hin _]. auto.
      + intros k' v' [= <-] [= <-]. auto.
    - destruct (evict _ (cache s)) as [c' e] eqn:Ee.
      assert (Hs : forall k v, In (k, v) c' -> origin h k v).
      { intros k' v' Hin. destruct (evict_suffix (fun n => maxsize s <=? n) (cache s)) as (d & Ed).
        rewrite Ee in Ed. cbn in Ed. apply Hc. rewrite Ed. apply in_or_app; auto. }
      destruct e as [e|]; [cbn; split; [auto|discriminate]|].
      destruct (func a) as [v|e] eqn:Ef; cbn; [|split; [auto|discriminate]].
      assert (Ho : origin (h ++ [Call a]) k v).
      { exists a. split; [apply in_or_app; right; left; reflexivity|auto]. }
      split.
      + intros k' v' Hin. apply in_app_or in Hin as [Hin|[[= <- <-]|[]]]; auto.
      + intros k' v' [= <-] [= <-]. auto.
  Qed.

  Lemma set_maxsize_suffix (s : mstate K V) m : exists d, cache s = d ++ cache (snd (set_maxsize s m)).
  Proof.
    unfold set_maxsize. destruct (evict_suffix (fun n => m <? n) (cache s)) as (d & E).
    exists d. destruct (evict _ (cache s)); cbn in *. exact E.
  Qed.

  Lemma run_origin m h : forall k v, In (k, v) (cache (mrun (mstate0 m) h)) -> origin h k v.
  Proof.
    induction h as [|o h IH] using rev_ind; [intros k v []|].
    intros k v. unfold MemoModel.mrun. rewrite fold_left_app. cbn [fold_left]. fold (mrun (mstate0 m) h).
    destruct o as [a|x]; cbn [MemoModel.mstep].
    - apply (call_origin _ h a); auto.
    - destruct (set_maxsize_suffix (mrun (mstate0 m) h) x) as (d & E). intros Hin.
      destruct (IH k v) as (b & Hb & H); [rewrite E; apply in_or_app; auto|].
      exists b. split; [apply in_or_app; auto|auto].
  Qed.

  Lemma memo_value m h a k v : key a = Ok k -> fst (call (mrun (mstate0 m) h) a) = Ok v ->
    exists b, In (Call b) (h ++ [Call a]) /\ key b = Ok k /\ func b = Ok v.
  Proof. intros Hk Hv. eapply call_origin; eauto. apply run_origin. Qed.

  Lemma memo_correct m h a v :
    (forall b c k, key b = Ok k -> key c = Ok k -> func b = func c) ->
    fst (call (mrun (mstate0 m) h) a) = Ok v -> func a = Ok v.
  Proof.
    intros Hinj Hv. destruct (key a) as [k|e] eqn:Ek.
    - destruct (memo_value m h a k v Ek Hv) as (b & _ & Hb & Hf). rewrite <- Hf. eapply Hinj; eauto.
    - unfold MemoModel.call in Hv. rewrite Ek in Hv. discriminate.
  Qed.

  (** size bound *)
  Lemma call_size s a : Z.of_nat (List.length (cache s)) <= Z.max 0 (maxsize s) ->
    NoDup (keys (cache s)) ->
    Z.of_nat (List.length (cache (snd (call s a)))) <= Z.max 0 (maxsize (snd (call s a))) /\
    NoDup (keys (cache (snd (call s a)))).
  Proof.
    intros Hs Hn. unfold MemoModel.call. destruct (key a) as [k|e]; [|auto].
    destruct (lookup k (cache s)) as [v|] eqn:El; cbn [snd cache maxsize].
    - assert (Hin : In k (keys (cache s))) by (apply lookup_in in El; apply in_map_iff; exists (k, v); auto).
      pose proof (remove_length_in K_eq k) as Hl.
      specialize (Hl _ Hin Hn). rewrite <- keys_remove in Hl. unfold keys in Hl. rewrite !map_length in Hl.
      split.
      + rewrite app_length. cbn. lia.
      + unfold keys. rewrite map_app. cbn. change (map fst (remove_key K_eq k (cache s))) with (keys (remove_key K_eq k (cache s))).
        rewrite keys_remove. apply NoDup_app_snoc.
        * apply NoDup_remove_list; auto.
        * apply remove_In.
    - destruct (evict _ (cache s)) as [c' e] eqn:Ee.
      destruct (evict_suffix (fun n => maxsize s <=? n) (cache s)) as (d & Ed).
      rewrite Ee in Ed. cbn in Ed.
      assert (Hn' : NoDup (keys c')).
      { rewrite Ed in Hn. unfold keys in *. rewrite map_app in Hn. eapply NoDup_app_r; eauto. }
      assert (Hle : Z.of_nat (List.length c') <= Z.of_nat (List.length (cache s))) by (rewrite Ed, app_length; lia).
      destruct e as [e|]; cbn [snd cache maxsize]; [split; [lia|auto]|].
      apply evict_le in Ee. destruct (func a) as [v|e]; cbn [snd cache maxsize]; [|split; [lia|auto]].
      split.
      + rewrite app_length. cbn. lia.
      + unfold keys. rewrite map_app. cbn. apply NoDup_app_snoc; auto.
        apply lookup_none in El. intros Hin. apply El. rewrite Ed. unfold keys. rewrite map_app. apply in_or_app; auto.
  Qed.

  Lemma run_size m h :
    Z.of_nat (List.length (cache (mrun (mstate0 m) h))) <= Z.max 0 (maxsize (mrun (mstate0 m) h)) /\
    NoDup (keys (cache (mrun (mstate0 m) h))).
  Proof.
    induction h as [|o h IH] using rev_ind; [cbn; split; [lia|constructor]|].
    unfold MemoModel.mrun. rewrite fold_left_app. cbn [fold_left]. fold (mrun (mstate0 m) h).
    destruct IH as [IH1 IH2]. destruct o as [a|x]; cbn [MemoModel.mstep].
    - apply call_size; auto.
    - destruct (set_maxsize_suffix (mrun (mstate0 m) h) x) as (d & E). split.
      + unfold set_maxsize in *. destruct (evict _ _) as [c' e] eqn:Ee. cbn [snd cache maxsize] in *.
        destruct e as [e|]; [apply evict_err in Ee; destruct Ee as [-> _]; cbn; lia|].
        apply evict_lt in Ee. lia.
      + rewrite E in IH2. unfold keys in *. rewrite map_app in IH2. eapply NoDup_app_r; eauto.
  Qed.

  (** recency *)
  Lemma recency_from_app acc u1 u2 :
    recency_from K_eq acc (u1 ++ u2) = recency_from K_eq (recency_from K_eq acc u1) u2.
  Proof. revert acc; induction u1 as [|k u1 IH]; intros acc; cbn; auto. Qed.

  Lemma served_app s h1 h2 :
    served K_eq key func s (h1 ++ h2) = served K_eq key func s h1 ++ served K_eq key func (mrun s h1) h2.
  Proof.
    revert s; induction h1 as [|o h1 IH]; intros s; [reflexivity|].
    cbn [served app MemoModel.mrun fold_left]. rewrite IH, app_assoc. reflexivity.
  Qed.

  Lemma recency_nodup acc u : NoDup acc -> NoDup (recency_from K_eq acc u).
  Proof.
    revert acc; induction u as [|k u IH]; intros acc H; cbn; auto. apply IH.
    apply NoDup_app_snoc; [apply NoDup_remove_list; auto|apply remove_In].
  Qed.

  Lemma call_suffix s a r d : r = d ++ keys (cache s) ->
    exists d', recency_from K_eq r (match fst (call s a), key a with Ok _, Ok k => [k] | _, _ => [] end)
               = d' ++ keys (cache (snd (call s a))).
  Proof.
    intros ->. unfold MemoModel.call. destruct (key a) as [k|e]; [|exists d; reflexivity].
    destruct (lookup k (cache s)) as [v|] eqn:El; cbn [snd fst cache].
    - cbn [recency_from]. exists (remove K_eq k d). rewrite keys_app, keys_remove,  remove_app', app_assoc. reflexivity.
    - destruct (evict _ (cache s)) as [c' e] eqn:Ee.
      destruct (evict_suffix (fun n => maxsize s <=? n) (cache s)) as (d2 & Ed).
      rewrite Ee in Ed. cbn in Ed.
      assert (Ek : keys (cache s) = keys d2 ++ keys c') by (rewrite Ed; unfold keys; apply map_app).
      destruct e as [e|]; cbn [snd fst cache]; [exists (d ++ keys d2); cbn; rewrite Ek; apply app_assoc|].
      destruct (func a) as [v|e]; cbn [snd fst cache].
      + cbn [recency_from]. exists (remove K_eq k (d ++ keys d2)). rewrite keys_app, Ek, app_assoc, remove_app', (notin_remove K_eq (keys c')).
        * rewrite app_assoc. reflexivity.
        * apply lookup_none in El. rewrite Ek, in_app_iff in El. tauto.
      + exists (d ++ keys d2). cbn. rewrite Ek. apply app_assoc.
  Qed.

  Lemma run_lru m h : exists d,
    recency K_eq (served K_eq key func (mstate0 m) h) = d ++ keys (cache (mrun (mstate0 m) h)).
  Proof.
    induction h as [|o h IH] using rev_ind; [exists []; reflexivity|].
    destruct IH as (d & IH). rewrite served_app. unfold recency in *. rewrite recency_from_app.
    unfold MemoModel.mrun at 2. rewrite fold_left_app. cbn [fold_left]. fold (mrun (mstate0 m) h).
    cbn [served]. rewrite app_nil_r. destruct o as [a|x]; cbn [MemoModel.mstep].
    - apply (call_suffix _ a _ d IH).
    - destruct (set_maxsize_suffix (mrun (mstate0 m) h) x) as (d2 & E). cbn.
      exists (d ++ keys d2). rewrite IH, E. unfold keys. rewrite map_app, app_assoc. reflexivity.
  Qed.

  (** with no exception and no resize the cache is exactly the [m] most recent keys *)
  Lemma all_calls_ok_app s h1 h2 : all_calls_ok K_eq key func s (h1 ++ h2) ->
    all_calls_ok K_eq key func s h1 /\ all_calls_ok K_eq key func (mrun s h1) h2.
  Proof.
    revert s; induction h1 as [|o h1 IH]; intros s H; [split; [exact I|exact H]|].
    cbn [app] in H. destruct o as [a|x]; cbn [all_calls_ok] in *; [|contradiction].
    destruct H as [H1 H2]. apply IH in H2. tauto.
  Qed.

  Lemma maxsize_const m h : all_calls_ok K_eq key func (mstate0 m) h -> maxsize (mrun (mstate0 m) h) = m.
  Proof.
    induction h as [|o h IH] using rev_ind; [reflexivity|]. intros H. apply all_calls_ok_app in H as [H1 H2].
    unfold MemoModel.mrun. rewrite fold_left_app. cbn [fold_left]. fold (mrun (mstate0 m) h).
    destruct o as [a|x]; [|contradiction]. cbn [MemoModel.mstep]. rewrite <- (IH H1) at 2.
    unfold MemoModel.call. destruct (key a); [|reflexivity]. destruct (lookup _ _); [reflexivity|].
    destruct (evict _ _) as [c' [e|]]; [reflexivity|]. destruct (func a); reflexivity.
  Qed.

  Lemma run_exact m h : 1 <= m -> all_calls_ok K_eq key func (mstate0 m) h ->
    Z.of_nat (List.length (cache (mrun (mstate0 m) h)))
    = Z.min m (Z.of_nat (List.length (recency K_eq (served K_eq key func (mstate0 m) h)))).
  Proof.
    intros Hm. induction h as [|o h IH] using rev_ind; [intros _; cbn; lia|].
    intros H. apply all_calls_ok_app in H as [H1 H2]. specialize (IH H1).
    destruct (run_lru m h) as (d & Ed). pose proof (run_size m h) as [_ Hn].
    pose proof (maxsize_const m h H1) as Hms.
    pose proof (recency_nodup [] (served K_eq key func (mstate0 m) h) (NoDup_nil _)) as Hrn.
    rewrite served_app. unfold recency in *. rewrite recency_from_app.
    unfold MemoModel.mrun at 1. rewrite fold_left_app. cbn [fold_left]. fold (mrun (mstate0 m) h).
    cbn [served]. rewrite app_nil_r. destruct o as [a|x]; [|contradiction]. cbn [MemoModel.mstep].
    cbn in H2. destruct H2 as [H2 _]. revert H2.
    set (s := mrun (mstate0 m) h) in *. set (r := recency_from K_eq [] _) in *.
    unfold MemoModel.call. destruct (key a) as [k|e]; [|discriminate].
    destruct (lookup k (cache s)) as [v|] eqn:El; cbn [snd fst cache is_ok].
    - intros _. cbn [recency_from]. rewrite !app_length. cbn [List.length].
      assert (Hin : In k (keys (cache s))) by (apply lookup_in in El; apply in_map_iff; exists (k, v); auto).
      pose proof (remove_length_in K_eq k (keys (cache s)) Hin Hn) as L1.
      rewrite <- keys_remove in L1. unfold keys in L1. rewrite !map_length in L1.
      assert (Hin2 : In k r) by (rewrite Ed; apply in_or_app; auto).
      pose proof (remove_length_in K_eq k r Hin2 Hrn) as L2. lia.
    - destruct (evict _ (cache s)) as [c' e] eqn:Ee. destruct e as [e|]; [discriminate|].
      apply evict_le in Ee as [_ Ee]. rewrite Hms in Ee. specialize (Ee ltac:(lia)).
      destruct (func a) as [v|e]; [|discriminate]. intros _. cbn [snd fst cache recency_from].
      rewrite !app_length. cbn [List.length].
      apply lookup_none in El.
      destruct (in_dec K_eq k r) as [Hin|Hin].
      + pose proof (remove_length_in K_eq k r Hin Hrn) as L2.
        assert (List.length r = (List.length d + List.length (cache s))%nat)
          by (rewrite Ed, app_length; unfold keys; rewrite map_length; reflexivity).
        assert (1 <= List.length d)%nat.
        { rewrite Ed in Hin. apply in_app_or in Hin as [Hin|Hin]; [|contradiction].
          destruct d; [contradiction|cbn; lia]. }
        lia.
      + rewrite notin_remove by auto. lia.
  Qed.

  (** counters *)
  Lemma run_counts m h :
    hits (mrun (mstate0 m) h) + misses (mrun (mstate0 m) h)
    = Z.of_nat (List.length (served K_eq key func (mstate0 m) h)).
  Proof.
    induction h as [|o h IH] using rev_ind; [reflexivity|].
    rewrite served_app, app_length. unfold MemoModel.mrun at 1 2. rewrite fold_left_app.
    cbn [fold_left]. fold (mrun (mstate0 m) h). cbn [served]. rewrite app_nil_r.
    destruct o as [a|x]; cbn [MemoModel.mstep].
    - unfold MemoModel.call. destruct (key a) as [k|e]; [|cbn; lia].
      destruct (lookup k _); [cbn; lia|]. destruct (evict _ _) as [c' [e|]]; [cbn; lia|].
      destruct (func a); cbn; lia.
    - unfold set_maxsize. destruct (evict _ _); cbn. lia.
  Qed.

  Lemma zero_size_raises (h : list (mop A)) a k : key a = Ok k ->
    fst (call (mstate0 0) a) = Err KeyError.
  Proof. intros Hk. unfold MemoModel.call. rewrite Hk. reflexivity. Qed.

  Lemma exceptions_not_cached s a e : fst (call s a) = Err e ->
    forall k v, In (k, v) (cache (snd (call s a))) -> In (k, v) (cache s).
  Proof.
    unfold MemoModel.call. destruct (key a) as [k|e']; [|auto].
    destruct (lookup k (cache s)) as [v|]; [discriminate|].
    destruct (evict_suffix (fun n => maxsize s <=? n) (cache s)) as (d & Ed).
    destruct (evict _ (cache s)) as [c' [e'|]]; cbn [fst snd cache] in *.
    - intros _ k' v' Hin. rewrite Ed. apply in_or_app; auto.
    - destruct (func a); [discriminate|]. intros _ k' v' Hin. cbn in Hin. rewrite Ed. apply in_or_app; auto.
  Qed.
End CacheProofs.

(** ** threads *)
Section ThreadProofs.
  Set Default Proof Using "Type".
  Context {A K V : Type}.
  Variable K_eq : forall a b : K, {a = b} + {a <> b}.
  Variable key : A -> K.
  Variable func : A -> V.
  Variable maxs : Z.
  Notation tstep := (tstep K_eq key func maxs).
  Notation sched_step := (sched_step K_eq key func maxs).
  Notation trun := (trun K_eq key func maxs).

  Definition from (calls : list A) (k : K) (v : V) : Prop :=
    exists a, In a calls /\ key a = k /\ func a = v.

  Definition pc_ok (calls : list A) (p : pc A V) : Prop :=
    match p with
    | Check a | Evict a | Compute a | Hit a | Fetch a => In a calls
    | Store a v => In a calls /\ v = func a
    | Done a r => In a calls /\ match r with Ok v => from calls (key a) v | Err e => e = KeyError end
    end.

  Lemma assign_in k v (c : list (K * V)) k' v' : In (k', v') (assign K_eq k v c) ->
    In (k', v') c \/ (k' = k /\ v' = v).
  Proof.
    induction c as [|(k1, v1) c IH]; cbn; [intros [[= <- <-]|[]]; auto|].
    destruct (K_eq k k1) as [->|Hne]; cbn.
    - intros [[= <- <-]|H]; auto.
    - intros [[= <- <-]|H]; auto. apply IH in H. tauto.
  Qed.

  Lemma tstep_ok calls p c : pc_ok calls p -> (forall k v, In (k, v) c -> from calls k v) ->
    pc_ok calls (fst (tstep p c)) /\ (forall k v, In (k, v) (snd (tstep p c)) -> from calls k v).
  Proof.
    intros Hp Hc. destruct p as [a|a|a|a v|a|a|a r]; cbn [pc_ok MemoModel.tstep] in *.
    - destruct (lookup K_eq (key a) c); cbn; auto.
    - destruct (maxs <=? _); [|cbn; auto]. destruct c as [|x c]; cbn [fst snd pc_ok] in *; [auto|].
      split; [auto|]. intros k v H. apply Hc. right. auto.
    - cbn. auto.
    - destruct Hp as [Hp ->]. cbn. split; [auto|]. intros k v H. apply assign_in in H as [H|[-> ->]]; [auto|].
      exists a. auto.
    - destruct (lookup K_eq (key a) c) as [v|] eqn:El; cbn; [|auto].
      split; [auto|]. intros k' v' H. apply in_app_or in H as [H|[[= <- <-]|[]]].
      + unfold remove_key in H. apply filter_In in H as [H _]. auto.
      + apply lookup_in in El. auto.
    - destruct (lookup K_eq (key a) c) as [v|] eqn:El; cbn; [|auto].
      split; [|auto]. split; [auto|]. apply lookup_in in El. auto.
    - cbn. auto.
  Qed.

  Lemma set_nth_in {X} i (x y : X) l : In y (set_nth i x l) -> y = x \/ In y l.
  Proof.
    revert i; induction l as [|z l IH]; intros [|i]; cbn; auto.
    - intros [H|H]; auto.
    - intros [H|H]; auto. apply IH in H. tauto.
  Qed.

  Lemma trun_ok calls sched :
    (forall p, In p (fst (trun calls sched)) -> pc_ok calls p) /\
    (forall k v, In (k, v) (snd (trun calls sched)) -> from calls k v).
  Proof.
    induction sched as [|i sched IH] using rev_ind.
    - cbn. split; [|contradiction]. intros p H. apply in_map_iff in H as (a & <- & H). auto.
    - unfold MemoModel.trun. rewrite fold_left_app. cbn [fold_left]. fold (trun calls sched).
      destruct (trun calls sched) as [ps c]. cbn [fst snd] in *. destruct IH as [H1 H2].
      unfold MemoModel.sched_step. destruct (nth_error ps i) as [p|] eqn:E; [|cbn; auto].
      apply nth_error_In in E. pose proof (tstep_ok calls p c (H1 _ E) H2) as [H3 H4].
      destruct (tstep p c) as [p' c']. cbn [fst snd] in *. split; [|auto].
      intros q Hq. apply set_nth_in in Hq as [->|Hq]; auto.
  Qed.

  Lemma threads_values calls sched a v : In (Done a (Ok v)) (fst (trun calls sched)) ->
    exists b, In b calls /\ key b = key a /\ func b = v.
  Proof. intros H. apply trun_ok in H. cbn in H. tauto. Qed.

  (** enough room for every call: nothing is ever evicted, nothing raises *)
  Definition fin (p : pc A V) : bool := match p with Fetch _ | Done _ _ => true | _ => false end.
  Definition nfin (ps : list (pc A V)) : nat := List.length (filter fin ps).

  Definition has (c : list (K * V)) (p : pc A V) : Prop :=
    match p with
    | Hit a | Fetch a => In (key a) (map fst c)
    | Done _ (Err _) => False
    | _ => True
    end.

  Lemma nfin_set i p q ps : nth_error ps i = Some p ->
    (nfin (set_nth i q ps) + (if fin p then 1 else 0) = nfin ps + (if fin q then 1 else 0))%nat.
  Proof.
    revert i; induction ps as [|r ps IH]; intros [|i] H; cbn in *; try discriminate.
    - injection H as ->. unfold nfin. cbn. destruct (fin p), (fin q); cbn; lia.
    - specialize (IH i H). unfold nfin in *. cbn. destruct (fin r); cbn; lia.
  Qed.

  Lemma nfin_lt i p ps : nth_error ps i = Some p -> fin p = false -> (nfin ps < List.length ps)%nat.
  Proof.
    revert i; induction ps as [|r ps IH]; intros [|i] H Hf; cbn in *; try discriminate.
    - injection H as ->. unfold nfin. cbn. rewrite Hf.
      assert (List.length (filter fin ps) <= List.length ps)%nat; [|lia].
      clear. induction ps as [|r ps IH]; cbn; [lia|]. destruct (fin r); cbn; lia.
    - specialize (IH i H Hf). unfold nfin in *. cbn. destruct (fin r); cbn; lia.
  Qed.

  Lemma lookup_some_in k (c : list (K * V)) : In k (map fst c) -> exists v, lookup K_eq k c = Some v.
  Proof.
    induction c as [|(k', v') c IH]; cbn; [contradiction|]. destruct (K_eq k k'); [eauto|].
    intros [->|H]; [congruence|auto].
  Qed.

  Lemma remove_key_in k x (c : list (K * V)) v : In x (map fst c) -> In x (map fst (remove_key K_eq k c ++ [(k, v)])).
  Proof.
    intros H. rewrite map_app, in_app_iff. cbn. destruct (K_eq k x); [auto|].
    left. apply in_map_iff in H as ((x', w) & <- & H). apply in_map_iff. exists (x', w). split; [auto|].
    unfold remove_key. apply filter_In. split; [auto|]. cbn in *. destruct (K_eq k x'); [contradiction|auto].
  Qed.

  Lemma remove_key_length k (c : list (K * V)) v : lookup K_eq k c = Some v ->
    (List.length (remove_key K_eq k c) < List.length c)%nat.
  Proof.
    assert (G : forall c : list (K * V), (List.length (remove_key K_eq k c) <= List.length c)%nat).
    { clear. induction c as [|(k', v') c IH]; cbn; [lia|]. unfold remove_key in *. destruct (K_eq k k'); cbn; lia. }
    induction c as [|(k', v') c IH]; cbn; [discriminate|]. destruct (K_eq k k').
    - intros _. specialize (G c). unfold remove_key in G. lia.
    - intros H. specialize (IH H). unfold remove_key in IH. cbn. lia.
  Qed.

  Lemma assign_keys k v (c : list (K * V)) :
    (List.length (assign K_eq k v c) <= S (List.length c))%nat /\ In k (map fst (assign K_eq k v c)) /\
    (forall x, In x (map fst c) -> In x (map fst (assign K_eq k v c))).
  Proof.
    induction c as [|(k', v') c IH]; cbn; [repeat split; auto; lia|].
    destruct (K_eq k k') as [->|Hne]; cbn; [repeat split; auto; lia|].
    destruct IH as (H1 & H2 & H3). repeat split; [lia|auto|]. intros x [->|H]; auto.
  Qed.

  Lemma has_mono c c' p : (forall x, In x (map fst c) -> In x (map fst c')) -> has c p -> has c' p.
  Proof. intros H. destruct p as [a|a|a|a v|a|a|a [v|e]]; cbn; auto. Qed.

  Lemma threads_no_error calls sched : Z.of_nat (List.length calls) <= maxs ->
    let r := trun calls sched in
    (List.length (fst r) = List.length calls) /\
    (List.length (snd r) <= nfin (fst r))%nat /\ (forall p, In p (fst r) -> has (snd r) p).
  Proof.
    intros Hm. cbn zeta. induction sched as [|i sched IH] using rev_ind.
    - cbn. rewrite map_length. split; [auto|]. split; [lia|].
      intros p H. apply in_map_iff in H as (a & <- & H). exact I.
    - unfold MemoModel.trun. rewrite fold_left_app. cbn [fold_left]. fold (trun calls sched).
      destruct (trun calls sched) as [ps c]. cbn [fst snd] in *. destruct IH as (L & H1 & H2).
      unfold MemoModel.sched_step. destruct (nth_error ps i) as [p|] eqn:E; [|cbn; auto].
      pose proof (H2 p (nth_error_In _ _ E)) as Hp.
      assert (Hset : forall q c', (forall x, In x (map fst c) -> In x (map fst c')) -> has c' q ->
         forall r, In r (set_nth i q ps) -> has c' r).
      { intros q c' Hc Hq r Hr. apply set_nth_in in Hr as [->|Hr]; [auto|]. eapply has_mono; eauto. }
      pose proof (fun q => nfin_set i p q ps E) as Hn.
      pose proof (nfin_lt i p ps E) as Hlt.
      destruct p as [a|a|a|a v|a|a|a r]; cbn [MemoModel.tstep] in *.
      + destruct (lookup K_eq (key a) c) eqn:El.
        * specialize (Hn (Hit a)). cbn [fin fst snd] in *. rewrite set_nth_length. split; [auto|]. split; [lia|].
          apply Hset; auto. cbn. apply lookup_in in El. apply in_map_iff. eexists; split; [|exact El]; reflexivity.
        * specialize (Hn (Evict a)). cbn [fin fst snd] in *. rewrite set_nth_length. split; [auto|]. split; [lia|].
          apply Hset; auto; exact I.
      + specialize (Hlt eq_refl). destruct (Z.leb_spec maxs (Z.of_nat (List.length c))); [lia|].
        specialize (Hn (Compute a)). cbn [fin fst snd] in *. rewrite set_nth_length. split; [auto|]. split; [lia|].
        apply Hset; auto; exact I.
      + specialize (Hn (Store a (func a))). cbn [fin fst snd] in *. rewrite set_nth_length. split; [auto|]. split; [lia|].
        apply Hset; auto; exact I.
      + destruct (assign_keys (key a) v c) as (A1 & A2 & A3).
        specialize (Hn (Fetch a)). cbn [fin fst snd] in *. rewrite set_nth_length. split; [auto|]. split; [lia|].
        apply Hset; auto.
      + cbn in Hp. destruct (lookup_some_in _ _ Hp) as (v & Ev). rewrite Ev.
        pose proof (remove_key_length _ _ _ Ev) as RL.
        specialize (Hn (Fetch a)). cbn [fin] in Hn. cbn [fst snd]. rewrite set_nth_length, app_length. cbn [List.length].
        split; [auto|]. split; [lia|]. apply Hset; [intros x Hx; apply remove_key_in; auto|].
        cbn. rewrite map_app. apply in_or_app. right. left. reflexivity.
      + cbn in Hp. destruct (lookup_some_in _ _ Hp) as (v & Ev). rewrite Ev.
        specialize (Hn (Done a (Ok v))). cbn [fin fst snd] in *. rewrite set_nth_length. split; [auto|]. split; [lia|].
        apply Hset; auto; exact I.
      + specialize (Hn (Done a r)). cbn [fin fst snd] in *. rewrite set_nth_length. split; [auto|]. split; [lia|].
        apply Hset; auto.
  Qed.

  Lemma threads_room calls sched a e : Z.of_nat (List.length calls) <= maxs ->
    ~ In (Done a (Err e)) (fst (trun calls sched)).
  Proof. intros Hm H. apply (threads_no_error calls sched Hm) in H. exact H. Qed.
End ThreadProofs.

(** Two-entry cache (the default), three threads. *)
Lemma threads_refuted_lemma : exists (calls : list Z) (sched : list nat) a,
  In (Done a (Err KeyError)) (fst (trun Z.eq_dec (fun x => x) (fun x => x * x) 2 calls sched)).
Proof.
  exists [1; 2; 3], [0; 0; 0; 0;  1; 1; 1; 1; 1;  2; 2; 2; 2; 2; 2;  0]%nat, 1.
  vm_compute. auto.
Qed.

(** ** keys *)
Section KeyProofs.
  Lemma string_leb_trans s1 : forall s2 s3,
    String.leb s1 s2 = true -> String.leb s2 s3 = true -> String.leb s1 s3 = true.
  Proof.
    unfold String.leb. induction s1 as [|a s1 IH]; intros s2 s3; [destruct s3; cbn; auto|].
    destruct s2 as [|b s2]; [cbn; discriminate|]. destruct s3 as [|c s3].
    { intros _. cbn. discriminate. }
    cbn. unfold Ascii.compare.
    destruct (N.compare_spec (Ascii.N_of_ascii a) (Ascii.N_of_ascii b));
    destruct (N.compare_spec (Ascii.N_of_ascii b) (Ascii.N_of_ascii c));
    destruct (N.compare_spec (Ascii.N_of_ascii a) (Ascii.N_of_ascii c)); try lia; auto; try discriminate.
    intros H2 H3. apply (IH s2 s3); auto.
  Qed.

  Lemma insert_comm {X} (p q : string * X) l : fst p <> fst q ->
    insert_item p (insert_item q l) = insert_item q (insert_item p l).
  Proof.
    intros Hne.
    assert (Hx : forall s t : string, String.leb s t = false -> String.leb t s = true).
    { intros s t H. destruct (String.leb_total s t); congruence. }
    assert (Ha : forall s t : string, s <> t -> String.leb s t = true -> String.leb t s = false).
    { intros s t Hn H. destruct (String.leb t s) eqn:E; [|auto]. exfalso. apply Hn. apply String.leb_antisym; auto. }
    induction l as [|r l IH]; cbn.
    - destruct (String.leb (fst p) (fst q)) eqn:E; destruct (String.leb (fst q) (fst p)) eqn:E2; auto.
      + exfalso. apply Hne. apply String.leb_antisym; auto.
      + apply Hx in E. congruence.
    - destruct (String.leb (fst q) (fst r)) eqn:Eq; destruct (String.leb (fst p) (fst r)) eqn:Ep; cbn.
      + destruct (String.leb (fst p) (fst q)) eqn:E.
        * rewrite (Ha _ _ Hne E). cbn. rewrite Eq. reflexivity.
        * rewrite (Hx _ _ E). cbn. rewrite Ep. reflexivity.
      + rewrite Eq. destruct (String.leb (fst p) (fst q)) eqn:E; [|rewrite Ep; reflexivity].
        exfalso. rewrite (string_leb_trans _ _ _ E Eq) in Ep. discriminate.
      + rewrite Ep. destruct (String.leb (fst q) (fst p)) eqn:E; [|rewrite Eq; reflexivity].
        exfalso. rewrite (string_leb_trans _ _ _ E Ep) in Eq. discriminate.
      + rewrite Eq, Ep, IH. reflexivity.
  Qed.

  Lemma sort_items_perm {X} (l l' : list (string * X)) : Permutation l l' -> NoDup (map fst l) ->
    sort_items l = sort_items l'.
  Proof.
    intros P. induction P; intros Hn; cbn; auto.
    - inversion Hn; subst. rewrite IHP; auto.
    - inversion Hn as [|? ? Hx Hn']; subst. apply insert_comm. intros E. apply Hx. left. auto.
    - rewrite IHP1 by auto. apply IHP2. eapply Permutation_NoDup; [|exact Hn]. apply Permutation_map. auto.
  Qed.

  Lemma insert_perm {X} (p : string * X) l : Permutation (insert_item p l) (p :: l).
  Proof.
    induction l as [|q l IH]; cbn; auto. destruct (String.leb _ _); auto.
    rewrite IH. apply perm_swap.
  Qed.

  Lemma sort_perm {X} (l : list (string * X)) : Permutation (sort_items l) l.
  Proof. induction l as [|p l IH]; cbn; auto. rewrite insert_perm. auto. Qed.

  Variable hash : list Z -> string.
  Notation convert := (convert hash).
  Notation make_key := (make_key hash).

  Lemma keyword_order args kw kw' : Permutation kw kw' -> NoDup (map fst kw) ->
    make_key args kw = make_key args kw'.
  Proof. intros P N. unfold MemoModel.make_key. rewrite (sort_items_perm kw kw'); auto. Qed.

  Fixpoint vsize (v : pyval) : nat :=
    match v with
    | PTuple l | PList l => S (fold_right (fun v n => vsize v + n)%nat O l)
    | _ => 1%nat
    end.

  Lemma map_KNum_inj l l' : map KNum l = map KNum l' -> l = l'.
  Proof. revert l'; induction l as [|x l IH]; intros [|y l'] E; cbn in *; try discriminate; auto.
    injection E as -> E. f_equal. auto. Qed.

  Hypothesis hash_inj : forall b b', hash b = hash b' -> b = b'.

  Lemma convert_inj dt : forall n v w, (vsize v <= n)%nat -> plain dt v = true -> plain dt w = true ->
    convert v = convert w -> v = w.
  Proof using hash hash_inj.
    induction n as [|n IH]; intros v w Hs Hv Hw E.
    { destruct v; cbn in Hs; lia. }
    assert (Hmark : forall l, forallb (plain dt) l = true ->
       forall t, map convert l <> KStr "__type_np.ndarray" :: t).
    { intros l Hl t Em. destruct l as [|x l]; [discriminate|]. cbn in Em, Hl. injection Em as Ex _.
      apply andb_prop in Hl as [Hx _]. destruct x; cbn in *; try discriminate. injection Ex as ->.
      rewrite String.eqb_refl in Hx. discriminate. }
    destruct v; destruct w; cbn in Hv, Hw; try discriminate; cbn in E; try discriminate; try congruence.
    - injection E as E1 E2. apply map_KNum_inj in E1. apply hash_inj in E2.
      apply String.eqb_eq in Hv, Hw. congruence.
    - exfalso. injection E as E. symmetry in E. eapply Hmark; eauto.
    - exfalso. injection E as E. eapply Hmark; eauto.
    - injection E as E. f_equal. cbn in Hs.
      assert (Hs' : (fold_right (fun v n => vsize v + n)%nat O l <= n)%nat) by lia. clear Hs.
      revert l0 Hw E. induction l as [|x l IHl]; intros [|y l'] Hw E; cbn in *; try discriminate; auto.
      injection E as E1 E2. apply andb_prop in Hv as [Hv1 Hv2]. apply andb_prop in Hw as [Hw1 Hw2].
      assert (1 <= vsize x)%nat by (destruct x; cbn; lia).
      f_equal; [apply (IH x y); auto; lia|]. apply IHl; auto. lia.
  Qed.

  Lemma make_key_inj dt args args' kw kw' :
    List.length args = List.length args' ->
    forallb (plain dt) args = true -> forallb (plain dt) args' = true ->
    forallb (fun p => plain dt (snd p)) kw = true -> forallb (fun p => plain dt (snd p)) kw' = true ->
    make_key args kw = make_key args' kw' -> args = args' /\ Permutation kw kw'.
  Proof using hash hash_inj.
    intros L Ha Ha' Hk Hk' E. unfold MemoModel.make_key in E. injection E as E.
    assert (Hsplit : map convert args = map convert args' /\
       map (fun p => KTup [KStr (fst p); convert (snd p)]) (sort_items kw)
       = map (fun p => KTup [KStr (fst p); convert (snd p)]) (sort_items kw')).
    { revert E. assert (L2 : List.length (map convert args) = List.length (map convert args')) by (rewrite !map_length; auto).
      revert L2. generalize (map convert args) as m, (map convert args') as m'. clear.
      induction m as [|x m IH]; intros [|y m'] L E; cbn in *; try discriminate; auto.
      injection E as -> E. injection L as L. destruct (IH m' L E). split; congruence. }
    destruct Hsplit as [E1 E2]. split.
    - clear E E2 Hk Hk' L. revert args' Ha' E1. induction args as [|x args IH]; intros [|y args'] Ha' E1; cbn in *; try discriminate; auto.
      injection E1 as Ex E1. apply andb_prop in Ha as [Hx Ha]. apply andb_prop in Ha' as [Hy Ha'].
      f_equal; [apply (convert_inj dt (vsize x)); auto|auto].
    - rewrite <- (sort_perm kw), <- (sort_perm kw').
      assert (Es : sort_items kw = sort_items kw'); [|rewrite Es; auto].
      assert (Hs : forallb (fun p => plain dt (snd p)) (sort_items kw) = true).
      { rewrite forallb_forall in *. intros p Hp. apply Hk. eapply Permutation_in; [apply sort_perm|auto]. }
      assert (Hs' : forallb (fun p => plain dt (snd p)) (sort_items kw') = true).
      { rewrite forallb_forall in *. intros p Hp. apply Hk'. eapply Permutation_in; [apply sort_perm|auto]. }
      revert E2 Hs Hs'. generalize (sort_items kw) as m, (sort_items kw') as m'. clear -hash_inj.
      induction m as [|(n, x) m IH]; intros [|(n', y) m'] E Hs Hs'; cbn in *; try discriminate; auto.
      injection E as -> Ex E. apply andb_prop in Hs as [Hx Hs]. apply andb_prop in Hs' as [Hy Hs'].
      f_equal; [f_equal; apply (convert_inj dt (vsize x)); auto|auto].
  Qed.
End KeyProofs.

(** every conflation, for every hash function *)
Lemma key_conflations (hash : list Z -> string) :
  (forall d1 d2 sh b, make_key hash [PArr d1 sh b] [] = make_key hash [PArr d2 sh b] []) /\
  (forall l, make_key hash [PList l] [] = make_key hash [PTuple l] []) /\
  (forall n v, make_key hash [PTuple [PStr n; v]] [] = make_key hash [] [(n, v)]) /\
  (forall n v, make_key hash [PDict [(n, v)]] [] = make_key hash [PList [PTuple [PStr n; v]]] []) /\
  (make_key hash [PInt 1] [] = make_key hash [PBool true] [] /\
   make_key hash [PInt 1] [] = make_key hash [PFloatInt 1] []).
Proof. repeat split. Qed.

(** ** arrays *)
Lemma poke_frozen h l x c : nth_error h l = Some c -> writeable c = false ->
  poke h l x = (Some ValueError, h).
Proof. intros H Hw. unfold poke. rewrite H, Hw. reflexivity. Qed.

Lemma freeze_array h l c : nth_error h l = Some c ->
  nth_error (freeze h (OArr l)) l = Some {| content := content c; writeable := false |}.
Proof.
  intros H. cbn. rewrite H. apply set_nth_eq. apply nth_error_Some. congruence.
Qed.

Lemma pokes_frozen pokes : forall h l c, nth_error h l = Some c -> writeable c = false ->
  nth_error (fold_left (fun h p => snd (poke h (fst p) (snd p))) pokes h) l = Some c.
Proof.
  induction pokes as [|(l', x) pokes IH]; intros h l c H Hw; cbn; auto.
  apply IH; auto. unfold poke. destruct (nth_error h l') as [c'|] eqn:E; [|auto].
  destruct (writeable c') eqn:W; [|auto]. cbn. rewrite set_nth_ne; auto. congruence.
Qed.

Lemma memo_array_protected h l c pokes : nth_error h l = Some c ->
  option_map content (nth_error (fold_left (fun h p => snd (poke h (fst p) (snd p))) pokes (freeze h (OArr l))) l)
  = Some (content c).
Proof.
  intros H. rewrite (pokes_frozen pokes _ l _ (freeze_array h l c H) eq_refl). reflexivity.
Qed.

Lemma memo_tuple_unprotected_lemma : exists h locs l c x,
  In l locs /\ nth_error h l = Some c /\
  option_map content (nth_error (snd (poke (freeze h (OTup locs)) l x)) l) <> Some (content c).
Proof.
  exists [{| content := 5; writeable := true |}; {| content := 6; writeable := true |}], [0; 1]%nat, 0%nat,
    {| content := 5; writeable := true |}, 9. cbn. repeat split; auto. discriminate.
Qed.

(** ** mutable argument objects *)
Lemma stale_lemma (P V : Type) (angles : P -> V) (p q : P) : angles p <> angles q ->
  forall mem m i, 1 <= m -> mem i = p ->
  exists r1 r2, snd (irun angles (mem, mstate0 m) [Pixel i; SetParams i q; Pixel i]) = [r1; r2] /\
    r1 = Ok (angles p) /\ r2 = Ok (angles p) /\ r2 <> Ok (angles q).
Proof.
  intros Hne mem m i Hm Hi. cbn. unfold call. cbn.
  destruct (Z.leb_spec m 0); [lia|]. cbn. destruct (Z.eq_dec i i); [|congruence]. cbn.
  do 2 eexists. split; [reflexivity|]. rewrite Hi. repeat split; auto. congruence.
Qed.

Section Fresh.
  Set Default Proof Using "Type".
  Context {P V : Type}.
  Variable angles : P -> V.

  Lemma fresh_lemma : forall h used mem (s : mstate Z V), no_mutation used h ->
    1 <= maxsize s -> (forall k v, In (k, v) (cache s) -> In k used /\ v = angles (mem k)) ->
    snd (irun angles (mem, s) h) = map Ok (expected angles mem h).
  Proof.
    induction h as [|o h IH]; intros used mem s Hn Hm Hc; [reflexivity|]. destruct o as [i p|i].
    - cbn [no_mutation] in Hn. destruct Hn as [Hni Hn]. cbn [irun istep expected].
      destruct (irun angles (iupd mem i p, s) h) as [s'' rs] eqn:E. cbn [snd].
      replace rs with (snd (irun angles (iupd mem i p, s) h)) by (rewrite E; reflexivity). apply (IH used); auto.
      intros k v Hin. destruct (Hc k v Hin) as [H1 H2]. split; [auto|]. unfold iupd.
      destruct (Z.eqb_spec k i); [subst; contradiction|auto].
    - cbn [no_mutation] in Hn. cbn [irun istep expected map].
      destruct (call Z.eq_dec (fun i => Ok i) (fun i => Ok (angles (mem i))) s i) as [r c'] eqn:Ec.
      assert (Hr : r = Ok (angles (mem i)) /\ 1 <= maxsize c' /\
        (forall k v, In (k, v) (cache c') -> In k (i :: used) /\ v = angles (mem k))).
      { unfold call in Ec. destruct (lookup Z.eq_dec i (cache s)) as [v|] eqn:El.
        - injection Ec as <- <-. apply lookup_in in El as Hin. destruct (Hc _ _ Hin) as [_ ->].
          repeat split; auto; cbn in *; apply in_app_or in H as [H|[[= <- <-]|[]]]; auto;
            unfold remove_key in H; apply filter_In in H as [H _]; destruct (Hc _ _ H); auto.
        - destruct (evict _ (cache s)) as [c1 e] eqn:Ee.
          destruct (evict_suffix (fun n => maxsize s <=? n) (cache s)) as (d & Ed).
          rewrite Ee in Ed. cbn in Ed. destruct e as [e|].
          + apply evict_err in Ee as (_ & _ & Ht). lia.
          + injection Ec as <- <-. cbn. repeat split; auto.
            * apply in_app_or in H as [H|[[= <- <-]|[]]]; auto. right.
              assert (Hin : In (k, v) (cache s)) by (rewrite Ed; apply in_or_app; auto). apply Hc in Hin. tauto.
            * apply in_app_or in H as [H|[[= <- <-]|[]]]; auto.
              assert (Hin : In (k, v) (cache s)) by (rewrite Ed; apply in_or_app; auto). apply Hc in Hin. tauto. }
      destruct Hr as (-> & Hm' & Hc'). rewrite <- (IH (i :: used) mem c' Hn Hm' Hc').
      match goal with |- snd (let (_, _) := ?x in _) = _ => change x with (irun angles (mem, c') h) end.
      destruct (irun angles (mem, c') h). reflexivity.
  Qed.
End Fresh.
