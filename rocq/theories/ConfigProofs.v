(** Lemmas for C21-C23, C60. *)
From Coq Require Import String Ascii QArith.
From Verif Require Import Prelude ConfigModel ConfigSpec.
Local Open Scope string_scope.
Local Open Scope list_scope.
Local Notation length := List.length.
Close Scope Q_scope.

(** ** dictionaries *)
Lemma dget_dset_eq k v d : dget k (dset k v d) = Some v.
Proof.
  induction d as [|[k' w] d IH]; cbn [dset dget]; [now rewrite String.eqb_refl|].
  destruct (String.eqb k k') eqn:E; cbn [dget]; rewrite E; auto.
Qed.
Lemma dget_dset_ne k k' v d : k <> k' -> dget k (dset k' v d) = dget k d.
Proof.
  intros H. induction d as [|[k2 w] d IH]; cbn [dset dget].
  - apply String.eqb_neq in H. now rewrite H.
  - destruct (String.eqb_spec k' k2) as [<-|]; cbn [dget].
    + destruct (String.eqb_spec k k'); congruence.
    + rewrite IH. reflexivity.
Qed.
Lemma dget_in k v d : dget k d = Some v -> In (k, v) d.
Proof.
  induction d as [|[k' w] d IH]; cbn [dget]; [discriminate|].
  destruct (String.eqb_spec k k') as [<-|]; [intros E; injection E as <-; left; auto|right; auto].
Qed.
Lemma dget_none k d : dget k d = None <-> ~ In k (map fst d).
Proof.
  induction d as [|[k' w] d IH]; cbn [dget map fst In]; [tauto|].
  destruct (String.eqb_spec k k') as [<-|Hne].
  - split; [discriminate|intros H; exfalso; apply H; left; auto].
  - rewrite IH. split; [intros H [E|E]; [congruence|auto]|intros H E; apply H; right; auto].
Qed.
Lemma in_dget k v d : NoDup (map fst d) -> In (k, v) d -> dget k d = Some v.
Proof.
  induction d as [|[k' w] d IH]; cbn [dget map fst]; [intros _ []|]. intros Hn [E|Hin].
  - injection E as -> ->. now rewrite String.eqb_refl.
  - inversion Hn as [|? ? Hni Hn']; subst. destruct (String.eqb_spec k k') as [<-|]; auto.
    exfalso. apply Hni. apply (in_map fst) in Hin. exact Hin.
Qed.
Lemma dset_keys k v d : map fst (dset k v d) = if in_dec string_dec k (map fst d) then map fst d else map fst d ++ [k].
Proof.
  induction d as [|[k' w] d IH]; cbn [dset map fst].
  - destruct (in_dec string_dec k []) as [[]|]; reflexivity.
  - destruct (String.eqb_spec k k') as [<-|Hne]; cbn [map fst].
    + destruct (in_dec string_dec k (k :: map fst d)) as [|n]; [reflexivity|]. exfalso; apply n; left; auto.
    + rewrite IH. destruct (in_dec string_dec k (map fst d)) as [i|n]; destruct (in_dec string_dec k (k' :: map fst d)) as [i'|n']; auto.
      * exfalso; apply n'; right; auto.
      * destruct i' as [->|i']; congruence || contradiction.
Qed.
Lemma NoDup_snoc (l : list string) x : NoDup l -> ~ In x l -> NoDup (l ++ [x]).
Proof.
  intros H Hx. induction H as [|y l Hy Hl IH]; cbn [app]; [constructor; [intros []|constructor]|]. constructor.
  - intros Hin. apply in_app_or in Hin as [Hin|[->|[]]]; [tauto|]. apply Hx. left; auto.
  - apply IH. intros Hin. apply Hx. right; auto.
Qed.
Lemma dset_nodup k v d : NoDup (map fst d) -> NoDup (map fst (dset k v d)).
Proof. intros H. rewrite dset_keys. destruct (in_dec string_dec k (map fst d)); auto. apply NoDup_snoc; auto. Qed.

Lemma dict_ext d d' : map fst d = map fst d' -> NoDup (map fst d) -> (forall k, dget k d = dget k d') -> d = d'.
Proof.
  revert d'. induction d as [|[k v] d IH]; intros [|[k' v'] d'] Hk Hn Hg; cbn [map fst] in *; try discriminate; auto.
  injection Hk as <- Hk. pose proof (Hg k) as Hg0. cbn [dget] in Hg0. rewrite String.eqb_refl in Hg0. injection Hg0 as <-. f_equal.
  inversion Hn as [|? ? Hni Hn']; subst. apply IH; auto. intros k2. specialize (Hg k2). cbn [dget] in Hg.
  destruct (String.eqb_spec k2 k) as [E|_]; [rewrite E|exact Hg].
  rewrite (proj2 (dget_none k d) Hni). rewrite Hk in Hni. rewrite (proj2 (dget_none k d') Hni). reflexivity.
Qed.

(** ** split *)
Lemma split_nonempty s : split_colon s <> [].
Proof.
  destruct s as [|c r]; cbn [split_colon]; [discriminate|]. destruct (Ascii.eqb c ":"%char); [discriminate|].
  destruct (split_colon r); discriminate.
Qed.

(** ** get *)
Lemma get_cons k k2 p d dflt : cfg_get_path (YDict d) (k :: k2 :: p) dflt =
  cfg_get_path (match dget k d with None | Some YNone => YDict [] | Some x => x end) (k2 :: p) dflt.
Proof. reflexivity. Qed.
Lemma set_cons k k2 p d val : cfg_set_path (YDict d) (k :: k2 :: p) val =
  match dget k d with
  | None | Some YNone => do t <- cfg_set_path (YDict []) (k2 :: p) val; Ok (YDict d, snd t)
  | Some x => do t <- cfg_set_path x (k2 :: p) val; Ok (YDict (dset k (fst t) d), snd t)
  end.
Proof. reflexivity. Qed.

Lemma get_at dflt p : forall cfg v, p <> [] -> at_path cfg p = Some v -> cfg_get_path cfg p dflt = Ok v.
Proof.
  induction p as [|k p IH]; intros cfg v Hp H; [congruence|]. cbn [at_path] in H.
  destruct cfg as [| | | | | |d]; try discriminate. destruct (dget k d) as [x|] eqn:E; [|discriminate].
  destruct p as [|k2 p].
  - cbn [cfg_get_path]. rewrite E. cbn in H. congruence.
  - rewrite get_cons, E. assert (Hx : match x with YNone => YDict [] | _ => x end = x) by (destruct x; auto; discriminate H).
    rewrite Hx. apply IH; [discriminate|auto].
Qed.

Lemma open_to_cons k p d x : open_to (YDict d) (k :: p) -> dget k d = Some x -> open_to x p.
Proof. intros H E q k2 r -> y Hy. apply (H (k :: q) k2 r eq_refl). cbn [at_path]. now rewrite E. Qed.

Lemma open_to_empty p : open_to (YDict []) p.
Proof.
  intros q k r _ x Hx [H1 H2]. destruct q as [|k2 q]; cbn in Hx; [injection Hx as <-; apply H2; eexists; eauto|discriminate].
Qed.

Lemma get_missing dflt p : forall cfg, p <> [] -> is_dict cfg -> open_to cfg p -> at_path cfg p = None ->
  cfg_get_path cfg p dflt = match dflt with Some x => Ok x | None => Err RuntimeError end.
Proof.
  induction p as [|k p IH]; intros cfg Hp [d ->] Ho H; [congruence|]. cbn [at_path] in H.
  destruct p as [|k2 p].
  - cbn [cfg_get_path]. destruct (dget k d); [discriminate|]. reflexivity.
  - rewrite get_cons. destruct (dget k d) as [x|] eqn:E.
    + pose proof (open_to_cons _ _ _ _ Ho E) as Ho2. 
      assert (D : is_dict x \/ x = YNone).
      { destruct x; try (right; reflexivity); try (left; eexists; reflexivity); exfalso;
          apply (Ho [k] k2 p eq_refl _ ltac:(cbn [at_path]; rewrite E; reflexivity)); split; try discriminate; intros [? ?]; discriminate. }
      destruct D as [[dx ->]|Hx].
      * apply IH; auto; try discriminate. eexists; eauto.
      * subst x. apply IH; try discriminate; [eexists; eauto|apply open_to_empty|reflexivity].
    + apply IH; try discriminate; [eexists; eauto|apply open_to_empty|reflexivity].
Qed.

Lemma get_blocked dflt p : forall cfg, is_dict cfg -> ~ open_to cfg p ->
  cfg_get_path cfg p dflt = Err TypeError \/ cfg_get_path cfg p dflt = Err AttributeError.
Proof.
  assert (A : forall p cfg, (exists q k r x, p = q ++ k :: r /\ at_path cfg q = Some x /\ is_leaf x) ->
    cfg_get_path cfg p dflt = Err TypeError \/ cfg_get_path cfg p dflt = Err AttributeError).
  { clear. induction p as [|k p IH]; intros cfg (q & k2 & r & x & E & Hx & Hl); [destruct q; discriminate|].
    destruct q as [|k3 q].
    - cbn in Hx. injection Hx as <-. destruct Hl as [H1 H2]. destruct p; destruct cfg; cbn; auto; exfalso; apply H2; eexists; eauto.
    - cbn [app] in E. injection E as <- ->. cbn [at_path] in Hx. destruct cfg; try discriminate. destruct (dget k d) as [y|] eqn:Ey; [|discriminate].
      assert (Hne : q ++ k2 :: r <> []) by (destruct q; discriminate). destruct (q ++ k2 :: r) as [|a b] eqn:Eq; [congruence|]. rewrite get_cons, Ey.
      assert (Hy : match y with YNone => YDict [] | _ => y end = y).
      { destruct y; auto. destruct q; [|discriminate Hx]. cbn in Hx. injection Hx as <-. destruct Hl; congruence. }
      rewrite Hy. apply IH. exists q, k2, r, x. rewrite Eq. auto. }
  intros cfg Hd Hn. apply A.
  (* classical choice is not needed: search the finite list of prefixes *)
  assert (B : forall p cfg, (exists q k r x, p = q ++ k :: r /\ at_path cfg q = Some x /\ is_leaf x) \/ open_to cfg p).
  { clear. induction p as [|k p IH]; intros cfg; [right; intros [|? ?] ? ? E; discriminate|].
    assert (L : is_leaf cfg \/ ~ is_leaf cfg).
    { destruct cfg; try (left; split; [discriminate|intros [? ?]; discriminate]).
      - right. intros [H _]. congruence.
      - right. intros [_ H]. apply H. eexists; eauto. }
    destruct L as [L|L]; [left; exists [], k, p, cfg; auto|].
    destruct cfg as [| | | | | |d]; try (right; intros q0 k2 r E x Hx; destruct q0 as [|k3 q0];
      [cbn in Hx; injection Hx as <-; auto|cbn in Hx; discriminate]).
    destruct (dget k d) as [y|] eqn:Ey.
    - destruct (IH y) as [(q & k2 & r & x & E & Hx & Hl)|Ho].
      + left. exists (k :: q), k2, r, x. cbn [at_path app]. rewrite Ey. subst p. auto.
      + right. intros q k2 r E x Hx. destruct q as [|k3 q]; [cbn in Hx; injection Hx as <-; auto|].
        cbn [app] in E. injection E as <- ->. cbn [at_path] in Hx. rewrite Ey in Hx. apply (Ho q k2 r eq_refl x Hx).
    - right. intros q k2 r E x Hx. destruct q as [|k3 q]; [cbn in Hx; injection Hx as <-; auto|].
      cbn [app] in E. injection E as <- ->. cbn [at_path] in Hx. rewrite Ey in Hx. discriminate. }
  destruct (B p cfg); auto. contradiction.
Qed.

(** ** set *)
Lemma set_dict p : forall cfg val c b, cfg_set_path cfg p val = Ok (c, b) -> is_dict cfg /\ is_dict c.
Proof.
  induction p as [|k p IH]; intros cfg val c b H; [discriminate|].
  destruct p as [|k2 p].
  - cbn [cfg_set_path] in H. destruct cfg; try discriminate. split; [eexists; eauto|]. destruct (dget k d) as [w|]; [destruct (py_eq w val)|]; injection H as <- _; eexists; eauto.
  - destruct cfg; try discriminate. rewrite set_cons in H. split; [eexists; eauto|]. destruct (dget k d) as [w|]; [destruct w|];
      match type of H with rbind ?e _ = _ => destruct e as [[? ?]|]; cbn in H; [|discriminate] end; injection H as <- _; eexists; eauto.
Qed.

Lemma blocks_cons k k2 p cfg : blocks_exist cfg (k :: k2 :: p) -> exists d x, cfg = YDict d /\ dget k d = Some x /\ is_dict x /\ blocks_exist x (k2 :: p).
Proof.
  intros H. destruct (H [] k (k2 :: p) eq_refl) as (v & Hv & [d Hd]). cbn in Hv. injection Hv as <-. subst cfg.
  destruct (H [k] k2 p eq_refl) as (x & Hx & Hdx). cbn [at_path] in Hx. destruct (dget k d) as [y|] eqn:Ey; [|discriminate].
  cbn in Hx. injection Hx as ->. exists d, x. repeat split; auto. intros q k3 r E. destruct (H (k :: q) k3 r) as (v & Hv & Hdv).
  { cbn. now rewrite E. } cbn [at_path] in Hv. rewrite Ey in Hv. eauto.
Qed.

Lemma set_get p : forall cfg val, p <> [] -> blocks_exist cfg p -> exists c b w, cfg_set_path cfg p val = Ok (c, b) /\
  at_path c p = Some w /\ (w = val \/ (b = false /\ at_path cfg p = Some w /\ py_eq w val = true)) /\
  (b = false -> c = cfg) .
Proof.
  induction p as [|k p IH]; intros cfg val Hp Hb; [congruence|]. destruct p as [|k2 p].
  - destruct (Hb [] k [] eq_refl) as (v & Hv & [d Hd]). cbn in Hv. injection Hv as <-. subst cfg. cbn [cfg_set_path at_path].
    destruct (dget k d) as [w|] eqn:E.
    + destruct (py_eq w val) eqn:Eq.
      * exists (YDict d), false, w. rewrite E. repeat split; auto. 
      * exists (YDict (dset k val d)), true, val. rewrite dget_dset_eq. repeat split; auto; discriminate.
    + exists (YDict (dset k val d)), true, val. rewrite dget_dset_eq. repeat split; auto; discriminate.
  - destruct (blocks_cons _ _ _ _ Hb) as (d & x & -> & E & [dx ->] & Hbx).
    destruct (IH (YDict dx) val ltac:(discriminate) Hbx) as (c & b & w & Hs & Hw & Hor & Hc).
    exists (YDict (dset k c d)), b, w. rewrite set_cons, E, Hs. cbn [rbind fst snd]. split; [reflexivity|].
    split; [cbn [at_path]; rewrite dget_dset_eq; exact Hw|]. split.
    + destruct Hor as [->|(Hb1 & Ha & Hpy)]; [left; auto|right]. repeat split; auto. cbn [at_path]. rewrite E. exact Ha.
    + intros Hbf. rewrite (Hc Hbf). f_equal. clear -E. induction d as [|[k' w] d IH]; cbn [dget dset] in *; [discriminate|].
      destruct (String.eqb k k'); [injection E as ->; auto|]. now rewrite IH.
Qed.

Lemma set_lost p : forall cfg val, block_missing cfg p -> cfg_set_path cfg p val = Ok (cfg, true).
Proof.
  assert (Fresh : forall p val, p <> [] -> exists c, cfg_set_path (YDict []) p val = Ok (c, true)).
  { clear. induction p as [|k p IH]; intros val Hp; [congruence|]. destruct p as [|k2 p]; [eexists; reflexivity|]. rewrite set_cons. cbn [dget].
    destruct (IH val ltac:(discriminate)) as [c Hc]. rewrite Hc. cbn. eexists; reflexivity. }
  induction p as [|k p IH]; intros cfg val (q & k2 & r & E & Hr & (v & Hv & [dv ->]) & Hm); [destruct q; discriminate|].
  destruct q as [|k3 q]; cbn [app] in E.
  - injection E as <- ->. cbn in Hv. injection Hv as ->. cbn [app at_path] in Hm.
    destruct r as [|k4 r]; [congruence|]. rewrite set_cons. destruct (Fresh (k4 :: r) val ltac:(discriminate)) as [c Hc].
    destruct (dget k dv) as [x|] eqn:Ek.
    + destruct Hm as [Hm|Hm]; [discriminate|]. injection Hm as ->. rewrite Hc. reflexivity.
    + rewrite Hc. reflexivity.
  - injection E as <- ->. cbn [app at_path] in Hv, Hm. destruct cfg as [| | | | | |d]; try discriminate.
    destruct (dget k d) as [x|] eqn:Ek; [|discriminate].
    assert (Hx : is_dict x). { destruct q; cbn in Hv; [injection Hv as ->; eexists; eauto|destruct x; try discriminate; eexists; eauto]. }
    destruct Hx as [dx ->].
    assert (IHx : cfg_set_path (YDict dx) (q ++ k2 :: r) val = Ok (YDict dx, true)).
    { apply IH. exists q, k2, r. repeat split; auto. exists (YDict dv). split; auto. eexists; eauto. }
    destruct (q ++ k2 :: r) as [|k5 r5] eqn:Eq; [destruct q; discriminate|]. rewrite set_cons, Ek, IHx. cbn [rbind fst snd].
    f_equal. f_equal. f_equal. clear -Ek. induction d as [|[k' w] d IH]; cbn [dget dset] in *; [discriminate|].
    destruct (String.eqb k k'); [injection Ek as ->; auto|]. now rewrite IH.
Qed.

Lemma unrelated_cons k p q : unrelated (k :: p) (k :: q) -> unrelated p q.
Proof. intros [H1 H2]. split; intros [r ->]; [apply H1|apply H2]; exists r; reflexivity. Qed.

Lemma set_unrelated p : forall q cfg val c b dflt, cfg_set_path cfg p val = Ok (c, b) -> unrelated p q ->
  cfg_get_path c q dflt = cfg_get_path cfg q dflt.
Proof.
  induction p as [|k p IH]; intros q cfg val c b dflt H Hu; [discriminate|].
  destruct q as [|k' q]; [exfalso; apply (proj2 Hu); exists (k :: p); reflexivity|].
  assert (Frame : forall x d, k <> k' -> cfg_get_path (YDict (dset k x d)) (k' :: q) dflt = cfg_get_path (YDict d) (k' :: q) dflt).
  { intros x d Hne. destruct q as [|k4 q]; [cbn [cfg_get_path]|rewrite !get_cons]; rewrite dget_dset_ne by congruence; reflexivity. }
  destruct p as [|k2 p].
  - cbn [cfg_set_path] in H. assert (Hne : k <> k'). { intros <-. apply (proj1 Hu). exists q. reflexivity. }
    destruct cfg as [| | | | | |d]; try discriminate.
    destruct (dget k d) as [w|]; [destruct (py_eq w val)|]; injection H as <- _; auto.
  - destruct cfg as [| | | | | |d]; try discriminate. rewrite set_cons in H. destruct (dget k d) as [x|] eqn:Ek.
    2:{ destruct (cfg_set_path (YDict []) (k2 :: p) val); [|discriminate]. cbn [rbind] in H. congruence. }
    assert (Hx : x = YNone \/ x <> YNone) by (destruct x; (left; reflexivity) || (right; discriminate)).
    destruct Hx as [->|Hx].
    + destruct (cfg_set_path (YDict []) (k2 :: p) val); [|discriminate]. cbn [rbind] in H. congruence.
    + assert (H' : (do t <- cfg_set_path x (k2 :: p) val; Ok (YDict (dset k (fst t) d), snd t)) = Ok (c, b)) by (destruct x; auto; congruence).
      destruct (cfg_set_path x (k2 :: p) val) as [[x' b']|] eqn:Es; [|discriminate]. cbn [rbind fst snd] in H'. injection H' as <- <-.
      destruct (String.eqb_spec k k') as [<-|Hne]; [|apply Frame; auto].
      destruct q as [|k4 q]; [exfalso; apply (proj2 Hu); exists (k2 :: p); reflexivity|].
      destruct (set_dict _ _ _ _ _ Es) as [[dx ->] [dx' ->]].
      rewrite !get_cons, dget_dset_eq, Ek. apply (IH (k4 :: q) _ _ _ _ dflt Es). apply unrelated_cons with k. auto.
Qed.

Lemma set_keeps_blocks p : forall s cfg val c b, cfg_set_path cfg p val = Ok (c, b) -> ~ prefix p s ->
  (exists v, at_path cfg s = Some v /\ is_dict v) -> exists v, at_path c s = Some v /\ is_dict v.
Proof.
  induction p as [|k p IH]; intros s cfg val c b H Hn (v & Hv & Hd); [discriminate|].
  destruct s as [|k' s].
  { destruct (set_dict _ _ _ _ _ H) as [_ Hc]. exists c. split; auto. }
  cbn [at_path] in Hv. destruct cfg as [| | | | | |d]; try discriminate. destruct (dget k' d) as [y|] eqn:Ey; [|discriminate].
  destruct p as [|k2 p].
  - cbn [cfg_set_path] in H. assert (Hne : k' <> k). { intros <-. apply Hn. exists s. reflexivity. }
    destruct (dget k d) as [w|]; [destruct (py_eq w val)|]; injection H as <- _; exists v; split; auto; cbn [at_path];
      try rewrite dget_dset_ne by auto; rewrite Ey; auto.
  - rewrite set_cons in H. destruct (dget k d) as [x|] eqn:Ek.
    2:{ destruct (cfg_set_path (YDict []) (k2 :: p) val); [|discriminate]. cbn [rbind] in H. injection H as <- _.
        exists v. split; auto. cbn [at_path]. now rewrite Ey. }
    assert (Hx : x = YNone \/ x <> YNone) by (destruct x; (left; reflexivity) || (right; discriminate)).
    destruct Hx as [->|Hx].
    + destruct (cfg_set_path (YDict []) (k2 :: p) val); [|discriminate]. cbn [rbind] in H. injection H as <- _.
      exists v. split; auto. cbn [at_path]. now rewrite Ey.
    + assert (H' : (do t <- cfg_set_path x (k2 :: p) val; Ok (YDict (dset k (fst t) d), snd t)) = Ok (c, b)) by (destruct x; auto; congruence).
      destruct (cfg_set_path x (k2 :: p) val) as [[x' b']|] eqn:Es; [|discriminate]. cbn [rbind fst snd] in H'. injection H' as <- <-.
      cbn [at_path]. destruct (String.eqb_spec k' k) as [->|Hne].
      * rewrite dget_dset_eq. rewrite Ek in Ey. injection Ey as ->. apply (IH s y val x' b' Es); [|eauto].
        intros [r ->]. apply Hn. exists r. reflexivity.
      * rewrite dget_dset_ne by auto. rewrite Ey. eauto.
Qed.

Lemma blocks_after_set p q cfg val c b : cfg_set_path cfg p val = Ok (c, b) -> (p = q \/ unrelated p q) -> blocks_exist cfg q -> blocks_exist c q.
Proof.
  intros H Hr Hb s k r E. apply (set_keeps_blocks _ _ _ _ _ _ H); [|apply (Hb s k r E)].
  intros [t ->]. destruct Hr as [->|[Hu _]].
  - apply (f_equal (@length _)) in E. rewrite !app_length in E. cbn [length] in E. lia.
  - apply Hu. exists (t ++ k :: r). rewrite app_assoc. exact E.
Qed.

Lemma sets_history key : forall l cfg b, blocks_exist cfg (split_colon key) ->
  Forall (fun kv => fst kv = key \/ unrelated (split_colon (fst kv)) (split_colon key)) l ->
  match last_assigned key l with
  | None => forall dflt, cfg_get (fst (cfg_sets (cfg, b) l)) key dflt = cfg_get cfg key dflt
  | Some v => exists w, cfg_get (fst (cfg_sets (cfg, b) l)) key None = Ok w /\ (w = v \/ py_eq w v = true)
  end.
Proof.
  induction l as [|[k v] l IH]; intros cfg b Hb HF; cbn [last_assigned cfg_sets fst snd]; [auto|].
  inversion HF as [|? ? Hk HF']; subst. cbn [fst] in Hk.
  assert (P : exists c b', (match cfg_set cfg k v with Ok (c, b') => (c, orb b b') | Err _ => (cfg, b) end) = (c, b') /\
      blocks_exist c (split_colon key) /\
      (k = key -> exists w, cfg_get c key None = Ok w /\ (w = v \/ py_eq w v = true)) /\
      (k <> key -> forall dflt, cfg_get c key dflt = cfg_get cfg key dflt)).
  { unfold cfg_set, cfg_get. destruct Hk as [->|Hu].
    - destruct (set_get (split_colon key) cfg v (split_nonempty key) Hb) as (c & b' & w & Hs & Hw & Hor & _). rewrite Hs.
      exists c, (orb b b'). split; auto. split; [apply (blocks_after_set _ _ _ _ _ _ Hs); auto|]. split; [|congruence].
      intros _. exists w. split; [apply get_at; auto; apply split_nonempty|]. destruct Hor as [->|(_ & _ & Hpy)]; auto.
    - destruct (cfg_set_path cfg (split_colon k) v) as [[c b']|e] eqn:Hs.
      + exists c, (orb b b'). split; auto. split; [apply (blocks_after_set _ _ _ _ _ _ Hs); auto|]. split.
        * intros ->. exfalso. apply (proj1 Hu). exists []. now rewrite app_nil_r.
        * intros _ dflt. apply (set_unrelated _ _ _ _ _ _ _ Hs Hu).
      + exists cfg, b. split; auto. split; auto. split; auto. intros ->. exfalso. apply (proj1 Hu). exists []. now rewrite app_nil_r. }
  destruct P as (c & b' & -> & Hc & P1 & P2). specialize (IH c b' Hc HF').
  destruct (last_assigned key l) as [u|] eqn:El; auto.
  destruct (String.eqb_spec k key) as [->|Hne].
  - destruct (P1 eq_refl) as (w & Hw & Hor). exists w. rewrite IH. auto.
  - intros dflt. rewrite IH. auto.
Qed.

(** ** merge *)
Fixpoint mgo (a : yv) (items : list (string * yv)) : result yv :=
  match items with
  | [] => Ok a
  | (k, v) :: r =>
      match a with
      | YDict da =>
          match v with
          | YDict _ =>
              let ak := match dget k da with None | Some YNone => YDict [] | Some x => x end in
              do sub <- merge ak v; mgo (YDict (dset k sub da)) r
          | YNone =>
              match dget k da with
              | None | Some YNone => mgo (YDict (dset k YNone da)) r
              | Some _ => mgo a r
              end
          | _ => mgo (YDict (dset k v da)) r
          end
      | _ => Err AttributeError
      end
  end.
Lemma merge_mgo a items : merge a (YDict items) = mgo a items.
Proof. reflexivity. Qed.

Definition base (o : option yv) : yv := match o with None | Some YNone => YDict [] | Some x => x end.
(** What one key of the merged dict is. *)
Definition entry_ok (oa ov om : option yv) : Prop :=
  match ov with
  | None => om = oa
  | Some (YDict e) => exists sub, merge (base oa) (YDict e) = Ok sub /\ om = Some sub
  | Some YNone => om = match oa with None => Some YNone | _ => oa end
  | Some v => om = Some v
  end.

Lemma mgo_lookup : forall items da m, NoDup (map fst items) -> mgo (YDict da) items = Ok m ->
  exists dm, m = YDict dm /\ forall k, entry_ok (dget k da) (dget k items) (dget k dm).
Proof.
  induction items as [|[k v] r IH]; intros da m Hn H.
  - cbn in H. injection H as <-. exists da. split; auto. intros k. reflexivity.
  - cbn [map fst] in Hn. inversion Hn as [|? ? Hni Hn']; subst.
    assert (S : exists x da', (da' = da /\ dget k da = Some x \/ da' = dset k x da) /\ mgo (YDict da') r = Ok m /\
                 entry_ok (dget k da) (Some v) (Some x)).
    { cbn [mgo] in H. destruct v; cbn [entry_ok];
        try (match type of H with mgo (YDict (dset k ?w da)) r = _ => exists w, (dset k w da); auto end).
      - destruct (dget k da) as [y|] eqn:E.
        + destruct y; first [exists YNone, (dset k YNone da); solve [auto] | match goal with |- context [entry_ok _ _ _] => idtac | _ => eexists _, da; split; [left; split; [reflexivity|reflexivity]|split; [exact H|reflexivity]] end].
        + exists YNone, (dset k YNone da). auto.
      - fold (base (dget k da)) in H. destruct (merge (base (dget k da)) (YDict d)) as [sub|] eqn:Em; [|discriminate]. cbn [rbind] in H.
        exists sub, (dset k sub da). split; auto. split; auto. exists sub. auto. }
    destruct S as (x & da' & Hda & Hr & Hx). destruct (IH da' m Hn' Hr) as (dm & -> & Hk). exists dm. split; auto.
    intros k2. cbn [dget]. specialize (Hk k2). destruct (String.eqb_spec k2 k) as [->|Hne].
    + rewrite (proj2 (dget_none k r)) in Hk by auto. cbn [entry_ok] in Hk. rewrite Hk.
      destruct Hda as [[-> Ex]| ->]; [rewrite Ex in *|rewrite dget_dset_eq]; auto.
    + destruct Hda as [[-> Ex]| ->]; auto. rewrite dget_dset_ne in Hk by auto. auto.
Qed.

Lemma merge_dict_shape a items m : items <> [] -> merge a (YDict items) = Ok m -> is_dict a.
Proof. intros Hi H. rewrite merge_mgo in H. destruct items as [|[k v] r]; [congruence|]. destruct a; cbn in H; try discriminate. eexists; eauto. Qed.

Lemma wf_items items : wf (YDict items) -> NoDup (map fst items) /\ forall k v, dget k items = Some v -> wf v.
Proof.
  intros H. inversion H as [v Hv|d Hn Hd]; subst; [exfalso; apply Hv; eexists; eauto|]. split; auto.
  intros k v E. apply (Hd k v). apply dget_in; auto.
Qed.

(** one level: merge of anything, seen through [at_path] with a key in front *)
Lemma merge_level a b m k : wf b -> merge a b = Ok m ->
  exists items, b = YDict items /\
   ((items = [] /\ m = a) \/ (exists da dm, a = YDict da /\ m = YDict dm /\ entry_ok (dget k da) (dget k items) (dget k dm))).
Proof.
  intros Hw H. destruct b as [| | | | | |items]; try discriminate. exists items. split; auto.
  destruct items as [|kv r] eqn:Ei; [left; split; auto; cbn in H; congruence|]. right. rewrite <- Ei in *.
  destruct (merge_dict_shape a items m) as [da ->]; [congruence|auto|]. rewrite merge_mgo in H.
  destruct (mgo_lookup items da m (proj1 (wf_items _ Hw)) H) as (dm & -> & Hk). exists da, dm. auto.
Qed.

Lemma merge_own p : forall a b m v, wf b -> merge a b = Ok m -> at_path b p = Some v -> is_leaf v -> at_path m p = Some v.
Proof.
  induction p as [|k p IH]; intros a b m v Hw H Hv Hl.
  - cbn in Hv. injection Hv as ->. destruct Hl as [_ Hl]. destruct v; try discriminate. exfalso; apply Hl; eexists; eauto.
  - destruct (merge_level a b m k Hw H) as (items & -> & [[-> ->]|(da & dm & -> & -> & He)]); [cbn in Hv; discriminate|].
    cbn [at_path] in *. destruct (dget k items) as [x|] eqn:Ex; [|discriminate].
    destruct (wf_items _ Hw) as [_ Hwi]. specialize (Hwi k x Ex).
    destruct x as [| | | | | |e]; cbn [entry_ok] in He.
    1:{ destruct p; cbn in Hv; [injection Hv as <-; destruct Hl; congruence|discriminate]. }
    6:{ destruct He as (sub & Hs & ->). apply (IH _ _ _ _ Hwi Hs Hv Hl). }
    all: rewrite He; exact Hv.
Qed.

Lemma merge_inherit p : forall a b m v, wf b -> merge a b = Ok m -> at_path a p = Some v -> v <> YNone ->
  (at_path b p = None \/ at_path b p = Some YNone) -> open_to b p -> at_path m p = Some v.
Proof.
  induction p as [|k p IH]; intros a b m v Hw H Hv Hne Hb Ho.
  - cbn in Hb. destruct Hb as [Hb|Hb]; [discriminate|]. injection Hb as ->. discriminate H.
  - destruct (merge_level a b m k Hw H) as (items & -> & [[-> ->]|(da & dm & -> & -> & He)]); [exact Hv|].
    cbn [at_path] in *. destruct (dget k da) as [ax|] eqn:Ea; [|discriminate].
    destruct (dget k items) as [x|] eqn:Ex; [|cbn in He; rewrite He; exact Hv].
    destruct (wf_items _ Hw) as [_ Hwi]. specialize (Hwi k x Ex).
    assert (Hax : ax <> YNone). { intros ->. destruct p; cbn in Hv; [congruence|discriminate]. }
    assert (Hox : p <> [] -> ~ is_leaf x).
    { intros Hp. destruct p as [|k2 p]; [congruence|]. apply (Ho [k] k2 p eq_refl). cbn [at_path]. now rewrite Ex. }
    assert (C : x = YNone \/ (exists e, x = YDict e) \/ is_leaf x).
    { destruct x; auto; try (right; right; split; [discriminate|intros [? ?]; discriminate]). right; left; eexists; eauto. }
    destruct C as [->|[[e ->]|Hl]].
    + cbn [entry_ok] in He. rewrite He. exact Hv.
    + cbn [entry_ok] in He. destruct He as (sub & Hs & ->).
      destruct p as [|k2 p]; [cbn in Hb; destruct Hb; discriminate|].
      assert (Hbase : base (Some ax) = ax) by (destruct ax; auto; congruence). rewrite Hbase in Hs.
      apply (IH _ _ _ _ Hwi Hs Hv Hne Hb). apply (open_to_cons k (k2 :: p) items _ Ho Ex).
    + destruct p as [|k2 p]; [|exfalso; apply Hox; auto; discriminate]. cbn in Hb. destruct Hb as [Hb|Hb]; [discriminate|].
      injection Hb as ->. destruct Hl; congruence.
Qed.

Lemma merge_no_invention p : forall a b m v, wf b -> merge a b = Ok m -> at_path m p = Some v -> ~ is_dict v ->
  at_path b p = Some v \/ at_path a p = Some v.
Proof.
  induction p as [|k p IH]; intros a b m v Hw H Hv Hd.
  - cbn in Hv. injection Hv as ->. destruct b as [| | | | | |items]; try discriminate. right. cbn. f_equal.
    destruct items as [|kv r]; [cbn in H; congruence|]. destruct (merge_dict_shape a (kv :: r) v) as [da ->]; [discriminate|auto|].
    rewrite merge_mgo in H. destruct (mgo_lookup _ _ _ (proj1 (wf_items _ Hw)) H) as (dm & -> & _). exfalso; apply Hd; eexists; eauto.
  - destruct (merge_level a b m k Hw H) as (items & -> & [[-> ->]|(da & dm & -> & -> & He)]); [right; exact Hv|].
    cbn [at_path] in *. destruct (dget k items) as [x|] eqn:Ex; [|cbn in He; rewrite He in Hv; right; exact Hv].
    destruct (wf_items _ Hw) as [_ Hwi]. specialize (Hwi k x Ex).
    destruct x as [| | | | | |e]; cbn [entry_ok] in He.
    1:{ destruct (dget k da) as [ax|] eqn:Ea; rewrite He in Hv; [right; exact Hv|]. left. exact Hv. }
    6:{ destruct He as (sub & Hs & Em). rewrite Em in Hv. destruct (IH _ _ _ _ Hwi Hs Hv Hd) as [Hl|Hr]; [left; exact Hl|].
        right. destruct (dget k da) as [ax|]; cbn [base] in Hr.
        - destruct ax; auto. destruct p; cbn in Hr; [injection Hr as <-; exfalso; apply Hd; eexists; eauto|discriminate].
        - destruct p; cbn in Hr; [injection Hr as <-; exfalso; apply Hd; eexists; eauto|discriminate]. }
    all: rewrite He in Hv; left; exact Hv.
Qed.

Lemma merge_keeps_own_keys p : forall a b m, wf b -> merge a b = Ok m -> at_path b p <> None -> at_path m p <> None.
Proof.
  induction p as [|k p IH]; intros a b m Hw H Hv; [discriminate|].
  destruct (merge_level a b m k Hw H) as (items & -> & [[-> ->]|(da & dm & -> & -> & He)]); [cbn in Hv; congruence|].
  cbn [at_path] in *. destruct (dget k items) as [x|] eqn:Ex; [|congruence].
  destruct (wf_items _ Hw) as [_ Hwi]. specialize (Hwi k x Ex).
  destruct x as [| | | | | |e]; cbn [entry_ok] in He.
  1:{ destruct p; [|cbn in Hv; congruence]. destruct (dget k da) as [ax|] eqn:Ea; rewrite He; cbn; discriminate. }
  6:{ destruct He as (sub & Hs & ->). apply (IH _ _ _ Hwi Hs Hv). }
  all: rewrite He; exact Hv.
Qed.

(** success *)
Fixpoint ysize (v : yv) : nat :=
  match v with
  | YDict d => S ((fix go (d : list (string * yv)) := match d with [] => 0 | (_, x) :: r => S (ysize x + go r) end) d)
  | _ => 1
  end.
Lemma ysize_get k d x : dget k d = Some x -> ysize x < ysize (YDict d).
Proof.
  cbn [ysize]. induction d as [|[k' y] d IH]; cbn [dget]; [discriminate|]. destruct (String.eqb k k').
  - intros E. injection E as ->. lia.
  - intros E. specialize (IH E). lia.
Qed.

Lemma mgo_ok_iff : forall items da, NoDup (map fst items) ->
  (exists m, mgo (YDict da) items = Ok m) <-> (forall k e, dget k items = Some (YDict e) -> exists s, merge (base (dget k da)) (YDict e) = Ok s).
Proof.
  induction items as [|[k v] r IH]; intros da Hn; [split; [discriminate|intros _; eexists; reflexivity]|].
  cbn [map fst] in Hn. inversion Hn as [|? ? Hni Hn']; subst.
  assert (Frame : forall x k2, In k2 (map fst r) -> dget k2 (dset k x da) = dget k2 da).
  { intros x k2 Hin. apply dget_dset_ne. intros ->. contradiction. }
  assert (Inr : forall k2 y, dget k2 r = Some y -> In k2 (map fst r)).
  { intros k2 y E. apply dget_in in E. apply (in_map fst) in E. exact E. }
  assert (Step : forall da', (forall k2, In k2 (map fst r) -> dget k2 da' = dget k2 da) ->
     ((exists m, mgo (YDict da') r = Ok m) <-> (forall k2 e, dget k2 r = Some (YDict e) -> exists s, merge (base (dget k2 da)) (YDict e) = Ok s))).
  { intros da' Hda. rewrite IH by auto. split; intros H k2 e E; specialize (H k2 e E); rewrite Hda in * by (eapply Inr; eauto); auto. }
  assert (Head : forall P : Prop, (P <-> (forall k2 e, dget k2 r = Some (YDict e) -> exists s, merge (base (dget k2 da)) (YDict e) = Ok s)) ->
     (forall e, v = YDict e -> exists s, merge (base (dget k da)) (YDict e) = Ok s) ->
     (P <-> (forall k0 e, dget k0 ((k, v) :: r) = Some (YDict e) -> exists s, merge (base (dget k0 da)) (YDict e) = Ok s))).
  { intros P HP Hv. rewrite HP. cbn [dget]. split; intros H k0 e E.
    - destruct (String.eqb_spec k0 k) as [->|]; [injection E as E; apply Hv; auto|apply H; auto].
    - apply H. destruct (String.eqb_spec k0 k) as [->|]; auto. exfalso; apply Hni; eapply Inr; eauto. }
  destruct v as [| | | | | |e]; cbn [mgo];
    try (apply Head; [apply Step; intros; apply Frame; auto|discriminate]).
  - destruct (dget k da) as [y|] eqn:Ek; [destruct y|]; (apply Head; [apply Step; intros; try apply Frame; auto|discriminate]).
  - fold (base (dget k da)). destruct (merge (base (dget k da)) (YDict e)) as [s|er] eqn:Em; cbn [rbind].
    + apply Head; [apply Step; intros; apply Frame; auto|]. intros e' E. injection E as <-. eauto.
    + split; [intros [m Hm]; discriminate|]. intros H. specialize (H k e). cbn [dget] in H. rewrite String.eqb_refl in H.
      destruct (H eq_refl) as [s Hs]. congruence.
Qed.

Lemma leaf_dec v : v = YNone \/ is_dict v \/ is_leaf v.
Proof. destruct v; auto; try (right; right; split; [discriminate|intros [? ?]; discriminate]). right; left; eexists; eauto. Qed.

Lemma merge_ok_iff n : forall a b, ysize b < n -> a <> YNone -> is_dict b -> wf b -> ((exists m, merge a b = Ok m) <-> ~ conflict a b).
Proof.
  induction n as [|n IH]; intros a b Hn Ha [items ->] Hw; [lia|].
  destruct (wf_items _ Hw) as [Hnd Hwi].
  destruct items as [|kv r] eqn:Ei.
  { split; [|intros _; eexists; reflexivity]. intros _ (p & kv & d & x & Hb & _). destruct p; cbn in Hb; discriminate. }
  rewrite <- Ei in *.
  destruct (leaf_dec a) as [->|[[da ->]|Hl]]; [congruence| |].
  - rewrite merge_mgo, mgo_ok_iff by auto. split.
    + intros H (p & kv' & d & x & Hb & Hx & Hl). destruct p as [|k p]; [cbn in Hx; injection Hx as <-; destruct Hl as [_ Hl]; apply Hl; eexists; eauto|].
      cbn [at_path] in Hb, Hx. destruct (dget k items) as [y|] eqn:Ey; [|discriminate]. destruct (dget k da) as [ax|] eqn:Ea; [|discriminate].
      assert (Hy : is_dict y). { destruct p; cbn in Hb; [injection Hb as ->; eexists; eauto|]. destruct y; try discriminate. eexists; eauto. }
      destruct Hy as [e ->]. destruct (H k e Ey) as [s Hs]. rewrite Ea in Hs.
      assert (Hax : ax <> YNone). { intros ->. destruct p; cbn in Hx; [injection Hx as <-; destruct Hl; congruence|discriminate]. }
      assert (Hbase : base (Some ax) = ax) by (destruct ax; auto; congruence). rewrite Hbase in Hs.
      apply (IH ax (YDict e)); auto; [pose proof (ysize_get _ _ _ Ey); lia|eexists; eauto|apply (Hwi k _ Ey)|eauto|].
      exists p, kv', d, x. auto.
    + intros Hc k e Ey. apply (IH (base (dget k da)) (YDict e)).
      * pose proof (ysize_get _ _ _ Ey). lia.
      * destruct (dget k da) as [[]|]; cbn; discriminate.
      * eexists; eauto.
      * apply (Hwi k _ Ey).
      * intros (p & kv' & d & x & Hb & Hx & Hl).
        destruct (dget k da) as [ax|] eqn:Ea.
        2:{ cbn [base] in Hx. destruct p; cbn in Hx; [injection Hx as <-; destruct Hl as [_ Hl]; apply Hl; eexists; eauto|discriminate]. }
        assert (Hax : ax = YNone \/ base (Some ax) = ax) by (destruct ax; auto). destruct Hax as [->|Hbase].
        { cbn [base] in Hx. destruct p; cbn in Hx; [injection Hx as <-; destruct Hl as [_ Hl]; apply Hl; eexists; eauto|discriminate]. }
        rewrite Hbase in Hx. apply Hc. exists (k :: p), kv', d, x. cbn [at_path]. rewrite Ey, Ea. auto.
  - split.
    + intros [m Hm]. destruct (merge_dict_shape a items m) as [da Hda]; [congruence|auto|]. destruct Hl as [_ Hl]. exfalso. apply Hl. eexists; eauto.
    + intros Hc. exfalso. apply Hc. exists [], kv, r, a. cbn [at_path]. rewrite Ei. auto.
Qed.

Lemma merge_succeeds_iff a b : is_dict a -> is_dict b -> wf b -> ((exists m, merge a b = Ok m) <-> ~ conflict a b).
Proof. intros [d ->] Hb Hw. apply (merge_ok_iff (S (ysize b))); auto; discriminate. Qed.

(** key order *)
Definition addkey (l : list string) (k : string) : list string := if in_dec string_dec k l then l else l ++ [k].
Lemma mgo_keys : forall items da dm, mgo (YDict da) items = Ok (YDict dm) -> map fst dm = fold_left addkey (map fst items) (map fst da).
Proof.
  induction items as [|[k v] r IH]; intros da dm H; cbn [map fst fold_left].
  - cbn in H. injection H as <-. reflexivity.
  - assert (D : forall x, mgo (YDict (dset k x da)) r = Ok (YDict dm) -> map fst dm = fold_left addkey (map fst r) (addkey (map fst da) k)).
    { intros x Hx. rewrite (IH _ _ Hx), dset_keys. reflexivity. }
    cbn [mgo] in H. destruct v; try (apply (D _ H)).
    + destruct (dget k da) as [y|] eqn:E.
      * assert (Hin : In k (map fst da)). { apply dget_in in E. apply (in_map fst) in E. exact E. }
        assert (Ea : addkey (map fst da) k = map fst da) by (unfold addkey; destruct (in_dec string_dec k (map fst da)); [auto|contradiction]).
        destruct y; try (apply (D _ H)); rewrite (IH _ _ H), Ea; reflexivity.
      * apply (D _ H).
    + match type of H with rbind ?e _ = _ => destruct e as [s|]; [|discriminate] end. cbn [rbind] in H. apply (D _ H).
Qed.

Lemma addkeys_nodup B : forall A, NoDup A -> NoDup (fold_left addkey B A).
Proof.
  induction B as [|k B IH]; intros A H; cbn [fold_left]; auto. apply IH. unfold addkey. destruct (in_dec string_dec k A); auto. apply NoDup_snoc; auto.
Qed.
Lemma addkeys_prefix B : forall A, exists N, fold_left addkey B A = A ++ N.
Proof.
  induction B as [|k B IH]; intros A; cbn [fold_left]; [exists []; now rewrite app_nil_r|].
  destruct (IH (addkey A k)) as [N E]. rewrite E. unfold addkey. destruct (in_dec string_dec k A); [eauto|]. exists (k :: N). now rewrite <- app_assoc.
Qed.
Lemma addkeys_present B : forall A, (forall k, In k B -> In k A) -> fold_left addkey B A = A.
Proof.
  induction B as [|k B IH]; intros A H; cbn [fold_left]; auto. unfold addkey at 2.
  destruct (in_dec string_dec k A) as [|n]; [apply IH; intros; apply H; right; auto|]. exfalso; apply n, H; left; auto.
Qed.
Lemma addkeys_new N : forall A, NoDup (A ++ N) -> fold_left addkey N A = A ++ N.
Proof.
  induction N as [|k N IH]; intros A H; cbn [fold_left]; [now rewrite app_nil_r|]. unfold addkey at 2.
  destruct (in_dec string_dec k A) as [i|n].
  - exfalso. apply NoDup_remove_2 in H. apply H. apply in_or_app. auto.
  - rewrite IH; rewrite <- app_assoc; auto.
Qed.
Lemma addkeys_idem A B : NoDup A -> fold_left addkey (fold_left addkey B A) A = fold_left addkey B A.
Proof.
  intros H. pose proof (addkeys_nodup B A H) as Hn. destruct (addkeys_prefix B A) as [N E]. rewrite E in *.
  rewrite fold_left_app. rewrite (addkeys_present A A) by auto. apply addkeys_new; auto.
Qed.

Lemma mgo_dict items da m : NoDup (map fst items) -> mgo (YDict da) items = Ok m -> exists dm, m = YDict dm.
Proof. intros Hn H. destruct (mgo_lookup _ _ _ Hn H) as (dm & -> & _). eauto. Qed.

(** If every entry of [dm] merges onto [da]'s entry to itself, merging [dm] onto [da] gives [dm]. *)
Lemma mgo_fix da dm : NoDup (map fst dm) -> fold_left addkey (map fst dm) (map fst da) = map fst dm ->
  (forall k, dget k dm = None -> dget k da = None) ->
  (forall k v, dget k dm = Some v -> (is_dict v -> merge (base (dget k da)) v = Ok v) /\ (v = YNone -> dget k da = None \/ dget k da = Some YNone)) ->
  mgo (YDict da) dm = Ok (YDict dm).
Proof.
  intros Hn Hk Hnone He.
  destruct (proj2 (mgo_ok_iff dm da Hn)) as [m Hm].
  { intros k e E. destruct (He k _ E) as [H1 _]. exists (YDict e). apply H1. eexists; eauto. }
  rewrite Hm. f_equal. destruct (mgo_lookup _ _ _ Hn Hm) as (d' & -> & Hl). f_equal.
  pose proof (mgo_keys _ _ _ Hm) as Hkeys. rewrite Hk in Hkeys.
  apply dict_ext; auto; [now rewrite Hkeys|]. intros k. specialize (Hl k).
  destruct (dget k dm) as [v|] eqn:Ev.
  - destruct (He k v Ev) as [H1 H2]. destruct v; cbn [entry_ok] in Hl; auto.
    + destruct (H2 eq_refl) as [E|E]; rewrite E in Hl; auto.
    + destruct Hl as (s & Hs & ->). rewrite H1 in Hs by (eexists; eauto). congruence.
  - cbn [entry_ok] in Hl. rewrite Hl. apply Hnone; auto.
Qed.

Lemma merge_self n : forall v, ysize v < n -> wf v -> is_dict v -> merge v v = Ok v.
Proof.
  induction n as [|n IH]; intros v Hn Hw [d ->]; [lia|]. destruct (wf_items _ Hw) as [Hnd Hwi].
  rewrite merge_mgo. apply mgo_fix; auto.
  - apply addkeys_present; auto.
  - intros k v E. rewrite E. split; [|intros ->; auto]. intros [e ->]. cbn [base].
    apply IH; [pose proof (ysize_get _ _ _ E); lia|apply (Hwi k _ E)|eexists; eauto].
Qed.

Lemma merge_wf n : forall a b m, ysize b < n -> wf a -> wf b -> merge a b = Ok m -> wf m.
Proof.
  induction n as [|n IH]; intros a b m Hn Ha Hb H; [lia|]. destruct b as [| | | | | |items]; try discriminate.
  destruct items as [|kv r] eqn:Ei; [cbn in H; injection H as <-; auto|]. rewrite <- Ei in *.
  destruct (merge_dict_shape a items m) as [da ->]; [congruence|auto|]. rewrite merge_mgo in H.
  destruct (wf_items _ Hb) as [Hnd Hwi]. destruct (wf_items _ Ha) as [Hnda Hwa].
  destruct (mgo_lookup _ _ _ Hnd H) as (dm & -> & Hl). pose proof (mgo_keys _ _ _ H) as Hk.
  assert (Hnm : NoDup (map fst dm)) by (rewrite Hk; apply addkeys_nodup; auto).
  apply wf_dict; auto. intros k v Hin. apply in_dget in Hin; auto. specialize (Hl k). rewrite Hin in Hl.
  destruct (dget k items) as [x|] eqn:Ex; [|cbn in Hl; symmetry in Hl; apply (Hwa k _ Hl)].
  pose proof (Hwi k x Ex) as Hwx. destruct x as [| | | | | |e]; cbn [entry_ok] in Hl.
  1:{ destruct (dget k da) as [ax|] eqn:Ea; [injection Hl as ->; apply (Hwa k _ Ea)|injection Hl as ->; exact Hwx]. }
  6:{ destruct Hl as (s & Hs & E). injection E as ->. apply (IH (base (dget k da)) (YDict e)); auto.
      - pose proof (ysize_get _ _ _ Ex). lia.
      - destruct (dget k da) as [ax|] eqn:Ea; cbn [base]; [|apply wf_dict; [constructor|intros ? ? []]].
        pose proof (Hwa k ax Ea). destruct ax; auto. apply wf_dict; [constructor|intros ? ? []]. }
  all: injection Hl as ->; exact Hwx.
Qed.

Lemma merge_idem n : forall a b m, ysize b < n -> wf a -> wf b -> is_dict m -> merge a b = Ok m -> merge a m = Ok m.
Proof.
  induction n as [|n IH]; intros a b m Hn Ha Hb Hdm H; [lia|]. destruct b as [| | | | | |items]; try discriminate.
  destruct items as [|kv r] eqn:Ei; [cbn in H; injection H as <-; apply (merge_self (S (ysize a))); auto|]. rewrite <- Ei in *.
  destruct (merge_dict_shape a items m) as [da ->]; [congruence|auto|].
  assert (Hwm : wf m) by (apply (merge_wf (S (ysize (YDict items))) _ _ _ (Nat.lt_succ_diag_r _) Ha Hb H)).
  rewrite merge_mgo in H.
  destruct (wf_items _ Hb) as [Hnd Hwi]. destruct (wf_items _ Ha) as [Hnda Hwa].
  destruct (mgo_lookup _ _ _ Hnd H) as (dm & -> & Hl). pose proof (mgo_keys _ _ _ H) as Hk.
  destruct (wf_items _ Hwm) as [Hndm Hwim].
  rewrite merge_mgo. apply mgo_fix; auto.
  - rewrite Hk. apply addkeys_idem; auto.
  - intros k E. specialize (Hl k). rewrite E in Hl. destruct (dget k items) as [[]|] eqn:Ex; cbn [entry_ok] in Hl; try discriminate Hl; auto.
    + destruct (dget k da); [discriminate|auto].
    + destruct Hl as (? & ? & ?). discriminate.
  - intros k v E. specialize (Hl k). rewrite E in Hl.
    assert (Self : forall ax, dget k da = Some ax -> ax = v -> (is_dict v -> merge (base (dget k da)) v = Ok v) /\ (v = YNone -> dget k da = None \/ dget k da = Some YNone)).
    { intros ax Ea ->. rewrite Ea. split; [|intros ->; auto]. intros [e ->]. cbn [base]. apply (merge_self (S (ysize (YDict e)))); auto; [apply (Hwa k _ Ea)|eexists; eauto]. }
    destruct (dget k items) as [x|] eqn:Ex; [|cbn in Hl; eapply Self; eauto; fail].
    pose proof (Hwi k x Ex) as Hwx. destruct x as [| | | | | |e]; cbn [entry_ok] in Hl.
    1:{ destruct (dget k da) as [ax|] eqn:Ea; [injection Hl as ->; apply (Self ax); auto|]. injection Hl as ->. split; auto. intros [? ?]; discriminate. }
    6:{ destruct Hl as (s & Hs & Es). injection Es as <-.
        assert (Hwb : wf (base (dget k da))).
        { destruct (dget k da) as [ax|] eqn:Ea; cbn [base]; [|apply wf_dict; [constructor|intros ? ? []]].
          pose proof (Hwa k ax Ea). destruct ax; auto. apply wf_dict; [constructor|intros ? ? []]. }
        split.
        - intros Hds. apply (IH _ (YDict e)); auto. pose proof (ysize_get _ _ _ Ex). lia.
        - intros ->. exfalso. destruct e as [|kv' e']; [cbn in Hs; injection Hs as Hs; destruct (dget k da) as [[]|]; discriminate|].
          assert (Hne : kv' :: e' <> []) by discriminate. destruct (merge_dict_shape _ _ _ Hne Hs) as [db Hdb]. rewrite Hdb, merge_mgo in Hs.
          destruct (mgo_dict _ _ _ (proj1 (wf_items _ Hwx)) Hs). discriminate. }
    all: injection Hl as ->; split; [intros [? ?]; discriminate|discriminate].
Qed.

(** ** open / save *)
Lemma merge_dict_result a b m : is_dict a -> wf b -> merge a b = Ok m -> is_dict m.
Proof.
  intros [da ->] Hb H. destruct b as [| | | | | |items]; try discriminate. rewrite merge_mgo in H.
  destruct (mgo_dict _ _ _ (proj1 (wf_items _ Hb)) H) as [dm ->]. eexists; eauto.
Qed.

Lemma merge_docs_reopen docs : forall prev secs, is_dict prev -> wf prev -> Forall wf docs -> merge_docs prev docs = Ok secs -> merge_docs prev secs = Ok secs.
Proof.
  induction docs as [|d r IH]; intros prev secs Hd Hw HF H; cbn [merge_docs] in H; [injection H as <-; reflexivity|].
  inversion HF as [|? ? Hwd HF']; subst. destruct (merge prev d) as [m|] eqn:Em; [|discriminate]. cbn [rbind] in H.
  destruct (merge_docs m r) as [l|] eqn:El; [|discriminate]. cbn [rbind] in H. injection H as <-. cbn [merge_docs].
  pose proof (merge_dict_result _ _ _ Hd Hwd Em) as Hdm. pose proof (merge_wf (S (ysize d)) _ _ _ (Nat.lt_succ_diag_r _) Hw Hwd Em) as Hwm.
  rewrite (merge_idem (S (ysize d)) prev d m ltac:(lia) Hw Hwd Hdm Em). cbn [rbind]. rewrite (IH _ _ Hdm Hwm HF' El). reflexivity.
Qed.

Lemma merge_docs_length docs : forall prev secs, merge_docs prev docs = Ok secs -> length secs = length docs.
Proof.
  induction docs as [|d r IH]; intros prev secs H; cbn [merge_docs] in H; [injection H as <-; reflexivity|].
  destruct (merge prev d) as [m|]; [|discriminate]. cbn [rbind] in H.
  destruct (merge_docs m r) as [l|] eqn:El; [|discriminate]. cbn [rbind] in H. injection H as <-. cbn. f_equal. eauto.
Qed.

Lemma save_reopen docs secs : (2 <= length docs)%nat -> Forall wf docs -> Forall is_dict docs -> open_docs docs = Ok secs ->
  open_docs (save_docs secs) = Ok secs.
Proof.
  intros Hlen HF Hd H. destruct docs as [|d r]; [cbn in Hlen; lia|]. cbn [open_docs] in H.
  destruct (merge_docs d r) as [l|] eqn:El; [|discriminate]. cbn [rbind] in H. injection H as <-.
  pose proof (merge_docs_length _ _ _ El) as Hl. cbn [length] in Hlen. unfold save_docs. cbn [length].
  destruct (Nat.ltb_spec 1 (S (length l))); [|lia]. cbn [open_docs].
  inversion HF; subst. inversion Hd; subst. rewrite (merge_docs_reopen r d l); auto.
Qed.

Lemma open_sections docs secs : open_docs docs = Ok secs -> length secs = length docs /\
  (forall d, nth_error docs 0 = Some d -> nth_error secs 0 = Some d) /\
  (forall i d s m, nth_error docs (S i) = Some d -> nth_error secs i = Some s -> nth_error secs (S i) = Some m -> merge s d = Ok m).
Proof.
  destruct docs as [|d0 r]; cbn [open_docs]; intros H; [injection H as <-; repeat split; auto; intros [|i] ? ? ? E; discriminate|].
  destruct (merge_docs d0 r) as [l|] eqn:El; [|discriminate]. cbn [rbind] in H. injection H as <-.
  split; [cbn; f_equal; eapply merge_docs_length; eauto|]. split; [auto|].
  revert d0 l El. induction r as [|d r IH]; intros d0 l El i dd s m H1 H2 H3.
  - destruct i; discriminate.
  - cbn [merge_docs] in El. destruct (merge d0 d) as [m0|] eqn:Em; [|discriminate]. cbn [rbind] in El.
    destruct (merge_docs m0 r) as [l0|] eqn:El0; [|discriminate]. cbn [rbind] in El. injection El as <-.
    destruct i as [|i]; cbn [nth_error] in *.
    + injection H1 as <-. injection H2 as <-. injection H3 as <-. exact Em.
    + apply (IH m0 l0 El0 i dd s m); auto.
Qed.

(** ** process count *)
Lemma nprocs_range ncpus v : (1 <= ncpus)%Z -> (is_str "all" v = true \/ is_str "half" v = true \/ int_of v <> None \/ (2 <= ncpus)%Z) ->
  (1 <= nprocs ncpus v <= ncpus)%Z.
Proof.
  intros Hn Hv. unfold nprocs. destruct (is_str "all" v); [lia|]. destruct (is_str "half" v).
  { destruct (Z.eqb_spec (ncpus / 2) 0); lia. }
  destruct (int_of v) as [m|].
  - destruct (Z.geb_spec m 0); [destruct (Z.gtb_spec m ncpus); [lia|destruct (Z.eqb_spec m 0); lia]|].
    destruct (Z.ltb_spec (ncpus + m) 1); lia.
  - destruct Hv as [?|[?|[?|?]]]; try discriminate; try congruence; lia.
Qed.
