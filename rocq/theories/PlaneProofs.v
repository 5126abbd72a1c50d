From Coq Require Import QArith Permutation.
From Verif Require Import Prelude ProcessModel PlaneModel PlaneSpec.
Local Close Scope Q_scope.

Lemma fgt_iff : forall t m, fgt t m = true <-> exists x, t = Some x /\ Qlt m x.
Proof.
  intros [x|] m; cbn.
  - rewrite negb_true_iff. split.
    + intros H. exists x; split; [reflexivity|]. apply Qnot_le_lt. intros C. apply Qle_bool_iff in C. congruence.
    + intros [y [E H]]. injection E as <-. destruct (Qle_bool x m) eqn:C; [|reflexivity].
      apply Qle_bool_iff in C. exfalso. exact (Qlt_not_le _ _ H C).
  - split; [discriminate | intros [x [E _]]; discriminate].
Qed.

Lemma fancy_ok : forall {B} (l : list B) d idx, (forall i, In i idx -> i < length l) -> fancy l idx = Ok (map (fun i => nth i l d) idx).
Proof.
  intros B l d; induction idx as [|i r IH]; intros H; [reflexivity|]. cbn [fancy map].
  rewrite (nth_error_nth' l d (H i (or_introl eq_refl))). rewrite IH by (intros; apply H; right; assumption). reflexivity.
Qed.
Lemma nth_map_d : forall {B C} (f : B -> C) l i d d', i < length l -> nth i (map f l) d' = f (nth i l d).
Proof. intros. rewrite (nth_indep _ d' (f d)) by (rewrite map_length; assumption). apply map_nth. Qed.
Lemma nth_error_default : forall {B} (l : list B) i x d, nth_error l i = Some x -> nth i l d = x /\ i < length l.
Proof. intros B l i x d H; split; [apply nth_error_nth; exact H | apply nth_error_Some; rewrite H; discriminate]. Qed.

(** ** the inverse permutation *)
Lemma scatter_go_out : forall srt k a j, ~ In j srt ->
  nth_error (fold_left (fun a p => set_nth (fst p) (snd p) a) (combine srt (seq k (length srt))) a) j = nth_error a j.
Proof.
  induction srt as [|x r IH]; intros k a j H; [reflexivity|]. cbn [length seq combine fold_left fst snd].
  rewrite IH by (intros C; apply H; right; exact C). apply set_nth_ne. intros ->. apply H; left; reflexivity.
Qed.
Lemma scatter_go_len : forall srt k (a : list nat), length (fold_left (fun a p => set_nth (fst p) (snd p) a) (combine srt (seq k (length srt))) a) = length a.
Proof. induction srt as [|x r IH]; intros k a; [reflexivity|]. cbn [length seq combine fold_left fst snd]. rewrite IH. apply set_nth_length. Qed.
Lemma scatter_go_in : forall srt k a i, NoDup srt -> (forall x, In x srt -> x < length a) -> forall m, nth_error srt i = Some m ->
  nth_error (fold_left (fun a p => set_nth (fst p) (snd p) a) (combine srt (seq k (length srt))) a) m = Some (k + i).
Proof.
  induction srt as [|x r IH]; intros k a i N L m E; [destruct i; discriminate E|].
  inversion N as [|? ? Nx Nr]; subst. cbn [length seq combine fold_left fst snd]. destruct i as [|i].
  - injection E as ->. rewrite scatter_go_out by exact Nx. rewrite set_nth_eq by (apply L; left; reflexivity). f_equal; lia.
  - rewrite (IH (S k) _ i Nr) with (m := m); [f_equal; lia | | exact E].
    intros y Hy. rewrite set_nth_length. apply L; right; exact Hy.
Qed.
Section W.
Context {A : Type}.
Notation refl := (option Q * A)%type.

Lemma ordering_facts : forall srt n, ordering srt n -> length srt = n /\ NoDup srt /\ (forall x, In x srt <-> x < n).
Proof.
  intros srt n H. unfold ordering in H. split; [rewrite (Permutation_length H); apply seq_length|]. split.
  - apply (Permutation_NoDup (Permutation_sym H)), seq_NoDup.
  - intros x. split; intros Hx.
    + apply (Permutation_in _ H) in Hx. apply in_seq in Hx. lia.
    + apply (Permutation_in _ (Permutation_sym H)). apply in_seq. lia.
Qed.
Lemma scatter_length : forall srt, length (scatter srt) = length srt.
Proof. intros srt. unfold scatter. rewrite scatter_go_len, repeat_length. reflexivity. Qed.
Lemma scatter_inv : forall srt n, ordering srt n -> forall r m, nth_error srt r = Some m -> nth_error (scatter srt) m = Some r.
Proof.
  intros srt n H r m E. destruct (ordering_facts srt n H) as [L [N I]]. unfold scatter.
  rewrite (scatter_go_in srt 0 _ r N) with (m := m); auto.
  intros x Hx. rewrite repeat_length, L. apply I; exact Hx.
Qed.
Lemma scatter_inv' : forall srt n, ordering srt n -> forall r m, nth_error (scatter srt) m = Some r -> nth_error srt r = Some m.
Proof.
  intros srt n H r m E. destruct (ordering_facts srt n H) as [L [N I]].
  assert (Hm : m < n) by (apply nth_error_default with (d := 0) in E; rewrite scatter_length, L in E; tauto).
  apply I in Hm. apply In_nth_error in Hm. destruct Hm as [r' E']. pose proof (scatter_inv srt n H r' m E') as F. congruence.
Qed.

Definition wf (s : pd A) : Prop :=
  ordering (tsort s) (length (data s)) /\ tinv s = scatter (tsort s) /\ (forall e, stored s = Some e -> length e = length (data s)).

Lemma wf_tinv_lt : forall (s : pd A), wf s -> forall r j, nth_error (tinv s) r = Some j -> j < length (data s).
Proof.
  intros s [O [E _]] r j H. rewrite E in H. apply (scatter_inv' _ _ O) in H.
  destruct (ordering_facts _ _ O) as [L _]. apply nth_error_default with (d := 0) in H. lia.
Qed.
Lemma wf_tinv_some : forall (s : pd A), wf s -> forall r, r < length (data s) -> exists j, nth_error (tinv s) r = Some j /\ j < length (data s) /\ nth_error (tsort s) j = Some r.
Proof.
  intros s W r H. destruct (W) as [O [E _]]. destruct (ordering_facts _ _ O) as [L _].
  assert (Hl : r < length (tinv s)) by (rewrite E, scatter_length, L; exact H).
  destruct (nth_error (tinv s) r) as [j|] eqn:F; [|apply nth_error_None in F; lia].
  exists j; repeat split; [eapply wf_tinv_lt; eauto|]. rewrite E in F. eapply scatter_inv'; eauto.
Qed.
Lemma wf_tsort_some : forall (s : pd A), wf s -> forall r, r < length (data s) -> exists m, nth_error (tsort s) r = Some m /\ m < length (data s) /\ nth_error (tinv s) m = Some r.
Proof.
  intros s W r H. destruct (W) as [O [E _]]. destruct (ordering_facts _ _ O) as [L [N I]].
  destruct (nth_error (tsort s) r) as [m|] eqn:F; [|apply nth_error_None in F; lia].
  exists m; repeat split; [apply I; eapply nth_error_In; eauto|]. rewrite E. eapply scatter_inv; eauto.
Qed.
Lemma wf_tinv_length : forall (s : pd A), wf s -> length (tinv s) = length (data s).
Proof. intros s [O [E _]]. rewrite E, scatter_length. apply ordering_facts in O. tauto. Qed.
Lemma wf_tsort_length : forall (s : pd A), wf s -> length (tsort s) = length (data s).
Proof. intros s [O [E _]]. apply ordering_facts in O. tauto. Qed.

(** ** preservation *)
Lemma set_true_length : forall idx a, length (set_true idx a) = length a.
Proof. induction idx as [|i r IH]; intros a; [reflexivity|]. unfold set_true in *. cbn [fold_left]. rewrite IH. apply set_nth_length. Qed.
Lemma fancy_length : forall {B} (l : list B) idx o, fancy l idx = Ok o -> length o = length idx.
Proof.
  intros B l; induction idx as [|i r IH]; intros o H; cbn [fancy] in H; [injection H as <-; reflexivity|].
  destruct (nth_error l i); [|discriminate]. destruct (fancy l r) eqn:E; cbn [rbind] in H; [|discriminate]. injection H as <-.
  cbn. f_equal. apply IH; reflexivity.
Qed.
Lemma ranges_length : forall (tv : list nat) l a, length (fold_left (fun a r => set_true (py_slice tv (fst r) (snd r)) a) l a) = length a.
Proof. intros tv; induction l as [|r l IH]; intros a; [reflexivity|]. cbn [fold_left]. rewrite IH. apply set_true_length. Qed.
Lemma set_excl_wf : forall (s : pd A) v s', wf s -> set_exclusions s v = Ok s' -> wf s' /\ data s' = data s /\ tsort s' = tsort s /\ tinv s' = tinv s /\ tmax s' = tmax s.
Proof.
  intros s v s' W H. pose proof (wf_tinv_length s W) as LT. unfold set_exclusions in H.
  assert (G : exists e, length e = length (data s) /\ s' = Pd (data s) (tsort s) (tinv s) (Some e) (tmax s) (length (filter negb e))).
  { destruct v as [|l|l|l]; cbn [rbind] in H.
    - injection H as <-. eexists; split; [apply repeat_length | reflexivity].
    - destruct (Nat.eqb (length l) (length (data s))) eqn:E; [|discriminate].
      destruct (fancy l (tinv s)) as [e|] eqn:F; cbn [rbind] in H; [|discriminate]. injection H as <-.
      exists e; split; [rewrite (fancy_length _ _ _ F); exact LT | reflexivity].
    - destruct (Nat.eqb (length l) (length (data s))); [discriminate|].
      destruct (py_fancy (tinv s) l) as [js|]; cbn [rbind] in H; [|discriminate]. injection H as <-.
      eexists; split; [rewrite set_true_length; apply repeat_length | reflexivity].
    - destruct (Nat.eqb (length l) (length (data s))); [discriminate|]. cbn [rbind] in H. injection H as <-.
      eexists; split; [rewrite ranges_length; apply repeat_length | reflexivity]. }
  destruct G as [e [Le ->]]. destruct W as [O [E S]]. repeat split; cbn; auto. intros e' K; injection K as <-; exact Le.
Qed.
Lemma set_tmax_wf : forall (s : pd A) m, wf s -> wf (set_tmax s m).
Proof. intros s m W; exact W. Qed.
Lemma exclude_wf : forall (s : pd A) d a b c e s', wf s -> exclude s d a b c e = Ok s' -> wf s'.
Proof.
  intros s d a b c e s' W H. unfold exclude in H. destruct (set_exclusions s ENone) as [s1|] eqn:E; [|discriminate]. cbn [rbind] in H.
  destruct (listed (set_tmax s1 None)) as [vis|]; [|discriminate]. cbn [rbind] in H.
  destruct (set_excl_wf _ _ _ W E) as [W1 _]. eapply set_excl_wf; [|exact H]. apply set_tmax_wf; exact W1.
Qed.
Lemma calc_wf : forall raw srt e m s, ordering srt (length raw) -> (forall x, e = Some x -> length x = length raw) -> calc raw srt e m = Ok s ->
  wf s /\ length (data s) = length raw /\ tsort s = srt /\ stored s = e /\ tmax s = m /\ fancy raw srt = Ok (data s).
Proof.
  intros raw srt e m s O Le H. unfold calc in H. destruct (fancy raw srt) as [d|] eqn:F; [|discriminate]. cbn [rbind] in H.
  pose proof (fancy_length _ _ _ F) as Ld. destruct (ordering_facts _ _ O) as [L _].
  destruct (listed _) as [l|]; [|discriminate]. cbn [rbind] in H. injection H as <-.
  cbn [data tsort tinv stored tmax]. repeat split; auto; try congruence.
  cbn [data tsort]. rewrite Ld, L. exact O.
  cbn [data]. intros x Hx. rewrite Ld, L. apply Le; exact Hx.
Qed.
Lemma reach_wf : forall (s : pd A), reachable s -> wf s.
Proof.
  intros s R; induction R.
  - eapply calc_wf; eauto. discriminate.
  - eapply set_excl_wf; eauto.
  - apply set_tmax_wf; assumption.
  - eapply exclude_wf; eauto.
  - unfold recalc in *. eapply calc_wf; eauto. intros x Hx. destruct IHR as [_ [_ S]]. rewrite (S x Hx). auto.
Qed.

(** ** reading *)
Definition is_stored (s : pd A) (m : nat) : bool := match stored s with None => false | Some e => nth m e false end.
Definition angle_ok (s : pd A) (x : refl) : bool := match tmax s with None => true | Some m => negb (fgt (fst x) m || isnan (fst x)) end.
Lemma this_hkl_spec : forall (s : pd A), wf s -> forall r x, nth_error (data s) r = Some x ->
  this_hkl s r = Ok (negb (is_stored s (nth r (tinv s) 0)) && angle_ok s x).
Proof.
  intros s W r [t a] E. unfold this_hkl. rewrite E.
  assert (Hr : r < length (data s)) by (apply nth_error_Some; rewrite E; discriminate).
  destruct (wf_tinv_some s W r Hr) as [j [F [Hj _]]]. pose proof (nth_error_nth (tinv s) r 0 F) as F'. rewrite F'.
  unfold is_stored, angle_ok. destruct W as [_ [_ S]]. destruct (stored s) as [e|].
  - rewrite F. rewrite (nth_error_nth' e false) by (rewrite (S e eq_refl); exact Hj). cbn [rbind].
    destruct (nth j e false); [reflexivity|]. cbn [negb andb fst]. destruct (tmax s); reflexivity.
  - cbn [rbind negb andb fst]. destruct (tmax s); reflexivity.
Qed.
Definition visible (s : pd A) (k : nat) (l : list refl) : list bool :=
  map (fun p => negb (is_stored s (nth (fst p) (tinv s) 0)) && angle_ok s (snd p)) (combine (seq k (length l)) l).
Lemma listed_from_spec : forall (s : pd A), wf s -> forall l k, (forall i x, nth_error l i = Some x -> nth_error (data s) (k + i) = Some x) ->
  listed_from s l k = Ok (select (visible s k l) l).
Proof.
  intros s W; induction l as [|x l IH]; intros k H; [reflexivity|]. cbn [listed_from].
  rewrite (this_hkl_spec s W k x) by (rewrite <- (Nat.add_0_r k); apply H; reflexivity). cbn [rbind].
  rewrite IH by (intros i y E; replace (S k + i) with (k + S i) by lia; apply H; exact E). cbn [rbind]. reflexivity.
Qed.
Lemma listed_ok : forall (s : pd A), wf s -> listed s = Ok (select (visible s 0 (data s)) (data s)).
Proof. intros s W. unfold listed. apply listed_from_spec; auto. Qed.
Lemma visible_length : forall (s : pd A) k l, length (visible s k l) = length l.
Proof. intros; unfold visible. rewrite map_length, combine_length, seq_length. lia. Qed.
Lemma nth_combine_seq : forall (l : list refl) k r d, r < length l -> nth r (combine (seq k (length l)) l) (0, d) = (k + r, nth r l d).
Proof. intros l k r d H. rewrite combine_nth by (rewrite seq_length; reflexivity). rewrite seq_nth by exact H. reflexivity. Qed.
Lemma visible_nth : forall (s : pd A) r x, nth_error (data s) r = Some x ->
  nth r (visible s 0 (data s)) false = negb (is_stored s (nth r (tinv s) 0)) && angle_ok s x.
Proof.
  intros s r x E. destruct (nth_error_default (data s) r x x E) as [En Hr]. unfold visible.
  rewrite nth_map_d with (d := (0, x)) by (rewrite combine_length, seq_length; lia).
  rewrite nth_combine_seq by exact Hr. cbn [fst snd Nat.add]. rewrite En. reflexivity.
Qed.
Lemma angle_ok_iff : forall (s : pd A) r x, nth_error (data s) r = Some x -> (angle_ok s x = true <-> ~ cut_off s r).
Proof.
  intros s r [t a] E. unfold angle_ok, cut_off, beyond, no_angle. cbn [fst]. destruct (tmax s) as [m|].
  - rewrite negb_true_iff, orb_false_iff. split.
    + intros [H1 H2] [[t' [a' [m' [F [G L]]]]]|[_ [a' F]]].
      * rewrite E in F. injection F as -> <-. injection G as <-. assert (fgt (Some t') m = true) by (apply fgt_iff; eauto). congruence.
      * rewrite E in F. injection F as -> <-. discriminate.
    + intros H. split.
      * destruct (fgt t m) eqn:F; [|reflexivity]. exfalso; apply H. apply fgt_iff in F. destruct F as [x [-> L]]. left; eauto 6.
      * destruct t; [reflexivity|]. exfalso; apply H. right. split; [discriminate | eauto].
  - split; [intros _ [[t' [a' [m' [_ [G _]]]]]|[G _]]; congruence | reflexivity].
Qed.
Lemma listed_exactly : forall (s : pd A) P, wf s -> (forall r, r < length (data s) -> (is_stored s (nth r (tinv s) 0) = true <-> P r)) ->
  exists out, listed s = Ok out /\ exactly (data s) (fun r => ~ P r /\ ~ cut_off s r) out.
Proof.
  intros s P W H. rewrite (listed_ok s W). eexists; split; [reflexivity|]. exists (visible s 0 (data s)).
  split; [apply visible_length|]. split; [reflexivity|]. intros r Hr.
  destruct (nth_error (data s) r) as [x|] eqn:E; [|apply nth_error_None in E; lia].
  rewrite (visible_nth s r x E), andb_true_iff, negb_true_iff, (angle_ok_iff s r x E), <- (H r Hr).
  destruct (is_stored s _); split; intros [? ?]; split; congruence.
Qed.

Lemma exclusions_spec : forall (s : pd A), wf s -> exists ex, exclusions s = Ok ex /\ length ex = length (data s) /\
  forall r x m, nth_error (data s) r = Some x -> shows s r m ->
    nth r ex false = is_stored s m || match tmax s with Some q => fgt (fst x) q | None => false end.
Proof.
  intros s W. pose proof (wf_tsort_length s W) as LS.
  assert (B : exists base, match stored s with None => Ok (repeat false (length (data s))) | Some e => fancy e (tsort s) end = Ok base /\
     length base = length (data s) /\ forall r m, shows s r m -> nth r base false = is_stored s m).
  { unfold is_stored, shows. destruct W as [O [_ S]]. destruct (ordering_facts _ _ O) as [_ [_ I]]. destruct (stored s) as [e|].
    - rewrite (fancy_ok e false) by (intros i Hi; rewrite (S e eq_refl); apply I; exact Hi). eexists; split; [reflexivity|].
      split; [rewrite map_length; exact LS|]. intros r m H. destruct (nth_error_default _ _ _ 0 H) as [Hn Hl].
      rewrite nth_map_d with (d := 0) by exact Hl. rewrite Hn. reflexivity.
    - eexists; split; [reflexivity|]. split; [apply repeat_length|]. intros r m H. apply nth_repeat. }
  destruct B as [base [E [L H]]]. unfold exclusions. rewrite E. cbn [rbind]. eexists; split; [reflexivity|].
  destruct (tmax s) as [q|].
  - split; [rewrite map_length, combine_length; lia|]. intros r x m Ex Sh.
    destruct (nth_error_default _ _ _ x Ex) as [Hn Hl].
    rewrite nth_map_d with (d := (x, false)) by (rewrite combine_length; lia).
    rewrite combine_nth by (symmetry; exact L). cbn [fst snd]. rewrite Hn, (H r m Sh). reflexivity.
  - split; [exact L|]. intros r x m Ex Sh. rewrite (H r m Sh), orb_false_r. reflexivity.
Qed.
Lemma exclusions_mask : forall (s : pd A) P, wf s -> (forall r m, shows s r m -> (is_stored s m = true <-> P r)) ->
  exists ex, exclusions s = Ok ex /\ mask_is ex (length (data s)) (fun r => P r \/ beyond s r).
Proof.
  intros s P W H. destruct (exclusions_spec s W) as [ex [E [L F]]]. exists ex; split; [exact E|]. split; [exact L|].
  intros r Hr. destruct (nth_error (data s) r) as [[t a]|] eqn:Ex; [|apply nth_error_None in Ex; lia].
  destruct (wf_tsort_some s W r Hr) as [m [Sm _]]. rewrite (F r _ m Ex Sm), orb_true_iff, (H r m Sm). cbn [fst].
  assert (Q : match tmax s with Some q => fgt t q | None => false end = true <-> beyond s r).
  { unfold beyond. destruct (tmax s) as [q|].
    - rewrite fgt_iff. split.
      + intros [x [-> Lq]]. eauto 6.
      + intros [t' [a' [m' [F1 [G1 L1]]]]]. rewrite Ex in F1. injection F1 as -> <-. injection G1 as <-. eauto.
    - split; [discriminate | intros [? [? [? [_ [C _]]]]]; discriminate]. }
  rewrite Q. reflexivity.
Qed.

(** ** assigning a mask *)
Lemma mask_set : forall (s : pd A) l, wf s -> length l = length (data s) ->
  exists s', set_exclusions s (EMask l) = Ok s' /\ (forall r m, shows s r m -> is_stored s' m = nth r l false).
Proof.
  intros s l W L. unfold set_exclusions. rewrite (proj2 (Nat.eqb_eq _ _) L).
  rewrite (fancy_ok l false).
  - cbn [rbind]. eexists; split; [reflexivity|]. intros r m Sh. unfold is_stored. cbn [stored].
    assert (Hr : r < length (data s)) by (rewrite <- (wf_tsort_length s W); apply nth_error_Some; unfold shows in Sh; rewrite Sh; discriminate).
    destruct (wf_tsort_some s W r Hr) as [m' [Sm [Hm Im]]]. assert (m' = m) by (unfold shows in Sh; congruence). subst m'.
    rewrite nth_map_d with (d := 0) by (rewrite (wf_tinv_length s W); exact Hm). f_equal. apply nth_error_nth. exact Im.
  - intros i Hi. apply In_nth_error in Hi. destruct Hi as [k Hk]. rewrite L. eapply wf_tinv_lt; eauto.
Qed.
Theorem mask_lemma : forall (s : pd A) l, reachable s -> length l = length (data s) ->
  exists s' ex, set_exclusions s (EMask l) = Ok s' /\ exclusions s' = Ok ex /\ data s' = data s /\
    mask_is ex (length (data s)) (fun r => nth r l false = true \/ beyond s r).
Proof.
  intros s l R L. apply reach_wf in R. destruct (mask_set s l R L) as [s' [E H]].
  destruct (set_excl_wf s _ s' R E) as [W' [Ed [Es [Ei Em]]]].
  destruct (exclusions_mask s' (fun r => nth r l false = true) W') as [ex [E1 M]].
  - intros r m Sh. unfold shows in Sh. rewrite Es in Sh. rewrite (H r m Sh). reflexivity.
  - exists s', ex. repeat split; auto; rewrite Ed in M; try apply M; auto.
    + intros Hx. destruct (proj1 (proj2 M r H0) Hx) as [K|K]; [left; exact K | right; unfold beyond in *; rewrite Ed, Em in K; exact K].
    + intros Hx. apply (proj2 M r H0). destruct Hx as [K|K]; [left; exact K | right; unfold beyond in *; rewrite Ed, Em; exact K].
Qed.

(** ** assigning indices or ranges *)
Lemma set_true_nth : forall idx a j, j < length a -> nth j (set_true idx a) false = nth j a false || existsb (Nat.eqb j) idx.
Proof.
  induction idx as [|i r IH]; intros a j H; [symmetry; apply orb_false_r|].
  change (set_true (i :: r) a) with (set_true r (set_nth i true a)).
  rewrite IH by (rewrite set_nth_length; exact H). cbn [existsb].
  destruct (Nat.eqb_spec j i) as [E|E].
  - subst i. rewrite (nth_error_nth _ _ false (set_nth_eq j true a H)). cbn [orb]. symmetry; apply orb_true_r.
  - cbn [orb]. f_equal.
    assert (G : nth_error (set_nth i true a) j = nth_error a j) by (apply set_nth_ne; congruence).
    rewrite (nth_error_nth' a false H) in G. apply nth_error_nth. exact G.
Qed.
Lemma py_index_tinv : forall (l : list nat) i n, length l = n -> (- Z.of_nat n <= i < Z.of_nat n)%Z ->
  py_index l i = Ok (nth (Z.to_nat (if (i <? 0)%Z then (Z.of_nat n + i)%Z else i)) l 0).
Proof.
  intros l i n L H. unfold py_index. rewrite L. destruct (i <? 0)%Z eqn:E.
  - replace (Z.of_nat n + i <? 0)%Z with false by lia. rewrite (nth_error_nth' l 0) by lia. reflexivity.
  - rewrite E. rewrite (nth_error_nth' l 0) by lia. reflexivity.
Qed.
Lemma py_fancy_ok : forall (tv : list nat) n l, length tv = n -> (forall i, In i l -> (- Z.of_nat n <= i < Z.of_nat n)%Z) ->
  py_fancy tv l = Ok (map (fun i => nth (Z.to_nat (if (i <? 0)%Z then (Z.of_nat n + i)%Z else i)) tv 0) l).
Proof.
  intros tv n l L; induction l as [|i r IH]; intros H; [reflexivity|]. cbn [py_fancy map].
  rewrite (py_index_tinv tv i n L) by (apply H; left; reflexivity). cbn [rbind]. rewrite IH by (intros; apply H; right; assumption). reflexivity.
Qed.
Lemma tinv_inj : forall (s : pd A), wf s -> forall a b, a < length (data s) -> b < length (data s) -> nth a (tinv s) 0 = nth b (tinv s) 0 -> a = b.
Proof.
  intros s W a b Ha Hb E. destruct (wf_tinv_some s W a Ha) as [j [A1 [A2 A3]]]. destruct (wf_tinv_some s W b Hb) as [k [B1 [B2 B3]]].
  apply (nth_error_nth _ _ 0) in A1. apply (nth_error_nth _ _ 0) in B1. assert (j = k) by congruence. congruence.
Qed.
Lemma tinv_lt : forall (s : pd A), wf s -> forall a, a < length (data s) -> nth a (tinv s) 0 < length (data s).
Proof. intros s W a Ha. destruct (wf_tinv_some s W a Ha) as [j [A1 [A2 _]]]. apply (nth_error_nth _ _ 0) in A1. congruence. Qed.

Theorem indices_lemma : forall (s : pd A) l, reachable s -> length l <> length (data s) ->
  (forall i, In i l -> (- Z.of_nat (length (data s)) <= i < Z.of_nat (length (data s)))%Z) ->
  exists s' out, set_exclusions s (EIdx l) = Ok s' /\ listed s' = Ok out /\ data s' = data s /\
    exactly (data s) (fun r => ~ names_pos l (length (data s)) r /\ ~ cut_off s r) out.
Proof.
  intros s l R L H. apply reach_wf in R. set (n := length (data s)) in *.
  assert (E : exists s', set_exclusions s (EIdx l) = Ok s' /\ stored s' =
     Some (set_true (map (fun i => nth (Z.to_nat (if (i <? 0)%Z then (Z.of_nat n + i)%Z else i)) (tinv s) 0) l) (repeat false n))).
  { unfold set_exclusions. fold n. rewrite (proj2 (Nat.eqb_neq _ _) L).
    rewrite (py_fancy_ok (tinv s) n l (wf_tinv_length s R) H). cbn [rbind]. eexists; split; reflexivity. }
  destruct E as [s' [E St]]. destruct (set_excl_wf s _ s' R E) as [W' [Ed [Es [Ei Em]]]].
  destruct (listed_exactly s' (names_pos l n) W') as [out [E1 [keep [K1 [K2 K3]]]]].
  - intros r Hr. rewrite Ed in Hr. fold n in Hr. unfold is_stored. rewrite St, Ei.
    pose proof (tinv_lt s R r Hr) as Hj. fold n in Hj.
    rewrite set_true_nth by (rewrite repeat_length; exact Hj). rewrite nth_repeat. cbn [orb].
    rewrite existsb_exists. split.
    + intros [j [Hin Ej]]. apply Nat.eqb_eq in Ej. apply in_map_iff in Hin. destruct Hin as [i [Ein Hi]].
      pose proof (H i Hi) as Bi. rewrite <- Ej in Ein. apply (tinv_inj s R) in Ein; [|fold n; destruct (i <? 0)%Z eqn:C; lia | exact Hr].
      unfold names_pos. destruct (i <? 0)%Z eqn:C; [right | left]; replace (Z.of_nat r) with (if (i <? 0)%Z then (Z.of_nat n + i)%Z else i) by (rewrite C; lia); rewrite C.
      * replace (Z.of_nat n + i - Z.of_nat n)%Z with i by lia. exact Hi.
      * exact Hi.
    + intros [Hi|Hi]; exists (nth r (tinv s) 0); (split; [|apply Nat.eqb_refl]); apply in_map_iff.
      * exists (Z.of_nat r). split; [|exact Hi]. replace (Z.of_nat r <? 0)%Z with false by lia. rewrite Nat2Z.id. reflexivity.
      * exists (Z.of_nat r - Z.of_nat n)%Z. split; [|exact Hi]. replace (Z.of_nat r - Z.of_nat n <? 0)%Z with true by lia. f_equal. lia.
  - exists s', out. repeat split; auto. exists keep. rewrite Ed in K1, K2, K3. repeat split; auto.
    + intros C. destruct (proj1 (K3 r H0) H1) as [C1 _]. exact (C1 C).
    + intros C. destruct (proj1 (K3 r H0) H1) as [_ C1]. apply C1. unfold cut_off, beyond, no_angle in *. rewrite Ed, Em. exact C.
    + intros [C1 C2]. apply (K3 r H0). split; [exact C1|]. intros C; apply C2. unfold cut_off, beyond, no_angle in *. rewrite Ed, Em in C. exact C.
Qed.

Lemma ranges_nth : forall (tv : list nat) l a j, j < length a ->
  nth j (fold_left (fun a r => set_true (py_slice tv (fst r) (snd r)) a) l a) false = nth j a false || existsb (fun r => existsb (Nat.eqb j) (py_slice tv (fst r) (snd r))) l.
Proof.
  intros tv; induction l as [|r l IH]; intros a j H; [symmetry; apply orb_false_r|]. cbn [fold_left existsb].
  rewrite IH by (rewrite set_true_length; exact H). rewrite set_true_nth by exact H. symmetry; apply orb_assoc.
Qed.
Lemma nth_error_skipn' : forall {B} k (l : list B) i, nth_error (skipn k l) i = nth_error l (k + i).
Proof. induction k as [|k IH]; intros [|x l] i; cbn; try reflexivity; [destruct i; reflexivity | apply IH]. Qed.
Lemma nth_error_firstn' : forall {B} k (l : list B) i, i < k -> nth_error (firstn k l) i = nth_error l i.
Proof. induction k as [|k IH]; intros l i H; [lia|]. destruct l, i; cbn; try reflexivity. apply IH; lia. Qed.
Lemma py_slice_in : forall (s : pd A) a b r, wf s -> r < length (data s) ->
  (existsb (Nat.eqb (nth r (tinv s) 0)) (py_slice (tinv s) a b) = true <-> in_slice a b (length (data s)) r).
Proof.
  intros s a b r W Hr. set (n := length (data s)) in *. pose proof (wf_tinv_length s W) as L. fold n in L.
  unfold py_slice. rewrite L. set (p := slice_bound n a). set (q := slice_bound n b).
  assert (Hp : p <= n /\ q <= n) by (unfold p, q, slice_bound; split; lia). destruct Hp as [Hp Hq].
  assert (I : in_slice a b n r <-> p <= r < q).
  { unfold in_slice, p, q, slice_bound. destruct (a <? 0)%Z eqn:Ea; destruct (b <? 0)%Z eqn:Eb; lia. }
  rewrite I, existsb_exists. split.
  - intros [j [Hin Ej]]. apply Nat.eqb_eq in Ej. apply In_nth_error in Hin. destruct Hin as [k Hk].
    assert (Kl : k < q - p).
    { apply nth_error_default with (d := 0) in Hk. destruct Hk as [_ Hk]. rewrite firstn_length, skipn_length, L in Hk. lia. }
    assert (Hk' : nth_error (tinv s) (p + k) = Some j).
    { rewrite <- nth_error_skipn', <- (nth_error_firstn' (q - p)) by exact Kl. exact Hk. }
    apply (nth_error_nth _ _ 0) in Hk'. rewrite <- Hk' in Ej. apply (tinv_inj s W) in Ej; fold n; lia.
  - intros Hpq. exists (nth r (tinv s) 0). split; [|apply Nat.eqb_refl].
    assert (Hk : nth_error (tinv s) r = Some (nth r (tinv s) 0)) by (apply nth_error_nth'; lia).
    apply nth_error_In with (n := r - p).
    rewrite nth_error_firstn' by lia. rewrite nth_error_skipn'. replace (p + (r - p)) with r by lia. exact Hk.
Qed.
Theorem ranges_lemma : forall (s : pd A) l, reachable s -> length l <> length (data s) ->
  exists s' out, set_exclusions s (ERanges l) = Ok s' /\ listed s' = Ok out /\ data s' = data s /\
    exactly (data s) (fun r => ~ (exists a b, In (a, b) l /\ in_slice a b (length (data s)) r) /\ ~ cut_off s r) out.
Proof.
  intros s l R L. apply reach_wf in R. set (n := length (data s)) in *.
  assert (E : exists s', set_exclusions s (ERanges l) = Ok s' /\ stored s' =
     Some (fold_left (fun a r => set_true (py_slice (tinv s) (fst r) (snd r)) a) l (repeat false n))).
  { unfold set_exclusions. fold n. rewrite (proj2 (Nat.eqb_neq _ _) L). cbn [rbind]. eexists; split; reflexivity. }
  destruct E as [s' [E St]]. destruct (set_excl_wf s _ s' R E) as [W' [Ed [Es [Ei Em]]]].
  destruct (listed_exactly s' (fun r => exists a b, In (a, b) l /\ in_slice a b n r) W') as [out [E1 [keep [K1 [K2 K3]]]]].
  - intros r Hr. rewrite Ed in Hr. fold n in Hr. unfold is_stored. rewrite St, Ei.
    pose proof (tinv_lt s R r Hr) as Hj. fold n in Hj.
    rewrite ranges_nth by (rewrite repeat_length; exact Hj). rewrite nth_repeat. cbn [orb].
    rewrite existsb_exists. split.
    + intros [[a b] [Hin Ej]]. apply (py_slice_in s a b r R Hr) in Ej. exists a, b. auto.
    + intros [a [b [Hin Ej]]]. exists (a, b). split; [exact Hin|]. apply (py_slice_in s a b r R Hr). exact Ej.
  - exists s', out. repeat split; auto. exists keep. rewrite Ed in K1, K2, K3. repeat split; auto.
    + intros C. destruct (proj1 (K3 r H) H0) as [C1 _]. exact (C1 C).
    + intros C. destruct (proj1 (K3 r H) H0) as [_ C1]. apply C1. unfold cut_off, beyond, no_angle in *. rewrite Ed, Em. exact C.
    + intros [C1 C2]. apply (K3 r H). split; [exact C1|]. intros C; apply C2. unfold cut_off, beyond, no_angle in *. rewrite Ed, Em in C. exact C.
Qed.

(** ** consistency for involutive orders *)
Theorem involutive_lemma : forall (s : pd A), reachable s -> involutive s -> (tmax s = None \/ forall r, ~ no_angle s r) ->
  exists ex out, exclusions s = Ok ex /\ listed s = Ok out /\ exactly (data s) (fun r => nth r ex false = false) out.
Proof.
  intros s R I N. apply reach_wf in R. destruct (exclusions_spec s R) as [ex [E [L F]]].
  destruct (listed_exactly s (fun r => is_stored s (nth r (tinv s) 0) = true) R) as [out [E1 [keep [K1 [K2 K3]]]]]; [tauto|].
  exists ex, out. repeat split; auto. exists keep. repeat split; auto.
  - intros Hk. destruct (proj1 (K3 r H) Hk) as [A1 A2].
    destruct (nth_error (data s) r) as [[t a]|] eqn:Ex; [|apply nth_error_None in Ex; lia].
    destruct (wf_tsort_some s R r H) as [m [Sm [Hm Im]]]. rewrite (F r _ m Ex Sm).
    assert (J : nth r (tinv s) 0 = m).
    { apply nth_error_nth. destruct R as [O [Ei _]]. rewrite Ei. eapply scatter_inv; [exact O|]. apply I; exact Sm. }
    rewrite J in A1. destruct (is_stored s m); [congruence|]. cbn [orb fst].
    destruct (tmax s) as [q|] eqn:T; [|reflexivity]. destruct (fgt t q) eqn:G; [|reflexivity].
    exfalso. apply A2. left. apply fgt_iff in G. destruct G as [x [-> Lx]]. exists x, a, q. auto.
  - intros Hk. apply (K3 r H).
    destruct (nth_error (data s) r) as [[t a]|] eqn:Ex; [|apply nth_error_None in Ex; lia].
    destruct (wf_tsort_some s R r H) as [m [Sm [Hm Im]]]. rewrite (F r _ m Ex Sm) in Hk.
    assert (J : nth r (tinv s) 0 = m).
    { apply nth_error_nth. destruct R as [O [Ei _]]. rewrite Ei. eapply scatter_inv; [exact O|]. apply I; exact Sm. }
    rewrite J. apply orb_false_iff in Hk. destruct Hk as [B1 B2]. rewrite B1. split; [discriminate|].
    intros [[t' [a' [q [G1 [G2 G3]]]]]|[G1 G2]].
    + rewrite Ex in G1. injection G1 as -> <-. rewrite G2 in B2. cbn [fst] in B2. assert (fgt (Some t') q = true) by (apply fgt_iff; eauto). congruence.
    + destruct N as [N|N]; [congruence | exact (N r G2)].
Qed.

(** ** changing the lattice *)
Theorem recalc_lemma : forall (s : pd A) raw srt s', reachable s -> tmax s = None -> length raw = length (data s) -> ordering srt (length raw) ->
  recalc s raw srt = Ok s' -> exists ex ex', exclusions s = Ok ex /\ exclusions s' = Ok ex' /\
    forall r r' m, shows s r m -> shows s' r' m -> nth r ex false = nth r' ex' false.
Proof.
  intros s raw srt s' R T Lr O H. apply reach_wf in R. unfold recalc in H.
  assert (Le : forall x, stored s = Some x -> length x = length raw) by (intros x Hx; destruct R as [_ [_ S]]; rewrite (S x Hx); auto).
  destruct (calc_wf _ _ _ _ _ O Le H) as [W' [Ld [Et [Es [Em _]]]]].
  destruct (exclusions_spec s R) as [ex [E [L F]]]. destruct (exclusions_spec s' W') as [ex' [E' [L' F']]].
  exists ex, ex'. repeat split; auto. intros r r' m Sr Sr'.
  assert (Hr : r < length (data s)) by (rewrite <- (wf_tsort_length s R); apply nth_error_Some; unfold shows in Sr; rewrite Sr; discriminate).
  assert (Hr' : r' < length (data s')) by (rewrite <- (wf_tsort_length s' W'); apply nth_error_Some; unfold shows in Sr'; rewrite Sr'; discriminate).
  destruct (nth_error (data s) r) as [x|] eqn:Ex; [|apply nth_error_None in Ex; lia].
  destruct (nth_error (data s') r') as [x'|] eqn:Ex'; [|apply nth_error_None in Ex'; lia].
  rewrite (F r x m Ex Sr), (F' r' x' m Ex' Sr'). unfold is_stored. rewrite Es, Em, T. reflexivity.
Qed.

(** ** nHKLs *)
Lemma select_all_len : forall {X} k (l : list X), length k = length l -> length (select k l) = length (filter (fun b => b) k).
Proof.
  induction k as [|b k IH]; intros [|x l] H; try discriminate H; [reflexivity|]. injection H as H. cbn [select filter].
  destruct b; cbn [length]; rewrite IH by exact H; reflexivity.
Qed.
Lemma filter_map_len : forall {X} (f : X -> bool) l, length (filter (fun b => b) (map f l)) = length (filter f l).
Proof. induction l as [|x l IH]; [reflexivity|]. cbn. destruct (f x); cbn; rewrite IH; reflexivity. Qed.
Lemma perm_filter_len : forall {X} (f : X -> bool) l m, Permutation l m -> length (filter f l) = length (filter f m).
Proof.
  intros X f l m H; induction H; cbn; auto; try congruence.
  - destruct (f x); cbn; congruence.
  - destruct (f x), (f y); reflexivity.
Qed.
Lemma tinv_perm : forall (s : pd A), wf s -> Permutation (tinv s) (seq 0 (length (data s))).
Proof.
  intros s W. apply NoDup_Permutation.
  - apply (NoDup_nth _ 0). intros i j Hi Hj E. rewrite (wf_tinv_length s W) in *. eapply tinv_inj; eauto.
  - apply seq_NoDup.
  - intros x. rewrite in_seq. split.
    + intros H. apply In_nth_error in H. destruct H as [k Hk]. apply (wf_tinv_lt s W) in Hk. lia.
    + intros H. destruct (wf_tsort_some s W x) as [m [A1 [A2 A3]]]; [lia|]. eapply nth_error_In; exact A3.
Qed.
Theorem count_lemma : forall (s : pd A) v s', reachable s -> tmax s = None -> set_exclusions s v = Ok s' -> exists out, listed s' = Ok out /\ nhkls s' = length out.
Proof.
  intros s v s' R T H. apply reach_wf in R. destruct (set_excl_wf s v s' R H) as [W' [Ed [Es [Ei Em]]]].
  assert (G : exists e, stored s' = Some e /\ nhkls s' = length (filter negb e)).
  { unfold set_exclusions in H. destruct (match v with ENone => _ | _ => _ end) as [e|]; [|discriminate]. cbn [rbind] in H. injection H as <-. exists e; split; reflexivity. }
  destruct G as [e [Se Ne]]. rewrite (listed_ok s' W'). eexists; split; [reflexivity|]. rewrite Ne.
  rewrite select_all_len by apply visible_length. unfold visible. rewrite filter_map_len.
  pose proof (proj2 (proj2 W') e Se) as Le.
  transitivity (length (filter (fun j => negb (is_stored s' j)) (seq 0 (length (data s'))))).
  - unfold is_stored. rewrite Se, <- Le. clear. 
    assert (G : forall pre, length (filter negb e) = length (filter (fun j => negb (nth j (pre ++ e) false)) (seq (length pre) (length e)))).
    { induction e as [|b e IH]; intros pre; [reflexivity|]. cbn [length seq filter].
      rewrite app_nth2 by lia. rewrite Nat.sub_diag. cbn [nth].
      specialize (IH (pre ++ [b])). rewrite app_length, <- app_assoc in IH. cbn [app length] in IH. rewrite Nat.add_1_r in IH.
      destruct b; cbn [negb length]; rewrite IH; reflexivity. }
    exact (G []).
  - rewrite (perm_filter_len _ _ _ (Permutation_sym (tinv_perm s' W'))).
    pose proof (wf_tinv_length s' W') as Lt. unfold angle_ok. rewrite Em, T. generalize (is_stored s'). intros f.
    revert Lt. generalize (data s'). generalize (tinv s'). clear. intros tv d L.
    assert (G : forall pre, length (filter (fun j => negb (f j)) tv) =
       length (filter (fun p : nat * refl => negb (f (nth (fst p) (pre ++ tv) 0)) && true) (combine (seq (length pre) (length d)) d))).
    { revert d L; induction tv as [|j tv IH]; intros d L pre; destruct d as [|x d]; try discriminate L; [reflexivity|].
      injection L as L. cbn [length seq combine filter fst]. rewrite app_nth2 by lia. rewrite Nat.sub_diag. cbn [nth].
      specialize (IH d L (pre ++ [j])). rewrite app_length, <- app_assoc in IH. cbn [app length] in IH. rewrite Nat.add_1_r in IH.
      rewrite andb_true_r. destruct (negb (f j)); cbn [length]; rewrite IH; reflexivity. }
    exact (G []).
Qed.
Lemma listed_from_nhkls : forall d srt inv e m (k k' : nat) (l : list refl) r, listed_from (Pd d srt inv e m k) l r = listed_from (Pd d srt inv e m k') l r.
Proof. induction l as [|x l IH]; intros r; [reflexivity|]. cbn [listed_from]. rewrite IH. reflexivity. Qed.
Theorem calc_count_lemma : forall raw srt e m (s : pd A), calc raw srt e m = Ok s -> exists out, listed s = Ok out /\ nhkls s = length out.
Proof.
  intros raw srt e m s H. unfold calc in H. destruct (fancy raw srt) as [d|]; [|discriminate]. cbn [rbind] in H.
  destruct (listed _) as [l|] eqn:E; [|discriminate]. cbn [rbind] in H. injection H as <-. exists l. split; [|reflexivity].
  rewrite <- E. unfold listed. apply listed_from_nhkls.
Qed.

(** ** exclude *)
Lemma flt_iff : forall t m, flt t m = true <-> exists x, t = Some x /\ Qlt x m.
Proof.
  intros [x|] m; cbn.
  - rewrite negb_true_iff. split.
    + intros H. exists x; split; [reflexivity|]. apply Qnot_le_lt. intros C. apply Qle_bool_iff in C. congruence.
    + intros [y [E H]]. injection E as <-. destruct (Qle_bool m x) eqn:C; [|reflexivity].
      apply Qle_bool_iff in C. exfalso. exact (Qlt_not_le _ _ H C).
  - split; [discriminate | intros [x [E _]]; discriminate].
Qed.
Lemma select_true : forall {X} (l : list X) k, length k = length l -> (forall r, r < length l -> nth r k false = true) -> select k l = l.
Proof.
  induction l as [|x l IH]; intros [|b k] L H; try discriminate L; [reflexivity|]. injection L as L. cbn [select].
  assert (Hb : b = true) by (apply (H 0); cbn; lia). rewrite Hb. f_equal. apply IH; auto. intros r Hr. apply (H (S r)). cbn; lia.
Qed.
Lemma set_where_map : forall (c : refl -> bool) l f, set_where c l (map f l) = map (fun x => f x || c x) l.
Proof. intros c l f. unfold set_where. induction l as [|x l IH]; [reflexivity|]. cbn [map combine fst snd]. f_equal. exact IH. Qed.
Lemma repeat_map : forall (l : list refl), repeat false (length l) = map (fun _ => false) l.
Proof. induction l as [|x l IH]; [reflexivity|]. cbn. f_equal. exact IH. Qed.
Theorem exclude_lemma : forall (s : pd A) d dmin dmax tthmin tthmax, reachable s ->
  exists s' ex, exclude s d dmin dmax tthmin tthmax = Ok s' /\ exclusions s' = Ok ex /\ data s' = data s /\ tmax s' = None /\
    mask_is ex (length (data s)) (fun r => exists x, nth_error (data s) r = Some x /\ outside d dmin dmax tthmin tthmax x).
Proof.
  intros s d dmin dmax tthmin tthmax R. unfold exclude.
  assert (E0 : exists s1, set_exclusions s ENone = Ok s1 /\ stored s1 = Some (repeat false (length (data s)))) by (eexists; split; reflexivity).
  destruct E0 as [s1 [E0 St]]. rewrite E0. cbn [rbind]. pose proof (r_excl _ _ _ R E0) as R1. pose proof (r_tmax s1 None R1) as R2.
  destruct (set_excl_wf s _ s1 (reach_wf s R) E0) as [W1 [Ed1 _]].
  set (s2 := set_tmax s1 None) in *. pose proof (reach_wf s2 R2) as W2.
  assert (Ed2 : data s2 = data s) by (exact Ed1).
  assert (V : listed s2 = Ok (data s)).
  { rewrite (listed_ok s2 W2). rewrite Ed2. f_equal. apply select_true; [apply visible_length|]. intros r Hr.
    destruct (nth_error (data s) r) as [x|] eqn:Ex; [|apply nth_error_None in Ex; lia].
    rewrite <- Ed2 in *. rewrite (visible_nth s2 r x Ex). unfold is_stored, angle_ok. cbn [s2 set_tmax tmax stored]. rewrite St.
    rewrite nth_repeat. reflexivity. }
  rewrite V. cbn [rbind].
  set (l := data s) in *.
  assert (M : exists f, (match tthmax with Some q => set_where (fun x => fgt (fst x) q) l
     (match tthmin with Some q => set_where (fun x => flt (fst x) q) l
        (match dmax with Some q => set_where (fun x => fgt (Some (d (snd x))) q) l
           (match dmin with Some q => set_where (fun x => flt (Some (d (snd x))) q) l (repeat false (length l)) | None => repeat false (length l) end)
         | None => (match dmin with Some q => set_where (fun x => flt (Some (d (snd x))) q) l (repeat false (length l)) | None => repeat false (length l) end) end)
      | None => (match dmax with Some q => set_where (fun x => fgt (Some (d (snd x))) q) l
           (match dmin with Some q => set_where (fun x => flt (Some (d (snd x))) q) l (repeat false (length l)) | None => repeat false (length l) end)
         | None => (match dmin with Some q => set_where (fun x => flt (Some (d (snd x))) q) l (repeat false (length l)) | None => repeat false (length l) end) end) end)
     | None => (match tthmin with Some q => set_where (fun x => flt (fst x) q) l
        (match dmax with Some q => set_where (fun x => fgt (Some (d (snd x))) q) l
           (match dmin with Some q => set_where (fun x => flt (Some (d (snd x))) q) l (repeat false (length l)) | None => repeat false (length l) end)
         | None => (match dmin with Some q => set_where (fun x => flt (Some (d (snd x))) q) l (repeat false (length l)) | None => repeat false (length l) end) end)
      | None => (match dmax with Some q => set_where (fun x => fgt (Some (d (snd x))) q) l
           (match dmin with Some q => set_where (fun x => flt (Some (d (snd x))) q) l (repeat false (length l)) | None => repeat false (length l) end)
         | None => (match dmin with Some q => set_where (fun x => flt (Some (d (snd x))) q) l (repeat false (length l)) | None => repeat false (length l) end) end) end) end)
     = map f l /\ forall x, f x = true <-> outside d dmin dmax tthmin tthmax x).
  { set (f1 := fun x : refl => match dmin with Some q => flt (Some (d (snd x))) q | None => false end).
    assert (H1 : (match dmin with Some q => set_where (fun x => flt (Some (d (snd x))) q) l (repeat false (length l)) | None => repeat false (length l) end) = map f1 l).
    { rewrite repeat_map. unfold f1. destruct dmin; [rewrite set_where_map|]; reflexivity. }
    rewrite H1. set (f2 := fun x : refl => f1 x || match dmax with Some q => fgt (Some (d (snd x))) q | None => false end).
    assert (H2 : (match dmax with Some q => set_where (fun x => fgt (Some (d (snd x))) q) l (map f1 l) | None => map f1 l end) = map f2 l).
    { unfold f2. destruct dmax; [rewrite set_where_map; reflexivity | apply map_ext; intros; symmetry; apply orb_false_r]. }
    rewrite H2. set (f3 := fun x : refl => f2 x || match tthmin with Some q => flt (fst x) q | None => false end).
    assert (H3 : (match tthmin with Some q => set_where (fun x => flt (fst x) q) l (map f2 l) | None => map f2 l end) = map f3 l).
    { unfold f3. destruct tthmin; [rewrite set_where_map; reflexivity | apply map_ext; intros; symmetry; apply orb_false_r]. }
    rewrite H3. exists (fun x : refl => f3 x || match tthmax with Some q => fgt (fst x) q | None => false end). split.
    - destruct tthmax; [rewrite set_where_map; reflexivity | apply map_ext; intros; symmetry; apply orb_false_r].
    - intros x. unfold f3, f2, f1, outside. rewrite !orb_true_iff.
      assert (Q1 : match dmin with Some q => flt (Some (d (snd x))) q | None => false end = true <-> exists q, dmin = Some q /\ Qlt (d (snd x)) q).
      { destruct dmin as [q|]; [|split; [discriminate | intros [? [? _]]; discriminate]]. rewrite flt_iff. split.
        - intros [y [Ey Hy]]. injection Ey as <-. eauto.
        - intros [q' [Eq Hq]]. injection Eq as <-. eauto. }
      assert (Q2 : match dmax with Some q => fgt (Some (d (snd x))) q | None => false end = true <-> exists q, dmax = Some q /\ Qlt q (d (snd x))).
      { destruct dmax as [q|]; [|split; [discriminate | intros [? [? _]]; discriminate]]. rewrite fgt_iff. split.
        - intros [y [Ey Hy]]. injection Ey as <-. eauto.
        - intros [q' [Eq Hq]]. injection Eq as <-. eauto. }
      assert (Q3 : match tthmin with Some q => flt (fst x) q | None => false end = true <-> exists q t, tthmin = Some q /\ fst x = Some t /\ Qlt t q).
      { destruct tthmin as [q|]; [|split; [discriminate | intros [? [? [? _]]]; discriminate]]. rewrite flt_iff. split.
        - intros [y [Ey Hy]]. eauto.
        - intros [q' [t [Eq [Et Hq]]]]. injection Eq as <-. eauto. }
      assert (Q4 : match tthmax with Some q => fgt (fst x) q | None => false end = true <-> exists q t, tthmax = Some q /\ fst x = Some t /\ Qlt q t).
      { destruct tthmax as [q|]; [|split; [discriminate | intros [? [? [? _]]]; discriminate]]. rewrite fgt_iff. split.
        - intros [y [Ey Hy]]. eauto.
        - intros [q' [t [Eq [Et Hq]]]]. injection Eq as <-. eauto. }
      rewrite Q1, Q2, Q3, Q4. tauto. }
  destruct M as [f [Mf Hf]].
  rewrite Mf.
  destruct (mask_lemma s2 (map f l) R2) as [s' [ex [E1 [E2 [E3 [E4 E5]]]]]]; [rewrite map_length, Ed2; reflexivity|].
  exists s', ex. rewrite Ed2 in *. repeat split; auto.
  - destruct (set_excl_wf s2 _ s' W2 E1) as [_ [_ [_ [_ T]]]]. rewrite T. reflexivity.
  - intros Hx. apply (E5 r H) in Hx. destruct Hx as [Hx|[? [? [? [_ [C _]]]]]]; [|discriminate].
    destruct (nth_error l r) as [x|] eqn:Ex; [|apply nth_error_None in Ex; fold l in H; lia].
    exists x; split; [reflexivity|]. apply Hf. destruct (nth_error_default l r x x Ex) as [En _].
    rewrite nth_map_d with (d := x) in Hx by exact H. rewrite En in Hx. exact Hx.
  - intros [x [Ex Ox]]. apply (E5 r H). left. destruct (nth_error_default l r x x Ex) as [En _].
    rewrite nth_map_d with (d := x) by exact H. rewrite En. apply Hf. exact Ox.
Qed.
End W.

(** ** merged ranges *)
Section Mg.
Variables (lo hi : nat -> Q) (cull : bool) (close : nat -> nat -> bool).
Definition kept_upto (first i : nat) : list nat := filter (fun k => negb (cull && close k (S k))) (seq first (i - first)).
Lemma kept_step : forall first i, first <= i -> kept_upto first (S i) = kept_upto first i ++ (if cull && close i (S i) then [] else [i]).
Proof.
  intros first i H. unfold kept_upto. replace (S i - first) with ((i - first) + 1) by lia. rewrite seq_app, filter_app. cbn [seq filter].
  replace (first + (i - first)) with i by lia. destruct (cull && close i (S i)); reflexivity.
Qed.
Lemma run_kept : forall a b, a <= b -> kept_upto a b ++ [b] = run cull close a b.
Proof.
  intros a b H. unfold kept_upto, run. replace (S b - a) with ((b - a) + 1) by lia. rewrite seq_app, filter_app. cbn [seq filter].
  replace (a + (b - a)) with b by lia. rewrite Nat.eqb_refl. cbn [orb]. f_equal.
  apply filter_ext_in. intros k Hk. apply in_seq in Hk. replace (Nat.eqb k b) with false by (symmetry; apply Nat.eqb_neq; lia). reflexivity.
Qed.
Lemma merge_loop_spec : forall rest i first, first <= i -> (forall k, first <= k < i -> overlap lo hi k) ->
  grouped lo hi cull close (S (i + rest)) first (merge_loop lo hi cull close rest i first (kept_upto first i)).
Proof.
  induction rest as [|k IH]; intros i first H O.
  - cbn [merge_loop]. rewrite run_kept by exact H. rewrite Nat.add_0_r. apply g_last; auto.
  - cbn [merge_loop]. destruct (Qle_bool (lo (S i)) (hi i)) eqn:E; cbn [negb].
    + apply Qle_bool_iff in E.
      assert (O' : forall k, first <= k < S i -> overlap lo hi k).
      { intros j Hj. destruct (Nat.eq_dec j i) as [->|N]; [exact E | apply O; lia]. }
      specialize (IH (S i) first ltac:(lia) O'). rewrite kept_step in IH by exact H.
      replace (S (i + S k)) with (S (S i + k)) by lia. destruct (cull && close i (S i)); [rewrite app_nil_r in IH|]; exact IH.
    + rewrite run_kept by exact H. apply g_cons; auto; [lia| |].
      * intros C. unfold overlap in C. apply Qle_bool_iff in C. congruence.
      * replace (S (i + S k)) with (S (S i + k)) by lia.
        assert (K : kept_upto (S i) (S i) = []) by (unfold kept_upto; rewrite Nat.sub_diag; reflexivity).
        rewrite <- K. apply IH; [lia | intros; lia].
Qed.
Theorem merged_lemma : forall n, (n = 0 -> merged lo hi cull close n = Err IndexError) /\
  (0 < n -> exists gs, merged lo hi cull close n = Ok gs /\ grouped lo hi cull close n 0 gs).
Proof.
  intros [|n]; split; intros H; [reflexivity | lia | lia |]. eexists; split; [reflexivity|].
  refine (merge_loop_spec n 0 0 _ _); [lia | intros; lia].
Qed.
End Mg.

Lemma run_all : forall close a b, run false close a b = seq a (S b - a).
Proof. intros. unfold run. cbn [andb negb]. induction (seq a (S b - a)) as [|x l IH]; [reflexivity|]. cbn. rewrite orb_true_r, IH. reflexivity. Qed.
Theorem merged_indices_lemma : forall lo hi close n gs, merged lo hi false close n = Ok gs -> concat (map fst gs) = seq 0 n.
Proof.
  intros lo hi close n gs H. destruct (merged_lemma lo hi false close n) as [Z P].
  destruct n as [|n]; [rewrite (Z eq_refl) in H; discriminate|]. destruct (P ltac:(lia)) as [gs' [E G]]. rewrite E in H. injection H as <-.
  assert (Q : forall a gs, grouped lo hi false close (S n) a gs -> concat (map fst gs) = seq a (S n - a)).
  { intros a gs G'; induction G'.
    - cbn [map fst concat]. rewrite run_all, app_nil_r. f_equal. lia.
    - cbn [map fst concat]. rewrite IHG', run_all. replace (S n - a) with ((S b - a) + (S n - S b)) by lia. rewrite seq_app.
      f_equal. f_equal. lia. }
  rewrite (Q 0 gs' G). f_equal.
Qed.
Theorem merged_cover_lemma : forall lo hi cull close n gs,
  (forall i, Qle (lo i) (hi i)) -> (forall i, Qle (lo i) (lo (S i))) -> (forall i, Qle (hi i) (hi (S i))) ->
  merged lo hi cull close n = Ok gs ->
  forall x, (exists g, In g gs /\ Qle (fst (snd g)) x /\ Qle x (snd (snd g))) <-> (exists i, i < n /\ Qle (lo i) x /\ Qle x (hi i)).
Proof.
  intros lo hi cull close n gs LH ML MH H x. destruct (merged_lemma lo hi cull close n) as [Z P].
  destruct n as [|n]; [rewrite (Z eq_refl) in H; discriminate|]. destruct (P ltac:(lia)) as [gs' [E G]]. rewrite E in H. injection H as <-.
  assert (MLk : forall k i, Qle (lo i) (lo (i + k))).
  { induction k as [|k IH]; intros i; [rewrite Nat.add_0_r; apply Qle_refl|]. rewrite Nat.add_succ_r. eapply Qle_trans; [apply IH | apply ML]. }
  assert (MHk : forall k i, Qle (hi i) (hi (i + k))).
  { induction k as [|k IH]; intros i; [rewrite Nat.add_0_r; apply Qle_refl|]. rewrite Nat.add_succ_r. eapply Qle_trans; [apply IH | apply MH]. }
  assert (C : forall a k, (forall i, a <= i < a + k -> overlap lo hi i) -> Qle (lo a) x -> Qle x (hi (a + k)) -> exists i, a <= i <= a + k /\ Qle (lo i) x /\ Qle x (hi i)).
  { intros a k; revert a; induction k as [|k IH]; intros a O L U.
    - rewrite Nat.add_0_r in *. exists a; repeat split; auto.
    - destruct (Qlt_le_dec (hi a) x) as [D|D].
      + destruct (IH (S a)) as [i [Hi Ii]].
        * intros j Hj. apply O; lia.
        * eapply Qle_trans; [apply (O a); lia | apply Qlt_le_weak; exact D].
        * replace (S a + k) with (a + S k) by lia. exact U.
        * exists i; split; [lia | exact Ii].
      + exists a; repeat split; auto; lia. }
  assert (Q : forall a gs, grouped lo hi cull close (S n) a gs ->
     ((exists g, In g gs /\ Qle (fst (snd g)) x /\ Qle x (snd (snd g))) <-> (exists i, a <= i < S n /\ Qle (lo i) x /\ Qle x (hi i)))).
  { intros a gs G'; induction G' as [a b Hab Hb O | a b gs Hab Hb O N G' IH].
    - split.
      + intros [g [[<-|[]] [L U]]]. cbn [fst snd] in *. destruct (C a (b - a)) as [i [Hi Ii]]; auto.
        * intros i Hi; apply O; lia.
        * replace (a + (b - a)) with b by lia. exact U.
        * exists i; split; [lia | exact Ii].
      + intros [i [Hi [L U]]]. eexists; split; [left; reflexivity|]. cbn [fst snd]. split.
        * eapply Qle_trans; [|exact L]. replace i with (a + (i - a)) by lia. apply MLk.
        * eapply Qle_trans; [exact U|]. replace b with (i + (b - i)) by lia. apply MHk.
    - split.
      + intros [g [[<-|Hg] [L U]]].
        * cbn [fst snd] in *. destruct (C a (b - a)) as [i [Hi Ii]]; auto.
          { intros i Hi; apply O; lia. }
          { replace (a + (b - a)) with b by lia. exact U. }
          exists i; split; [lia | exact Ii].
        * destruct (proj1 IH (ex_intro _ g (conj Hg (conj L U)))) as [i [Hi Ii]]. exists i; split; [lia | exact Ii].
      + intros [i [Hi [L U]]]. destruct (le_lt_dec i b) as [D|D].
        * eexists; split; [left; reflexivity|]. cbn [fst snd]. split.
          { eapply Qle_trans; [|exact L]. replace i with (a + (i - a)) by lia. apply MLk. }
          { eapply Qle_trans; [exact U|]. replace b with (i + (b - i)) by lia. apply MHk. }
        * destruct (proj2 IH) as [g [Hg Ig]]; [exists i; split; [lia | auto]|]. exists g; split; [right; exact Hg | exact Ig]. }
  rewrite (Q 0 gs' G). split; intros [i [Hi Ii]]; exists i; split; auto; lia.
Qed.

(** ** lookup by identifier *)
Section Id.
Context {A : Type}.
Notation refl := (option Q * A)%type.
Lemma filter_unique : forall (hid : A -> nat) (l : list refl) k r x, nth_error l r = Some x -> NoDup (map (fun y => hid (snd y)) l) ->
  filter (fun p : nat * refl => Nat.eqb (hid (snd (snd p))) (hid (snd x))) (combine (seq k (length l)) l) = [(k + r, x)].
Proof.
  intros hid; induction l as [|y l IH]; intros k r x E N; [destruct r; discriminate E|].
  cbn [map] in N. inversion N as [|? ? Ny Nl]; subst. cbn [length seq combine filter snd]. destruct r as [|r].
  - injection E as ->. rewrite Nat.eqb_refl, Nat.add_0_r. f_equal.
    assert (G : forall m k, ~ In (hid (snd x)) (map (fun y => hid (snd y)) m) -> filter (fun p : nat * refl => Nat.eqb (hid (snd (snd p))) (hid (snd x))) (combine (seq k (length m)) m) = []).
    { clear. induction m as [|z m IH]; intros k H; [reflexivity|]. cbn [length seq combine filter snd]. cbn [map In] in H.
      destruct (Nat.eqb_spec (hid (snd z)) (hid (snd x))) as [C|C]; [exfalso; apply H; left; exact C | apply IH; tauto]. }
    apply G; exact Ny.
  - cbn [nth_error] in E. destruct (Nat.eqb_spec (hid (snd y)) (hid (snd x))) as [C|C].
    + exfalso. apply Ny. rewrite C. apply in_map_iff. exists x; split; [reflexivity | eapply nth_error_In; exact E].
    + rewrite (IH (S k) r x E Nl). f_equal. f_equal. lia.
Qed.
Theorem by_id_lemma : forall (s : pd A) hid r x, reachable s -> tsort s = seq 0 (length (data s)) ->
  NoDup (map (fun y => hid (snd y)) (data s)) -> nth_error (data s) r = Some x ->
  exists ex, exclusions s = Ok ex /\ get_by_id s hid (hid (snd x)) = if nth r ex false then Err RuntimeError else Ok x.
Proof.
  intros s hid r x R I N E. apply reach_wf in R. destruct (exclusions_spec s R) as [ex [Ex [L _]]]. exists ex; split; [exact Ex|].
  unfold get_by_id. rewrite Ex. cbn [rbind].
  assert (T : tinv s = seq 0 (length (data s))).
  { apply (nth_ext _ _ 0 0); [rewrite (wf_tinv_length s R), seq_length; reflexivity|]. intros k Hk. rewrite (wf_tinv_length s R) in Hk.
    rewrite seq_nth by exact Hk. destruct R as [O [Ei _]]. apply nth_error_nth. rewrite Ei. eapply scatter_inv; [exact O|].
    rewrite I. rewrite (nth_error_nth' _ 0) by (rewrite seq_length; exact Hk). rewrite seq_nth by exact Hk. reflexivity. }
  assert (F : fancy ex (tinv s) = Ok ex).
  { rewrite T, <- L. rewrite (fancy_ok ex false) by (intros i Hi; apply in_seq in Hi; lia). f_equal.
    clear. assert (G : forall pre, map (fun i => nth i (pre ++ ex) false) (seq (length pre) (length ex)) = ex).
    { induction ex as [|b ex IH]; intros pre; [reflexivity|]. cbn [length seq map]. f_equal.
      - rewrite app_nth2 by lia. rewrite Nat.sub_diag. reflexivity.
      - specialize (IH (pre ++ [b])). rewrite app_length, <- app_assoc in IH. cbn [app length] in IH. rewrite Nat.add_1_r in IH. exact IH. }
    exact (G []). }
  rewrite F. cbn [rbind]. rewrite (filter_unique hid (data s) 0 r x E N). cbn [Nat.add].
  assert (Hr : r < length ex) by (rewrite L; apply nth_error_Some; rewrite E; discriminate).
  rewrite (nth_error_nth' ex false Hr). destruct (nth r ex false); reflexivity.
Qed.
End Id.
