From Coq Require Import Reals List ZArith Lra Lia Bool Permutation.
From Verif Require Import Prelude Lin TensorModel RotModel FibModel EomModel EomProofs SnpModel SnpSpec SnpProofs.
Import ListNotations.
Local Open Scope R_scope.
Local Notation length := List.length.

Lemma sum_zero n h : (forall k, (k < n)%nat -> h k = 0) -> sum_to n h = 0.
Proof. induction n as [|n IH]; intros H; [reflexivity|]. cbn [sum_to]. rewrite IH, H; try lia; [lra|]. intros; apply H; lia. Qed.
Lemma sum_ends m h : (forall k, (0 < k < S m)%nat -> h k = 0) -> sum_to (S (S m)) h = h 0%nat + h (S m).
Proof.
  intros H. change (sum_to (S (S m)) h) with (sum_to (S m) h + h (S m)). f_equal. induction m as [|m IH]; [cbn; lra|].
  change (sum_to (S (S m)) h) with (sum_to (S m) h + h (S m)). rewrite H by lia. rewrite Rplus_0_r. apply IH. intros; apply H; lia.
Qed.
Lemma ends_length q : length (ends_kernel (S q)) = (2 * q + 3)%nat.
Proof. cbn [ends_kernel length]. rewrite app_length, repeat_length. cbn [length]. lia. Qed.
Lemma ends_nth q k : nth k (ends_kernel (S q)) 0 = if (k =? 0)%nat || (k =? 2 * q + 2)%nat then 1 / 2 else 0.
Proof.
  unfold ends_kernel. destruct k as [|k]; [reflexivity|]. change (nth (S k) (1 / 2 :: ?l) 0) with (nth k l 0).
  replace (S k =? 0)%nat with false by reflexivity. cbn [orb].
  destruct (Nat.ltb_spec k (2 * q + 1)) as [L|L].
  - change (nth (S k) (1 / 2 :: repeat 0 (2 * q + 1) ++ [1 / 2]) 0) with (nth k (repeat 0 (2 * q + 1) ++ [1 / 2]) 0). rewrite app_nth1 by (rewrite repeat_length; auto). rewrite (proj2 (Nat.eqb_neq (S k) (2 * q + 2))) by lia. apply nth_repeat.
  - change (nth (S k) (1 / 2 :: repeat 0 (2 * q + 1) ++ [1 / 2]) 0) with (nth k (repeat 0 (2 * q + 1) ++ [1 / 2]) 0). rewrite app_nth2 by (rewrite repeat_length; auto). rewrite repeat_length. destruct (Nat.eqb_spec (S k) (2 * q + 2)) as [E|E].
    + replace (k - (2 * q + 1))%nat with 0%nat by lia. reflexivity.
    + destruct (k - (2 * q + 1))%nat as [|m] eqn:F; [lia|]. cbn. destruct m; reflexivity.
Qed.
Lemma ends_half q : (length (ends_kernel (S q)) / 2)%nat = S q.
Proof. rewrite ends_length. replace (2 * q + 3)%nat with (S q * 2 + 1)%nat by lia. rewrite Nat.div_add_l by lia. change (1 / 2)%nat with 0%nat. lia. Qed.
Lemma ends_odd q : Nat.odd (length (ends_kernel (S q))) = true.
Proof. rewrite ends_length. apply Nat.odd_spec. exists (S q). lia. Qed.
Lemma ends_sum q : kernel_sum (ends_kernel (S q)) = 1.
Proof.
  unfold kernel_sum. rewrite ends_length. replace (2 * q + 3)%nat with (S (S (2 * q + 1))) by lia. rewrite sum_ends.
  - rewrite !ends_nth. rewrite Nat.eqb_refl, orb_true_l. replace (S (2 * q + 1) =? 2 * q + 2)%nat with true by (symmetry; apply Nat.eqb_eq; lia). rewrite ?orb_true_r. lra.
  - intros k Hk. rewrite ends_nth. rewrite (proj2 (Nat.eqb_neq k 0)), (proj2 (Nat.eqb_neq k (2 * q + 2))) by lia. reflexivity.
Qed.
Lemma ends_weights (g : Z -> cell) q i :
  weighted g (ends_kernel (S q)) i = (match g (Z.of_nat i - Z.of_nat (S q))%Z with Some x => x * (1 / 2) | None => 0 end) + (match g (Z.of_nat i + Z.of_nat (S q))%Z with Some x => x * (1 / 2) | None => 0 end)
  /\ weight g (ends_kernel (S q)) i = (match g (Z.of_nat i - Z.of_nat (S q))%Z with Some _ => 1 / 2 | None => 0 end) + (match g (Z.of_nat i + Z.of_nat (S q))%Z with Some _ => 1 / 2 | None => 0 end).
Proof.
  unfold weighted, weight. rewrite ends_half, ends_length. replace (2 * q + 3)%nat with (S (S (2 * q + 1))) by lia.
  assert (Z0 : forall k, (0 < k < S (2 * q + 1))%nat -> nth (S (S (2 * q + 1)) - 1 - k) (ends_kernel (S q)) 0 = 0).
  { intros k Hk. rewrite ends_nth. rewrite (proj2 (Nat.eqb_neq _ 0)), (proj2 (Nat.eqb_neq _ (2 * q + 2))) by lia. reflexivity. }
  assert (E1 : nth (S (S (2 * q + 1)) - 1 - 0) (ends_kernel (S q)) 0 = 1 / 2) by (rewrite ends_nth; replace (S (S (2 * q + 1)) - 1 - 0 =? 2 * q + 2)%nat with true by (symmetry; apply Nat.eqb_eq; lia); rewrite orb_true_r; reflexivity).
  assert (E2 : nth (S (S (2 * q + 1)) - 1 - S (2 * q + 1)) (ends_kernel (S q)) 0 = 1 / 2) by (rewrite ends_nth; replace (S (S (2 * q + 1)) - 1 - S (2 * q + 1) =? 0)%nat with true by (symmetry; apply Nat.eqb_eq; lia); reflexivity).
  split; rewrite sum_ends.
  - rewrite E1, E2. replace (Z.of_nat (i + 0) - Z.of_nat (S q))%Z with (Z.of_nat i - Z.of_nat (S q))%Z by lia. replace (Z.of_nat (i + S (2 * q + 1)) - Z.of_nat (S q))%Z with (Z.of_nat i + Z.of_nat (S q))%Z by lia. reflexivity.
  - intros k Hk. rewrite Z0 by auto. destruct (g _); lra.
  - rewrite E1, E2. replace (Z.of_nat (i + 0) - Z.of_nat (S q))%Z with (Z.of_nat i - Z.of_nat (S q))%Z by lia. replace (Z.of_nat (i + S (2 * q + 1)) - Z.of_nat (S q))%Z with (Z.of_nat i + Z.of_nat (S q))%Z by lia. reflexivity.
  - intros k Hk. rewrite Z0 by auto. destruct (g _); lra.
Qed.

Lemma visible_nth mask z i : (i < length z)%nat -> nth i (visible mask z) None = if nth i mask false then None else nth i z None.
Proof. intros H. unfold visible. apply (nth_mapseq (fun i => if nth i mask false then None else nth i z None)). auto. Qed.
Lemma visible_length mask z : length (visible mask z) = length z.
Proof. unfold visible. rewrite map_length, seq_length. reflexivity. Qed.
Lemma conv_ends mask z p : (1 <= p)%nat -> z <> [] -> length mask = length z ->
  exists c, convolve (snip_opts mask) (ends_kernel p) z = Ok c /\ length c = length z /\
  forall i, (i < length z)%nat -> nth i c None = match nth i (visible mask z) None with None => None | Some x => Some (clipped (visible mask z) p i x) end.
Proof.
  intros Hp Hz Hm. destruct p as [|q]; [lia|]. set (o := snip_opts mask).
  assert (S0 : forall i, seen o z i = if nth i mask false then None else nth i z None) by reflexivity.
  assert (U0 : forall i, used o z i = seen o z i) by (intros i; unfold used; destruct (seen o z i); reflexivity).
  assert (F : field o z = neighbour (visible mask z)).
  { assert (FL : map (used o z) (seq 0 (length z)) = visible mask z) by (unfold visible; apply map_ext; intros i; rewrite U0; apply S0).
    unfold field. rewrite FL. reflexivity. }
  assert (HK : kernel_fits o (ends_kernel (S q)) z).
  { split; [apply ends_odd|]. split; [discriminate|]. intros _. rewrite ends_sum. lra. }
  destruct (convolve_lemma o (ends_kernel (S q)) z Hz Hm HK) as (c & Ec & Lc & Nc). exists c. split; [exact Ec|]. split; [exact Lc|].
  intros i Hi. rewrite visible_nth by auto. rewrite <- S0. destruct (Nc i Hi) as [N1 N2]. destruct (seen o z i) as [x|] eqn:E; [|apply N1; auto].
  destruct N2 as [N2 _]; [right; discriminate|]. specialize (N2 ltac:(discriminate)). unfold convolved in N2. cbv zeta in N2. rewrite F in N2.
  destruct N2 as (A & _ & C & _ & D & _). destruct (ends_weights (neighbour (visible mask z)) q i) as [W1 W2].
  assert (Gd : has_gap o z \/ ~ has_gap o z).
  { rewrite <- (gap_dec o z Hm). destruct (_ && _); [left|right]; congruence. }
  unfold clipped. destruct Gd as [G|G].
  - destruct (neighbour _ (Z.of_nat i - Z.of_nat (S q))) as [u|], (neighbour _ (Z.of_nat i + Z.of_nat (S q))) as [v|]; rewrite W1, W2 in *.
    1-3: rewrite C by (auto; lra); f_equal; field.
    rewrite D by (auto; lra). rewrite U0. exact E.
  - rewrite A by auto. rewrite ends_sum, W1.
    assert (NN : forall j, neighbour (visible mask z) j <> None).
    { intros j. apply ext_number; [|discriminate|].
      - intros E0. pose proof (visible_length mask z) as L. rewrite E0 in L. destruct z; [congruence|discriminate].
      - intros d Hd ->. apply G. unfold visible in Hd. apply in_map_iff in Hd. destruct Hd as (k & Ek & Hk). apply in_seq in Hk. exists k. split; [lia|]. rewrite U0, S0. exact Ek. }
    pose proof (NN (Z.of_nat i - Z.of_nat (S q))%Z) as N3. pose proof (NN (Z.of_nat i + Z.of_nat (S q))%Z) as N4.
    destruct (neighbour _ (Z.of_nat i - Z.of_nat (S q))) as [u|], (neighbour _ (Z.of_nat i + Z.of_nat (S q))) as [v|]; try congruence. f_equal. field.
Qed.

(** ** passes *)
Lemma in_extended b fill a j x : b = BExtend -> a <> [] -> extended b fill a j = Some x -> In (Some x) a.
Proof.
  intros -> Ha. assert (Hn : (0 < length a)%nat) by (destruct a; [congruence|cbn; lia]).
  assert (K : forall i, (0 <= i < Z.of_nat (length a))%Z -> at_index a i = Some x -> In (Some x) a) by (intros i Hi E; rewrite <- E; unfold at_index; apply nth_In; lia).
  unfold extended. destruct ((0 <=? j)%Z && (j <? Z.of_nat (length a))%Z) eqn:E.
  - apply andb_true_iff in E. destruct E as [E1 E2]. apply Z.leb_le in E1. apply Z.ltb_lt in E2. apply K; lia.
  - destruct (j <? 0)%Z; apply K; lia.
Qed.
Lemma clipped_bounds a p i x m : a <> [] -> (forall c, In (Some c) a -> m <= c) -> m <= x -> m <= clipped a p i x.
Proof.
  intros Ha H Hx. unfold clipped, neighbour.
  destruct (extended _ _ _ (Z.of_nat i - _)) as [u|] eqn:E1, (extended _ _ _ (Z.of_nat i + _)) as [v|] eqn:E2; auto;
    try (apply in_extended in E1; auto; apply H in E1); try (apply in_extended in E2; auto; apply H in E2); lra.
Qed.
Lemma fold_min l y : lowest (fold_left Rmin l y) (y :: l).
Proof.
  revert y. induction l as [|x t IH]; intros y; cbn [fold_left].
  - split; [left; auto|]. intros x [<-|[]]. lra.
  - destruct (IH (Rmin y x)) as [I1 I2]. split.
    + destruct I1 as [I1|I1]; [|right; right; auto]. rewrite <- I1. unfold Rmin. destruct (Rle_dec y x); [left|right; left]; auto.
    + pose proof (I2 _ (or_introl eq_refl)). pose proof (Rmin_l y x). pose proof (Rmin_r y x). intros u [<-|[<-|Hu]]; try lra. apply I2. right; auto.
Qed.
Lemma lowest_perm v l m : Permutation l m -> lowest v l -> lowest v m.
Proof. intros P [H1 H2]. split; [eapply Permutation_in; eauto|]. intros x Hx. apply H2. eapply Permutation_in; [symmetry; eauto|auto]. Qed.
Lemma down_perm w : Permutation (down_from w) (seq 1 w).
Proof.
  induction w as [|w IH]; [constructor|]. rewrite seq_S. cbn [down_from]. replace (1 + w)%nat with (S w) by lia. etransitivity; [apply perm_skip; exact IH|]. apply Permutation_cons_append.
Qed.
Lemma down_pos w p : In p (down_from w) -> (1 <= p)%nat.
Proof. intros H. apply (Permutation_in _ (down_perm w)) in H. apply in_seq in H. lia. Qed.
Lemma zip_nth b c i : length b = length c -> (i < length b)%nat -> nth i (zip_min b c) None = omin (nth i b None) (nth i c None).
Proof.
  intros L H. unfold zip_min. rewrite (@map_nth_lt (cell * cell) cell _ _ _ _ (None, None)) by (rewrite combine_length; lia). rewrite combine_nth by auto. reflexivity.
Qed.
Lemma zip_length b c : length b = length c -> length (zip_min b c) = length b.
Proof. intros L. unfold zip_min. rewrite map_length, combine_length. lia. Qed.
Lemma windows_lemma mask z ps b : z <> [] -> length mask = length z -> length b = length z -> (forall p, In p ps -> (1 <= p)%nat) ->
  exists r, snip_windows mask z ps b = Ok r /\ length r = length z /\
  forall i, (i < length z)%nat ->
    match nth i (visible mask z) None with
    | None => (ps <> [] \/ nth i b None = None) -> nth i r None = None
    | Some x => forall y, nth i b None = Some y -> nth i r None = Some (fold_left Rmin (map (fun p => clipped (visible mask z) p i x) ps) y)
    end.
Proof.
  intros Hz Hm. revert b. induction ps as [|p t IH]; intros b Hb Hp.
  - exists b. split; [reflexivity|]. split; [auto|]. intros i Hi. destruct (nth i (visible mask z) None) as [x|]; auto. intros [|]; [congruence|auto].
  - cbn [snip_windows]. destruct (conv_ends mask z p) as (c & Ec & Lc & Nc); auto; [apply Hp; left; auto|]. rewrite Ec. cbn [rbind].
    destruct (IH (zip_min b c)) as (r & Er & Lr & Nr); [rewrite zip_length; lia|intros; apply Hp; right; auto|]. exists r. split; [exact Er|]. split; [exact Lr|].
    intros i Hi. specialize (Nr i Hi). specialize (Nc i Hi). rewrite zip_nth in Nr by lia. destruct (nth i (visible mask z) None) as [x|].
    + intros y Hy. rewrite Hy, Nc in Nr. apply Nr. reflexivity.
    + intros _. apply Nr. right. rewrite Nc. destruct (nth i b None); reflexivity.
Qed.
Lemma pass_lemma mask w z : (1 <= w)%nat -> z <> [] -> length mask = length z -> exists z', snip_windows mask z (down_from w) z = Ok z' /\ one_pass mask w z z'.
Proof.
  intros Hw Hz Hm. destruct (windows_lemma mask z (down_from w) z Hz Hm eq_refl (down_pos w)) as (r & Er & Lr & Nr). exists r. split; [exact Er|]. split; [exact Lr|].
  intros i Hi. specialize (Nr i Hi). pose proof (visible_nth mask z i Hi) as V. destruct (nth i (visible mask z) None) as [x|].
  - assert (Hx : nth i z None = Some x) by (destruct (nth i mask false); congruence). eexists. split; [apply Nr; exact Hx|].
    eapply lowest_perm; [|apply fold_min]. apply perm_skip. apply Permutation_map. apply down_perm.
  - apply Nr. left. destruct w; [lia|discriminate].
Qed.
Lemma rounds_lemma mask w k z : (1 <= w)%nat -> z <> [] -> length mask = length z -> exists r, snip_rounds mask w k z = Ok r /\ passes mask w k z r /\ length r = length z.
Proof.
  intros Hw. revert z. induction k as [|k IH]; intros z Hz Hm; [exists z; repeat split; constructor|].
  cbn [snip_rounds]. destruct (pass_lemma mask w z Hw Hz Hm) as (z' & E & P). rewrite E. cbn [rbind]. destruct P as [L P].
  assert (Hz' : z' <> []) by (intros ->; destruct z; [congruence|discriminate]).
  destruct (IH z') as (r & Er & Pr & Lr); [auto|congruence|]. exists r. split; [exact Er|]. split; [|congruence]. econstructor; [split; eauto|auto].
Qed.
(** the numbers stay between the bounds, never rise, and hidden values become NaNs *)
Lemma visible_in mask z x : In (Some x) (visible mask z) -> exists i, (i < length z)%nat /\ nth i (visible mask z) None = Some x.
Proof. intros H. apply (In_nth _ _ (None : cell)) in H. destruct H as (i & Hi & E). rewrite visible_length in Hi. eauto. Qed.
Lemma one_pass_inv mask w z z' m : z <> [] -> one_pass mask w z z' -> (forall c, In (Some c) (visible mask z) -> m <= c) ->
  (forall c, In (Some c) (visible mask z') -> m <= c) /\
  forall i, (i < length z)%nat -> match nth i (visible mask z) None with None => nth i (visible mask z') None = None | Some x => exists v, nth i (visible mask z') None = Some v /\ v <= x end.
Proof.
  intros Hz [L P] B.
  assert (Vz : visible mask z <> []) by (intros E; pose proof (visible_length mask z) as Lv; rewrite E in Lv; destruct z; [congruence|discriminate]).
  assert (Q : forall i, (i < length z)%nat -> match nth i (visible mask z) None with None => nth i (visible mask z') None = None | Some x => exists v, nth i (visible mask z') None = Some v /\ v <= x /\ m <= v end).
  { intros i Hi. specialize (P i Hi). rewrite (visible_nth mask z') by lia. pose proof (visible_nth mask z i Hi) as V.
    destruct (nth i (visible mask z) None) as [x|] eqn:E.
    - destruct P as (v & Ev & Lo1 & Lo2). exists v. assert (Hmk : nth i mask false = false) by (destruct (nth i mask false); congruence). rewrite Hmk. split; [exact Ev|]. split; [apply Lo2; left; auto|].
      assert (Bx : m <= x) by (apply B; rewrite <- E; apply nth_In; rewrite visible_length; auto).
      destruct Lo1 as [<-|Lo1]; [auto|]. apply in_map_iff in Lo1. destruct Lo1 as (p & <- & _). apply clipped_bounds; auto.
    - rewrite P. destruct (nth i mask false); reflexivity. }
  split.
  - intros c Hc. apply visible_in in Hc. destruct Hc as (i & Hi & E). rewrite L in Hi. specialize (Q i Hi). destruct (nth i (visible mask z) None).
    + destruct Q as (v & Ev & _ & Bv). congruence.
    + congruence.
  - intros i Hi. specialize (Q i Hi). destruct (nth i (visible mask z) None); auto. destruct Q as (v & A & C & _). eauto.
Qed.
Lemma passes_inv mask w k z r m : passes mask w k z r -> z <> [] -> (forall c, In (Some c) (visible mask z) -> m <= c) ->
  forall i, (i < length z)%nat -> match nth i (visible mask z) None with
    | None => (1 <= k)%nat -> nth i r None = None
    | Some x => exists v, nth i r None = Some v /\ v <= x /\ m <= v
    end.
Proof.
  intros P. assert (G : z <> [] -> (forall c, In (Some c) (visible mask z) -> m <= c) ->
    forall i, (i < length z)%nat -> match nth i (visible mask z) None with
    | None => (nth i z None = None \/ (1 <= k)%nat) -> nth i r None = None
    | Some x => exists v, nth i r None = Some v /\ v <= x /\ m <= v
    end).
  2: { intros Hz B i Hi. specialize (G Hz B i Hi). destruct (nth i (visible mask z) None); auto. }
  induction P as [z|k z z' r O P IH]; intros Hz B i Hi.
  - pose proof (visible_nth mask z i Hi) as V. destruct (nth i (visible mask z) None) as [x|] eqn:E.
    + exists x. split; [destruct (nth i mask false); congruence|]. split; [lra|]. apply B. rewrite <- E. apply nth_In. rewrite visible_length. auto.
    + intros [H|H]; [auto|lia].
  - destruct (one_pass_inv mask w z z' m Hz O B) as [B' Q]. destruct O as [L O].
    assert (Hz' : z' <> []) by (intros ->; destruct z; [congruence|discriminate]). specialize (IH Hz' B' i ltac:(lia)). specialize (Q i Hi). specialize (O i Hi).
    destruct (nth i (visible mask z) None) as [x|] eqn:E.
    + destruct Q as (v & Ev & Lv). rewrite Ev in IH. destruct IH as (u & Eu & Lu & Bu). exists u. split; [auto|]. split; [lra|auto].
    + intros _. rewrite Q in IH. apply IH. left. exact O.
Qed.

(** ** the scaling *)
Lemma sqrt1_pos y lo : lo <= y -> 0 <= sqrt (y - lo) /\ 0 <= ln (sqrt (y - lo) + 1).
Proof.
  intros H. pose proof (sqrt_pos (y - lo)). split; auto. rewrite <- ln_1. destruct (Req_dec (sqrt (y - lo)) 0) as [E|E]; [rewrite E, Rplus_0_l; lra|]. left. apply ln_increasing; lra.
Qed.
Lemma scale_down_pos y lo : lo <= y -> 0 <= scale_down y lo.
Proof. intros H. destruct (sqrt1_pos y lo H) as [_ K]. unfold scale_down. destruct (Req_dec (ln (sqrt (y - lo) + 1)) 0) as [E|E]; [rewrite E, Rplus_0_l, ln_1; lra|]. left. rewrite <- ln_1. apply ln_increasing; lra. Qed.
Lemma scale_up_down y lo : lo <= y -> scale_up (scale_down y lo) lo = y.
Proof.
  intros H. destruct (sqrt1_pos y lo H) as [K1 K2]. unfold scale_up, scale_down. rewrite exp_ln by lra.
  replace (ln (sqrt (y - lo) + 1) + 1 - 1) with (ln (sqrt (y - lo) + 1)) by ring. rewrite exp_ln by lra. replace (sqrt (y - lo) + 1 - 1) with (sqrt (y - lo)) by ring. rewrite sqrt_sqrt by lra. ring.
Qed.
Lemma exp_le a b : a <= b -> exp a <= exp b.
Proof. intros [H|H]; [left; apply exp_increasing; auto|subst; lra]. Qed.
Lemma ln_le a b : 0 < a -> a <= b -> ln a <= ln b.
Proof. intros Ha [H|H]; [left; apply ln_increasing; auto|subst; lra]. Qed.
Lemma scale_up_mono a b lo : 0 <= a -> a <= b -> scale_up a lo <= scale_up b lo.
Proof.
  intros Ha Hb. unfold scale_up. pose proof (exp_le 0 a Ha) as E. rewrite exp_0 in E. pose proof (exp_le a b Hb) as F.
  assert (G : exp 0 <= exp (exp a - 1)) by (apply exp_le; lra). rewrite exp_0 in G. assert (G2 : exp (exp a - 1) <= exp (exp b - 1)) by (apply exp_le; lra). nra.
Qed.
Lemma scale_down_mono a b lo : lo <= a -> a <= b -> scale_down a lo <= scale_down b lo.
Proof.
  intros Ha Hb. unfold scale_down. destruct (sqrt1_pos a lo Ha) as [A1 A2]. assert (S1 : sqrt (a - lo) <= sqrt (b - lo)) by (apply sqrt_le_1_alt; lra).
  apply ln_le; [lra|]. apply Rplus_le_compat_r. apply ln_le; lra.
Qed.

(** ** one row *)
Lemma below_hidden t c : below t c = true <-> c <> None /\ hidden t c.
Proof.
  unfold below, hidden. destruct t as [t|], c as [x|].
  - rewrite rle_iff. split; [intros H; split; [discriminate|auto]|intros [_ H]; auto].
  - split; [discriminate|intros [H _]; congruence].
  - split; [discriminate|intros [_ []]].
  - split; [discriminate|intros [H _]; congruence].
Qed.
Lemma omap_nth f (l : list cell) i : nth i (map (omap f) l) (None : cell) = omap f (nth i l None).
Proof. apply (map_nth (omap f) l (None : cell)). Qed.
Definition scaled (lo : R) (row : list cell) : list cell := map (omap (fun x => scale_down x lo)) row.
Lemma row_visible t lo (row : list cell) i : (i < length row)%nat ->
  nth i (visible (map (below t) row) (scaled lo row)) None = if below t (nth i row None) then None else omap (fun x => scale_down x lo) (nth i row None).
Proof.
  intros H. rewrite visible_nth by (unfold scaled; rewrite map_length; auto).
  rewrite (@map_nth_lt cell bool (below t) row i false None) by auto. unfold scaled. rewrite omap_nth. reflexivity.
Qed.
Lemma forallb_all (l : list bool) : forallb (fun b => b) l = true <-> forall i, (i < length l)%nat -> nth i l false = true.
Proof.
  rewrite forallb_forall. split.
  - intros H i Hi. apply H. apply nth_In. auto.
  - intros H b Hb. apply (In_nth _ _ false) in Hb. destruct Hb as (i & Hi & <-). auto.
Qed.
Lemma row_lemma w k t lo (row : list cell) : (1 <= w)%nat -> (1 <= k)%nat -> row <> [] -> (forall x, In (Some x) row -> lo <= x) ->
  exists r, snip_row w k lo (scaled lo row) (map (below t) row) = Ok r /\ length r = length row /\
  ((exists i, (i < length row)%nat /\ below t (nth i row None) = false) ->
   exists z, passes (map (below t) row) w k (scaled lo row) z /\ r = map (omap (fun x => scale_up x lo)) z) /\
  forall i, (i < length row)%nat ->
    (hidden t (nth i row None) -> nth i r None = None) /\
    (forall x, nth i row None = Some x -> ~ hidden t (Some x) -> exists v, nth i r None = Some v /\ v <= x /\
       forall a, lo <= a -> (forall y, In (Some y) row -> ~ hidden t (Some y) -> a <= y) -> a <= v).
Proof.
  intros Hw Hk Hr Hlo. set (mask := map (below t) row). set (z := scaled lo row).
  assert (Lz : length z = length row) by (unfold z, scaled; rewrite map_length; reflexivity). assert (Lm : length mask = length row) by (unfold mask; rewrite map_length; reflexivity).
  assert (Hz : z <> []) by (intros E; rewrite E in Lz; destruct row; [congruence|discriminate]).
  assert (Mn : forall i, (i < length row)%nat -> nth i mask false = below t (nth i row None)) by (intros i Hi; unfold mask; apply (@map_nth_lt cell bool (below t)); auto).
  unfold snip_row. destruct (forallb (fun b => b) mask) eqn:A.
  - pose proof (proj1 (forallb_all mask) A) as A'. eexists. split; [reflexivity|]. split; [rewrite map_length; auto|]. split.
    { intros (i & Hi & E). rewrite Lm in A'. specialize (A' i Hi). rewrite Mn in A' by auto. congruence. }
    intros i Hi. split.
    + intros _. rewrite (@map_nth_lt cell cell _ z i None None) by lia. reflexivity.
    + intros x Hx Nh. exfalso. apply Nh. specialize (A' i ltac:(lia)). rewrite Mn in A' by auto. apply below_hidden in A'. rewrite Hx in A'. tauto.
  - destruct (rounds_lemma mask w k z Hw Hz ltac:(lia)) as (r & Er & P & Lr). rewrite Er. cbn [rbind].
    eexists. split; [reflexivity|]. split; [rewrite map_length; lia|]. split; [intros _; eauto|].
    assert (Vin : forall c a, (forall y, In (Some y) row -> ~ hidden t (Some y) -> a <= y) -> lo <= a -> In (Some c) (visible mask z) -> scale_down a lo <= c).
    { intros c a Ha La Hc. apply visible_in in Hc. destruct Hc as (j & Hj & E). unfold mask, z in E. rewrite row_visible in E by lia.
      destruct (below t (nth j row None)) eqn:Bj; [discriminate|]. destruct (nth j row None) as [y|] eqn:Ey; [|discriminate]. injection E as <-.
      apply scale_down_mono; auto. apply Ha; [rewrite <- Ey; apply nth_In; lia|]. intros Hh. assert (below t (Some y) = true) by (apply below_hidden; split; [discriminate|auto]). congruence. }
    intros i Hi. rewrite omap_nth. split.
    + intros Hh. assert (E : nth i (visible mask z) None = None).
      { unfold mask, z. rewrite row_visible by auto. destruct (nth i row None) as [x|] eqn:Ex; [|destruct (below t None); reflexivity].
        replace (below t (Some x)) with true; [reflexivity|]. symmetry. apply below_hidden. split; [discriminate|auto]. }
      assert (B0 : forall c, In (Some c) (visible mask z) -> scale_down lo lo <= c) by (intros c Hc; apply Vin; auto; lra).
      pose proof (passes_inv mask w k z r (scale_down lo lo) P Hz B0 i ltac:(lia)) as Q. rewrite E in Q. rewrite Q by auto. reflexivity.
    + intros x Hx Nh. assert (E : nth i (visible mask z) None = Some (scale_down x lo)).
      { unfold mask, z. rewrite row_visible by auto. rewrite Hx. destruct (below t (Some x)) eqn:B; [apply below_hidden in B; tauto|reflexivity]. }
      assert (Lx : lo <= x) by (apply Hlo; rewrite <- Hx; apply nth_In; auto).
      assert (Q : forall a, lo <= a -> (forall y, In (Some y) row -> ~ hidden t (Some y) -> a <= y) -> exists v, nth i r None = Some v /\ v <= scale_down x lo /\ scale_down a lo <= v).
      { intros a La Ha. pose proof (passes_inv mask w k z r (scale_down a lo) P Hz (fun c => Vin c a Ha La) i ltac:(lia)) as Q. rewrite E in Q. exact Q. }
      destruct (Q lo ltac:(lra)) as (v & Ev & Lv & Pv); [intros; apply Hlo; auto|]. pose proof (scale_down_pos lo lo ltac:(lra)) as P0.
      exists (scale_up v lo). rewrite Ev. split; [reflexivity|]. split.
      * rewrite <- (scale_up_down x lo Lx). apply scale_up_mono; lra.
      * intros a La Ha. destruct (Q a La Ha) as (v' & Ev' & _ & Pv'). rewrite Ev in Ev'. injection Ev' as <-.
        rewrite <- (scale_up_down a lo La). apply scale_up_mono; auto. apply scale_down_pos. auto.
Qed.

(** ** the image *)
Lemma nan_min_lemma l : match nan_min l with
  | None => forall c, In c l -> c = None
  | Some lo => In (Some lo) l /\ forall x, In (Some x) l -> lo <= x
  end.
Proof.
  induction l as [|c t IH]; cbn [nan_min]; [intros ? []|]. destruct c as [x|].
  - destruct (nan_min t) as [y|].
    + destruct IH as [I1 I2]. split.
      * unfold Rmin. destruct (Rle_dec x y); [left; auto|right; auto].
      * intros u [H|H]; [injection H as <-; apply Rmin_l|]. pose proof (I2 u H). pose proof (Rmin_r x y). lra.
    + split; [left; auto|]. intros u [H|H]; [injection H as <-; lra|]. apply IH in H. discriminate.
  - destruct (nan_min t) as [y|].
    + destruct IH as [I1 I2]. split; [right; auto|]. intros u [H|H]; [discriminate|auto].
    + intros c [<-|H]; auto.
Qed.
Lemma set_nth_nth {A} k (v : A) l j d : nth j (set_nth k v l) d = if (j =? k)%nat && (k <? length l)%nat then v else nth j l d.
Proof.
  revert k j. induction l as [|x t IH]; intros k j.
  - replace (set_nth k v []) with (@nil A) by (destruct k; reflexivity). cbn [length]. rewrite andb_false_r. reflexivity.
  - destruct k as [|k]; destruct j as [|j]; cbn [set_nth nth]; try reflexivity. rewrite IH. reflexivity.
Qed.
Lemma set_nth_len {A} k (v : A) l : length (set_nth k v l) = length l.
Proof. revert k. induction l as [|x t IH]; intros [|k]; cbn [set_nth length]; auto. Qed.
Lemma write_rows_nth rows order im j : (j < length im)%nat -> nth j (write_rows rows order im) [] = if existsb (Nat.eqb j) order then nth j rows [] else nth j im [].
Proof.
  revert im. induction order as [|k t IH]; intros im Hj; [reflexivity|]. cbn [write_rows existsb]. unfold write. rewrite IH by (rewrite set_nth_len; auto). rewrite set_nth_nth.
  destruct (Nat.eqb_spec j k) as [->|E]; cbn [orb andb]; [|reflexivity]. rewrite (proj2 (Nat.ltb_lt _ _)) by auto. destruct (existsb _ t); reflexivity.
Qed.
Lemma write_rows_len rows order im : length (write_rows rows order im) = length im.
Proof. revert im. induction order as [|k t IH]; intros im; [reflexivity|]. cbn [write_rows]. rewrite IH. apply set_nth_len. Qed.
Lemma write_rows_all rows order im : length rows = length im -> (forall j, (j < length rows)%nat -> In j order) -> write_rows rows order im = rows.
Proof.
  intros L H. apply nth_ext with (d := []) (d' := []); [rewrite write_rows_len; auto|]. rewrite write_rows_len. intros j Hj. rewrite write_rows_nth by auto.
  replace (existsb (Nat.eqb j) order) with true; [reflexivity|]. symmetry. apply existsb_exists. exists j. split; [apply H; lia|apply Nat.eqb_refl].
Qed.
