From Verif Require Import Prelude OmegaModel OmegaSpec.
From Coq Require Import QArith Qabs Qround Lqa Qfield.
Open Scope Q_scope.

Lemma Qltb_true x y : Qltb x y = true <-> x < y.
Proof.
  unfold Qltb. rewrite negb_true_iff. split; intros H.
  - apply Qnot_le_lt. intros L. apply Qle_bool_iff in L. congruence.
  - destruct (Qle_bool y x) eqn:E; auto. apply Qle_bool_iff in E. lra.
Qed.
Lemma Qltb_false x y : Qltb x y = false <-> y <= x.
Proof. unfold Qltb. rewrite negb_false_iff. apply Qle_bool_iff. Qed.

(** ** [_make_wedges] *)
Definition seg (om : omarr) (s e : nat) : Prop :=
  (s < e)%nat /\ (forall g, (s < g < e)%nat -> continues om s g) /\
  ((s + 1 < length om)%nat -> 0 < width om s).

Fixpoint segs (om : omarr) (s : nat) (more : list nat) : Prop :=
  match more with
  | [] => seg om s (length om)
  | e :: t => (e < length om)%nat /\ seg om s e /\ ~ continues om s e /\ segs om e t
  end.

Lemma om_at_app pre x t : om_at (pre ++ x :: t) (length pre) = x.
Proof. unfold om_at. rewrite app_nth2, Nat.sub_diag by lia. reflexivity. Qed.

Lemma break_test om s f a b delta omlast :
  om_at om f = (a, b) -> delta = width om s -> omlast = snd (om_at om (f - 1)) ->
  (Qltb tol (Qabs (b - a - delta)) || Qltb tol (Qabs (a - omlast)))%bool = false <-> continues om s f.
Proof.
  intros Hf -> ->. rewrite orb_false_iff, !Qltb_false. unfold continues, width, tol. rewrite Hf. reflexivity.
Qed.

Lemma wedge_loop_spec fs : forall om pre f s delta omlast acc res,
  om = pre ++ fs -> f = length pre -> (s < f)%nat ->
  delta = width om s -> omlast = snd (om_at om (f - 1)) ->
  (forall g, (s < g < f)%nat -> continues om s g) ->
  ((s + 1 < f)%nat -> 0 < width om s) ->
  wedge_loop fs f delta omlast acc = Ok res ->
  exists more, res = acc ++ more /\ segs om s more.
Proof.
  induction fs as [|[a b] t IH]; intros om pre f s delta omlast acc res Hom Hf Hs Hd Hl Hc Hp H; cbn [wedge_loop] in H.
  - injection H as <-. exists []. rewrite app_nil_r. split; auto. cbn.
    assert (length om = f) by (rewrite Hom, app_nil_r; auto).
    rewrite H. split; [|split]; auto. rewrite H; auto.
  - destruct (Qle_bool delta 0) eqn:Ed; [discriminate|].
    assert (Hpos : 0 < width om s).
    { rewrite <- Hd. apply Qnot_le_lt. intros L. apply Qle_bool_iff in L. congruence. }
    assert (Hat : om_at om f = (a, b)) by (rewrite Hom, Hf; apply om_at_app).
    assert (Hom' : om = (pre ++ [(a, b)]) ++ t) by (rewrite <- app_assoc; exact Hom).
    assert (Hlen : length (pre ++ [(a, b)]) = S f) by (rewrite app_length; cbn; lia).
    assert (Hlt : (f < length om)%nat) by (rewrite Hom, app_length; cbn; lia).
    assert (Hb : b = snd (om_at om (S f - 1))).
    { replace (S f - 1)%nat with f by lia. rewrite Hat. reflexivity. }
    destruct (Qltb tol (Qabs (b - a - delta)) || Qltb tol (Qabs (a - omlast)))%bool eqn:Eb.
    + assert (Hnc : ~ continues om s f).
      { intros C. apply (break_test om s f a b delta omlast) in C; auto. congruence. }
      destruct (IH om (pre ++ [(a, b)]) (S f) f (b - a) b (acc ++ [f]) res) as (more & E & S'); auto; try (intros; lia).
      * unfold width. rewrite Hat. reflexivity.
      * exists (f :: more). split; [rewrite E, <- app_assoc; reflexivity|].
        cbn [segs]. unfold seg. repeat split; auto; apply Hc; auto.
    + apply (break_test om s f a b delta omlast) in Eb; auto.
      destruct (IH om (pre ++ [(a, b)]) (S f) s delta b acc res) as (more & E & S'); auto; try lia.
      * intros g Hg. destruct (Nat.eq_dec g f); [subst g; auto|apply Hc; lia].
      * exists more; auto.
Qed.

(** What each wedge of the result satisfies. *)
Definition wedge_ok (om : omarr) (w : wedge) : Prop :=
  (0 < w_n w)%nat /\ (w_f0 w + w_n w <= length om)%nat /\
  w_start w = fst (om_at om (w_f0 w)) /\ w_stop w = snd (om_at om (w_f0 w + w_n w - 1)) /\
  w_delta w = (w_stop w - w_start w) / inject_Z (Z.of_nat (w_n w)) /\
  (forall g, (w_f0 w < g < w_f0 w + w_n w)%nat -> continues om (w_f0 w) g) /\
  ((w_f0 w + w_n w < length om)%nat -> ~ continues om (w_f0 w) (w_f0 w + w_n w)) /\
  ((w_f0 w + 1 < length om)%nat -> 0 < width om (w_f0 w)).

Lemma wedge_build_cons om nf0 s e t : wedge_build om nf0 (s :: e :: t) =
  {| w_start := fst (om_at om s); w_stop := snd (om_at om (e - 1));
     w_delta := (snd (om_at om (e - 1)) - fst (om_at om s)) / inject_Z (Z.of_nat (e - s));
     w_f0 := nf0; w_n := (e - s)%nat |} :: wedge_build om (nf0 + (e - s)) (e :: t).
Proof. reflexivity. Qed.

Lemma wedge_build_spec om : forall more s, segs om s more ->
  let ws := wedge_build om s ((s :: more) ++ [length om]) in
  Forall (wedge_ok om) ws /\ flat_map w_frames ws = seq s (length om - s) /\
  list_sum (map w_n ws) = (length om - s)%nat /\ length ws = S (length more).
Proof.
  induction more as [|e t IH]; intros s H.
  - cbn in H. destruct H as (H1 & H2 & H3). cbn. unfold w_frames. cbn [w_f0 w_n]. rewrite app_nil_r.
    split; [|split; [auto|split; [lia|auto]]]. constructor; [|constructor]. unfold wedge_ok; cbn [w_start w_stop w_delta w_f0 w_n].
    replace (s + (length om - s))%nat with (length om) by lia.
    repeat split; auto; try lia; apply H2; auto.
  - cbn in H. destruct H as (He & (H1 & H2 & H3) & Hn & Hs). specialize (IH e Hs). cbn zeta in IH.
    cbn [app] in *. rewrite wedge_build_cons.
    replace (s + (e - s))%nat with e by lia. destruct IH as (I1 & I2 & I3 & I4).
    cbn zeta. split; [|split; [|split]].
    + constructor; auto. unfold wedge_ok; cbn [w_start w_stop w_delta w_f0 w_n].
      replace (s + (e - s))%nat with e by lia. repeat split; auto; try lia; apply H2; auto.
    + cbn [flat_map]. rewrite I2. unfold w_frames at 1. cbn [w_f0 w_n].
      replace (length om - s)%nat with ((e - s) + (length om - e))%nat by lia.
      rewrite seq_app. f_equal. f_equal. lia.
    + cbn [map list_sum fold_right w_n]. unfold list_sum in I3. rewrite I3. lia.
    + cbn [length]. f_equal. exact I4.
Qed.

Lemma make_wedges_inv om ws : make_wedges om = Ok ws ->
  Forall (wedge_ok om) ws /\ flat_map w_frames ws = seq 0 (length om) /\ om <> [].
Proof.
  destruct om as [|[a b] rest]; [discriminate|]. unfold make_wedges.
  destruct (wedge_loop rest 1 (b - a) b [0%nat]) as [starts|] eqn:E; [|discriminate]. cbn [rbind].
  eapply (wedge_loop_spec rest ((a, b) :: rest) [(a, b)] 1 0) in E; auto; try (intros; lia).
  destruct E as (more & -> & S').
  pose proof (wedge_build_spec _ _ _ S') as (H1 & H2 & H3 & H4).
  cbn [app] in *. rewrite H3, Nat.sub_0_r, Nat.eqb_refl in *.
  intros H. injection H as <-. split; [|split]; auto; discriminate.
Qed.

(** Acceptance: the loop succeeds when every width is positive. *)
Lemma wedge_loop_ok fs : forall f delta omlast acc,
  0 < delta -> Forall (fun r => fst r < snd r) fs -> exists res, wedge_loop fs f delta omlast acc = Ok res.
Proof.
  induction fs as [|[a b] t IH]; intros f delta omlast acc Hd Hf; cbn [wedge_loop]; [eauto|].
  inversion Hf; subst. cbn in H1.
  destruct (Qle_bool delta 0) eqn:E; [apply Qle_bool_iff in E; lra|].
  destruct (_ || _)%bool; apply IH; auto. lra.
Qed.

Lemma make_wedges_accepts om : om <> [] -> Forall (fun r => fst r < snd r) om -> exists ws, make_wedges om = Ok ws.
Proof.
  destruct om as [|[a b] rest]; intros Hn Hf; [congruence|]. inversion Hf; subst. cbn in H1.
  unfold make_wedges.
  destruct (wedge_loop_ok rest 1 (b - a) b [0%nat]) as [starts E]; auto; [lra|]. rewrite E. cbn [rbind].
  eapply (wedge_loop_spec rest ((a, b) :: rest) [(a, b)] 1 0) in E; auto; try (intros; lia).
  destruct E as (more & -> & S').
  pose proof (wedge_build_spec _ _ _ S') as (H3 & H4 & H5 & H6).
  cbn [app] in *. rewrite H5, Nat.sub_0_r, Nat.eqb_refl. eauto.
Qed.

Lemma flat_map_in_wedge ws f n : flat_map w_frames ws = seq 0 n -> (f < n)%nat ->
  exists w, In w ws /\ (w_f0 w <= f < w_f0 w + w_n w)%nat.
Proof.
  intros H Hf. assert (Hin : In f (flat_map w_frames ws)) by (rewrite H; apply in_seq; lia).
  apply in_flat_map in Hin. destruct Hin as (w & Hw & Hi). exists w. split; auto.
  apply in_seq in Hi. lia.
Qed.

(** Rejection: a frame that clearly decreases and is not the last one. *)
Lemma make_wedges_rejects om f : (f + 1 < length om)%nat -> width om f < - tol ->
  make_wedges om = Err OmegaSeriesError.
Proof.
  intros Hf Hw. destruct (make_wedges om) as [ws|e] eqn:E.
  - exfalso. destruct (make_wedges_inv _ _ E) as (H1 & H2 & H3).
    destruct (flat_map_in_wedge ws f (length om)) as (w & Hin & Hr); auto; try lia.
    rewrite Forall_forall in H1. destruct (H1 w Hin) as (K1 & K2 & K3 & K4 & K5 & K6 & K7 & K8).
    assert (0 < width om (w_f0 w)) by (apply K8; lia). unfold tol in Hw.
    destruct (Nat.eq_dec (w_f0 w) f) as [Hq|Hne]; [rewrite Hq in *; lra|].
    destruct (K6 f) as [C _]; [lia|]. apply Qabs_Qle_condition in C. lra.
  - destruct om as [|[a b] rest]; [cbn in Hf; lia|]. unfold make_wedges in E.
    assert (G : forall fs f d o acc r, wedge_loop fs f d o acc = Err r -> r = OmegaSeriesError).
    { induction fs as [|[x y] t IH]; cbn [wedge_loop]; intros f' d o acc r H; [discriminate|].
      destruct (Qle_bool d 0); [congruence|]. destruct (_ || _)%bool; eauto. }
    destruct (wedge_loop rest 1 (b - a) b [0%nat]) as [starts|e'] eqn:E'; cbn [rbind] in E.
    + eapply (wedge_loop_spec rest ((a, b) :: rest) [(a, b)] 1 0) in E'; auto; try (intros; lia).
      destruct E' as (more & -> & S').
      pose proof (wedge_build_spec _ _ _ S') as (H3 & H4 & H5 & H6).
      cbn [app] in *. rewrite H5, Nat.sub_0_r, Nat.eqb_refl in E. discriminate.
    + apply G in E'. congruence.
Qed.

(** ** [omega_to_frame] *)
Lemma qmod_range x : 0 <= qmod x TAU < TAU.
Proof.
  unfold qmod, TAU. pose proof (Qfloor_le (x / 360)) as H1. pose proof (Qlt_floor (x / 360)) as H2.
  rewrite inject_Z_plus in H2. set (k := inject_Z (Qfloor (x / 360))) in *.
  change (inject_Z 1) with 1 in H2.
  assert (E : x == 360 * (x / 360)) by field. split; lra.
Qed.

Lemma qmod_congr x : x - qmod x TAU == 360 * inject_Z (Qfloor (x / 360)).
Proof. unfold qmod, TAU. ring. Qed.

Lemma qmod_least x (k : Z) : 0 <= x + 360 * inject_Z k -> qmod x TAU <= x + 360 * inject_Z k.
Proof.
  intros H. pose proof (qmod_congr x) as C. pose proof (qmod_range x) as R. unfold TAU in *.
  destruct (Z_le_gt_dec (- Qfloor (x / 360)) k) as [L|G].
  - rewrite Zle_Qle in L. rewrite inject_Z_opp in L. unfold TAU in C. lra.
  - assert (L : (k <= - Qfloor (x / 360) - 1)%Z) by lia. rewrite Zle_Qle in L.
    unfold Z.sub in L. rewrite inject_Z_plus, !inject_Z_opp in L. change (inject_Z 1) with 1 in L. lra.
Qed.

Lemma inject_pos n : (0 < n)%nat -> 0 < inject_Z (Z.of_nat n).
Proof. intros H. change 0 with (inject_Z 0). rewrite <- Zlt_Qlt. lia. Qed.

Lemma wedge_test w om :
  w_start w + qmod (om - w_start w) TAU < w_stop w <-> inside (w_start w) (w_stop w) om.
Proof.
  pose proof (qmod_congr (om - w_start w)) as C. pose proof (qmod_range (om - w_start w)) as R.
  unfold inside. split.
  - intros H. exists (- Qfloor ((om - w_start w) / 360))%Z. rewrite inject_Z_opp. unfold TAU in *. lra.
  - intros (k & H1 & H2). pose proof (qmod_least (om - w_start w) k) as L. unfold TAU in *. lra.
Qed.

(** position of the angle inside a wedge with [n] equal steps *)
Lemma floor_step a b n d x : (0 < n)%nat -> d = (b - a) / inject_Z (Z.of_nat n) -> a <= x < b ->
  let i := Qfloor ((x - a) / d) in
  (0 <= i < Z.of_nat n)%Z /\ a + inject_Z i * d <= x < a + inject_Z (i + 1) * d.
Proof.
  intros Hn -> [H1 H2] i. pose proof (inject_pos n Hn) as Hp. set (N := inject_Z (Z.of_nat n)) in *.
  set (d := (b - a) / N) in *.
  assert (Hd : 0 < d). { unfold d. apply Qlt_shift_div_l; lra. }
  assert (HNd : N * d == b - a). { unfold d. field. lra. }
  pose proof (Qfloor_le ((x - a) / d)) as F1. pose proof (Qlt_floor ((x - a) / d)) as F2. fold i in F1, F2.
  set (q := (x - a) / d) in *. assert (Hq : q * d == x - a). { unfold q. field. lra. }
  assert (F1' : inject_Z i * d <= q * d) by (apply Qmult_le_compat_r; lra).
  assert (F2' : q * d < inject_Z (i + 1) * d) by (apply Qmult_lt_compat_r; lra).
  split; [|split; lra].
  split.
  - apply Z.lt_succ_r. unfold Z.succ. rewrite Zlt_Qlt. apply (Qmult_lt_r _ _ d); auto. change (inject_Z 0) with 0. lra.
  - rewrite Zlt_Qlt. fold N. apply (Qmult_lt_r _ _ d); auto. lra.
Qed.

Lemma o2f_spec om ws : Forall (wedge_ok om) ws -> forall x i f wi, (0 <= i)%Z ->
  omega_to_frame_from i ws x = (f, wi) ->
  ((f, wi) = ((-1)%Z, (-1)%Z) /\ (forall w, In w ws -> ~ inside (w_start w) (w_stop w) x)) \/
  (exists n w, wi = (i + Z.of_nat n)%Z /\ nth_error ws n = Some w /\
     (forall w', In w' (firstn n ws) -> ~ inside (w_start w') (w_stop w') x) /\
     exists k j, w_start w <= x + 360 * inject_Z k < w_stop w /\
       f = (Z.of_nat (w_f0 w) + Z.of_nat j)%Z /\ (j < w_n w)%nat /\
       w_start w + inject_Z (Z.of_nat j) * w_delta w <= x + 360 * inject_Z k
         < w_start w + inject_Z (Z.of_nat j + 1) * w_delta w).
Proof.
  induction ws as [|w t IH]; intros HF x i f wi Hi H; cbn [omega_to_frame_from] in H.
  - injection H as <- <-. left. split; auto.
  - inversion HF; subst. destruct (Qltb _ _) eqn:E.
    + right. injection H as <- <-. apply Qltb_true in E. exists 0%nat, w. rewrite Z.add_0_r.
      split; [reflexivity|split; [reflexivity|split; [intros w' []|]]].
      pose proof (qmod_range (x - w_start w)) as R. pose proof (qmod_congr (x - w_start w)) as C.
      destruct H2 as (K1 & K2 & K3 & K4 & K5 & K6 & K7 & K8).
      destruct (floor_step (w_start w) (w_stop w) (w_n w) (w_delta w)
                  (w_start w + qmod (x - w_start w) TAU)) as (F1 & F2); auto; [lra|].
      set (q := Qfloor ((w_start w + qmod (x - w_start w) TAU - w_start w) / w_delta w)) in *. exists (- Qfloor ((x - w_start w) / 360))%Z, (Z.to_nat q).
      rewrite inject_Z_opp. rewrite !Z2Nat.id by lia. unfold TAU in *.
      split; [lra|]. split; [reflexivity|]. split; [lia|]. lra.
    + apply Qltb_false in E. assert (Hw : ~ inside (w_start w) (w_stop w) x).
      { rewrite <- wedge_test. lra. }
      destruct (IH H3 x (i + 1)%Z f wi) as [[K1 K2]|(n & w' & E1 & E2 & E3 & E4)]; auto; try lia.
      * left. split; auto. intros w' [<-|Hin]; auto.
      * right. exists (S n), w'. split; [lia|]. split; auto. split; auto.
        intros w'' [<-|Hin]; auto.
Qed.

Lemma omega_to_frame_lemma om ws x f wi : make_wedges om = Ok ws -> omega_to_frame ws x = (f, wi) ->
  ((f, wi) = ((-1)%Z, (-1)%Z) /\ (forall w, In w ws -> ~ inside (w_start w) (w_stop w) x)) \/
  (exists n w, wi = Z.of_nat n /\ nth_error ws n = Some w /\
     (forall w', In w' (firstn n ws) -> ~ inside (w_start w') (w_stop w') x) /\
     exists k j, w_start w <= x + 360 * inject_Z k < w_stop w /\
       f = (Z.of_nat (w_f0 w) + Z.of_nat j)%Z /\ (j < w_n w)%nat /\
       w_start w + inject_Z (Z.of_nat j) * w_delta w <= x + 360 * inject_Z k
         < w_start w + inject_Z (Z.of_nat j + 1) * w_delta w).
Proof.
  intros H E. destruct (make_wedges_inv _ _ H) as (H1 & H2 & H3).
  destruct (o2f_spec om ws H1 x 0%Z f wi) as [K|K]; auto; try lia.
Qed.

Lemma omega_to_frame_found om ws x f wi : make_wedges om = Ok ws -> omega_to_frame ws x = (f, wi) ->
  (wi <> -1)%Z ->
  exists n w, wi = Z.of_nat n /\ nth_error ws n = Some w /\
     (forall w', In w' (firstn n ws) -> ~ inside (w_start w') (w_stop w') x) /\
     exists k j, w_start w <= x + 360 * inject_Z k < w_stop w /\
       f = (Z.of_nat (w_f0 w) + Z.of_nat j)%Z /\ (j < w_n w)%nat /\
       w_start w + inject_Z (Z.of_nat j) * w_delta w <= x + 360 * inject_Z k
         < w_start w + inject_Z (Z.of_nat j + 1) * w_delta w.
Proof. intros H E Hne. destruct (omega_to_frame_lemma _ _ _ _ _ H E) as [[K _]|K]; auto. congruence. Qed.

Lemma omega_to_frame_none om ws x : make_wedges om = Ok ws ->
  (omega_to_frame ws x = ((-1)%Z, (-1)%Z) <-> (forall w, In w ws -> ~ inside (w_start w) (w_stop w) x)).
Proof.
  intros H. destruct (omega_to_frame ws x) as [f wi] eqn:E.
  destruct (omega_to_frame_lemma _ _ _ _ _ H E) as [[K1 K2]|(n & w & E1 & E2 & E3 & k & j & E4 & _)].
  - split; auto.
  - split; intros Q.
    + injection Q as -> ->. lia.
    + exfalso. apply (Q w). { eapply nth_error_In; eauto. } exists k; auto.
Qed.

(** Angular drift inside a wedge: after [i] frames the array can be off the
    first-frame extrapolation by at most 2 i tolerances. *)
Lemma Qabs_cond x y : Qabs x <= y <-> - y <= x <= y.
Proof. apply Qabs_Qle_condition. Qed.

Lemma drift om s n : (forall g, (s < g < s + n)%nat -> continues om s g) ->
  forall i, (i < n)%nat ->
  Qabs (fst (om_at om (s + i)) - (fst (om_at om s) + inject_Z (Z.of_nat i) * width om s))
    <= inject_Z (Z.of_nat (2 * i)) * tol /\
  Qabs (snd (om_at om (s + i)) - (fst (om_at om s) + inject_Z (Z.of_nat i + 1) * width om s))
    <= inject_Z (Z.of_nat (2 * i + 1)) * tol.
Proof.
  intros Hc. induction i as [|i IH]; intros Hi.
  - rewrite Nat.add_0_r. unfold width, tol. change (inject_Z (Z.of_nat 0)) with 0. change (inject_Z (Z.of_nat 0 + 1)) with 1.
    change (inject_Z (Z.of_nat (2 * 0))) with 0. change (inject_Z (Z.of_nat (2 * 0 + 1))) with 1. rewrite !Qabs_cond. lra.
  - destruct IH as [I1 I2]; [lia|]. destruct (Hc (s + S i)%nat) as [C1 C2]; [lia|].
    replace (s + S i - 1)%nat with (s + i)%nat in C2 by lia. unfold tol in *.
    rewrite Qabs_cond in *.
    replace (Z.of_nat (S i)) with (Z.of_nat i + 1)%Z by lia.
    replace (Z.of_nat (2 * S i)) with (2 * Z.of_nat i + 2)%Z by lia.
    replace (Z.of_nat (2 * S i + 1)) with (2 * Z.of_nat i + 3)%Z by lia.
    replace (Z.of_nat (2 * i + 1)) with (2 * Z.of_nat i + 1)%Z in I2 by lia.
    replace (Z.of_nat i + 1 + 1)%Z with (Z.of_nat i + 2)%Z by lia.
    rewrite !inject_Z_plus, !inject_Z_mult in *.
    change (inject_Z 1) with 1 in *. change (inject_Z 2) with 2 in *. change (inject_Z 3) with 3 in *.
    assert (W : snd (om_at om (s + S i)) == fst (om_at om (s + S i)) + width om (s + S i)) by (unfold width; ring).
    set (A := fst (om_at om (s + S i))) in *. set (B := snd (om_at om (s + S i))) in *.
    set (C := snd (om_at om (s + i))) in *. set (D := fst (om_at om s)) in *.
    set (n' := inject_Z (Z.of_nat i)) in *. set (W1 := width om (s + S i)) in *. set (W0 := width om s) in *.
    rewrite Qabs_cond. split; lra.
Qed.

Lemma w_delta_drift om w : wedge_ok om w ->
  Qabs (w_delta w - width om (w_f0 w)) <= 2 * tol.
Proof.
  intros (K1 & K2 & K3 & K4 & K5 & K6 & K7 & K8).
  destruct (drift om (w_f0 w) (w_n w) K6 (w_n w - 1)) as [_ D]; [lia|].
  replace (w_f0 w + (w_n w - 1))%nat with (w_f0 w + w_n w - 1)%nat in D by lia.
  rewrite <- K4, <- K3 in D. replace (Z.of_nat (w_n w - 1) + 1)%Z with (Z.of_nat (w_n w)) in D by lia.
  assert (L : inject_Z (Z.of_nat (2 * (w_n w - 1) + 1)) <= 2 * inject_Z (Z.of_nat (w_n w))).
  { change 2 with (inject_Z 2). rewrite <- inject_Z_mult, <- Zle_Qle. lia. }
  pose proof (inject_pos _ K1) as Hp. set (N := inject_Z (Z.of_nat (w_n w))) in *.
  rewrite K5. set (W := width om (w_f0 w)) in *.
  assert (E : (w_stop w - w_start w) / N - W == (w_stop w - (w_start w + N * W)) / N) by (field; lra).
  rewrite E. rewrite Qabs_cond in *. unfold tol in *. split.
  - apply Qle_shift_div_l; auto. lra.
  - apply Qle_shift_div_r; auto. lra.
Qed.

Lemma om_at_wedge_step om w j : wedge_ok om w -> (j < w_n w)%nat ->
  Qabs (fst (om_at om (w_f0 w + j)) - (w_start w + inject_Z (Z.of_nat j) * w_delta w))
    <= inject_Z (Z.of_nat (4 * w_n w)) * tol /\
  Qabs (snd (om_at om (w_f0 w + j)) - (w_start w + inject_Z (Z.of_nat j + 1) * w_delta w))
    <= inject_Z (Z.of_nat (4 * w_n w)) * tol.
Proof.
  intros Hw Hj. pose proof (w_delta_drift om w Hw) as D. destruct Hw as (K1 & K2 & K3 & K4 & K5 & K6 & K7 & K8).
  destruct (drift om (w_f0 w) (w_n w) K6 j Hj) as [D1 D2].
  rewrite <- K3 in D1, D2. rewrite Qabs_cond in *.
  set (d := w_delta w) in *. set (W := width om (w_f0 w)) in *. unfold tol in *.
  assert (J : 0 <= inject_Z (Z.of_nat j)) by (change 0 with (inject_Z 0); rewrite <- Zle_Qle; lia).
  assert (JN : inject_Z (Z.of_nat j) + 1 <= inject_Z (Z.of_nat (w_n w))).
  { change 1 with (inject_Z 1). rewrite <- inject_Z_plus, <- Zle_Qle. lia. }
  replace (Z.of_nat (2 * j)) with (2 * Z.of_nat j)%Z in D1 by lia.
  replace (Z.of_nat (2 * j + 1)) with (2 * Z.of_nat j + 1)%Z in D2 by lia.
  replace (Z.of_nat (4 * w_n w)) with (4 * Z.of_nat (w_n w))%Z by lia.
  rewrite ?inject_Z_plus, ?inject_Z_mult in *.
  change (inject_Z 1) with 1 in *. change (inject_Z 2) with 2 in *. change (inject_Z 4) with 4 in *.
  set (q := inject_Z (Z.of_nat j)) in *. set (N := inject_Z (Z.of_nat (w_n w))) in *.
  assert (P1 : q * - (2 * (1 # 1000000)) <= q * (d - W)) by (rewrite !(Qmult_comm q); apply Qmult_le_compat_r; lra).
  assert (P2 : q * (d - W) <= q * (2 * (1 # 1000000))) by (rewrite !(Qmult_comm q); apply Qmult_le_compat_r; lra).
  rewrite !Qabs_cond. split; split; lra.
Qed.

(** exactly uniform arrays *)
Lemma exact_step om w j : wedge_ok om w ->
  (forall g, (w_f0 w < g < w_f0 w + w_n w)%nat -> exact_continues om (w_f0 w) g) -> (j < w_n w)%nat ->
  fst (om_at om (w_f0 w + j)) == w_start w + inject_Z (Z.of_nat j) * w_delta w /\
  snd (om_at om (w_f0 w + j)) == w_start w + inject_Z (Z.of_nat j + 1) * w_delta w.
Proof.
  intros (K1 & K2 & K3 & K4 & K5 & K6 & K7 & K8) Hc.
  assert (G : forall i, (i < w_n w)%nat ->
     fst (om_at om (w_f0 w + i)) == w_start w + inject_Z (Z.of_nat i) * width om (w_f0 w) /\
     snd (om_at om (w_f0 w + i)) == w_start w + inject_Z (Z.of_nat i + 1) * width om (w_f0 w)).
  { induction i as [|i IH]; intros Hi.
    - rewrite Nat.add_0_r, K3. unfold width. cbn. change (inject_Z 0) with 0. change (inject_Z 1) with 1. split; ring.
    - destruct IH as [I1 I2]; [lia|]. destruct (Hc (w_f0 w + S i)%nat) as [C1 C2]; [lia|].
      replace (w_f0 w + S i - 1)%nat with (w_f0 w + i)%nat in C2 by lia.
      replace (Z.of_nat (S i)) with (Z.of_nat i + 1)%Z by lia.
      assert (W : snd (om_at om (w_f0 w + S i)) == fst (om_at om (w_f0 w + S i)) + width om (w_f0 w + S i)) by (unfold width; ring).
      split; [rewrite C2, I2; reflexivity|].
      rewrite W, C1, C2, I2. rewrite (inject_Z_plus (Z.of_nat i + 1) 1). change (inject_Z 1) with 1. ring. }
  assert (Dl : w_delta w == width om (w_f0 w)).
  { destruct (G (w_n w - 1)%nat) as [_ E]; [lia|].
    replace (w_f0 w + (w_n w - 1))%nat with (w_f0 w + w_n w - 1)%nat in E by lia. rewrite <- K4 in E.
    replace (Z.of_nat (w_n w - 1) + 1)%Z with (Z.of_nat (w_n w)) in E by lia.
    pose proof (inject_pos _ K1). rewrite K5, E. field. lra. }
  intros Hj. destruct (G j Hj) as [A B]. rewrite !Dl. auto.
Qed.

Lemma found_frame_contains om ws x f wi : make_wedges om = Ok ws -> omega_to_frame ws x = (f, wi) -> (wi <> -1)%Z ->
  (0 <= f < Z.of_nat (length om))%Z /\
  (exists k, let r := om_at om (Z.to_nat f) in
     fst r - inject_Z (Z.of_nat (4 * length om)) * tol <= x + 360 * inject_Z k < snd r + inject_Z (Z.of_nat (4 * length om)) * tol) /\
  (exactly_uniform om ws -> inside (fst (om_at om (Z.to_nat f))) (snd (om_at om (Z.to_nat f))) x).
Proof.
  intros H E Hne. destruct (omega_to_frame_found _ _ _ _ _ H E Hne) as (n & w & E1 & E2 & E3 & k & j & L & Ef & Ej & S').
  destruct (make_wedges_inv _ _ H) as (H1 & H2 & H3). rewrite Forall_forall in H1.
  assert (Hin : In w ws) by (eapply nth_error_In; eauto). pose proof (H1 w Hin) as Hw.
  assert (Hlen : (w_f0 w + w_n w <= length om)%nat) by apply Hw.
  assert (Et : Z.to_nat f = (w_f0 w + j)%nat) by lia. rewrite Et.
  split; [lia|split].
  - exists k. cbn zeta. destruct (om_at_wedge_step om w j Hw Ej) as [D1 D2]. rewrite Qabs_cond in *.
    assert (LN : inject_Z (Z.of_nat (4 * w_n w)) <= inject_Z (Z.of_nat (4 * length om))) by (rewrite <- Zle_Qle; lia).
    unfold tol in *. lra.
  - intros U. exists k. destruct (exact_step om w j Hw (fun g Hg => U w g Hin Hg) Ej) as [A B]. rewrite A, B. auto.
Qed.

(** ** [omegarange_to_frames] *)
Lemma o2f_neg om ws x f wi : make_wedges om = Ok ws -> omega_to_frame ws x = (f, wi) ->
  (wi < 0)%Z <-> wi = (-1)%Z.
Proof.
  intros H E. destruct (omega_to_frame_lemma _ _ _ _ _ H E) as [[K _]|(n & w & -> & _)].
  - injection K as -> ->. lia.
  - lia.
Qed.

Lemma range_one_wedge om ws a b fa fb w : make_wedges om = Ok ws ->
  omega_to_frame ws a = (fa, w) -> omega_to_frame ws b = (fb, w) -> w <> (-1)%Z -> (fa < fb)%Z ->
  omegarange_to_frames ws a b = zrange fa (fb + 1).
Proof.
  intros H A B Hw L. unfold omegarange_to_frames. rewrite A, B.
  pose proof (o2f_neg _ _ _ _ _ H A).
  destruct (w <? 0)%Z eqn:E; [lia|]. rewrite Z.eqb_refl. destruct (fa <? fb)%Z eqn:E2; [reflexivity|lia].
Qed.

Lemma range_none om ws a b : make_wedges om = Ok ws ->
  omega_to_frame ws a = ((-1)%Z, (-1)%Z) \/ omega_to_frame ws b = ((-1)%Z, (-1)%Z) ->
  omegarange_to_frames ws a b = [].
Proof.
  intros H [A|B]; unfold omegarange_to_frames.
  - rewrite A. reflexivity.
  - destruct (omega_to_frame ws a) as [f w]. rewrite B. destruct (w <? 0)%Z; reflexivity.
Qed.

Lemma qmod_multiple x (k : Z) : x == 360 * inject_Z k -> qmod (Qabs x) TAU == 0.
Proof.
  intros E. assert (G : exists m : Z, Qabs x == 360 * inject_Z m).
  { destruct (Qlt_le_dec x 0).
    - exists (- k)%Z. rewrite Qabs_neg by lra. rewrite inject_Z_opp. lra.
    - exists k. rewrite Qabs_pos by lra. auto. }
  destruct G as [m G]. pose proof (qmod_range (Qabs x)) as R. pose proof (qmod_congr (Qabs x)) as C.
  set (q := Qfloor (Qabs x / 360)) in *. unfold TAU in *.
  assert (m = q).
  { assert ((m < q + 1)%Z /\ (q < m + 1)%Z); [|lia]. split; rewrite Zlt_Qlt, inject_Z_plus; change (inject_Z 1) with 1; lra. }
  subst m. lra.
Qed.

Lemma range_wrap om ws a b fa fb wa wb : make_wedges om = Ok ws ->
  omega_to_frame ws a = (fa, wa) -> omega_to_frame ws b = (fb, wb) ->
  (wa <> -1)%Z -> (wb <> -1)%Z -> ~ (wa = wb /\ fa < fb)%Z ->
  (exists k, w_start (nth (Z.to_nat wb) ws wedge0) == w_stop (nth (Z.to_nat wa) ws wedge0) + 360 * inject_Z k) ->
  omegarange_to_frames ws a b
  = zrange fa (Z.of_nat (w_f0 (nth (Z.to_nat wa) ws wedge0) + w_n (nth (Z.to_nat wa) ws wedge0)))
    ++ zrange (Z.of_nat (w_f0 (nth (Z.to_nat wb) ws wedge0))) (fb + 1).
Proof.
  intros H A B Ha Hb Hn (k & Hk). unfold omegarange_to_frames. rewrite A, B.
  pose proof (o2f_neg _ _ _ _ _ H A). pose proof (o2f_neg _ _ _ _ _ H B).
  destruct (wa <? 0)%Z eqn:E1; [lia|]. destruct (wb <? 0)%Z eqn:E2; [lia|].
  destruct ((wa =? wb) && (fa <? fb))%Z eqn:E3; [lia|].
  destruct (Qltb _ _) eqn:E4; [reflexivity|]. exfalso. apply Qltb_false in E4.
  rewrite (qmod_multiple _ k) in E4 by lra. unfold tol in E4. lra.
Qed.

Lemma range_sound om ws a b f : make_wedges om = Ok ws ->
  In f (omegarange_to_frames ws a b) ->
  (0 <= f < Z.of_nat (length om))%Z /\
  exists fa fb w wb, omega_to_frame ws a = (fa, w) /\ omega_to_frame ws b = (fb, wb) /\ w <> (-1)%Z /\ wb <> (-1)%Z /\
    (fa <= f \/ f <= fb)%Z.
Proof.
  intros H. unfold omegarange_to_frames. destruct (omega_to_frame ws a) as [fa wa] eqn:A.
  destruct (wa <? 0)%Z eqn:E1; [intros []|].
  destruct (omega_to_frame ws b) as [fb wb] eqn:B. destruct (wb <? 0)%Z eqn:E2; [intros []|].
  destruct (found_frame_contains _ _ _ _ _ H A) as (Fa & _); [lia|].
  destruct (found_frame_contains _ _ _ _ _ H B) as (Fb & _); [lia|].
  intros Hin.
  assert (G : (0 <= f < Z.of_nat (length om))%Z /\ (fa <= f \/ f <= fb)%Z).
  { destruct ((wa =? wb) && (fa <? fb))%Z eqn:E3.
    - apply in_zrange in Hin. lia.
    - destruct (Qltb _ _); [|destruct Hin].
      destruct (omega_to_frame_found _ _ _ _ _ H A) as (n & w & N1 & N2 & _); [lia|].
      assert (W : nth (Z.to_nat wa) ws wedge0 = w).
      { rewrite N1, Nat2Z.id. apply nth_error_nth; auto. }
      rewrite W in Hin. destruct (make_wedges_inv _ _ H) as (H1 & _). rewrite Forall_forall in H1.
      destruct (H1 w (nth_error_In _ _ N2)) as (_ & K2 & _).
      apply in_app_iff in Hin. rewrite !in_zrange in Hin. lia. }
  split; [lia|]. exists fa, fb, wa, wb. repeat split; try lia; auto.
Qed.

(** a range lying in one frame returns nothing unless the wedge is a full circle *)
Lemma range_single_frame om ws a b f w : make_wedges om = Ok ws ->
  omega_to_frame ws a = (f, w) -> omega_to_frame ws b = (f, w) -> w <> (-1)%Z ->
  let W := nth (Z.to_nat w) ws wedge0 in
  0 < w_stop W - w_start W < 360 - tol -> tol <= w_stop W - w_start W ->
  omegarange_to_frames ws a b = [].
Proof.
  intros H A B Hw W L1 L2. unfold omegarange_to_frames. rewrite A, B.
  pose proof (o2f_neg _ _ _ _ _ H A).
  destruct (w <? 0)%Z eqn:E; [reflexivity|]. rewrite Z.ltb_irrefl, andb_false_r. fold W.
  destruct (Qltb _ _) eqn:E4; [|reflexivity]. exfalso. apply Qltb_true in E4.
  assert (Hx : Qabs (w_start W - w_stop W) == w_stop W - w_start W) by (rewrite Qabs_neg by lra; ring).
  set (x := Qabs (w_start W - w_stop W)) in *.
  pose proof (qmod_congr x) as C. pose proof (qmod_range x) as R. unfold TAU, tol in *.
  assert (Q0 : Qfloor (x / 360) = 0%Z).
  { assert (x / 360 < 1) by (apply Qlt_shift_div_r; lra).
    assert (0 <= x / 360) by (apply Qle_shift_div_l; lra).
    pose proof (Qfloor_le (x / 360)). pose proof (Qlt_floor (x / 360)).
    set (q := Qfloor (x / 360)) in *.
    assert (q < 1)%Z by (rewrite Zlt_Qlt; change (inject_Z 1) with 1; lra).
    assert (0 < q + 1)%Z by (rewrite Zlt_Qlt; change (inject_Z 0) with 0; lra). lia. }
  rewrite Q0 in C. change (inject_Z 0) with 0 in C. lra.
Qed.

(** ** [OmegaWedges] *)
Lemma linspace_length a b k : length (linspace a b k) = S k.
Proof. unfold linspace. rewrite map_length, seq_length. reflexivity. Qed.

Lemma linspace_nth a b k i : (i <= k)%nat ->
  nth_error (linspace a b k) i = Some (a + inject_Z (Z.of_nat i) * ((b - a) / inject_Z (Z.of_nat k))).
Proof.
  intros H. unfold linspace.
  apply (map_nth_error (fun i => a + inject_Z (Z.of_nat i) * ((b - a) / inject_Z (Z.of_nat k))) i (seq 0 (S k)) (d := i)).
  rewrite (nth_error_nth' _ 0%nat) by (rewrite seq_length; lia). rewrite seq_nth by lia. reflexivity.
Qed.

Lemma wedge_rows_length d : length (wedge_rows d) = o_n d.
Proof.
  unfold wedge_rows. rewrite combine_length, firstn_length, linspace_length.
  pose proof (linspace_length (o_start d) (o_stop d) (o_n d)) as L.
  destruct (linspace _ _ _); cbn in *; lia.
Qed.

Lemma nth_error_combine {A B} (l : list A) (l' : list B) i x y :
  nth_error l i = Some x -> nth_error l' i = Some y -> nth_error (combine l l') i = Some (x, y).
Proof.
  revert l' i; induction l as [|a l IH]; intros [|b l'] [|i]; cbn; try discriminate; try congruence. apply IH.
Qed.

Lemma nth_error_firstn' {A} n (l : list A) i : (i < n)%nat -> nth_error (firstn n l) i = nth_error l i.
Proof. revert l i; induction n as [|n IH]; intros [|x l] [|i] H; cbn; auto; try lia. apply IH; lia. Qed.

Lemma nth_error_tl {A} (l : list A) i : nth_error (tl l) i = nth_error l (S i).
Proof. destruct l; cbn; auto. destruct i; reflexivity. Qed.

Lemma wedge_rows_nth d i : (i < o_n d)%nat ->
  nth_error (wedge_rows d) i
  = Some (o_start d + inject_Z (Z.of_nat i) * ((o_stop d - o_start d) / inject_Z (Z.of_nat (o_n d))),
          o_start d + inject_Z (Z.of_nat (S i)) * ((o_stop d - o_start d) / inject_Z (Z.of_nat (o_n d)))).
Proof.
  intros H. unfold wedge_rows. apply nth_error_combine.
  - rewrite nth_error_firstn' by auto. apply linspace_nth. lia.
  - rewrite nth_error_tl. apply linspace_nth. lia.
Qed.

Lemma omegas_length_ok l : length (flat_map wedge_rows l) = wframes l.
Proof. induction l as [|d l IH]; cbn; auto. rewrite app_length, wedge_rows_length, IH. reflexivity. Qed.

Lemma omegas_err n l : omegas n l = Err OmegaSeriesError <-> n <> wframes l.
Proof. unfold omegas. destruct (Nat.eqb_spec n (wframes l)); cbn; split; congruence. Qed.

Lemma omegas_rows n l1 d l2 oa i : omegas n (l1 ++ d :: l2) = Ok oa -> (i < o_n d)%nat ->
  nth_error oa (wframes l1 + i) = nth_error (wedge_rows d) i.
Proof.
  unfold omegas. destruct (negb _); [discriminate|]. intros H Hi. injection H as <-.
  rewrite flat_map_app. cbn. rewrite nth_error_app2; rewrite omegas_length_ok; [|lia].
  replace (wframes l1 + i - wframes l1)%nat with i by lia.
  rewrite nth_error_app1; auto. rewrite wedge_rows_length. auto.
Qed.

Lemma omegas_spec n l oa : omegas n l = Ok oa ->
  length oa = n /\
  forall l1 d l2, l = l1 ++ d :: l2 ->
    (forall i, (S i < o_n d)%nat -> snd (om_at oa (wframes l1 + i)) == fst (om_at oa (wframes l1 + S i))) /\
    (forall i, (i < o_n d)%nat -> width oa (wframes l1 + i) == (o_stop d - o_start d) / inject_Z (Z.of_nat (o_n d))) /\
    ((0 < o_n d)%nat -> fst (om_at oa (wframes l1)) == o_start d /\
                        snd (om_at oa (wframes l1 + o_n d - 1)) == o_stop d).
Proof.
  intros H. split.
  - unfold omegas in H. destruct (Nat.eqb_spec n (wframes l)) as [->|]; cbn in H; [|discriminate].
    injection H as <-. apply omegas_length_ok.
  - intros l1 d l2 ->.
    assert (G : forall i, (i < o_n d)%nat -> om_at oa (wframes l1 + i)
      = (o_start d + inject_Z (Z.of_nat i) * ((o_stop d - o_start d) / inject_Z (Z.of_nat (o_n d))),
         o_start d + inject_Z (Z.of_nat (S i)) * ((o_stop d - o_start d) / inject_Z (Z.of_nat (o_n d))))).
    { intros i Hi. unfold om_at. apply nth_error_nth. erewrite omegas_rows by eauto. apply wedge_rows_nth; auto. }
    split; [|split].
    + intros i Hi. rewrite !G by lia. cbn [fst snd]. reflexivity.
    + intros i Hi. unfold width. rewrite !G by lia. cbn [fst snd].
      replace (Z.of_nat (S i)) with (Z.of_nat i + 1)%Z by lia. rewrite inject_Z_plus. change (inject_Z 1) with 1. ring.
    + intros Hn. split.
      * rewrite <- (Nat.add_0_r (wframes l1)), G by lia. cbn [fst]. change (inject_Z (Z.of_nat 0)) with 0. ring.
      * replace (wframes l1 + o_n d - 1)%nat with (wframes l1 + (o_n d - 1))%nat by lia. rewrite G by lia. cbn [snd].
        replace (S (o_n d - 1)) with (o_n d) by lia. pose proof (inject_pos _ Hn). field. lra.
Qed.

Lemma insert_end {A} (l : list A) x : py_insert l (Z.of_nat (length l)) x = l ++ [x].
Proof.
  unfold py_insert. destruct (_ <? 0)%Z eqn:E; [lia|]. rewrite Z.min_id, Nat2Z.id, firstn_all, skipn_all. reflexivity.
Qed.

(** one wedge: the series built from the generated array has exactly that wedge *)
Lemma wops_add_end l d : wop_step l (AddWedge d None) = l ++ [d].
Proof. apply insert_end. Qed.

Lemma seq_cons_inv s k n f rest : (0 < n)%nat -> seq f n ++ rest = seq s k ->
  (0 < k)%nat -> f = s /\ (n <= k)%nat /\ rest = seq (s + n) (k - n).
Proof.
  intros Hn H Hk.
  assert (L : (n + length rest = k)%nat) by (apply (f_equal (@length nat)) in H; rewrite app_length, !seq_length in H; auto).
  assert (Hf : f = s). { destruct n; [lia|]. destruct k; [lia|]. cbn in H. congruence. }
  subst f. split; auto. split; [lia|].
  replace k with (n + (k - n))%nat in H by lia. rewrite seq_app in H. apply app_inv_head in H. exact H.
Qed.

Lemma roundtrip_aux n l oa : omegas n l = Ok oa -> Forall (fun d => (0 < o_n d)%nat) l ->
  forall l2 l1 ws, l = l1 ++ l2 -> all_separated l2 -> Forall (wedge_ok oa) ws ->
  flat_map w_frames ws = seq (wframes l1) (wframes l2) -> Forall2 same_wedge l2 ws.
Proof.
  intros H Hpos. destruct (omegas_spec _ _ _ H) as [Hlen Hrows].
  assert (Hn : n = wframes l).
  { unfold omegas in H. destruct (Nat.eqb_spec n (wframes l)); auto. discriminate. }
  induction l2 as [|d t IH]; intros l1 ws El Hsep Hws Hfr.
  - cbn in Hfr. destruct ws as [|w ws]; [constructor|]. exfalso.
    inversion Hws as [|? ? Hw Hws']; subst. destruct Hw as (K1 & _).
    apply (f_equal (@length nat)) in Hfr. cbn in Hfr. rewrite app_length in Hfr. unfold w_frames in Hfr. rewrite seq_length in Hfr. lia.
  - assert (Hd : (0 < o_n d)%nat). { rewrite Forall_forall in Hpos. apply Hpos. subst l. apply in_app_iff. right; left; auto. }
    assert (Hwf : wframes (d :: t) = (o_n d + wframes t)%nat) by reflexivity.
    destruct ws as [|w ws].
    { cbn [flat_map] in Hfr. rewrite Hwf in Hfr. destruct (o_n d); [lia|discriminate]. }
    inversion Hws as [|? ? Hw Hws']; subst x l0. pose proof Hw as (K1 & K2 & K3 & K4 & K5 & K6 & K7 & K8).
    cbn [flat_map] in Hfr. unfold w_frames at 1 in Hfr. rewrite Hwf in Hfr.
    apply seq_cons_inv in Hfr; auto; [|lia]. destruct Hfr as (Ef & Le & Er).
    destruct (Hrows l1 d t El) as (R1 & R2 & R3). specialize (R3 Hd). destruct R3 as [R3 R4].
    assert (Hexact : forall i, (0 < i < o_n d)%nat -> continues oa (wframes l1) (wframes l1 + i)).
    { intros i Hi. split.
      - rewrite (R2 i) by lia. rewrite <- (Nat.add_0_r (wframes l1)) at 1. rewrite (R2 0%nat) by lia.
        rewrite Qabs_cond. lra.
      - destruct i as [|i]; [lia|]. replace (wframes l1 + S i - 1)%nat with (wframes l1 + i)%nat by lia.
        rewrite (R1 i) by lia. rewrite Qabs_cond. lra. }
    assert (En : w_n w = o_n d).
    { destruct (lt_eq_lt_dec (w_n w) (o_n d)) as [[C|C]|C]; auto; exfalso.
      - apply K7; [|rewrite Ef; apply Hexact; lia].
        rewrite Hlen, Hn, El. unfold wframes in *. rewrite map_app, list_sum_app. cbn [map list_sum fold_right]. unfold list_sum in *. lia.
      - destruct t as [|d' t']; [cbn in Le; lia|]. cbn in Hsep. destruct Hsep as [Hsep _].
        assert (Hd' : (0 < o_n d')%nat). { rewrite Forall_forall in Hpos. apply Hpos. subst l. apply in_app_iff. right; right; left; auto. }
        destruct (K6 (w_f0 w + o_n d)%nat) as [C1 C2]; [lia|]. rewrite Ef in *.
        destruct (Hrows (l1 ++ [d]) d' t') as (S1 & S2 & S3); [rewrite <- app_assoc; exact El|].
        assert (Ew : wframes (l1 ++ [d]) = (wframes l1 + o_n d)%nat).
        { unfold wframes. rewrite map_app, list_sum_app. cbn. lia. }
        rewrite Ew in *. destruct (S3 Hd') as [S4 _].
        rewrite R4, S4 in C2.
        rewrite <- (Nat.add_0_r (wframes l1 + o_n d)) in C1. rewrite (S2 0%nat) in C1 by lia.
        rewrite <- (Nat.add_0_r (wframes l1)) in C1. rewrite (R2 0%nat) in C1 by lia.
        unfold tol in Hsep. destruct Hsep as [Hq|Hq]; [exact (Qlt_not_le _ _ Hq C1)|exact (Qlt_not_le _ _ Hq C2)]. }
    constructor.
    + split; [|split]; auto.
      * rewrite K3, Ef. auto.
      * rewrite K4, Ef, En. auto.
    + apply (IH (l1 ++ [d])); auto.
      * rewrite <- app_assoc. exact El.
      * destruct t; cbn in *; tauto.
      * rewrite Er, En. assert (Ew : wframes (l1 ++ [d]) = (wframes l1 + o_n d)%nat).
        { unfold wframes. rewrite map_app, list_sum_app. cbn. lia. }
        rewrite Ew. f_equal. lia.
Qed.

Lemma wedges_roundtrip n l oa : omegas n l = Ok oa -> l <> [] ->
  Forall (fun d => (0 < o_n d)%nat /\ o_start d < o_stop d) l -> all_separated l ->
  exists ws, make_wedges oa = Ok ws /\ Forall2 same_wedge l ws.
Proof.
  intros H Hne Hl Hs. destruct (omegas_spec _ _ _ H) as [Hlen Hrows].
  assert (Hn : n = wframes l). { unfold omegas in H. destruct (Nat.eqb_spec n (wframes l)); auto. discriminate. }
  assert (Hpos : Forall (fun d => (0 < o_n d)%nat) l) by (eapply Forall_impl; [|exact Hl]; intros d [A _]; exact A).
  assert (oa <> []).
  { destruct l as [|d t]; [congruence|]. inversion Hl as [|? ? [D1 _] _]; subst x l. intros ->. unfold wframes in Hn. cbn in Hlen, Hn. lia. }
  assert (Hinc : Forall (fun r => fst r < snd r) oa).
  { unfold omegas in H. destruct (negb _); [discriminate|]. injection H as <-. apply Forall_forall. intros r Hr.
    apply in_flat_map in Hr. destruct Hr as (d & Hd & Hr). rewrite Forall_forall in Hl. destruct (Hl d Hd) as [D1 D2].
    apply In_nth_error in Hr. destruct Hr as [i Hi].
    assert (Li : (i < o_n d)%nat). { rewrite <- wedge_rows_length. apply nth_error_Some. congruence. }
    rewrite wedge_rows_nth in Hi by auto.
    match type of Hi with Some ?u = Some _ => assert (r = u) by congruence; subst r end. cbn [fst snd].
    pose proof (inject_pos _ D1) as P. set (N := inject_Z (Z.of_nat (o_n d))) in *.
    assert (0 < (o_stop d - o_start d) / N) by (apply Qlt_shift_div_l; lra).
    replace (Z.of_nat (S i)) with (Z.of_nat i + 1)%Z by lia. rewrite inject_Z_plus. change (inject_Z 1) with 1. lra. }
  destruct (make_wedges_accepts oa) as [ws Hw]; auto. exists ws. split; auto.
  destruct (make_wedges_inv _ _ Hw) as (W1 & W2 & _).
  apply (roundtrip_aux n l oa H Hpos l [] ws); auto. rewrite W2, Hlen, Hn. reflexivity.
Qed.

Lemma roundtrip_exact n l oa ws : omegas n l = Ok oa -> Forall (fun d => (0 < o_n d)%nat) l ->
  make_wedges oa = Ok ws -> Forall2 same_wedge l ws -> exactly_uniform oa ws.
Proof.
  intros H Hpos Hw Hf w g Hin Hg. destruct (omegas_spec _ _ _ H) as [Hlen Hrows].
  destruct (make_wedges_inv _ _ Hw) as (W1 & W2 & _).
  apply in_split in Hin. destruct Hin as (ws1 & ws2 & ->).
  apply Forall2_app_inv_r in Hf. destruct Hf as (l1 & l2 & F1 & F2 & ->).
  destruct l2 as [|d l2']; [inversion F2|].
  assert (Hsd : same_wedge d w) by (inversion F2; assumption). destruct Hsd as (S1 & S2 & S3).
  assert (Ef : w_f0 w = wframes l1).
  { rewrite flat_map_app in W2.
    assert (G : length (flat_map w_frames ws1) = wframes l1).
    { clear -F1. induction F1 as [|d w l ws Hd _ IH]; cbn; auto. rewrite app_length, IH. unfold w_frames. rewrite seq_length.
      destruct Hd as (_ & _ & ->). reflexivity. }
    rewrite Forall_forall in W1. destruct (W1 w) as (K1 & _); [apply in_app_iff; right; left; auto|].
    apply (f_equal (fun l => nth (wframes l1) l 0%nat)) in W2.
    rewrite app_nth2, G, Nat.sub_diag in W2 by lia. cbn [flat_map] in W2. unfold w_frames at 1 in W2.
    destruct (w_n w) eqn:E; [lia|]. cbn [seq app nth] in W2.
    rewrite seq_nth in W2; [lia|]. rewrite Hlen.
    assert (n = wframes (l1 ++ d :: l2')) as ->.
    { unfold omegas in H. destruct (Nat.eqb_spec n (wframes (l1 ++ d :: l2'))); auto. discriminate. }
    unfold wframes. rewrite map_app, list_sum_app. cbn [map]. unfold list_sum. cbn [fold_right]. lia. }
  destruct (Hrows l1 d l2' eq_refl) as (R1 & R2 & R3). rewrite Ef in *. rewrite S3 in Hg.
  replace g with (wframes l1 + (g - wframes l1))%nat by lia. set (i := (g - wframes l1)%nat) in *.
  assert (Hi : (0 < i < o_n d)%nat) by lia. split.
  - rewrite (R2 i) by lia. rewrite <- (Nat.add_0_r (wframes l1)) at 1. rewrite (R2 0%nat) by lia. reflexivity.
  - destruct i as [|i']; [lia|]. replace (wframes l1 + S i' - 1)%nat with (wframes l1 + i')%nat by lia.
    rewrite (R1 i') by lia. reflexivity.
Qed.

(** ** Glue for the property file *)
Lemma make_series_accepts nf om : om <> [] -> Forall (fun r => fst r < snd r) om -> nf = length om ->
  exists ws, make_series nf (Some om) = Ok ws.
Proof. intros H1 H2 ->. unfold make_series. rewrite Nat.eqb_refl. apply make_wedges_accepts; auto. Qed.

Lemma make_series_mismatch nf om : nf <> length om ->
  make_series nf (Some om) = Err OmegaSeriesError /\ make_series nf None = Err OmegaSeriesError.
Proof. intros H. unfold make_series. destruct (Nat.eqb_spec nf (length om)); [contradiction|auto]. Qed.

Lemma decreasing_last_accepted :
  exists om ws, make_wedges om = Ok ws /\ (2 <= length om)%nat /\ exists f, (f < length om)%nat /\ width om f < - (1 # 1000000).
Proof.
  exists [(0, 1); (1, 0)]. eexists. split; [vm_compute; reflexivity|]. split; [cbn; lia|].
  exists 1%nat. split; [cbn; lia|]. vm_compute. reflexivity.
Qed.

Lemma found_in_wedge om ws x f wi :
  make_wedges om = Ok ws -> omega_to_frame ws x = (f, wi) -> (wi <> -1)%Z ->
  exists n w, wi = Z.of_nat n /\ nth_error ws n = Some w /\
    inside (w_start w) (w_stop w) x /\
    (forall w', In w' (firstn n ws) -> ~ inside (w_start w') (w_stop w') x) /\
    In (Z.to_nat f) (w_frames w) /\ (0 <= f)%Z.
Proof.
  intros H E Hn. destruct (omega_to_frame_found _ _ _ _ _ H E Hn) as (n & w & A & B & C & k & j & L & Ef & Ej & _).
  exists n, w. repeat split; auto; try lia.
  - exists k; auto.
  - unfold w_frames. apply in_seq. lia.
Qed.

Lemma ex_c09 : exists ws, make_wedges [(-60, -30); (-30, 0); (0, 30); (100, 110); (110, 120)] = Ok ws /\
  exactly_uniform [(-60, -30); (-30, 0); (0, 30); (100, 110); (110, 120)] ws /\
  omega_to_frame ws 345 = (1%Z, 0%Z) /\ omega_to_frame ws (115 - 720) = (4%Z, 1%Z) /\
  omega_to_frame ws 50 = ((-1)%Z, (-1)%Z).
Proof.
  eexists. split; [vm_compute; reflexivity|]. split; [|vm_compute; auto].
  intros w g [<-|[<-|[]]]; cbn [w_f0 w_n]; intros Hg.
  - assert (g = 1 \/ g = 2)%nat as [-> | ->] by lia; split; vm_compute; reflexivity.
  - assert (g = 4)%nat as -> by lia; split; vm_compute; reflexivity.
Qed.

Lemma single_frame_refuted :
  exists om ws a b f w, make_wedges om = Ok ws /\ a < b /\ omega_to_frame ws a = (f, w) /\ omega_to_frame ws b = (f, w) /\
    (0 <= f)%Z /\ ~ In f (omegarange_to_frames ws a b).
Proof.
  exists [(0, 1); (1, 2)]. eexists. exists (1 # 4), (3 # 4), 0%Z, 0%Z.
  split; [vm_compute; reflexivity|]. split; [reflexivity|]. split; [vm_compute; reflexivity|].
  split; [vm_compute; reflexivity|]. split; [lia|]. vm_compute. intros [].
Qed.

Lemma seam_refuted :
  exists om ws, make_wedges om = Ok ws /\
    (let w := nth 0 ws wedge0 in Qabs (w_stop w - w_start w - 360) <= 1 # 10000000) /\
    omega_to_frame ws 350 = (3%Z, 0%Z) /\ omega_to_frame ws 10 = (0%Z, 0%Z) /\
    omegarange_to_frames ws 350 10 = [].
Proof.
  exists [(0, 90); (90, 180); (180, 270); (270, 3599999999 # 10000000)]. eexists.
  split; [vm_compute; reflexivity|]. split; [vm_compute; discriminate|]. vm_compute. auto.
Qed.

Lemma omegas_history (ops : list wop) (nframes : nat) :
  (list_sum (map o_n (wops_run ops)) <> nframes -> omegas nframes (wops_run ops) = Err OmegaSeriesError) /\
  (list_sum (map o_n (wops_run ops)) = nframes -> exists oa, omegas nframes (wops_run ops) = Ok oa /\
     length oa = nframes /\
     forall l1 d l2, wops_run ops = l1 ++ d :: l2 ->
       let f0 := list_sum (map o_n l1) in
       (forall i, (S i < o_n d)%nat -> snd (om_at oa (f0 + i)) == fst (om_at oa (f0 + S i))) /\
       (forall i, (i < o_n d)%nat -> width oa (f0 + i) == (o_stop d - o_start d) / inject_Z (Z.of_nat (o_n d))) /\
       ((0 < o_n d)%nat -> fst (om_at oa f0) == o_start d /\ snd (om_at oa (f0 + o_n d - 1)) == o_stop d)).
Proof.
  split; intros H.
  - apply omegas_err. unfold wframes. auto.
  - destruct (omegas nframes (wops_run ops)) as [oa|e] eqn:E.
    + exists oa. split; auto. apply (omegas_spec _ _ _ E).
    + exfalso. unfold omegas, wframes in E. rewrite H, Nat.eqb_refl in E. discriminate.
Qed.

Lemma wop_spec l d :
  wop_step l (AddWedge d None) = l ++ [d] /\
  (forall k, (k <= length l)%nat -> wop_step l (AddWedge d (Some (Z.of_nat k))) = firstn k l ++ d :: skipn k l) /\
  (forall k x, nth_error l k = Some x -> wop_step l (DelWedge (Z.of_nat k)) = firstn k l ++ skipn (S k) l) /\
  (forall k, (length l <= k)%nat -> wop_step l (DelWedge (Z.of_nat k)) = l).
Proof.
  split; [apply insert_end|]. split; [|split].
  - intros k Hk. unfold wop_step, py_insert. destruct (_ <? 0)%Z eqn:E; [lia|].
    rewrite Z.min_l by lia. rewrite Nat2Z.id. reflexivity.
  - intros k x Hx. assert (k < length l)%nat by (apply nth_error_Some; congruence).
    unfold wop_step, py_pop. destruct (Z.of_nat k <? 0)%Z eqn:E; [lia|].
    destruct (_ && _) eqn:E2; [rewrite Nat2Z.id; reflexivity|lia].
  - intros k Hk. unfold wop_step, py_pop. destruct (Z.of_nat k <? 0)%Z eqn:E; [lia|].
    destruct (_ && _) eqn:E2; [lia|reflexivity].
Qed.

Lemma roundtrip_full nframes l oa :
  omegas nframes l = Ok oa -> l <> [] ->
  Forall (fun d => (0 < o_n d)%nat /\ o_start d < o_stop d) l -> all_separated l ->
  exists ws, make_wedges oa = Ok ws /\ Forall2 same_wedge l ws /\ exactly_uniform oa ws.
Proof.
  intros H Hn Hl Hs. destruct (wedges_roundtrip _ _ _ H Hn Hl Hs) as (ws & A & B). exists ws. split; auto. split; auto.
  apply (roundtrip_exact nframes l); auto. eapply Forall_impl; [|exact Hl]. intros d [P _]. exact P.
Qed.

Lemma ex_c11 :
  let l := wops_run [AddWedge {| o_start := 0; o_stop := 90; o_n := 3 |} None;
                     AddWedge {| o_start := 5; o_stop := 6; o_n := 9 |} (Some 0%Z);
                     AddWedge {| o_start := 100; o_stop := 101; o_n := 2 |} None; DelWedge 0] in
  match omegas 5 l with
  | Ok oa => Forall2 (fun p q => fst p == fst q /\ snd p == snd q) oa [(0, 30); (30, 60); (60, 90); (100, 201 # 2); (201 # 2, 101)] /\
             Forall (fun d => (0 < o_n d)%nat /\ o_start d < o_stop d) l /\ all_separated l
  | Err _ => False
  end.
Proof.
  cbn zeta. split; [|split].
  - vm_compute. repeat constructor.
  - change (wops_run _) with [{| o_start := 0; o_stop := 90; o_n := 3 |}; {| o_start := 100; o_stop := 101; o_n := 2 |}].
    repeat constructor; cbn; lra.
  - vm_compute. split; auto.
Qed.

Lemma same_turn (a b x : Q) (k : Z) : b <= a + 360 -> a <= x < b -> a <= x + 360 * inject_Z k < b -> k = 0%Z.
Proof.
  intros H H1 H2. assert (-1 < k)%Z by (rewrite Zlt_Qlt; change (inject_Z (-1)) with (-1); lra).
  assert (k < 1)%Z by (rewrite Zlt_Qlt; change (inject_Z 1) with 1; lra). lia.
Qed.

Lemma Qmult_mono j j' d : 0 < d -> inject_Z j * d <= inject_Z j' * d <-> (j <= j')%Z.
Proof. intros H. rewrite Qmult_le_r by auto. rewrite <- Zle_Qle. reflexivity. Qed.

Lemma range_meets om ws a b fa fb n w : make_wedges om = Ok ws -> exactly_uniform om ws ->
  nth_error ws n = Some w -> w_stop w <= w_start w + 360 ->
  omega_to_frame ws a = (fa, Z.of_nat n) -> omega_to_frame ws b = (fb, Z.of_nat n) ->
  w_start w <= a -> a <= b -> b < w_stop w -> fa <> fb ->
  forall f, In f (w_frames w) ->
  (In (Z.of_nat f) (omegarange_to_frames ws a b) <->
   exists y, a <= y <= b /\ fst (om_at om f) <= y < snd (om_at om f)).
Proof.
  intros H U Hn Hspan A B La Lab Lb Hne f Hf.
  destruct (make_wedges_inv _ _ H) as (H1 & H2 & H3). rewrite Forall_forall in H1.
  assert (Hin : In w ws) by (eapply nth_error_In; eauto). pose proof (H1 w Hin) as Hw.
  destruct (omega_to_frame_found _ _ _ _ _ H A) as (n1 & w1 & N1 & W1 & _ & k1 & j1 & L1 & F1 & J1 & S1); [lia|].
  destruct (omega_to_frame_found _ _ _ _ _ H B) as (n2 & w2 & N2 & W2 & _ & k2 & j2 & L2 & F2 & J2 & S2); [lia|].
  assert (n1 = n) by lia. assert (n2 = n) by lia. subst n1 n2. assert (w1 = w) by congruence. assert (w2 = w) by congruence. subst w1 w2.
  assert (k1 = 0%Z) by (eapply same_turn; [exact Hspan| |exact L1]; lra).
  assert (k2 = 0%Z) by (eapply same_turn; [exact Hspan| |exact L2]; lra). subst k1 k2. change (inject_Z 0) with 0 in *.
  assert (Hd : 0 < w_delta w). { rewrite inject_Z_plus in S1. change (inject_Z 1) with 1 in S1. lra. }
  assert (J12 : (j1 <= j2)%nat).
  { assert (Z.of_nat j1 < Z.of_nat j2 + 1)%Z; [|lia]. rewrite Zlt_Qlt. apply (Qmult_lt_r _ _ (w_delta w)); auto. lra. }
  rewrite (range_one_wedge om ws a b fa fb (Z.of_nat n)) by (auto; lia). rewrite in_zrange.
  unfold w_frames in Hf. apply in_seq in Hf.
  destruct (exact_step om w (f - w_f0 w) Hw (fun g Hg => U w g Hin Hg)) as [X Y]; [lia|].
  replace (w_f0 w + (f - w_f0 w))%nat with f in X, Y by lia. set (j := (f - w_f0 w)%nat) in *.
  assert (Rng : (fa <= Z.of_nat f < fb + 1)%Z <-> (Z.of_nat j1 <= Z.of_nat j <= Z.of_nat j2)%Z) by lia. rewrite Rng.
  split.
  - intros [G1 G2]. assert (M1 : inject_Z (Z.of_nat j1 + 1) * w_delta w <= inject_Z (Z.of_nat j + 1) * w_delta w) by (apply Qmult_mono; auto; lia).
    assert (M2 : inject_Z (Z.of_nat j) * w_delta w <= inject_Z (Z.of_nat j2) * w_delta w) by (apply Qmult_mono; auto; lia).
    destruct (Qlt_le_dec a (fst (om_at om f))) as [C|C].
    + exists (fst (om_at om f)). assert (inject_Z (Z.of_nat j) < inject_Z (Z.of_nat j + 1)) by (rewrite <- Zlt_Qlt; lia).
      assert (inject_Z (Z.of_nat j) * w_delta w < inject_Z (Z.of_nat j + 1) * w_delta w) by (apply Qmult_lt_compat_r; auto). lra.
    + exists a. lra.
  - intros (y & G1 & G2). split.
    + apply Z.lt_succ_r. unfold Z.succ. rewrite Zlt_Qlt. apply (Qmult_lt_r _ _ (w_delta w)); auto. lra.
    + apply Z.lt_succ_r. unfold Z.succ. rewrite Zlt_Qlt. apply (Qmult_lt_r _ _ (w_delta w)); auto. lra.
Qed.
