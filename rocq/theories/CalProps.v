(** C163-C168: parameters of a calibration and what they refer to *)
From Coq Require Import Reals Ascii String Permutation List Bool ZArith Lia Lra.
From Verif Require Import Prelude Lin TensorModel XfModel RotModel RotSpec RotProofs RotProofs2 RigModel RigSpec RigProofs NamesModel NamesProofs BvModel BvSpec BvProps CalModel CalSpec CalProofs.
Import ListNotations.
Local Open Scope R_scope.
Local Open Scope string_scope.
Local Open Scope list_scope.
Local Notation length := List.length.

Lemma create_parts ae c rel i l : create_instr_params ae c rel i = Ok l ->
  exists dp, l = flat_map (beam_params (i_beams i)) (i_beams i) ++ frame_params i ++ dp /\
    match rel with CNone => all_det_params ae c (i_dets i) | CGroup _ cps => all_group_params ae c cps (detector_groups (panels_of i)) | CSystem _ cp => constrained_params ae c "system" cp end = Ok dp.
Proof.
  unfold create_instr_params. destruct (match rel with CNone => _ | CGroup _ _ => _ | CSystem _ _ => _ end) as [dp|]; [|discriminate]. cbn [rbind]. intros E. exists dp.
  assert (E0 : forall (a b : params), Ok a = Ok b -> a = b) by (intros ? ? X; now injection X). apply E0 in E. now rewrite E.
Qed.
Lemma active_beam i : In (i_active i) (map fst (i_beams i)) -> exists b, dict_get (i_beams i) (i_active i) = Some b /\ In (i_active i, b) (i_beams i).
Proof.
  intros I. destruct (dict_get (i_beams i) (i_active i)) as [b|] eqn:E; [|apply get_none in E; contradiction]. exists b. split; [reflexivity|]. now apply get_some_in.
Qed.
(** C163: an instrument made into parameters and updated from them is the instrument *)
Theorem C163_round_trip_partial : forall sp_from_matrix sp_as_rotvec rotvec from_euler as_euler c i l,
  create_instr_params as_euler c CNone i = Ok l -> validate_params l = Ok tt ->
  (forall k b, In (k, b) (i_beams i) -> norm (b_vec b) = 1) -> In (i_active i) (map fst (i_beams i)) ->
  (forall nd, In nd (i_dets i) -> distortion_names_ok (map fst l) nd /\
     forall n, normalize_euler_convention c = Some n -> converts sp_from_matrix sp_as_rotvec from_euler as_euler n (p_rmat (d_panel (snd nd)))) ->
  exists i', update_instrument_from_params sp_from_matrix sp_as_rotvec rotvec from_euler c CNone (add_many l) i = Ok (i', CNone) /\ same_instr i i'.
Proof.
  intros fm rv rot fe ae c i l E V U A H. assert (N : NoDup (map fst l)) by now apply validate_lemma. rewrite (add_many_same l N).
  destruct (create_parts _ _ _ _ _ E) as (dp & El & Ed). unfold update_instrument_from_params.
  assert (I1 : incl (flat_map (beam_params (i_beams i)) (i_beams i)) l) by (rewrite El; intros x Hx; apply in_or_app; now left).
  assert (I2 : incl (frame_params i) l) by (rewrite El; intros x Hx; apply in_or_app; right; apply in_or_app; now left).
  rewrite (beams_back l i N I1 U). cbn [rbind]. destruct (active_beam i A) as (b & Eb & Ib). unfold update_panel_beams. cbn [i_beams i_active i_chi i_tvec i_dets]. rewrite Eb. cbn [rbind i_dets].
  destruct (frame_back l i N I2) as [F1 F2]. rewrite F1, F2. cbn [rbind]. rewrite map_r_map.
  destruct (map_r_ok (fun nd => update_det fm rv fe c l (fst nd, Det (d_panel (snd nd)) (d_radius (snd nd)) (d_dist (snd nd)) (b_vec b))) (same_det (b_vec b)) (i_dets i)) as (ds & Es & Fs).
  { intros nd Hn. destruct (H nd Hn) as [K C]. destruct (all_det_in ae c (i_dets i) dp nd Ed Hn) as (pre & p & post & Ep & Edp).
    apply (det_back fm rv fe ae c l p nd N Ep); auto.
    - exists (flat_map (beam_params (i_beams i)) (i_beams i) ++ frame_params i ++ pre), post. rewrite El, Edp. now rewrite <- !app_assoc.
    - destruct (normalize_euler_convention c) as [n|]; [now apply C|exact Logic.I]. }
  rewrite Es. cbn [rbind]. rewrite rad_deg. eexists. split; [reflexivity|]. unfold same_instr. cbn [i_beams i_active i_chi i_tvec i_dets].
  split; [reflexivity|]. split; [reflexivity|]. split; [reflexivity|]. split; [reflexivity|]. exists b. split; [exact Ib|exact Fs].
Qed.
Print Assumptions C163_round_trip_partial.
(** every panel gets parameters of different names, those of the convention, that say where it is *)
Theorem C163_panel_named : forall from_euler as_euler c suffixes orientation name d, angles_named from_euler c suffixes orientation ->
  (forall n, from_euler n (as_euler n (p_rmat (d_panel d))) = p_rmat (d_panel d)) ->
  exists l, det_params as_euler c (name, d) = Ok l /\ NoDup (map fst l) /\ det_reads orientation suffixes l (name, d).
Proof.
  intros fe ae c [[a b] s] orient name d Hn He. unfold det_params. set (base := dash_to_us name).
  assert (P : param_names_euler_convention base c = Ok (base +++ "_" +++ a, base +++ "_" +++ b, base +++ "_" +++ s)) by (inversion Hn as [|c0 [->| ->]|c0 [->| ->]]; subst; reflexivity).
  rewrite P. cbn [rbind]. eexists. split; [reflexivity|].
  match goal with |- NoDup (map fst ?l) /\ _ => set (L := l) end.
  assert (N : NoDup (map fst L)).
  { assert (E : map fst L = map (fun x => base +++ x) (["_" +++ a; "_" +++ b; "_" +++ s; "_tvec_x"; "_tvec_y"; "_tvec_z"] ++
        (match d_dist d with None => [] | Some vals => map (fun k => "_distortion_param_" +++ dec k) (seq 0 (length vals)) end ++ match d_radius d with None => [] | Some _ => ["_radius"] end))).
    { unfold L, named3, tvec_names. cbn [map app fst]. do 6 f_equal. rewrite !map_app. f_equal; [|destruct (d_radius d); reflexivity]. destruct (d_dist d) as [vals|]; [|reflexivity].
      rewrite map_map. cbn [fst]. change (fun x : string * R => fst x) with (@fst string R). rewrite distortion_params_fst, map_map. reflexivity. }
    rewrite E. apply FinFun.Injective_map_NoDup; [intros x y X; now apply app_cancel_l in X|].
    assert (D : NoDup (match d_dist d with None => [] | Some vals => map (fun k => "_distortion_param_" +++ dec k) (seq 0 (length vals)) end ++ match d_radius d with None => [] | Some _ => ["_radius"] end)).
    { assert (D1 : NoDup (match d_dist d with None => [] | Some vals => map (fun k => "_distortion_param_" +++ dec k) (seq 0 (length vals)) end)).
      { destruct (d_dist d); [|constructor]. apply FinFun.Injective_map_NoDup; [|apply seq_NoDup]. intros x y X. apply (app_cancel_l "_distortion_param_") in X. now apply dec_inj. }
      destruct (d_radius d); [|now rewrite app_nil_r]. apply (Permutation_NoDup (Permutation_cons_append _ _)). constructor; [|exact D1].
      destruct (d_dist d); [|easy]. intros X. apply in_map_iff in X. destruct X as (k & X & _). discriminate X. }
    assert (K : forall x, In x (match d_dist d with None => [] | Some vals => map (fun k => "_distortion_param_" +++ dec k) (seq 0 (length vals)) end ++ match d_radius d with None => [] | Some _ => ["_radius"] end) ->
      exists t, x = String "_"%char (String "d"%char t) \/ x = String "_"%char (String "r"%char t)).
    { intros x I. apply in_app_or in I. destruct I as [I|I].
      - destruct (d_dist d); [|contradiction]. apply in_map_iff in I. destruct I as (k & <- & _). eexists. left. reflexivity.
      - destruct (d_radius d); [|contradiction]. destruct I as [<-|[]]. eexists. right. reflexivity. }
    assert (S6 : forall x y, In x ["_" +++ a; "_" +++ b; "_" +++ s; "_tvec_x"; "_tvec_y"; "_tvec_z"] -> x = y -> forall t, y <> String "_"%char (String "d"%char t) /\ y <> String "_"%char (String "r"%char t)).
    { intros x y I <- t. inversion Hn as [|c0 H0|c0 H0]; subst a b s; repeat (destruct I as [<-|I]; [split; discriminate|]); contradiction. }
    assert (N6 : NoDup ["_" +++ a; "_" +++ b; "_" +++ s; "_tvec_x"; "_tvec_y"; "_tvec_z"]).
    { inversion Hn as [|c0 H0|c0 H0]; subst a b s; repeat (constructor; [intros I; repeat (destruct I as [I|I]; [discriminate I|]); exact I|]); constructor. }
    revert N6 S6. generalize ["_" +++ a; "_" +++ b; "_" +++ s; "_tvec_x"; "_tvec_y"; "_tvec_z"]. intros six N6 S6. induction six as [|x six IH]; [exact D|]. inversion N6; subst. cbn [app]. constructor.
    - intros I. apply in_app_or in I. destruct I as [I|I]; [contradiction|]. destruct (K x I) as (t & [X|X]); destruct (S6 x x (or_introl eq_refl) eq_refl t); contradiction.
    - apply IH; [assumption|]. intros y z I. apply S6. now right. }
  split; [exact N|]. unfold det_reads. cbn [fst snd]. fold base.
  assert (V : forall n p, In (n, p) L -> value L n (v_val p)) by (intros n p I; apply getv_value; now apply getv_in).
  assert (I1 : incl (named3 (base +++ "_" +++ a, base +++ "_" +++ b, base +++ "_" +++ s) (detector_angles_euler ae (d_panel d) c) false 2 2 2) L) by (intros x I; apply in_or_app; now left).
  assert (I2 : incl (named3 (tvec_names base) (p_tvec (d_panel d)) true 1 (1 / 2) 1) L) by (intros x I; apply in_or_app; right; apply in_or_app; now left).
  unfold tvec_names, named3 in I1, I2.
  split; [|split; [|split; [|split]]].
  - exists (vx (detector_angles_euler ae (d_panel d) c)), (vy (detector_angles_euler ae (d_panel d) c)), (vz (detector_angles_euler ae (d_panel d) c)).
    split; [exact (V _ (around _ false 2) (I1 _ (or_introl eq_refl)))|]. split; [exact (V _ (around _ false 2) (I1 _ (or_intror (or_introl eq_refl))))|]. split; [exact (V _ (around _ false 2) (I1 _ (or_intror (or_intror (or_introl eq_refl)))))|].
    assert (Ho : orient (detector_angles_euler ae (d_panel d) c) = p_rmat (d_panel d)).
    { assert (Hx : forall n, fe n (radians3 (degrees3 (ae n (p_rmat (d_panel d))))) = p_rmat (d_panel d)) by (intros n; rewrite rad3_deg3; apply He).
      inversion Hn as [|c0 [->| ->]|c0 [->| ->]]; subst; [symmetry; apply expmap_same|..]; apply Hx. }
    rewrite <- Ho. f_equal. now destruct (detector_angles_euler ae (d_panel d) c).
  - exact (V _ (around _ true 1) (I2 _ (or_introl eq_refl))).
  - exact (V _ (around _ true (1 / 2)) (I2 _ (or_intror (or_introl eq_refl)))).
  - exact (V _ (around _ true 1) (I2 _ (or_intror (or_intror (or_introl eq_refl))))).
  - intros r Er. apply (V _ (unbounded r)). unfold L. apply in_or_app. right. apply in_or_app. right. apply in_or_app. right. rewrite Er. now left.
Qed.
Print Assumptions C163_panel_named.
(** a panel turned by a half turn cannot be updated under an Euler convention: its own angles raise *)
Theorem C163_half_turn_refuted : forall sp_from_matrix sp_as_rotvec from_euler as_euler c n l name d,
  normalize_euler_convention c = Some n -> from_euler n (as_euler n (p_rmat (d_panel d))) = p_rmat (d_panel d) ->
  unitq (sp_from_matrix (p_rmat (d_panel d))) /\ rotMatOfQuat (sp_from_matrix (p_rmat (d_panel d))) = p_rmat (d_panel d) -> tr (p_rmat (d_panel d)) = -1 ->
  det_params as_euler c (name, d) = Ok l -> validate_params l = Ok tt ->
  update_det sp_from_matrix sp_as_rotvec from_euler c l (name, d) = Err ValueError.
Proof.
  intros fm rv fe ae c n l name d En E1 U T E V. assert (N : NoDup (map fst l)) by now apply validate_lemma. unfold det_params in E. unfold update_det.
  destruct (param_names_euler_convention (dash_to_us name) c) as [[[n1 n2] n3]|] eqn:P; [|discriminate]. cbn [rbind] in E |- *.
  assert (E0 : forall (a b : params), Ok a = Ok b -> a = b) by (intros ? ? X; now injection X). apply E0 in E.
  rewrite (names3_in l n1 n2 n3 (detector_angles_euler ae (d_panel d) c) false 2 2 2 N); [|rewrite <- E; intros x Hx; apply in_or_app; now left].
  cbn [rbind]. now rewrite (half_turn fm rv fe ae c n (d_panel d) En E1 U T).
Qed.
Print Assumptions C163_half_turn_refuted.
Lemma getp_in l n p : NoDup (map fst l) -> In (n, p) l -> getp l n = Ok p.
Proof. intros N I. unfold getp. now rewrite (get_in l n p N I). Qed.
Lemma group_values_back fe ae c l prefix cp p : NoDup (map fst l) -> constrained_params ae c prefix cp = Ok p -> incl p l ->
  (forall n, normalize_euler_convention c = Some n -> fe n (ae n (rotMatOfExpMap (c_tilt cp))) = rotMatOfExpMap (c_tilt cp)) ->
  exists q, group_values c l prefix = Ok q /\ tilt_to_rmat fe c (g_tilt q) = rotMatOfExpMap (c_tilt cp) /\ g_tvec q = c_trans cp.
Proof.
  intros N E I X. unfold constrained_params in E. unfold group_values. destruct (param_names_euler_convention prefix c) as [[[n1 n2] n3]|]; [|discriminate]. cbn [rbind] in E |- *.
  assert (E0 : forall (a b : params), Ok a = Ok b -> a = b) by (intros ? ? Y; now injection Y). apply E0 in E.
  set (t := match normalize_euler_convention c with None => c_tilt cp | Some n => degrees3 (ae n (rotMatOfExpMap (c_tilt cp))) end) in *.
  assert (I1 : incl (named3 (tvec_names prefix) (c_trans cp) true 1 1 1) l) by (intros x Hx; apply I; rewrite <- E; apply in_or_app; now left).
  assert (I2 : incl (named3 (n1, n2, n3) t true 2 2 2) l) by (intros x Hx; apply I; rewrite <- E; apply in_or_app; now right).
  unfold tvec_names in *. rewrite (names3_in l n1 n2 n3 _ _ _ _ _ N I2). cbn [rbind]. rewrite (names3_in l _ _ _ _ _ _ _ _ N I1). cbn [rbind]. unfold named3 in I1, I2.
  rewrite (getp_in l n1 _ N (I2 _ (or_introl eq_refl))), (getp_in l n2 _ N (I2 _ (or_intror (or_introl eq_refl)))), (getp_in l n3 _ N (I2 _ (or_intror (or_intror (or_introl eq_refl))))).
  rewrite (getp_in l _ _ N (I1 _ (or_introl eq_refl))), (getp_in l _ _ N (I1 _ (or_intror (or_introl eq_refl)))), (getp_in l _ _ N (I1 _ (or_intror (or_intror (or_introl eq_refl))))).
  cbn [rbind]. eexists. split; [reflexivity|]. cbn [g_tilt g_tvec]. split; [|reflexivity]. unfold tilt_to_rmat, t. destruct (normalize_euler_convention c) as [n|]; [|reflexivity].
  rewrite rad3_deg3. now apply X.
Qed.
Lemma all_group_in ae c cps l : forall ps g, all_group_params ae c cps l = Ok ps -> In g l -> exists p, constrained_params ae c (dash_to_us g) (cps g) = Ok p /\ incl p ps.
Proof.
  induction l as [|x l IH]; intros ps g E I; [contradiction|]. cbn [all_group_params] in E. destruct (constrained_params ae c (dash_to_us x) (cps x)) as [p|] eqn:P; [|discriminate]. cbn [rbind] in E.
  destruct (all_group_params ae c cps l) as [q|] eqn:Q; [|discriminate]. cbn [rbind] in E. assert (E0 : forall (a b : params), Ok a = Ok b -> a = b) by (intros ? ? Y; now injection Y). apply E0 in E. subst ps.
  destruct I as [->|I]; [exists p; split; [exact P|]; intros y Hy; apply in_or_app; now left|].
  destruct (IH q g eq_refl I) as (p' & A & B). exists p'. split; [exact A|]. intros y Hy. apply in_or_app. right. auto.
Qed.
Lemma with_panels_same b l : forall ps, Forall2 (fun nd p => p_group p = p_group (d_panel (snd nd)) /\ pose p = pose (d_panel (snd nd))) l ps ->
  Forall2 (same_det b) l (with_panels (map (fun nd => (fst nd, Det (d_panel (snd nd)) (d_radius (snd nd)) (d_dist (snd nd)) b)) l) ps).
Proof.
  induction l as [|nd l IH]; intros ps F; inversion F as [|? p ? ps' [A B] F']; subst; unfold with_panels; cbn [map combine]; constructor; [|now apply IH].
  unfold same_det. cbn [fst snd d_panel d_radius d_dist d_bvec]. repeat split; auto.
Qed.
Lemma forall2_panels (P : panel -> panel -> Prop) l : forall ps, Forall2 P (map (fun nd : string * det => d_panel (snd nd)) l) ps -> Forall2 (fun nd p => P (d_panel (snd nd)) p) l ps.
Proof. induction l as [|nd l IH]; intros ps F; cbn [map] in F; inversion F; subst; constructor; auto. Qed.

(** the same under constraints: nothing moves, for a whole system and for groups *)
Theorem C163_constrained_partial : forall sp_from_matrix sp_as_rotvec rotvec from_euler as_euler c rel i l,
  create_instr_params as_euler c rel i = Ok l -> validate_params l = Ok tt ->
  (forall k b, In (k, b) (i_beams i) -> norm (b_vec b) = 1) -> In (i_active i) (map fst (i_beams i)) ->
  (forall nd, In nd (i_dets i) -> exact_tilt rotvec (p_rmat (d_panel (snd nd)))) ->
  match rel with
  | CNone => False
  | CGroup rc cps => forall g, In g (detector_groups (panels_of i)) -> forall n, normalize_euler_convention c = Some n -> from_euler n (as_euler n (rotMatOfExpMap (c_tilt (cps g)))) = rotMatOfExpMap (c_tilt (cps g))
  | CSystem rc cp => rc <> GroupMean /\ forall n, normalize_euler_convention c = Some n -> from_euler n (as_euler n (rotMatOfExpMap (c_tilt cp))) = rotMatOfExpMap (c_tilt cp)
  end ->
  exists i' rel', update_instrument_from_params sp_from_matrix sp_as_rotvec rotvec from_euler c rel (add_many l) i = Ok (i', rel') /\ same_instr i i'.
Proof.
  intros fm rv rot fe ae c rel i l E V U A X H. assert (N : NoDup (map fst l)) by now apply validate_lemma. rewrite (add_many_same l N).
  destruct (create_parts _ _ _ _ _ E) as (dp & El & Ed). unfold update_instrument_from_params.
  assert (I1 : incl (flat_map (beam_params (i_beams i)) (i_beams i)) l) by (rewrite El; intros x Hx; apply in_or_app; now left).
  assert (I2 : incl (frame_params i) l) by (rewrite El; intros x Hx; apply in_or_app; right; apply in_or_app; now left).
  assert (I3 : incl dp l) by (rewrite El; intros x Hx; apply in_or_app; right; apply in_or_app; now right).
  rewrite (beams_back l i N I1 U). cbn [rbind]. destruct (active_beam i A) as (b & Eb & Ib). unfold update_panel_beams. cbn [i_beams i_active i_chi i_tvec i_dets]. rewrite Eb. cbn [rbind i_dets].
  destruct (frame_back l i N I2) as [F1 F2]. rewrite F1, F2. cbn [rbind]. rewrite rad_deg.
  assert (XP : forall p, In p (panels_of i) -> exact_tilt rot (p_rmat p)). { intros p Hp. apply in_map_iff in Hp. destruct Hp as (nd & <- & Hn). now apply X. }
  destruct rel as [|rc cps|rc cp]; [contradiction| |].
  - destruct (map_r_ok (fun g => do q <- group_values c l (dash_to_us g); Ok (g, q)) (fun g gq => fst gq = g /\ tilt_to_rmat fe c (g_tilt (snd gq)) = rotMatOfExpMap (c_tilt (cps g)) /\ g_tvec (snd gq) = c_trans (cps g)) (detector_groups (panels_of i))) as (qs & Eq & Fq).
    { intros g Hg. destruct (all_group_in ae c cps _ dp g Ed Hg) as (p & Ep & Ip). destruct (group_values_back fe ae c l (dash_to_us g) (cps g) p N Ep) as (q & Eg & T1 & T2); [intros y Hy; apply I3; auto|now apply H|].
      rewrite Eg. cbn [rbind]. exists (g, q). cbn [fst snd]. auto. }
    rewrite Eq. cbn [rbind]. set (get := fun g => match dict_get qs g with Some q => q | None => GP vzero vzero false false end).
    destruct (update_groups rot (tilt_to_rmat fe c) rc get (panels_of i, cps)) as [panels cps'] eqn:G. cbn iota. eexists. eexists. split; [reflexivity|].
    destruct (groups_lemma rot (tilt_to_rmat fe c) rc get _ _ _ _ G) as (cc & _ & F & _ & _).
    unfold same_instr. cbn [i_beams i_active i_chi i_tvec i_dets]. split; [reflexivity|]. split; [reflexivity|]. split; [reflexivity|]. split; [reflexivity|]. exists b. split; [exact Ib|].
    apply with_panels_same. apply (forall2_panels (fun p p' => p_group p' = p_group p /\ pose p' = pose p)). fold (panels_of i).
    eapply Forall2_impl; [|exact F]. intros p p' Hp (G1 & G2). split; [exact G1|]. destruct (p_group p) as [g|] eqn:Eg; [|now subst]. subst p'.
    assert (In g (detector_groups (panels_of i))) as Ig by (apply groups_spec; eauto).
    assert (Q : exists q, dict_get qs g = Some q /\ tilt_to_rmat fe c (g_tilt q) = rotMatOfExpMap (c_tilt (cps g)) /\ g_tvec q = c_trans (cps g)).
    { clear - Fq Ig. induction Fq as [|h [h' q] gs qs (E1 & T) Fq IH]; [contradiction|]. cbn [fst snd] in *. subst h'. cbn [dict_get]. destruct (String.eqb_spec g h) as [->|D]; [eauto|].
      destruct Ig as [->|Ig]; [congruence|auto]. }
    destruct Q as (q & Eq' & T1 & T2). apply moved_zero; unfold get; rewrite Eq'; auto.
  - destruct H as [R H]. destruct (system_center_ok rc (panels_of i) R) as [ct Ec]. rewrite Ec. cbn [rbind].
    destruct (group_values_back fe ae c l "system" cp dp N Ed I3 H) as (q & Eg & T1 & T2). rewrite Eg. cbn [rbind]. unfold update_system. cbn [fst]. rewrite Ec. cbn [rbind]. rewrite (uc_spec _ _ _ ct q (panels_of i) cp all_sel). cbn [rbind fst snd].
    eexists. eexists. split; [reflexivity|].
    unfold same_instr. cbn [i_beams i_active i_chi i_tvec i_dets]. split; [reflexivity|]. split; [reflexivity|]. split; [reflexivity|]. split; [reflexivity|]. exists b. split; [exact Ib|].
    apply with_panels_same. apply (forall2_panels (fun p p' => p_group p' = p_group p /\ pose p' = pose p)). fold (panels_of i).
    apply Forall2_map_self. intros p Hp. split; [reflexivity|]. now apply moved_zero; [intros _; apply XP| |].
Qed.
Print Assumptions C163_constrained_partial.

(** C164: what an update sets, and that nothing else does *)
Lemma get3_values ps a b c v : get3 ps (a, b, c) = Ok v -> value ps a (vx v) /\ value ps b (vy v) /\ value ps c (vz v).
Proof.
  unfold get3. destruct (getv ps a) as [x|] eqn:A; [|discriminate]. cbn [rbind]. destruct (getv ps b) as [y|] eqn:B; [|discriminate]. cbn [rbind].
  destruct (getv ps c) as [z|] eqn:C; [|discriminate]. cbn [rbind]. intros E. injection E as <-. cbn [vx vy vz]. rewrite <- !getv_value. auto.
Qed.
Lemma forall2_map_l {A B C} (f : A -> B) (P : B -> C -> Prop) l : forall l', Forall2 P (map f l) l' -> Forall2 (fun x y => P (f x) y) l l'.
Proof. induction l as [|x l IH]; intros l' F; cbn [map] in F; inversion F; subst; constructor; auto. Qed.
Lemma distortion_any {V} name (l : list (string * V)) m vals e dist : update_distortion name l (Some m) = Ok (Some vals) -> update_distortion name l e = Ok dist -> dist = Some vals.
Proof.
  unfold update_distortion. destruct (existsb _ l); [|discriminate]. destruct e as [n|]; [|discriminate].
  match goal with |- context [rbind ?x _] => destruct x as [v|] end; [|discriminate]. cbn [rbind]. destruct (Nat.eqb (length v) m); [|discriminate]. destruct (Nat.eqb (length v) n); [|discriminate]. congruence.
Qed.
Lemma distortion_get name ps d dist g r b : update_distortion name (map (fun np => (fst np, v_val (snd np))) ps) (option_map (fun l => length l) (d_dist d)) = Ok dist ->
  distortion_reads ps (name, Det g r (match dist with Some vals => Some vals | None => d_dist d end) b).
Proof.
  intros E pre mine post -> Lm Hm Ho. cbn [fst snd d_dist] in *. set (vals := map (fun np : string * prm => v_val (snd np)) mine).
  assert (Lv : length vals = length mine) by apply map_length.
  assert (Em : map (fun np : string * prm => (fst np, v_val (snd np))) mine = distortion_params name vals).
  { unfold distortion_params. rewrite Lv. clear Lv. unfold vals. clear vals E Ho Lm. change (map fst mine = map (distortion_name name) (seq 0 (length mine))) in Hm. revert Hm. generalize 0%nat as k.
    induction mine as [|[n p] mine IH]; intros k Hm; cbn [map length seq combine fst snd] in *; [reflexivity|]. injection Hm as -> Hm. f_equal. now apply IH. }
  rewrite !map_app, Em in E. assert (X := distortion_roundtrip_lemma name vals (map (fun np : string * prm => (fst np, v_val (snd np))) pre) (map (fun np : string * prm => (fst np, v_val (snd np))) post)).
  rewrite (distortion_any name _ _ _ _ _ (X ltac:(lia) ltac:(intros x Hx; rewrite !map_map in Hx; cbn [fst] in Hx; now apply Ho)) E). reflexivity.
Qed.
(** every beam, the frame and every panel is where the parameters of its name say *)
Theorem C164_update_sets : forall sp_from_matrix sp_as_rotvec rotvec from_euler c ps i i' rel' suffixes orientation,
  angles_named from_euler c suffixes orientation ->
  (forall n v, c <> ENone -> let r := from_euler n v in
     rotation r /\ unitq (sp_from_matrix r) /\ rotMatOfQuat (sp_from_matrix r) = r /\ (forall q, unitq q -> rotMatOfQuat q = r -> rotMatOfExpMap (sp_as_rotvec q) = r)) ->
  update_instrument_from_params sp_from_matrix sp_as_rotvec rotvec from_euler c CNone ps i = Ok (i', rel') ->
  rel' = CNone /\ i_active i' = i_active i /\
  Forall2 (fun x y => fst y = fst x /\ (b_corr (snd y) = None <-> b_corr (snd x) = None) /\ beam_reads ps (beam_prefix (i_beams i) (fst x)) (snd y)) (i_beams i) (i_beams i') /\
  value ps "instr_chi" (degrees (i_chi i')) /\
  value ps "instr_tvec_x" (vx (i_tvec i')) /\ value ps "instr_tvec_y" (vy (i_tvec i')) /\ value ps "instr_tvec_z" (vz (i_tvec i')) /\
  exists b, In (i_active i', b) (i_beams i') /\
  Forall2 (fun x y => fst y = fst x /\ p_group (d_panel (snd y)) = p_group (d_panel (snd x)) /\ (d_radius (snd y) = None <-> d_radius (snd x) = None) /\ d_bvec (snd y) = b_vec b /\
                      det_reads orientation suffixes ps y /\ distortion_reads ps y) (i_dets i) (i_dets i').
Proof.
  intros fm rv rot fe c ps i i' rel' [[sa sb] sc] orient Hn Hc0 E.
  assert (Hs : euler_suffixes (normalize_euler_convention c) = Ok (sa, sb, sc)) by (inversion Hn as [|c0 [->| ->]|c0 [->| ->]]; subst; reflexivity).
  assert (Ho : forall v, orient v = tilt_to_rmat fe c v) by (inversion Hn as [|c0 [->| ->]|c0 [->| ->]]; subst; reflexivity).
  assert (Hc : forall n v, normalize_euler_convention c = Some n -> let r := fe n v in rotation r /\ unitq (fm r) /\ rotMatOfQuat (fm r) = r /\ (forall q, unitq q -> rotMatOfQuat q = r -> rotMatOfExpMap (rv q) = r)).
  { intros n v X. apply Hc0. intros ->. discriminate X. }
  unfold update_instrument_from_params in E.
  destruct (map_r (update_beam ps (i_beams i)) (i_beams i)) as [beams|] eqn:EB; [|discriminate]. cbn [rbind] in E. unfold update_panel_beams in E. cbn [i_beams i_active i_chi i_tvec i_dets] in E.
  destruct (dict_get beams (i_active i)) as [b|] eqn:Eb; [|discriminate]. cbn [rbind i_dets] in E.
  destruct (getv ps "instr_chi") as [chi|] eqn:Echi; [|discriminate]. cbn [rbind] in E.
  destruct (get3 ps ("instr_tvec_x", "instr_tvec_y", "instr_tvec_z")) as [tv|] eqn:Etv; [|discriminate]. cbn [rbind] in E.
  rewrite map_r_map in E. destruct (map_r _ (i_dets i)) as [dets|] eqn:ED in E; [|discriminate]. cbn [rbind] in E. injection E as <- <-. cbn [i_beams i_active i_chi i_tvec i_dets].
  split; [reflexivity|]. split; [reflexivity|]. split.
  { apply map_r_inv in EB. eapply Forall2_impl; [|exact EB]. clear EB ED. intros [k x] y _ E. unfold update_beam in E.
    set (pre := beam_prefix (i_beams i) k) in *.
    destruct (getv ps (pre +++ "beam_energy")) as [en|] eqn:E1; [|discriminate]. cbn [rbind] in E. destruct (getv ps (pre +++ "beam_azimuth")) as [az|] eqn:E2; [|discriminate]. cbn [rbind] in E.
    destruct (getv ps (pre +++ "beam_polar")) as [po|] eqn:E3; [|discriminate]. cbn [rbind] in E. cbn [fst snd].
    destruct (b_corr x) as [[a s]|] eqn:C.
    - destruct (getv ps (pre +++ "beam_energy_correction_slope")) as [sl|] eqn:E4; [|discriminate]. cbn [rbind] in E.
      destruct (getv ps (pre +++ "beam_energy_correction_intercept")) as [ic|] eqn:E5; [|discriminate]. cbn [rbind] in E. injection E as <-. cbn [fst snd b_corr].
      split; [reflexivity|]. split; [split; discriminate|]. unfold beam_reads. cbn [b_energy b_vec b_corr]. fold pre. split; [now apply getv_value|]. split; [exists az, po; rewrite <- !getv_value; auto|].
      intros a' s' X. injection X as <- <-. split; now apply getv_value.
    - cbn [rbind] in E. injection E as <-. cbn [fst snd b_corr]. split; [reflexivity|]. split; [tauto|]. unfold beam_reads. cbn [b_energy b_vec b_corr]. fold pre.
      split; [now apply getv_value|]. split; [exists az, po; rewrite <- !getv_value; auto|]. intros; discriminate. }
  rewrite deg_rad. split; [now apply getv_value|]. destruct (get3_values _ _ _ _ _ Etv) as (T1 & T2 & T3). split; [exact T1|]. split; [exact T2|]. split; [exact T3|].
  exists b. split; [now apply get_some_in|]. apply map_r_inv in ED. eapply Forall2_impl; [|exact ED]. clear ED EB. intros [name d] y _ E. cbn [fst snd] in E. unfold update_det in E. cbn [d_panel d_radius d_dist d_bvec] in E.
  unfold param_names_euler_convention in E. rewrite Hs in E. cbn [rbind] in E. set (base := dash_to_us name) in *.
  destruct (get3 ps _) as [an|] eqn:E1 in E; [|discriminate]. cbn [rbind] in E. destruct (tilt_from_angles fm rv fe c an) as [t|] eqn:E2; [|discriminate]. cbn [rbind] in E.
  destruct (get3 ps (tvec_names base)) as [tvec|] eqn:E3; [|discriminate]. cbn [rbind] in E.
  destruct (match d_radius d with None => Ok None | Some _ => do r <- getv ps (base +++ "_radius"); Ok (Some r) end) as [rad|] eqn:E4; [|discriminate]. cbn [rbind] in E.
  destruct (update_distortion name _ _) as [dist|] eqn:E5 in E; [|discriminate]. cbn [rbind] in E. injection E as <-. unfold det_reads. cbn [fst snd d_panel d_radius d_dist d_bvec p_group p_tvec]. fold base.
  split; [reflexivity|]. split; [reflexivity|]. destruct (get3_values _ _ _ _ _ E1) as (A1 & A2 & A3). unfold tvec_names in E3. destruct (get3_values _ _ _ _ _ E3) as (V1 & V2 & V3').
  assert (RR : (rad = None <-> d_radius d = None) /\ (forall r, rad = Some r -> value ps (base +++ "_radius") r)).
  { destruct (d_radius d) as [r0|]; [|injection E4 as <-; split; [tauto|discriminate]]. destruct (getv ps (base +++ "_radius")) as [r1|] eqn:G; [|discriminate]. cbn [rbind] in E4. injection E4 as <-.
    split; [split; discriminate|]. intros r X. injection X as <-. now apply getv_value. }
  split; [exact (proj1 RR)|]. split; [reflexivity|]. split; [|now apply (distortion_get name ps d dist)]. split; [|split; [exact V1|split; [exact V2|split; [exact V3'|exact (proj2 RR)]]]].
  exists (vx an), (vy an), (vz an). split; [exact A1|]. split; [exact A2|]. split; [exact A3|]. replace (V3 (vx an) (vy an) (vz an)) with an by now destruct an.
  rewrite Ho. unfold p_rmat. cbn [p_tilt]. unfold tilt_to_rmat. unfold tilt_from_angles in E2. destruct (normalize_euler_convention c) as [n|]; [|injection E2 as <-; apply expmap_same].
  destruct (Hc n (radians3 an) eq_refl) as (R1 & U & E6 & E7). unfold expMapOfQuat, quat_to_scipy in E2. destruct (Req_EM_T (norm4 _) 0) as [|NZ] in E2; [discriminate|]. cbn [rbind] in E2. injection E2 as <-.
  destruct (Req_dec (tr (fe n (radians3 an))) (-1)) as [T|T].
  { exfalso. apply NZ. rewrite (proj2 (from_matrix_lemma fm _ R1 (conj U E6)) T). unfold norm4, dot4, qzero. cbn [qw qx qy qz]. replace (0 * 0 + 0 * 0 + 0 * 0 + 0 * 0) with 0 by ring. apply sqrt_0. }
  destruct (proj1 (from_matrix_lemma fm _ R1 (conj U E6)) T) as (U' & _ & E8). rewrite expmap_same, (norm4_unit _ U').
  replace (qscale (/ 1) (quatOfRotMat fm (fe n (radians3 an)))) with (quatOfRotMat fm (fe n (radians3 an))); [now apply E7|].
  rewrite Rinv_1. unfold qscale. destruct (quatOfRotMat fm (fe n (radians3 an))) as [qa qb qc qd]. cbn [qw qx qy qz]. f_equal; ring.
Qed.
Print Assumptions C164_update_sets.
(** with constraints, the constraint of every group keeps the translation of its parameters if it is refined, and the one it had if not;
    so the next update moves the group by the difference *)
Lemma trans_after rv tr sel ctr q ps cp : c_trans (snd (update_constrained rv tr sel ctr q (ps, cp))) = if vary_tvec q then g_tvec q else c_trans cp.
Proof. unfold update_constrained. destruct (vary_tilt q), (vary_tvec q); reflexivity. Qed.
Lemma trans_groups rv tr rc params g : forall gs ps cps, c_trans (snd (fold_left (update_one_group rv tr rc params) gs (ps, cps)) g) = if existsb (String.eqb g) gs && vary_tvec (params g) then g_tvec (params g) else c_trans (cps g).
Proof.
  induction gs as [|h gs IH]; intros ps cps; [reflexivity|]. cbn [fold_left existsb]. unfold update_one_group at 2.
  pose proof (trans_after rv tr (in_group h) (group_center rc ps h) (params h) ps (cps h)) as T.
  destruct (update_constrained rv tr (in_group h) (group_center rc ps h) (params h) (ps, cps h)) as [ps' cp']. cbn [snd] in T. rewrite IH.
  destruct (String.eqb_spec g h) as [->|N]; cbn [orb]; [|reflexivity]. rewrite T. destruct (existsb (String.eqb h) gs), (vary_tvec (params h)); reflexivity.
Qed.
Lemma group_dict (f : string -> result gparams) g : forall l qs, map_r (fun g => do q <- f g; Ok (g, q)) l = Ok qs -> In g l -> exists q, dict_get qs g = Some q /\ f g = Ok q.
Proof.
  induction l as [|h l IH]; intros qs E I; [contradiction|]. cbn [map_r] in E. destruct (f h) as [q|] eqn:F; [|discriminate]. cbn [rbind] in E.
  destruct (map_r _ l) as [t|] eqn:E2 in E; [|discriminate]. injection E as <-. cbn [dict_get]. destruct (String.eqb_spec g h) as [->|N]; [eauto|]. destruct I as [->|I]; [congruence|]. now apply (IH t).
Qed.
Theorem C164_groups_kept : forall sp_from_matrix sp_as_rotvec rotvec from_euler c rc cps ps i i' rel',
  update_instrument_from_params sp_from_matrix sp_as_rotvec rotvec from_euler c (CGroup rc cps) ps i = Ok (i', rel') ->
  exists cps', rel' = CGroup rc cps' /\ forall name d g, In (name, d) (i_dets i) -> p_group (d_panel d) = Some g ->
    exists px py pz, let base := dash_to_us g in
      dict_get ps (base +++ "_tvec_x") = Some px /\ dict_get ps (base +++ "_tvec_y") = Some py /\ dict_get ps (base +++ "_tvec_z") = Some pz /\
      ((v_vary px = true \/ v_vary py = true \/ v_vary pz = true) -> c_trans (cps' g) = V3 (v_val px) (v_val py) (v_val pz)) /\
      (v_vary px = false -> v_vary py = false -> v_vary pz = false -> c_trans (cps' g) = c_trans (cps g)).
Proof.
  intros fm rv rot fe c rc cps ps i i' rel' E. unfold update_instrument_from_params in E.
  destruct (map_r (update_beam ps (i_beams i)) (i_beams i)) as [beams|]; [|discriminate]. cbn [rbind] in E. destruct (update_panel_beams _) as [i1|]; [|discriminate]. cbn [rbind] in E.
  destruct (getv ps "instr_chi") as [chi|]; [|discriminate]. cbn [rbind] in E. destruct (get3 ps ("instr_tvec_x", "instr_tvec_y", "instr_tvec_z")) as [tv|]; [|discriminate]. cbn [rbind] in E.
  destruct (map_r _ (detector_groups (panels_of i))) as [qs|] eqn:Q in E; [|discriminate]. cbn [rbind] in E.
  unfold update_groups in E. cbn [fst] in E. set (get := fun g => match dict_get qs g with Some q => q | None => GP vzero vzero false false end) in E.
  pose proof (trans_groups rot (tilt_to_rmat fe c) rc get) as T.
  destruct (fold_left (update_one_group rot (tilt_to_rmat fe c) rc get) (detector_groups (panels_of i)) (panels_of i, cps)) as [panels cps'] eqn:F. injection E as <- <-. exists cps'. split; [reflexivity|].
  intros name d g I G. assert (Ig : In g (detector_groups (panels_of i))) by (apply groups_spec; exists (d_panel d); split; [|exact G]; unfold panels_of; apply in_map_iff; exists (name, d); auto).
  specialize (T g (detector_groups (panels_of i)) (panels_of i) cps). rewrite F in T. cbn [snd] in T.
  assert (X : existsb (String.eqb g) (detector_groups (panels_of i)) = true) by (apply existsb_exists; exists g; split; [exact Ig|apply String.eqb_refl]). rewrite X in T. cbn [andb] in T.
  destruct (group_dict _ g _ _ Q Ig) as (q & Dq & Vq). unfold get in T. rewrite Dq in T.
  unfold group_values in Vq. destruct (param_names_euler_convention (dash_to_us g) c) as [[[a b] e]|]; [|discriminate]. cbn [rbind] in Vq. unfold tvec_names in Vq. cbv beta iota zeta in Vq.
  destruct (get3 ps (a, b, e)) as [tilt|]; [|discriminate]. cbn [rbind] in Vq. unfold get3, getv in Vq. unfold getp in Vq.
  destruct (dict_get ps (dash_to_us g +++ "_tvec_x")) as [px|] eqn:Dx; [|discriminate]. destruct (dict_get ps (dash_to_us g +++ "_tvec_y")) as [py|] eqn:Dy; [|discriminate]. destruct (dict_get ps (dash_to_us g +++ "_tvec_z")) as [pz|] eqn:Dz; [|discriminate]. cbn [rbind] in Vq.
  destruct (dict_get ps a) as [pa|]; [|discriminate]. destruct (dict_get ps b) as [pb|]; [|discriminate]. destruct (dict_get ps e) as [pe|]; [|discriminate]. cbn [rbind] in Vq. injection Vq as <-.
  exists px, py, pz. cbv zeta. split; [exact Dx|]. split; [exact Dy|]. split; [exact Dz|]. cbn [vary_tvec g_tvec] in T. rewrite T. split.
  - intros [H|[H|H]]; rewrite H, ?orb_true_r; reflexivity.
  - intros -> -> ->. reflexivity.
Qed.
Print Assumptions C164_groups_kept.

(** C165: the state after an update is that of the last values; what was tried before them does not matter *)
Lemma map_r_forall2 {A A' B} (f : A -> result B) (g : A' -> result B) l : forall l', Forall2 (fun x y => f x = g y) l l' -> map_r f l = map_r g l'.
Proof. intros l' F. induction F as [|x y l l' E _ IH]; [reflexivity|]. cbn [map_r]. now rewrite E, IH. Qed.
Lemma forall2_length {A B} (P : A -> B -> Prop) l l' : Forall2 P l l' -> length l = length l'.
Proof. induction 1; cbn [length]; congruence. Qed.
Lemma names_existsb {V W} (f : string -> bool) (l : list (string * V)) : forall l' : list (string * W), map fst l = map fst l' -> existsb (fun p => f (fst p)) l = existsb (fun p => f (fst p)) l'.
Proof. induction l as [|[k v] l IH]; intros [|[k' v'] l'] E; cbn [map fst] in E; try discriminate; [reflexivity|]. injection E as -> E. cbn [existsb fst]. now rewrite (IH l' E). Qed.
Lemma update_distortion_cases {V} name (l : list (string * V)) e d : update_distortion name l e = Ok d ->
  if existsb (fun p => containsb (dash_to_us name +++ "_distortion_param") (fst p)) l then exists vals n, d = Some vals /\ e = Some n /\ length vals = n else d = None.
Proof.
  unfold update_distortion. destruct (existsb _ l); [|intros E; now injection E as <-]. destruct e as [n|]; [|discriminate].
  match goal with |- context [rbind ?x _] => destruct x as [vals|] end; [|discriminate]. cbn [rbind]. destruct (Nat.eqb (length vals) n) eqn:En; [|discriminate].
  intros E. injection E as <-. exists vals, n. apply Nat.eqb_eq in En. auto.
Qed.
Lemma instr_absorb fm rv rot fe c p1 p2 i i1 r1 : map fst p1 = map fst p2 ->
  update_instrument_from_params fm rv rot fe c CNone p1 i = Ok (i1, r1) ->
  r1 = CNone /\ update_instrument_from_params fm rv rot fe c CNone p2 i1 = update_instrument_from_params fm rv rot fe c CNone p2 i.
Proof.
  intros Hn E. unfold update_instrument_from_params in E.
  destruct (map_r (update_beam p1 (i_beams i)) (i_beams i)) as [beams|] eqn:EB; [|discriminate]. cbn [rbind] in E. unfold update_panel_beams in E. cbn [i_beams i_active i_chi i_tvec i_dets] in E.
  destruct (dict_get beams (i_active i)) as [b|] eqn:Eb; [|discriminate]. cbn [rbind i_dets] in E.
  destruct (getv p1 "instr_chi") as [chi|] eqn:Echi; [|discriminate]. cbn [rbind] in E.
  destruct (get3 p1 ("instr_tvec_x", "instr_tvec_y", "instr_tvec_z")) as [tv|] eqn:Etv; [|discriminate]. cbn [rbind] in E.
  rewrite map_r_map in E. destruct (map_r _ (i_dets i)) as [dets|] eqn:ED in E; [|discriminate]. cbn [rbind] in E. injection E as <- <-. split; [reflexivity|].
  unfold update_instrument_from_params. cbn [i_beams i_active i_chi i_tvec i_dets].
  assert (B : map_r (update_beam p2 beams) beams = map_r (update_beam p2 (i_beams i)) (i_beams i)).
  { apply map_r_inv in EB. symmetry. apply map_r_forall2. assert (L : length (i_beams i) = length beams) by (eapply forall2_length; exact EB).
    eapply Forall2_impl; [|exact EB]. clear EB. intros [k x] y _ Ex. unfold update_beam in Ex. set (pre := beam_prefix (i_beams i) k) in *.
    destruct (getv p1 (pre +++ "beam_energy")); [|discriminate]. cbn [rbind] in Ex. destruct (getv p1 (pre +++ "beam_azimuth")); [|discriminate]. cbn [rbind] in Ex.
    destruct (getv p1 (pre +++ "beam_polar")); [|discriminate]. cbn [rbind] in Ex.
    destruct (b_corr x) as [[ca cs]|] eqn:C.
    - destruct (getv p1 (pre +++ "beam_energy_correction_slope")); [|discriminate]. cbn [rbind] in Ex. destruct (getv p1 (pre +++ "beam_energy_correction_intercept")); [|discriminate]. cbn [rbind] in Ex.
      injection Ex as <-. unfold update_beam. unfold beam_prefix. rewrite L, C. reflexivity.
    - cbn [rbind] in Ex. injection Ex as <-. unfold update_beam. unfold beam_prefix. rewrite L, C. reflexivity. }
  rewrite B. destruct (map_r (update_beam p2 (i_beams i)) (i_beams i)) as [beams2|]; [|reflexivity]. cbn [rbind]. unfold update_panel_beams. cbn [i_beams i_active i_chi i_tvec i_dets].
  destruct (dict_get beams2 (i_active i)) as [b2|]; [|reflexivity]. cbn [rbind i_dets]. destruct (getv p2 "instr_chi"); [|reflexivity]. cbn [rbind].
  destruct (get3 p2 _) as [tv2|]; [|reflexivity]. cbn [rbind]. rewrite !map_r_map.
  match goal with |- rbind ?x _ = rbind ?y _ => assert (D : x = y) end; [|now rewrite D].
  symmetry. apply map_r_forall2. apply map_r_inv in ED. eapply Forall2_impl; [|exact ED]. clear ED EB B. intros [name d] y _ Ex. cbn [fst snd] in Ex |- *. unfold update_det in Ex. cbn [d_panel d_radius d_dist d_bvec] in Ex.
  destruct (param_names_euler_convention (dash_to_us name) c) as [ns|] eqn:Ns; [|discriminate]. cbn [rbind] in Ex.
  destruct (get3 p1 ns) as [an|]; [|discriminate]. cbn [rbind] in Ex. destruct (tilt_from_angles fm rv fe c an) as [t|]; [|discriminate]. cbn [rbind] in Ex.
  destruct (get3 p1 (tvec_names (dash_to_us name))) as [tvec|]; [|discriminate]. cbn [rbind] in Ex.
  destruct (match d_radius d with None => Ok None | Some _ => do r <- getv p1 (dash_to_us name +++ "_radius"); Ok (Some r) end) as [rad|] eqn:E4; [|discriminate]. cbn [rbind] in Ex.
  destruct (update_distortion name _ _) as [dist|] eqn:E5 in Ex; [|discriminate]. cbn [rbind] in Ex. injection Ex as <-. cbn [fst snd d_panel d_radius d_dist d_bvec p_group].
  unfold update_det. cbn [fst snd d_panel d_radius d_dist d_bvec p_group]. rewrite Ns. cbn [rbind]. destruct (get3 p2 ns); [|reflexivity]. cbn [rbind]. destruct (tilt_from_angles fm rv fe c _); [|reflexivity]. cbn [rbind].
  destruct (get3 p2 (tvec_names (dash_to_us name))); [|reflexivity]. cbn [rbind].
  assert (RR : match d_radius d with None => Ok None | Some _ => do r <- getv p2 (dash_to_us name +++ "_radius"); Ok (Some r) end =
               match rad with None => Ok None | Some _ => do r <- getv p2 (dash_to_us name +++ "_radius"); Ok (Some r) end).
  { destruct (d_radius d); [|now injection E4 as <-]. destruct (getv p1 (dash_to_us name +++ "_radius")); [|discriminate]. cbn [rbind] in E4. now injection E4 as <-. }
  rewrite RR. destruct (match rad with None => _ | Some _ => _ end); [|reflexivity]. cbn [rbind].
  apply update_distortion_cases in E5.
  rewrite (names_existsb (containsb (dash_to_us name +++ "_distortion_param")) _ (map (fun np => (fst np, v_val (snd np))) p2)) in E5; [|rewrite !map_map; exact Hn].
  set (q2 := map (fun np => (fst np, v_val (snd np))) p2) in *. destruct (existsb _ q2) eqn:Ex in E5.
  - destruct E5 as (vals & n & -> & En & Lv). cbn [option_map]. rewrite Lv, En. destruct (update_distortion name q2 (Some n)) as [d2|] eqn:E6; [|reflexivity].
    cbn [rbind]. apply update_distortion_cases in E6. rewrite Ex in E6. destruct E6 as (v2 & n2 & -> & _). reflexivity.
  - rewrite E5. destruct (d_dist d) as [vals|]; reflexivity.
Qed.
Lemma names_get {V W} (l : list (string * V)) (l' : list (string * W)) k : map fst l = map fst l' -> (dict_get l k = None <-> dict_get l' k = None).
Proof. intros E. now rewrite !get_none, E. Qed.
Definition set_energy (ps : params) (m : mat) : mat := match dict_get ps "beam_energy" with Some p => Mat (m_name m) (m_type m) (m_lparms m) (v_val p) | None => m end.
Definition newvals (ps : params) (x : mat) : list R :=
  map (fun i => match dict_get ps (lp_name x i) with Some p => v_val p * (if Nat.ltb i 3 then 1 / 10 else 1) | None => nth i (m_lparms x) 0 end) (seq 0 6).
Lemma material_absorb p1 p2 m : map fst p1 = map fst p2 -> update_material_from_params p2 (update_material_from_params p1 m) = update_material_from_params p2 m.
Proof.
  intros Hn.
  change (update_material_from_params p1 m) with (set_energy p1 (set_lparms m (newvals p1 m))). set (L1 := newvals p1 m). set (m1 := set_energy p1 (set_lparms m L1)).
  change (set_energy p2 (set_lparms m1 (newvals p2 m1)) = set_energy p2 (set_lparms m (newvals p2 m))).
  assert (N1 : m_name m1 = m_name m) by (unfold m1, set_energy; now destruct (dict_get p1 "beam_energy")).
  assert (T1 : m_type m1 = m_type m) by (unfold m1, set_energy; now destruct (dict_get p1 "beam_energy")).
  assert (L : m_lparms m1 = m_lparms (set_lparms m L1)) by (unfold m1, set_energy; now destruct (dict_get p1 "beam_energy")).
  assert (F : forall v v', (forall i, In i (free_idx (m_type m)) -> nth i v 0 = nth i v' 0) -> m_lparms (set_lparms m v) = m_lparms (set_lparms m v')).
  { intros v v' H. unfold set_lparms. cbn [m_lparms]. f_equal.
    assert (X : map (fun i => nth i (map (fun i0 => nth i0 v 0 * (if Nat.ltb i0 3 then 10 else 1)) (seq 0 6)) 0) (free_idx (m_type m)) =
                map (fun i => nth i (map (fun i0 => nth i0 v' 0 * (if Nat.ltb i0 3 then 10 else 1)) (seq 0 6)) 0) (free_idx (m_type m))); [|now rewrite X].
    apply map_ext_in. intros i Hi. assert (Hi6 : (i < 6)%nat) by (destruct (m_type m); cbn in Hi; lia).
    assert (W : forall w, nth i (map (fun i0 => nth i0 w 0 * (if Nat.ltb i0 3 then 10 else 1)) (seq 0 6)) 0 = nth i w 0 * (if Nat.ltb i 3 then 10 else 1)).
    { intros w. clear - Hi6. do 6 (destruct i as [|i]; [reflexivity|]). lia. }
    rewrite !W. now rewrite (H i Hi). }
  assert (B : forall i, In i (free_idx (m_type m)) -> nth i (m_lparms (set_lparms m L1)) 0 = nth i L1 0).
  { intros i Hi. unfold set_lparms. cbn [m_lparms]. destruct (m_type m); cbn [free_idx In] in Hi; repeat (destruct Hi as [<-|Hi]; [cbn; field|]); contradiction. }
  assert (G : forall i ps, (i < 6)%nat -> forall x : mat, nth i (newvals ps x) 0 =
    match dict_get ps (lp_name x i) with Some p => v_val p * (if Nat.ltb i 3 then 1 / 10 else 1) | None => nth i (m_lparms x) 0 end).
  { intros i ps Hi x. do 6 (destruct i as [|i]; [reflexivity|]). lia. }
  assert (E : forall x y, m_name x = m_name y -> m_type x = m_type y -> m_lparms x = m_lparms y -> (dict_get p2 "beam_energy" = None -> m_energy x = m_energy y) -> set_energy p2 x = set_energy p2 y).
  { intros [n t l e] [n' t' l' e']. cbn [m_name m_type m_lparms m_energy]. intros -> -> -> H. unfold set_energy. cbn [m_name m_type m_lparms]. destruct (dict_get p2 "beam_energy"); [reflexivity|]. now rewrite H. }
  apply E.
  - exact N1.
  - exact T1.
  - replace (m_lparms (set_lparms m1 (newvals p2 m1))) with (m_lparms (set_lparms m (newvals p2 m1))) by (unfold set_lparms; cbn [m_lparms]; now rewrite T1).
    apply F. intros i Hi. assert (Hi6 : (i < 6)%nat) by (destruct (m_type m); cbn in Hi; lia). rewrite !(G i p2 Hi6). unfold lp_name. rewrite N1.
    destruct (dict_get p2 (dash_to_us (m_name m) +++ "_" +++ nth i lpname "")) eqn:D; [reflexivity|]. rewrite L, (B i Hi). unfold L1. rewrite (G i p1 Hi6). unfold lp_name. rewrite (proj2 (names_get p1 p2 _ Hn) D). reflexivity.
  - intros D. cbn [set_lparms m_energy]. unfold m1, set_energy. now rewrite (proj2 (names_get p1 p2 _ Hn) D).
Qed.
Definition target (cb : calib) : list nat := match cb with Powder m _ [] => [] | Powder m _ _ => [m] | Grain _ _ _ _ _ => [] end.
Definition mats_after (ps : params) (ts : list nat) (mats : list mat) : list mat :=
  fold_left (fun ms m => set_nth m (update_material_from_params ps (nth m ms dmat)) ms) ts mats.
Definition upd_c (rot : m3 -> v3) (fe : string * bool -> v3 -> m3) (ps : params) (cb : calib) : result calib := do x <- update_calib rot fe ps [] cb; Ok (snd x).
Lemma update_calibs_split rot fe ps cbs : forall mats, update_calibs rot fe ps mats cbs =
  do cbs' <- map_r (upd_c rot fe ps) cbs; Ok (mats_after ps (flat_map target cbs) mats, cbs').
Proof.
  induction cbs as [|cb cbs IH]; intros mats; cbn [update_calibs map_r flat_map]; [reflexivity|]. unfold upd_c at 1. destruct cb as [m refs names|name gp c refs names].
  - cbn [update_calib rbind fst snd]. rewrite IH. destruct (map_r (upd_c rot fe ps) cbs); [|reflexivity]. cbn [rbind fst snd]. destruct names; reflexivity.
  - cbn [update_calib]. destruct (map_r (getv ps) names) as [v|]; [|reflexivity]. cbn [rbind]. destruct (set_grain_params_euler rot fe c v); [|reflexivity]. cbn [rbind fst snd]. rewrite IH.
    destruct (map_r (upd_c rot fe ps) cbs); reflexivity.
Qed.
Lemma set_nth_length {A} n (x : A) l : length (set_nth n x l) = length l.
Proof. unfold set_nth. rewrite <- (firstn_skipn n l) at 3. rewrite !app_length. f_equal. now destruct (skipn n l). Qed.
Lemma set_nth_nth {A} n (x d : A) l j : nth j (set_nth n x l) d = if andb (Nat.eqb j n) (Nat.ltb j (length l)) then x else nth j l d.
Proof.
  unfold set_nth. revert n j. induction l as [|a l IH]; intros n j; [rewrite firstn_nil, skipn_nil; cbn [app length]; destruct (Nat.eqb j n); reflexivity|].
  destruct n as [|n]; destruct j as [|j]; try reflexivity. cbn [firstn skipn app nth]. rewrite IH. reflexivity.
Qed.
Lemma mats_after_nth ps ts : forall mats, length (mats_after ps ts mats) = length mats /\
  forall j, (j < length mats)%nat -> nth j (mats_after ps ts mats) dmat = if existsb (Nat.eqb j) ts then update_material_from_params ps (nth j mats dmat) else nth j mats dmat.
Proof.
  induction ts as [|t ts IH]; intros mats; unfold mats_after; cbn [fold_left existsb]; [auto|]. fold (mats_after ps ts).
  destruct (IH (set_nth t (update_material_from_params ps (nth t mats dmat)) mats)) as [L K]. rewrite set_nth_length in *. split; [exact L|].
  intros j Hj. unfold mats_after in K. rewrite (K j Hj). rewrite set_nth_nth. replace (Nat.ltb j (length mats)) with true by (symmetry; now apply Nat.ltb_lt).
  destruct (Nat.eqb j t) eqn:Ej; cbn [andb orb].
  - apply Nat.eqb_eq in Ej. subst t. destruct (existsb (Nat.eqb j) ts); [|reflexivity]. now apply material_absorb.
  - reflexivity.
Qed.
Lemma mats_absorb p1 p2 ts mats : map fst p1 = map fst p2 -> mats_after p2 ts (mats_after p1 ts mats) = mats_after p2 ts mats.
Proof.
  intros Hn. destruct (mats_after_nth p1 ts mats) as [L1 K1]. destruct (mats_after_nth p2 ts mats) as [L2 K2]. destruct (mats_after_nth p2 ts (mats_after p1 ts mats)) as [L3 K3].
  apply (nth_ext _ _ dmat dmat); [congruence|]. intros j Hj. rewrite L3, L1 in Hj. rewrite (K3 j) by now rewrite L1. rewrite (K1 j Hj), (K2 j Hj). destruct (existsb (Nat.eqb j) ts); [|reflexivity]. now apply material_absorb.
Qed.
Lemma all_absorb fm rv rot fe c p1 p2 st st1 : s_rel st = CNone -> map fst p1 = map fst p2 -> update_all_from_params fm rv rot fe c p1 st = Ok st1 ->
  s_rel st1 = CNone /\ update_all_from_params fm rv rot fe c p2 st1 = update_all_from_params fm rv rot fe c p2 st.
Proof.
  intros R Hn E. unfold update_all_from_params in E. rewrite R in E. destruct (update_instrument_from_params fm rv rot fe c CNone p1 (s_instr st)) as [[i1 r1]|] eqn:Ei; [|discriminate]. cbn [rbind] in E.
  destruct (instr_absorb _ _ _ _ _ p1 p2 _ _ _ Hn Ei) as [-> A]. rewrite update_calibs_split in E. destruct (map_r (upd_c rot fe p1) (s_calibs st)) as [cbs1|] eqn:Ec; [|discriminate]. cbn [rbind fst snd] in E.
  injection E as <-. cbn [s_rel]. split; [reflexivity|]. unfold update_all_from_params. cbn [s_rel s_instr s_mats s_calibs]. rewrite A, R.
  destruct (update_instrument_from_params fm rv rot fe c CNone p2 (s_instr st)) as [x|]; [|reflexivity]. cbn [rbind]. rewrite !update_calibs_split.
  apply map_r_inv in Ec.
  assert (T : flat_map target cbs1 = flat_map target (s_calibs st) /\ map_r (upd_c rot fe p2) cbs1 = map_r (upd_c rot fe p2) (s_calibs st)).
  { clear A Ei. induction Ec as [|cb cb1 cbs cbs1' E _ [IH1 IH2]]; [auto|]. cbn [flat_map map_r]. rewrite IH1, IH2. unfold upd_c in E. destruct cb as [m refs names|name gp c' refs names]; cbn [update_calib rbind] in E.
    - injection E as <-. auto.
    - destruct (map_r (getv p1) names); [|discriminate]. cbn [rbind] in E. destruct (set_grain_params_euler rot fe c' _); [|discriminate]. cbn [rbind snd] in E. injection E as <-. split; reflexivity. }
  destruct T as [-> ->]. destruct (map_r (upd_c rot fe p2) (s_calibs st)); [|reflexivity]. cbn [rbind]. now rewrite mats_absorb.
Qed.
(** however many parameter sets the optimiser tries, and whichever they are, the instrument, materials and grains end up as if the
    answer had been applied to the state at the start *)
Theorem C165_history : forall sp_from_matrix sp_as_rotvec rotvec from_euler c tried answer st st',
  s_rel st = CNone -> (forall ps, In ps tried -> map fst ps = map fst answer) ->
  run_calibration sp_from_matrix sp_as_rotvec rotvec from_euler c tried answer st = Ok st' ->
  update_all_from_params sp_from_matrix sp_as_rotvec rotvec from_euler c answer st = Ok st'.
Proof.
  intros fm rv rot fe c tried answer st st' R H E. unfold run_calibration in E. revert st R E. induction tried as [|p tried IH]; intros st R E; cbn [fold_left rbind] in E; [exact E|].
  destruct (update_all_from_params fm rv rot fe c p st) as [st1|e] eqn:E1.
  - destruct (all_absorb _ _ _ _ _ p answer _ _ R (H p (or_introl eq_refl)) E1) as [R1 A]. rewrite <- A. apply IH; auto. intros ps Hp. apply H. now right.
  - exfalso. clear IH H. assert (K : forall l, fold_left (fun r ps => do s <- r; update_all_from_params fm rv rot fe c ps s) l (Err e) = Err e) by (induction l; auto). rewrite K in E. discriminate.
Qed.
Print Assumptions C165_history.

(** C166: materials *)
(** the unit of a lattice parameter as a parameter: angstroms for lengths (nanometres in the cell), degrees for angles *)
Definition shown (i : nat) (x : R) : R := if Nat.ltb i 3 then 10 * x else x.
Lemma free_lt t i : In i (free_idx t) -> (i < 6)%nat.
Proof. destruct t; cbn; lia. Qed.
(** the parameters of a material: one for each free lattice parameter of its lattice type, in order, with the refinement given for it *)
Theorem C166_material_params : forall m refs,
  match refs with
  | Some rs => if Nat.ltb (length rs) (length (free_idx (m_type m))) then create_material_params m refs = Err IndexError else
      exists ps, create_material_params m refs = Ok ps /\ map fst ps = map (lp_name m) (free_idx (m_type m)) /\ map (fun np => v_vary (snd np)) ps = firstn (length ps) rs /\
        map (fun np => v_val (snd np)) ps = map (fun i => shown i (nth i (m_lparms m) 0)) (free_idx (m_type m)) /\ (forall n p, In (n, p) ps -> within p)
  | None => exists ps, create_material_params m refs = Ok ps /\ map fst ps = map (lp_name m) (free_idx (m_type m)) /\ (forall np, In np ps -> v_vary (snd np) = true) /\
        map (fun np => v_val (snd np)) ps = map (fun i => shown i (nth i (m_lparms m) 0)) (free_idx (m_type m)) /\ (forall n p, In (n, p) ps -> within p)
  end.
Proof.
  intros m refs.
  assert (W : forall v b d, 0 < d -> within (around v b d)).
  { intros v b d Hd. unfold within, around. cbn [v_min v_max v_val]. split; [intros x X; injection X as <-; lra|]. split; [intros x X; injection X as <-; lra|]. intros x y X Y. injection X as <-. injection Y as <-. lra. }
  destruct refs as [rs|].
  - unfold create_material_params. destruct (m_type m) eqn:T; cbn [free_idx length];
    repeat (destruct rs as [|? rs]; [cbn [length Nat.ltb Nat.leb]; unfold material_loop; cbn [seq]; rewrite ?T; reflexivity|]);
    cbn [length Nat.ltb Nat.leb]; unfold material_loop; cbn [seq]; rewrite ?T; cbn [is_editable free_idx existsb Nat.eqb orb rbind Nat.ltb Nat.leb];
    (eexists; split; [reflexivity|]; split; [reflexivity|]; split; [reflexivity|]; split;
     [cbn [map fst snd v_val around shown Nat.ltb Nat.leb]; repeat (apply f_equal2; [cbn; ring|]); reflexivity
     |intros n p Hp; cbn [In] in Hp; repeat (destruct Hp as [X|Hp]; [injection X as <- <-; apply W; lra|]); contradiction]).
  - unfold create_material_params. destruct (m_type m) eqn:T; unfold material_loop; cbn [seq]; rewrite ?T; cbn [is_editable free_idx existsb Nat.eqb orb rbind Nat.ltb Nat.leb];
    (eexists; split; [reflexivity|]; split; [reflexivity|]; split; [intros np Hp; cbn [In] in Hp; repeat (destruct Hp as [<-|Hp]; [reflexivity|]); contradiction|]; split;
     [cbn [map fst snd v_val around shown Nat.ltb Nat.leb]; repeat (apply f_equal2; [cbn; ring|]); reflexivity
     |intros n p Hp; cbn [In] in Hp; repeat (destruct Hp as [X|Hp]; [injection X as <- <-; apply W; lra|]); contradiction]).
Qed.
Print Assumptions C166_material_params.
Lemma new_nth ps x i : (i < 6)%nat -> nth i (newvals ps x) 0 = match dict_get ps (lp_name x i) with Some p => v_val p * (if Nat.ltb i 3 then 1 / 10 else 1) | None => nth i (m_lparms x) 0 end.
Proof. intros Hi. do 6 (destruct i as [|i]; [reflexivity|]). lia. Qed.
(** a material updated from parameters is a cell of its lattice type with the values of its parameters, whatever it was before *)
Theorem C166_material_update : forall ps m, let m' := update_material_from_params ps m in
  m_name m' = m_name m /\ m_type m' = m_type m /\ conforms (m_type m) (m_lparms m') /\
  (forall i x, In i (free_idx (m_type m)) -> value ps (lp_name m i) x -> shown i (nth i (m_lparms m') 0) = x) /\
  (forall e, value ps "beam_energy" e -> m_energy m' = e).
Proof.
  intros ps m. cbv zeta. change (update_material_from_params ps m) with (set_energy ps (set_lparms m (newvals ps m))).
  assert (N1 : m_name (set_energy ps (set_lparms m (newvals ps m))) = m_name m) by (unfold set_energy; now destruct (dict_get ps "beam_energy")).
  assert (T1 : m_type (set_energy ps (set_lparms m (newvals ps m))) = m_type m) by (unfold set_energy; now destruct (dict_get ps "beam_energy")).
  assert (L : m_lparms (set_energy ps (set_lparms m (newvals ps m))) = m_lparms (set_lparms m (newvals ps m))) by (unfold set_energy; now destruct (dict_get ps "beam_energy")).
  split; [exact N1|]. split; [exact T1|]. rewrite L. split; [|split].
  - unfold set_lparms. cbn [m_lparms]. do 6 eexists. split; [reflexivity|]. destruct (m_type m); cbn; repeat split; field.
  - intros i x Hi (p & D & Ev). assert (B : nth i (m_lparms (set_lparms m (newvals ps m))) 0 = nth i (newvals ps m) 0).
    { unfold set_lparms. cbn [m_lparms]. destruct (m_type m); cbn [free_idx In] in Hi; repeat (destruct Hi as [<-|Hi]; [cbn; field|]); contradiction. }
    rewrite B, new_nth, D, Ev by now apply (free_lt (m_type m)). unfold shown. destruct (Nat.ltb i 3); field.
  - intros e (p & D & Ev). unfold set_energy. now rewrite D.
Qed.
Print Assumptions C166_material_update.
(** a material updated from its own parameters is the cell it was *)
Theorem C166_material_round_trip : forall m refs l ps, conforms (m_type m) (m_lparms m) -> create_material_params m refs = Ok l ->
  (forall n p, In (n, p) l -> dict_get ps n = Some p) ->
  m_lparms (update_material_from_params ps m) = m_lparms m.
Proof.
  intros m refs l ps C E H. assert (V : forall i, In i (free_idx (m_type m)) -> value ps (lp_name m i) (shown i (nth i (m_lparms m) 0))).
  { assert (K : map fst l = map (lp_name m) (free_idx (m_type m)) /\ map (fun np => v_val (snd np)) l = map (fun i => shown i (nth i (m_lparms m) 0)) (free_idx (m_type m))).
    { pose proof (C166_material_params m refs) as X. destruct refs as [rs|].
      - destruct (Nat.ltb _ _); [congruence|]. destruct X as (ps' & X & X1 & _ & X2 & _). rewrite E in X. assert (l = ps') as -> by now injection X. auto.
      - destruct X as (ps' & X & X1 & _ & X2 & _). rewrite E in X. assert (l = ps') as -> by now injection X. auto. }
    destruct K as [K1 K2]. clear E C. revert l H K1 K2. generalize (free_idx (m_type m)). induction l as [|i is IH]; intros l' H K1 K2 j Hj; [contradiction|].
    destruct l' as [|[n p] l']; [discriminate|]. cbn [map fst snd] in K1, K2. injection K1 as En K1. injection K2 as Ep K2. destruct Hj as [<-|Hj].
    - exists p. split; [|exact Ep]. apply H. left. now rewrite En.
    - apply (IH l'); auto. intros n' p' Hp. apply H. now right. }
  destruct (C166_material_update ps m) as (_ & _ & (a & b & c & al & be & ga & El & Cf) & Hv & _). destruct C as (a0 & b0 & c0 & al0 & be0 & ga0 & El0 & Cf0).
  assert (G : forall i, In i (free_idx (m_type m)) -> nth i (m_lparms (update_material_from_params ps m)) 0 = nth i (m_lparms m) 0).
  { intros i Hi. pose proof (Hv i _ Hi (V i Hi)) as X. unfold shown in X. destruct (Nat.ltb i 3); lra. }
  rewrite El, El0 in *. clear Hv V H E. destruct (m_type m); cbn beta iota in Cf, Cf0; cbn [free_idx] in G;
  try pose proof (G 0%nat ltac:(cbn; tauto)); try pose proof (G 1%nat ltac:(cbn; tauto)); try pose proof (G 2%nat ltac:(cbn; tauto));
  try pose proof (G 3%nat ltac:(cbn; tauto)); try pose proof (G 4%nat ltac:(cbn; tauto)); try pose proof (G 5%nat ltac:(cbn; tauto)); clear G; cbn [nth] in *;
  repeat match goal with X : _ /\ _ |- _ => destruct X end; repeat (apply f_equal2; [lra|]); reflexivity.
Qed.
Print Assumptions C166_material_round_trip.
(** with more than one beam there is no parameter of that name, and the material keeps the energy it had *)
Theorem C166_energy_refuted : exists i m l, length (i_beams i) = 2%nat /\ i_active i = "B" /\ (exists b, dict_get (i_beams i) "B" = Some b /\ b_energy b <> m_energy m) /\
  forall ae, create_instr_params ae ENone CNone i = Ok l /\ validate_params l = Ok tt /\ m_energy (update_material_from_params (add_many l) m) = m_energy m.
Proof.
  exists (Instr [("A", Beam 10 (V3 0 0 (-1)) None); ("B", Beam 20 (V3 0 0 (-1)) None)] "B" 0 vzero []), (Mat "Si" Cubic [1; 1; 1; 90; 90; 90] 10).
  eexists. split; [reflexivity|]. split; [reflexivity|]. split; [eexists; split; [reflexivity|cbn; lra]|]. intros ae. split; [reflexivity|]. split; reflexivity.
Qed.
Print Assumptions C166_energy_refuted.

(** C167: fixed grain parameters and engineering constraints *)
Lemma pmod_spec ps k f : match dict_get ps k with
  | None => pmod ps k f = Err KeyError
  | Some p => exists ps', pmod ps k f = Ok ps' /\ map fst ps' = map fst ps /\ forall n, dict_get ps' n = if String.eqb n k then Some (f p) else dict_get ps n
  end.
Proof.
  induction ps as [|[k' q] r IH]; cbn [dict_get pmod]; [reflexivity|]. destruct (String.eqb k k') eqn:E.
  - apply String.eqb_eq in E. subst k'. eexists. split; [reflexivity|]. split; [reflexivity|]. intros n. cbn [dict_get]. destruct (String.eqb n k) eqn:En; [|reflexivity]. reflexivity.
  - destruct (dict_get r k) as [p|].
    + destruct IH as (ps' & -> & N & K). cbn [rbind]. eexists. split; [reflexivity|]. split; [cbn [map fst]; now rewrite N|]. intros n. cbn [dict_get]. rewrite (K n). destruct (String.eqb n k') eqn:En; [|reflexivity].
      apply String.eqb_eq in En. subst n. destruct (String.eqb k' k) eqn:Ek; [|reflexivity]. apply String.eqb_eq in Ek. subst k'. now rewrite String.eqb_refl in E.
    + now rewrite IH.
Qed.
(** forcing parameters to values: each gets its value, is held fixed and keeps bounds that contain the value; no other parameter changes *)
Theorem C167_force : forall ps nv, NoDup (map fst nv) -> (forall n, In n (map fst nv) -> In n (map fst ps)) ->
  exists ps', force_all ps nv = Ok ps' /\ map fst ps' = map fst ps /\
    (forall n v, In (n, v) nv -> exists p p', dict_get ps n = Some p /\ dict_get ps' n = Some p' /\ v_val p' = v /\ v_vary p' = false /\ (within p -> within p')) /\
    (forall n, ~ In n (map fst nv) -> dict_get ps' n = dict_get ps n).
Proof.
  intros ps nv. revert ps. induction nv as [|[n v] nv IH]; intros ps N I; cbn [force_all].
  - exists ps. split; [reflexivity|]. split; [reflexivity|]. split; [intros ? ? []|reflexivity].
  - cbn [map fst] in N, I. inversion N as [|? ? Nn N']; subst. pose proof (pmod_spec ps n (fun p => set_vary false (force_param_value v p))) as P. destruct (dict_get ps n) as [p|] eqn:D; [|exfalso; apply get_none in D; apply D, I; now left].
    destruct P as (ps1 & -> & N1 & K1). cbn [rbind]. destruct (IH ps1 N') as (ps' & E & N2 & F & O); [intros k Hk; rewrite N1; apply I; now right|].
    exists ps'. split; [exact E|]. split; [congruence|]. split.
    + intros k w [X|Hk].
      * injection X as <- <-. exists p, (set_vary false (force_param_value v p)). split; [exact D|]. split; [rewrite (O n Nn), (K1 n), String.eqb_refl; reflexivity|]. split; [reflexivity|]. split; [reflexivity|].
        intros (W1 & W2 & W3). unfold within, set_vary, force_param_value. cbn [v_val v_min v_max v_vary].
        destruct (v_min p) as [mn|] eqn:Mn; destruct (v_max p) as [mx|] eqn:Mx; repeat match goal with |- context [Rlt_dec ?a ?b] => destruct (Rlt_dec a b) end;
        try (pose proof (W1 _ eq_refl)); try (pose proof (W2 _ eq_refl)); try (pose proof (W3 _ _ eq_refl eq_refl));
        (split; [intros x X; try discriminate; injection X as <-; lra|]; split; [intros x X; try discriminate; injection X as <-; lra|]; intros x y X Y; try discriminate; injection X as <-; injection Y as <-; lra).
      * destruct (F k w Hk) as (q & q' & D1 & D2 & V). assert (Ek : String.eqb k n = false) by (apply String.eqb_neq; intros ->; apply Nn; apply in_map_iff; now exists (n, w)).
        rewrite (K1 k), Ek in D1. exists q, q'. auto.
    + intros k Hk. rewrite (O k) by (intros X; apply Hk; now right). rewrite (K1 k). destruct (String.eqb k n) eqn:Ek; [|reflexivity]. apply String.eqb_eq in Ek. exfalso. apply Hk. now left.
Qed.
Print Assumptions C167_force.
(** no strain, no translation, no height: of the twelve parameters of a grain exactly those are forced and held *)
Definition forced (ps ps' : params) (names : list string) (k : nat) (v : R) : Prop :=
  exists p p', dict_get ps (nth k names "") = Some p /\ dict_get ps' (nth k names "") = Some p' /\ v_val p' = v /\ v_vary p' = false /\ (within p -> within p').
Definition others_kept (ps ps' : params) (names : list string) (ks : list nat) : Prop :=
  map fst ps' = map fst ps /\ forall n, ~ In n (map (fun k => nth k names "") ks) -> dict_get ps' n = dict_get ps n.
Theorem C167_fix_grain : forall ps names, length names = 12%nat -> NoDup names -> (forall n, In n names -> In n (map fst ps)) ->
  (exists ps', fix_strain_to_identity names ps = Ok ps' /\ forced ps ps' names 6 1 /\ forced ps ps' names 7 1 /\ forced ps ps' names 8 1 /\
     forced ps ps' names 9 0 /\ forced ps ps' names 10 0 /\ forced ps ps' names 11 0 /\ others_kept ps ps' names [6; 7; 8; 9; 10; 11]%nat) /\
  (exists ps', fix_translation_to_origin names ps = Ok ps' /\ forced ps ps' names 3 0 /\ forced ps ps' names 4 0 /\ forced ps ps' names 5 0 /\ others_kept ps ps' names [3; 4; 5]%nat) /\
  (exists ps', fix_y_to_zero names ps = Ok ps' /\ forced ps ps' names 4 0 /\ others_kept ps ps' names [4]%nat).
Proof.
  intros ps names L N I. do 12 (destruct names as [|? names]; [discriminate|]). destruct names; [|discriminate]. clear L.
  assert (G : forall nv ks, map fst nv = map (fun k => nth k [s; s0; s1; s2; s3; s4; s5; s6; s7; s8; s9; s10] "") ks -> NoDup (map fst nv) -> incl (map fst nv) [s; s0; s1; s2; s3; s4; s5; s6; s7; s8; s9; s10] ->
    exists ps', force_all ps nv = Ok ps' /\ (forall k v, In (nth k [s; s0; s1; s2; s3; s4; s5; s6; s7; s8; s9; s10] "", v) nv -> forced ps ps' [s; s0; s1; s2; s3; s4; s5; s6; s7; s8; s9; s10] k v) /\
      others_kept ps ps' [s; s0; s1; s2; s3; s4; s5; s6; s7; s8; s9; s10] ks).
  { intros nv ks E Nv Iv. destruct (C167_force ps nv Nv) as (ps' & E1 & E2 & E3 & E4); [intros n Hn; apply I, Iv, Hn|]. exists ps'. split; [exact E1|]. split; [intros k v Hk; apply E3, Hk|]. split; [exact E2|]. rewrite <- E. exact E4. }
  split; [|split].
  - destruct (G (combine (skipn 6 [s; s0; s1; s2; s3; s4; s5; s6; s7; s8; s9; s10]) [1; 1; 1; 0; 0; 0]) [6; 7; 8; 9; 10; 11]%nat) as (ps' & E & F & O).
    + reflexivity.
    + cbn [skipn combine map fst]. do 6 (inversion N as [|? ? _ N0]; subst; clear N; rename N0 into N). exact N.
    + cbn [skipn combine map fst]. intros x Hx. do 6 right. exact Hx.
    + exists ps'. split; [exact E|]. do 6 (split; [apply F; cbn; tauto|]). exact O.
  - destruct (G (combine (firstn 3 (skipn 3 [s; s0; s1; s2; s3; s4; s5; s6; s7; s8; s9; s10])) [0; 0; 0]) [3; 4; 5]%nat) as (ps' & E & F & O).
    + reflexivity.
    + cbn [firstn skipn combine map fst]. do 3 (inversion N as [|? ? _ N0]; subst; clear N; rename N0 into N). inversion N as [|? ? A1 N1]; subst. inversion N1 as [|? ? A2 N2]; subst.
      constructor; [intros [X|[X|[]]]; apply A1; cbn; auto|]. constructor; [intros [X|[]]; apply A2; cbn; auto|]. constructor; [intros []|constructor].
    + cbn [firstn skipn combine map fst]. intros x Hx. cbn in Hx |- *. tauto.
    + exists ps'. split; [exact E|]. do 3 (split; [apply F; cbn; tauto|]). exact O.
  - destruct (G [(s3, 0)] [4]%nat) as (ps' & E & F & O).
    + reflexivity.
    + cbn [map fst]. constructor; [intros []|constructor].
    + intros x [<-|[]]. cbn. tauto.
    + exists ps'. split; [exact E|]. split; [apply F; cbn; tauto|]. exact O.
Qed.
Print Assumptions C167_fix_grain.
(** plates facing each other (2 below, 4 above) come out with a distance in the allowed range, and unless one of them is within half
    the excess of the middle both are moved by the same amount *)
Theorem C167_tardis_partial : forall ps p2 p4, dict_get ps y2_name = Some p2 -> dict_get ps y4_name = Some p4 -> v_val p2 <= 0 <= v_val p4 ->
  exists ps' y2 y4 d, add_engineering_constraints ps (Some "TARDIS") = Ok (ps', true) /\
    value ps' y2_name y2 /\ value ps' y4_name y4 /\ value ps' "tardis_distance_between_plates" d /\ y4 = d - Rabs y2 /\ 2283 / 100 <= d <= 2343 / 100 /\
    (2283 / 100 <= v_val p4 - v_val p2 <= 2343 / 100 -> y2 = v_val p2 /\ y4 = v_val p4) /\
    (let excess := v_val p4 - v_val p2 - 2343 / 100 in excess / 2 <= - v_val p2 -> excess / 2 <= v_val p4 -> y2 - v_val p2 = v_val p4 - y4 /\ y2 <= 0 <= y4 /\ d = y4 - y2) /\
    (forall n, n <> y2_name -> n <> y4_name -> n <> "tardis_distance_between_plates" -> dict_get ps' n = dict_get ps n).
Proof.
  intros ps p2 p4 D2 D4 S2.
  assert (PS : forall d k (p : prm) n, dict_get (pset d k p) n = if String.eqb n k then Some p else dict_get d n).
  { intros d k p n. induction d as [|[k' q] r IH]; cbn [pset dict_get]; [reflexivity|]. destruct (String.eqb k k') eqn:E; cbn [dict_get].
    - apply String.eqb_eq in E. subst k'. now destruct (String.eqb n k).
    - rewrite IH. destruct (String.eqb n k') eqn:E1; [|reflexivity]. apply String.eqb_eq in E1. subst n. rewrite String.eqb_sym, E. reflexivity. }
  assert (A : exists ps', add_engineering_constraints ps (Some "TARDIS") = Ok (ps', true) /\ let '(y2, y4, d) := tardis (v_val p2) (v_val p4) in
     value ps' y2_name y2 /\ value ps' y4_name (d - Rabs y2) /\ value ps' "tardis_distance_between_plates" d /\
     (forall n, n <> y2_name -> n <> y4_name -> n <> "tardis_distance_between_plates" -> dict_get ps' n = dict_get ps n)).
  { unfold add_engineering_constraints. cbn [String.eqb Ascii.eqb Bool.eqb]. unfold getv, getp. rewrite D2, D4. cbn [rbind]. destruct (tardis (v_val p2) (v_val p4)) as [[y2 y4] d].
    pose proof (pmod_spec ps y2_name (set_val y2)) as P. rewrite D2 in P. destruct P as (ps1 & -> & _ & K1). cbn [rbind].
    pose proof (pmod_spec ps1 y4_name (set_val (plate4 y2 d))) as P. rewrite (K1 y4_name) in P. change (String.eqb y4_name y2_name) with false in P. cbn iota in P. rewrite D4 in P. destruct P as (ps2 & -> & _ & K2). cbn [rbind].
    eexists. split; [reflexivity|]. unfold value. rewrite !PS. change (String.eqb y2_name "tardis_distance_between_plates") with false. change (String.eqb y4_name "tardis_distance_between_plates") with false.
    rewrite String.eqb_refl. cbn iota. rewrite !K2, !K1. rewrite !String.eqb_refl. change (String.eqb y2_name y4_name) with false. cbn iota.
    split; [eexists; split; [reflexivity|reflexivity]|]. split; [eexists; split; [reflexivity|reflexivity]|]. split; [eexists; split; [reflexivity|reflexivity]|].
    intros n N1 N2 N3. rewrite PS, K2, K1. apply String.eqb_neq in N1, N2, N3. now rewrite N1, N2, N3. }
  destruct A as (ps' & E & A). destruct (tardis (v_val p2) (v_val p4)) as [[y2 y4] d] eqn:T. destruct A as (A1 & A2 & A3 & A4). exists ps', y2, (d - Rabs y2), d.
  split; [exact E|]. split; [exact A1|]. split; [exact A2|]. split; [exact A3|]. split; [reflexivity|]. clear - S2 T A4. unfold tardis, max_dist, min_dist in T. rewrite (Rabs_left1 (v_val p2)), (Rabs_right (v_val p4)) in T by lra.
  set (a := v_val p2) in *. set (b := v_val p4) in *. cbv zeta in T |- *.
  destruct (Rlt_dec (2343 / 100) (- a + b)) as [G|G]; [|destruct (Rlt_dec (- a + b) (2283 / 100)) as [G'|G']]; injection T as <- <- <-.
  - rewrite (Rabs_right (- a + b - _)) by lra. split; [lra|]. split; [lra|]. split; [|exact A4]. intros H1 H2. rewrite Rabs_left1 by lra. lra.
  - rewrite (Rabs_left1 (- a + b - _)) by lra. split; [lra|]. split; [lra|]. split; [|exact A4]. intros H1 H2. rewrite Rabs_left1 by lra. lra.
  - split; [lra|]. rewrite Rabs_left1 by lra. split; [lra|]. split; [|exact A4]. intros H1 H2. lra.
Qed.
Print Assumptions C167_tardis_partial.
(** plates the other way round: plate 4, at an allowed distance, is put where plate 2 is *)
Theorem C167_tardis_refuted : exists ps ps', value ps y2_name (23 / 2) /\ value ps y4_name (- (23 / 2)) /\ add_engineering_constraints ps (Some "TARDIS") = Ok (ps', true) /\
  value ps' y2_name (23 / 2) /\ value ps' y4_name (23 / 2).
Proof.
  exists [(y2_name, unbounded (23 / 2)); (y4_name, unbounded (- (23 / 2)))]. eexists. split; [eexists; split; reflexivity|]. split; [eexists; split; reflexivity|].
  unfold add_engineering_constraints. cbn [String.eqb Ascii.eqb Bool.eqb]. change (getv _ y2_name) with (Ok (23 / 2)). change (getv _ y4_name) with (Ok (- (23 / 2))). cbn [rbind]. unfold tardis, max_dist, min_dist.
  rewrite (Rabs_right (23 / 2)), (Rabs_left (- (23 / 2))) by lra. destruct (Rlt_dec _ _) as [G|_]; [lra|]. destruct (Rlt_dec _ _) as [G|_]; [lra|].
  split; [reflexivity|]. split; [eexists; split; reflexivity|]. eexists; split; [reflexivity|]. cbn [set_val v_val]. unfold plate4. rewrite Rabs_right by lra. lra.
Qed.
Print Assumptions C167_tardis_refuted.

(** C168: the parameters of all calibrators together *)
Definition names_of (cb : calib) : list string := match cb with Powder _ _ names => names | Grain _ _ _ _ names => names end.
Lemma create_all_names ae mats cbs : forall acc l cbs', create_all ae mats cbs acc = Ok (l, cbs') ->
  (exists rest, l = acc ++ rest) /\ map fst l = map fst acc ++ flat_map names_of cbs' /\ length cbs' = length cbs.
Proof.
  induction cbs as [|cb cbs IH]; intros acc l cbs' E; cbn [create_all] in E.
  - injection E as <- <-. split; [exists []; now rewrite app_nil_r|]. cbn [flat_map]. now rewrite app_nil_r.
  - destruct (create_lmfit_params ae mats cb acc) as [[ps cb1]|] eqn:E1; [|discriminate]. cbn [rbind fst snd] in E. destruct (create_all ae mats cbs (acc ++ ps)) as [[l1 cbs1]|] eqn:E2; [|discriminate]. cbn [rbind fst snd] in E.
    injection E as <- <-. destruct (IH _ _ _ E2) as ((rest & ->) & N & L). split; [exists (ps ++ rest); now rewrite app_assoc|].
    assert (K : names_of cb1 = map fst ps).
    { unfold create_lmfit_params in E1. destruct cb as [m refs names|name gp c refs names].
      - destruct (create_material_params _ refs); [|discriminate]. cbn [rbind] in E1. injection E1 as <- <-. reflexivity.
      - destruct (grain_params_euler ae c gp); [|discriminate]. cbn [rbind] in E1. destruct (create_grain_params name _ refs); [|discriminate]. cbn [rbind] in E1. destruct (rename_params _ acc) as [[r1 r2]|]; [|discriminate]. cbn [rbind fst] in E1.
        injection E1 as <- <-. reflexivity. }
    cbn [flat_map length]. rewrite K, N, map_app, <- app_assoc. split; [reflexivity|]. now rewrite L.
Qed.
(** every parameter has its own name: those of the instrument, with the values made for it, then those of each calibrator in turn, and
    a calibrator's names are its own *)
Theorem C168_names : forall as_euler c st ps st', make_lmfit_params as_euler c st = Ok (ps, st') ->
  NoDup (map fst ps) /\
  s_instr st' = s_instr st /\ s_rel st' = s_rel st /\ s_mats st' = s_mats st /\ length (s_calibs st') = length (s_calibs st) /\
  (exists ip, create_instr_params as_euler c (s_rel st) (s_instr st) = Ok ip /\ map fst ps = map fst ip ++ flat_map names_of (s_calibs st') /\
              forall n p, In (n, p) ip -> dict_get ps n = Some p) /\
  (forall j k cb cb' n, nth_error (s_calibs st') j = Some cb -> nth_error (s_calibs st') k = Some cb' -> In n (names_of cb) -> In n (names_of cb') -> j = k).
Proof.
  intros ae c st ps st' E. unfold make_lmfit_params in E. destruct (create_instr_params ae c (s_rel st) (s_instr st)) as [ip|] eqn:Ei; [|discriminate]. cbn [rbind] in E.
  destruct (create_all ae (s_mats st) (s_calibs st) ip) as [[l cbs]|] eqn:Ec; [|discriminate]. cbn [rbind fst snd] in E. destruct (validate_params l) as [[]|] eqn:Ev; [|discriminate]. cbn [rbind] in E.
  assert (N : NoDup (map fst l)) by now apply validate_lemma. rewrite (add_many_same l N) in E. assert (E0 : l = ps /\ State (s_instr st) (s_rel st) (s_mats st) cbs = st') by (split; [|congruence]; congruence).
  destruct E0 as [<- <-]. cbn [s_instr s_rel s_mats s_calibs]. destruct (create_all_names _ _ _ _ _ _ Ec) as ((rest & Er) & Nm & L).
  split; [exact N|]. do 3 (split; [reflexivity|]). split; [exact L|]. split.
  - exists ip. split; [reflexivity|]. split; [exact Nm|]. intros n p Hp. apply (get_in l n p N). rewrite Er. apply in_or_app. now left.
  - rewrite Nm in N. apply nodup_r in N. clear - N. revert N. induction cbs as [|x cbs IH]; intros N j k cb cb' n Ej Ek Hn Hn'; [destruct j; discriminate|]. cbn [flat_map] in N.
    destruct j as [|j]; destruct k as [|k]; cbn [nth_error] in Ej, Ek.
    + reflexivity.
    + injection Ej as ->. exfalso. apply (nodup_sep n _ _ N Hn). apply in_flat_map. exists cb'. split; [now apply nth_error_In in Ek|exact Hn'].
    + injection Ek as ->. exfalso. apply (nodup_sep n _ _ N Hn'). apply in_flat_map. exists cb. split; [now apply nth_error_In in Ej|exact Hn].
    + f_equal. apply (IH (nodup_r _ _ N) j k cb cb' n Ej Ek Hn Hn').
Qed.
Print Assumptions C168_names.
Lemma rad3_vals v l : radians3 (vec3 (vx (degrees3 v) :: vy (degrees3 v) :: vz (degrees3 v) :: l)) = v.
Proof. unfold vec3. cbn [nth]. transitivity (radians3 (degrees3 v)); [|apply rad3_deg3]. now destruct v. Qed.
(** a grain's parameters, read back, are its parameters *)
Theorem C168_grain_round_trip : forall rotvec from_euler as_euler mats name gp c refs names current ps cb' all,
  length gp = 12%nat ->
  (forall o e, c = EDict o e -> from_euler (o, e) (as_euler (o, e) (make_rmat_of_expmap (vec3 gp))) = make_rmat_of_expmap (vec3 gp)) ->
  exact_tilt rotvec (make_rmat_of_expmap (vec3 gp)) ->
  create_lmfit_params as_euler mats (Grain name gp c refs names) current = Ok (ps, cb') ->
  (forall n p, In (n, p) ps -> dict_get all n = Some p) ->
  exists g, update_calib rotvec from_euler all mats cb' = Ok (mats, Grain name g c refs (names_of cb')) /\ length g = 12%nat /\
    make_rmat_of_expmap (vec3 g) = make_rmat_of_expmap (vec3 gp) /\ skipn 3 g = skipn 3 gp.
Proof.
  intros rot fe ae mats name gp c refs names current ps cb' all L He Hr E A. cbn [create_lmfit_params] in E. destruct (grain_params_euler ae c gp) as [ge|] eqn:G; [|discriminate]. cbn [rbind] in E.
  destruct (create_grain_params name ge refs) as [gps|] eqn:C; [|discriminate]. cbn [rbind] in E. destruct (rename_params gps current) as [[r1 r2]|] eqn:R; [|discriminate]. cbn [rbind fst] in E. injection E as <- <-.
  cbn [update_calib names_of].
  assert (E0 : forall (a b : list RbaseSymbolsImpl.R), Ok a = Ok b -> a = b) by (intros ? ? X; now injection X).
  assert (Lg : length ge = 12%nat).
  { unfold grain_params_euler in G. destruct c as [|o e|o e]; [injection G as <-; exact L|discriminate|]. apply E0 in G. rewrite <- G. unfold list3. cbn [app length]. rewrite skipn_length, L. reflexivity. }
  assert (V : map (fun np => v_val (snd np)) gps = ge).
  { unfold create_grain_params in C. revert C. generalize (match refs with Some l => l | None => repeat true 12 end). unfold grain_param_names.
    assert (X : forall ns vals bs q, length ns = length vals -> grain_loop ns vals bs = Ok q -> map (fun np => v_val (snd np)) q = vals).
    { induction ns as [|n ns IH]; intros [|v vals] bs q Lv Eq; cbn [length] in Lv; try discriminate; cbn [grain_loop] in Eq; [injection Eq as <-; reflexivity|]. destruct bs as [|b bs]; [discriminate|].
      destruct (grain_loop ns vals bs) as [t|] eqn:Et; [|discriminate]. cbn [rbind] in Eq. injection Eq as <-. cbn [map snd around v_val]. f_equal. apply (IH _ bs); [lia|exact Et]. }
    intros bs C. apply (X _ _ _ _ ltac:(rewrite map_length, seq_length; now rewrite Lg) C). }
  assert (V1 : map (fun np => v_val (snd np)) r1 = ge).
  { rewrite <- V. clear - R. unfold rename_params in R. assert (X : forall (l new : params) mp r q, rename_loop (map fst current) l new mp = Ok (r, q) -> map snd r = map snd new ++ map snd l).
    { induction l as [|[o a] l IH]; intros new mp r q Eq; cbn [rename_loop] in Eq; [injection Eq as <- <-; now rewrite app_nil_r|].
      match type of Eq with rbind ?x _ = _ => destruct x as [nm|] end; [|discriminate]. cbn [rbind] in Eq. rewrite (IH _ _ _ _ Eq), map_app, <- app_assoc. reflexivity. }
    apply X in R. cbn [map app] in R. rewrite <- (map_map snd v_val r1), R. apply map_map. }
  assert (Rd : map_r (getv all) (map fst r1) = Ok ge).
  { rewrite <- V1. clear - A. induction r1 as [|[n p] r1 IH]; [reflexivity|]. cbn [map fst snd map_r]. unfold getv at 1, getp. rewrite (A n p (or_introl eq_refl)). cbn [rbind]. rewrite IH; [reflexivity|]. intros n' p' H. apply A. now right. }
  rewrite Rd. cbn [rbind]. unfold grain_params_euler in G. unfold set_grain_params_euler. destruct c as [|o e|o e]; [|discriminate|].
  - injection G as <-. cbn [rbind]. exists gp. auto.
  - apply E0 in G. rewrite <- G. cbn [rbind]. eexists. split; [reflexivity|]. set (r := make_rmat_of_expmap (vec3 gp)) in *. unfold list3. cbn [app]. rewrite rad3_vals.
    rewrite (He o e eq_refl). fold r. change (skipn 3 (vx (degrees3 (ae (o, e) r)) :: vy (degrees3 (ae (o, e) r)) :: vz (degrees3 (ae (o, e) r)) :: skipn 3 gp)) with (skipn 3 gp).
    split; [cbn [length]; rewrite skipn_length, L; reflexivity|]. split; [|reflexivity].
    unfold exact_tilt in Hr. transitivity (make_rmat_of_expmap (rmat_to_tilt rot r)); [|exact Hr]. unfold vec3. cbn [nth]. now destruct (rmat_to_tilt rot r).
Qed.
Print Assumptions C168_grain_round_trip.
(** a pair, the default convention, cannot be used with a grain *)
Theorem C168_pair_refuted : forall as_euler c st name gp o e refs names, In (Grain name gp (EPair o e) refs names) (s_calibs st) ->
  forall r, make_lmfit_params as_euler c st <> Ok r.
Proof.
  intros ae c st name gp o e refs names I r E. unfold make_lmfit_params in E. destruct (create_instr_params ae c (s_rel st) (s_instr st)) as [ip|]; [|discriminate]. cbn [rbind] in E.
  destruct (create_all ae (s_mats st) (s_calibs st) ip) as [x|] eqn:Ec; [|discriminate]. clear E. revert ip x Ec. induction (s_calibs st) as [|cb cbs IH]; intros ip x Ec; [contradiction|]. cbn [create_all] in Ec.
  destruct I as [->|I]; [cbn [create_lmfit_params grain_params_euler rbind] in Ec; discriminate|]. destruct (create_lmfit_params ae (s_mats st) cb ip) as [y|]; [|discriminate]. cbn [rbind] in Ec.
  destruct (create_all ae (s_mats st) cbs (ip ++ fst y)) as [z|] eqn:E2; [|discriminate]. now apply (IH I _ _ E2).
Qed.
Print Assumptions C168_pair_refuted.
(** two materials of one name: the second is not updated *)
Theorem C168_same_name_refuted : exists (st : state) (ps : params) (st' : state), (forall as_euler, make_lmfit_params as_euler ENone st = Ok (ps, st')) /\
  s_calibs st = [Powder 0 None []; Powder 1 None []] /\ m_name (nth 0 (s_mats st) dmat) = m_name (nth 1 (s_mats st) dmat) /\
  exists ps', map fst ps' = map fst ps /\ value ps' "Si_a" 7 /\
    forall fm rv rot fe, exists st2, update_all_from_params fm rv rot fe ENone ps' st' = Ok st2 /\ nth 0 (m_lparms (nth 0 (s_mats st2) dmat)) 0 = 7 / 10 /\ nth 0 (m_lparms (nth 1 (s_mats st2) dmat)) 0 = 1 / 2.
Proof.
  exists (State (Instr [("A", Beam 10 (V3 0 0 (-1)) None)] "A" 0 vzero []) CNone [Mat "Si" Cubic [1 / 2; 1 / 2; 1 / 2; 90; 90; 90] 10; Mat "Si" Cubic [1 / 2; 1 / 2; 1 / 2; 90; 90; 90] 10] [Powder 0 None []; Powder 1 None []]).
  eexists. exists (State (Instr [("A", Beam 10 (V3 0 0 (-1)) None)] "A" 0 vzero []) CNone [Mat "Si" Cubic [1 / 2; 1 / 2; 1 / 2; 90; 90; 90] 10; Mat "Si" Cubic [1 / 2; 1 / 2; 1 / 2; 90; 90; 90] 10] [Powder 0 None ["Si_a"]; Powder 1 None []]). split; [intros ae; reflexivity|]. split; [reflexivity|]. split; [reflexivity|].
  exists [("beam_polar", unbounded 0); ("beam_azimuth", unbounded 0); ("beam_energy", unbounded 10); ("instr_chi", unbounded 0); ("instr_tvec_x", unbounded 0); ("instr_tvec_y", unbounded 0); ("instr_tvec_z", unbounded 0); ("Si_a", unbounded 7)].
  split; [reflexivity|]. split; [eexists; split; reflexivity|]. intros fm rv rot fe. set (q := [_; _; _; _; _; _; _; _]). set (i := Instr _ _ _ _ _). set (m := Mat _ _ _ _).
  assert (Ei : exists x, update_instrument_from_params fm rv rot fe ENone CNone q i = Ok x).
  { unfold update_instrument_from_params. unfold i. cbn [i_beams i_active i_chi i_tvec i_dets map_r update_beam].
    change (getv q (beam_prefix [("A", Beam 10 (V3 0 0 (-1)) None)] "A" +++ "beam_energy")) with (Ok 10). change (getv q (beam_prefix [("A", Beam 10 (V3 0 0 (-1)) None)] "A" +++ "beam_azimuth")) with (Ok 0).
    change (getv q (beam_prefix [("A", Beam 10 (V3 0 0 (-1)) None)] "A" +++ "beam_polar")) with (Ok 0). cbn [rbind b_corr]. unfold update_panel_beams. cbn [i_beams i_active i_chi i_tvec i_dets dict_get].
    cbn [String.eqb Ascii.eqb Bool.eqb rbind i_dets map map_r]. change (getv q "instr_chi") with (Ok 0). unfold get3. change (getv q "instr_tvec_x") with (Ok 0). change (getv q "instr_tvec_y") with (Ok 0). change (getv q "instr_tvec_z") with (Ok 0).
    cbn [rbind]. eexists. reflexivity. }
  destruct Ei as [x Ei]. unfold update_all_from_params. cbn [s_rel s_instr s_mats s_calibs]. rewrite Ei. cbn [rbind]. rewrite update_calibs_split. unfold upd_c. cbn [map_r update_calib rbind]. eexists. split; [reflexivity|].
  cbn [s_mats fst]. destruct (C166_material_update q m) as (_ & _ & _ & H & _). specialize (H 0%nat 7 (or_introl eq_refl)). unfold mats_after. cbn [flat_map target app fold_left].
  rewrite !set_nth_nth. cbn [Nat.eqb Nat.ltb Nat.leb length andb nth]. split; [|unfold m; reflexivity].
  assert (V7 : value q (lp_name m 0) 7) by (eexists; split; reflexivity). specialize (H V7). unfold shown in H. cbn [Nat.ltb Nat.leb] in H. lra.
Qed.
Print Assumptions C168_same_name_refuted.
