(** Cases that meet the hypotheses of C163-C168 *)
From Coq Require Import Reals String List Bool ZArith Lia Lra.
From Verif Require Import Prelude Lin TensorModel XfModel RotModel RotSpec RotProofs RotProofs2 RigModel RigSpec RigProofs NamesModel NamesProofs BvModel BvSpec BvProps CalModel CalSpec CalProofs CalProps.
Import ListNotations.
Local Open Scope R_scope.
Local Open Scope string_scope.
Local Open Scope list_scope.
Local Notation length := List.length.

(** conversions that know only the identity *)
Definition k_fm (_ : m3) : q4 := qone.
Definition k_rv (_ : q4) : v3 := vzero.
Definition k_rot (_ : m3) : v3 := vzero.
Definition k_fe (_ : string * bool) (_ : v3) : m3 := mI.
Definition k_ae (_ : string * bool) (_ : m3) : v3 := vzero.
Definition conv := EPair "zxz" false.
Definition b0 := Beam 10 (V3 0 0 (-1)) (Some (1, 2)).
Definition d1 := Det (Panel (Some "g") vzero (V3 0 0 (-1000))) None (Some [3; 4]) (V3 0 0 (-1)).
Definition d2 := Det (Panel None vzero (V3 5 0 (-100))) (Some 50) None (V3 0 0 (-1)).
Definition inst := Instr [("A", b0)] "A" 0 vzero [("ge-1", d1); ("cyl", d2)].
Lemma zero_rmat g t : p_rmat (Panel g vzero t) = mI.
Proof. unfold p_rmat. cbn [p_tilt]. rewrite expmap_same. apply exp_zero. Qed.
Lemma unit_down : norm (V3 0 0 (-1)) = 1.
Proof. unfold norm, norm2, dot. cbn [vx vy vz]. replace (0 * 0 + 0 * 0 + -1 * -1) with 1 by ring. apply sqrt_1. Qed.
Lemma one_mI : unitq qone /\ rotMatOfQuat qone = mI.
Proof. split; [apply unit_i; ring|]. unfold rotMatOfQuat, qone, mI. cbn [qw qx qy qz]. f_equal; ring. Qed.
Example C163_round_trip_ex : exists l, create_instr_params k_ae conv CNone inst = Ok l /\ validate_params l = Ok tt /\
  (forall k b, In (k, b) (i_beams inst) -> norm (b_vec b) = 1) /\ In (i_active inst) (map fst (i_beams inst)) /\
  (forall nd, In nd (i_dets inst) -> distortion_names_ok (map fst l) nd /\
     forall n, normalize_euler_convention conv = Some n -> converts k_fm k_rv k_fe k_ae n (p_rmat (d_panel (snd nd)))).
Proof.
  eexists. split; [reflexivity|]. split; [reflexivity|]. split; [intros k b [X|[]]; injection X as <- <-; apply unit_down|]. split; [now left|].
  assert (C : forall n g t, converts k_fm k_rv k_fe k_ae n (p_rmat (Panel g vzero t))).
  { intros n g t. rewrite zero_rmat. unfold converts, k_fm, k_rv, k_fe, k_ae. split; [reflexivity|]. split; [apply one_mI|]. split; [apply one_mI|]. split; [unfold tr, mI; cbn; lra|]. intros _ _ _. apply exp_zero. }
  intros nd [<-|[<-|[]]].
  - split; [|intros n _; apply C]. split; [cbn; lia|]. intros n Hn. cbn in Hn. repeat (destruct Hn as [<-|Hn]; [intros X; first [discriminate X|cbn; tauto]|]). contradiction.
  - split; [|intros n _; apply C]. split; [cbn; lia|]. intros n Hn. cbn in Hn. repeat (destruct Hn as [<-|Hn]; [intros X; first [discriminate X|cbn; tauto]|]). contradiction.
Qed.
Example C163_panel_named_ex : angles_named k_fe conv ("euler_z", "euler_xp", "euler_zpp") (fun v => k_fe ("zxz", false) (V3 (vx v * (PI / 180)) (vy v * (PI / 180)) (vz v * (PI / 180)))) /\
  (forall n, k_fe n (k_ae n (p_rmat (d_panel d1))) = p_rmat (d_panel d1)) /\ exists l, det_params k_ae conv ("ge-1", d1) = Ok l /\ firstn 4 (map fst l) = ["ge_1_euler_z"; "ge_1_euler_xp"; "ge_1_euler_zpp"; "ge_1_tvec_x"].
Proof. split; [apply named_zxz; now left|]. split; [intros n; unfold d1; cbn [d_panel]; now rewrite zero_rmat|]. eexists. split; reflexivity. Qed.
(** a half turn about z *)
Definition half := V3 0 0 PI.
Definition turned := M3 (-1) 0 0 0 (-1) 0 0 0 1.
Lemma half_rmat g t : p_rmat (Panel g half t) = turned.
Proof.
  unfold p_rmat. cbn [p_tilt]. rewrite expmap_same. apply m3_by_action. intros x.
  rewrite (proj2 (exp_map_lemma half) (V3 0 0 1) PI).
  - unfold rotated, turned. rewrite cos_PI, sin_PI. destruct x as [x1 x2 x3]. lin_unfold. f_equal; ring.
  - unfold norm, norm2, dot. cbn [vx vy vz]. replace (0 * 0 + 0 * 0 + 1 * 1) with 1 by ring. apply sqrt_1.
  - unfold half. lin_unfold. f_equal; ring.
Qed.
Definition dh := Det (Panel None half vzero) None None (V3 0 0 (-1)).
Example C163_half_turn_ex : exists l, let fe := fun (_ : string * bool) (_ : v3) => turned in let fm := fun _ : m3 => Q4 0 0 0 1 in
  normalize_euler_convention conv = Some ("zxz", false) /\ fe ("zxz", false) (k_ae ("zxz", false) (p_rmat (d_panel dh))) = p_rmat (d_panel dh) /\
  (unitq (fm (p_rmat (d_panel dh))) /\ rotMatOfQuat (fm (p_rmat (d_panel dh))) = p_rmat (d_panel dh)) /\ tr (p_rmat (d_panel dh)) = -1 /\
  det_params k_ae conv ("panel", dh) = Ok l /\ validate_params l = Ok tt.
Proof.
  eexists. cbv zeta. assert (H : p_rmat (d_panel dh) = turned) by apply half_rmat. rewrite H. split; [reflexivity|]. split; [reflexivity|]. split; [split; [apply unit_i; ring|unfold rotMatOfQuat, turned; cbn [qw qx qy qz]; f_equal; ring]|].
  split; [unfold tr, turned; cbn [m00 m11 m22]; lra|]. split; reflexivity.
Qed.
Example C163_constrained_ex : forall rel, rel = CGroup InstrumentMean (fun _ => CP vzero vzero) \/ rel = CSystem Origin (CP vzero vzero) ->
  exists l, create_instr_params k_ae conv rel inst = Ok l /\ validate_params l = Ok tt /\
  (forall k b, In (k, b) (i_beams inst) -> norm (b_vec b) = 1) /\ In (i_active inst) (map fst (i_beams inst)) /\
  (forall nd, In nd (i_dets inst) -> exact_tilt k_rot (p_rmat (d_panel (snd nd)))) /\
  match rel with
  | CNone => False
  | CGroup rc cps => forall g, In g (detector_groups (panels_of inst)) -> forall n, normalize_euler_convention conv = Some n -> k_fe n (k_ae n (rotMatOfExpMap (c_tilt (cps g)))) = rotMatOfExpMap (c_tilt (cps g))
  | CSystem rc cp => rc <> GroupMean /\ forall n, normalize_euler_convention conv = Some n -> k_fe n (k_ae n (rotMatOfExpMap (c_tilt cp))) = rotMatOfExpMap (c_tilt cp)
  end.
Proof.
  assert (T : forall nd, In nd (i_dets inst) -> exact_tilt k_rot (p_rmat (d_panel (snd nd)))).
  { intros nd [<-|[<-|[]]]; cbn [snd d1 d2 d_panel]; rewrite zero_rmat; apply tilt_exact; try (unfold k_rot; apply exp_zero); left; reflexivity. }
  intros rel [-> | ->].
  - eexists. split; [reflexivity|]. split; [reflexivity|]. split; [intros k b [X|[]]; injection X as <- <-; apply unit_down|]. split; [now left|]. split; [exact T|]. intros g _ n _. cbn [c_tilt]. now rewrite exp_zero.
  - eexists. split; [reflexivity|]. split; [reflexivity|]. split; [intros k b [X|[]]; injection X as <- <-; apply unit_down|]. split; [now left|]. split; [exact T|]. split; [discriminate|]. intros n _. cbn [c_tilt]. now rewrite exp_zero.
Qed.
(** C164: the update of [inst] from other values succeeds, and the conversions are exact *)
Example C164_update_sets_ex : exists l i', create_instr_params k_ae conv CNone inst = Ok l /\
  update_instrument_from_params k_fm k_rv k_rot k_fe conv CNone l inst = Ok (i', CNone) /\
  angles_named k_fe conv ("euler_z", "euler_xp", "euler_zpp") (fun v => k_fe ("zxz", false) (V3 (vx v * (PI / 180)) (vy v * (PI / 180)) (vz v * (PI / 180)))) /\
  (forall n v, conv <> ENone -> let r := k_fe n v in
     rotation r /\ unitq (k_fm r) /\ rotMatOfQuat (k_fm r) = r /\ (forall q, unitq q -> rotMatOfQuat q = r -> rotMatOfExpMap (k_rv q) = r)).
Proof.
  destruct C163_round_trip_ex as (l & E & V & U & A & H). destruct (C163_round_trip_partial k_fm k_rv k_rot k_fe k_ae conv inst l E V U A H) as (i' & Ei & _).
  rewrite add_many_same in Ei by now apply validate_lemma. exists l, i'. split; [exact E|]. split; [exact Ei|]. split; [apply named_zxz; now left|]. intros n v _. cbv zeta. unfold k_fe, k_fm, k_rv.
  split; [rewrite <- (proj2 one_mI); apply unit_rot, one_mI|]. split; [apply one_mI|]. split; [apply one_mI|]. intros _ _ _. apply exp_zero.
Qed.
(** C165, C168: an instrument, a material and a grain; three trials and an answer *)
Definition full := State inst CNone [Mat "Si" Cubic [1 / 2; 1 / 2; 1 / 2; 90; 90; 90] 10] [Powder 0 None []; Grain "Si" [0; 0; 0; 0; 0; 0; 1; 1; 1; 0; 0; 0] ENone None []].
Lemma update_all_again p st st1 : s_rel st = CNone -> update_all_from_params k_fm k_rv k_rot k_fe conv p st = Ok st1 -> update_all_from_params k_fm k_rv k_rot k_fe conv p st1 = Ok st1.
Proof. intros R E. rewrite (proj2 (all_absorb _ _ _ _ _ p p _ _ R eq_refl E)). exact E. Qed.
Example C168_names_ex : exists ps st', make_lmfit_params k_ae conv full = Ok (ps, st') /\ length ps = 37%nat /\ length (s_calibs st') = 2%nat.
Proof. eexists. eexists. split; [reflexivity|]. split; reflexivity. Qed.
(** C165: trials with other energies and cells, then an answer *)
Definition small := State (Instr [("A", Beam 10 (V3 0 0 (-1)) None)] "A" 0 vzero []) CNone [Mat "Si" Cubic [1 / 2; 1 / 2; 1 / 2; 90; 90; 90] 10] [Powder 0 None ["Si_a"]].
Definition pv (e a : R) : params :=
  [("beam_polar", unbounded 0); ("beam_azimuth", unbounded 0); ("beam_energy", unbounded e); ("instr_chi", unbounded 0); ("instr_tvec_x", unbounded 0); ("instr_tvec_y", unbounded 0); ("instr_tvec_z", unbounded 0); ("Si_a", unbounded a)].
Lemma small_ok e a : exists st, update_all_from_params k_fm k_rv k_rot k_fe conv (pv e a) small = Ok st.
Proof.
  set (q := pv e a). assert (Ei : exists x, update_instrument_from_params k_fm k_rv k_rot k_fe conv CNone q (s_instr small) = Ok x).
  { unfold update_instrument_from_params, small. cbn [s_instr i_beams i_active i_chi i_tvec i_dets map_r update_beam].
    change (getv q (beam_prefix [("A", Beam 10 (V3 0 0 (-1)) None)] "A" +++ "beam_energy")) with (Ok e). change (getv q (beam_prefix [("A", Beam 10 (V3 0 0 (-1)) None)] "A" +++ "beam_azimuth")) with (Ok 0).
    change (getv q (beam_prefix [("A", Beam 10 (V3 0 0 (-1)) None)] "A" +++ "beam_polar")) with (Ok 0). cbn [rbind b_corr]. unfold update_panel_beams. cbn [i_beams i_active i_chi i_tvec i_dets dict_get].
    cbn [String.eqb Ascii.eqb Bool.eqb rbind i_dets map map_r]. change (getv q "instr_chi") with (Ok 0). unfold get3. change (getv q "instr_tvec_x") with (Ok 0). change (getv q "instr_tvec_y") with (Ok 0). change (getv q "instr_tvec_z") with (Ok 0).
    cbn [rbind]. eexists. reflexivity. }
  destruct Ei as [x Ei]. unfold update_all_from_params. change (s_rel small) with CNone. rewrite Ei. cbn [rbind]. rewrite update_calibs_split. unfold upd_c, small. cbn [s_calibs map_r update_calib rbind]. eexists. reflexivity.
Qed.
Example C165_history_ex : exists st', s_rel small = CNone /\ (forall ps, In ps [pv 11 6; pv 9 4] -> map fst ps = map fst (pv 12 5)) /\
  run_calibration k_fm k_rv k_rot k_fe conv [pv 11 6; pv 9 4] (pv 12 5) small = Ok st'.
Proof.
  destruct (small_ok 11 6) as [s1 E1]. destruct (small_ok 9 4) as [s2 E2]. destruct (small_ok 12 5) as [s3 E3]. exists s3. split; [reflexivity|]. split; [intros ps [<-|[<-|[]]]; reflexivity|].
  unfold run_calibration. cbn [fold_left rbind]. rewrite E1. cbn [rbind]. destruct (all_absorb _ _ _ _ _ (pv 11 6) (pv 9 4) small s1 eq_refl eq_refl E1) as [R1 A1]. rewrite A1, E2. cbn [rbind].
  destruct (all_absorb _ _ _ _ _ (pv 9 4) (pv 12 5) small s2 eq_refl eq_refl E2) as [R2 A2]. now rewrite A2, E3.
Qed.
(** C166, C167: a cell of its type; the parameters of two plates; twelve names *)
Example C166_ex : conforms Hexagonal [3; 3; 5; 90; 90; 120] /\ exists l, create_material_params (Mat "Ti" Hexagonal [3; 3; 5; 90; 90; 120] 10) (Some [true; false]) = Ok l /\ map fst l = ["Ti_a"; "Ti_c"].
Proof. split; [do 6 eexists; split; [reflexivity|auto]|]. eexists. split; reflexivity. Qed.
Example C167_tardis_ex : let ps := [(y2_name, unbounded (-15)); (y4_name, unbounded 10)] in
  dict_get ps y2_name = Some (unbounded (-15)) /\ dict_get ps y4_name = Some (unbounded 10) /\ v_val (unbounded (-15)) <= 0 <= v_val (unbounded 10) /\
  let excess := v_val (unbounded 10) - v_val (unbounded (-15)) - 2343 / 100 in 0 < excess /\ excess / 2 <= - v_val (unbounded (-15)) /\ excess / 2 <= v_val (unbounded 10).
Proof. cbv zeta. split; [reflexivity|]. split; [reflexivity|]. cbn [v_val unbounded]. lra. Qed.
Example C167_fix_ex : exists ps, create_grain_params "g" [0; 0; 0; 1; 2; 3; 1; 1; 1; 0; 0; 0] None = Ok ps /\ length (map fst ps) = 12%nat /\ NoDup (map fst ps).
Proof. eexists. split; [reflexivity|]. split; [reflexivity|]. cbn [map fst]. repeat (constructor; [intros X; cbn in X; repeat (destruct X as [X|X]; [discriminate X|]); exact X|]). constructor. Qed.
Example C168_grain_ex : exists ps cb, length [0; 0; 0; 1; 2; 3; 1; 1; 1; 0; 0; 0] = 12%nat /\
  k_fe ("zxz", false) (k_ae ("zxz", false) (make_rmat_of_expmap (vec3 [0; 0; 0; 1; 2; 3; 1; 1; 1; 0; 0; 0]))) = make_rmat_of_expmap (vec3 [0; 0; 0; 1; 2; 3; 1; 1; 1; 0; 0; 0]) /\
  exact_tilt k_rot (make_rmat_of_expmap (vec3 [0; 0; 0; 1; 2; 3; 1; 1; 1; 0; 0; 0])) /\
  create_lmfit_params k_ae [] (Grain "g" [0; 0; 0; 1; 2; 3; 1; 1; 1; 0; 0; 0] (EDict "zxz" false) None []) [] = Ok (ps, cb).
Proof.
  assert (E : make_rmat_of_expmap (vec3 [0; 0; 0; 1; 2; 3; 1; 1; 1; 0; 0; 0]) = mI) by (rewrite expmap_same; apply exp_zero). eexists. eexists. split; [reflexivity|]. rewrite E. split; [reflexivity|].
  split; [apply tilt_exact; [apply exp_zero|now left]|]. reflexivity.
Qed.
