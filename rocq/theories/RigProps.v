(** C49, C74: constrained detector motion. [rotvec] is scipy's matrix-to-rotation-vector conversion, [to_rmat] the
    conversion of the tilt parameters in the chosen Euler convention. *)
From Coq Require Import Reals List String Lra.
From Verif Require Import Prelude Lin TensorModel RotModel RotSpec RotProofs RotProofs2 RigModel RigSpec RigProofs.
Import ListNotations.
Local Open Scope R_scope.

(** C49 *)
Theorem C49_system_moves_rigidly : forall rotvec to_rmat, (forall v, rotation (to_rmat v)) -> forall rc q ps cp ps' cp',
  exact_for rotvec to_rmat q cp ps -> update_system rotvec to_rmat rc q (ps, cp) = Ok (ps', cp') -> moved_rigidly (fun _ => True) ps ps'.
Proof. exact system_rigid. Qed.
Print Assumptions C49_system_moves_rigidly.
Theorem C49_groups_move_rigidly : forall rotvec to_rmat, (forall v, rotation (to_rmat v)) -> forall rc params ps cps ps' cps',
  (forall g, exact_for rotvec to_rmat (params g) (cps g) (filter (in_group g) ps)) ->
  update_groups rotvec to_rmat rc params (ps, cps) = (ps', cps') ->
  (forall g, moved_rigidly (fun p => p_group p = Some g) ps ps') /\ Forall2 (fun p p' => p_group p = None -> p' = p) ps ps'.
Proof. exact groups_rigid. Qed.
Print Assumptions C49_groups_move_rigidly.
(** a rigid motion keeps the distance of any two points of any two panels and the relative orientation of the panels *)
Theorem C49_distances_and_orientations_kept : forall sel ps ps', moved_rigidly sel ps ps' ->
  forall p p' r r' x y, In (p, p') (combine ps ps') -> In (r, r') (combine ps ps') -> sel p -> sel r ->
  norm (vsub (lab p' x) (lab r' y)) = norm (vsub (lab p x) (lab r y)) /\ mm (mt (p_rmat p')) (p_rmat r') = mm (mt (p_rmat p)) (p_rmat r).
Proof. exact rigid_distances. Qed.
Print Assumptions C49_distances_and_orientations_kept.
Theorem C49_zero_change_system : forall rotvec to_rmat rc q ps cp, rc <> GroupMean -> (forall p, In p ps -> exact_tilt rotvec (p_rmat p)) ->
  to_rmat (g_tilt q) = rotMatOfExpMap (c_tilt cp) -> g_tvec q = c_trans cp ->
  exists ps' cp', update_system rotvec to_rmat rc q (ps, cp) = Ok (ps', cp') /\ map pose ps' = map pose ps.
Proof. exact system_zero. Qed.
Print Assumptions C49_zero_change_system.
Theorem C49_zero_change_groups : forall rotvec to_rmat rc params ps cps ps' cps', (forall p, In p ps -> exact_tilt rotvec (p_rmat p)) ->
  (forall g, to_rmat (g_tilt (params g)) = rotMatOfExpMap (c_tilt (cps g))) -> (forall g, g_tvec (params g) = c_trans (cps g)) ->
  update_groups rotvec to_rmat rc params (ps, cps) = (ps', cps') -> map pose ps' = map pose ps.
Proof. exact groups_zero. Qed.
Print Assumptions C49_zero_change_groups.
(** what "exact" asks of the conversion: a rotation vector of r that is zero or longer than ten machine epsilons *)
Theorem C49_conversion_exact : forall rotvec r, rotMatOfExpMap (rotvec r) = r -> (rotvec r = vzero \/ ten_epsf < norm (rotvec r)) -> exact_tilt rotvec r.
Proof. exact tilt_exact. Qed.
Print Assumptions C49_conversion_exact.
Theorem C49_every_orientation_is_a_tilt : forall r, rotation r -> exists e, norm e <= PI /\ rotMatOfExpMap e = r.
Proof. exact expmap_onto. Qed.
Print Assumptions C49_every_orientation_is_a_tilt.
Theorem C49_both_conversions_agree : forall e, make_rmat_of_expmap e = rotMatOfExpMap e.
Proof. exact expmap_same. Qed.
Print Assumptions C49_both_conversions_agree.
(** a panel turned by a quarter about z and moved: the hypotheses hold for a conversion that knows the identity and the quarter turn *)
Example C49_ex : exists rotvec : m3 -> v3, let q := GP quarter e0 true true in let cp := CP vzero vzero in let ps := [Panel None vzero e1; Panel (Some "a"%string) vzero e2] in
  (forall v, rotation (rotMatOfExpMap v)) /\ exact_for rotvec rotMatOfExpMap q cp ps /\ exists r, update_system rotvec rotMatOfExpMap Origin q (ps, cp) = Ok r.
Proof.
  exists (fun _ => quarter). split; [exact exp_map_rotation|]. split; [|eexists; reflexivity].
  assert (X : exact_tilt (fun _ => quarter) (rotMatOfExpMap quarter)).
  { apply tilt_exact; [reflexivity|]. right. assert (E : quarter = vscale (PI / 2) e2) by (unfold quarter; lin_unfold; f_equal; ring). rewrite E, norm_scale.
    assert (N : norm e2 = 1) by (unfold norm, norm2, dot, e2; cbn; replace (0 * 0 + 0 * 0 + 1 * 1) with 1 by ring; apply sqrt_1). rewrite N.
    pose proof PI_RGT_0. pose proof PI2_1. rewrite Rabs_right by lra. pose proof ten_epsf_small. lra. }
  intros _. cbn [g_tilt c_tilt]. rewrite exp_zero, mt_I, mm_I_r. split; [exact X|].
  assert (P : p_rmat (Panel None vzero e1) = mI) by (unfold p_rmat; cbn [p_tilt]; rewrite expmap_same; exact exp_zero).
  assert (P' : p_rmat (Panel (Some "a"%string) vzero e2) = mI) by (unfold p_rmat; cbn [p_tilt]; rewrite expmap_same; exact exp_zero).
  intros p [<-|[<-|[]]]; [rewrite P|rewrite P']; rewrite mm_I_r; exact X.
Qed.

(** C74: the detectors' poses depend on the last parameter values only, not on the values tried before *)
Theorem C74_system_mean_centre : forall rotvec to_rmat, (forall v, rotation (to_rmat v)) -> forall h q ps0 cp0,
  Forall (fun x => exact_for rotvec to_rmat x cp0 ps0) (h ++ [q]) ->
  (forall x, In x h -> vary_tilt x = true -> vary_tilt q = true) -> (forall x, In x h -> vary_tvec x = true -> vary_tvec q = true) ->
  exists ps cp ps' cp', all_system rotvec to_rmat InstrumentMean (h ++ [q]) (ps0, cp0) = Ok (ps, cp) /\
    update_system rotvec to_rmat InstrumentMean q (ps0, cp0) = Ok (ps', cp') /\ map pose ps = map pose ps'.
Proof. exact system_last_wins. Qed.
Print Assumptions C74_system_mean_centre.
Theorem C74_group_mean_centre : forall rotvec to_rmat, (forall v, rotation (to_rmat v)) -> forall h q ps0 cps0,
  Forall (fun x => forall g, exact_for rotvec to_rmat (x g) (cps0 g) (filter (in_group g) ps0)) (h ++ [q]) ->
  (forall g x, In x h -> vary_tilt (x g) = true -> vary_tilt (q g) = true) -> (forall g x, In x h -> vary_tvec (x g) = true -> vary_tvec (q g) = true) ->
  map pose (fst (all_groups rotvec to_rmat GroupMean (h ++ [q]) (ps0, cps0))) = map pose (fst (update_groups rotvec to_rmat GroupMean q (ps0, cps0))).
Proof. exact groups_last_wins. Qed.
Print Assumptions C74_group_mean_centre.
(** about the laboratory origin the position reached depends on the values tried before *)
Theorem C74_origin_refuted : forall rotvec, exact_tilt rotvec mI -> exists q1 q2 ps0 cp0 ps ps' cp cp',
  all_system rotvec rotMatOfExpMap Origin [q1; q2] (ps0, cp0) = Ok (ps, cp) /\ update_system rotvec rotMatOfExpMap Origin q2 (ps0, cp0) = Ok (ps', cp') /\
  vary_tilt q2 = true /\ vary_tvec q2 = true /\ map p_tvec ps <> map p_tvec ps'.
Proof.
  intros rv X. destruct (origin_path rv X) as (ps & ps' & cp & cp' & A & B & C & D). exists (q_shift 1), q_turn, [p_at None], (CP vzero vzero), ps, ps', cp, cp'.
  split; [exact A|]. split; [exact B|]. split; [reflexivity|]. split; [reflexivity|]. rewrite C, D. intros K. injection K as K. revert K. lin_unfold. lra.
Qed.
Print Assumptions C74_origin_refuted.
(** so it does when groups are rotated about the mean centre of the whole instrument *)
Theorem C74_group_instrument_centre_refuted : forall rotvec, exact_tilt rotvec mI -> exists q1 q2 ps0 cps0,
  (forall g, vary_tilt (q2 g) = true /\ vary_tvec (q2 g) = true) /\
  map p_tvec (fst (all_groups rotvec rotMatOfExpMap InstrumentMean [q1; q2] (ps0, cps0))) <> map p_tvec (fst (update_groups rotvec rotMatOfExpMap InstrumentMean q2 (ps0, cps0))).
Proof.
  intros rv X. destruct (group_path rv X) as [A B]. exists (fun _ => q_shift 2), (fun _ => q_turn), [p_at (Some "a"%string); p_at None], (fun _ => CP vzero vzero).
  split; [intros; split; reflexivity|]. rewrite A, B. intros K. injection K as K. revert K. lin_unfold. lra.
Qed.
Print Assumptions C74_group_instrument_centre_refuted.
Example C74_ex : exact_tilt (fun _ => vzero) mI.
Proof. apply tilt_exact; [exact exp_zero|now left]. Qed.
