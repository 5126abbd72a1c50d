(** Properties of the coordinate transforms. *)
From Coq Require Import Reals Lra Psatz ZArith Lia List.
From Verif Require Import Prelude Lin RotModel RotSpec RigModel XfModel XfSpec XfTrig XfRanges XfMats XfOsc XfRay XfFlat.
Import ListNotations.
Local Open Scope R_scope.

(** ** C37: membership in ranges of angles *)
Theorem C37_total : forall angs starts stops ccw, List.length starts = List.length stops ->
  exists out, validate_angle_ranges angs starts stops ccw = Ok out /\ List.length out = List.length angs.
Proof. exact validate_total. Qed.
Print Assumptions C37_total.
Theorem C37_mismatch : forall angs starts stops ccw, List.length starts <> List.length stops -> validate_angle_ranges angs starts stops ccw = Err RuntimeError.
Proof. exact validate_mismatch. Qed.
Print Assumptions C37_mismatch.
(** every angle on an arc is accepted, except the start of the arc plus one or more whole turns *)
Theorem C37_accepts_partial : forall angs starts stops ccw out, validate_angle_ranges angs starts stops ccw = Ok out ->
  Forall2 (fun a b => forall r w, In r (combine starts stops) -> arc_length (arc_start ccw r) (arc_stop ccw r) w -> on_arc (arc_start ccw r) w a ->
    ~ (exists k : Z, (0 < k)%Z /\ a = arc_start ccw r + IZR k * (2 * PI)) -> b = true) angs out.
Proof. exact validate_accepts. Qed.
Print Assumptions C37_accepts_partial.
(** an accepted angle is on an arc lengthened by the tolerance, unless an arc is shorter than the tolerance *)
Theorem C37_near_partial : forall angs starts stops ccw out, validate_angle_ranges angs starts stops ccw = Ok out ->
  Forall2 (fun a b => b = true -> exists r w, In r (combine starts stops) /\ arc_length (arc_start ccw r) (arc_stop ccw r) w /\
    (w < 15 / 10 ^ 9 \/ on_arc (arc_start ccw r) (w + 15 / 10 ^ 9) a)) angs out.
Proof.
  assert (E : 15 / 10 ^ 9 = c_sqrt_epsf) by (unfold c_sqrt_epsf; lra). rewrite E. exact validate_near.
Qed.
Print Assumptions C37_near_partial.
Theorem C37_full_circle : forall angs starts stops ccw out r (k : Z), validate_angle_ranges angs starts stops ccw = Ok out -> In r (combine starts stops) ->
  (0 < k)%Z -> arc_stop ccw r = arc_start ccw r + IZR k * (2 * PI) -> Forall (fun b => b = true) out.
Proof. exact validate_full. Qed.
Print Assumptions C37_full_circle.
Theorem C37_start_refuted : exists a b start stop, same_dir_angle a b /\ validate_angle_ranges [a] [start] [stop] true = Ok [true] /\ validate_angle_ranges [b] [start] [stop] true = Ok [false].
Proof. exists 0, (2 * PI), 0, 1. split; [exists (-1)%Z; ring|]. exact start_refuted. Qed.
Print Assumptions C37_start_refuted.
Theorem C37_empty_arc_refuted : forall s a, validate_angle_ranges [a] [s] [s] true = Ok [true].
Proof. exact empty_refuted. Qed.
Print Assumptions C37_empty_arc_refuted.
Example C37_ex : arc_length 3 4 1 /\ on_arc 3 1 (7 / 2 + 2 * PI) /\ ~ (exists k : Z, (0 < k)%Z /\ 7 / 2 + 2 * PI = 3 + IZR k * (2 * PI)) /\
  validate_angle_ranges [7 / 2 + 2 * PI] [3] [4] true = Ok [true].
Proof.
  assert (A : arc_length 3 4 1). { exists 0%Z. split; [ring|]. left. pose proof PI2_3_2. lra. } assert (O : on_arc 3 1 (7 / 2 + 2 * PI)). { exists (-1)%Z. lra. }
  assert (N : ~ (exists k : Z, (0 < k)%Z /\ 7 / 2 + 2 * PI = 3 + IZR k * (2 * PI))).
  { intros (k & K & E). pose proof PI2_3_2. assert (K1 : (k <= 1)%Z \/ (2 <= k)%Z) by lia. destruct K1 as [K1|K1]; [assert (k = 1%Z) by lia; subst; lra|]. apply IZR_le in K1. nra. }
  split; [assumption|]. split; [assumption|]. split; [assumption|]. destruct (C37_total [7 / 2 + 2 * PI] [3] [4] true eq_refl) as (out & H & L). pose proof (C37_accepts_partial _ _ _ _ _ H) as F.
  inversion F as [|? b ? ? P Q]; subst. inversion Q; subst. rewrite H. rewrite (P (3, 4) 1); auto. now left.
Qed.

(** ** C38: oscillation angles *)
(** [G] is the reciprocal lattice vector h a* + k b* + l c*, strained, in the sample frame.
    The returned omegas are exactly those, up to whole turns, for which scattering by G is elastic *)
Theorem C38_omegas_partial : forall chi rc bm wl v beam eta hkl, 0 < wl -> rotation rc -> c_epsf < norm beam ->
  let G := mv (tensor6 (s0 v) (s1 v) (s2 v) (s3 v) (s4 v) (s5 v)) (mv rc (mv bm hkl)) in c_epsf < norm G ->
  match oscill_angles_of_hkls [hkl] chi rc bm wl (Some v) beam eta with
  | [Solutions p q] => forall w, diffracts wl beam (mv (sample_turn chi w) G) <-> same_dir_angle w (o_ome p) \/ same_dir_angle w (o_ome q)
  | [NoSolution] => forall w, ~ diffracts wl beam (mv (sample_turn chi w) G)
  | [Degenerate] => forall w w', dot beam (mv (sample_turn chi w) G) = dot beam (mv (sample_turn chi w') G)
  | _ => False
  end.
Proof.
  intros chi rc bm wl v beam eta hkl W R NB G NG. cbn [oscill_angles_of_hkls map]. pose proof (osc_omega chi rc bm wl v beam eta hkl W R NB NG) as H.
  destruct (oscill_angles_of_hkl chi rc bm wl v beam eta hkl); exact H.
Qed.
Print Assumptions C38_omegas_partial.
(** without a strain G is not changed *)
Theorem C38_no_strain : forall chi rc bm wl beam eta hkl, oscill_angles_of_hkls [hkl] chi rc bm wl None beam eta = oscill_angles_of_hkls [hkl] chi rc bm wl (Some (Sym6 1 1 1 0 0 0)) beam eta /\
  tensor6 1 1 1 0 0 0 = mI.
Proof. intros. split; [reflexivity|exact tensor_default]. Qed.
Print Assumptions C38_no_strain.
(** the list of reflections is treated one by one *)
Theorem C38_each : forall hkls chi rc bm wl v beam eta, oscill_angles_of_hkls hkls chi rc bm wl v beam eta = flat_map (fun hkl => oscill_angles_of_hkls [hkl] chi rc bm wl v beam eta) hkls.
Proof. intros. induction hkls as [|h l IH]; [reflexivity|]. cbn [flat_map]. rewrite <- IH. reflexivity. Qed.
Print Assumptions C38_each.
(** Bragg's law and the direction of the diffracted beam: k + G has scattering angle two theta and azimuth eta *)
Theorem C38_angles_partial : forall chi rc bm wl v beam eta hkl p q r, 0 < wl -> rotation rc -> c_epsf < norm beam -> c_epsf < norm eta ->
  let G := mv (tensor6 (s0 v) (s1 v) (s2 v) (s3 v) (s4 v) (s5 v)) (mv rc (mv bm hkl)) in c_epsf < norm G ->
  Rabs (dot (direction beam) (direction eta)) < 1 - c_sqrt_epsf -> beam_frame beam eta r ->
  oscill_angles_of_hkls [hkl] chi rc bm wl (Some v) beam eta = [Solutions p q] ->
  forall o, o = p \/ o = q -> exists t h, o_tth o = Some t /\ o_eta o = Some h /\ 0 <= t <= PI /\ - PI < h <= PI /\
    t = 2 * asin (wl * norm G / 2) /\
    wave_out wl beam (mv (sample_turn chi (o_ome o)) G) = vscale (/ wl) (scattered r t h).
Proof.
  intros chi rc bm wl v beam eta hkl p q r W R NB NE G NG CR FR H. cbn [oscill_angles_of_hkls map] in H. injection H as H. exact (osc_directions chi rc bm wl v beam eta hkl p q r W R NB NE NG CR FR H).
Qed.
Print Assumptions C38_angles_partial.
(** with the eta reference along the beam, two theta, which does not depend on it, is not computed either *)
Theorem C38_collinear_refuted : forall chi rc bm wl v beam eta hkl p q, rotation rc -> c_epsf < norm beam -> c_epsf < norm eta ->
  let G := mv (tensor6 (s0 v) (s1 v) (s2 v) (s3 v) (s4 v) (s5 v)) (mv rc (mv bm hkl)) in c_epsf < norm G ->
  1 - c_sqrt_epsf <= Rabs (dot (direction beam) (direction eta)) ->
  oscill_angles_of_hkls [hkl] chi rc bm wl (Some v) beam eta = [Solutions p q] -> o_tth p = None /\ o_tth q = None.
Proof.
  intros chi rc bm wl v beam eta hkl p q R NB NE G NG C H. cbn [oscill_angles_of_hkls map] in H. injection H as H. pose proof (osc_collinear chi rc bm wl v beam eta hkl p q R NB NE NG H C). tauto.
Qed.
Print Assumptions C38_collinear_refuted.
Lemma unit_xz : unit (V3 0 0 (-1)) /\ unit (V3 1 0 0).
Proof. unfold unit. lin_unfold. split; ring. Qed.
Lemma frame_std : beam_frame (V3 0 0 (-1)) (V3 1 0 0) mI.
Proof. split; [apply rot_I|]. rewrite (direction_of_unit _ (proj1 unit_xz)). split; [apply mv_I|]. rewrite mt_I, mv_I. cbn [vx vy]. lra. Qed.
Example C38_ex : rotation mI /\ c_epsf < norm (V3 0 0 (-1)) /\ c_epsf < norm (V3 1 0 0) /\ c_epsf < norm (mv (tensor6 1 1 1 0 0 0) (mv mI (mv mI (V3 1 0 0)))) /\
  Rabs (dot (direction (V3 0 0 (-1))) (direction (V3 1 0 0))) < 1 - c_sqrt_epsf /\ beam_frame (V3 0 0 (-1)) (V3 1 0 0) mI /\
  (exists p q, oscill_angles_of_hkls [V3 1 0 0] 0 mI mI 1 (Some (Sym6 1 1 1 0 0 0)) (V3 0 0 (-1)) (V3 1 0 0) = [Solutions p q]) /\
  oscill_angles_of_hkls [V3 1 0 0] 0 mI mI 4 (Some (Sym6 1 1 1 0 0 0)) (V3 0 0 (-1)) (V3 1 0 0) = [NoSolution].
Proof.
  destruct unit_xz as [U U']. assert (E : mv (tensor6 1 1 1 0 0 0) (mv mI (mv mI (V3 1 0 0))) = V3 1 0 0). { change (tensor6 1 1 1 0 0 0) with (tensor_of v_inv_default). now rewrite tensor_default, !mv_I. }
  pose proof sqrt_epsf_small as SS. split; [apply rot_I|]. split; [now apply unit_big|]. split; [now apply unit_big|]. split; [rewrite E; now apply unit_big|]. split.
  { rewrite !direction_of_unit by assumption. lin_unfold. replace (0 * 1 + 0 * 0 + -1 * 0) with 0 by ring. rewrite Rabs_R0. lra. } split; [exact frame_std|].
  assert (Q : forall wl, match oscill_angles_of_hkl 0 mI mI wl (Sym6 1 1 1 0 0 0) (V3 0 0 (-1)) (V3 1 0 0) (V3 1 0 0) with Degenerate => False | NoSolution => 1 < Rabs (- (/ 2 * wl)) | Solutions _ _ => ~ 1 < Rabs (- (/ 2 * wl)) end).
  { intros wl. unfold oscill_angles_of_hkl. rewrite (osc_g (V3 1 0 0) mI mI wl (Sym6 1 1 1 0 0 0) rot_I). 2: { change (Sym6 1 1 1 0 0 0) with v_inv_default. rewrite tensor_default, !mv_I. now apply unit_big. }
    change (Sym6 1 1 1 0 0 0) with v_inv_default. rewrite tensor_default, !mv_I, !guarded_big, !direction_of_unit, (unit_norm (V3 1 0 0)) by (try apply unit_big; assumption). cbv zeta. cbn [vx vy vz]. rewrite cos_0, sin_0.
    match goal with |- context [Req_EM_T (sqrt ?a) 0] => replace a with 1 by ring end. rewrite sqrt_1. destruct (Req_EM_T 1 0); [lra|].
    match goal with |- context [Rlt_dec 1 (Rabs ?a)] => replace a with (- (/ 2 * wl)) by field end. destruct (Rlt_dec 1 _); [assumption|]. match goal with |- context [if ?c then Solutions _ _ else _] => destruct c end; assumption. }
  cbn [oscill_angles_of_hkls map]. split.
  - specialize (Q 1). destruct (oscill_angles_of_hkl 0 mI mI 1 _ _ _ _) as [p q| |]; [now exists p, q| |contradiction]. exfalso. rewrite Rabs_left in Q; lra.
  - specialize (Q 4). destruct (oscill_angles_of_hkl 0 mI mI 4 _ _ _ _) as [p q| |]; [|reflexivity|contradiction]. exfalso. apply Q. rewrite Rabs_left; lra.
Qed.

(** ** C39: frame matrices *)
Theorem C39_sample : forall chi ome, rotation (make_sample_rmat chi ome) /\ make_sample_rmat chi ome = mm (rot_x chi) (rot_y ome).
Proof. intros. split; [apply sample_rot|apply sample_eq]. Qed.
Print Assumptions C39_sample.
Theorem C39_detector : forall t, rotation (make_detector_rmat t) /\ make_detector_rmat t = mm (rot_z (vz t)) (mm (rot_y (vy t)) (rot_x (vx t))).
Proof. intros. split; [apply detector_rot|apply detector_eq]. Qed.
Print Assumptions C39_detector.
Theorem C39_binary : forall a, unit a -> rotation (make_binary_rmat a) /\ forall v, mv (make_binary_rmat a) v = rotated a PI v.
Proof. intros a U. split; [now apply binary_rot|]. intros v. now apply binary_half_turn. Qed.
Print Assumptions C39_binary.
Theorem C39_expmap : forall e, rotation (make_rmat_of_expmap e) /\ make_rmat_of_expmap vzero = mI /\
  forall n t v, unit n -> 0 < t -> mv (make_rmat_of_expmap (vscale t n)) v = rotated n t v.
Proof. intros e. split; [apply expmap_rot|]. split; [exact expmap_zero|exact expmap_turn]. Qed.
Print Assumptions C39_expmap.
(** the beam matrix maps (0, 0, -1) to the beam direction and puts the eta reference at azimuth zero; it is the only such rotation *)
Theorem C39_beam : forall b e r, make_beam_rmat b e = Ok r -> beam_frame b e r /\ forall r', beam_frame b e r' -> r' = r.
Proof. intros b e r H. split; [now apply beam_lemma|]. intros r' F. apply beam_ok in H as H'. apply (frame_unique b e r' r); [apply big_nonzero, H'|assumption|now apply beam_lemma]. Qed.
Print Assumptions C39_beam.
Theorem C39_beam_error : forall b e, make_beam_rmat b e = Err RuntimeError <-> norm b <= c_epsf \/ norm (cross e b) <= c_epsf.
Proof.
  intros b e. split; [|apply beam_err]. intros H. destruct (Rle_dec (norm b) c_epsf); [now left|]. destruct (Rle_dec (norm (cross e b)) c_epsf); [now right|].
  destruct (beam_total b e) as [r K]; [lra|lra|]. rewrite K in H. discriminate.
Qed.
Print Assumptions C39_beam_error.
Example C39_ex : exists r, make_beam_rmat (V3 0 0 (-2)) (V3 3 0 1) = Ok r.
Proof.
  pose proof epsf_small. apply beam_total.
  - apply Rlt_le_trans with (sqrt 1). { rewrite sqrt_1. lra. } unfold norm. apply sqrt_le_1_alt. lin_unfold. lra.
  - apply Rlt_le_trans with (sqrt 1). { rewrite sqrt_1. lra. } unfold norm. apply sqrt_le_1_alt. lin_unfold. lra.
Qed.

(** ** C40: from G vectors to detector points *)
(** the beam direction used: exact, or (0, 0, -1) for beams within machine precision of it *)
Definition beam_used (b b' : v3) : Prop :=
  unit b' /\ norm2 (vsub b' (direction b)) <= 2 * c_epsf /\ (direction b = V3 0 0 (-1) \/ c_epsf <= 1 + vz (direction b) -> b' = direction b).
Lemma beam_used_is : forall b, c_epsf < norm b -> beam_used b (used_beam b).
Proof. intros b H. apply big_nonzero in H. split; [now apply used_unit|]. split; [now apply used_close|now apply used_exact]. Qed.
Theorem C40_points_partial : forall gs rd rs rc td ts tc b vm bm, rotation rd -> rotation rs -> rotation rc -> Forall unit gs -> c_epsf < norm b ->
  exists out b', gvec_to_xy gs rd (OneRmat rs) rc td ts tc (Some b) vm bm = Ok out /\ beam_used b b' /\
    Forall2 (fun g o => forall x y, o = XY x y <-> meets_only rd td (vadd ts (mv rs tc)) (mirrored (mv rs (mv rc g)) b') x y) gs out.
Proof.
  intros gs rd rs rc td ts tc b vm bm RD RS RC U NB. destruct (gvec_one_lemma gs rd rs rc td ts tc b vm bm NB) as (out & E & F). exists out, (used_beam b). split; [assumption|]. split; [now apply beam_used_is|]. clear E.
  induction F as [|g o gs out H F IH]; constructor.
  - inversion U; subst. intros x y. apply (ray_xy rd rs rc td ts tc b g o); auto. now apply big_nonzero.
  - apply IH. now inversion U.
Qed.
Print Assumptions C40_points_partial.
Theorem C40_points_each_partial : forall gs rd l rc td ts tc b vm bm, rotation rd -> Forall rotation l -> rotation rc -> Forall unit gs -> c_epsf < norm b -> List.length gs = List.length l ->
  exists out b', gvec_to_xy gs rd (RmatPer l) rc td ts tc (Some b) vm bm = Ok out /\ beam_used b b' /\
    Forall2 (fun p o => forall x y, o = XY x y <-> meets_only rd td (vadd ts (mv (snd p) tc)) (mirrored (mv (snd p) (mv rc (fst p))) b') x y) (combine gs l) out.
Proof.
  intros gs rd l rc td ts tc b vm bm RD RS RC U NB L. destruct (gvec_per_lemma gs rd l rc td ts tc b vm bm NB L) as (out & E & F). exists out, (used_beam b). split; [assumption|]. split; [now apply beam_used_is|].
  assert (Q : Forall (fun p => unit (fst p) /\ rotation (snd p)) (combine gs l)).
  { apply Forall_forall. intros [g r] I. rewrite Forall_forall in U, RS. split; [apply U|apply RS]; [now apply in_combine_l in I|now apply in_combine_r in I]. }
  clear E U RS L. induction F as [|[g r] o gl out H F IH]; constructor.
  - inversion Q as [|? ? [Q1 Q2] ?]; subst. intros x y. apply (ray_xy rd r rc td ts tc b g o); auto. now apply big_nonzero.
  - apply IH. now inversion Q.
Qed.
Print Assumptions C40_points_each_partial.
(** where no point is returned, and the ray is not parallel to the plane, the ray does not meet the plane in front of the crystal *)
Theorem C40_no_point : forall gs rd rs rc td ts tc b vm bm, rotation rd -> c_epsf < norm b ->
  exists out b', gvec_to_xy gs rd (OneRmat rs) rc td ts tc (Some b) vm bm = Ok out /\ beam_used b b' /\
    Forall2 (fun g o => let d := mirrored (mv rs (mv rc g)) b' in dot (col2 rd) d <> 0 \/ o = Parallel -> (forall x y, o <> XY x y) ->
      forall x y, ~ meets rd td (vadd ts (mv rs tc)) d x y) gs out.
Proof.
  intros gs rd rs rc td ts tc b vm bm RD NB. destruct (gvec_one_lemma gs rd rs rc td ts tc b vm bm NB) as (out & E & F). exists out, (used_beam b). split; [assumption|]. split; [now apply beam_used_is|].
  clear E. induction F as [|g o gs out H F IH]; constructor; [|assumption]. exact (ray_no rd rs rc td ts tc b g o RD H).
Qed.
Print Assumptions C40_no_point.
Theorem C40_default_beam : forall gs rd rs rc td ts tc vm bm, gvec_to_xy gs rd rs rc td ts tc None vm bm = gvec_to_xy gs rd rs rc td ts tc (Some (V3 0 0 (-1))) vm bm.
Proof. exact default_beam. Qed.
Print Assumptions C40_default_beam.
Theorem C40_mismatch : forall gs rd l rc td ts tc b vm bm, List.length gs <> List.length l -> gvec_to_xy gs rd (RmatPer l) rc td ts tc b vm bm = Err ValueError.
Proof. exact gvec_mismatch. Qed.
Print Assumptions C40_mismatch.
(** the Bragg condition is not checked: opposite G vectors, of which at most one diffracts, give the same points *)
Theorem C40_cannot_diffract_refuted : forall gs rd rs rc td ts tc b vm bm, c_epsf < norm b ->
  gvec_to_xy (map vneg gs) rd (OneRmat rs) rc td ts tc (Some b) vm bm = gvec_to_xy gs rd (OneRmat rs) rc td ts tc (Some b) vm bm.
Proof. exact opposite_same. Qed.
Print Assumptions C40_cannot_diffract_refuted.
(** the documented strain and B matrix parameters have no effect *)
Theorem C40_strain_refuted : forall gs rd rs rc td ts tc b vm bm vm' bm', gvec_to_xy gs rd rs rc td ts tc b vm bm = gvec_to_xy gs rd rs rc td ts tc b vm' bm'.
Proof. exact strain_ignored. Qed.
Print Assumptions C40_strain_refuted.
Lemma g_345 : unit (V3 (4 / 5) 0 (3 / 5)) /\ ray_result mI mI mI (V3 0 0 (-1)) vzero vzero (V3 0 0 (-1)) (V3 (4 / 5) 0 (3 / 5)) (XY (24 / 7) 0) /\ used_beam (V3 0 0 (-1)) = V3 0 0 (-1).
Proof.
  destruct unit_xz as [U _]. assert (UB : used_beam (V3 0 0 (-1)) = V3 0 0 (-1)). { rewrite used_exact; [now apply direction_of_unit|now apply unit_nonzero|]. left. now apply direction_of_unit. }
  split; [unfold unit; lin_unfold; field|]. split; [|assumption]. unfold ray_result. rewrite UB, !mv_I. replace (vadd vzero vzero) with vzero by (lin_unfold; f_equal; ring).
  replace (mirrored (V3 (4 / 5) 0 (3 / 5)) (V3 0 0 (-1))) with (V3 (24 / 25) 0 (- (7 / 25))) by (unfold mirrored; lin_unfold; f_equal; field). unfold project. cbv zeta. lin_unfold.
  destruct (Req_EM_T _ 0) as [Z|Z]; [lra|]. match goal with |- context [Rlt_dec ?a 0] => assert (L : a = - (25 / 7)) by field; rewrite L end. destruct (Rlt_dec _ 0); [|lra]. f_equal; field.
Qed.
Example C40_ex : unit (V3 (4 / 5) 0 (3 / 5)) /\ gvec_to_xy [V3 (4 / 5) 0 (3 / 5)] mI (OneRmat mI) mI (V3 0 0 (-1)) vzero vzero None None None = Ok [XY (24 / 7) 0].
Proof.
  destruct g_345 as (U & G & _). split; [assumption|]. rewrite default_beam. destruct (gvec_one_lemma [V3 (4 / 5) 0 (3 / 5)] mI mI mI (V3 0 0 (-1)) vzero vzero (V3 0 0 (-1)) None None) as (out & -> & F). { apply unit_big, unit_xz. }
  inversion F as [|? o ? ? R1 R2]; subst. inversion R2; subst. unfold ray_result in R1, G. rewrite R1, <- G. reflexivity.
Qed.

(** ** C41: xy_to_gvec against gvec_to_xy *)
(** a G vector that satisfies the Bragg condition for some wavelength (it points against the beam, but not straight back)
    is recovered from its point, with two theta its Bragg angle *)
Theorem C41_round_trip_partial : forall rd rs rc rb td ts tc g x y vm bm, rotation rd -> rotation rs -> rotation rc -> rotation rb -> unit g ->
  let b := vneg (col2 rb) in let gl := mv rs (mv rc g) in
  -1 < dot b gl < 0 -> b = V3 0 0 (-1) \/ c_epsf <= 1 + vz b ->
  gvec_to_xy [g] rd (OneRmat rs) rc td ts tc (Some b) vm bm = Ok [XY x y] -> c_epsf < norm2 (vsub (lab_point rd td x y) (vadd ts (mv rs tc))) ->
  exists h, xy_to_gvec [(x, y)] rd rs td ts tc (Some rb) = [(2 * asin (- dot b gl), Some h, Some gl)] /\ - PI < h <= PI /\
    scattered rb (2 * asin (- dot b gl)) h = mirrored gl b.
Proof.
  intros rd rs rc rb td ts tc g x y vm bm RD RS RC RB U b gl D BX E FAR. destruct (frame_cols rb RB) as (_ & UB & DB). fold b in UB, DB.
  destruct (gvec_one_lemma [g] rd rs rc td ts tc b vm bm (unit_big _ UB)) as (out & E' & F). rewrite E in E'. injection E' as <-. inversion F as [|? o ? ? R1 R2]; subst.
  apply (g_xy_g rd rs rc rb td ts tc g x y); auto. fold b. rewrite used_exact; [assumption|now apply unit_nonzero|]. now rewrite DB.
Qed.
Print Assumptions C41_round_trip_partial.
(** a point gives the angles and the scattering vector of the ray to it, and that vector leads back to the point *)
Theorem C41_back_partial : forall rd rs rc rb td ts tc x y vm bm, rotation rd -> rotation rs -> rotation rc -> rotation rb ->
  let b := vneg (col2 rb) in let d := vsub (lab_point rd td x y) (vadd ts (mv rs tc)) in
  b = V3 0 0 (-1) \/ c_epsf <= 1 + vz b -> c_epsf < norm2 d -> cross b d <> vzero -> dot (col2 rd) d <> 0 ->
  exists t h gl, xy_to_gvec [(x, y)] rd rs td ts tc (Some rb) = [(t, Some h, Some gl)] /\ half_way b (direction d) gl /\ scattered rb t h = direction d /\
    gvec_to_xy [mv (mt rc) (mv (mt rs) gl)] rd (OneRmat rs) rc td ts tc (Some b) vm bm = Ok [XY x y].
Proof.
  intros rd rs rc rb td ts tc x y vm bm RD RS RC RB b d BX FAR NC NP. destruct (frame_cols rb RB) as (_ & UB & DB). fold b in UB, DB.
  apply xy_g_xy; auto. fold b. rewrite used_exact; [assumption|now apply unit_nonzero|]. now rewrite DB.
Qed.
Print Assumptions C41_back_partial.
(** each point is treated by itself *)
Theorem C41_each : forall xy rd rs td ts tc rb, xy_to_gvec xy rd rs td ts tc rb = flat_map (fun p => xy_to_gvec [p] rd rs td ts tc rb) xy.
Proof. intros. unfold xy_to_gvec. induction xy as [|p l IH]; [reflexivity|]. cbn [flat_map map app]. cbv zeta in IH. now rewrite IH. Qed.
Print Assumptions C41_each.
(** the scattering vector of a given pair of directions is unique *)
Theorem C41_unique : forall b d g g', half_way b d g -> half_way b d g' -> g = g'.
Proof. exact half_way_unique. Qed.
Print Assumptions C41_unique.
(** scattering straight back: the scattering vector exists but NaN is returned *)
Theorem C41_back_reflection_refuted : forall rd rs td ts tc b e x y, c_epsf < norm b -> let d := vsub (lab_point rd td x y) (vadd ts (mv rs tc)) in c_epsf < norm2 d ->
  direction d = vneg (direction b) -> exists t h, xy_to_gvec_one rd rs td ts tc b e (x, y) = (t, h, None) /\ half_way (direction b) (direction d) (vneg (direction b)).
Proof. exact back_reflection. Qed.
Print Assumptions C41_back_reflection_refuted.
Example C41_ex : vneg (col2 mI) = V3 0 0 (-1) /\ -1 < dot (vneg (col2 mI)) (mv mI (mv mI (V3 (4 / 5) 0 (3 / 5)))) < 0 /\ c_epsf < norm2 (vsub (lab_point mI (V3 0 0 (-1)) (24 / 7) 0) (vadd vzero (mv mI vzero))) /\
  cross (V3 0 0 (-1)) (vsub (lab_point mI (V3 0 0 (-1)) (24 / 7) 0) (vadd vzero (mv mI vzero))) <> vzero.
Proof.
  pose proof epsf_small. unfold lab_point. rewrite !mv_I. lin_unfold. split; [f_equal; ring|]. split; [lra|]. split; [lra|]. intros K. injection K as _ K _. lra.
Qed.

(** ** C75: angles to vectors *)
(** seen from the lab, the diffraction vector is the direction with scattering angle t and azimuth h *)
Theorem C75_dvec : forall b e chi rc t h w r, b <> vzero -> beam_frame b e r -> rotation rc ->
  mv (sample_turn chi w) (mv rc (angles_to_dvec b e chi rc t h w)) = scattered r t h.
Proof. exact dvec_lemma. Qed.
Print Assumptions C75_dvec.
(** the G vector is the unit vector that mirrors the beam into that direction *)
Theorem C75_gvec : forall b e chi rc t h w r, b <> vzero -> beam_frame b e r -> rotation rc ->
  let g := mv (sample_turn chi w) (mv rc (angles_to_gvec b e chi rc t h w)) in
  unit g /\ dot (direction b) g = - sin (t / 2) /\ mirrored g (direction b) = scattered r t h.
Proof. exact gvec_lemma. Qed.
Print Assumptions C75_gvec.
Example C75_ex : V3 0 0 (-1) <> vzero /\ beam_frame (V3 0 0 (-1)) (V3 1 0 0) mI.
Proof. split; [apply unit_nonzero, unit_xz|exact frame_std]. Qed.

(** ** C76: cart_to_angles and angles_to_cart *)
(** for sample rotations with chi and omega between 0 and 180 degrees and the default crystal orientation *)
Theorem C76_points_partial : forall p chi w ts tc t h r, rotation (f_rmat p) -> c_epsf < norm (f_bvec p) -> beam_frame (f_bvec p) (f_evec p) r ->
  direction (f_bvec p) = V3 0 0 (-1) \/ c_epsf <= 1 + vz (direction (f_bvec p)) -> 0 <= chi <= PI -> 0 <= w <= PI ->
  exists o, angles_to_cart p (sample_turn chi w) mI ts tc [(t, h)] = Ok [o] /\
    forall x y, o = XY x y <-> meets_only (f_rmat p) (f_tvec p) (vadd ts (mv (sample_turn chi w) tc)) (scattered r t h) x y.
Proof.
  intros p chi w ts tc t h r RD NB F BX C W. destruct (cart_ray p chi w ts tc [(t, h)] r RD NB F (used_exact _ (big_nonzero _ NB) BX) C W) as (out & E & FF). inversion FF as [|? o ? ? R1 R2]; subst. inversion R2; subst.
  exists (project (f_rmat p) (f_tvec p) (vadd ts (mv (sample_turn chi w) tc)) (scattered r t h)). split; [exact E|]. intros x y. apply project_xy; auto. apply unit_nonzero, scattered_unit, F.
Qed.
Print Assumptions C76_points_partial.
Theorem C76_angles_back_partial : forall p r chi w ts tc t h x y, rotation (f_rmat p) -> make_beam_rmat (f_bvec p) (f_evec p) = Ok r ->
  direction (f_bvec p) = V3 0 0 (-1) \/ c_epsf <= 1 + vz (direction (f_bvec p)) ->
  0 <= chi <= PI -> 0 <= w <= PI -> 0 < t < PI -> - PI < h <= PI ->
  angles_to_cart p (sample_turn chi w) mI ts tc [(t, h)] = Ok [XY x y] ->
  c_epsf < norm2 (vsub (lab_point (f_rmat p) (f_tvec p) x y) (vadd ts (mv (sample_turn chi w) tc))) ->
  exists og, cart_to_angles p (sample_turn chi w) ts tc [(x, y)] = Ok [(t, Some h, og)].
Proof. intros p r chi w ts tc t h x y RD E BX. apply (angles_cart_angles p r); auto. apply used_exact; auto. apply big_nonzero, (flat_frame p r E). Qed.
Print Assumptions C76_angles_back_partial.
Theorem C76_points_back_partial : forall p r chi w ts tc x y, rotation (f_rmat p) -> make_beam_rmat (f_bvec p) (f_evec p) = Ok r ->
  direction (f_bvec p) = V3 0 0 (-1) \/ c_epsf <= 1 + vz (direction (f_bvec p)) ->
  0 <= chi <= PI -> 0 <= w <= PI -> let d := vsub (lab_point (f_rmat p) (f_tvec p) x y) (vadd ts (mv (sample_turn chi w) tc)) in
  c_epsf < norm2 d -> dot (col2 (f_rmat p)) d <> 0 ->
  exists t h og, cart_to_angles p (sample_turn chi w) ts tc [(x, y)] = Ok [(t, Some h, og)] /\ angles_to_cart p (sample_turn chi w) mI ts tc [(t, h)] = Ok [XY x y].
Proof. intros p r chi w ts tc x y RD E BX. apply (cart_angles_cart p r); auto. apply used_exact; auto. apply big_nonzero, (flat_frame p r E). Qed.
Print Assumptions C76_points_back_partial.
(** cart_to_angles is right for every sample rotation *)
Theorem C76_angles : forall p r rs ts tc x y, make_beam_rmat (f_bvec p) (f_evec p) = Ok r ->
  let d := vsub (lab_point (f_rmat p) (f_tvec p) x y) (vadd ts (mv rs tc)) in c_epsf < norm2 d ->
  exists t h og, cart_to_angles p rs ts tc [(x, y)] = Ok [(t, Some h, og)] /\ 0 <= t <= PI /\ - PI < h <= PI /\ scattered r t h = direction d.
Proof. exact cart_angles_one. Qed.
Print Assumptions C76_angles.
(** for a negative omega, angles_to_cart loses a point the ray does meet *)
Theorem C76_negative_omega_refuted : exists p r ts tc t h chi w x y, rotation (f_rmat p) /\ beam_frame (f_bvec p) (f_evec p) r /\ 0 < t < PI /\
  meets_only (f_rmat p) (f_tvec p) (vadd ts (mv (sample_turn chi w) tc)) (scattered r t h) x y /\ angles_to_cart p (sample_turn chi w) mI ts tc [(t, h)] = Ok [NaNs].
Proof. exact angles_to_cart_negative. Qed.
Print Assumptions C76_negative_omega_refuted.
Theorem C76_dvecs : forall p xy, cart_to_dvecs p xy = map (fun c => lab_point (f_rmat p) (f_tvec p) (fst c) (snd c)) xy.
Proof. reflexivity. Qed.
Print Assumptions C76_dvecs.
Example C76_ex : let p := Flat mI (V3 0 0 (-1)) (V3 0 0 (-1)) (V3 1 0 0) in make_beam_rmat (f_bvec p) (f_evec p) = Ok mI /\ direction (f_bvec p) = V3 0 0 (-1) /\
  c_epsf < norm2 (vsub (lab_point (f_rmat p) (f_tvec p) 3 4) (vadd vzero (mv (sample_turn 0 0) vzero))) /\ dot (col2 (f_rmat p)) (vsub (lab_point (f_rmat p) (f_tvec p) 3 4) (vadd vzero (mv (sample_turn 0 0) vzero))) <> 0.
Proof.
  cbv zeta. cbn [f_rmat f_tvec f_bvec f_evec]. pose proof epsf_small. split.
  - replace (V3 0 0 (-1)) with (vneg (col2 mI)) by (lin_unfold; f_equal; ring). apply (frame_cols mI rot_I).
  - split; [apply direction_of_unit, unit_xz|]. replace (vadd vzero (mv (sample_turn 0 0) vzero)) with vzero by (unfold sample_turn, rot_x, rot_y; lin_unfold; f_equal; ring). unfold lab_point. rewrite mv_I. lin_unfold. split; lra.
Qed.

(** ** C77: where the beam meets the panel *)
Theorem C77_on_beam : forall p x y, rotation (f_rmat p) -> beam_position p = Some (x, y) -> exists u, lab_point (f_rmat p) (f_tvec p) x y = vscale u (f_bvec p).
Proof. exact beam_pos. Qed.
Print Assumptions C77_on_beam.
(** for a panel whose front faces the source, downstream of the origin *)
Theorem C77_facing_partial : forall p x y, rotation (f_rmat p) -> dot (col2 (f_rmat p)) (f_tvec p) < 0 -> dot (f_bvec p) (col2 (f_rmat p)) < - sqrt c_epsf ->
  (beam_position p = Some (x, y) <-> meets_only (f_rmat p) (f_tvec p) vzero (f_bvec p) x y).
Proof. exact beam_pos_ray. Qed.
Print Assumptions C77_facing_partial.
Theorem C77_upstream_refuted : exists p x y, rotation (f_rmat p) /\ beam_position p = Some (x, y) /\ forall x' y', ~ meets (f_rmat p) (f_tvec p) vzero (f_bvec p) x' y'.
Proof. exact beam_pos_upstream. Qed.
Print Assumptions C77_upstream_refuted.
Example C77_ex : let p := Flat mI (V3 1 2 (-1)) (V3 0 0 (-1)) (V3 1 0 0) in dot (col2 (f_rmat p)) (f_tvec p) < 0 /\ dot (f_bvec p) (col2 (f_rmat p)) < - sqrt c_epsf.
Proof.
  cbv zeta. cbn [f_rmat f_tvec f_bvec]. pose proof epsf_small. assert (sqrt c_epsf < sqrt 1) by (apply sqrt_lt_1_alt; lra). rewrite sqrt_1 in *. lin_unfold. split; lra.
Qed.

(** ** C78: makeGVector *)
(** what it does: each of the three rows of components, not each vector, is divided by its norm *)
Theorem C78_unit_refuted : exists bmat hkl, map (mv bmat) hkl = [V3 3 0 0; V3 4 0 0] /\ makeGVector bmat hkl = [V3 (3 / 5) 0 0; V3 (4 / 5) 0 0] /\ ~ Forall unit (makeGVector bmat hkl).
Proof.
  destruct rows_not_columns as (b & h & E & M). exists b, h. split; [assumption|]. split; [assumption|]. rewrite E. intros F. inversion F as [|? ? U _]; subst. unfold unit in U. lin_unfold. lra.
Qed.
Print Assumptions C78_unit_refuted.

(** ** C79: rotation of vectors about axes *)
(** row i, or the single value *)
Definition row_of {A} (a : single_or_rows A) (i : nat) : option A := match a with Single x => Some x | Rows l => nth_error l i end.
Definition rows_ok {A} (a : single_or_rows A) (n : nat) : Prop := match a with Single _ => True | Rows l => List.length l = n end.
Lemma spread_nth : forall {A} (a : single_or_rows A) n l i, spread a n = Ok l -> (i < n)%nat -> nth_error l i = row_of a i /\ List.length l = n.
Proof.
  intros A a n l i H I. destruct a as [x|r]; cbn [spread] in H.
  - injection H as <-. cbn [row_of]. split; [|apply repeat_length]. apply nth_error_repeat. assumption.
  - destruct (Nat.eqb (List.length r) n) eqn:E; [|discriminate]. injection H as <-. apply Nat.eqb_eq in E. now split.
Qed.
Lemma spread_ok : forall {A} (a : single_or_rows A) n, rows_ok a n -> exists l, spread a n = Ok l.
Proof. intros A [x|r] n H; cbn [spread rows_ok] in *; [now eexists|]. rewrite (proj2 (Nat.eqb_eq _ _) H). now eexists. Qed.
Lemma nth_combine : forall {A B} (l : list A) (m : list B) i a b, nth_error l i = Some a -> nth_error m i = Some b -> nth_error (combine l m) i = Some (a, b).
Proof. induction l as [|x l IH]; intros [|y m] [|i] a b H K; try discriminate; cbn in *; [congruence|]. now apply IH. Qed.
Theorem C79_rotated : forall angs axes vecs, rows_ok angs (List.length vecs) -> rows_ok axes (List.length vecs) ->
  exists out, rotate_vecs_about_axis angs axes vecs = Ok out /\ forall i t a v, row_of angs i = Some t -> row_of axes i = Some a -> nth_error vecs i = Some v -> a <> vzero ->
    nth_error out i = Some (Some (rotated (direction a) t v)).
Proof.
  intros angs axes vecs A X. destruct (spread_ok _ _ A) as (la & LA). destruct (spread_ok _ _ X) as (lx & LX). unfold rotate_vecs_about_axis. rewrite LA. cbn [rbind]. rewrite LX. cbn [rbind]. eexists. split; [reflexivity|].
  intros i t a v T S V N. assert (I : (i < List.length vecs)%nat) by (apply nth_error_Some; congruence). destruct (spread_nth _ _ _ i LA I) as [P _]. destruct (spread_nth _ _ _ i LX I) as [Q _].
  erewrite map_nth_error; [|apply nth_combine; [apply nth_combine; [rewrite P; exact T|rewrite Q; exact S]|exact V]]. cbn [fst snd]. now rewrite rotate_lemma.
Qed.
Print Assumptions C79_rotated.
(** arrays of another length are rejected, also arrays of length one, which the documentation allows *)
Theorem C79_one_row_refuted : forall t a vecs, List.length vecs <> 1%nat -> rotate_vecs_about_axis (Rows [t]) (Single a) vecs = Err ValueError.
Proof. intros t a vecs H. unfold rotate_vecs_about_axis. cbn [spread List.length]. destruct (Nat.eqb 1 (List.length vecs)) eqn:E; [|reflexivity]. apply Nat.eqb_eq in E. congruence. Qed.
Print Assumptions C79_one_row_refuted.
Example C79_ex : rows_ok (Rows [1; 2]) (List.length [V3 1 0 0; V3 0 1 0]) /\ rows_ok (Single (V3 0 0 2)) (List.length [V3 1 0 0; V3 0 1 0]) /\ V3 0 0 2 <> vzero.
Proof. split; [reflexivity|]. split; [exact I|]. intros K. injection K as K. lra. Qed.

(** ** C80: quat_distance *)
Theorem C80_smallest : forall q1 q2 l, unitq q1 -> unitq q2 -> Forall unitq l -> l <> [] ->
  exists t, quat_distance q1 q2 l = Some t /\ smallest_angle (rotMatOfQuat q1) (rotMatOfQuat q2) (rots l) [mI] t.
Proof. exact qd_lemma. Qed.
Print Assumptions C80_smallest.
Example C80_ex : unitq (Q4 (3 / 5) 0 (4 / 5) 0) /\ Forall unitq [Q4 1 0 0 0; Q4 0 1 0 0].
Proof. split; [unfold unitq; cbn [qw qx qy qz]; field|]. repeat constructor; unfold unitq; cbn [qw qx qy qz]; ring. Qed.
