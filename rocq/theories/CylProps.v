From Coq Require Import Reals List String Lra.
From Verif Require Import Prelude Lin RotSpec XfSpec XfModel XfTrig XfRay XfFlat XfMats XfOsc CylModel CylSpec CylProofs CylMore.
Local Open Scope R_scope.

(** * C96: the bent sheet *)
Theorem C96_positions : forall c rmat_s tvec_s tvec_c x y, rotation (c_rmat c) ->
  cyl_cart_to_dvecs c rmat_s tvec_s tvec_c (x, y) = vsub (bent_point (c_rmat c) (c_tvec c) (c_radius c) x y) (vadd tvec_s (mv rmat_s tvec_c)).
Proof. intros c rs ts tc x y H. apply (warp_bent _ _ _ H). Qed.
(** [bent_point] is the sheet: it lies on the tube, is rolled without stretching, touches the flat panel along x = 0 and runs around the tube once *)
Theorem C96_sheet : forall rmat t r, rotation rmat -> 0 < r ->
  (forall x y, on_tube rmat t r (bent_point rmat t r x y)) /\
  (forall x y, exists vxx vyy, velocity (fun s => bent_point rmat t r s y) x vxx /\ velocity (fun s => bent_point rmat t r x s) y vyy /\ unit vxx /\ unit vyy /\ dot vxx vyy = 0 /\
     vyy = mv rmat (V3 0 1 0) /\ (x = 0 -> vxx = mv rmat (V3 1 0 0))) /\
  (forall y, bent_point rmat t r 0 y = lab_point rmat t 0 y) /\
  (forall p, on_tube rmat t r p -> exists x y, once_around r x /\ bent_point rmat t r x y = p /\ forall x' y', once_around r x' -> bent_point rmat t r x' y' = p -> x' = x /\ y' = y).
Proof.
  intros rm t r H Hr. split; [intros; now apply bent_on|]. split; [|split].
  - intros x y. exists (tangent rm r x), (mv rm (V3 0 1 0)). split; [apply velocity_x; lra|]. split; [apply velocity_y|]. destruct (tangent_unit rm r x H) as [A B].
    split; [assumption|]. split; [apply rot_unit; [assumption|]; unfold unit; lin_unfold; ring|]. split; [assumption|]. split; [reflexivity|]. intros ->. apply tangent_0.
  - intros. apply bent_0.
  - intros p P. destruct (tube_bent rm t r H Hr p P) as (x & y & O & E). exists x, y. split; [assumption|]. split; [assumption|]. intros x' y' O' E'. subst p.
    apply (bent_inj rm t r H Hr vzero mI vzero); assumption.
Qed.
(** the sheet coordinates of a point of the tube, and back *)
Theorem C96_unbend : forall rmat t r tvec_s rmat_s tvec_c, rotation rmat -> 0 < r ->
  let o := vadd tvec_s (mv rmat_s tvec_c) in
  let unbend p := dewarp_from_cylinder t (mv rmat (V3 0 1 0)) (mv rmat (V3 1 0 0)) r tvec_s rmat_s tvec_c (Some (vsub p o)) in
  (forall x y, once_around r x -> unbend (bent_point rmat t r x y) = Some (x, y)) /\
  (forall p, on_tube rmat t r p -> exists x y, unbend p = Some (x, y) /\ once_around r x /\ bent_point rmat t r x y = p).
Proof.
  intros rm t r ts rs tc H Hr o unbend. assert (B : forall x y, once_around r x -> unbend (bent_point rm t r x y) = Some (x, y)) by (intros x y O; now apply (dewarp_bent rm t r H Hr ts rs tc)).
  split; [exact B|]. intros p P. destruct (tube_bent rm t r H Hr p P) as (x & y & O & E). exists x, y. split; [|now split]. subst p. now apply B.
Qed.
(** the normals of the pixels: unit vectors that point away from the axis *)
Theorem C96_normals : forall c x, rotation (c_rmat c) -> 0 < c_radius c ->
  unit (local_normal c x) /\
  forall y, in_panel_frame (c_rmat c) (c_tvec c) (vsub (bent_point (c_rmat c) (c_tvec c) (c_radius c) x y) (vscale (c_radius c) (local_normal c x))) = V3 0 y (c_radius c).
Proof.
  intros c x H Hr. rewrite (normal_eq c x H). split.
  - apply rot_unit; [assumption|]. pose proof (sin2_cos2 (x / c_radius c)) as S2. unfold Rsqr in S2. unfold unit, norm2, dot. cbn [vx vy vz]. lra.
  - intros y. unfold bent_point, in_panel_frame. set (r := c_radius c) in *. set (a := sin (x / r)). set (b := cos (x / r)).
    replace (vsub (vsub (vadd (c_tvec c) (mv (c_rmat c) (V3 (r * a) y (r - r * b)))) (vscale r (mv (c_rmat c) (V3 a 0 (- b))))) (c_tvec c)) with (mv (c_rmat c) (V3 0 y r)).
    + now apply rot_forth.
    + clearbody a b r. destruct (c_rmat c), (c_tvec c). clear. lin_unfold. f_equal; ring.
Qed.
(** * C97: angles and rays *)
(** the scattering angles of a point of the panel *)
Theorem C97_angles : forall c rb rmat_s tvec_s tvec_c x y, rotation (c_rmat c) -> unit (c_bvec c) -> beam_frame (c_bvec c) (c_evec c) rb ->
  let d := vsub (bent_point (c_rmat c) (c_tvec c) (c_radius c) x y) (vadd tvec_s (mv rmat_s tvec_c)) in d <> vzero ->
  exists t h, cyl_cart_to_angles c rmat_s tvec_s tvec_c true (x, y) = ((t, h), direction d) /\ 0 <= t <= PI /\ - PI < h <= PI /\ scattered rb t h = direction d.
Proof.
  intros c rb rs ts tc x y H UB F d ND. unfold cyl_cart_to_angles, caxis, paxis. rewrite (warp_dir _ _ _ H). fold (vadd ts (mv rs tc)). change (source ts rs tc) with (vadd ts (mv rs tc)). fold d.
  destruct (dvec_angs _ _ rb (direction d) UB F (direction_unit d ND)) as (t & h & E & A). exists t, h. rewrite E. now split.
Qed.
Theorem C97_pixel_angles : forall c rb origin x y, rotation (c_rmat c) -> unit (c_bvec c) -> beam_frame (c_bvec c) (c_evec c) rb ->
  let d := vsub (bent_point (c_rmat c) (c_tvec c) (c_radius c) x y) origin in d <> vzero ->
  exists t h, cyl_pixel_angle c origin (x, y) = (t, h) /\ 0 <= t <= PI /\ - PI < h <= PI /\ scattered rb t h = direction d.
Proof.
  intros c rb org x y H UB F d ND. unfold cyl_pixel_angle, caxis, paxis. rewrite (warp_dir _ _ _ H).
  replace (vsub (bent_point (c_rmat c) (vsub (c_tvec c) org) (c_radius c) x y) (source vzero mI vzero)) with d.
  - destruct (dvec_angs _ _ rb (direction d) UB F (direction_unit d ND)) as (t & h & E & A). exists t, h. rewrite E. now split.
  - unfold d, bent_point, source. generalize (mv (c_rmat c) (V3 (c_radius c * sin (x / c_radius c)) y (c_radius c - c_radius c * cos (x / c_radius c)))). intros w. destruct (c_tvec c), org, w. lin_unfold. f_equal; ring.
Qed.
Definition wide : cyl := Cyl mI (V3 0 0 (-2)) 2 10 12 1 1 (V3 0 0 (-1)) (V3 1 0 0).
Lemma wide_frame : beam_frame (c_bvec wide) (c_evec wide) mI.
Proof.
  unfold beam_frame. rewrite dir_unit by (unfold unit; cbn; lin_unfold; ring). split; [apply rot_I|]. split; [now rewrite mv_I|]. cbn [c_evec c_bvec wide]. rewrite mt_I, mv_I. cbn. split; lra.
Qed.
(** with normalize=False the angles are wrong *)
Theorem C97_unnormalised_refuted : exists c rb x y t h, rotation (c_rmat c) /\ unit (c_bvec c) /\ beam_frame (c_bvec c) (c_evec c) rb /\
  fst (cyl_cart_to_angles c mI vzero vzero false (x, y)) = (t, h) /\
  scattered rb t h <> direction (vsub (bent_point (c_rmat c) (c_tvec c) (c_radius c) x y) vzero).
Proof.
  exists wide, mI, 0, 2, (fst (dvec_to_angs (V3 0 0 (-1)) (V3 1 0 0) (V3 0 2 (-2)))), (snd (dvec_to_angs (V3 0 0 (-1)) (V3 1 0 0) (V3 0 2 (-2)))).
  split; [apply rot_I|]. split; [unfold unit; cbn; lin_unfold; ring|]. split; [apply wide_frame|].
  assert (W : vsub (bent_point (c_rmat wide) (c_tvec wide) (c_radius wide) 0 2) (source vzero mI vzero) = V3 0 2 (-2)).
  { rewrite bent_0. cbn [c_rmat c_tvec wide]. unfold lab_point, source. lin_unfold. f_equal; ring. } split.
  { unfold cyl_cart_to_angles, caxis, paxis. rewrite (warp_bent (c_rmat wide) _ _ rot_I), W. cbn [fst]. apply surjective_pairing. }
  intros E. assert (Q : dot (V3 0 0 (-1)) (V3 0 2 (-2)) = 2) by (lin_unfold; ring). assert (E2 := f_equal vz E). clear E. unfold scattered in E2. rewrite mv_I in E2. cbn [vz] in E2.
  unfold dvec_to_angs in E2. cbn [fst] in E2. rewrite Q in E2. destruct (Rlt_dec 1 (Rabs 2)) as [_|N]. 2:{ apply N. rewrite Rabs_right; lra. } destruct (Rlt_dec 0 2) as [_|N]; [|lra].
  rewrite acos_1, cos_0 in E2. unfold direction in E2. rewrite bent_0 in E2. cbn [c_rmat c_tvec wide] in E2.
  replace (vsub (lab_point mI (V3 0 0 (-2)) 0 2) vzero) with (V3 0 2 (-2)) in E2 by (unfold lab_point; lin_unfold; f_equal; ring). cbn [vz vscale] in E2.
  assert (NN : norm (V3 0 2 (-2)) * norm (V3 0 2 (-2)) = 8) by (rewrite norm_sq; lin_unfold; ring). pose proof (norm_pos (V3 0 2 (-2))) as NP. set (n := norm (V3 0 2 (-2))) in *. clearbody n.
  assert (n <> 0) by (intros Z; rewrite Z in NN; lra). assert (I : / n = / 2) by lra. assert (n = 2). { rewrite <- (Rinv_inv n), I. field. } subst n. lra.
Qed.
(** where a ray meets the tube: the farther of the two points, or nothing *)
Theorem C97_intersection : forall rmat t r tvec_s rmat_s tvec_c d, rotation rmat -> 0 < r -> unit d ->
  let o := vadd tvec_s (mv rmat_s tvec_c) in
  match unitvec_to_cylinder (mv rmat (V3 0 1 0)) (mv rmat (V3 1 0 0)) r t tvec_s rmat_s tvec_c d with
  | Some u => exists s, u = vscale s d /\ on_tube rmat t r (vadd o u) /\ forall s', on_tube rmat t r (vadd o (vscale s' d)) -> s' <= s
  | None => not_axial rmat d -> forall s, ~ on_tube rmat t r (vadd o (vscale s d))
  end /\
  (inside_tube rmat t r o -> not_axial rmat d -> exists s, 0 < s /\ unitvec_to_cylinder (mv rmat (V3 0 1 0)) (mv rmat (V3 1 0 0)) r t tvec_s rmat_s tvec_c d = Some (vscale s d) /\
     forall s', 0 < s' -> (on_tube rmat t r (vadd o (vscale s' d)) <-> s' = s)).
Proof.
  intros rm t r ts rs tc d H Hr U o. split.
  - destruct (unitvec_to_cylinder _ _ _ _ _ _ _ _) as [u|] eqn:E; [eapply (unitvec_some rm t r H ts rs tc d U u E)|]. intros N. apply (unitvec_none rm t r H ts rs tc d U E N).
  - intros I N. destruct (unitvec_inside rm t r H ts rs tc d U I N) as (s & S0 & E & T & Q). exists s. split; [assumption|]. split; [assumption|]. intros s' P. split; [now apply Q|]. intros ->. exact T.
Qed.
(** the names that make angles_to_cart work are not in the module it looks them up in *)
Theorem C97_angles_to_cart_refuted : forall c rmat_s tvec_s tvec_c angles, cyl_angles_to_cart hedm_utils_names c rmat_s tvec_s tvec_c angles = Err AttributeError.
Proof. reflexivity. Qed.
Theorem C97_beam_position_refuted : forall c, cyl_beam_position hedm_utils_names c = Err AttributeError.
Proof. reflexivity. Qed.
(** once the name is there, for an unturned sample: every direction gets the point where its ray meets the sheet, and NaN if there is none *)
Theorem C97_projection_partial : forall names c rb tvec_s tvec_c angles, In "_project_on_detector_cylinder"%string names ->
  rotation (c_rmat c) -> 0 < c_radius c -> unit (c_bvec c) -> beam_frame (c_bvec c) (c_evec c) rb ->
  let o := vadd tvec_s (mv mI tvec_c) in inside_tube (c_rmat c) (c_tvec c) (c_radius c) o ->
  exists res, cyl_angles_to_cart names c mI tvec_s tvec_c angles = Ok res /\
    Forall2 (fun a q => let d := scattered rb (fst a) (snd a) in
      (not_axial (c_rmat c) d -> forall x y, q = Some (x, y) <-> meets_tube (c_rmat c) (c_tvec c) (c_radius c) o d x y /\ on_sheet (c_cols c * c_psc c) (c_rows c * c_psr c) x y) /\
      (~ not_axial (c_rmat c) d -> q = None)) angles res.
Proof.
  intros names c rb ts tc angles HN H Hr UB F o HI. unfold cyl_angles_to_cart. rewrite (attr_in _ _ _ _ HN). cbn [rbind]. eexists. split; [reflexivity|]. apply forall2_map. intros [t h] _. cbn [fst snd].
  replace (acos (m11 mI)) with 0 by (symmetry; exact acos_1). replace (acos (m00 mI)) with 0 by (symmetry; exact acos_1). unfold project_on_detector_cylinder.
  rewrite (dvec_still _ _ t h rb (unit_nonzero _ UB) F). set (d := scattered rb t h). assert (UD : unit d) by (apply scattered_unit; apply F). clearbody d.
  unfold angle_extent, height, caxis, paxis. set (w := c_cols c * c_psc c). set (hh := c_rows c * c_psr c). split.
  - intros NA. destruct (xy_inside (c_rmat c) (c_tvec c) (c_radius c) H Hr ts mI tc w hh d UD HI NA) as [(x & y & M & OS & ->)|(x & y & M & OS & ->)]; intros x' y'; split.
    + intros [= <- <-]. now split.
    + intros [M' OS']. destruct (meets_tube_unique (c_rmat c) (c_tvec c) (c_radius c) H Hr ts mI tc d x y x' y' UD HI NA M M') as [-> ->]. reflexivity.
    + discriminate.
    + intros [M' OS']. destruct (meets_tube_unique (c_rmat c) (c_tvec c) (c_radius c) H Hr ts mI tc d x y x' y' UD HI NA M M') as [-> ->]. contradiction.
  - intros NA. unfold dvec_to_xy_cylinder. rewrite (unitvec_axial (c_rmat c) (c_tvec c) (c_radius c) H ts mI tc d UD NA). reflexivity.
Qed.
(** from a point of the panel to its angles and back, again for an unturned sample *)
Theorem C97_round_trip_partial : forall names c tvec_s tvec_c rb x y, In "_project_on_detector_cylinder"%string names ->
  rotation (c_rmat c) -> 0 < c_radius c -> unit (c_bvec c) -> beam_frame (c_bvec c) (c_evec c) rb ->
  let o := vadd tvec_s (mv mI tvec_c) in inside_tube (c_rmat c) (c_tvec c) (c_radius c) o ->
  not_axial (c_rmat c) (direction (vsub (bent_point (c_rmat c) (c_tvec c) (c_radius c) x y) o)) ->
  once_around (c_radius c) x -> on_sheet (c_cols c * c_psc c) (c_rows c * c_psr c) x y ->
  cyl_angles_to_cart names c mI tvec_s tvec_c [fst (cyl_cart_to_angles c mI tvec_s tvec_c true (x, y))] = Ok [Some (x, y)].
Proof.
  intros names c ts tc rb x y HN H Hr UB F o HI NA OA OS. set (v := vsub (bent_point (c_rmat c) (c_tvec c) (c_radius c) x y) o) in *.
  assert (NV : v <> vzero).
  { intros Z. assert (E : bent_point (c_rmat c) (c_tvec c) (c_radius c) x y = o). { rewrite <- (vadd_sub (bent_point (c_rmat c) (c_tvec c) (c_radius c) x y) o). fold v. rewrite Z. generalize o. clear. lin. }
    pose proof (bent_on (c_rmat c) (c_tvec c) (c_radius c) H x y) as T. rewrite E in T. unfold on_tube in T. unfold inside_tube in HI. cbv zeta in T, HI. lra. }
  destruct (C97_angles c rb mI ts tc x y H UB F NV) as (t & h & E & _ & _ & SC). rewrite E. cbn [fst].
  destruct (C97_projection_partial names c rb ts tc [(t, h)] HN H Hr UB F HI) as (res & -> & R). inversion R as [|a q l l' [R1 R2] R3 E1 E2]. subst. inversion R3. subst. cbn [fst snd] in *.
  f_equal. f_equal. rewrite SC in R1. apply R1; [exact NA|]. split; [|assumption]. split; [assumption|]. exists (norm v). split; [now apply norm_gt0|].
  rewrite scale_dir by assumption. unfold v. symmetry. apply vadd_sub.
Qed.
(** for a turned sample the direction, given in the sample frame, is used as if it were in the lab frame *)
Theorem C97_turned_sample_refuted : exists names c rb, In "_project_on_detector_cylinder"%string names /\ rotation (c_rmat c) /\ 0 < c_radius c /\ unit (c_bvec c) /\ beam_frame (c_bvec c) (c_evec c) rb /\
  inside_tube (c_rmat c) (c_tvec c) (c_radius c) vzero /\
  meets_tube (c_rmat c) (c_tvec c) (c_radius c) vzero (scattered rb 0 0) 0 0 /\ on_sheet (c_cols c * c_psc c) (c_rows c * c_psr c) 0 0 /\
  exists x, x <> 0 /\ cyl_angles_to_cart names c (sample_turn 0 (PI / 2)) vzero vzero [(0, 0)] = Ok [Some (x, 0)].
Proof.
  exists ["_project_on_detector_cylinder"%string], wide, mI. split; [now left|]. split; [apply rot_I|]. split; [cbn; lra|]. split; [unfold unit; cbn; lin_unfold; ring|]. split; [apply wide_frame|].
  split; [unfold inside_tube, in_panel_frame; cbn; lin_unfold; lra|]. pose proof PI_RGT_0 as PP. pose proof PI2_3_2 as P3. pose proof PI_4 as P4.
  split. { split; [red; cbn; lra|]. exists 2. split; [lra|]. rewrite bent_0. unfold scattered, lab_point. cbn [c_rmat c_tvec wide]. rewrite sin_0, cos_0. lin_unfold. f_equal; ring. }
  split. { red. rewrite !Rabs_R0. cbn. lra. }
  exists PI. split; [lra|]. unfold cyl_angles_to_cart. rewrite attr_in by now left. cbn [rbind map fst snd].
  destruct (acos_turn 0 (PI / 2)) as [-> ->]; [lra|lra|]. unfold project_on_detector_cylinder.
  set (d := angles_to_dvec _ _ _ _ _ _ _). assert (D : d = V3 1 0 0).
  { pose proof (dvec_lemma (c_bvec wide) (c_evec wide) 0 mI 0 0 (PI / 2) mI) as L. fold d in L. assert (UB : unit (c_bvec wide)) by (unfold unit; cbn; lin_unfold; ring). specialize (L (unit_nonzero _ UB) wide_frame rot_I).
    rewrite mv_I in L. apply (f_equal (mv (mt (sample_turn 0 (PI / 2))))) in L. rewrite rot_forth in L by apply turn_rot. rewrite L. unfold scattered, sample_turn, rot_x, rot_y. rewrite sin_0, cos_0, cos_PI2, sin_PI2. lin_unfold. f_equal; ring. }
  rewrite D. clear D. clearbody d. clear d. set (rs := sample_turn 0 (PI / 2)).
  assert (S0 : source vzero rs vzero = vzero) by (unfold source; destruct rs; lin_unfold; f_equal; ring).
  assert (UD : unit (V3 1 0 0)) by (unfold unit; lin_unfold; ring).
  assert (B : bent_point (c_rmat wide) (c_tvec wide) (c_radius wide) PI 0 = vadd (source vzero rs vzero) (vscale 2 (V3 1 0 0))).
  { rewrite S0. unfold bent_point. cbn [c_rmat c_tvec c_radius wide]. rewrite sin_PI2, cos_PI2. lin_unfold. f_equal; ring. }
  assert (HI : inside_tube (c_rmat wide) (c_tvec wide) (c_radius wide) (source vzero rs vzero)) by (rewrite S0; unfold inside_tube, in_panel_frame; cbn; lin_unfold; lra).
  assert (NA : not_axial (c_rmat wide) (V3 1 0 0)) by (unfold not_axial; cbn; lin_unfold; lra).
  assert (M : meets_tube (c_rmat wide) (c_tvec wide) (c_radius wide) (source vzero rs vzero) (V3 1 0 0) PI 0) by (split; [red; cbn; lra|]; exists 2; split; [lra|exact B]).
  assert (Hr : 0 < c_radius wide) by (cbn; lra). assert (OS : on_sheet (c_cols wide * c_psc wide) (height wide) PI 0) by (red; rewrite Rabs_R0, Rabs_right by lra; unfold height; cbn; lra).
  unfold angle_extent, caxis, paxis.
  destruct (xy_inside (c_rmat wide) (c_tvec wide) (c_radius wide) rot_I Hr vzero rs vzero (c_cols wide * c_psc wide) (height wide) (V3 1 0 0) UD HI NA) as [(x & y & M' & _ & ->)|(x & y & M' & OS' & ->)];
    destruct (meets_tube_unique (c_rmat wide) (c_tvec wide) (c_radius wide) rot_I Hr vzero rs vzero _ _ _ _ _ UD HI NA M M') as [<- <-]; [reflexivity|contradiction].
Qed.
(** the position of the beam, once the names are there *)
Theorem C97_beam_position_partial : forall names c, (forall n, In n ["_unitvec_to_cylinder"; "_clip_to_cylindrical_detector"; "_dewarp_from_cylinder"]%string -> In n names) ->
  rotation (c_rmat c) -> 0 < c_radius c -> unit (c_bvec c) -> inside_tube (c_rmat c) (c_tvec c) (c_radius c) vzero -> not_axial (c_rmat c) (c_bvec c) ->
  exists q, cyl_beam_position names c = Ok q /\
    forall x y, q = Some (x, y) <-> meets_tube (c_rmat c) (c_tvec c) (c_radius c) vzero (c_bvec c) x y /\ on_sheet (c_cols c * c_psc c) (c_rows c * c_psr c) x y.
Proof.
  intros names c HN H Hr UB HI NA. unfold cyl_beam_position. rewrite !attr_in by (apply HN; cbn; tauto). cbn [rbind].
  assert (S0 : source vzero mI vzero = vzero) by (unfold source; lin_unfold; f_equal; ring).
  replace (dewarp_from_cylinder _ _ _ _ _ _ _ _) with (fst (dvec_to_xy_cylinder (c_tvec c) (caxis c) (paxis c) (c_radius c) (height c) (angle_extent c) vzero mI vzero (c_bvec c))).
  2:{ unfold dvec_to_xy_cylinder. destruct (clip_to_cylinder _ _ _ _ _ _ _ _ _ _). reflexivity. }
  eexists. split; [reflexivity|]. rewrite <- S0 in HI |- *. unfold angle_extent, height, caxis, paxis.
  rewrite S0 in HI |- *. rewrite <- S0 in HI. intros x' y'. 
  destruct (xy_inside (c_rmat c) (c_tvec c) (c_radius c) H Hr vzero mI vzero (c_cols c * c_psc c) (c_rows c * c_psr c) (c_bvec c) UB HI NA) as [(x & y & M & OS & ->)|(x & y & M & OS & ->)]; cbn [fst]; rewrite S0 in M; split.
  - intros [= <- <-]. now split.
  - intros [M' _]. rewrite <- S0 in M, M'. destruct (meets_tube_unique (c_rmat c) (c_tvec c) (c_radius c) H Hr vzero mI vzero (c_bvec c) x y x' y' UB HI NA M M') as [-> ->]. reflexivity.
  - discriminate.
  - intros [M' OS']. rewrite <- S0 in M, M'. destruct (meets_tube_unique (c_rmat c) (c_tvec c) (c_radius c) H Hr vzero mI vzero (c_bvec c) x y x' y' UB HI NA M M') as [-> ->]. contradiction.
Qed.

(** the hypotheses hold of a concrete panel around the sample, and the beam hits its middle *)
Example Cyl_example : rotation (c_rmat wide) /\ 0 < c_radius wide /\ unit (c_bvec wide) /\ beam_frame (c_bvec wide) (c_evec wide) mI /\ inside_tube (c_rmat wide) (c_tvec wide) (c_radius wide) vzero /\
  not_axial (c_rmat wide) (c_bvec wide) /\ meets_tube (c_rmat wide) (c_tvec wide) (c_radius wide) vzero (c_bvec wide) 0 0 /\ on_sheet (c_cols wide * c_psc wide) (c_rows wide * c_psr wide) 0 0 /\
  once_around (c_radius wide) 0 /\ vsub (bent_point (c_rmat wide) (c_tvec wide) (c_radius wide) 0 0) vzero <> vzero.
Proof.
  split; [apply rot_I|]. split; [cbn; lra|]. split; [unfold unit; cbn; lin_unfold; ring|]. split; [apply wide_frame|]. split; [unfold inside_tube, in_panel_frame; cbn; lin_unfold; lra|].
  split; [unfold not_axial; cbn; lin_unfold; lra|]. pose proof PI_RGT_0. assert (O : once_around (c_radius wide) 0) by (red; cbn; lra).
  split; [split; [assumption|]; exists 2; split; [lra|]; rewrite bent_0; unfold lab_point; cbn; lin_unfold; f_equal; ring|].
  split; [red; rewrite !Rabs_R0; cbn; lra|]. split; [assumption|]. rewrite bent_0. unfold lab_point. cbn. lin_unfold. intros [= E]. lra.
Qed.
Print Assumptions C96_positions.
Print Assumptions C96_sheet.
Print Assumptions C96_unbend.
Print Assumptions C96_normals.
Print Assumptions C97_angles.
Print Assumptions C97_pixel_angles.
Print Assumptions C97_unnormalised_refuted.
Print Assumptions C97_intersection.
Print Assumptions C97_angles_to_cart_refuted.
Print Assumptions C97_beam_position_refuted.
Print Assumptions C97_projection_partial.
Print Assumptions C97_round_trip_partial.
Print Assumptions C97_turned_sample_refuted.
Print Assumptions C97_beam_position_partial.
