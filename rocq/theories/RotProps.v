(** C32-C36, C72, C73: quaternions, misorientation, Laue groups, angle mapping, fundamental region, Euler units. *)
From Coq Require Import Reals List String Lra.
From Verif Require Import Prelude Lin TensorModel RotModel RotSpec RotProofs RotProofs2 RotGroups.
Import ListNotations.
Local Open Scope R_scope.

(** C32: a unit quaternion is a proper rotation, two of them are the same rotation exactly when equal up to sign *)
Theorem C32_unit_is_rotation : forall q, unitq q -> rotation (rotMatOfQuat q).
Proof. exact unit_rot. Qed.
Print Assumptions C32_unit_is_rotation.
Theorem C32_same_rotation_iff_sign : forall p q, unitq p -> unitq q -> (rotMatOfQuat p = rotMatOfQuat q <-> (q = p \/ q = negq p)).
Proof. exact rot_iff. Qed.
Print Assumptions C32_same_rotation_iff_sign.
Theorem C32_every_rotation_has_quaternion : forall r, rotation r -> exists q, unitq q /\ rotMatOfQuat q = r.
Proof. exact rotation_has_quat. Qed.
Print Assumptions C32_every_rotation_has_quaternion.
(** the product is the composition "first q1, then q2", unless that composition is a half turn *)
Theorem C32_product_partial : forall q1 q2, unitq q1 -> unitq q2 -> tr (mm (rotMatOfQuat q2) (rotMatOfQuat q1)) <> -1 ->
  exists qp, quatProduct q1 q2 = Ok qp /\ unitq qp /\ 0 < qw qp /\ rotMatOfQuat qp = mm (rotMatOfQuat q2) (rotMatOfQuat q1).
Proof.
  intros q1 q2 U1 U2 T. apply product_lemma; auto. intros Z. apply T. rewrite <- rot_hmul. apply half_turn; [now apply hmul_unit|assumption].
Qed.
Print Assumptions C32_product_partial.
(** a composition that is a half turn comes out as the zero quaternion, which is no rotation at all *)
Theorem C32_product_half_turn_refuted : forall q1 q2, unitq q1 -> unitq q2 -> tr (mm (rotMatOfQuat q2) (rotMatOfQuat q1)) = -1 ->
  quatProduct q1 q2 = Ok qzero /\ ~ rotation (rotMatOfQuat qzero).
Proof.
  intros q1 q2 U1 U2 T. split.
  - apply product_zero; auto. apply half_turn; [now apply hmul_unit|]. now rewrite rot_hmul.
  - intros (_ & D). rewrite rot_det in D. unfold dot4, qzero in D. cbn in D. lra.
Qed.
Print Assumptions C32_product_half_turn_refuted.
Example C32_product_ex : let a := Q4 (3 / 5) (4 / 5) 0 0 in unitq a /\ tr (mm (rotMatOfQuat a) (rotMatOfQuat a)) <> -1 /\
  let b := Q4 0 1 0 0 in unitq b /\ tr (mm (rotMatOfQuat qone) (rotMatOfQuat b)) = -1.
Proof.
  cbv zeta. assert (U : unitq (Q4 (3 / 5) (4 / 5) 0 0)) by (apply unit_i; field). assert (V : unitq (Q4 0 1 0 0)) by (apply unit_i; ring). assert (W : unitq qone) by (apply unit_i; ring).
  split; [assumption|]. split; [|split; [assumption|]]; rewrite <- rot_hmul, trace_unit by (now apply hmul_unit); unfold hmul; cbn; lra.
Qed.
(** the 4x4 operators for "multiply on the right / left by q" *)
Theorem C32_product_matrices : forall p q, let r := mat4_apply (qprod_right q) p in let l := mat4_apply (qprod_left p) q in
  r = l /\ rotMatOfQuat r = mm (rotMatOfQuat p) (rotMatOfQuat q) /\ (unitq p -> unitq q -> unitq r).
Proof.
  intros p q. cbv zeta. rewrite right_mul, left_mul. split; [reflexivity|]. split; [apply rot_hmul|apply hmul_unit].
Qed.
Print Assumptions C32_product_matrices.
Theorem C32_fix_quat : forall q, ten_epsf < norm4 q ->
  unitq (fixQuat q) /\ 0 <= qw (fixQuat q) /\ (q = qscale (norm4 q) (fixQuat q) \/ q = qscale (norm4 q) (negq (fixQuat q))).
Proof. exact fix_lemma. Qed.
Print Assumptions C32_fix_quat.
Theorem C32_inverse : forall q, unitq q -> unitq (invertQuat q) /\ 0 <= qw (invertQuat q) /\ rotMatOfQuat (invertQuat q) = mt (rotMatOfQuat q).
Proof. exact inv_lemma. Qed.
Print Assumptions C32_inverse.
(** misorientation: the least angle over all symmetry copies, and every returned quaternion attains it *)
Theorem C32_misorientation_is_smallest : forall q1 q2 crys samp,
  unitq q1 -> unitq q2 -> Forall unitq crys -> Forall unitq samp -> crys <> [] -> samp <> [] ->
  exists t mis, misorientation q1 q2 crys samp = Ok (t, mis) /\ smallest_angle (rotMatOfQuat q1) (rotMatOfQuat q2) (rots crys) (rots samp) t /\
  mis <> [] /\ forall x, In x mis -> unitq x /\ 0 <= qw x /\ angle_of (rotMatOfQuat x) t /\
    exists c s, In c (rots crys) /\ In s (rots samp) /\ rotMatOfQuat x = mm (mm s (mm (rotMatOfQuat q2) c)) (mt (rotMatOfQuat q1)).
Proof. exact mis_lemma. Qed.
Print Assumptions C32_misorientation_is_smallest.
Theorem C32_misorientation_symmetric : forall q1 q2 crys samp t m t' m',
  unitq q1 -> unitq q2 -> Forall unitq crys -> Forall unitq samp -> is_group (rots crys) -> is_group (rots samp) ->
  misorientation q1 q2 crys samp = Ok (t, m) -> misorientation q2 q1 crys samp = Ok (t', m') -> t = t'.
Proof. exact mis_swap. Qed.
Print Assumptions C32_misorientation_symmetric.
Theorem C32_misorientation_invariant : forall q1 q2 q2' crys samp c s t m t' m',
  unitq q1 -> unitq q2 -> unitq q2' -> Forall unitq crys -> Forall unitq samp -> is_group (rots crys) -> is_group (rots samp) ->
  In c (rots crys) -> In s (rots samp) -> rotMatOfQuat q2' = mm s (mm (rotMatOfQuat q2) c) ->
  misorientation q1 q2 crys samp = Ok (t, m) -> misorientation q1 q2' crys samp = Ok (t', m') -> t = t'.
Proof. exact mis_invariant. Qed.
Print Assumptions C32_misorientation_invariant.
Theorem C32_misorientation_zero_iff_equivalent : forall q1 q2 crys samp t m,
  unitq q1 -> unitq q2 -> Forall unitq crys -> Forall unitq samp -> crys <> [] -> samp <> [] -> misorientation q1 q2 crys samp = Ok (t, m) ->
  (t = 0 <-> exists c s, In c (rots crys) /\ In s (rots samp) /\ mm s (mm (rotMatOfQuat q2) c) = rotMatOfQuat q1).
Proof. exact mis_zero. Qed.
Print Assumptions C32_misorientation_zero_iff_equivalent.
(** "one column of mis per quaternion" is false when two symmetry copies tie *)
Theorem C32_one_column_refuted : exists q1 q2 crys samp t a b,
  unitq q1 /\ unitq q2 /\ Forall unitq crys /\ Forall unitq samp /\ is_group (rots crys) /\ is_group (rots samp) /\
  misorientation q1 q2 crys samp = Ok (t, [a; b]) /\ a <> b.
Proof. exact mis_ties. Qed.
Print Assumptions C32_one_column_refuted.
(** the hypotheses are met by every Laue group of the code *)
Example C32_ex : forall g h, Forall unitq (quatOfLaueGroup g) /\ quatOfLaueGroup g <> [] /\ is_group (rots (quatOfLaueGroup g)) /\ is_group (rots (quatOfLaueGroup h)).
Proof. intros g h. split; [apply group_units|]. split; [now destruct g|]. split; apply group_lemma. Qed.

(** C33: [conv] is scipy's matrix-to-quaternion conversion, assumed only to return a unit quaternion of the matrix *)
Theorem C33_from_matrix_partial : forall conv r, rotation r -> (unitq (conv r) /\ rotMatOfQuat (conv r) = r) -> tr r <> -1 ->
  unitq (quatOfRotMat conv r) /\ 0 < qw (quatOfRotMat conv r) /\ rotMatOfQuat (quatOfRotMat conv r) = r.
Proof. exact (fun conv r H C => proj1 (from_matrix_lemma conv r H C)). Qed.
Print Assumptions C33_from_matrix_partial.
Theorem C33_half_turn_refuted : forall conv r, rotation r -> (unitq (conv r) /\ rotMatOfQuat (conv r) = r) -> tr r = -1 -> quatOfRotMat conv r = qzero.
Proof. exact (fun conv r H C => proj2 (from_matrix_lemma conv r H C)). Qed.
Print Assumptions C33_half_turn_refuted.
Example C33_ex : let r := M3 1 0 0 0 (-1) 0 0 0 (-1) in let conv := fun _ : m3 => Q4 0 1 0 0 in
  rotation r /\ unitq (conv r) /\ rotMatOfQuat (conv r) = r /\ tr r = -1 /\ rotation mI /\ tr mI <> -1.
Proof.
  cbv zeta. assert (U : unitq (Q4 0 1 0 0)) by (apply unit_i; ring).
  assert (E : rotMatOfQuat (Q4 0 1 0 0) = M3 1 0 0 0 (-1) 0 0 0 (-1)) by (unfold rotMatOfQuat; cbn [qw qx qy qz]; f_equal; ring).
  split; [rewrite <- E; now apply unit_rot|]. split; [assumption|]. split; [assumption|]. split; [unfold tr; cbn; ring|]. split; [|unfold tr, mI; cbn; lra].
  assert (I1 : rotMatOfQuat qone = mI) by (unfold rotMatOfQuat, qone, mI; cbn [qw qx qy qz]; f_equal; ring). rewrite <- I1. apply unit_rot. apply unit_i. ring.
Qed.
Theorem C33_angle_axis_partial : forall t axis, ten_epsf < norm axis -> cos (t / 2) <> 0 -> exists n, norm n = 1 /\ axis = vscale (norm axis) n /\
  unitq (quatOfAngleAxis t axis) /\ 0 < qw (quatOfAngleAxis t axis) /\ forall x, mv (rotMatOfQuat (quatOfAngleAxis t axis)) x = rotated n t x.
Proof. exact angle_axis_lemma. Qed.
Print Assumptions C33_angle_axis_partial.
Theorem C33_exp_map : forall e, rotation (rotMatOfExpMap e) /\ (e = vzero -> rotMatOfExpMap e = mI) /\
  (forall n t, norm n = 1 -> e = vscale t n -> forall x, mv (rotMatOfExpMap e) x = rotated n t x).
Proof. exact (fun e => conj (exp_map_rotation e) (exp_map_lemma e)). Qed.
Print Assumptions C33_exp_map.
Theorem C33_exp_map_quaternion_partial : forall e, cos (norm e / 2) <> 0 ->
  unitq (quatOfExpMap e) /\ 0 < qw (quatOfExpMap e) /\ rotMatOfQuat (quatOfExpMap e) = rotMatOfExpMap e.
Proof. exact quat_exp_map. Qed.
Print Assumptions C33_exp_map_quaternion_partial.
Example C33_angle_ex : cos (PI / 3 / 2) <> 0 /\ norm e2 = 1.
Proof.
  split. { replace (PI / 3 / 2) with (PI / 6) by field. rewrite cos_PI6. pose proof (sqrt_lt_R0 3). lra. }
  unfold norm, norm2, dot, e2. cbn. replace (0 * 0 + 0 * 0 + 1 * 1) with 1 by ring. apply sqrt_1.
Qed.

(** C34 *)
Theorem C34_laue_group : forall g, is_group (rots (quatOfLaueGroup g)).
Proof. exact group_lemma. Qed.
Print Assumptions C34_laue_group.
Theorem C34_no_repeats : forall g, NoDup (rots (quatOfLaueGroup g)) /\ List.length (quatOfLaueGroup g) = order_of g /\ Forall unitq (quatOfLaueGroup g).
Proof. exact (fun g => conj (group_nodup g) (conj (group_order g) (group_units g))). Qed.
Print Assumptions C34_no_repeats.
Theorem C34_preserves_lattice : forall g r, In r (rots (quatOfLaueGroup g)) -> preserves_lattice (lattice_basis g) r.
Proof. exact group_lattice. Qed.
Print Assumptions C34_preserves_lattice.
Example C34_ex : order_of Oh = 24%nat /\ In mI (rots (quatOfLaueGroup D6h)).
Proof. split; [reflexivity|]. apply (group_lemma D6h). Qed.

(** C35 *)
Theorem C35_map_angle_partial : forall ang lo hi u p, one_turn u p -> hi - lo = p ->
  exists v, mapAngle ang (Some (lo, hi)) u = Ok v /\ lo <= v <= hi /\ same_angle p ang v /\ (v = hi -> lo < ang) /\ (v = lo -> ang <= lo).
Proof. intros *. intros T. apply turn_period in T. revert T. apply map_angle_lemma. Qed.
Print Assumptions C35_map_angle_partial.
Theorem C35_default_range : forall ang u p, one_turn u p -> exists v, mapAngle ang None u = Ok v /\
  - p / 2 <= v <= p / 2 /\ same_angle p ang v /\ (v = p / 2 -> - p / 2 < ang) /\ (v = - p / 2 -> ang <= - p / 2).
Proof. intros *. intros T. apply turn_period in T. revert T. apply map_angle_default. Qed.
Print Assumptions C35_default_range.
Theorem C35_angles_in_range_unchanged : forall v lo hi u p, one_turn u p -> hi - lo = p -> lo <= v <= hi -> mapAngle v (Some (lo, hi)) u = Ok v.
Proof. intros *. intros T. apply turn_period in T. revert T. apply map_same. Qed.
Print Assumptions C35_angles_in_range_unchanged.
Theorem C35_rejected_ranges : forall ang lo hi u p, one_turn u p ->
  (mapAngle ang (Some (lo, hi)) u = Err RuntimeError <-> / 100000000 + / 100000 * p < Rabs (hi - lo - p)).
Proof. intros *. intros T. apply turn_period in T. revert T. apply map_rejects. Qed.
Print Assumptions C35_rejected_ranges.
(** a range that is accepted although its width is not exactly one period moves the angle by something else than whole turns *)
Theorem C35_inexact_width_refuted : exists ang lo hi v, mapAngle ang (Some (lo, hi)) ADeg = Ok v /\ ~ same_angle 360 ang v.
Proof. exact map_refuted_lemma. Qed.
Print Assumptions C35_inexact_width_refuted.
Example C35_ex : one_turn ADeg 360 /\ 360 - 0 = 360 /\ mapAngle 370 (Some (0, 360)) ADeg = Ok 10.
Proof.
  split; [reflexivity|]. split; [ring|]. destruct (map_angle_lemma 370 0 360 ADeg 360 eq_refl ltac:(lra)) as (v & E & B & [k K] & C & D). rewrite E. f_equal.
  assert (Hk : (k = -1 \/ k <= -2 \/ 0 <= k)%Z) by lia. destruct Hk as [->|[Hk|Hk]]; [lra| |]; apply IZR_le in Hk; lra.
Qed.

(** C36 *)
Theorem C36_angular_difference_partial : forall a b u p, one_turn u p -> Rabs (a - b) <= p ->
  exists d, angularDifference a b u = Ok d /\ circle_distance p a b d.
Proof. intros *. intros T. apply turn_period in T. revert T. apply diff_lemma. Qed.
Print Assumptions C36_angular_difference_partial.
Theorem C36_beyond_one_turn_refuted : forall a b u p, one_turn u p -> p < Rabs (a - b) -> exists d, angularDifference a b u = Ok d /\ d < 0.
Proof. intros *. intros T. apply turn_period in T. revert T. apply diff_refuted_lemma. Qed.
Print Assumptions C36_beyond_one_turn_refuted.
Theorem C36_original_function : forall a b u p, one_turn u p -> exists d, angularDifference_orig a b u = Ok d /\ circle_distance p a b d.
Proof. intros *. intros T. apply turn_period in T. revert T. apply diff_orig_lemma. Qed.
Print Assumptions C36_original_function.
Example C36_ex : one_turn ADeg 360 /\ Rabs (350 - 20) <= 360 /\ 360 < Rabs (400 - 20) /\ angularDifference 350 20 ADeg = Ok 30.
Proof.
  split; [reflexivity|]. split; [rewrite Rabs_right; lra|]. split; [rewrite Rabs_right; lra|].
  unfold angularDifference. cbn [period_of rbind]. f_equal. rewrite (Rabs_left (20 - 350)) by lra. rewrite Rmin_right; lra.
Qed.

(** C72 *)
Theorem C72_fundamental_region : forall q crys, unitq q -> Forall unitq crys -> crys <> [] ->
  exists r, toFundamentalRegion q crys = Ok r /\ unitq r /\ 0 <= qw r /\
  (exists c, In c (rots crys) /\ rotMatOfQuat r = mm (rotMatOfQuat q) c) /\ forall c, In c (rots crys) -> tr (mm (rotMatOfQuat q) c) <= tr (rotMatOfQuat r).
Proof. exact fr_lemma. Qed.
Print Assumptions C72_fundamental_region.
Theorem C72_same_angle_for_equivalents : forall q q' crys r r', unitq q -> unitq q' -> Forall unitq crys -> is_group (rots crys) ->
  (exists c, In c (rots crys) /\ rotMatOfQuat q' = mm (rotMatOfQuat q) c) ->
  toFundamentalRegion q crys = Ok r -> toFundamentalRegion q' crys = Ok r' -> tr (rotMatOfQuat r) = tr (rotMatOfQuat r') /\ qw r = qw r'.
Proof. exact fr_class. Qed.
Print Assumptions C72_same_angle_for_equivalents.
Example C72_ex : Forall unitq (quatOfLaueGroup Oh) /\ is_group (rots (quatOfLaueGroup Oh)) /\ quatOfLaueGroup Oh <> [].
Proof. split; [apply group_units|]. split; [apply group_lemma|discriminate]. Qed.

(** C73: [make_rmat] is scipy's Euler-to-matrix conversion, [lower] Python's str.lower *)
Theorem C73_change_of_units_partial : forall make_rmat e x e', (eu_units e = "degrees" \/ eu_units e = "radians")%string -> euler_set_units e x = Ok e' ->
  eu_units e' = x /\ euler_rmat make_rmat e' = euler_rmat make_rmat e.
Proof.
  intros mk e x e' U. apply euler_units_lemma. destruct U as [->| ->]; reflexivity.
Qed.
Print Assumptions C73_change_of_units_partial.
(** a differently capitalised "Degrees" is accepted, but the angles are then read as radians *)
Theorem C73_capitals_refuted : forall make_rmat lower angles u, u <> "degrees"%string -> lower u = "degrees"%string ->
  exists e, euler_init lower angles u = Ok e /\ euler_rmat make_rmat e = make_rmat angles /\
  exists e', euler_set_units e "degrees" = Ok e' /\ eu_angles e' = vscale (180 / PI) angles.
Proof. exact euler_case_lemma. Qed.
Print Assumptions C73_capitals_refuted.
Example C73_ex : let low := fun s : string => if String.eqb s "Degrees" then "degrees"%string else s in
  "Degrees"%string <> "degrees"%string /\ low "Degrees"%string = "degrees"%string /\
  exists e', euler_set_units (Euler (V3 180 0 0) "degrees") "radians" = Ok e'.
Proof. cbv zeta. repeat split; try discriminate. eexists. reflexivity. Qed.
