(** C31, C69, C70, C71: tensors, axial vectors, best-fit rotation, dyads and block matrices. *)
From Coq Require Import Reals List Lra.
From Verif Require Import Prelude Lin TensorModel TensorSpec TensorProofs.
Local Open Scope R_scope.

(** C31 *)
Theorem C31_mandel_round_trip : forall scale,
  (forall A, symmetric A -> vecMVToSymm (symmToVecMV A scale) scale = A) /\
  (forall a, symmetric (vecMVToSymm a scale) /\ symmToVecMV (vecMVToSymm a scale) scale = a).
Proof. exact (fun scale => conj (fun A => mv_left A scale) (fun a => mv_right a scale)). Qed.
Print Assumptions C31_mandel_round_trip.
Theorem C31_strain_round_trip :
  (forall A, symmetric A -> strainVecToTen (strainTenToVec A) = A) /\ (forall a, symmetric (strainVecToTen a) /\ strainTenToVec (strainVecToTen a) = a).
Proof. exact (conj strain_left strain_right). Qed.
Print Assumptions C31_strain_round_trip.
Theorem C31_stress_round_trip :
  (forall A, symmetric A -> stressVecToTen (stressTenToVec A) = A) /\ (forall a, symmetric (stressVecToTen a) /\ stressTenToVec (stressVecToTen a) = a).
Proof. exact (conj stress_left stress_right). Qed.
Print Assumptions C31_stress_round_trip.
Theorem C31_vecds_round_trip :
  (forall A, symmetric A -> vecdsToSymm (symmToVecds A) = A) /\ (forall a, symmetric (vecdsToSymm a) /\ symmToVecds (vecdsToSymm a) = a) /\
  (forall a, vecdsSToTrace (traceToVecdsS a) = a /\ traceToVecdsS (vecdsSToTrace a) = a).
Proof. exact (conj vecds_left (conj vecds_right trace_scalar)). Qed.
Print Assumptions C31_vecds_round_trip.
(** the scaled forms preserve the inner product; stress times strain is the work *)
Theorem C31_inner_product : forall A B, symmetric A -> symmetric B ->
  dot6 (symmToVecMV A true) (symmToVecMV B true) = frob A B /\ dot6 (symmToVecds A) (symmToVecds B) = frob A B /\
  dot6 (stressTenToVec A) (strainTenToVec B) = frob A B.
Proof. exact (fun A B HA HB => conj (mandel_dot A B HA HB) (conj (vecds_dot A B HA HB) (work_lemma A B HA HB))). Qed.
Print Assumptions C31_inner_product.
Example C31_ex : let A := M3 1 2 3 2 4 5 3 5 6 in symmetric A /\ strainTenToVec A = V6 1 4 6 (2 * 5) (2 * 3) (2 * 2) /\ frob A A = 129.
Proof. cbv [frob m00 m01 m02 m10 m11 m12 m20 m21 m22]. repeat split. ring. Qed.

(** C69 *)
Theorem C69_axial_vector :
  (forall w x, mv (skewMatrixOfVector w) x = cross w x) /\
  (forall w, skew_symmetric (skewMatrixOfVector w) /\ vectorOfSkewMatrix (skewMatrixOfVector w) = w) /\
  (forall W, skew_symmetric W -> skewMatrixOfVector (vectorOfSkewMatrix W) = W).
Proof. exact (conj skew_action (conj skew_round skew_round')). Qed.
Print Assumptions C69_axial_vector.
Theorem C69_decomposition : forall A, symmetric (symm_part A) /\ skew_symmetric (skew_part A) /\ madd (symm_part A) (skew_part A) = A /\
  forall s w, symmetric s -> skew_symmetric w -> madd s w = A -> s = symm_part A /\ w = skew_part A.
Proof. exact decomposition. Qed.
Print Assumptions C69_decomposition.
(** n . A n, for the unit vector n along any vector longer than ten machine epsilons *)
Theorem C69_normal_projection : forall v A, symmetric A -> ten_epsf < norm v ->
  exists n, norm n = 1 /\ v = vscale (norm v) n /\ dot6 (nrmlProjOfVecMV v) (symmToVecMV A true) = dot n (mv A n).
Proof.
  exact (fun v A HA Hv => ex_intro _ (unitVector v) (conj (proj1 (unit_vector_norm v Hv)) (conj (proj2 (unit_vector_norm v Hv)) (nrml_lemma v A HA)))).
Qed.
Print Assumptions C69_normal_projection.
(** the second matrix returned for ALE3D output is the inverse of the first only when there is no deviatoric strain *)
Theorem C69_ale3d_inverse_refuted : forall s,
  mm (fst (ale3dStrainOutToV s)) (snd (ale3dStrainOutToV s)) = mI <-> (c0 s = 0 /\ c1 s = 0 /\ c2 s = 0 /\ c3 s = 0 /\ c4 s = 0).
Proof. exact ale3d_refuted_lemma. Qed.
Print Assumptions C69_ale3d_inverse_refuted.
(** every square two-dimensional argument of symm and skew comes back to the caller with a third axis *)
Theorem C69_argument_shape_refuted : forall m, decomp_shape [m; m] = Some [1%nat; m; m].
Proof. intros m. cbn. now rewrite Nat.eqb_refl. Qed.
Print Assumptions C69_argument_shape_refuted.
Example C69_ex : ten_epsf < norm (V3 0 3 4) /\ decomp_shape [2; 3]%nat = None /\ skew_symmetric (M3 0 (-3) 2 3 0 (-1) (-2) 1 0).
Proof.
  split; [|split; [reflexivity|unfold skew_symmetric; lin_unfold; f_equal; ring]].
  assert (E : norm (V3 0 3 4) = 5). { unfold norm, norm2, dot. cbn [vx vy vz]. replace (0 * 0 + 3 * 3 + 4 * 4) with (5 * 5) by ring. apply sqrt_square. lra. }
  rewrite E. unfold ten_epsf. apply Rmult_lt_reg_r with (2 ^ 52); [apply pow_lt; lra|]. unfold Rdiv. rewrite Rmult_assoc, Rinv_l by (apply pow_nonzero; lra).
  assert (2 ^ 3 <= 2 ^ 52) by (apply Rle_pow; [lra|repeat constructor]). lra.
Qed.

(** C70 *)
Theorem C70_best_rotation : forall svd v w weights r,
  svd_of (wahba_B (unit_weights v weights) v w) (svd (wahba_B (unit_weights v weights) v w)) ->
  solve_wahba svd v w weights = Ok r ->
  rotation r /\ forall r', rotation r' -> wahba_cost (unit_weights v weights) v w r <= wahba_cost (unit_weights v weights) v w r'.
Proof. exact wahba_lemma. Qed.
Print Assumptions C70_best_rotation.
Theorem C70_accepts_exactly_equal_lengths : forall svd v w weights, (exists r, solve_wahba svd v w weights = Ok r) <->
  (length w = length v /\ match weights with None => True | Some l => length l = length v end).
Proof. exact wahba_total. Qed.
Print Assumptions C70_accepts_exactly_equal_lengths.
(** two vectors and their mirror images: the singular value decomposition has a reflection in it *)
Example C70_ex : let svd := fun _ : m3 => (diag 1 1 1, V3 3 2 0, diag 1 (-1) 1) in
  let v := [e0; e1] in let w := [e0; vneg e1] in let wt := Some [3; 2] in
  svd_of (wahba_B (unit_weights v wt) v w) (svd (wahba_B (unit_weights v wt) v w)) /\ exists r, solve_wahba svd v w wt = Ok r /\ r = diag 1 (-1) (-1).
Proof.
  intros svd v w wt. split.
  - cbn. unfold orthogonal. repeat split; try lra; lin_unfold; f_equal; ring.
  - eexists. split; [reflexivity|]. lin_unfold. f_equal; ring.
Qed.

(** C71 *)
Theorem C71_block_diagonal : forall p m n mat,
  (forall b r c, (b < p)%nat -> (r < m)%nat -> (c < n)%nat -> blockSparse p m n mat (b * m + r) (b * n + c) = mat b r c) /\
  (forall b b' r c, (b < p)%nat -> (b' < p)%nat -> (r < m)%nat -> (c < n)%nat -> b <> b' -> blockSparse p m n mat (b * m + r) (b' * n + c) = 0).
Proof. exact block_lemma. Qed.
Print Assumptions C71_block_diagonal.
Theorem C71_dyads : forall m1 m2 vec1 vec2 n k i, (k < m1)%nat -> (i < m2)%nat -> rankOneMatrix m1 m2 vec1 vec2 n k i = vec1 k n * vec2 i n.
Proof. exact rank_one_lemma. Qed.
Print Assumptions C71_dyads.
Example C71_ex : blockSparse 2 2 3 (fun b r c => INR (6 * b + 3 * r + c)) 3 4 = INR 10 /\ blockSparse 2 2 3 (fun b r c => INR (6 * b + 3 * r + c)) 3 2 = 0.
Proof.
  split.
  - exact (proj1 (block_lemma 2 2 3 (fun b r c => INR (6 * b + 3 * r + c))) 1%nat 1%nat 1%nat ltac:(lia) ltac:(lia) ltac:(lia)).
  - exact (proj2 (block_lemma 2 2 3 (fun b r c => INR (6 * b + 3 * r + c))) 1%nat 0%nat 1%nat 2%nat ltac:(lia) ltac:(lia) ltac:(lia) ltac:(lia) ltac:(lia)).
Qed.
