From Coq Require Import Reals List Arith Lra Psatz.
From Verif Require Import Prelude Lin TensorModel TensorSpec.
Local Open Scope R_scope.

Lemma s2 : sqrt 2 * sqrt 2 = 2. Proof. apply sqrt_sqrt. lra. Qed.
Lemma s3 : sqrt 3 * sqrt 3 = 3. Proof. apply sqrt_sqrt. lra. Qed.
Lemma s2_pos : 0 < sqrt 2. Proof. apply sqrt_lt_R0. lra. Qed.
Lemma s3_pos : 0 < sqrt 3. Proof. apply sqrt_lt_R0. lra. Qed.
Lemma i2 : sqr2i = sqrt 2 / 2.
Proof. unfold sqr2i. pose proof s2_pos. apply Rmult_eq_reg_l with (sqrt 2); [|lra]. field_simplify; [|lra]. rewrite <- Rsqr_pow2, Rsqr_sqrt; lra. Qed.
Lemma i3 : sqr3i = sqrt 3 / 3.
Proof. unfold sqr3i. pose proof s3_pos. apply Rmult_eq_reg_l with (sqrt 3); [|lra]. field_simplify; [|lra]. rewrite <- Rsqr_pow2, Rsqr_sqrt; lra. Qed.
Lemma i6 : sqr6i = sqrt 2 * sqrt 3 / 6.
Proof.
  unfold sqr6i. replace 6 with (2 * 3) at 1 by ring. rewrite sqrt_mult by lra. pose proof s2_pos. pose proof s3_pos. pose proof s2. pose proof s3.
  assert (H3 : sqrt 2 * sqrt 3 * (sqrt 2 * sqrt 3) = 6) by (replace 6 with (2 * 3) by ring; rewrite <- s2 at 3; rewrite <- s3 at 3; ring).
  assert (0 < sqrt 2 * sqrt 3) by nra. rewrite <- H3 at 1. field. lra.
Qed.
Lemma i23 : sqr2b3 = sqrt 2 * sqrt 3 / 3.
Proof. unfold sqr2b3. rewrite sqrt_div_alt by lra. pose proof i3 as H. unfold sqr3i in H. unfold Rdiv at 1. replace (/ sqrt 3) with (1 / sqrt 3) by (field; pose proof s3_pos; lra). rewrite H. field. Qed.

Lemma mv_left : forall A scale, symmetric A -> vecMVToSymm (symmToVecMV A scale) scale = A.
Proof.
  intros [a b c d e f g h i] scale H. lin_unfold. injection H as -> -> _ -> _ _. unfold vecMVToSymm, symmToVecMV.
  cbn [c0 c1 c2 c3 c4 c5 m00 m01 m02 m10 m11 m12 m20 m21 m22]. pose proof s2_pos. destruct scale; unfold sqr2; f_equal; field; lra.
Qed.
Lemma mv_right : forall a scale, symmetric (vecMVToSymm a scale) /\ symmToVecMV (vecMVToSymm a scale) scale = a.
Proof.
  intros [a b c d e f] scale. split. { reflexivity. } unfold vecMVToSymm, symmToVecMV.
  cbn [c0 c1 c2 c3 c4 c5 m00 m01 m02 m10 m11 m12 m20 m21 m22]. pose proof s2_pos. destruct scale; unfold sqr2; f_equal; field; lra.
Qed.
Lemma strain_left : forall A, symmetric A -> strainVecToTen (strainTenToVec A) = A.
Proof. intros [a b c d e f g h i] H. lin_unfold. injection H as -> -> _ -> _ _. unfold strainVecToTen, strainTenToVec. cbn. f_equal; field. Qed.
Lemma strain_right : forall a, symmetric (strainVecToTen a) /\ strainTenToVec (strainVecToTen a) = a.
Proof. intros [a b c d e f]. split. { reflexivity. } unfold strainVecToTen, strainTenToVec. cbn. f_equal; field. Qed.
Lemma stress_left : forall A, symmetric A -> stressVecToTen (stressTenToVec A) = A.
Proof. intros [a b c d e f g h i] H. lin_unfold. injection H as -> -> _ -> _ _. reflexivity. Qed.
Lemma stress_right : forall a, symmetric (stressVecToTen a) /\ stressTenToVec (stressVecToTen a) = a.
Proof. intros [a b c d e f]. split; reflexivity. Qed.
Lemma work_lemma : forall A B, symmetric A -> symmetric B -> dot6 (stressTenToVec A) (strainTenToVec B) = frob A B.
Proof.
  intros [a b c d e f g h i] [a' b' c' d' e' f' g' h' i'] H K. lin_unfold. injection H as -> -> _ -> _ _. injection K as -> -> _ -> _ _.
  unfold dot6, frob, stressTenToVec, strainTenToVec. cbn. ring.
Qed.
Lemma mandel_dot : forall A B, symmetric A -> symmetric B -> dot6 (symmToVecMV A true) (symmToVecMV B true) = frob A B.
Proof.
  intros [a b c d e f g h i] [a' b' c' d' e' f' g' h' i'] H K. lin_unfold. injection H as -> -> _ -> _ _. injection K as -> -> _ -> _ _.
  unfold dot6, frob, symmToVecMV, sqr2. cbn. ring [s2].
Qed.
Lemma vecds_left : forall A, symmetric A -> vecdsToSymm (symmToVecds A) = A.
Proof.
  intros [a b c d e f g h i] H. lin_unfold. injection H as -> -> _ -> _ _. unfold vecdsToSymm, symmToVecds, traceToVecdsS, tr. cbn [c0 c1 c2 c3 c4 c5 m00 m01 m02 m10 m11 m12 m20 m21 m22].
  rewrite i2, i3, i6, i23. unfold sqr2. pose proof s2 as S. pose proof s3 as T. set (x := sqrt 2) in *. set (y := sqrt 3) in *. clearbody x y.
  f_equal; field [S T].
Qed.
Lemma vecds_right : forall a, symmetric (vecdsToSymm a) /\ symmToVecds (vecdsToSymm a) = a.
Proof.
  intros [a b c d e f]. split. { reflexivity. } unfold vecdsToSymm, symmToVecds, traceToVecdsS, tr. cbn [c0 c1 c2 c3 c4 c5 m00 m01 m02 m10 m11 m12 m20 m21 m22].
  rewrite i2, i3, i6, i23. unfold sqr2. pose proof s2 as S. pose proof s3 as T. set (x := sqrt 2) in *. set (y := sqrt 3) in *. clearbody x y.
  f_equal; field [S T].
Qed.
Lemma vecds_dot : forall A B, symmetric A -> symmetric B -> dot6 (symmToVecds A) (symmToVecds B) = frob A B.
Proof.
  intros [a b c d e f g h i] [a' b' c' d' e' f' g' h' i'] H K. lin_unfold. injection H as -> -> _ -> _ _. injection K as -> -> _ -> _ _.
  unfold dot6, frob, symmToVecds, traceToVecdsS, tr. cbn [c0 c1 c2 c3 c4 c5 m00 m01 m02 m10 m11 m12 m20 m21 m22].
  rewrite i2, i3, i6. unfold sqr2. pose proof s2 as S. pose proof s3 as T. set (x := sqrt 2) in *. set (y := sqrt 3) in *. clearbody x y. field [S T].
Qed.
Lemma trace_scalar : forall a, vecdsSToTrace (traceToVecdsS a) = a /\ traceToVecdsS (vecdsSToTrace a) = a.
Proof. intros a. unfold vecdsSToTrace, traceToVecdsS, sqr3i, sqr3. pose proof s3_pos. split; field; lra. Qed.

(** ** axial vectors, symmetric and skew parts *)
Lemma skew_action : forall w x, mv (skewMatrixOfVector w) x = cross w x.
Proof. intros [a b c] [x y z]. unfold skewMatrixOfVector. lin_unfold. f_equal; ring. Qed.
Lemma skew_round : forall w, skew_symmetric (skewMatrixOfVector w) /\ vectorOfSkewMatrix (skewMatrixOfVector w) = w.
Proof. intros [a b c]. unfold skew_symmetric, vectorOfSkewMatrix, skewMatrixOfVector. lin_unfold. split; f_equal; ring. Qed.
Lemma skew_round' : forall W, skew_symmetric W -> skewMatrixOfVector (vectorOfSkewMatrix W) = W.
Proof.
  intros [a b c d e f g h i] H. unfold skew_symmetric, vectorOfSkewMatrix, skewMatrixOfVector in *. lin_unfold.
  injection H as H1 H2 H3 H4 H5 H6 H7 H8 H9. f_equal; lra.
Qed.
Lemma decomposition : forall A, symmetric (symm_part A) /\ skew_symmetric (skew_part A) /\ madd (symm_part A) (skew_part A) = A /\
  forall S W, symmetric S -> skew_symmetric W -> madd S W = A -> S = symm_part A /\ W = skew_part A.
Proof.
  intros [a b c d e f g h i]. unfold symmetric, skew_symmetric, symm_part, skew_part.
  split; [lin_unfold; f_equal; field|]. split; [lin_unfold; f_equal; field|]. split; [lin_unfold; f_equal; field|].
  intros [a1 b1 c1 d1 e1 f1 g1 h1 i1] [a2 b2 c2 d2 e2 f2 g2 h2 i2] HS HW HA. lin_unfold.
  injection HS as S1 S2 S4 S3 S5 S6. injection HW as W1 W2 W3 W4 W5 W6 W7 W8 W9. injection HA as A1 A2 A3 A4 A5 A6 A7 A8 A9.
  split; f_equal; lra.
Qed.
Lemma unit_vector_norm : forall v, ten_epsf < norm v -> norm (unitVector v) = 1 /\ v = vscale (norm v) (unitVector v).
Proof.
  intros v H. assert (P : 0 < ten_epsf) by (unfold ten_epsf; apply Rdiv_lt_0_compat; [lra|apply pow_lt; lra]).
  unfold unitVector. destruct (Rle_dec (norm v) ten_epsf) as [G|_]; [lra|].
  split.
  - apply norm2_norm1. unfold norm2, dot. cbn [vx vy vz]. pose proof (norm_sq v) as E. unfold norm2, dot in E.
    set (k := norm v) in *. clearbody k. assert (K : k <> 0) by lra.
    replace (vx v / k * (vx v / k) + vy v / k * (vy v / k) + vz v / k * (vz v / k)) with ((vx v * vx v + vy v * vy v + vz v * vz v) / (k * k)) by (field; assumption).
    rewrite <- E. field. assumption.
  - destruct v as [a b c]. unfold vscale. cbn [vx vy vz]. f_equal; field; lra.
Qed.
Lemma nrml_lemma : forall v A, symmetric A -> dot6 (nrmlProjOfVecMV v) (symmToVecMV A true) = dot (unitVector v) (mv A (unitVector v)).
Proof.
  intros v A H. unfold nrmlProjOfVecMV. set (n := unitVector v). clearbody n. destruct n as [x y z]. destruct A as [a b c d e f g h i].
  lin_unfold. injection H as -> -> _ -> _ _. unfold dot6, symmToVecMV, sqr2. cbn [c0 c1 c2 c3 c4 c5 m00 m01 m02 m10 m11 m12 m20 m21 m22]. ring [s2].
Qed.
(** ** V and Vinv of the ALE3D output *)
Lemma ale3d_product : forall s, mm (fst (ale3dStrainOutToV s)) (snd (ale3dStrainOutToV s)) =
  msub mI (mm (mscale (/ Rpower (exp (c5 s)) (1 / 3)) (ale3d_eps s)) (mscale (/ Rpower (exp (c5 s)) (1 / 3)) (ale3d_eps s))).
Proof.
  intros s. unfold ale3dStrainOutToV. cbn [fst snd]. set (a := Rpower (exp (c5 s)) (1 / 3)).
  assert (P : 0 < a) by (unfold a, Rpower; apply exp_pos). clearbody a. set (e := ale3d_eps s). clearbody e.
  destruct e as [e1 e2 e3 e4 e5 e6 e7 e8 e9]. lin_unfold. f_equal; field; lra.
Qed.
Lemma ale3d_eps_zero : forall s, ale3d_eps s = mzero -> c0 s = 0 /\ c1 s = 0 /\ c2 s = 0 /\ c3 s = 0 /\ c4 s = 0.
Proof.
  intros [a b c d e f] H. unfold ale3d_eps, mzero in H. cbn [c0 c1 c2 c3 c4 c5] in *. injection H as H1 H2 H3 _ H5 H6 _ _ H9.
  rewrite i2 in *. rewrite i23 in H9. pose proof s2_pos. pose proof s3_pos. assert (0 < sqrt 2 * sqrt 3) by nra.
  assert (Z : forall k x, 0 < k -> k * x = 0 -> x = 0) by (intros k x K E; destruct (Rmult_integral _ _ E); lra).
  repeat split.
  - apply (Z (sqrt 2)); auto; nra.
  - apply (Z (sqrt 2 * sqrt 3)); auto; nra.
  - apply (Z (sqrt 2)); auto; nra.
  - apply (Z (sqrt 2)); auto; nra.
  - apply (Z (sqrt 2)); auto; nra.
Qed.
Lemma ale3d_refuted_lemma : forall s, mm (fst (ale3dStrainOutToV s)) (snd (ale3dStrainOutToV s)) = mI <-> (c0 s = 0 /\ c1 s = 0 /\ c2 s = 0 /\ c3 s = 0 /\ c4 s = 0).
Proof.
  intros s. rewrite ale3d_product. set (k := / Rpower (exp (c5 s)) (1 / 3)).
  assert (P : 0 < k) by (unfold k, Rpower; apply Rinv_0_lt_compat, exp_pos). clearbody k. split.
  - intros H. apply ale3d_eps_zero. assert (Sy : symmetric (ale3d_eps s)) by reflexivity.
    set (e := ale3d_eps s) in *. clearbody e. destruct e as [e1 e2 e3 e4 e5 e6 e7 e8 e9]. lin_unfold. injection Sy as -> -> _ -> _ _.
    injection H as H1 _ _ _ H5 _ _ _ H9.
    assert (Q : k * k * (e1 * e1 + e2 * e2 + e3 * e3) = 0) by lra.
    assert (Q' : k * k * (e2 * e2 + e5 * e5 + e6 * e6) = 0) by lra.
    assert (Q'' : k * k * (e3 * e3 + e6 * e6 + e9 * e9) = 0) by lra.
    assert (0 < k * k) by nra.
    assert (Z : forall x, k * k * x = 0 -> x = 0) by (intros x E; destruct (Rmult_integral _ _ E); lra).
    apply Z in Q. apply Z in Q'. apply Z in Q''.
    assert (e1 = 0) by nra. assert (e2 = 0) by nra. assert (e3 = 0) by nra. assert (e5 = 0) by nra. assert (e6 = 0) by nra. assert (e9 = 0) by nra. now subst.
  - intros (A & B & C & D & E). unfold ale3d_eps. rewrite A, B, C, D, E. lin_unfold. f_equal; ring.
Qed.

(** ** block matrices *)
Lemma bs_index : forall p m n t, (t < p * m * n)%nat -> exists b r c, (b < p /\ r < m /\ c < n)%nat /\ t = (b * (n * m) + c * m + r)%nat.
Proof.
  intros p m n t H. assert (m <> 0 /\ n <> 0)%nat as [Hm Hn] by (split; intros ->; nia).
  exists (t / (n * m))%nat, (t mod (n * m) mod m)%nat, (t mod (n * m) / m)%nat.
  assert (Hnm : (n * m <> 0)%nat) by nia.
  pose proof (Nat.mod_upper_bound t (n * m) Hnm). pose proof (Nat.mod_upper_bound (t mod (n * m)) m Hm).
  pose proof (Nat.div_mod t (n * m) Hnm). pose proof (Nat.div_mod (t mod (n * m)) m Hm).
  repeat split.
  - apply Nat.div_lt_upper_bound; nia.
  - assumption.
  - apply Nat.div_lt_upper_bound; nia.
  - nia.
Qed.
Lemma bs_eval : forall A (mat : nat -> nat -> nat -> A) p m n b r c, (b < p -> r < m -> c < n ->
  let t := b * (n * m) + c * m + r in bs_sij m n mat t = mat b r c /\ bs_i p m n t = b * m + r /\ bs_j m t = b * n + c)%nat.
Proof.
  intros A mat p m n b r c Hb Hr Hc t. unfold t, bs_sij, bs_i, bs_j.
  assert (E : (c * m + r < n * m)%nat) by nia.
  assert (D1 : ((b * (n * m) + c * m + r) / (n * m) = b)%nat).
  { rewrite <- Nat.add_assoc. rewrite Nat.div_add_l by lia. rewrite Nat.div_small by lia. lia. }
  assert (D2 : ((b * (n * m) + c * m + r) mod (n * m) = c * m + r)%nat).
  { rewrite <- Nat.add_assoc, Nat.add_comm, Nat.mod_add by lia. apply Nat.mod_small. lia. }
  assert (D3 : ((c * m + r) mod m = r)%nat) by (rewrite Nat.add_comm, Nat.mod_add by lia; apply Nat.mod_small; lia).
  assert (D4 : ((c * m + r) / m = c)%nat) by (rewrite Nat.div_add_l by lia; rewrite Nat.div_small by lia; lia).
  rewrite D1, D2, D3, D4. split; [reflexivity|]. split.
  - replace (m * n)%nat with (n * m)%nat by lia. rewrite D1.
    replace ((b * (n * m) + c * m + r) mod m)%nat with r; [lia|]. replace (b * (n * m) + c * m + r)%nat with (r + (b * n + c) * m)%nat by lia.
    rewrite Nat.mod_add by lia. symmetry. apply Nat.mod_small. lia.
  - replace (b * (n * m) + c * m + r)%nat with ((b * n + c) * m + r)%nat by lia. rewrite Nat.div_add_l by lia. rewrite Nat.div_small by lia. lia.
Qed.
Lemma sum_zero : forall (f : nat -> R) l, (forall t, In t l -> f t = 0) -> fold_right Rplus 0 (map f l) = 0.
Proof. induction l as [|x l IH]; intros H; cbn; [reflexivity|]. rewrite (H x) by now left. rewrite IH; [ring|]. intros t Ht. apply H. now right. Qed.
Lemma sum_one : forall (f : nat -> R) l x, NoDup l -> In x l -> (forall t, In t l -> t <> x -> f t = 0) -> fold_right Rplus 0 (map f l) = f x.
Proof.
  induction l as [|y l IH]; intros x N I H; [destruct I|]. inversion N as [|? ? N1 N2]; subst. cbn. destruct (Nat.eq_dec y x) as [->|D].
  - rewrite sum_zero; [ring|]. intros t Ht. apply H; [now right|]. intros ->. contradiction.
  - rewrite (H y) by (try (now left); assumption). destruct I as [->|I]; [congruence|]. rewrite (IH x); auto; [ring|]. intros t Ht Hd. apply H; auto. now right.
Qed.
Lemma block_lemma : forall p m n mat,
  (forall b r c, (b < p)%nat -> (r < m)%nat -> (c < n)%nat -> blockSparse p m n mat (b * m + r) (b * n + c) = mat b r c) /\
  (forall b b' r c, (b < p)%nat -> (b' < p)%nat -> (r < m)%nat -> (c < n)%nat -> b <> b' -> blockSparse p m n mat (b * m + r) (b' * n + c) = 0).
Proof.
  intros p m n mat. split.
  - intros b r c Hb Hr Hc. unfold blockSparse. destruct (bs_eval R mat p m n b r c Hb Hr Hc) as (E1 & E2 & E3).
    set (t := (b * (n * m) + c * m + r)%nat) in *.
    rewrite (sum_one _ _ t).
    + rewrite E2, E3, !Nat.eqb_refl. exact E1.
    + apply seq_NoDup.
    + apply in_seq. unfold t. assert ((b + 1) * (n * m) <= p * (n * m))%nat by (apply Nat.mul_le_mono_r; lia). assert (c * m + r < n * m)%nat by nia. nia.
    + intros t' Ht' D. apply in_seq in Ht'. destruct (bs_index p m n t' ltac:(lia)) as (b' & r' & c' & (B' & R' & C') & E).
      destruct (bs_eval R mat p m n b' r' c' B' R' C') as (F1 & F2 & F3). rewrite <- E in F1, F2, F3. rewrite F2, F3.
      destruct (Nat.eqb_spec (b' * m + r') (b * m + r)) as [G1|]; [|reflexivity]. destruct (Nat.eqb_spec (b' * n + c') (b * n + c)) as [G2|]; [|reflexivity].
      exfalso. apply D. assert (b' = b) by (destruct (lt_eq_lt_dec b' b) as [[L|L]|L]; auto; exfalso; [assert ((b' + 1) * m <= b * m)%nat by (apply Nat.mul_le_mono_r; lia)|assert ((b + 1) * m <= b' * m)%nat by (apply Nat.mul_le_mono_r; lia)]; lia).
      subst b'. assert (r' = r) by lia. assert (c' = c) by lia. subst. reflexivity.
  - intros b b0 r c Hb Hb0 Hr Hc D0. unfold blockSparse. apply sum_zero. intros t' Ht'. apply in_seq in Ht'.
    destruct (bs_index p m n t' ltac:(lia)) as (b' & r' & c' & (B' & R' & C') & E).
    destruct (bs_eval R mat p m n b' r' c' B' R' C') as (F1 & F2 & F3). rewrite <- E in F1, F2, F3. rewrite F2, F3.
    destruct (Nat.eqb_spec (b' * m + r') (b * m + r)) as [G1|]; [|reflexivity]. destruct (Nat.eqb_spec (b' * n + c') (b0 * n + c)) as [G2|]; [|reflexivity].
    exfalso. apply D0.
    assert (K : forall k x y i j, (i < k -> j < k -> x * k + i = y * k + j -> x = y)%nat).
    { intros k x y i j Hi Hj HE. destruct (lt_eq_lt_dec x y) as [[L|L]|L]; auto; exfalso; [assert ((x + 1) * k <= y * k)%nat by (apply Nat.mul_le_mono_r; lia)|assert ((y + 1) * k <= x * k)%nat by (apply Nat.mul_le_mono_r; lia)]; lia. }
    apply K in G1; auto. apply K in G2; auto. congruence.
Qed.
Lemma rank_one_lemma : forall m1 m2 vec1 vec2 n k i, (k < m1)%nat -> (i < m2)%nat -> rankOneMatrix m1 m2 vec1 vec2 n k i = vec1 k n * vec2 i n.
Proof.
  intros m1 m2 vec1 vec2 n k i Hk Hi. unfold rankOneMatrix, r1work. assert (L : (i * m1 + k < m1 * m2)%nat) by nia.
  replace (m2 * m1)%nat with (m1 * m2)%nat by lia.
  assert (E1 : ((n * (m1 * m2) + (i * m1 + k)) mod (m1 * m2) = i * m1 + k)%nat) by (rewrite Nat.add_comm, Nat.mod_add by lia; apply Nat.mod_small; lia).
  assert (E2 : ((n * (m1 * m2) + (i * m1 + k)) / (m1 * m2) = n)%nat) by (rewrite Nat.div_add_l by lia; rewrite Nat.div_small by lia; lia).
  rewrite E1, E2. assert (E3 : ((i * m1 + k) mod m1 = k)%nat) by (rewrite Nat.add_comm, Nat.mod_add by lia; apply Nat.mod_small; lia).
  assert (E4 : ((i * m1 + k) / m1 = i)%nat) by (rewrite Nat.div_add_l by lia; rewrite Nat.div_small by lia; lia). now rewrite E3, E4.
Qed.

(** ** the best rotation *)
Fixpoint wsum (weights : list R) (v w : list v3) : R :=
  match weights, v, w with
  | a :: weights', x :: v', y :: w' => / 2 * (a * (norm2 y + norm2 x)) + wsum weights' v' w'
  | _, _, _ => 0
  end.
Lemma cost_frob : forall r weights v w, orthogonal r -> wahba_cost weights v w r = wsum weights v w - frob r (wahba_B weights v w).
Proof.
  intros r weights. induction weights as [|a weights IH]; intros [|x v] [|y w] H; cbn [wahba_cost wsum wahba_B]; try (unfold frob, mzero; cbn; ring).
  rewrite IH by assumption. pose proof (orth_dot r x x H) as E.
  assert (F : norm2 (vsub y (mv r x)) = norm2 y - 2 * dot y (mv r x) + norm2 x) by (unfold norm2 at 3; rewrite <- E; generalize (mv r x); intros q; destruct y, q; lin_unfold; ring).
  rewrite F. assert (G : dot y (mv r x) = frob r (outer y x)) by (destruct r, x, y; unfold frob; lin_unfold; ring).
  rewrite G. generalize (wahba_B weights v w). intros B. generalize (outer y x). intros o. destruct r, B, o. unfold frob, madd, mscale. cbn. field.
Qed.
Lemma frob_svd : forall r U S VT, frob r (mm U (mm S VT)) = frob (mm (mt U) (mm r (mt VT))) S.
Proof. intros. destruct r, U, S, VT. unfold frob. lin_unfold. ring. Qed.
Lemma frob_diag : forall q a b c, frob q (diag a b c) = a * m00 q + b * m11 q + c * m22 q.
Proof. intros. destruct q. unfold frob. lin_unfold. ring. Qed.
Lemma improper_trace : forall q, orthogonal q -> det q = -1 -> tr q <= 1.
Proof.
  intros q H D. assert (R : rotation (mscale (-1) q)).
  { split. - unfold orthogonal. rewrite <- H. destruct q. lin_unfold. f_equal; ring. - destruct q. lin_unfold. lra. }
  pose proof (rot_trace_bounds _ R) as B. destruct q. lin_unfold. lra.
Qed.
Lemma best_diag : forall q a b c d, orthogonal q -> det q = d -> b <= a -> c <= b -> 0 <= c -> a * m00 q + b * m11 q + c * m22 q <= a + b + c * d.
Proof.
  intros q a b c d H D Hab Hbc Hc. destruct (orth_entry q H) as (A & B & C). pose proof (det_orth q H) as DD.
  assert (Dd : d = 1 \/ d = -1).
  { rewrite D in DD. assert (E : (d - 1) * (d + 1) = 0) by lra. destruct (Rmult_integral _ _ E); [left|right]; lra. }
  destruct Dd as [-> | ->].
  - nra.
  - pose proof (improper_trace q H D) as T. unfold tr in T. nra.
Qed.
Lemma wahba_lemma : forall svd v w weights r, svd_of (wahba_B (unit_weights v weights) v w) (svd (wahba_B (unit_weights v weights) v w)) ->
  solve_wahba svd v w weights = Ok r ->
  rotation r /\ forall r', rotation r' -> wahba_cost (unit_weights v weights) v w r <= wahba_cost (unit_weights v weights) v w r'.
Proof.
  intros svd v w weights r S H. unfold solve_wahba in H. destruct (negb (length w =? length v)%nat); [discriminate|].
  assert (H' : (let '(Us, _, VsT) := svd (wahba_B (unit_weights v weights) v w) in Ok (mm Us (mm (diag 1 1 (det Us * det VsT)) VsT))) = Ok r).
  { destruct weights as [l|]; cbn [rbind unit_weights] in H |- *; [destruct (length l =? length v)%nat; [exact H|discriminate]|exact H]. }
  clear H. set (B := wahba_B (unit_weights v weights) v w) in *. destruct (svd B) as [[U s] VT] eqn:E. cbn [svd_of] in S.
  destruct S as (HU & HV & EB & s1 & s2 & s3). injection H' as <-.
  pose proof (det_orth U HU) as DU. pose proof (det_orth VT HV) as DV.
  assert (DD : (det U * det VT) * (det U * det VT) = 1) by (replace ((det U * det VT) * (det U * det VT)) with ((det U * det U) * (det VT * det VT)) by ring; rewrite DU, DV; ring).
  assert (O : orthogonal (diag 1 1 (det U * det VT))).
  { clear - DD. revert DD. generalize (det U * det VT). intros d Hd. unfold orthogonal. lin_unfold. f_equal; lra. }
  assert (R : rotation (mm U (mm (diag 1 1 (det U * det VT)) VT))).
  { split. - apply orth_mm; auto. apply orth_mm; auto. - rewrite !det_mm. replace (det (diag 1 1 (det U * det VT))) with (det U * det VT) by (generalize (det U * det VT); intros; lin_unfold; ring).
    replace (det U * (det U * det VT * det VT)) with ((det U * det U) * (det VT * det VT)) by ring. rewrite DU, DV. ring. }
  split; [exact R|]. intros r' R'. destruct R as [RO RD]. destruct R' as [RO' RD'].
  rewrite !cost_frob by assumption. fold B. rewrite EB, !frob_svd, !frob_diag.
  assert (Q : mm (mt U) (mm (mm U (mm (diag 1 1 (det U * det VT)) VT)) (mt VT)) = diag 1 1 (det U * det VT)).
  { rewrite <- !mm_assoc. rewrite (orth_both VT HV), mm_I_r, mm_assoc, HU. apply mm_I_l. }
  rewrite Q. pose proof (best_diag (mm (mt U) (mm r' (mt VT))) (vx s) (vy s) (vz s) (det U * det VT)) as BD.
  assert (X : vx s * m00 (mm (mt U) (mm r' (mt VT))) + vy s * m11 (mm (mt U) (mm r' (mt VT))) + vz s * m22 (mm (mt U) (mm r' (mt VT))) <= vx s + vy s + vz s * (det U * det VT)).
  { apply BD; auto. - apply orth_mm. { now apply orth_mt. } apply orth_mm; auto. now apply orth_mt. - rewrite !det_mm, !det_mt, RD'. ring. }
  unfold diag at 1 2 3. cbn [m00 m11 m22]. lra.
Qed.
Lemma wahba_total : forall svd v w weights, (exists r, solve_wahba svd v w weights = Ok r) <->
  (length w = length v /\ match weights with None => True | Some l => length l = length v end).
Proof.
  intros svd v w weights. unfold solve_wahba. destruct (Nat.eqb_spec (length w) (length v)) as [E|E]; cbn [negb].
  - destruct weights as [l|]; cbn [rbind].
    + destruct (Nat.eqb_spec (length l) (length v)) as [F|F]; cbn [rbind].
      * destruct (svd _) as [[? ?] ?]. split; eauto.
      * split; [intros [r H]; discriminate | intros [_ H]; contradiction].
    + destruct (svd _) as [[? ?] ?]. split; eauto.
  - split; [intros [r H]; discriminate | intros [H _]; contradiction].
Qed.
