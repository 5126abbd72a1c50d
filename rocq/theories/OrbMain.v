(** Proofs about the symmetric reflections, second part: the lists of plane data. *)
From Coq Require Import Reals List String ZArith Lra Lia Psatz Permutation.
From Verif Require Import Prelude Lin TensorModel TensorSpec TensorProofs RotModel RotSpec RotProofs RotProofs2 RotGroups StfModel StfSpec StfProofs StfGroups LatModel LatSpec LatProofs LatCell SgModel SgSpec UcModel UcSpec UcSym OrbModel OrbProofs.
Import ListNotations.
Local Open Scope R_scope.
Local Notation length := List.length.

Lemma rvec_negv : forall h, rvec (negv h) = vneg (rvec h).
Proof. intros [a b c]. unfold rvec, negv. cbn [v0 v1 v2]. rewrite !opp_IZR. lin_unfold. f_equal; ring. Qed.
Lemma mv_vneg : forall M v, mv M (vneg v) = vneg (mv M v). Proof. lin. Qed.
Lemma abs_le_norm : forall x s, 0 <= s -> x * x <= s -> Rabs x <= sqrt s.
Proof. intros x s S H. rewrite <- (sqrt_Rsqr_abs x). apply sqrt_le_1; [apply Rle_0_sqr|exact S|]. unfold Rsqr. exact H. Qed.
Lemma norm_le_sum : forall a b, norm (vsub a b) <= sum_abs a b.
Proof.
  intros [a1 a2 a3] [b1 b2 b3]. unfold norm, norm2, sum_abs, vsub, dot. cbn [vx vy vz].
  generalize (a1 - b1) (a2 - b2) (a3 - b3). intros x y z. pose proof (Rabs_pos x) as P1. pose proof (Rabs_pos y) as P2. pose proof (Rabs_pos z) as P3.
  assert (S : forall x, x * x = Rabs x * Rabs x) by (intros t; pose proof (Rsqr_abs t) as E; unfold Rsqr in E; exact E).
  rewrite (S x), (S y), (S z). rewrite <- (sqrt_square (Rabs x + Rabs y + Rabs z)) by lra. apply sqrt_le_1; nra.
Qed.
Lemma dot_norm : forall u w, Rabs (dot u w) <= norm u * norm w.
Proof.
  intros u w. unfold norm. rewrite <- sqrt_mult by apply norm2_pos. rewrite <- sqrt_Rsqr_abs. apply sqrt_le_1.
  - apply Rle_0_sqr.
  - apply Rmult_le_pos; apply norm2_pos.
  - apply cauchy.
Qed.

Lemma dot_vsub : forall u x y, dot u (vsub x y) = dot u x - dot u y. Proof. lin. Qed.

Section Sym.
Variables (g : laue) (l : list R) (len ang : v3) (L : lattice).
Hypothesis LF : lattice_for g l len ang L.
Notation gv := (gvector L).
Lemma dual : mm (mt (l_F L)) (l_B L) = mI. Proof. exact (lattice_for_dual _ _ _ _ _ LF). Qed.
Lemma gv_mv : forall h, gv h = mv (l_B L) (rvec h). Proof. reflexivity. Qed.
Lemma back : forall h, mv (mt (l_F L)) (gv h) = rvec h.
Proof. intros h. rewrite gv_mv, <- mv_mm, dual. apply mv_I. Qed.
Lemma round_back : forall h, round_vec (mv (mt (l_F L)) (gv h)) = h.
Proof. intros [a b c]. rewrite back. unfold round_vec, rvec. cbn [vx vy vz v0 v1 v2]. now rewrite !rint_IZR. Qed.
Lemma gv_inj : forall a b, gv a = gv b -> a = b.
Proof. intros a b E. rewrite <- (round_back a), <- (round_back b), E. reflexivity. Qed.
Lemma gv_neg : forall h, gv (negv h) = vneg (gv h).
Proof. intros h. rewrite !gv_mv, rvec_negv. apply mv_vneg. Qed.
Lemma rot_gv : forall r M h, matches (l_F L) r M -> mv r (gv h) = gv (imv M h).
Proof.
  intros r M h E. unfold matches in E. destruct (dual_other _ _ dual) as (_ & X & _).
  rewrite !gv_mv, rvec_imv, <- !mv_mm. f_equal.
  transitivity (mm (l_B L) (mm (mm (mt (l_F L)) r) (l_B L))).
  - rewrite !mm_assoc, X, mm_I_l. reflexivity.
  - rewrite E, <- (mm_assoc (rmat M)), dual, mm_I_r. reflexivity.
Qed.
Lemma rots_index : Forall2 (fun q M => matches (l_F L) (rotMatOfQuat q) M) (quatOfLaueGroup g) (index_mats g).
Proof.
  pose proof (frame_matches g _ (lattice_for_frame _ _ _ _ _ LF)) as F. rewrite <- laue_mats_ok in F. unfold rots in F.
  revert F. generalize (index_mats g). induction (quatOfLaueGroup g) as [|q r IH]; intros [|M Ms] F; inversion F; subst; constructor; auto.
Qed.
Definition images (h : ivec) : list ivec := map (fun M => imv M h) (index_mats g).
Lemma all_gv : forall h, map (fun q => mv (rotMatOfQuat q) (gv h)) (quatOfLaueGroup g) = map gv (images h).
Proof.
  intros h. unfold images. rewrite map_map. pose proof rots_index as F. induction F as [|q M qs Ms E F IH]; cbn [map]; [reflexivity|].
  now rewrite IH, (rot_gv _ _ h E).
Qed.
Lemma all_gv_neg : forall hs, map vneg (map gv hs) = map gv (map negv hs).
Proof. intros hs. rewrite !map_map. apply map_ext. intros h. now rewrite gv_neg. Qed.

Hypothesis SMALL : vx len <= 2 ^ 26 /\ vy len <= 2 ^ 26 /\ vz len <= 2 ^ 26.
Lemma int_apart : forall a b : Z, a <> b -> 1 <= Rabs (IZR a - IZR b).
Proof. intros a b N. rewrite <- minus_IZR, <- abs_IZR. apply IZR_le. lia. Qed.
Lemma gv_far : forall a b, norm (vsub (gv a) (gv b)) < sqrt_epsf -> a = b.
Proof.
  intros a b S. assert (HF : has_shape (l_F L) len ang) by (rewrite (lattice_for_eq _ _ _ _ _ LF); destruct LF as (_ & P & _); apply (lattice_wf len ang P)).
  destruct HF as (N0 & N1 & N2 & _).
  pose proof (norm_pos (vsub (gv a) (gv b))) as NG.
  assert (K : forall u n x y, norm u = n -> n <= 2 ^ 26 -> dot u (vsub (gv a) (gv b)) = IZR x - IZR y -> x = y).
  { intros u n x y NU BU D. destruct (Z.eq_dec x y) as [E|E]; [exact E|exfalso]. apply int_apart in E. rewrite <- D in E.
    pose proof (dot_norm u (vsub (gv a) (gv b))) as C. rewrite NU in C. unfold sqrt_epsf in S.
    assert (n * norm (vsub (gv a) (gv b)) < 1).
    { apply Rle_lt_trans with (2 ^ 26 * norm (vsub (gv a) (gv b))); [apply Rmult_le_compat_r; assumption|].
      apply Rlt_le_trans with (2 ^ 26 * / 2 ^ 26); [apply Rmult_lt_compat_l; lra|]. right. field. }
    lra. }
  assert (DD : forall h, dot (Lin.col0 (l_F L)) (gv h) = IZR (v0 h) /\ dot (Lin.col1 (l_F L)) (gv h) = IZR (v1 h) /\ dot (Lin.col2 (l_F L)) (gv h) = IZR (v2 h)).
  { intros h. pose proof (back h) as E. unfold rvec in E. destruct (l_F L) as [f00 f01 f02 f10 f11 f12 f20 f21 f22], (gv h) as [q0 q1 q2]. cbv [mv mt dot row0 row1 row2 of_cols Lin.col0 Lin.col1 Lin.col2 vx vy vz m00 m01 m02 m10 m11 m12 m20 m21 m22] in E |- *. injection E as E0 E1 E2. repeat split; lra. }
  destruct (DD a) as (A0 & A1 & A2), (DD b) as (B0 & B1 & B2). destruct SMALL as (S0 & S1 & S2).
  destruct a as [a0 a1 a2], b as [b0 b1 b2]. cbn [v0 v1 v2] in *. f_equal.
  - exact (K _ _ a0 b0 N0 S0 ltac:(rewrite dot_vsub; lra)).
  - exact (K _ _ a1 b1 N1 S1 ltac:(rewrite dot_vsub; lra)).
  - exact (K _ _ a2 b2 N2 S2 ltac:(rewrite dot_vsub; lra)).
Qed.
Lemma gv_apart : forall a b, sum_abs (gv a) (gv b) < sqrt_epsf -> a = b.
Proof. intros a b S. apply gv_far. eapply Rle_lt_trans; [apply norm_le_sum|exact S]. Qed.
Lemma gv_length : forall h, h <> zero_index -> sqrt_epsf <= norm (gv h).
Proof.
  intros h N. destruct (Rle_lt_dec sqrt_epsf (norm (gv h))) as [H|H]; [exact H|]. exfalso. apply N, gv_far.
  replace (vsub (gv h) (gv zero_index)) with (gv h); [exact H|]. unfold gvector, zero_index. cbn [v0 v1 v2]. generalize (l_B L) (V3 (IZR (v0 h)) (IZR (v1 h)) (IZR (v2 h))). clear. lin.
Qed.

Lemma sym_list : forall h cs, let hs := map (fun v => round_vec (mv (mt (l_F L)) v)) (applySym (gv h) (quatOfLaueGroup g) cs false sqrt_epsf) in
  NoDup hs /\ applySym (gv h) (quatOfLaueGroup g) cs false sqrt_epsf = map gv hs /\
  forall x, In x hs <-> In x (images h ++ (if cs then map negv (images h) else [])).
Proof.
  intros h cs. set (cand := images h ++ (if cs then map negv (images h) else [])).
  assert (E : applySym (gv h) (quatOfLaueGroup g) cs false sqrt_epsf = map (fun u => nth u (map gv cand) vzero) (unique_ids sqrt_epsf false (map gv cand))).
  { unfold applySym. rewrite all_gv. unfold cand. destruct cs; [rewrite all_gv_neg, <- map_app|rewrite app_nil_r]; reflexivity. }
  assert (T : 0 < sqrt_epsf) by (unfold sqrt_epsf; apply Rinv_0_lt_compat; lra).
  destruct (unique_spec sqrt_epsf (map gv cand) T) as (ND & IN).
  { intros x y X Y S. apply in_map_iff in X, Y. destruct X as (a & <- & _), Y as (b & <- & _). f_equal. now apply gv_apart. }
  rewrite E. clear E. revert ND IN. generalize (map (fun u => nth u (map gv cand) vzero) (unique_ids sqrt_epsf false (map gv cand))). intros out ND IN.
  assert (O : out = map gv (map (fun v => round_vec (mv (mt (l_F L)) v)) out)).
  { rewrite map_map, <- (map_id out) at 1. apply map_ext_in. intros v V. apply IN in V. apply in_map_iff in V. destruct V as (a & <- & _). now rewrite round_back. }
  split; [|split; [exact O|]].
  - apply (NoDup_map_inv gv). now rewrite <- O.
  - intros x. split; intros X.
    + assert (In (gv x) out) by (rewrite O; now apply in_map). apply IN in H. apply in_map_iff in H. destruct H as (a & Q & A). apply gv_inj in Q. now subst.
    + assert (In (gv x) out) by (apply IN; now apply in_map). apply in_map_iff. exists (gv x). split; [apply round_back|exact H].
Qed.
End Sym.
