From Coq Require Import Reals List String Lra.
From Verif Require Import Prelude Lin RotSpec XfSpec XfModel XfTrig XfRay XfFlat XfMats CylModel CylSpec CylProofs.
Local Open Scope R_scope.

Lemma dir_unit : forall b, unit b -> direction b = b.
Proof. intros b U. unfold direction. rewrite (norm2_norm1 b U). destruct b. lin_unfold. f_equal; field. Qed.
Lemma rot_crosses : forall r, rotation r -> cross (col0 r) (col2 r) = vneg (col1 r) /\ cross (col2 r) (col1 r) = vneg (col0 r).
Proof.
  intros r Hr. pose proof (rot_adj r Hr) as E. destruct r as [a b c d e f g h i]. unfold adj, mt in E. cbn in E. injection E as. lin_unfold. cbn. split; f_equal; lra.
Qed.
Lemma cross_combo : forall x z p q, cross (vadd (vscale x p) (vscale z q)) (vneg q) = vscale (- x) (cross p q). Proof. lin. Qed.
Lemma scale_neg : forall x p, vscale (- x) (vneg p) = vscale x p. Proof. lin. Qed.
Lemma cross_neg : forall p q, cross (vneg p) q = vneg (cross p q). Proof. lin. Qed.
Lemma neg_neg : forall p, vneg (vneg p) = p. Proof. lin. Qed.
Lemma norm2_scale : forall k p, norm2 (vscale k p) = k * k * norm2 p. Proof. lin. Qed.
Lemma dir_scale : forall k p, 0 < k -> norm2 p = 1 -> vscale (/ norm (vscale k p)) (vscale k p) = p.
Proof.
  intros k p K U. replace (norm (vscale k p)) with k. { destruct p. lin_unfold. f_equal; field; lra. }
  unfold norm. rewrite norm2_scale, U, Rmult_1_r. symmetry. apply sqrt_square. lra.
Qed.
Lemma mv_cols : forall r u, mv r u = vadd (vadd (vscale (vx u) (col0 r)) (vscale (vy u) (col1 r))) (vscale (vz u) (col2 r)). Proof. lin. Qed.
Lemma mt_y : forall r d, vy (mv (mt r) d) = dot (col1 r) d /\ vx (mv (mt r) d) = dot (col0 r) d. Proof. split; lin. Qed.
Lemma dot_neg_r : forall a b, dot a (vneg b) = - dot a b. Proof. lin. Qed.
Lemma unbeam : forall r, mv r (V3 0 0 (-1)) = vneg (col2 r). Proof. lin. Qed.
Lemma dvec_angs : forall b e r d, unit b -> beam_frame b e r -> unit d ->
  exists t h, dvec_to_angs b e d = (t, h) /\ 0 <= t <= PI /\ - PI < h <= PI /\ scattered r t h = d.
Proof.
  intros b e r d UB (RR & FB & X & Y) UD. rewrite (dir_unit b UB) in FB. eexists _, _. split; [reflexivity|]. split; [apply acos_bound|]. split; [apply atan2_range|].
  destruct (orth_eqs r (proj1 RR)) as (N0 & N1 & N2 & D01 & D02 & D12). pose proof (rot_crosses r RR) as [X02 X21].
  assert (BB : b = vneg (col2 r)) by (rewrite <- FB; apply unbeam).
  assert (EX : cross e b = vscale (vx (mv (mt r) e)) (col1 r)).
  { rewrite BB. rewrite <- (rot_back r e RR) at 1. rewrite mv_cols. set (u := mv (mt r) e) in *. rewrite Y.
    replace (vadd (vscale (vx u) (col0 r)) (vscale 0 (col1 r))) with (vscale (vx u) (col0 r)) by (clearbody u; generalize (col0 r) (col1 r); clear; lin).
    rewrite cross_combo, X02. apply scale_neg. }
  rewrite EX, (dir_scale _ _ X N1). assert (BX : cross b (col1 r) = col0 r) by (rewrite BB, cross_neg, X21; apply neg_neg). rewrite BX, (norm2_norm1 _ N0), Rinv_1.
  replace (vscale 1 (col0 r)) with (col0 r) by (generalize (col0 r); clear; lin). pose proof (unit_dot b d UB UD) as BD. set (dp := if Rlt_dec 1 (Rabs (dot b d)) then _ else _).
  assert (DP : dp = dot b d). { unfold dp. destruct (Rlt_dec 1 (Rabs (dot b d))) as [G|]; [|reflexivity]. exfalso. revert G. unfold Rabs. destruct (Rcase_abs (dot b d)); lra. }
  clearbody dp. subst dp. rewrite !dot_lin'. assert (B1 : dot (col1 r) b = 0) by (rewrite BB, dot_neg_r, D12; ring). assert (B0 : dot (col0 r) b = 0) by (rewrite BB, dot_neg_r, D02; ring). rewrite B1, B0. destruct (mt_y r d) as [E1 E0].
  replace (dot (col1 r) d - dot b d * 0) with (vy (mv (mt r) d)) by (rewrite E1; ring). replace (dot (col0 r) d - dot b d * 0) with (vx (mv (mt r) d)) by (rewrite E0; ring).
  rewrite <- FB. symmetry. now apply scatter_back.
Qed.
(** the derivative of the sheet along x *)
Definition tangent (rm : m3) (r x : R) : v3 := mv rm (V3 (cos (x / r)) 0 (sin (x / r))).
Lemma d_sin : forall r x, r <> 0 -> derivable_pt_lim (fun s => r * sin (s / r)) x (cos (x / r)).
Proof.
  intros r x N. replace (cos (x / r)) with (r * (cos (x / r) * (/ r))) by (field; assumption).
  apply (derivable_pt_lim_scal (fun s => sin (s / r)) r x). apply (derivable_pt_lim_comp (fun s => s / r) sin x).
  - replace (/ r) with (1 * / r + x * 0) by ring. apply (derivable_pt_lim_mult id (fct_cte (/ r))). apply derivable_pt_lim_id. apply derivable_pt_lim_const.
  - apply derivable_pt_lim_sin.
Qed.
Lemma d_cos : forall r x, r <> 0 -> derivable_pt_lim (fun s => r - r * cos (s / r)) x (sin (x / r)).
Proof.
  intros r x N. replace (sin (x / r)) with (0 - r * (- sin (x / r) * (/ r))) by (field; assumption).
  apply (derivable_pt_lim_minus (fct_cte r) (fun s => r * cos (s / r))). apply derivable_pt_lim_const.
  apply (derivable_pt_lim_scal (fun s => cos (s / r)) r x). apply (derivable_pt_lim_comp (fun s => s / r) cos x).
  - replace (/ r) with (1 * / r + x * 0) by ring. apply (derivable_pt_lim_mult id (fct_cte (/ r))). apply derivable_pt_lim_id. apply derivable_pt_lim_const.
  - apply derivable_pt_lim_cos.
Qed.
Lemma d_combo : forall t a b c f g h f' g' h' x, derivable_pt_lim f x f' -> derivable_pt_lim g x g' -> derivable_pt_lim h x h' ->
  derivable_pt_lim (fun s => t + (a * f s + b * g s + c * h s)) x (a * f' + b * g' + c * h').
Proof.
  intros t a b c f g h f' g' h' x F G H. replace (a * f' + b * g' + c * h') with (0 + (a * f' + b * g' + c * h')) by ring.
  apply (derivable_pt_lim_plus (fct_cte t) (fun s => a * f s + b * g s + c * h s)); [apply derivable_pt_lim_const|].
  apply (derivable_pt_lim_plus (fun s => a * f s + b * g s) (fun s => c * h s)); [|now apply (derivable_pt_lim_scal h)].
  apply (derivable_pt_lim_plus (fun s => a * f s) (fun s => b * g s)); [now apply (derivable_pt_lim_scal f)|now apply (derivable_pt_lim_scal g)].
Qed.
Lemma velocity_x : forall rm t r x y, r <> 0 -> velocity (fun s => bent_point rm t r s y) x (tangent rm r x).
Proof.
  intros rm t r x y N. destruct rm as [a b c d e f g h i], t as [tx ty tz]. unfold velocity, bent_point, tangent, mv, row0, row1, row2, vadd, dot. cbn [vx vy vz m00 m01 m02 m10 m11 m12 m20 m21 m22].
  pose proof (d_sin r x N). pose proof (d_cos r x N). pose proof (derivable_pt_lim_const y x).
  split; [|split]; apply (d_combo _ _ _ _ (fun s => r * sin (s / r)) (fct_cte y) (fun s => r - r * cos (s / r))); assumption.
Qed.
Lemma velocity_y : forall rm t r x y, velocity (fun s => bent_point rm t r x s) y (mv rm (V3 0 1 0)).
Proof.
  intros rm t r x y. destruct rm as [a b c d e f g h i], t as [tx ty tz]. unfold velocity, bent_point, mv, row0, row1, row2, vadd, dot. cbn [vx vy vz m00 m01 m02 m10 m11 m12 m20 m21 m22].
  pose proof (derivable_pt_lim_const (r * sin (x / r)) y). pose proof (derivable_pt_lim_const (r - r * cos (x / r)) y). pose proof (derivable_pt_lim_id y).
  split; [|split]; apply (d_combo _ _ _ _ (fct_cte (r * sin (x / r))) id (fct_cte (r - r * cos (x / r)))); assumption.
Qed.
Lemma tangent_unit : forall rm r x, rotation rm -> unit (tangent rm r x) /\ dot (tangent rm r x) (mv rm (V3 0 1 0)) = 0.
Proof.
  intros rm r x H. unfold unit, norm2, tangent. rewrite !(orth_dot rm _ _ (proj1 H)). pose proof (sin2_cos2 (x / r)) as S2. unfold Rsqr in S2. unfold dot. cbn [vx vy vz]. split; lra.
Qed.
Lemma tangent_0 : forall rm r, tangent rm r 0 = mv rm (V3 1 0 0).
Proof. intros. unfold tangent. replace (0 / r) with 0 by (unfold Rdiv; ring). now rewrite cos_0, sin_0. Qed.
Lemma bent_0 : forall rm t r y, bent_point rm t r 0 y = lab_point rm t 0 y.
Proof. intros. unfold bent_point, lab_point. replace (0 / r) with 0 by (unfold Rdiv; ring). rewrite cos_0, sin_0. destruct rm, t. lin_unfold. f_equal; ring. Qed.
Lemma normal_eq : forall c x, rotation (c_rmat c) -> local_normal c x = mv (c_rmat c) (V3 (sin (x / c_radius c)) 0 (- cos (x / c_radius c))).
Proof.
  intros c x H. unfold local_normal, paxis, caxis. rewrite (C_col (c_rmat c)), (P_col (c_rmat c)), (cross_01 _ H) by exact H. destruct (c_rmat c). lin_unfold. f_equal; ring.
Qed.
Lemma zero_turn : forall v, mv (sample_turn 0 0) v = v.
Proof. intros. unfold sample_turn, rot_x, rot_y. rewrite cos_0, sin_0. destruct v. lin_unfold. f_equal; ring. Qed.
Lemma dvec_still : forall b e t h r, b <> vzero -> beam_frame b e r -> angles_to_dvec b e 0 mI t h 0 = scattered r t h.
Proof. intros b e t h r NB F. rewrite <- (dvec_lemma b e 0 mI t h 0 r NB F rot_I). now rewrite zero_turn, mv_I. Qed.
Lemma attr_in : forall A names n (v : A), In n names -> attribute names n v = Ok v.
Proof. intros A names n v H. unfold attribute. assert (E : existsb (String.eqb n) names = true) by (apply existsb_exists; exists n; split; [assumption|apply String.eqb_refl]). now rewrite E. Qed.
