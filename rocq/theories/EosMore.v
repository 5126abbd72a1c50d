(** The pressure grows with compression; volumes of cells. *)
From Coq Require Import Reals List Lra Lia Psatz.
From Verif Require Import Prelude Lin LatModel LatSpec EosModel EosSpec EosProofs.
Import ListNotations.
Local Open Scope R_scope.

Lemma ppoly_1 : forall a, ppoly a 1 = 0. Proof. intros. unfold ppoly. ring. Qed.
Lemma ppoly_pos : forall a x, 0 <= a -> 1 <= x -> 0 <= ppoly a x.
Proof.
  intros a x A X. unfold ppoly. assert (0 < x ^ 5) by (apply pow_lt; lra). assert (0 <= x ^ 2 - 1) by nra.
  replace (x ^ 7 - x ^ 5) with (x ^ 5 * (x ^ 2 - 1)) by ring. apply Rmult_le_pos; [apply Rmult_le_pos; lra|nra].
Qed.
Lemma ppoly_mono : forall a x y, 0 <= a -> 1 <= x -> x < y -> ppoly a x < ppoly a y.
Proof.
  intros a x y A X Y. unfold ppoly. replace (x ^ 7 - x ^ 5) with (x ^ 5 * (x ^ 2 - 1)) by ring. replace (y ^ 7 - y ^ 5) with (y ^ 5 * (y ^ 2 - 1)) by ring.
  assert (P5 : x ^ 5 <= y ^ 5) by (apply pow_incr; lra). assert (Q : 0 < x ^ 5) by (apply pow_lt; lra).
  assert (P2 : x ^ 2 < y ^ 2) by nra. assert (G : 0 <= x ^ 2 - 1) by nra.
  set (u := x ^ 5) in *. set (w := y ^ 5) in *. set (s := x ^ 2 - 1) in *. set (r := y ^ 2 - 1) in *. assert (s < r) by (unfold s, r; lra). clearbody u w s r. clear P2.
  assert (L1 : u * s < w * r) by nra. assert (0 <= u * s) by nra. assert (1 + a * s <= 1 + a * r) by nra. assert (1 <= 1 + a * s) by nra. nra.
Qed.
Lemma ppoly_cont : forall a c, continuity (fun x => ppoly a x - c).
Proof. intros a c. unfold ppoly. reg. Qed.
Lemma ppoly_solve : forall a c, 0 <= a -> 0 <= c -> exists x, 1 <= x /\ ppoly a x = c.
Proof.
  intros a c A C. destruct (IVT_cor (fun x => ppoly a x - c) 1 (1 + c) (ppoly_cont a c)) as (z & Z & E); [lra| |exists z; lra].
  cbv beta. rewrite ppoly_1. assert (c <= ppoly a (1 + c)).
  { unfold ppoly. replace ((1 + c) ^ 7 - (1 + c) ^ 5) with ((1 + c) ^ 5 * ((1 + c) ^ 2 - 1)) by ring.
    assert (1 <= (1 + c) ^ 5) by (apply pow_R1_Rle; lra). assert (0 <= (1 + c) ^ 2 - 1) by nra. assert (c <= (1 + c) ^ 2 - 1) by nra.
    assert (c <= (1 + c) ^ 5 * ((1 + c) ^ 2 - 1)) by nra. assert (0 <= a * ((1 + c) ^ 2 - 1)) by nra. nra. }
  nra.
Qed.
Lemma ppoly_solve_neg : forall a c, a < 0 -> c <= 0 -> exists x, 1 <= x /\ ppoly a x = c.
Proof.
  intros a c A C. set (d := (1 - c) / - a). assert (D : 0 < d) by (apply Rdiv_lt_0_compat; lra). assert (DA : a * d = c - 1) by (unfold d; field; lra).
  destruct (IVT_cor (fun x => ppoly a x - c) 1 (1 + d + 1) (ppoly_cont a c)) as (z & Z & E); [lra| |exists z; lra].
  cbv beta. rewrite ppoly_1. assert (ppoly a (1 + d + 1) <= c).
  { unfold ppoly. set (X := 1 + d + 1). assert (XX : 2 < X) by (unfold X; lra). replace (X ^ 7 - X ^ 5) with (X ^ 5 * (X ^ 2 - 1)) by ring.
    assert (1 <= X ^ 5) by (apply pow_R1_Rle; lra). assert (B1 : 1 <= X ^ 2 - 1) by nra. assert (B2 : d <= X ^ 2 - 1) by (unfold X; nra).
    assert (1 <= X ^ 5 * (X ^ 2 - 1)) by nra. assert (a * (X ^ 2 - 1) <= a * d) by nra. nra. }
  nra.
Qed.

Lemma bm_at : forall v0 k kp x, 0 < v0 -> 0 < x -> birch_murnaghan v0 k kp (1 / x ^ 3 * v0) = 3 * k / 2 * ppoly (3 / 4 * (kp - 4)) x.
Proof. intros. now rewrite bm_lin, lin_of_cube. Qed.
Lemma vol_range : forall v0 x, 0 < v0 -> 1 <= x -> 0 < 1 / x ^ 3 * v0 <= v0.
Proof.
  intros v0 x V X. assert (C : 0 < x ^ 3) by (apply pow_lt; lra). assert (D : 0 < 1 / x ^ 3) by (apply Rdiv_lt_0_compat; lra).
  assert (1 / x ^ 3 <= 1) by (apply cube_le; lra). split; [now apply Rmult_lt_0_compat|nra].
Qed.
Lemma lin_ge1 : forall v0 v, 0 < v <= v0 -> 1 <= lin_of v0 v.
Proof.
  intros v0 v V. apply cube_le; [apply lin_pos|]. pose proof (of_lin v0 v ltac:(lra) ltac:(lra)) as E. apply Rmult_le_reg_r with v0; lra.
Qed.
Lemma bm_exists : forall v0 k kp p, 0 < v0 -> 0 < k -> 4 <= kp -> 0 <= p -> exists v, 0 < v <= v0 /\ birch_murnaghan v0 k kp v = p.
Proof.
  intros v0 k kp p V K KP P. destruct (ppoly_solve (3 / 4 * (kp - 4)) (2 * p / 3 / k)) as (x & X & E); [lra|apply Rmult_le_pos; [lra|left; now apply Rinv_0_lt_compat]|].
  exists (1 / x ^ 3 * v0). split; [now apply vol_range|]. rewrite bm_at, E by lra. field. lra.
Qed.
Lemma bm_exists_neg : forall v0 k kp p, 0 < v0 -> 0 < k -> kp < 4 -> p <= 0 -> exists v, 0 < v <= v0 /\ birch_murnaghan v0 k kp v = p.
Proof.
  intros v0 k kp p V K KP P. destruct (ppoly_solve_neg (3 / 4 * (kp - 4)) (2 * p / 3 / k)) as (x & X & E); [lra| |].
  { assert (0 <= (- 2 * p / 3) * / k) by (apply Rmult_le_pos; [lra|left; now apply Rinv_0_lt_compat]). unfold Rdiv in *. lra. }
  exists (1 / x ^ 3 * v0). split; [now apply vol_range|]. rewrite bm_at, E by lra. field. lra.
Qed.
Lemma bm_decreasing : forall v0 k kp v w, 0 < k -> 4 <= kp -> 0 < v -> v < w -> w <= v0 -> birch_murnaghan v0 k kp w < birch_murnaghan v0 k kp v.
Proof.
  intros v0 k kp v w K KP V VW W. rewrite !bm_lin. apply Rmult_lt_compat_l; [lra|]. apply ppoly_mono; [lra|apply lin_ge1; lra|].
  pose proof (lin_cube v0 v ltac:(lra) ltac:(lra)) as A. pose proof (lin_cube v0 w ltac:(lra) ltac:(lra)) as B. pose proof (lin_pos v0 v). pose proof (lin_pos v0 w).
  assert (C : lin_of v0 w ^ 3 < lin_of v0 v ^ 3) by (rewrite A, B; apply Rmult_lt_compat_l; [lra|]; apply Rinv_lt_contravar; [nra|assumption]).
  destruct (Rlt_or_le (lin_of v0 w) (lin_of v0 v)) as [|L]; [assumption|]. exfalso. assert (lin_of v0 v ^ 3 <= lin_of v0 w ^ 3) by (apply pow_incr; lra). lra.
Qed.
Lemma bm_at_v0 : forall v0 k kp, 0 < v0 -> birch_murnaghan v0 k kp v0 = 0.
Proof. intros v0 k kp V. replace v0 with (1 / 1 ^ 3 * v0) at 2 by (cbn [pow]; field). rewrite bm_at, ppoly_1 by lra. ring. Qed.
Lemma bm_slope : forall v0 k kp, 0 < v0 -> derivable_pt_lim (birch_murnaghan v0 k kp) v0 (- k / v0).
Proof.
  intros v0 k kp V.
  assert (U : derivable_pt_lim (fun v => v0 / v) v0 (- / v0)).
  { pose proof (derivable_pt_lim_div (fct_cte v0) id v0 0 1 (derivable_pt_lim_const v0 v0) (derivable_pt_lim_id v0)) as D. unfold id in D at 1. specialize (D ltac:(lra)).
    unfold fct_cte, id, Rsqr in D. replace (- / v0) with ((0 * v0 - 1 * v0) / (v0 * v0)) by (field; lra). exact D. }
  set (F := fun u => 3 * k / 2 * (Rpower u (7 / 3) - Rpower u (5 / 3)) * (1 + 3 / 4 * (kp - 4) * (Rpower u (2 / 3) - 1))).
  assert (O : forall c, Rpower 1 c = 1) by (intros; unfold Rpower; rewrite ln_1, Rmult_0_r; apply exp_0).
  assert (G : derivable_pt_lim F (v0 / v0) k).
  { replace (v0 / v0) with 1 by (field; lra).
    pose proof (derivable_pt_lim_power 1 (7 / 3) ltac:(lra)) as D7. pose proof (derivable_pt_lim_power 1 (5 / 3) ltac:(lra)) as D5. pose proof (derivable_pt_lim_power 1 (2 / 3) ltac:(lra)) as D2.
    pose proof (derivable_pt_lim_scal _ (3 * k / 2) _ _ (derivable_pt_lim_minus _ _ _ _ _ D7 D5)) as A.
    pose proof (derivable_pt_lim_plus _ _ _ _ _ (derivable_pt_lim_const 1 1) (derivable_pt_lim_scal _ (3 / 4 * (kp - 4)) _ _ (derivable_pt_lim_minus _ _ _ _ _ D2 (derivable_pt_lim_const 1 1)))) as B.
    pose proof (derivable_pt_lim_mult _ _ _ _ _ A B) as M. unfold mult_real_fct, mult_fct, plus_fct, minus_fct, fct_cte in M. rewrite !O in M.
    match type of M with derivable_pt_lim _ _ ?d => replace k with d by field end. exact M. }
  pose proof (derivable_pt_lim_comp _ F _ _ _ U G) as C. unfold comp in C. replace (- k / v0) with (k * - / v0) by (unfold Rdiv; ring). exact C.
Qed.

(** ** volumes of cells *)
Lemma shape_gram : forall F len deg, has_shape F len (radians_of deg) -> mm (mt F) F = u_dmt (calcmatrices len deg).
Proof.
  intros F len deg (A & B & C & (_ & D) & (_ & E) & (_ & G)). unfold calcmatrices. cbn [u_dmt]. rewrite <- A, <- B, <- C.
  assert (sq : forall v, norm v * norm v = dot v v).
  { intros v. unfold norm, norm2. apply sqrt_sqrt. destruct v as [p q r]; unfold dot; cbn [vx vy vz]. nra. }
  rewrite !sq. destruct deg as [al be ga]. cbn [radians_of vscale vx vy vz] in *. rewrite (Rmult_comm al), (Rmult_comm be), (Rmult_comm ga).
  rewrite <- G, <- D, (Rmult_comm (norm (col0 F)) (norm (col2 F))), <- E. clear.
  lin.
Qed.
Lemma det_mt_l : forall F, det (mm (mt F) F) = det F * det F.
Proof. intros. lin. Qed.
Lemma vol_det : forall F len deg, has_shape F len (radians_of deg) -> u_vol (calcmatrices len deg) = Rabs (det F).
Proof.
  intros F len deg H. apply shape_gram in H. change (u_vol (calcmatrices len deg)) with (sqrt (det (u_dmt (calcmatrices len deg)))). rewrite <- H, det_mt_l. apply sqrt_Rsqr_abs.
Qed.
Definition stretch (s : R) (len : v3) : v3 := V3 (s * vx len) (s * vy len) (s * vz len).
Lemma vol_scale : forall s len deg, 0 <= s -> u_vol (calcmatrices (stretch s len) deg) = s ^ 3 * u_vol (calcmatrices len deg).
Proof.
  intros s len deg P. unfold calcmatrices, stretch. cbn [u_vol vx vy vz]. destruct len as [a b c]. cbn [vx vy vz].
  set (ca := cos (vx deg * (PI / 180))). set (cb := cos (vy deg * (PI / 180))). set (cg := cos (vz deg * (PI / 180))). clearbody ca cb cg.
  match goal with |- sqrt ?x = _ * sqrt ?y => replace x with ((s ^ 3) * (s ^ 3) * y) by (clear; lin) end.
  assert (0 <= s ^ 3) by (apply pow_le; assumption). rewrite sqrt_mult_alt by nra. now rewrite sqrt_square.
Qed.
