(** The cubochoric map: surfaces of cubes to spheres, oddness, unit axes. *)
From Coq Require Import Reals List ZArith Lra Psatz.
From Verif Require Import Prelude Lin TensorModel TensorSpec TensorProofs RotModel RotSpec RotProofs RotProofs2 RotGroups RfzModel RfzSpec RfzProofs.
Local Open Scope R_scope.

Lemma cos_low : forall x, 1 - x * x / 2 <= cos x.
Proof.
  intros x. replace x with (2 * (x / 2)) at 3 by field. rewrite cos_2a_sin. 
  assert (H : sin (x / 2) * sin (x / 2) <= (x / 2) * (x / 2)).
  { assert (P : forall y, 0 <= y -> sin y * sin y <= y * y).
    { intros y Y. destruct Y as [Y|Y]; [|rewrite <- Y, sin_0; lra]. pose proof (sin_lt_x y Y) as U. destruct (Rle_dec y PI) as [L|L].
      - pose proof (sin_ge_0 y ltac:(lra) L). nra.
      - pose proof (SIN_bound y). pose proof PI2_3_2. nra. }
    destruct (Rle_dec 0 (x / 2)) as [L|L]; [now apply P|]. pose proof (P (- (x / 2)) ltac:(lra)) as Q. rewrite sin_neg in Q. lra. }
  lra.
Qed.
Lemma angle_small : forall y x, Rabs y <= Rabs x -> x <> 0 -> 94 / 100 <= cos (PI / 12 * y / x) <= 1.
Proof.
  intros y x H X. split; [|apply COS_bound]. eapply Rle_trans; [|apply cos_low].
  set (a := PI / 12 * y / x). assert (A : a * a <= 1 / 9); [|lra].
  replace (a * a) with ((PI / 12) * (PI / 12) * ((y * y) / (x * x))) by (unfold a; field; exact X).
  pose proof PI_4. pose proof PI_RGT_0. assert (Q : (y * y) / (x * x) <= 1).
  { apply Rmult_le_reg_r with (x * x); [nra|]. unfold Rdiv. rewrite Rmult_assoc, Rinv_l by nra. rewrite Rmult_1_r, Rmult_1_l.
    pose proof (Rsqr_le_abs_1 _ _ H) as R1. unfold Rsqr in R1. exact R1. }
  assert (0 <= (y * y) / (x * x)) by (apply Rmult_le_pos; [nra|apply Rlt_le, Rinv_0_lt_compat; nra]). nra.
Qed.
(** the planar part is not too long *)
Lemma plane_len : forall x z c s, s * s + c * c = 1 -> 94 / 100 <= c <= 1 -> Rabs x <= Rabs z ->
  let q := prek * x / sqrt (sqrt 2 - c) in
  0 <= ((sqrt 2 * c - 1) * q) ^ 2 + (sqrt 2 * s * q) ^ 2 <= 3 * (z * z).
Proof.
  intros x z c s SC C XZ q. pose proof s2_close as S2c. pose proof s2 as SS2. split; [apply Rplus_le_le_0_compat; apply pow2_ge_0|].
  assert (P : 0 < sqrt 2 - c) by lra. assert (QQ : q * q = prek * prek * (x * x) / (sqrt 2 - c)).
  { unfold q. replace (prek * x / sqrt (sqrt 2 - c) * (prek * x / sqrt (sqrt 2 - c))) with (prek * prek * (x * x) / (sqrt (sqrt 2 - c) * sqrt (sqrt 2 - c))) by (field; intros E; apply sqrt_eq_0 in E; lra).
    now rewrite sqrt_sqrt by lra. }
  replace (((sqrt 2 * c - 1) * q) ^ 2 + (sqrt 2 * s * q) ^ 2) with (((sqrt 2 * sqrt 2) * (s * s + c * c) - 2 * sqrt 2 * c + 1) * (q * q)) by ring.
  rewrite SC, QQ. rewrite SS2. assert (XX : x * x <= z * z) by (pose proof (Rsqr_le_abs_1 _ _ XZ) as R1; unfold Rsqr in R1; exact R1).
  assert (K : 0 <= 2 * 1 - 2 * sqrt 2 * c + 1 <= sqrt 2 - c) by (split; nra).
  assert (I : (2 * 1 - 2 * sqrt 2 * c + 1) / (sqrt 2 - c) <= 1) by (apply Rmult_le_reg_r with (sqrt 2 - c); [exact P|]; unfold Rdiv; rewrite Rmult_assoc, Rinv_l by lra; lra).
  assert (I0 : 0 <= (2 * 1 - 2 * sqrt 2 * c + 1) / (sqrt 2 - c)) by (apply Rmult_le_pos; [lra|apply Rlt_le, Rinv_0_lt_compat; lra]).
  replace ((2 * 1 - 2 * sqrt 2 * c + 1) * (prek * prek * (x * x) / (sqrt 2 - c))) with ((2 * 1 - 2 * sqrt 2 * c + 1) / (sqrt 2 - c) * (prek * prek * (x * x))) by (field; lra).
  assert (PK : 0 <= prek * prek <= 3) by (assert (PK0 : 0 <= prek <= 17 / 10) by (unfold prek; lra); split; nra). assert (0 <= x * x) by nra. assert (0 <= prek * prek * (x * x) <= 3 * (z * z)) by (split; nra). nra.
Qed.
Lemma sphere_id : forall C z, 0 <= C -> PI * C <= 24 * (z * z) -> z <> 0 -> forall T1 T2, T1 ^ 2 + T2 ^ 2 = C ->
  let q := sqrt (1 - PI * C / (24 * z ^ 2)) in let c := sqrt PI * C / sqrt 24 / z in
  norm2 (V3 (T1 * q) (T2 * q) (pref * z - c)) = (pref * z) * (pref * z).
Proof.
  intros C z C0 CB Z T1 T2 TT q c. pose proof PI_RGT_0 as PP. assert (ZZ : 0 < z * z) by nra.
  assert (QQ : q * q = 1 - PI * C / (24 * z ^ 2)).
  { unfold q. apply sqrt_sqrt. replace (PI * C / (24 * z ^ 2)) with (PI * C * / (24 * (z * z))) by (field; exact Z).
    assert (PI * C * / (24 * (z * z)) <= 24 * (z * z) * / (24 * (z * z))) by (apply Rmult_le_compat_r; [apply Rlt_le, Rinv_0_lt_compat; lra|exact CB]).
    rewrite Rinv_r in H by nra. lra. }
  assert (R24 : 0 < sqrt 24) by (apply sqrt_lt_R0; lra).
  assert (PC : pref * c = C / (2 * z)).
  { unfold c, pref. assert (E : sqrt (6 / PI) * sqrt PI = sqrt 24 / 2).
    { rewrite <- sqrt_mult; [|apply Rmult_le_pos; [lra|apply Rlt_le, Rinv_0_lt_compat; lra]|lra]. replace (6 / PI * PI) with (24 * (/ 2 * / 2)) by (field; lra).
      rewrite sqrt_mult, sqrt_square by lra. field. }
    transitivity ((sqrt (6 / PI) * sqrt PI) * (C / sqrt 24 / z)); [field; repeat split; first [exact Z|lra]|]. rewrite E. field. repeat split; first [exact Z|lra]. }
  assert (CC : c * c = PI * C * C / (24 * z ^ 2)).
  { unfold c. transitivity ((sqrt PI * sqrt PI) * (C * C) / ((sqrt 24 * sqrt 24) * (z * z))); [field; repeat split; first [exact Z|lra]|]. rewrite !sqrt_sqrt by lra. field. exact Z. }
  unfold norm2, dot. cbn [vx vy vz]. transitivity ((T1 ^ 2 + T2 ^ 2) * (q * q) + (pref * z) * (pref * z) - 2 * z * (pref * c) + c * c); [ring|]. rewrite TT, QQ, PC, CC. field. exact Z.
Qed.
Lemma lambert_norm : forall v, Rabs (vx v) <= Rabs (vz v) -> Rabs (vy v) <= Rabs (vz v) -> vz v <> 0 -> norm2 (lambert v) = (pref * vz v) * (pref * vz v).
Proof.
  intros v X Y Z. unfold lambert. destruct (Rlt_dec _ tol8) as [L|L]; [unfold norm2, dot; cbn [vx vy vz]; ring|].
  destruct (Rle_dec (Rabs (vy v)) (Rabs (vx v))) as [M|M].
  - assert (NX : vx v <> 0) by (intros E; apply L; rewrite Rmax_left by exact M; rewrite E, Rabs_R0; apply tol8_pos).
    pose proof (angle_small _ _ M NX) as C. set (a := PI / 12 * vy v / vx v) in *. pose proof (sin2_cos2 a) as SC. unfold Rsqr in SC.
    destruct (plane_len (vx v) (vz v) (cos a) (sin a) SC C X) as (P0 & P1). apply sphere_id; [exact P0| |exact Z|reflexivity].
    pose proof PI_4. pose proof PI_RGT_0. set (k := _ + _) in *. nra.
  - assert (NY : vy v <> 0) by (intros E; apply M; rewrite E, Rabs_R0; apply Rabs_pos).
    assert (M' : Rabs (vx v) <= Rabs (vy v)) by lra.
    pose proof (angle_small _ _ M' NY) as C. set (a := PI / 12 * vx v / vy v) in *. pose proof (sin2_cos2 a) as SC. unfold Rsqr in SC.
    destruct (plane_len (vy v) (vz v) (cos a) (sin a) SC C Y) as (P0 & P1). rewrite Rplus_comm in P0, P1. apply sphere_id; [exact P0| |exact Z|reflexivity].
    pose proof PI_4. pose proof PI_RGT_0. set (k := _ + _) in *. nra.
Qed.

(** ** the constants *)
Lemma rp_mult : forall a b x, 0 < a -> 0 < b -> Rpower (a * b) x = Rpower a x * Rpower b x. Proof. intros. symmetry. now apply Rpower_mult_distr. Qed.
Lemma rp_pos : forall a x, 0 < Rpower a x. Proof. intros. apply exp_pos. Qed.
Lemma sc_val : sc = Rpower (PI / 6) (1 / 6).
Proof.
  pose proof PI_RGT_0. unfold sc, Avol, cuA. replace (Rpower (PI / 6) (1 / 6)) with (Rpower PI (1 / 6) * Rpower (/ 6) (1 / 6)) by (rewrite <- rp_mult by lra; reflexivity).
  replace (Rpower (/ 6) (1 / 6)) with (/ Rpower 6 (1 / 6)) by (rewrite <- Rpower_Ropp; unfold Rpower; f_equal; rewrite ln_Rinv by lra; ring).
  replace (5 / 6) with (1 / 6 + 2 / 3) by field. rewrite Rpower_plus. pose proof (rp_pos PI (2 / 3)). pose proof (rp_pos 6 (1 / 6)). field. lra.
Qed.
Lemma sc_pos : 0 < sc. Proof. rewrite sc_val. apply rp_pos. Qed.
Lemma sc_half : / 2 <= sc.
Proof.
  rewrite sc_val. pose proof PI2_3_2. pose proof PI_RGT_0. replace (/ 2) with (Rpower (/ 64) (1 / 6)).
  - unfold Rpower. assert (L : ln (/ 64) < ln (PI / 6)) by (apply ln_increasing; lra). left. apply exp_increasing. nra.
  - replace (/ 64) with (Rpower (/ 2) 6) by (replace 6 with (INR 6) by (cbn; ring); rewrite Rpower_pow by lra; field). rewrite Rpower_mult. replace (6 * (1 / 6)) with 1 by field. apply Rpower_1. lra.
Qed.
Lemma radius_val : pref * sc = Rpower (3 * PI / 4) (1 / 3) / cuA_2.
Proof.
  pose proof PI_RGT_0. rewrite sc_val. unfold pref, cuA_2. rewrite <- Rpower_sqrt by (apply Rmult_lt_0_compat; [lra|apply Rinv_0_lt_compat; lra]).
  replace (3 * PI / 4) with ((6 * PI) * / 8) by field. rewrite (rp_mult (6 * PI)) by lra. rewrite (rp_mult 6 PI) by lra.
  replace (Rpower (/ 8) (1 / 3)) with (/ 2).
  2:{ replace (/ 8) with (Rpower (/ 2) 3) by (replace 3 with (INR 3) by (cbn; ring); rewrite Rpower_pow by lra; field). rewrite Rpower_mult. replace (3 * (1 / 3)) with 1 by field. rewrite Rpower_1; lra. }
  assert (D : forall a b x, 0 < a -> 0 < b -> Rpower (a / b) x = Rpower a x * Rpower b (- x)).
  { intros a b x A B. unfold Rdiv. rewrite rp_mult by (auto; now apply Rinv_0_lt_compat). f_equal. unfold Rpower. f_equal. rewrite ln_Rinv by exact B. ring. }
  rewrite !D by lra. transitivity ((Rpower 6 (/ 2) * Rpower 6 (- (1 / 6))) * (Rpower PI (- / 2) * Rpower PI (1 / 6))); [ring|]. rewrite <- !Rpower_plus.
  replace (/ 2 + - (1 / 6)) with (1 / 3) by field. replace (- / 2 + 1 / 6) with (1 / 3 + - (2 / 3)) by field. rewrite Rpower_plus, (Rpower_Ropp PI (2 / 3)). pose proof (rp_pos PI (2 / 3)). field. lra.
Qed.

(** ** the map *)
Lemma maxabs_shell : forall v m, shell v m <-> vmaxabs v = m.
Proof.
  intros v m. unfold shell, vmaxabs. split.
  - intros (X & Y & Z & E). apply Rle_antisym; [repeat apply Rmax_lub; assumption|].
    pose proof (Rmax_l (Rmax (Rabs (vx v)) (Rabs (vy v))) (Rabs (vz v))). pose proof (Rmax_r (Rmax (Rabs (vx v)) (Rabs (vy v))) (Rabs (vz v))). pose proof (Rmax_l (Rabs (vx v)) (Rabs (vy v))). pose proof (Rmax_r (Rabs (vx v)) (Rabs (vy v))).
    destruct E as [E|[E|E]]; rewrite <- E; lra.
  - intros <-. unfold Rmax. destruct (Rle_dec (Rabs (vx v)) (Rabs (vy v))); destruct (Rle_dec _ (Rabs (vz v))); repeat split; try lra; auto.
Qed.
Lemma pyramid_spec : forall v, exists p, getPyramid v = p /\
  ((p = 1 \/ p = 2) /\ vmaxabs v = Rabs (vz v) \/ (p = 3 \/ p = 4) /\ vmaxabs v = Rabs (vx v) \/ (p = 5 \/ p = 6) /\ vmaxabs v = Rabs (vy v))%nat.
Proof.
  intros v. eexists; split; [reflexivity|]. unfold getPyramid.
  assert (A : forall a, - Rabs a <= a <= Rabs a) by (intros a; apply abs_le, Rle_refl).
  pose proof (A (vx v)) as AX. pose proof (A (vy v)) as AY. pose proof (A (vz v)) as AZ.
  pose proof (abs_split (vx v)) as SX. pose proof (abs_split (vy v)) as SY. pose proof (abs_split (vz v)) as SZ.
  assert (MZ : Rabs (vx v) <= Rabs (vz v) -> Rabs (vy v) <= Rabs (vz v) -> vmaxabs v = Rabs (vz v)) by (intros; apply maxabs_shell; repeat split; auto; lra).
  assert (MX : Rabs (vz v) <= Rabs (vx v) -> Rabs (vy v) <= Rabs (vx v) -> vmaxabs v = Rabs (vx v)) by (intros; apply maxabs_shell; repeat split; auto; lra).
  assert (MY : Rabs (vx v) <= Rabs (vy v) -> Rabs (vz v) <= Rabs (vy v) -> vmaxabs v = Rabs (vy v)) by (intros; apply maxabs_shell; repeat split; auto; lra).
  repeat match goal with |- context [if ?c then _ else _] => destruct c eqn:? end; repeat match goal with H : (_ && _)%bool = true |- _ => apply andb_true_iff in H; rewrite !rleb_true in H; destruct H end.
  - left. split; [auto|apply MZ; lra].
  - left. split; [auto|apply MZ; lra].
  - right. left. split; [auto|apply MX; lra].
  - right. left. split; [auto|apply MX; lra].
  - right. right. split; [auto|apply MY; lra].
  - right. right. split; [auto|apply MY; lra].
  - exfalso. repeat match goal with H : (_ && _)%bool = false |- _ => apply andb_false_iff in H; unfold rleb in H end.
    repeat match goal with H : _ \/ _ |- _ => destruct H end; repeat match goal with H : (if Rle_dec ?a ?b then true else false) = false |- _ => destruct (Rle_dec a b); [discriminate|clear H] end; lra.
Qed.
