(** Trigonometric facts used by the proofs about coordinate transforms. *)
From Coq Require Import Reals Lra Psatz ZArith Lia.
From Verif Require Import Prelude Lin XfModel XfSpec.
Local Open Scope R_scope.

Lemma two_pi_pos : 0 < two_pi. Proof. unfold two_pi. pose proof PI_RGT_0. lra. Qed.
Lemma two_pi_big : 6 < two_pi. Proof. unfold two_pi. pose proof PI2_3_2. lra. Qed.
Lemma sqrt_epsf_small : 0 < c_sqrt_epsf < / 1000.
Proof. unfold c_sqrt_epsf. split; lra. Qed.
Lemma epsf_small : 0 < c_epsf < / 1000.
Proof.
  unfold c_epsf. assert (1000 < 2 ^ 52). { apply Rlt_le_trans with (2 ^ 10). { lra. } apply Rle_pow; [lra|repeat constructor]. }
  split. { apply Rinv_0_lt_compat. lra. } apply Rinv_lt_contravar; lra.
Qed.
Lemma hyp_pos : forall x y, (x <> 0 \/ y <> 0) -> 0 < x * x + y * y.
Proof. intros x y [H|H]; pose proof (Rsqr_pos_lt _ H); unfold Rsqr in *; nra. Qed.
Lemma hyp_sqrt : forall x y, (x <> 0 \/ y <> 0) -> 0 < sqrt (x * x + y * y).
Proof. intros. now apply sqrt_lt_R0, hyp_pos. Qed.
Lemma cos_atan_hyp : forall x y, 0 < x -> cos (atan (y / x)) = x / sqrt (x * x + y * y) /\ sin (atan (y / x)) = y / sqrt (x * x + y * y).
Proof.
  intros x y H. assert (S : 0 < sqrt (1 + (y / x)²)) by (apply sqrt_lt_R0; pose proof (Rle_0_sqr (y / x)); lra).
  assert (E : sqrt (x * x + y * y) = x * sqrt (1 + (y / x)²)).
  { replace (x * x + y * y) with (x² * (1 + (y / x)²)) by (unfold Rsqr; field; lra). rewrite sqrt_mult_alt by apply Rle_0_sqr. rewrite sqrt_Rsqr; lra. }
  rewrite cos_atan, sin_atan, E. split; field; lra.
Qed.
Lemma atan2_polar : forall x y, (x <> 0 \/ y <> 0) -> let r := sqrt (x * x + y * y) in
  cos (atan2 y x) = x / r /\ sin (atan2 y x) = y / r.
Proof.
  intros x y H. pose proof (hyp_sqrt x y H) as P. cbv zeta. unfold atan2.
  destruct (Rlt_dec 0 x) as [A|A]. { now apply cos_atan_hyp. }
  destruct (Rlt_dec x 0) as [B|B].
  { destruct (cos_atan_hyp (- x) (- y)) as [C S]; [lra|]. replace (- y / - x) with (y / x) in C, S by (field; lra).
    replace (- x * - x + - y * - y) with (x * x + y * y) in C, S by ring.
    destruct (Rle_dec 0 y).
    - rewrite neg_cos, neg_sin, C, S. split; field; lra.
    - replace (atan (y / x) - PI) with (- (PI - atan (y / x))) by ring. rewrite cos_neg, sin_neg.
      replace (PI - atan (y / x)) with (- atan (y / x) + PI) by ring. rewrite neg_cos, neg_sin, cos_neg, sin_neg, C, S. split; field; lra. }
  assert (Z : x = 0) by lra. subst x. replace (0 * 0 + y * y) with (y * y) in * by ring.
  destruct (Rlt_dec 0 y) as [D|D].
  - rewrite sqrt_square in * by lra. rewrite cos_PI2, sin_PI2. split; field; lra.
  - destruct (Rlt_dec y 0) as [F|F]; [|exfalso; destruct H; lra].
    replace (y * y) with (- y * - y) in * by ring. rewrite sqrt_square in * by lra. rewrite cos_neg, sin_neg, cos_PI2, sin_PI2. split; field; lra.
Qed.
Lemma atan2_range : forall x y, - PI < atan2 y x <= PI.
Proof.
  intros x y. unfold atan2. pose proof (atan_bound (y / x)) as [L U]. pose proof PI_RGT_0.
  destruct (Rlt_dec 0 x); [lra|]. destruct (Rlt_dec x 0) as [B|B].
  - destruct (Rle_dec 0 y) as [C|C].
    + assert (atan (y / x) <= 0). { rewrite <- atan_0. destruct C as [C|C].
        - left. apply atan_increasing. apply Rmult_lt_reg_r with (- x). { lra. } replace (y / x * - x) with (- y) by (field; lra). lra.
        - right. subst y. f_equal. field. lra. } lra.
    + assert (0 < atan (y / x)). { rewrite <- atan_0. apply atan_increasing. apply Rmult_lt_reg_r with (- x). { lra. } replace (y / x * - x) with (- y) by (field; lra). lra. } lra.
  - destruct (Rlt_dec 0 y); [lra|]. destruct (Rlt_dec y 0); lra.
Qed.
(** equal sine and cosine: equal up to whole turns *)
Lemma cos_one : forall x, cos x = 1 -> exists k : Z, x = IZR k * (2 * PI).
Proof.
  intros x H. assert (S : sin (x / 2) = 0).
  { replace x with (2 * (x / 2)) in H by field. rewrite cos_2a_sin in H. nra. }
  destruct (sin_eq_0_0 _ S) as [k K]. exists k. lra.
Qed.
Lemma same_turn : forall a b, cos a = cos b -> sin a = sin b -> same_dir_angle a b.
Proof.
  intros a b C S. destruct (cos_one (a - b)) as [k K].
  { rewrite cos_minus, C, S. pose proof (sin2_cos2 b). unfold Rsqr in *. lra. }
  exists k. lra.
Qed.
Lemma turn_cos : forall a (k : Z), cos (a + IZR k * (2 * PI)) = cos a.
Proof.
  intros a k. destruct (Z_lt_le_dec k 0) as [H|H].
  - replace a with (a + IZR k * (2 * PI) + 2 * INR (Z.to_nat (- k)) * PI) at 2. { now rewrite cos_period. }
    rewrite INR_IZR_INZ, Z2Nat.id by lia. rewrite opp_IZR. ring.
  - replace (a + IZR k * (2 * PI)) with (a + 2 * INR (Z.to_nat k) * PI). { now rewrite cos_period. }
    rewrite INR_IZR_INZ, Z2Nat.id by lia. ring.
Qed.
Lemma turn_sin : forall a (k : Z), sin (a + IZR k * (2 * PI)) = sin a.
Proof.
  intros a k. destruct (Z_lt_le_dec k 0) as [H|H].
  - replace a with (a + IZR k * (2 * PI) + 2 * INR (Z.to_nat (- k)) * PI) at 2. { now rewrite sin_period. }
    rewrite INR_IZR_INZ, Z2Nat.id by lia. rewrite opp_IZR. ring.
  - replace (a + IZR k * (2 * PI)) with (a + 2 * INR (Z.to_nat k) * PI). { now rewrite sin_period. }
    rewrite INR_IZR_INZ, Z2Nat.id by lia. ring.
Qed.
Lemma range_unique : forall a b, - PI < a <= PI -> - PI < b <= PI -> same_dir_angle a b -> a = b.
Proof.
  intros a b A B [k K]. pose proof PI_RGT_0. assert (- 1 < IZR k < 1).
  { split; apply Rmult_lt_reg_r with (2 * PI); lra. }
  assert (k = 0%Z). { destruct H0 as [L U]. apply lt_IZR in L, U. lia. } subst k. lra.
Qed.
Lemma atan2_of : forall r h, 0 < r -> - PI < h <= PI -> atan2 (r * sin h) (r * cos h) = h.
Proof.
  intros r h P H. pose proof (sin2_cos2 h) as T. unfold Rsqr in T.
  assert (N : r * cos h <> 0 \/ r * sin h <> 0).
  { destruct (Req_dec (cos h) 0) as [E|E]; [|left; nra]. right. assert (sin h <> 0) by (intros Q; rewrite E, Q in T; lra). intros Q. apply Rmult_integral in Q as [Q|Q]; lra. }
  destruct (atan2_polar _ _ N) as [C S].
  assert (Q : sqrt (r * cos h * (r * cos h) + r * sin h * (r * sin h)) = r).
  { replace (r * cos h * (r * cos h) + r * sin h * (r * sin h)) with (r * r) by nra. apply sqrt_square. lra. }
  rewrite Q in *. apply range_unique; [apply atan2_range|assumption|]. apply same_turn.
  - rewrite C. field. lra.
  - rewrite S. field. lra.
Qed.
(** the harmonic equation a sin x + b cos x = c *)
Lemma harmonic : forall a b c x, sqrt (a * a + b * b) <> 0 ->
  (a * sin x + b * cos x = c <-> sin (x + atan2 b a) = c / sqrt (a * a + b * b)).
Proof.
  intros a b c x N. assert (H : a <> 0 \/ b <> 0).
  { destruct (Req_dec a 0) as [->|]; [|now left]. right. intros ->. apply N. replace (0 * 0 + 0 * 0) with 0 by ring. apply sqrt_0. }
  destruct (atan2_polar a b H) as [C S]. rewrite sin_plus, C, S. set (r := sqrt (a * a + b * b)) in *.
  split; intros E.
  - rewrite <- E. field. assumption.
  - apply (f_equal (fun z => z * r)) in E. replace (c / r * r) with c in E by (field; assumption). rewrite <- E. field. assumption.
Qed.
Lemma sin_solutions : forall v y, -1 <= v <= 1 -> (sin y = v <-> same_dir_angle y (asin v) \/ same_dir_angle y (PI - asin v)).
Proof.
  intros v y B. pose proof (sin_asin v B) as SA. split.
  - intros E. assert (CC : cos y * cos y = cos (asin v) * cos (asin v)).
    { pose proof (sin2_cos2 y). pose proof (sin2_cos2 (asin v)). unfold Rsqr in *. rewrite E in *. rewrite SA in *. lra. }
    assert (D : (cos y - cos (asin v)) * (cos y + cos (asin v)) = 0) by lra.
    apply Rmult_integral in D as [D|D].
    + left. apply same_turn; [lra|now rewrite SA].
    + right. apply same_turn. { replace (PI - asin v) with (- asin v + PI) by ring. rewrite neg_cos, cos_neg. lra. } rewrite <- sin_PI_x in SA. now rewrite SA.
  - intros [[k ->]|[k ->]]; rewrite turn_sin; [assumption|]. now rewrite sin_PI_x.
Qed.
