From Coq Require Import Reals List String Lra Psatz.
From Verif Require Import Prelude Lin TensorModel TensorSpec TensorProofs RotModel RotSpec.
Local Open Scope R_scope.

Ltac q_unfold := cbv beta iota zeta delta [rotMatOfQuat hmul qscale dot4 unitq negq qone qzero qw qx qy qz] in *.
Lemma rot_hmul : forall p q, rotMatOfQuat (hmul p q) = mm (rotMatOfQuat p) (rotMatOfQuat q).
Proof. intros [a b c d] [e f g h]. q_unfold. lin_unfold. f_equal; ring. Qed.
Lemma rot_gram : forall q, mm (mt (rotMatOfQuat q)) (rotMatOfQuat q) = mscale (dot4 q q * dot4 q q) mI.
Proof. intros [a b c d]. q_unfold. lin_unfold. f_equal; ring. Qed.
Lemma rot_det : forall q, det (rotMatOfQuat q) = dot4 q q * dot4 q q * dot4 q q.
Proof. intros [a b c d]. q_unfold. lin_unfold. ring. Qed.
Lemma unit_rot : forall q, unitq q -> rotation (rotMatOfQuat q).
Proof.
  intros q H. assert (D : dot4 q q = 1) by exact H. split.
  - unfold orthogonal. rewrite rot_gram, D. lin_unfold. f_equal; ring.
  - rewrite rot_det, D. ring.
Qed.
Lemma rot_scale : forall k q, rotMatOfQuat (qscale k q) = mscale (k * k) (rotMatOfQuat q).
Proof. intros k [a b c d]. q_unfold. lin_unfold. f_equal; ring. Qed.
Lemma rot_neg : forall q, rotMatOfQuat (negq q) = rotMatOfQuat q.
Proof. intros [a b c d]. q_unfold. f_equal; ring. Qed.
Lemma rot_conj : forall q, rotMatOfQuat (Q4 (qw q) (- qx q) (- qy q) (- qz q)) = mt (rotMatOfQuat q).
Proof. intros [a b c d]. q_unfold. lin_unfold. f_equal; ring. Qed.
Lemma rot_trace2 : forall p q, tr (mm (mt (rotMatOfQuat p)) (rotMatOfQuat q)) = 4 * (dot4 p q * dot4 p q) - dot4 p p * dot4 q q.
Proof. intros [a b c d] [e f g h]. q_unfold. lin_unfold. ring. Qed.
Lemma hmul_unit : forall p q, unitq p -> unitq q -> unitq (hmul p q).
Proof.
  intros p q P Q. assert (E : dot4 (hmul p q) (hmul p q) = dot4 p p * dot4 q q) by (destruct p, q; q_unfold; ring).
  unfold unitq. change (dot4 (hmul p q) (hmul p q) = 1). rewrite E. replace (dot4 p p) with 1 by (symmetry; exact P). replace (dot4 q q) with 1 by (symmetry; exact Q). ring.
Qed.
Lemma sq4_zero : forall x y z w : R, x * x + y * y + z * z + w * w = 0 -> x = 0 /\ y = 0 /\ z = 0 /\ w = 0.
Proof.
  intros x y z w H. pose proof (Rle_0_sqr x). pose proof (Rle_0_sqr y). pose proof (Rle_0_sqr z). pose proof (Rle_0_sqr w). unfold Rsqr in *.
  repeat split; apply Rsqr_0_uniq; unfold Rsqr; lra.
Qed.
Lemma dot_unit_pm : forall p q, unitq p -> unitq q -> dot4 p q * dot4 p q = 1 -> q = p \/ q = negq p.
Proof.
  intros p q P Q H. assert (E : (dot4 p q - 1) * (dot4 p q + 1) = 0) by lra. destruct p as [a b c d], q as [e f g h]. q_unfold.
  destruct (Rmult_integral _ _ E) as [G|G].
  - left. destruct (sq4_zero (e - a) (f - b) (g - c) (h - d)) as (? & ? & ? & ?); [lra|]. f_equal; lra.
  - right. destruct (sq4_zero (e + a) (f + b) (g + c) (h + d)) as (? & ? & ? & ?); [lra|]. f_equal; lra.
Qed.
Lemma rot_inj : forall p q, unitq p -> unitq q -> rotMatOfQuat p = rotMatOfQuat q -> q = p \/ q = negq p.
Proof.
  intros p q P Q H. apply dot_unit_pm; auto. pose proof (rot_trace2 p q) as T. rewrite H in T.
  destruct (unit_rot q Q) as [O _]. rewrite O in T. replace (dot4 p p) with 1 in T by (symmetry; exact P). replace (dot4 q q) with 1 in T by (symmetry; exact Q).
  unfold tr, mI in T. cbn [m00 m11 m22] in T. lra.
Qed.
Lemma rot_iff : forall p q, unitq p -> unitq q -> (rotMatOfQuat p = rotMatOfQuat q <-> (q = p \/ q = negq p)).
Proof. intros p q P Q. split; [now apply rot_inj|]. intros [-> | ->]; [reflexivity|]. symmetry. apply rot_neg. Qed.

Lemma right_mul : forall q h, mat4_apply (qprod_right h) q = hmul q h.
Proof. intros [a b c d] [e f g h]. cbv [mat4_apply qprod_right nth qw qx qy qz hmul]. f_equal; ring. Qed.
Lemma left_mul : forall q h, mat4_apply (qprod_left q) h = hmul q h.
Proof. intros [a b c d] [e f g h]. cbv [mat4_apply qprod_left nth qw qx qy qz hmul]. f_equal; ring. Qed.

Lemma ten_epsf_small : 0 < ten_epsf < / 2.
Proof.
  unfold ten_epsf. assert (2 ^ 5 <= 2 ^ 52) by (apply Rle_pow; [lra|repeat constructor]). assert (0 < 2 ^ 52) by (apply pow_lt; lra). split.
  - apply Rdiv_lt_0_compat; lra.
  - apply Rmult_lt_reg_r with (2 ^ 52); auto. unfold Rdiv. rewrite Rmult_assoc, Rinv_l by lra. lra.
Qed.
Lemma dot4_pos : forall q, 0 <= dot4 q q.
Proof. intros [a b c d]. q_unfold. nra. Qed.
Lemma norm4_sq : forall q, norm4 q * norm4 q = dot4 q q.
Proof. intros q. apply sqrt_sqrt, dot4_pos. Qed.
Lemma norm4_unit : forall q, unitq q -> norm4 q = 1.
Proof. intros q H. unfold norm4. replace (dot4 q q) with 1 by (symmetry; exact H). apply sqrt_1. Qed.
Lemma unit4_lemma : forall q, ten_epsf < norm4 q -> unitq (unitVector4 q) /\ q = qscale (norm4 q) (unitVector4 q).
Proof.
  intros q H. pose proof ten_epsf_small. unfold unitVector4. destruct (Rle_dec (norm4 q) ten_epsf); [lra|]. pose proof (norm4_sq q) as E.
  set (k := norm4 q) in *. clearbody k. destruct q as [a b c d]. q_unfold. split.
  - replace (a / k * (a / k) + b / k * (b / k) + c / k * (c / k) + d / k * (d / k)) with ((a * a + b * b + c * c + d * d) / (k * k)) by (field; lra).
    rewrite <- E. field. lra.
  - f_equal; field; lra.
Qed.
Lemma unit4_id : forall q, unitq q -> unitVector4 q = q.
Proof.
  intros q H. unfold unitVector4. rewrite (norm4_unit q H). pose proof ten_epsf_small. destruct (Rle_dec 1 ten_epsf); [lra|]. destruct q as [a b c d]. cbn [qw qx qy qz]. f_equal; field.
Qed.
Lemma neg_scale : forall q, qscale (-1) q = negq q.
Proof. intros [a b c d]. q_unfold. f_equal; ring. Qed.
Lemma neg_unit : forall q, unitq q -> unitq (negq q).
Proof. intros [a b c d] H. q_unfold. lra. Qed.
Lemma fix_lemma : forall q, ten_epsf < norm4 q -> unitq (fixQuat q) /\ 0 <= qw (fixQuat q) /\ (q = qscale (norm4 q) (fixQuat q) \/ q = qscale (norm4 q) (negq (fixQuat q))).
Proof.
  intros q H. destruct (unit4_lemma q H) as [U E]. unfold fixQuat. destruct (Rlt_dec (qw (unitVector4 q)) 0) as [L|L].
  - rewrite neg_scale. split; [now apply neg_unit|]. split; [unfold negq; cbn [qw]; lra|]. right. rewrite E at 1. f_equal. generalize (unitVector4 q). intros [a b c d]. q_unfold. f_equal; ring.
  - split; [assumption|]. split; [lra|]. now left.
Qed.
Lemma fix_unit : forall q, unitq q -> unitq (fixQuat q) /\ 0 <= qw (fixQuat q) /\ (fixQuat q = q \/ fixQuat q = negq q) /\ qw (fixQuat q) = Rabs (qw q).
Proof.
  intros q H. unfold fixQuat. rewrite (unit4_id q H). destruct (Rlt_dec (qw q) 0) as [L|L].
  - rewrite neg_scale. split; [now apply neg_unit|]. split; [unfold negq; cbn [qw]; lra|]. split; [now right|]. rewrite Rabs_left by assumption. reflexivity.
  - split; [assumption|]. split; [lra|]. split; [now left|]. rewrite Rabs_right by lra. reflexivity.
Qed.
Lemma fix_rot : forall q, unitq q -> rotMatOfQuat (fixQuat q) = rotMatOfQuat q.
Proof. intros q H. destruct (fix_unit q H) as (_ & _ & [E|E] & _); rewrite E; [reflexivity|apply rot_neg]. Qed.
Lemma inv_pre_unit : forall q, unitq q -> unitq (Q4 (-1 * qw q) (1 * qx q) (1 * qy q) (1 * qz q)).
Proof. intros [a b c d] H. q_unfold. lra. Qed.
Lemma inv_lemma : forall q, unitq q -> unitq (invertQuat q) /\ 0 <= qw (invertQuat q) /\ rotMatOfQuat (invertQuat q) = mt (rotMatOfQuat q).
Proof.
  intros q H. pose proof (inv_pre_unit q H) as P. destruct (fix_unit _ P) as (A & B & _ & _). split; [exact A|]. split; [exact B|].
  unfold invertQuat. rewrite (fix_rot _ P). rewrite <- rot_conj, <- rot_neg. destruct q as [a b c d]. q_unfold. f_equal; ring.
Qed.
Lemma inv_pm : forall q, unitq q -> invertQuat q = Q4 (qw q) (- qx q) (- qy q) (- qz q) \/ invertQuat q = Q4 (- qw q) (qx q) (qy q) (qz q).
Proof.
  intros q H. pose proof (inv_pre_unit q H) as P. destruct (fix_unit _ P) as (_ & _ & [E|E] & _); unfold invertQuat; rewrite E; [right|left]; unfold negq; cbn [qw qx qy qz]; f_equal; ring.
Qed.

(** ** product *)
Lemma sgn_unit : forall q, unitq q -> qw q <> 0 -> unitq (scipy_to_quat q) /\ 0 < qw (scipy_to_quat q) /\ rotMatOfQuat (scipy_to_quat q) = rotMatOfQuat q.
Proof.
  intros q H N. unfold scipy_to_quat, npsign. destruct (Rlt_dec (qw q) 0) as [L|L].
  - rewrite neg_scale. split; [now apply neg_unit|]. split; [unfold negq; cbn [qw]; lra|]. apply rot_neg.
  - destruct (Rlt_dec 0 (qw q)) as [L'|L']; [|lra]. replace (qscale 1 q) with q by (destruct q; q_unfold; f_equal; ring). repeat split; auto.
Qed.
Lemma sgn_zero : forall q, qw q = 0 -> scipy_to_quat q = qzero.
Proof. intros q H. unfold scipy_to_quat, npsign. rewrite H. destruct (Rlt_dec 0 0); [lra|]. destruct q. q_unfold. f_equal; ring. Qed.
Lemma to_scipy_unit : forall q, unitq q -> quat_to_scipy q = Ok q.
Proof. intros q H. unfold quat_to_scipy. rewrite (norm4_unit q H). destruct (Req_EM_T 1 0); [lra|]. f_equal. destruct q. q_unfold. f_equal; field. Qed.
Lemma product_lemma : forall q1 q2, unitq q1 -> unitq q2 -> qw (hmul q2 q1) <> 0 -> exists qp, quatProduct q1 q2 = Ok qp /\ unitq qp /\ 0 < qw qp /\
  rotMatOfQuat qp = mm (rotMatOfQuat q2) (rotMatOfQuat q1).
Proof.
  intros q1 q2 U1 U2 N. unfold quatProduct. rewrite !to_scipy_unit by assumption. cbn [rbind]. eexists. split; [reflexivity|].
  destruct (sgn_unit (hmul q2 q1)) as (A & B & C); auto. { now apply hmul_unit. } repeat split; auto. rewrite C. apply rot_hmul.
Qed.
Lemma product_zero : forall q1 q2, unitq q1 -> unitq q2 -> qw (hmul q2 q1) = 0 -> quatProduct q1 q2 = Ok qzero.
Proof. intros q1 q2 U1 U2 N. unfold quatProduct. rewrite !to_scipy_unit by assumption. cbn [rbind]. now rewrite sgn_zero. Qed.
(** the scalar part vanishes exactly for half turns *)
Lemma trace_unit : forall q, unitq q -> tr (rotMatOfQuat q) = 4 * (qw q * qw q) - 1.
Proof. intros [a b c d] H. q_unfold. lin_unfold. nra. Qed.
Lemma half_turn : forall q, unitq q -> (qw q = 0 <-> tr (rotMatOfQuat q) = -1).
Proof. intros q H. rewrite (trace_unit q H). split; intros E; [rewrite E; ring|]. assert (qw q * qw q = 0) by lra. now apply Rmult_integral in H0 as [|]. Qed.

(** ** every rotation has a quaternion *)
Section Exists.
Variables a b c d e f g h i : R.
Let M := M3 a b c d e f g h i.
Hypothesis rotM : rotation M.
Let Q00 := 1 + a + e + i. Let Q11 := 1 + a - e - i. Let Q22 := 1 - a + e - i. Let Q33 := 1 - a - e + i.
Let Q01 := h - f. Let Q02 := c - g. Let Q03 := d - b. Let Q12 := b + d. Let Q13 := c + g. Let Q23 := f + h.
Lemma q_ids :
  (Q01 * Q01 = Q00 * Q11 /\ Q02 * Q02 = Q00 * Q22 /\ Q03 * Q03 = Q00 * Q33 /\ Q12 * Q12 = Q11 * Q22 /\ Q13 * Q13 = Q11 * Q33 /\ Q23 * Q23 = Q22 * Q33) /\
  (Q01 * Q02 = Q00 * Q12 /\ Q01 * Q03 = Q00 * Q13 /\ Q02 * Q03 = Q00 * Q23) /\
  (Q01 * Q12 = Q11 * Q02 /\ Q01 * Q13 = Q11 * Q03 /\ Q12 * Q13 = Q11 * Q23) /\
  (Q02 * Q12 = Q22 * Q01 /\ Q02 * Q23 = Q22 * Q03 /\ Q12 * Q23 = Q22 * Q13) /\
  (Q03 * Q13 = Q33 * Q01 /\ Q03 * Q23 = Q33 * Q02 /\ Q13 * Q23 = Q33 * Q12).
Proof.
  pose proof (rot_adj M rotM) as AD. destruct rotM as [O _]. destruct (orth_eqs M O) as (C0 & C1 & C2 & D01 & D02 & D12).
  destruct (orth_eqs (mt M) (orth_mt M O)) as (R0 & R1 & R2 & E01 & E02 & E12). subst M.
  lin_unfold. injection AD as A1 A2 A3 A4 A5 A6 A7 A8 A9. unfold Q00, Q11, Q22, Q33, Q01, Q02, Q03, Q12, Q13, Q23. clear Q00 Q11 Q22 Q33 Q01 Q02 Q03 Q12 Q13 Q23 rotM O.
  repeat split; lra.
Qed.
Lemma quat_of_col : forall w x y z k, 0 < k -> w * w = Q00 / 4 -> x * x = Q11 / 4 -> y * y = Q22 / 4 -> z * z = Q33 / 4 ->
  w * x = Q01 / 4 -> w * y = Q02 / 4 -> w * z = Q03 / 4 -> x * y = Q12 / 4 -> x * z = Q13 / 4 -> y * z = Q23 / 4 ->
  unitq (Q4 w x y z) /\ rotMatOfQuat (Q4 w x y z) = M.
Proof.
  intros w x y z k K E0 E1 E2 E3 F1 F2 F3 G1 G2 G3. unfold M, Q00, Q11, Q22, Q33, Q01, Q02, Q03, Q12, Q13, Q23 in *. q_unfold. split; [lra|]. f_equal; lra.
Qed.
Lemma quat_exists : exists q, unitq q /\ rotMatOfQuat q = M.
Proof.
  destruct q_ids as ((I1 & I2 & I3 & I4 & I5 & I6) & (J1 & J2 & J3) & (K1 & K2 & K3) & (L1 & L2 & L3) & (N1 & N2 & N3)).
  assert (S : Q00 + Q11 + Q22 + Q33 = 4) by (unfold Q00, Q11, Q22, Q33; ring).
  assert (sq : forall t, 0 < t -> exists r, 0 < r /\ r * r = t /\ forall u v, (u / (2 * r)) * (v / (2 * r)) = (u * v) / (4 * t)).
  { intros t T. exists (sqrt t). pose proof (sqrt_lt_R0 t T) as P. split; [assumption|]. assert (Q : sqrt t * sqrt t = t) by (apply sqrt_sqrt; lra).
    split; [assumption|]. intros u v. rewrite <- Q at 3. field. lra. }
  assert (C : 0 < Q00 \/ 0 < Q11 \/ 0 < Q22 \/ 0 < Q33) by lra.
  clearbody Q00 Q11 Q22 Q33 Q01 Q02 Q03 Q12 Q13 Q23.
  destruct C as [C|[C|[C|C]]]; destruct (sq _ C) as (r & rp & rr & rm).
  - exists (Q4 (Q00 / (2 * r)) (Q01 / (2 * r)) (Q02 / (2 * r)) (Q03 / (2 * r))). apply (quat_of_col _ _ _ _ 1); try lra; rewrite rm, ?I1, ?I2, ?I3, ?J1, ?J2, ?J3; field; lra.
  - exists (Q4 (Q01 / (2 * r)) (Q11 / (2 * r)) (Q12 / (2 * r)) (Q13 / (2 * r))).
    apply (quat_of_col _ _ _ _ 1); try lra; rewrite rm, ?I1, ?I4, ?I5, ?K1, ?K2, ?K3; field; lra.
  - exists (Q4 (Q02 / (2 * r)) (Q12 / (2 * r)) (Q22 / (2 * r)) (Q23 / (2 * r))).
    apply (quat_of_col _ _ _ _ 1); try lra; rewrite rm, ?I2, ?I4, ?I6, ?L1, ?L2, ?L3; field; lra.
  - exists (Q4 (Q03 / (2 * r)) (Q13 / (2 * r)) (Q23 / (2 * r)) (Q33 / (2 * r))).
    apply (quat_of_col _ _ _ _ 1); try lra; rewrite rm, ?I3, ?I5, ?I6, ?N1, ?N2, ?N3; field; lra.
Qed.
End Exists.
Lemma rotation_has_quat : forall r, rotation r -> exists q, unitq q /\ rotMatOfQuat q = r.
Proof. intros [a b c d e f g h i] H. now apply quat_exists. Qed.
