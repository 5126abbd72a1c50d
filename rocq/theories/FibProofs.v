(** Lemmas about orientation fibers. *)
From Coq Require Import Reals List ZArith Lra Lia Psatz.
From Verif Require Import Prelude Lin TensorModel TensorProofs RotModel RotSpec RotProofs RotProofs2 XfModel XfSpec XfTrig OrbModel OrbProofs FibModel.
Import ListNotations.
Local Open Scope R_scope.
Local Notation length := List.length.

Lemma unitVector_dir : forall v, ten_epsf < norm v -> unitVector v = direction v /\ norm2 (direction v) = 1.
Proof.
  intros v H. pose proof (unit_vector_norm v H) as [N _].
  assert (E : unitVector v = direction v).
  { unfold unitVector, direction. destruct (Rle_dec (norm v) ten_epsf) as [L|_]; [lra|]. unfold vscale, Rdiv. f_equal; ring. }
  split; [exact E|]. rewrite <- E, <- norm_sq, N. ring.
Qed.
Lemma unit_again : forall v, norm2 v = 1 -> unitVector v = v.
Proof.
  intros v N. pose proof (norm2_norm1 v N) as N1. unfold unitVector. pose proof ten_epsf_small. rewrite N1.
  destruct (Rle_dec 1 ten_epsf) as [L|_]; [lra|]. destruct v as [a b c]. cbn [vx vy vz]. f_equal; field.
Qed.
Lemma sqrt_epsf_pos : 0 < sqrt_epsf < / 1000.
Proof. unfold sqrt_epsf. split; [apply Rinv_0_lt_compat, pow_lt; lra|]. apply Rinv_lt_contravar; [|]; simpl; lra. Qed.

(** the half turn about n *)
Definition flipped (n x : v3) : v3 := vsub (vscale (2 * dot n x) n) x.
Lemma half_turn_q : forall n x, norm2 n = 1 -> mv (rotMatOfQuat (Q4 0 (vx n) (vy n) (vz n))) x = flipped n x.
Proof.
  intros [a b c] [x y z] N. unfold flipped, norm2, dot in *. cbn [vx vy vz] in *. unfold rotMatOfQuat, mv, row0, row1, row2, dot, vsub, vscale.
  cbn [vx vy vz qw qx qy qz m00 m01 m02 m10 m11 m12 m20 m21 m22]. assert (A : a * a = 1 - b * b - c * c) by lra. f_equal; ring [A].
Qed.
Section One.
Variable nullspace : v3 -> v3.
Hypothesis NS : forall c, norm2 c = 1 -> norm2 (nullspace c) = 1 /\ dot (nullspace c) c = 0.
Variables (c s : v3).
Hypothesis (UC : norm2 c = 1) (US : norm2 s = 1).
Let ax := fiber_axis nullspace c s.
Lemma sum_norm : norm2 (vadd s c) = 2 * (1 + dot s c).
Proof. revert UC US. generalize c s. clear. intros [a b e] [x y z]. lin_unfold. intros. lra. Qed.
Lemma axis_unit : norm2 ax = 1.
Proof.
  unfold ax, fiber_axis. destruct (Rlt_dec _ _) as [L|L]; [|now apply NS]. pose proof sqrt_epsf_pos. set (n := norm (vadd s c)) in *.
  assert (NN : n * n = norm2 (vadd s c)) by apply norm_sq. assert (n <> 0) by lra.
  transitivity (/ n * / n * norm2 (vadd s c)); [generalize (vadd s c) (/ n); clear; lin|]. rewrite <- NN. field. assumption.
Qed.
Lemma axis_exact : sqrt_epsf < norm (vadd s c) -> flipped ax c = s.
Proof.
  intros L. unfold ax, fiber_axis. destruct (Rlt_dec _ _) as [_|K]; [|contradiction]. pose proof sqrt_epsf_pos. set (n := norm (vadd s c)) in *.
  assert (NN : n * n = 2 * (1 + dot s c)) by (rewrite <- sum_norm; apply norm_sq). assert (Z : n <> 0) by lra. clearbody n.
  assert (D : dot (vscale (/ n) (vadd s c)) c = (1 + dot s c) / n).
  { revert UC. generalize c s. clear - Z. intros [a b e] [x y z]. lin_unfold. intros. unfold Rdiv. replace (1 + (x * a + y * b + z * e)) with (x * a + y * b + z * e + (a * a + b * b + e * e)) by lra. ring. }
  assert (F : 2 * ((1 + dot s c) / n) * / n = 1).
  { unfold Rdiv. replace (2 * ((1 + dot s c) * / n) * / n) with (2 * (1 + dot s c) * (/ n * / n)) by ring. rewrite <- NN. field. exact Z. }
  unfold flipped. rewrite D. clear D. revert F. generalize (2 * ((1 + dot s c) / n)) (/ n). generalize c s. clear. intros [a b e] [x y z] k i F.
  lin_unfold. assert (G : k * i = 1) by lra. f_equal; ring [G].
Qed.
Lemma axis_opposite : norm (vadd s c) <= sqrt_epsf -> flipped ax c = vneg c.
Proof.
  intros L. unfold ax, fiber_axis. destruct (Rlt_dec _ _) as [K|_]; [lra|]. destruct (NS c UC) as [_ O]. unfold flipped. rewrite O.
  generalize (nullspace c) c. clear. intros [a b e] [x y z]. lin_unfold. f_equal; ring.
Qed.
Lemma fiber_nth : forall ndiv j, (j < ndiv)%nat -> nth_error (fiber_quats nullspace c s ndiv) j =
  Some (hmul (Q4 0 (vx ax) (vy ax) (vz ax)) (sp_from_rotvec (vscale (INR j * (2 * PI / INR ndiv)) c))).
Proof.
  intros ndiv j L. unfold fiber_quats. rewrite (unit_again c UC). set (f := fun i => _). rewrite (map_nth_error f j (seq 0 ndiv) (d := j)).
  - unfold f. now rewrite right_mul.
  - rewrite (nth_error_nth' _ 0%nat) by now rewrite seq_length. now rewrite seq_nth.
Qed.
Lemma member_unit : forall t, unitq (hmul (Q4 0 (vx ax) (vy ax) (vz ax)) (sp_from_rotvec (vscale t c))).
Proof.
  intros t. apply hmul_unit; [unfold unitq; cbn [qw qx qy qz]; pose proof axis_unit as A; unfold norm2, dot in A; lra|].
  rewrite (rotvec_quat c t UC). now apply trig_unit.
Qed.
Lemma member_acts : forall t x, mv (rotMatOfQuat (hmul (Q4 0 (vx ax) (vy ax) (vz ax)) (sp_from_rotvec (vscale t c)))) x = flipped ax (rotated c t x).
Proof. intros t x. rewrite rot_hmul, mv_mm, (rotvec_quat c t UC), (rodrigues_quat c t x UC). apply half_turn_q, axis_unit. Qed.
Lemma axis_fixed : forall t, rotated c t c = c.
Proof.
  intros t. unfold rotated. unfold norm2 in UC. rewrite UC. generalize c. clear. intros [a b e]. lin_unfold. f_equal; ring.
Qed.
End One.

(** a rotation that keeps the unit vector c is a turn about c *)
Lemma keeps_axis : forall r c, rotation r -> norm2 c = 1 -> mv r c = c -> exists t, forall x, mv r x = rotated c t x.
Proof.
  intros r c R UC K. destruct (rotation_has_quat r R) as (q & U & E). subst r. destruct q as [w a b d]. destruct c as [x y z].
  unfold unitq in U. cbn [qw qx qy qz] in U. unfold norm2, dot in UC. cbn [vx vy vz] in UC.
  unfold rotMatOfQuat, mv, row0, row1, row2, dot in K. cbn [vx vy vz qw qx qy qz m00 m01 m02 m10 m11 m12 m20 m21 m22] in K. injection K as K1 K2 K3.
  set (u1 := b * z - d * y). set (u2 := d * x - a * z). set (u3 := a * y - b * x).
  assert (H1 : w * u1 + (b * u3 - d * u2) = 0).
  { assert (P : 2 * (w * u1 + (b * u3 - d * u2)) = x - (w * w + a * a + b * b + d * d) * x) by (rewrite <- K1 at 1; unfold u1, u2, u3; ring). rewrite U in P. lra. }
  assert (H2 : w * u2 + (d * u1 - a * u3) = 0).
  { assert (P : 2 * (w * u2 + (d * u1 - a * u3)) = y - (w * w + a * a + b * b + d * d) * y) by (rewrite <- K2 at 1; unfold u1, u2, u3; ring). rewrite U in P. lra. }
  assert (H3 : w * u3 + (a * u2 - b * u1) = 0).
  { assert (P : 2 * (w * u3 + (a * u2 - b * u1)) = z - (w * w + a * a + b * b + d * d) * z) by (rewrite <- K3 at 1; unfold u1, u2, u3; ring). rewrite U in P. lra. }
  assert (N : (w * w + a * a + b * b + d * d) * (u1 * u1 + u2 * u2 + u3 * u3) = 0).
  { assert (V : a * u1 + b * u2 + d * u3 = 0) by (unfold u1, u2, u3; ring).
    assert (S1 : w * (u1 * u1 + u2 * u2 + u3 * u3) = u1 * (w * u1 + (b * u3 - d * u2)) + u2 * (w * u2 + (d * u1 - a * u3)) + u3 * (w * u3 + (a * u2 - b * u1))) by ring.
    rewrite H1, H2, H3 in S1.
    assert (S2 : (a * a + b * b + d * d) * (u1 * u1 + u2 * u2 + u3 * u3) = (a * u1 + b * u2 + d * u3) * (a * u1 + b * u2 + d * u3) +
       ((b * u3 - d * u2) * (b * u3 - d * u2) + (d * u1 - a * u3) * (d * u1 - a * u3) + (a * u2 - b * u1) * (a * u2 - b * u1))) by ring.
    assert (A1 : b * u3 - d * u2 = - (w * u1)) by lra. assert (A2 : d * u1 - a * u3 = - (w * u2)) by lra. assert (A3 : a * u2 - b * u1 = - (w * u3)) by lra.
    rewrite V, A1, A2, A3 in S2.
    replace ((w * w + a * a + b * b + d * d) * (u1 * u1 + u2 * u2 + u3 * u3)) with (w * (w * (u1 * u1 + u2 * u2 + u3 * u3)) + (a * a + b * b + d * d) * (u1 * u1 + u2 * u2 + u3 * u3)) by ring.
    rewrite S2. replace (- (w * u1) * - (w * u1) + - (w * u2) * - (w * u2) + - (w * u3) * - (w * u3)) with (w * (w * (u1 * u1 + u2 * u2 + u3 * u3))) by ring. rewrite S1. ring. }
  rewrite U, Rmult_1_l in N. assert (Z1 : u1 = 0) by nra. assert (Z2 : u2 = 0) by nra. assert (Z3 : u3 = 0) by nra.
  set (k := a * x + b * y + d * z).
  assert (Ea : a = k * x). { unfold k. transitivity (a * (x * x + y * y + z * z)); [rewrite UC; ring|]. transitivity ((a * x + b * y + d * z) * x + (y * u3 - z * u2)); [unfold u2, u3; ring|]. rewrite Z2, Z3. ring. }
  assert (Eb : b = k * y). { unfold k. transitivity (b * (x * x + y * y + z * z)); [rewrite UC; ring|]. transitivity ((a * x + b * y + d * z) * y + (z * u1 - x * u3)); [unfold u1, u3; ring|]. rewrite Z1, Z3. ring. }
  assert (Ed : d = k * z). { unfold k. transitivity (d * (x * x + y * y + z * z)); [rewrite UC; ring|]. transitivity ((a * x + b * y + d * z) * z + (x * u2 - y * u1)); [unfold u1, u2; ring|]. rewrite Z1, Z2. ring. }
  assert (WK : w * w + k * k = 1). { rewrite <- U. clearbody k. subst a b d. replace (w * w + k * x * (k * x) + k * y * (k * y) + k * z * (k * z)) with (w * w + k * k * (x * x + y * y + z * z)) by ring. rewrite UC. ring. }
  assert (NZ : w <> 0 \/ k <> 0). { destruct (Req_dec w 0) as [W|W]; [right|now left]. intros Q. rewrite W, Q in WK. lra. }
  destruct (atan2_polar w k NZ) as [PC PS]. rewrite WK, sqrt_1 in PC, PS. set (h := atan2 k w) in *. clearbody h.
  exists (2 * h). intros v. rewrite <- (rodrigues_quat (V3 x y z) (2 * h) v) by (unfold norm2, dot; cbn [vx vy vz]; exact UC).
  replace (2 * h / 2) with h by field. cbn [vx vy vz]. f_equal. f_equal. clearbody k. rewrite Ea, Eb, Ed, PC, PS. f_equal; field.
Qed.

Lemma rotated_add : forall c a b x, norm2 c = 1 -> rotated c a (rotated c b x) = rotated c (a + b) x.
Proof.
  intros c a b x U. rewrite <- (rodrigues_quat c b x U), <- (rodrigues_quat c a _ U), <- (rodrigues_quat c (a + b) x U), <- mv_mm, <- rot_hmul. f_equal. f_equal.
  replace ((a + b) / 2) with (a / 2 + b / 2) by field. rewrite cos_plus, sin_plus. destruct c as [p q r]. unfold norm2, dot in U. cbn [vx vy vz] in *.
  unfold hmul. cbn [qw qx qy qz]. assert (E : p * p = 1 - q * q - r * r) by lra. f_equal; ring [E].
Qed.
Lemma rotated_turns : forall c t x (k : Z), rotated c (t + IZR k * (2 * PI)) x = rotated c t x.
Proof. intros c t x k. unfold rotated. now rewrite turn_cos, turn_sin. Qed.
(** the nearest of n evenly spaced angles *)
Lemma nearest_division : forall t n, (0 < n)%nat -> exists j e (k : Z), (j < n)%nat /\ Rabs e <= PI / INR n /\ t = INR j * (2 * PI / INR n) + e + IZR k * (2 * PI).
Proof.
  intros t n P. pose proof PI_RGT_0 as PP. assert (N : 0 < INR n) by now apply lt_0_INR. set (d := 2 * PI / INR n). assert (D : 0 < d) by (unfold d; apply Rdiv_lt_0_compat; lra).
  set (z := Int_part (t / d + / 2)). destruct (base_Int_part (t / d + / 2)) as [B1 B2]. fold z in B1, B2.
  assert (ZN : (0 < Z.of_nat n)%Z) by lia.
  exists (Z.to_nat (z mod Z.of_nat n)), (t - IZR z * d), (z / Z.of_nat n)%Z. split; [|split].
  - pose proof (Z.mod_pos_bound z (Z.of_nat n) ZN). lia.
  - assert (T : t = t / d * d) by (field; lra). replace (PI / INR n) with (/ 2 * d) by (unfold d; field; lra).
    apply Rabs_le. split; rewrite T at 1; nra.
  - pose proof (Z.mod_pos_bound z (Z.of_nat n) ZN) as MB. rewrite INR_IZR_INZ, Z2Nat.id by lia.
    replace (2 * PI) with (IZR (Z.of_nat n) * d) by (unfold d; rewrite <- INR_IZR_INZ; field; lra). fold d.
    replace (IZR (z mod Z.of_nat n) * d + (t - IZR z * d) + IZR (z / Z.of_nat n) * (IZR (Z.of_nat n) * d)) with
      (t + d * (IZR (z mod Z.of_nat n) + IZR (z / Z.of_nat n) * IZR (Z.of_nat n) - IZR z)) by ring.
    rewrite <- mult_IZR, <- plus_IZR. replace (z mod Z.of_nat n + z / Z.of_nat n * Z.of_nat n)%Z with z by (rewrite (Z.div_mod z (Z.of_nat n)) at 1; lia). ring.
Qed.
