From Coq Require Import Reals List ZArith Lra Psatz.
From Verif Require Import Prelude Lin TensorModel TensorSpec TensorProofs RotModel RotSpec RotProofs RotProofs2 RotGroups RfzModel RfzSpec.
Local Open Scope R_scope.

Lemma tol8_val : tol8 = / 100000000. Proof. unfold tol8. f_equal. ring. Qed.
Lemma tol8_pos : 0 < tol8. Proof. rewrite tol8_val. lra. Qed.
Lemma rleb_true : forall a b, rleb a b = true <-> a <= b. Proof. intros. unfold rleb. destruct (Rle_dec a b); split; intros; try lra; try discriminate; auto. Qed.
Lemma rltb_true : forall a b, rltb a b = true <-> a < b. Proof. intros. unfold rltb. destruct (Rlt_dec a b); split; intros; try lra; try discriminate; auto. Qed.
Lemma abs_le : forall a b, Rabs a <= b <-> - b <= a <= b.
Proof. intros. split; intros H; [split; [pose proof (Rle_abs (-a)); rewrite Rabs_Ropp in *; lra|pose proof (Rle_abs a); lra]|apply Rabs_le; lra]. Qed.
Lemma abs_lt : forall a b, Rabs a < b <-> - b < a < b.
Proof. intros. split; intros H; [split; [pose proof (Rle_abs (-a)); rewrite Rabs_Ropp in *; lra|pose proof (Rle_abs a); lra]|apply Rabs_def1; lra]. Qed.

(** ** the quaternion of a Rodrigues vector *)
Lemma norm_one : forall v, norm2 v = 1 -> norm v = 1. Proof. intros v H. unfold norm. rewrite H. apply sqrt_1. Qed.
Lemma half_twice : forall x, 2 * x * / 2 = x. Proof. intros. field. Qed.
Lemma cos_atan : forall t, 0 < cos (atan t) /\ sin (atan t) = t * cos (atan t).
Proof.
  intros t. pose proof (atan_bound t) as B. assert (C : 0 < cos (atan t)) by (apply cos_gt_0; lra). split; [exact C|].
  pose proof (tan_atan t) as T. unfold tan in T. apply (Rmult_eq_compat_r (cos (atan t))) in T. rewrite <- T. field. lra.
Qed.
Lemma atan_small : forall t, tol8 <= Rabs t -> tol8 <= Rabs (2 * atan t).
Proof.
  assert (P : forall t, tol8 <= t -> tol8 <= 2 * atan t).
  { intros t H. pose proof tol8_pos. pose proof tol8_val. destruct (Rle_dec (atan tol8) (atan t)) as [L|L].
    - apply Rle_trans with (2 * atan tol8); [|lra]. assert (A : tol8 / 2 < atan tol8); [|lra].
      apply tan_increasing with (x := tol8 / 2) (y := atan tol8) || idtac.
      destruct (Rlt_le_dec (tol8 / 2) (atan tol8)) as [L2|L2]; [exact L2|exfalso].
      pose proof (cos_atan tol8) as [C S]. pose proof (atan_bound tol8). assert (A0 : 0 < atan tol8) by (rewrite <- atan_0; apply atan_increasing; lra).
      pose proof (sin_lt_x (atan tol8) A0) as SX. pose proof (sin2_cos2 (atan tol8)) as SC. unfold Rsqr in SC.
      assert (cos (atan tol8) <= 1 / 2) by nra. nra.
    - exfalso. apply L. destruct H as [H|H]; [left; apply atan_increasing; lra|right; now rewrite H]. }
  intros t H. destruct (Rle_dec 0 t) as [T|T].
  - rewrite Rabs_right in H by lra. specialize (P t H). rewrite Rabs_right; [exact P|]. pose proof tol8_pos. lra.
  - rewrite Rabs_left in H by lra. specialize (P (- t) H). rewrite atan_opp in P. pose proof tol8_pos. rewrite Rabs_left by lra. lra.
Qed.
Lemma ro2qu_inf : forall ax, ro2qu (ROD ax None) = Q4 0 (vx ax) (vy ax) (vz ax).
Proof.
  intros ax. unfold ro2qu, ro2ax, ax2qu. cbn [r_t r_ax a_ang a_ax]. pose proof PI_RGT_0. pose proof PI2_3_2. pose proof tol8_val.
  destruct (Rlt_dec (Rabs PI) tol8) as [L|L]; [rewrite Rabs_right in L by lra; lra|].
  replace (PI * / 2) with (PI / 2) by field. rewrite cos_PI2, sin_PI2. f_equal; ring.
Qed.
Lemma ro2qu_small : forall ax t, Rabs t < tol8 -> ro2qu (ROD ax (Some t)) = qone.
Proof.
  intros ax t H. unfold ro2qu, ro2ax. cbn [r_t]. destruct (Rlt_dec (Rabs t) tol8); [|contradiction]. unfold ax2qu. cbn [a_ang].
  destruct (Rlt_dec (Rabs 0) tol8) as [L|L]; [reflexivity|]. rewrite Rabs_R0 in L. pose proof tol8_pos. lra.
Qed.
Lemma ro2qu_big : forall ax t, norm2 ax = 1 -> tol8 <= Rabs t -> ro2qu (ROD ax (Some t)) = Q4 (cos (atan t)) (cos (atan t) * (t * vx ax)) (cos (atan t) * (t * vy ax)) (cos (atan t) * (t * vz ax)).
Proof.
  intros ax t N H. unfold ro2qu, ro2ax. cbn [r_t r_ax]. destruct (Rlt_dec (Rabs t) tol8); [lra|]. rewrite (norm_one _ N). unfold ax2qu. cbn [a_ang a_ax vx vy vz].
  pose proof (atan_small _ H). destruct (Rlt_dec (Rabs (2 * atan t)) tol8); [lra|]. rewrite half_twice. destruct (cos_atan t) as [C S]. rewrite S. f_equal; field.
Qed.
Lemma stands_big : forall ax t, norm2 ax = 1 -> stands_for ax (Some t) (Q4 (cos (atan t)) (cos (atan t) * (t * vx ax)) (cos (atan t) * (t * vy ax)) (cos (atan t) * (t * vz ax))).
Proof.
  intros ax t N. destruct (cos_atan t) as [C S]. repeat split; cbn [qw qx qy qz]; auto. unfold unitq. cbn [qw qx qy qz].
  pose proof (sin2_cos2 (atan t)) as SC. unfold Rsqr in SC. rewrite S in SC. unfold norm2, dot in N.
  replace (_ + _ + _ + _) with (cos (atan t) * cos (atan t) + (t * cos (atan t)) * (t * cos (atan t)) * (vx ax * vx ax + vy ax * vy ax + vz ax * vz ax)) by ring. rewrite N. lra.
Qed.

(** ** reduction to inequalities between real numbers *)
Definition turn (s : q4) (x y z : R) : R := qw s - x * qx s - y * qy s - z * qz s.
Lemma hmul_turn : forall c x y z s, qw (hmul (Q4 c (c * x) (c * y) (c * z)) s) = c * turn s x y z.
Proof. intros. unfold hmul, turn. cbn [qw qx qy qz]. ring. Qed.
Lemma smallest_turn : forall e g c x y z, 0 < c -> (smallest e (quatOfLaueGroup g) (Q4 c (c * x) (c * y) (c * z)) <-> Forall (fun p => Rabs (turn (qval p) x y z) <= 1 + e) (table g)).
Proof.
  intros e g c x y z C. unfold smallest. rewrite table_ok. rewrite Forall_forall. split.
  - intros H p I. specialize (H (qval p) (in_map _ _ _ I)). rewrite hmul_turn in H. cbn [qw] in H. rewrite Rabs_mult, (Rabs_right c) in H by lra.
    apply Rmult_le_reg_l with c; lra.
  - intros H s I. apply in_map_iff in I. destruct I as (p & <- & I). specialize (H p I). cbv beta in H. rewrite hmul_turn. cbn [qw]. rewrite Rabs_mult, (Rabs_right c) by lra. nra.
Qed.
Lemma clearly_turn : forall e g c x y z, 0 < c -> clearly_smallest e (quatOfLaueGroup g) (Q4 c (c * x) (c * y) (c * z)) ->
  Forall (fun p => qw (qval p) * qw (qval p) <> 1 -> Rabs (turn (qval p) x y z) <= 1 - e) (table g).
Proof.
  intros e g c x y z C H. rewrite Forall_forall. intros p I W. specialize (H (qval p)). rewrite table_ok in H. specialize (H (in_map _ _ _ I) W).
  rewrite hmul_turn in H. cbn [qw] in H. rewrite Rabs_mult, (Rabs_right c) in H by lra. apply Rmult_le_reg_l with c; lra.
Qed.

Lemma s2_close : 141421356237309 / 10 ^ 14 <= sqrt 2 <= 141421356237310 / 10 ^ 14.
Proof. apply sqrt_between; [lra|lra|]. split; apply Rmult_le_reg_r with (10 ^ 28); lra. Qed.
Lemma s3_close : 173205080756887 / 10 ^ 14 <= sqrt 3 <= 173205080756888 / 10 ^ 14.
Proof. apply sqrt_between; [lra|lra|]. split; apply Rmult_le_reg_r with (10 ^ 28); lra. Qed.
Lemma bp_vals : bp 1 = 1 /\ bp 2 = 577350269189626 / 10 ^ 15 /\ bp 3 = 414213562373095 / 10 ^ 15 /\ bp 5 = 267949192431123 / 10 ^ 15.
Proof. repeat split; reflexivity. Qed.
Lemma prod_bound : forall a b w, 0 <= w -> - b <= a <= b -> - (b * w) <= a * w <= b * w. Proof. intros. nra. Qed.

Ltac turns := unfold turn, qval, zval, Zq, zi, r2, r3; cbn [zw zx zy zz za zb zc zd qw qx qy qz].
Ltac turns_in H := unfold turn, qval, zval, Zq, zi, r2, r3 in H; cbn [zw zx zy zz za zb zc zd qw qx qy qz] in H.
Ltac consts := pose proof s2_close; pose proof s3_close; destruct bp_vals as (BP1 & BP2 & BP3 & BP5); pose proof s2 as SS2; pose proof s3 as SS3.
Ltac pb H w P := pose proof (prod_bound _ _ w (Rlt_le _ _ P) H).
Ltac each_bound tac := repeat (apply Forall_cons; [turns; apply abs_le; tac|]); apply Forall_nil.

Lemma in_C2h : forall e x y z, 0 <= e -> Rabs y <= 1 -> Forall (fun p => Rabs (turn (qval p) x y z) <= 1 + e) (table C2h).
Proof. intros e x y z E H. apply abs_le in H. cbn [table]. each_bound lra. Qed.
Lemma in_C4h : forall x y z, Rabs z <= bp 3 -> Forall (fun p => Rabs (turn (qval p) x y z) <= 1 + / 10 ^ 8) (table C4h).
Proof. intros x y z H. apply abs_le in H. consts. rewrite BP3 in *. pb H (sqrt 2) s2_pos. cbn [table]. each_bound lra. Qed.
Lemma in_C3i : forall x y z, Rabs z <= bp 2 -> Forall (fun p => Rabs (turn (qval p) x y z) <= 1 + / 10 ^ 8) (table C3i).
Proof. intros x y z H. apply abs_le in H. consts. rewrite BP2 in *. pb H (sqrt 3) s3_pos. cbn [table]. each_bound lra. Qed.
Lemma in_C6h : forall x y z, Rabs z <= bp 5 -> Forall (fun p => Rabs (turn (qval p) x y z) <= 1 + / 10 ^ 8) (table C6h).
Proof. intros x y z H. apply abs_le in H. consts. rewrite BP5 in *. pb H (sqrt 3) s3_pos. cbn [table]. each_bound lra. Qed.
Lemma in_D4h : forall x y z, Rabs z <= bp 3 -> Rabs x <= 1 -> Rabs y <= 1 -> 1 / sqrt 2 * Rabs (x + y) <= 1 -> 1 / sqrt 2 * Rabs (x - y) <= 1 ->
  Forall (fun p => Rabs (turn (qval p) x y z) <= 1 + / 10 ^ 8) (table D4h).
Proof.
  intros x y z H X Y P M. apply abs_le in H, X, Y. rewrite half_sqrt2 in P, M. consts. rewrite BP3 in *. pb H (sqrt 2) s2_pos.
  assert (P' : - 1 <= (x + y) * (sqrt 2 / 2) <= 1) by (apply abs_le; rewrite Rabs_mult, (Rabs_right (sqrt 2 / 2)) by lra; lra).
  assert (M' : - 1 <= (x - y) * (sqrt 2 / 2) <= 1) by (apply abs_le; rewrite Rabs_mult, (Rabs_right (sqrt 2 / 2)) by lra; lra).
  cbn [table]. each_bound lra.
Qed.
Lemma in_D6h : forall x y z, Rabs z <= bp 5 -> Rabs x <= 1 -> Rabs y <= 1 ->
  Rabs (/ 2 * x + sqrt 3 / 2 * y) < 1 -> Rabs (sqrt 3 / 2 * x + / 2 * y) < 1 -> Rabs (/ 2 * x - sqrt 3 / 2 * y) < 1 -> Rabs (sqrt 3 / 2 * x - / 2 * y) < 1 ->
  Forall (fun p => Rabs (turn (qval p) x y z) <= 1 + / 10 ^ 8) (table D6h).
Proof.
  intros x y z H X Y A B C D. apply abs_le in H, X, Y. apply abs_lt in A, B, C, D. consts. rewrite BP5 in *. pb H (sqrt 3) s3_pos. cbn [table]. each_bound lra.
Qed.
Lemma in_Th : forall x y z, Rabs x + Rabs y + Rabs z - 1 <= tol8 -> Forall (fun p => Rabs (turn (qval p) x y z) <= 1 + / 10 ^ 8) (table Th).
Proof.
  intros x y z H. rewrite tol8_val in H. assert (AX : - Rabs x <= x <= Rabs x) by now apply abs_le, Rle_refl. assert (AY : - Rabs y <= y <= Rabs y) by now apply abs_le, Rle_refl. assert (AZ : - Rabs z <= z <= Rabs z) by now apply abs_le, Rle_refl.
  cbn [table]. each_bound lra.
Qed.
Lemma in_Oh : forall x y z, Rmax (Rmax (Rabs x) (Rabs y)) (Rabs z) - bp 3 <= tol8 -> Rabs x + Rabs y + Rabs z - 1 <= tol8 ->
  Forall (fun p => Rabs (turn (qval p) x y z) <= 1 + / 10 ^ 8) (table Oh).
Proof.
  intros x y z M H. consts. rewrite BP3, tol8_val in *.
  assert (AX : - Rabs x <= x <= Rabs x) by now apply abs_le, Rle_refl. assert (AY : - Rabs y <= y <= Rabs y) by now apply abs_le, Rle_refl. assert (AZ : - Rabs z <= z <= Rabs z) by now apply abs_le, Rle_refl.
  pose proof (Rmax_l (Rmax (Rabs x) (Rabs y)) (Rabs z)). pose proof (Rmax_r (Rmax (Rabs x) (Rabs y)) (Rabs z)). pose proof (Rmax_l (Rabs x) (Rabs y)). pose proof (Rmax_r (Rabs x) (Rabs y)).
  pb AX (sqrt 2) s2_pos. pb AY (sqrt 2) s2_pos. pb AZ (sqrt 2) s2_pos.
  assert (X : Rabs x * sqrt 2 <= (414213562373095 / 10 ^ 15 + / 100000000) * sqrt 2) by (apply Rmult_le_compat_r; lra).
  assert (Y : Rabs y * sqrt 2 <= (414213562373095 / 10 ^ 15 + / 100000000) * sqrt 2) by (apply Rmult_le_compat_r; lra).
  assert (Z : Rabs z * sqrt 2 <= (414213562373095 / 10 ^ 15 + / 100000000) * sqrt 2) by (apply Rmult_le_compat_r; lra).
  cbn [table]. each_bound lra.
Qed.

(** the converse *)
Ltac drop_one H := let H1 := fresh in apply Forall_inv in H as H1; apply Forall_inv_tail in H; cbv beta in H1; turns_in H1.
Ltac nontrivial := intros HH; pose proof s2 as SS2; pose proof s3 as SS3; nra.
Ltac drops H := repeat (lazymatch type of H with Forall _ nil => fail | _ => drop_one H end).
Ltac use_ineq := repeat match goal with
  | H : ?a <> 1 -> Rabs _ <= _ |- _ => first [ assert (a <> 1) by nontrivial; specialize (H ltac:(assumption)); apply abs_le in H | clear H ]
  end.
Lemma out_C2h : forall x y z, Forall (fun p => qw (qval p) * qw (qval p) <> 1 -> Rabs (turn (qval p) x y z) <= 1 - / 10 ^ 8) (table C2h) -> Rabs y <= 1.
Proof. intros x y z H. cbn [table] in H. drops H. use_ineq. apply abs_le. lra. Qed.
Lemma out_C4h : forall x y z, Forall (fun p => qw (qval p) * qw (qval p) <> 1 -> Rabs (turn (qval p) x y z) <= 1 - / 10 ^ 8) (table C4h) -> Rabs z <= bp 3.
Proof. intros x y z H. cbn [table] in H. drops H. use_ineq. consts. rewrite BP3. apply abs_le. split; nra. Qed.
Lemma out_C3i : forall x y z, Forall (fun p => qw (qval p) * qw (qval p) <> 1 -> Rabs (turn (qval p) x y z) <= 1 - / 10 ^ 8) (table C3i) -> Rabs z <= bp 2.
Proof. intros x y z H. cbn [table] in H. drops H. use_ineq. consts. rewrite BP2. apply abs_le. split; nra. Qed.
Lemma out_C6h : forall x y z, Forall (fun p => qw (qval p) * qw (qval p) <> 1 -> Rabs (turn (qval p) x y z) <= 1 - / 10 ^ 8) (table C6h) -> Rabs z <= bp 5.
Proof. intros x y z H. cbn [table] in H. drops H. use_ineq. consts. rewrite BP5. apply abs_le. split; lra. Qed.
Lemma scaled_abs : forall k a, 0 < k -> - 1 <= k * a <= 1 -> k * Rabs a <= 1.
Proof. intros k a K H. replace (k * Rabs a) with (Rabs (k * a)) by (rewrite Rabs_mult, (Rabs_right k) by lra; reflexivity). now apply abs_le. Qed.
Lemma out_D4h : forall x y z, Forall (fun p => qw (qval p) * qw (qval p) <> 1 -> Rabs (turn (qval p) x y z) <= 1 - / 10 ^ 8) (table D4h) ->
  Rabs z <= bp 3 /\ Rabs x <= 1 /\ Rabs y <= 1 /\ 1 / sqrt 2 * Rabs (x + y) <= 1 /\ 1 / sqrt 2 * Rabs (x - y) <= 1.
Proof.
  intros x y z H. assert (Z : Rabs z <= bp 3) by (apply (out_C4h x y z); cbn [table] in *; do 4 (apply Forall_cons; [now apply Forall_inv in H|apply Forall_inv_tail in H]); constructor).
  cbn [table] in H. do 4 apply Forall_inv_tail in H. drops H. use_ineq. consts. rewrite half_sqrt2. repeat split; [exact Z| | | |].
  - apply abs_le; lra.
  - apply abs_le; lra.
  - apply scaled_abs; [lra|]. split; lra.
  - apply scaled_abs; [lra|]. split; lra.
Qed.
Lemma out_D6h : forall x y z, Forall (fun p => qw (qval p) * qw (qval p) <> 1 -> Rabs (turn (qval p) x y z) <= 1 - / 10 ^ 8) (table D6h) ->
  Rabs z <= bp 5 /\ Rabs x <= 1 /\ Rabs y <= 1 /\
  Rabs (/ 2 * x + sqrt 3 / 2 * y) < 1 /\ Rabs (sqrt 3 / 2 * x + / 2 * y) < 1 /\ Rabs (/ 2 * x - sqrt 3 / 2 * y) < 1 /\ Rabs (sqrt 3 / 2 * x - / 2 * y) < 1.
Proof.
  intros x y z H. assert (Z : Rabs z <= bp 5) by (apply (out_C6h x y z); cbn [table] in *; do 6 (apply Forall_cons; [now apply Forall_inv in H|apply Forall_inv_tail in H]); constructor).
  cbn [table] in H. do 6 apply Forall_inv_tail in H. drops H. use_ineq. repeat split; [exact Z| | | | | |]; first [apply abs_le; lra | apply abs_lt; lra].
Qed.
Lemma abs_split : forall a, Rabs a = a \/ Rabs a = - a. Proof. intros a. destruct (Rcase_abs a); [right; now apply Rabs_left|left; now apply Rabs_right]. Qed.
Lemma out_Th : forall x y z, Forall (fun p => qw (qval p) * qw (qval p) <> 1 -> Rabs (turn (qval p) x y z) <= 1 - / 10 ^ 8) (table Th) -> Rabs x + Rabs y + Rabs z <= 1.
Proof.
  intros x y z H. cbn [table] in H. drops H. use_ineq. destruct (abs_split x) as [X|X], (abs_split y) as [Y|Y], (abs_split z) as [Z|Z]; rewrite X, Y, Z; lra.
Qed.
Lemma out_Oh : forall x y z, Forall (fun p => qw (qval p) * qw (qval p) <> 1 -> Rabs (turn (qval p) x y z) <= 1 - / 10 ^ 8) (table Oh) ->
  Rabs x <= bp 3 /\ Rabs y <= bp 3 /\ Rabs z <= bp 3 /\ Rabs x + Rabs y + Rabs z <= 1.
Proof.
  intros x y z H. cbn [table] in H. assert (A : Rabs x + Rabs y + Rabs z <= 1).
  { apply out_Th. rewrite Forall_forall in *. intros p I. apply H. cbn in I |- *. tauto. }
  do 10 (let H1 := fresh in apply Forall_inv in H as H1; apply Forall_inv_tail in H; cbv beta in H1; turns_in H1). clear H. use_ineq. consts. rewrite BP3.
  repeat split; [| | |exact A]; apply abs_le; split; nra.
Qed.
