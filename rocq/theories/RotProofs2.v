From Coq Require Import Reals List String Lra Psatz.
From Verif Require Import Prelude Lin TensorModel TensorSpec TensorProofs RotModel RotSpec RotProofs.
Local Open Scope R_scope.

(** ** rotation vectors *)
Lemma rodrigues_quat : forall n t x, norm2 n = 1 ->
  mv (rotMatOfQuat (Q4 (cos (t / 2)) (sin (t / 2) * vx n) (sin (t / 2) * vy n) (sin (t / 2) * vz n))) x = rotated n t x.
Proof.
  intros [a b c] t [x y z] H. unfold rotated.
  assert (C : cos t = cos (t / 2) * cos (t / 2) - sin (t / 2) * sin (t / 2)) by (rewrite <- cos_2a; f_equal; field).
  assert (S : sin t = 2 * sin (t / 2) * cos (t / 2)) by (rewrite <- sin_2a; f_equal; field).
  pose proof (sin2_cos2 (t / 2)) as P. unfold Rsqr in P. rewrite C, S. set (u := cos (t / 2)) in *. set (w := sin (t / 2)) in *. clearbody u w.
  q_unfold. lin_unfold. assert (U : u * u = 1 - w * w) by lra. assert (A : a * a = 1 - b * b - c * c) by lra. f_equal; ring [U A].
Qed.
Lemma rotvec_quat : forall n t, norm2 n = 1 -> sp_from_rotvec (vscale t n) = Q4 (cos (t / 2)) (sin (t / 2) * vx n) (sin (t / 2) * vy n) (sin (t / 2) * vz n).
Proof.
  intros n t H. assert (N : norm (vscale t n) = Rabs t).
  { unfold norm. replace (norm2 (vscale t n)) with (t * t * norm2 n) by (destruct n; lin_unfold; ring). rewrite H, Rmult_1_r. apply sqrt_Rsqr_abs. }
  unfold sp_from_rotvec. rewrite N. destruct (Req_EM_T (Rabs t) 0) as [E|E].
  - assert (t = 0) by (destruct (Req_dec t 0); auto; pose proof (Rabs_no_R0 t H0); contradiction). subst t. replace (0 / 2) with 0 by field. rewrite cos_0, sin_0. unfold qone. f_equal; ring.
  - assert (T : t <> 0) by (intros ->; apply E, Rabs_R0). unfold vscale. cbn [vx vy vz]. destruct (Rcase_abs t) as [L|L].
    + rewrite Rabs_left by assumption. replace (- t / 2) with (- (t / 2)) by field. rewrite cos_neg, sin_neg. f_equal; field; assumption.
    + rewrite Rabs_right by assumption. f_equal; field; assumption.
Qed.
Lemma trig_unit : forall n t, norm2 n = 1 -> unitq (Q4 (cos (t / 2)) (sin (t / 2) * vx n) (sin (t / 2) * vy n) (sin (t / 2) * vz n)).
Proof. intros [a b c] t H. pose proof (sin2_cos2 (t / 2)) as P. unfold Rsqr in P. q_unfold. lin_unfold. nra. Qed.
Lemma angle_axis_lemma : forall t axis, ten_epsf < norm axis -> cos (t / 2) <> 0 -> exists n, norm n = 1 /\ axis = vscale (norm axis) n /\
  unitq (quatOfAngleAxis t axis) /\ 0 < qw (quatOfAngleAxis t axis) /\ forall x, mv (rotMatOfQuat (quatOfAngleAxis t axis)) x = rotated n t x.
Proof.
  intros t axis H C. destruct (unit_vector_norm axis H) as [N E]. exists (unitVector axis). split; [assumption|]. split; [assumption|].
  assert (N2 : norm2 (unitVector axis) = 1) by (rewrite <- norm_sq, N; ring).
  unfold quatOfAngleAxis. rewrite rotvec_quat by assumption.
  destruct (sgn_unit (Q4 (cos (t / 2)) (sin (t / 2) * vx (unitVector axis)) (sin (t / 2) * vy (unitVector axis)) (sin (t / 2) * vz (unitVector axis))) (trig_unit _ _ N2) C) as (A & B & D).
  split; [exact A|]. split; [exact B|]. intros x. rewrite D. now apply rodrigues_quat.
Qed.
Lemma unit_dir : forall e, e <> vzero -> exists n, norm n = 1 /\ norm2 n = 1 /\ e = vscale (norm e) n.
Proof.
  intros e H. pose proof (norm_gt0 e H) as P. exists (vscale (/ norm e) e). assert (N2 : norm2 (vscale (/ norm e) e) = 1).
  { replace (norm2 (vscale (/ norm e) e)) with (/ norm e * / norm e * norm2 e) by (destruct e; lin_unfold; ring). rewrite <- norm_sq. field. lra. }
  split; [now apply norm2_norm1|]. split; [assumption|]. set (k := norm e) in *. clearbody k. destruct e as [x y z]. unfold vscale. cbn [vx vy vz]. f_equal; field; lra.
Qed.
Lemma exp_map_lemma : forall e, (e = vzero -> rotMatOfExpMap e = mI) /\
  (forall n t, norm n = 1 -> e = vscale t n -> forall x, mv (rotMatOfExpMap e) x = rotated n t x).
Proof.
  intros e. split.
  - intros ->. unfold rotMatOfExpMap, sp_from_rotvec. destruct (Req_EM_T (norm vzero) 0) as [E|E]; [|exfalso; apply E; now apply norm_zero_iff].
    unfold qone. q_unfold. lin_unfold. f_equal; ring.
  - intros n t N -> x. assert (N2 : norm2 n = 1) by (rewrite <- norm_sq, N; ring). unfold rotMatOfExpMap. rewrite rotvec_quat by assumption. now apply rodrigues_quat.
Qed.
Lemma exp_map_rotation : forall e, rotation (rotMatOfExpMap e).
Proof.
  intros e. destruct (Req_dec (norm e) 0) as [E|E].
  - apply norm_zero_iff in E. rewrite (proj1 (exp_map_lemma e) E). apply rot_I.
  - assert (NZ : e <> vzero) by (intros ->; apply E; now apply norm_zero_iff). destruct (unit_dir e NZ) as (n & _ & N2 & D).
    unfold rotMatOfExpMap. rewrite D, rotvec_quat by assumption. apply unit_rot. now apply trig_unit.
Qed.
Lemma quat_exp_map : forall e, cos (norm e / 2) <> 0 -> unitq (quatOfExpMap e) /\ 0 < qw (quatOfExpMap e) /\ rotMatOfQuat (quatOfExpMap e) = rotMatOfExpMap e.
Proof.
  intros e C. unfold quatOfExpMap, rotMatOfExpMap. destruct (Req_dec (norm e) 0) as [E|E].
  - unfold sp_from_rotvec. destruct (Req_EM_T (norm e) 0); [|contradiction]. apply sgn_unit; [q_unfold; ring | cbn; lra].
  - assert (NZ : e <> vzero) by (intros ->; apply E; now apply norm_zero_iff). destruct (unit_dir e NZ) as (n & _ & N2 & D).
    rewrite D, rotvec_quat by assumption. apply sgn_unit; [now apply trig_unit|exact C].
Qed.
Lemma from_matrix_lemma : forall conv r, rotation r -> (unitq (conv r) /\ rotMatOfQuat (conv r) = r) ->
  (tr r <> -1 -> unitq (quatOfRotMat conv r) /\ 0 < qw (quatOfRotMat conv r) /\ rotMatOfQuat (quatOfRotMat conv r) = r) /\
  (tr r = -1 -> quatOfRotMat conv r = qzero).
Proof.
  intros conv r H [U E]. unfold quatOfRotMat. split; intros T.
  - destruct (sgn_unit (conv r) U) as (A & B & C). { intros Z. apply T. rewrite <- E. now apply half_turn. } rewrite E in C. repeat split; auto.
  - apply sgn_zero. apply half_turn; auto. now rewrite E.
Qed.

(** ** misorientation *)
Lemma rmax_lemma : forall l, l <> [] -> exists m, rmax_list l = Ok m /\ In m l /\ forall x, In x l -> x <= m.
Proof.
  induction l as [|x [|y l] IH]; intros H; [congruence| |].
  - exists x. cbn. repeat split; auto. intros z [->|[]]. lra.
  - destruct IH as (m & E & I & U); [discriminate|]. exists (Rmax x m). change (rmax_list (x :: y :: l)) with (do m <- rmax_list (y :: l); Ok (Rmax x m)). rewrite E. cbn [rbind].
    split; [reflexivity|]. split.
    + unfold Rmax. destruct (Rle_dec x m); [now right|now left].
    + intros z [->|Z]; [apply Rmax_l|]. eapply Rle_trans; [apply U, Z|apply Rmax_r].
Qed.
Lemma eqv_in : forall q1 q2 crys samp x, In x (eqv_mis q1 q2 crys samp) <-> exists c s, In c crys /\ In s samp /\ x = fixQuat (hmul (hmul s (hmul q2 c)) (invertQuat q1)).
Proof.
  intros. unfold eqv_mis. rewrite in_map_iff. split.
  - intros (y & <- & Hy). apply in_flat_map in Hy as (z & Hz & Hy). apply in_map_iff in Hz as (c & <- & Hc). apply in_map_iff in Hy as (s & <- & Hs).
    exists c, s. rewrite !right_mul, left_mul. repeat split; auto.
  - intros (c & s & Hc & Hs & ->). exists (hmul s (hmul q2 c)). split. { now rewrite right_mul. }
    apply in_flat_map. exists (hmul q2 c). split.
    + apply in_map_iff. exists c. split; auto. apply right_mul.
    + apply in_map_iff. exists s. split; auto. apply left_mul.
Qed.
Lemma tr_mm_comm : forall a b, tr (mm a b) = tr (mm b a).
Proof. lin. Qed.
Lemma tr_mt : forall a, tr (mt a) = tr a.
Proof. lin. Qed.
Lemma angle_of_unique : forall r t u, angle_of r t -> angle_of r u -> t = u.
Proof. intros r t u [T1 T2] [U1 U2]. apply cos_inj; try tauto. congruence. Qed.
Lemma angle_of_le : forall r r' t u, angle_of r t -> angle_of r' u -> tr r' <= tr r -> t <= u.
Proof.
  intros r r' t u [T1 T2] [U1 U2] H. destruct (Rle_dec t u); auto. exfalso. assert (L : u < t) by lra.
  pose proof (cos_decreasing_1 u t) as D. assert (cos t < cos u) by (apply D; lra). lra.
Qed.
Lemma acos_angle : forall q, unitq q -> 0 <= qw q -> angle_of (rotMatOfQuat q) (2 * acos (qw q)).
Proof.
  intros q U P. assert (L : qw q <= 1) by (destruct q as [a b c d]; q_unfold; nra).
  pose proof (acos_bound (qw q)) as B. assert (C : cos (acos (qw q)) = qw q) by (apply cos_acos; lra).
  assert (H : acos (qw q) <= PI / 2).
  { destruct (Rle_dec (acos (qw q)) (PI / 2)) as [|N]; auto. exfalso. assert (cos (acos (qw q)) < 0) by (apply cos_lt_0; lra). lra. }
  split. { lra. } rewrite (trace_unit q U). rewrite cos_2a_cos, C. field.
Qed.
Lemma mis_rot : forall q1 q2 c s, unitq q1 -> unitq q2 -> unitq c -> unitq s ->
  let x := fixQuat (hmul (hmul s (hmul q2 c)) (invertQuat q1)) in
  unitq x /\ 0 <= qw x /\ rotMatOfQuat x = mm (mm (rotMatOfQuat s) (mm (rotMatOfQuat q2) (rotMatOfQuat c))) (mt (rotMatOfQuat q1)).
Proof.
  intros q1 q2 c s U1 U2 Uc Us x. destruct (inv_lemma q1 U1) as (Ui & _ & Ri).
  assert (U : unitq (hmul (hmul s (hmul q2 c)) (invertQuat q1))) by (repeat apply hmul_unit; auto).
  destruct (fix_unit _ U) as (A & B & _ & _). split; [exact A|]. split; [exact B|]. unfold x. rewrite (fix_rot _ U), !rot_hmul, Ri. reflexivity.
Qed.
Lemma mis_lemma : forall q1 q2 crys samp, unitq q1 -> unitq q2 -> Forall unitq crys -> Forall unitq samp -> crys <> [] -> samp <> [] ->
  exists t mis, misorientation q1 q2 crys samp = Ok (t, mis) /\ smallest_angle (rotMatOfQuat q1) (rotMatOfQuat q2) (rots crys) (rots samp) t /\
  mis <> [] /\ forall x, In x mis -> unitq x /\ 0 <= qw x /\ angle_of (rotMatOfQuat x) t /\
    exists c s, In c (rots crys) /\ In s (rots samp) /\ rotMatOfQuat x = mm (mm s (mm (rotMatOfQuat q2) c)) (mt (rotMatOfQuat q1)).
Proof.
  intros q1 q2 crys samp U1 U2 Fc Fs Nc Ns. rewrite Forall_forall in Fc, Fs.
  set (e := eqv_mis q1 q2 crys samp).
  assert (G : forall x, In x e -> unitq x /\ 0 <= qw x /\ exists c s, In c crys /\ In s samp /\ rotMatOfQuat x = mm (mm (rotMatOfQuat s) (mm (rotMatOfQuat q2) (rotMatOfQuat c))) (mt (rotMatOfQuat q1))).
  { intros x Hx. apply eqv_in in Hx as (c & s & Hc & Hs & ->). destruct (mis_rot q1 q2 c s U1 U2 (Fc _ Hc) (Fs _ Hs)) as (A & B & C). repeat split; auto. exists c, s. repeat split; auto. }
  assert (Ne : map qw e <> []).
  { destruct crys as [|c crys']; [congruence|]. destruct samp as [|s samp']; [congruence|]. intros Z. apply map_eq_nil in Z.
    assert (I : In (fixQuat (hmul (hmul s (hmul q2 c)) (invertQuat q1))) e) by (apply eqv_in; exists c, s; repeat split; now left). rewrite Z in I. destruct I. }
  destruct (rmax_lemma _ Ne) as (m & E & I & U).
  apply in_map_iff in I as (x0 & X0 & I0). destruct (G x0 I0) as (Ux0 & Px0 & c0 & s0 & Hc0 & Hs0 & R0).
  assert (m <= 1) by (rewrite <- X0; destruct x0 as [a b c d]; q_unfold; nra).
  assert (0 <= m) by lra.
  assert (AS : arccosSafe m = Ok (acos m)).
  { unfold arccosSafe. rewrite Rabs_right by lra. destruct (Rlt_dec (100001 / 100000) m); [lra|]. f_equal. f_equal. rewrite Rmax_right by lra. rewrite Rmin_right; lra. }
  exists (2 * acos m), (filter (fun q => if Req_EM_T (qw q) m then true else false) e).
  assert (A0 : angle_of (rotMatOfQuat x0) (2 * acos m)) by (rewrite <- X0; apply acos_angle; auto).
  assert (cyc : forall s r c r1, tr (mm (mm s (mm r c)) (mt r1)) = tr (mm (mt r1) (mm s (mm r c)))) by (intros; apply tr_mm_comm).
  repeat split.
  - unfold misorientation. fold e. rewrite E. cbn [rbind]. rewrite AS. reflexivity.
  - exists (rotMatOfQuat c0), (rotMatOfQuat s0). split; [now apply in_map|]. split; [now apply in_map|]. destruct A0 as [A1 A2]. split; [exact A1|]. rewrite A2, R0. now rewrite cyc.
  - intros c s u Hc Hs Hu. unfold rots in Hc, Hs. apply in_map_iff in Hc as (cq & <- & Hc). apply in_map_iff in Hs as (sq & <- & Hs).
    set (y := fixQuat (hmul (hmul sq (hmul q2 cq)) (invertQuat q1))). assert (Iy : In y e) by (apply eqv_in; exists cq, sq; repeat split; auto).
    destruct (mis_rot q1 q2 cq sq U1 U2 (Fc _ Hc) (Fs _ Hs)) as (Uy & Py & Ry). fold y in Uy, Py, Ry.
    eapply angle_of_le; [exact A0|exact Hu|]. rewrite <- cyc, <- Ry, !trace_unit by assumption. assert (qw y <= m) by (apply U, in_map, Iy). rewrite X0. nra.
  - intros Z. assert (In x0 (filter (fun q => if Req_EM_T (qw q) m then true else false) e)). { apply filter_In. split; auto. destruct (Req_EM_T (qw x0) m); congruence. } rewrite Z in H1. destruct H1.
  - apply filter_In in H1 as [Hx _]. apply G in Hx. tauto.
  - apply filter_In in H1 as [Hx _]. apply G in Hx. tauto.
  - apply filter_In in H1 as [Hx Hm]. destruct (G x Hx) as (Ux & Px & _). destruct (Req_EM_T (qw x) m) as [<-|]; [|discriminate]. apply (acos_angle x Ux Px).
  - apply filter_In in H1 as [Hx Hm]. destruct (G x Hx) as (Ux & Px & _). destruct (Req_EM_T (qw x) m) as [<-|]; [|discriminate]. apply (acos_angle x Ux Px).
  - apply filter_In in H1 as [Hx Hm]. destruct (G x Hx) as (Ux & Px & _). destruct (Req_EM_T (qw x) m) as [<-|]; [|discriminate]. apply (acos_angle x Ux Px).
  - apply filter_In in H1 as [Hx _]. destruct (G x Hx) as (Ux & Px & c & s & Hc & Hs & Rx). exists (rotMatOfQuat c), (rotMatOfQuat s). repeat split; auto; now apply in_map.
Qed.
Lemma smallest_unique : forall r1 r2 C G t u, smallest_angle r1 r2 C G t -> smallest_angle r1 r2 C G u -> t = u.
Proof.
  intros r1 r2 C G t u [(c & s & Hc & Hs & At) Lt] [(c' & s' & Hc' & Hs' & Au) Lu]. apply Rle_antisym.
  - exact (Lt c' s' u Hc' Hs' Au).
  - exact (Lu c s t Hc Hs At).
Qed.
Lemma smallest_swap : forall r1 r2 C G t, is_group C -> is_group G -> smallest_angle r1 r2 C G t -> smallest_angle r2 r1 C G t.
Proof.
  intros r1 r2 C G t (C1 & C2 & C3) (G1 & G2 & G3) [(c & s & Hc & Hs & At) Lt].
  assert (T : forall a b c s, tr (mm (mt a) (mm s (mm b c))) = tr (mm (mt b) (mm (mt s) (mm a (mt c))))).
  { intros a b c' s'. rewrite <- tr_mt. rewrite mt_mm, mt_mm, mt_mm, mt_mt. rewrite <- !mm_assoc. rewrite tr_mm_comm. rewrite <- !mm_assoc. reflexivity. }
  split.
  - exists (mt c), (mt s). split; [now apply C2|]. split; [now apply G2|]. destruct At as [A B]. split; [exact A|]. rewrite B, T. reflexivity.
  - intros c' s' u Hc' Hs' [A B]. apply (Lt (mt c') (mt s') u); [now apply C2|now apply G2|]. split; [exact A|]. rewrite B, T. reflexivity.
Qed.
Lemma smallest_invariant : forall r1 r2 C G t c s, is_group C -> is_group G -> In c C -> In s G -> smallest_angle r1 r2 C G t -> smallest_angle r1 (mm s (mm r2 c)) C G t.
Proof.
  intros r1 r2 C G t c s (C1 & C2 & C3) (G1 & G2 & G3) Hc Hs [(c0 & s0 & Hc0 & Hs0 & At) Lt].
  assert (T : forall a b, mm s (mm r2 c) = mm s (mm r2 c) -> mm a (mm (mm s (mm r2 c)) b) = mm (mm a s) (mm r2 (mm c b))) by (intros; rewrite <- !mm_assoc; reflexivity).
  split.
  - exists (mm (mt c) c0), (mm s0 (mt s)). split. { apply C3; auto. now apply C2. } split. { apply G3; auto. now apply G2. }
    rewrite T by reflexivity. replace (mm (mm s0 (mt s)) s) with s0. 2:{ rewrite <- mm_assoc. destruct (proj1 (G2 s Hs)) as [O _]. rewrite O. now rewrite mm_I_r. }
    rewrite (mm_assoc c). replace (mm c (mt c)) with mI. 2:{ symmetry. apply orth_both. apply (proj1 (C2 c Hc)). } rewrite mm_I_l. exact At.
  - intros c' s' u Hc' Hs' Au. rewrite T in Au by reflexivity. apply (Lt (mm c c') (mm s' s) u); auto.
Qed.
Lemma rot_trace3 : forall a, rotation a -> tr a = 3 -> a = mI.
Proof.
  intros a [H _] T. destruct (orth_entry a H) as (A & B & C). destruct (orth_eqs a H) as (E0 & E1 & E2 & _).
  destruct a as [x b c d y f g h z]. lin_unfold. assert (x = 1) by lra. assert (y = 1) by lra. assert (z = 1) by lra. subst.
  assert (K : forall u v, u * u + v * v = 0 -> u = 0 /\ v = 0) by (intros; split; nra).
  destruct (K d g) as [-> ->]; [lra|]. destruct (K b h) as [-> ->]; [lra|]. destruct (K c f) as [-> ->]; [lra|]. reflexivity.
Qed.
Lemma smallest_zero : forall r1 r2 C G t, rotation r1 -> rotation r2 -> (forall c, In c C -> rotation c) -> (forall s, In s G -> rotation s) ->
  smallest_angle r1 r2 C G t -> (t = 0 <-> exists c s, In c C /\ In s G /\ mm s (mm r2 c) = r1).
Proof.
  intros r1 r2 C G t R1 R2 RC RG S. split.
  - intros ->. destruct S as [(c & s & Hc & Hs & [_ A]) _]. exists c, s. split; [assumption|]. split; [assumption|].
    rewrite cos_0 in A. assert (Rm : rotation (mm (mt r1) (mm s (mm r2 c)))) by (apply rot_mm; [now apply rot_mt|]; apply rot_mm; auto; apply rot_mm; auto).
    assert (E : mm (mt r1) (mm s (mm r2 c)) = mI) by (apply rot_trace3; auto; lra).
    rewrite <- (mm_I_l (mm s (mm r2 c))), <- (orth_both r1 (proj1 R1)), <- mm_assoc, E. apply mm_I_r.
  - intros (c & s & Hc & Hs & E). destruct S as [(c0 & s0 & Hc0 & Hs0 & [[A0 A1] _]) L]. apply Rle_antisym; [|assumption].
    apply (L c s 0 Hc Hs). rewrite E. rewrite (proj1 R1). split; [pose proof PI_RGT_0; lra|]. rewrite cos_0. unfold tr, mI. cbn [m00 m11 m22]. field.
Qed.

(** ** fundamental region *)
Lemma argmax_lemma : forall l b, In (argmax_q b l) (b :: l) /\ forall q, In q (b :: l) -> qw q <= qw (argmax_q b l).
Proof.
  induction l as [|x l IH]; intros b; cbn [argmax_q].
  - split; [now left|]. intros q [->|[]]. lra.
  - destruct (IH (if Rlt_dec (qw b) (qw x) then x else b)) as [I U]. split.
    + destruct I as [I|I]; [|right; now right]. rewrite <- I. destruct (Rlt_dec (qw b) (qw x)); [right; now left|now left].
    + intros q [->|[->|Q]].
      * eapply Rle_trans; [|apply U; now left]. destruct (Rlt_dec (qw q) (qw x)); lra.
      * eapply Rle_trans; [|apply U; now left]. destruct (Rlt_dec (qw b) (qw q)); lra.
      * apply U. now right.
Qed.
Lemma fr_lemma : forall q crys, unitq q -> Forall unitq crys -> crys <> [] -> exists r, toFundamentalRegion q crys = Ok r /\ unitq r /\ 0 <= qw r /\
  (exists c, In c (rots crys) /\ rotMatOfQuat r = mm (rotMatOfQuat q) c) /\ forall c, In c (rots crys) -> tr (mm (rotMatOfQuat q) c) <= tr (rotMatOfQuat r).
Proof.
  intros q crys U F N. rewrite Forall_forall in F. unfold toFundamentalRegion.
  set (f := fun c => fixQuat (mat4_apply (qprod_right c) q)).
  assert (G : forall c, In c crys -> unitq (f c) /\ 0 <= qw (f c) /\ rotMatOfQuat (f c) = mm (rotMatOfQuat q) (rotMatOfQuat c)).
  { intros c Hc. unfold f. rewrite right_mul. assert (Uc : unitq (hmul q c)) by (apply hmul_unit; auto). destruct (fix_unit _ Uc) as (A & B & _ & _). repeat split; auto. rewrite (fix_rot _ Uc). apply rot_hmul. }
  destruct crys as [|c0 crys']; [congruence|]. cbn [map]. destruct (argmax_lemma (map f crys') (f c0)) as [I L].
  change (f c0 :: map f crys') with (map f (c0 :: crys')) in I, L. set (r := argmax_q (f c0) (map f crys')) in *. exists r. split; [reflexivity|].
  apply in_map_iff in I as (c & E & Hc). destruct (G c Hc) as (A & B & C). rewrite <- E. split; [assumption|]. split; [assumption|]. split.
  - exists (rotMatOfQuat c). split; [now apply in_map|assumption].
  - intros c' Hc'. unfold rots in Hc'. apply in_map_iff in Hc' as (cq & <- & Hcq). destruct (G cq Hcq) as (A' & B' & C'). rewrite <- C', !trace_unit by assumption.
    assert (qw (f cq) <= qw (f c)) by (rewrite E; apply L, in_map, Hcq). nra.
Qed.
Lemma fr_class : forall q q' crys r r', unitq q -> unitq q' -> Forall unitq crys -> is_group (rots crys) ->
  (exists c, In c (rots crys) /\ rotMatOfQuat q' = mm (rotMatOfQuat q) c) ->
  toFundamentalRegion q crys = Ok r -> toFundamentalRegion q' crys = Ok r' -> tr (rotMatOfQuat r) = tr (rotMatOfQuat r') /\ qw r = qw r'.
Proof.
  intros q q' crys r r' U U' F (G1 & G2 & G3) (c & Hc & E) Hr Hr'.
  assert (N : crys <> []) by (intros ->; destruct G1).
  destruct (fr_lemma q crys U F N) as (r0 & E0 & Ur & Pr & (cr & Hcr & Rr) & Mr). rewrite Hr in E0. injection E0 as <-.
  destruct (fr_lemma q' crys U' F N) as (r0 & E0 & Ur' & Pr' & (cr' & Hcr' & Rr') & Mr'). rewrite Hr' in E0. injection E0 as <-.
  assert (T : tr (rotMatOfQuat r) = tr (rotMatOfQuat r')).
  { apply Rle_antisym.
    - rewrite Rr. replace (mm (rotMatOfQuat q) cr) with (mm (rotMatOfQuat q') (mm (mt c) cr)).
      + apply Mr'. apply G3; auto. now apply G2.
      + rewrite E, <- mm_assoc, (mm_assoc c). rewrite (orth_both c) by apply (proj1 (G2 c Hc)). now rewrite mm_I_l.
    - rewrite Rr', E, <- mm_assoc. apply Mr. apply G3; auto. }
  split; [exact T|]. rewrite !trace_unit in T by assumption. assert (Z : (qw r - qw r') * (qw r + qw r') = 0) by lra.
  destruct (Rmult_integral _ _ Z); lra.
Qed.

(** ** angles *)
Lemma npmod_lemma : forall a b, 0 < b -> 0 <= npmod a b < b /\ exists k : Z, npmod a b = a + IZR k * b.
Proof.
  intros a b B. unfold npmod. destruct (base_Int_part (a / b)) as [L G]. set (n := IZR (Int_part (a / b))) in *.
  assert (E : a = a / b * b) by (field; lra). split.
  - assert (n * b <= a / b * b) by (apply Rmult_le_compat_r; lra). assert ((a / b - n) * b < 1 * b) by (apply Rmult_lt_compat_r; lra). lra.
  - exists (- Int_part (a / b))%Z. rewrite opp_IZR. fold n. ring.
Qed.
Lemma map_core : forall ang lo hi, lo < hi -> let val := npmod (ang - lo) (hi - lo) + lo in
  let v := if Req_EM_T val lo then if Rlt_dec lo ang then hi else val else val in
  lo <= v <= hi /\ same_angle (hi - lo) ang v /\ (v = hi -> lo < ang) /\ (v = lo -> ang <= lo).
Proof.
  intros ang lo hi L val v. destruct (npmod_lemma (ang - lo) (hi - lo)) as [[P Q] [k K]]; [lra|].
  assert (V : val = ang + IZR k * (hi - lo)) by (unfold val; rewrite K; ring).
  unfold v. destruct (Req_EM_T val lo) as [E|E].
  - destruct (Rlt_dec lo ang) as [G|G].
    + split; [lra|]. split; [exists (k + 1)%Z; rewrite plus_IZR; lra|]. split; [tauto|lra].
    + split; [lra|]. split; [now exists k|]. split; lra.
  - unfold val in E |- *. split; [lra|]. split; [exists k; unfold val in V; exact V|]. split; lra.
Qed.
Lemma period_pos : forall u p, period_of u = Ok p -> 0 < p.
Proof. intros [| |] p H; cbn in H; try discriminate; injection H as <-; [lra|pose proof PI_RGT_0; lra]. Qed.
Lemma allclose_refl : forall a b, a = b -> allclose a b = true.
Proof. intros a b ->. unfold allclose. destruct (Rle_dec _ _) as [|N]; auto. exfalso. apply N. replace (b - b) with 0 by ring. rewrite Rabs_R0. pose proof (Rabs_pos b). lra. Qed.
Lemma map_angle_lemma : forall ang lo hi u p, period_of u = Ok p -> hi - lo = p -> exists v, mapAngle ang (Some (lo, hi)) u = Ok v /\
  lo <= v <= hi /\ same_angle p ang v /\ (v = hi -> lo < ang) /\ (v = lo -> ang <= lo).
Proof.
  intros ang lo hi u p Hp W. pose proof (period_pos u p Hp) as PP. destruct (map_core ang lo hi) as (A & B & C & D); [lra|].
  unfold mapAngle. rewrite Hp. cbn [rbind]. rewrite (allclose_refl _ _ W). cbn [rbind]. eexists. split; [reflexivity|]. rewrite <- W. repeat split; tauto.
Qed.
Lemma map_angle_default : forall ang u p, period_of u = Ok p -> exists v, mapAngle ang None u = Ok v /\
  - p / 2 <= v <= p / 2 /\ same_angle p ang v /\ (v = p / 2 -> - p / 2 < ang) /\ (v = - p / 2 -> ang <= - p / 2).
Proof.
  intros ang u p Hp. pose proof (period_pos u p Hp) as PP. destruct (map_core ang (- p / 2) (p / 2)) as (A & B & C & D); [lra|].
  unfold mapAngle. rewrite Hp. cbn [rbind]. eexists. split; [reflexivity|]. replace (p / 2 - - p / 2) with p in * by field. repeat split; tauto.
Qed.
Lemma map_same : forall v lo hi u p, period_of u = Ok p -> hi - lo = p -> lo <= v <= hi -> mapAngle v (Some (lo, hi)) u = Ok v.
Proof.
  intros v lo hi u p Hp W V. destruct (map_angle_lemma v lo hi u p Hp W) as (w & E & B & [k K] & C & D). rewrite E. f_equal. pose proof (period_pos u p Hp) as PP.
  assert (Hk : (k = 0 \/ k <= -1 \/ 1 <= k)%Z) by lia. destruct Hk as [->|[Hk|Hk]].
  - lra.
  - apply IZR_le in Hk. assert (IZR k * p <= -1 * p) by (apply Rmult_le_compat_r; lra). assert (w = lo) by lra. assert (v = hi) by lra. specialize (D H0). lra.
  - apply IZR_le in Hk. assert (1 * p <= IZR k * p) by (apply Rmult_le_compat_r; lra). assert (w = hi) by lra. assert (v = lo) by lra. specialize (C H0). lra.
Qed.
Lemma map_rejects : forall ang lo hi u p, period_of u = Ok p -> (mapAngle ang (Some (lo, hi)) u = Err RuntimeError <-> / 100000000 + / 100000 * p < Rabs (hi - lo - p)).
Proof.
  intros ang lo hi u p Hp. pose proof (period_pos u p Hp) as PP. unfold mapAngle. rewrite Hp. cbn [rbind]. unfold allclose. rewrite (Rabs_right p) by lra.
  destruct (Rle_dec (Rabs (hi - lo - p)) (/ 100000000 + / 100000 * p)); cbn [rbind]; split; intros; try discriminate; try lra. reflexivity.
Qed.
Lemma Int_part_val : forall x (z : Z), IZR z <= x -> x < IZR z + 1 -> Int_part x = z.
Proof.
  intros x z H1 H2. destruct (base_Int_part x) as [A B]. assert (IZR (Int_part x) < IZR (z + 1)) by (rewrite plus_IZR; lra).
  assert (IZR z < IZR (Int_part x + 1)) by (rewrite plus_IZR; lra). apply lt_IZR in H. apply lt_IZR in H0. lia.
Qed.
Lemma map_refuted_lemma : exists ang lo hi v, mapAngle ang (Some (lo, hi)) ADeg = Ok v /\ ~ same_angle 360 ang v.
Proof.
  exists 400, 0, (360 + / 1000), (40 - / 1000). split.
  - unfold mapAngle. cbn [period_of rbind]. unfold allclose. replace (360 + / 1000 - 0 - 360) with (/ 1000) by ring. rewrite !Rabs_right by lra.
    destruct (Rle_dec (/ 1000) (/ 100000000 + / 100000 * 360)) as [_|N]; [|exfalso; lra]. cbn [rbind].
    assert (M : npmod (400 - 0) (360 + / 1000 - 0) = 40 - / 1000).
    { unfold npmod. rewrite (Int_part_val _ 1); [ring| |].
      - apply Rmult_le_reg_r with (360 + / 1000 - 0); [lra|]. unfold Rdiv. rewrite Rmult_assoc, Rinv_l by lra. lra.
      - apply Rmult_lt_reg_r with (360 + / 1000 - 0); [lra|]. unfold Rdiv. rewrite Rmult_assoc, Rinv_l by lra. lra. }
    rewrite M. destruct (Req_EM_T (40 - / 1000 + 0) 0); [lra|]. f_equal. ring.
  - intros [k K]. assert (H : IZR k * 360000 = -360001) by lra. assert (Z : (k * 360000 = -360001)%Z) by (apply eq_IZR; rewrite mult_IZR; exact H). lia.
Qed.
Lemma circ_min : forall p x, 0 < p -> Rabs x <= p -> circle_distance p x 0 (Rmin (Rabs x) (p - Rabs x)).
Proof.
  intros p x P L. split.
  - unfold Rmin. destruct (Rle_dec (Rabs x) (p - Rabs x)).
    + exists 0%Z. f_equal. ring.
    + destruct (Rcase_abs x) as [N|N].
      * exists 1%Z. rewrite (Rabs_left x) in * by assumption. rewrite Rabs_right by lra. ring.
      * exists (-1)%Z. rewrite (Rabs_right x) in * by assumption. rewrite Rabs_left1 by lra. ring.
  - intros k. replace (x - 0 + IZR k * p) with (x + IZR k * p) by ring. assert (Hk : (k = 0 \/ k <= -1 \/ 1 <= k)%Z) by lia. destruct Hk as [->|[Hk|Hk]].
    + rewrite Rmult_0_l, Rplus_0_r. apply Rmin_l.
    + eapply Rle_trans; [apply Rmin_r|]. apply IZR_le in Hk. assert (IZR k * p <= -1 * p) by (apply Rmult_le_compat_r; lra). pose proof (Rle_abs x). rewrite (Rabs_left1 (x + IZR k * p)); lra.
    + eapply Rle_trans; [apply Rmin_r|]. apply IZR_le in Hk. assert (1 * p <= IZR k * p) by (apply Rmult_le_compat_r; lra).
      assert (- x <= Rabs x) by (rewrite <- Rabs_Ropp; apply Rle_abs). rewrite (Rabs_right (x + IZR k * p)); lra.
Qed.
Lemma diff_lemma : forall a b u p, period_of u = Ok p -> Rabs (a - b) <= p -> exists d, angularDifference a b u = Ok d /\ circle_distance p a b d.
Proof.
  intros a b u p Hp L. pose proof (period_pos u p Hp) as PP. assert (E : angularDifference a b u = Ok (Rmin (Rabs (b - a)) (p - Rabs (b - a)))).
  { unfold angularDifference. destruct u; cbn [period_of] in *; try discriminate; injection Hp as <-; reflexivity. }
  eexists. split; [exact E|]. rewrite (Rabs_minus_sym b a). destruct (circ_min p (a - b) PP L) as [[k K] M]. split.
  - exists k. rewrite K. f_equal. ring.
  - intros j. specialize (M j). replace (a - b + IZR j * p) with (a - b - 0 + IZR j * p) by ring. exact M.
Qed.
Lemma diff_orig_lemma : forall a b u p, period_of u = Ok p -> exists d, angularDifference_orig a b u = Ok d /\ circle_distance p a b d.
Proof.
  intros a b u p Hp. pose proof (period_pos u p Hp) as PP. unfold angularDifference_orig. rewrite Hp. cbn [rbind]. eexists. split; [reflexivity|].
  destruct (npmod_lemma (a - b + 1 / 2 * p) p PP) as [[P Q] [k K]]. set (m := npmod (a - b + 1 / 2 * p) p) in *. clearbody m.
  assert (Y : m - 1 / 2 * p = a - b + IZR k * p) by lra. split; [exists k; now rewrite Y|].
  intros j. replace (a - b + IZR j * p) with ((m - 1 / 2 * p) + IZR (j - k) * p) by (rewrite Y, minus_IZR; ring).
  set (y := m - 1 / 2 * p) in *. assert (Hy : Rabs y <= p / 2) by (apply Rabs_le; lra). set (i := (j - k)%Z).
  assert (Hi : (i = 0 \/ i <= -1 \/ 1 <= i)%Z) by lia. destruct Hi as [->|[Hi|Hi]].
  - rewrite Rmult_0_l, Rplus_0_r. lra.
  - apply IZR_le in Hi. assert (IZR i * p <= -1 * p) by (apply Rmult_le_compat_r; lra). pose proof (Rle_abs y). rewrite (Rabs_left1 (y + IZR i * p)); lra.
  - apply IZR_le in Hi. assert (1 * p <= IZR i * p) by (apply Rmult_le_compat_r; lra). assert (- y <= Rabs y) by (rewrite <- Rabs_Ropp; apply Rle_abs). rewrite (Rabs_right (y + IZR i * p)); lra.
Qed.
Lemma diff_refuted_lemma : forall a b u p, period_of u = Ok p -> p < Rabs (a - b) -> exists d, angularDifference a b u = Ok d /\ d < 0.
Proof.
  intros a b u p Hp L. pose proof (period_pos u p Hp) as PP. assert (E : angularDifference a b u = Ok (Rmin (Rabs (b - a)) (p - Rabs (b - a)))).
  { unfold angularDifference. destruct u; cbn [period_of] in *; try discriminate; injection Hp as <-; reflexivity. }
  eexists. split; [exact E|]. rewrite (Rabs_minus_sym b a). eapply Rle_lt_trans; [apply Rmin_r|]. lra.
Qed.

(** ** Euler angles and units *)
Lemma vscale_vscale : forall a b v, vscale a (vscale b v) = vscale (a * b) v. Proof. lin. Qed.
Lemma vscale_1 : forall v, vscale 1 v = v. Proof. lin. Qed.
Lemma lower_known_spec : forall s, lower_known s = true -> s = "degrees"%string \/ s = "radians"%string.
Proof. intros s H. unfold lower_known in H. cbn [existsb] in H. destruct (String.eqb_spec s "degrees"); [tauto|]. destruct (String.eqb_spec s "radians"); [tauto|discriminate]. Qed.
Lemma euler_units_lemma : forall make_rmat e x e', lower_known (eu_units e) = true -> euler_set_units e x = Ok e' -> eu_units e' = x /\ euler_rmat make_rmat e' = euler_rmat make_rmat e.
Proof.
  intros mk [ang un] x e' K H. unfold euler_set_units in H. destruct (lower_known x) eqn:L; [|discriminate]. injection H as <-. split; [reflexivity|].
  pose proof PI_RGT_0 as PP. cbn [eu_units] in K.
  destruct (lower_known_spec un K) as [->| ->]; destruct (lower_known_spec x L) as [->| ->]; unfold euler_rmat; cbn; try reflexivity.
  f_equal. rewrite vscale_vscale. replace (PI / 180 * (180 / PI)) with 1 by (field; lra). apply vscale_1.
Qed.
Lemma euler_case_lemma : forall make_rmat lower angles u, u <> "degrees"%string -> lower u = "degrees"%string ->
  exists e, euler_init lower angles u = Ok e /\ euler_rmat make_rmat e = make_rmat angles /\
  exists e', euler_set_units e "degrees" = Ok e' /\ eu_angles e' = vscale (180 / PI) angles.
Proof.
  intros mk lower angles u N L. unfold euler_init. rewrite L. cbn. eexists. split; [reflexivity|]. unfold euler_rmat, euler_set_units. cbn [eu_units eu_angles].
  destruct (String.eqb_spec u "degrees") as [E|_]; [contradiction|]. split; [reflexivity|]. eexists. split; [reflexivity|]. reflexivity.
Qed.
(** ** the angle returned by misorientation *)
Lemma mis_ok : forall q1 q2 crys samp t m, unitq q1 -> unitq q2 -> Forall unitq crys -> Forall unitq samp -> crys <> [] -> samp <> [] ->
  misorientation q1 q2 crys samp = Ok (t, m) -> smallest_angle (rotMatOfQuat q1) (rotMatOfQuat q2) (rots crys) (rots samp) t.
Proof.
  intros q1 q2 crys samp t m U1 U2 Fc Fs Nc Ns H. destruct (mis_lemma q1 q2 crys samp U1 U2 Fc Fs Nc Ns) as (t' & m' & E & S' & _).
  rewrite E in H. injection H as <- _. exact S'.
Qed.
Lemma group_nonempty : forall l, is_group (rots l) -> l <> [].
Proof. intros l (H & _) ->. exact H. Qed.
Lemma mis_swap : forall q1 q2 crys samp t m t' m', unitq q1 -> unitq q2 -> Forall unitq crys -> Forall unitq samp -> is_group (rots crys) -> is_group (rots samp) ->
  misorientation q1 q2 crys samp = Ok (t, m) -> misorientation q2 q1 crys samp = Ok (t', m') -> t = t'.
Proof.
  intros q1 q2 crys samp t m t' m' U1 U2 Fc Fs Gc Gs H H'.
  pose proof (mis_ok _ _ _ _ _ _ U1 U2 Fc Fs (group_nonempty _ Gc) (group_nonempty _ Gs) H) as A.
  pose proof (mis_ok _ _ _ _ _ _ U2 U1 Fc Fs (group_nonempty _ Gc) (group_nonempty _ Gs) H') as B.
  exact (smallest_unique _ _ _ _ _ _ A (smallest_swap _ _ _ _ _ Gc Gs B)).
Qed.
Lemma mis_invariant : forall q1 q2 q2' crys samp c s t m t' m', unitq q1 -> unitq q2 -> unitq q2' -> Forall unitq crys -> Forall unitq samp ->
  is_group (rots crys) -> is_group (rots samp) -> In c (rots crys) -> In s (rots samp) -> rotMatOfQuat q2' = mm s (mm (rotMatOfQuat q2) c) ->
  misorientation q1 q2 crys samp = Ok (t, m) -> misorientation q1 q2' crys samp = Ok (t', m') -> t = t'.
Proof.
  intros q1 q2 q2' crys samp c s t m t' m' U1 U2 U2' Fc Fs Gc Gs Hc Hs E H H'.
  pose proof (mis_ok _ _ _ _ _ _ U1 U2 Fc Fs (group_nonempty _ Gc) (group_nonempty _ Gs) H) as A.
  pose proof (mis_ok _ _ _ _ _ _ U1 U2' Fc Fs (group_nonempty _ Gc) (group_nonempty _ Gs) H') as B.
  pose proof (smallest_invariant _ _ _ _ _ _ _ Gc Gs Hc Hs A) as C. rewrite <- E in C. exact (smallest_unique _ _ _ _ _ _ C B).
Qed.
Lemma mis_zero : forall q1 q2 crys samp t m, unitq q1 -> unitq q2 -> Forall unitq crys -> Forall unitq samp -> crys <> [] -> samp <> [] ->
  misorientation q1 q2 crys samp = Ok (t, m) ->
  (t = 0 <-> exists c s, In c (rots crys) /\ In s (rots samp) /\ mm s (mm (rotMatOfQuat q2) c) = rotMatOfQuat q1).
Proof.
  intros q1 q2 crys samp t m U1 U2 Fc Fs Nc Ns H. rewrite Forall_forall in Fc, Fs.
  refine (smallest_zero _ _ _ _ _ (unit_rot _ U1) (unit_rot _ U2) _ _ (mis_ok _ _ _ _ _ _ U1 U2 _ _ Nc Ns H)); try (apply Forall_forall; assumption).
  - intros c Hc. apply in_map_iff in Hc as (q & <- & Hq). apply unit_rot. auto.
  - intros c Hc. apply in_map_iff in Hc as (q & <- & Hq). apply unit_rot. auto.
Qed.
(** two symmetries at the same angle: two columns *)
Lemma unit_i : forall a b c d, a * a + b * b + c * c + d * d = 1 -> unitq (Q4 a b c d). Proof. intros. exact H. Qed.
Lemma fix_pos : forall q, unitq q -> 0 <= qw q -> fixQuat q = q.
Proof.
  intros q U H. unfold fixQuat. rewrite (unit4_id q U). destruct (Rlt_dec (qw q) 0); [lra|reflexivity].
Qed.
Lemma fix_neg : forall q, unitq q -> qw q < 0 -> fixQuat q = negq q.
Proof.
  intros q U H. unfold fixQuat. rewrite (unit4_id q U). destruct (Rlt_dec (qw q) 0); [apply neg_scale|lra].
Qed.
Lemma q4_eq : forall a b c d a' b' c' d', a = a' -> b = b' -> c = c' -> d = d' -> Q4 a b c d = Q4 a' b' c' d'. Proof. now intros; subst. Qed.
Lemma mis_ties : exists q1 q2 crys samp t a b, unitq q1 /\ unitq q2 /\ Forall unitq crys /\ Forall unitq samp /\ is_group (rots crys) /\ is_group (rots samp) /\
  misorientation q1 q2 crys samp = Ok (t, [a; b]) /\ a <> b.
Proof.
  set (s := sqrt 2 / 2). assert (S2 : s * s = 1 / 2). { unfold s. pose proof (sqrt_sqrt 2). lra. } assert (SP : 0 < s). { unfold s. pose proof (sqrt_lt_R0 2). lra. }
  exists qone, (Q4 s 0 0 s), [qone; Q4 0 0 0 1], [qone], (2 * acos s), (Q4 s 0 0 s), (Q4 s 0 0 (- s)).
  assert (U1 : unitq qone) by (apply unit_i; ring). assert (UZ : unitq (Q4 0 0 0 1)) by (apply unit_i; ring).
  assert (US : unitq (Q4 s 0 0 s)) by (apply unit_i; lra). assert (UT : unitq (Q4 (- s) 0 0 s)) by (apply unit_i; lra).
  assert (I1 : rotMatOfQuat qone = mI) by (unfold qone; lin_unfold; unfold rotMatOfQuat; cbn [qw qx qy qz]; f_equal; ring).
  assert (IZ : rotMatOfQuat (Q4 0 0 0 1) = M3 (-1) 0 0 0 (-1) 0 0 0 1) by (unfold rotMatOfQuat; cbn [qw qx qy qz]; f_equal; ring).
  assert (G1 : is_group [mI]). { split; [now left|]. split; [|intros a b [<-|[]] [<-|[]]; left; lin]. intros a [<-|[]]. split; [|left; lin]. rewrite <- I1. now apply unit_rot. }
  split; [assumption|]. split; [assumption|]. split; [now repeat constructor|]. split; [now repeat constructor|].
  split. { unfold rots. cbn [map]. rewrite I1, IZ. split; [now left|]. split.
    - intros a [<-|[<-|[]]]. { split; [rewrite <- I1; now apply unit_rot|left; lin]. } split; [rewrite <- IZ; now apply unit_rot|right; left; lin].
    - intros a b [<-|[<-|[]]] [<-|[<-|[]]]; cbn [In]; [left|right; left|right; left|left]; lin. }
  split. { unfold rots. cbn [map]. rewrite I1. exact G1. }
  assert (IV : invertQuat qone = qone).
  { unfold invertQuat, qone. cbn [qw qx qy qz]. rewrite fix_neg; [|apply unit_i; ring|cbn; lra]. unfold negq. cbn [qw qx qy qz]. apply q4_eq; ring. }
  assert (E : eqv_mis qone (Q4 s 0 0 s) [qone; Q4 0 0 0 1] [qone] = [Q4 s 0 0 s; Q4 s 0 0 (- s)]).
  { unfold eqv_mis. cbn [map flat_map app]. rewrite IV. rewrite !right_mul, !left_mul.
    replace (hmul (hmul qone (hmul (Q4 s 0 0 s) qone)) qone) with (Q4 s 0 0 s) by (unfold hmul, qone; cbn [qw qx qy qz]; apply q4_eq; ring).
    replace (hmul (hmul qone (hmul (Q4 s 0 0 s) (Q4 0 0 0 1))) qone) with (Q4 (- s) 0 0 s) by (unfold hmul, qone; cbn [qw qx qy qz]; apply q4_eq; ring).
    rewrite fix_pos by (auto; cbn; lra). rewrite fix_neg by (auto; cbn; lra). unfold negq. cbn [qw qx qy qz]. rewrite Ropp_involutive, Ropp_0. reflexivity. }
  split.
  - unfold misorientation. rewrite E. cbn [map qw rmax_list rbind]. rewrite Rmax_left by lra. cbn [filter qw]. destruct (Req_EM_T s s); [|contradiction].
    unfold arccosSafe. rewrite (Rabs_right s) by lra. assert (s < 1) by nra. destruct (Rlt_dec (100001 / 100000) s); [lra|]. cbn [rbind].
    rewrite Rmax_right by lra. rewrite Rmin_right by lra. reflexivity.
  - intros K. injection K as K. lra.
Qed.
Lemma turn_period : forall u p, one_turn u p -> period_of u = Ok p.
Proof. intros [| |s] p H; cbn [one_turn] in H; [now subst|now subst|contradiction]. Qed.
