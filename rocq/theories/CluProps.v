(** C119, C120: the average of a cluster of orientations, and the clustering of orientations above a completeness. *)
From Coq Require Import Reals List Lia Lra ZArith Psatz Permutation String.
From Verif Require Import Prelude Lin TensorModel TensorProofs RotModel RotSpec RotProofs RotProofs2 FibModel FibProofs FibProps CluModel CluSpec CluProofs CluPair CluMany.
Import ListNotations.
Local Open Scope R_scope.
Local Notation length := List.length.

(** ** C119 *)
(** one orientation is its own average *)
Theorem C119_single : forall q qsym, unitq q -> quatAverageCluster [q] qsym = Ok q.
Proof. intros q qsym U. unfold quatAverageCluster. cbn [map]. now rewrite unit4_id. Qed.
Print Assumptions C119_single.
(** two orientations: the nearest copy of the second is the first turned by t about some axis, and the average is the first
    turned by half of t about that axis *)
Theorem C119_pair_partial : forall q1 q2 qsym, unitq q1 -> unitq q2 -> Forall unitq qsym -> sole_nearest (rotMatOfQuat q1) (rotMatOfQuat q2) (rots qsym) ->
  forall t, smallest_angle (rotMatOfQuat q1) (rotMatOfQuat q2) (rots qsym) [mI] t -> (t = 0 \/ ten_epsf < sin (t / 2)) ->
  exists n c, norm n = 1 /\ In c (rots qsym) /\ (forall x, mv (mm (rotMatOfQuat q2) c) x = rotated n t (mv (rotMatOfQuat q1) x)) /\
  forall mid, (forall x, mv mid x = rotated n (t / 2) (mv (rotMatOfQuat q1) x)) -> tr mid <> -1 ->
    exists q, quatAverageCluster [q1; q2] qsym = Ok q /\ unitq q /\ 0 < qw q /\ rotMatOfQuat q = mid.
Proof. exact pair_lemma. Qed.
Print Assumptions C119_pair_partial.
(** three or more: the average is in the fundamental region, and up to symmetry it is the unit quaternion with the greatest
    sum of dot products with the representatives of all orientations *)
Theorem C119_many : forall q0 qs qsym, (2 <= length qs)%nat -> Forall unitq (q0 :: qs) -> Forall unitq qsym -> is_group (rots qsym) -> ten_epsf * INR (length (q0 :: qs)) < 1 ->
  exists r m reps, quatAverageCluster (q0 :: qs) qsym = Ok r /\ unitq r /\ 0 <= qw r /\ (forall c, In c (rots qsym) -> tr (mm (rotMatOfQuat r) c) <= tr (rotMatOfQuat r)) /\
  Forall2 (represents (rots qsym) q0) (q0 :: qs) reps /\ unitq m /\ (forall p, unitq p -> total (qdot p) reps <= total (qdot m) reps) /\
  equivalent_or (rots qsym) (mm (rotMatOfQuat q0) (rotMatOfQuat m)) (rotMatOfQuat r).
Proof.
  intros q0 [|q1 [|q2 qs]] qsym L FU Fs GR SM; try (cbn in L; lia). destruct (many_lemma q0 q1 q2 qs qsym FU Fs GR SM) as (r & m & reps & A1 & A2 & A3 & A4 & A5 & A6 & A7 & A8 & _).
  exists r, m, reps. repeat split; auto.
Qed.
Print Assumptions C119_many.
(** the average is no farther from the first orientation than the farthest of them, up to symmetry *)
Theorem C119_within : forall q0 qs qsym t r, (2 <= length qs)%nat -> Forall unitq (q0 :: qs) -> Forall unitq qsym -> is_group (rots qsym) -> ten_epsf * INR (length (q0 :: qs)) < 1 ->
  0 <= t <= PI -> Forall (fun q => within (rots qsym) t (rotMatOfQuat q0) (rotMatOfQuat q)) qs -> quatAverageCluster (q0 :: qs) qsym = Ok r ->
  within (rots qsym) t (rotMatOfQuat q0) (rotMatOfQuat r).
Proof.
  intros q0 [|q1 [|q2 qs]] qsym t r L FU Fs GR SM T W E; try (cbn in L; lia). destruct (many_lemma q0 q1 q2 qs qsym FU Fs GR SM) as (r' & m & reps & A1 & _ & _ & _ & _ & _ & _ & _ & A9).
  assert (r' = r) by congruence. subst r'. apply A9; auto. constructor; auto. exists mI, 0. destruct GR as (G1 & _). inversion FU; subst. split; [exact G1|].
  rewrite mm_mI, (unit_orth q0) by assumption. split; [|lra]. split; [pose proof PI_RGT_0; lra|]. rewrite cos_0. unfold tr, mI. cbn. field.
Qed.
Print Assumptions C119_within.
(** in particular, equivalent orientations have an equivalent average *)
Lemma trace_three : forall q, unitq q -> tr (rotMatOfQuat q) = 3 -> rotMatOfQuat q = mI.
Proof.
  intros q U H. rewrite trace_unit in H by assumption. destruct q as [a b c d]. unfold unitq in U. unfold rotMatOfQuat, mI. cbn [qw qx qy qz] in *. assert (a * a = 1) by lra.
  assert (b = 0 /\ c = 0 /\ d = 0) as (-> & -> & ->) by (repeat split; nra). f_equal; nra.
Qed.
Theorem C119_equivalent : forall q0 qs qsym r, (2 <= length qs)%nat -> Forall unitq (q0 :: qs) -> Forall unitq qsym -> is_group (rots qsym) -> ten_epsf * INR (length (q0 :: qs)) < 1 ->
  Forall (fun q => equivalent_or (rots qsym) (rotMatOfQuat q0) (rotMatOfQuat q)) qs -> quatAverageCluster (q0 :: qs) qsym = Ok r ->
  equivalent_or (rots qsym) (rotMatOfQuat q0) (rotMatOfQuat r).
Proof.
  intros q0 qs qsym r L FU Fs GR SM W E. assert (U0 : unitq q0) by (inversion FU; assumption). destruct (unit_rot q0 U0) as [O0 _].
  assert (H : within (rots qsym) 0 (rotMatOfQuat q0) (rotMatOfQuat r)).
  { eapply C119_within; eauto; [pose proof PI_RGT_0; lra|]. eapply Forall_impl; [|exact W]. intros q (c & C & Q). destruct GR as (_ & G2 & _). destruct (G2 c C) as [[Oc _] Ct].
    exists (mt c), 0. split; [exact Ct|]. split; [|lra]. rewrite Q, <- mm_assoc, (orth_both c Oc), mm_mI. replace (mm (mt (rotMatOfQuat q0)) (rotMatOfQuat q0)) with mI by (symmetry; exact O0).
    split; [pose proof PI_RGT_0; lra|]. rewrite cos_0. unfold tr, mI. cbn. field. }
  destruct H as (c & u & C & [B1 B2] & B3). assert (u = 0) by lra. subst u. rewrite cos_0 in B2. set (g := mm (mt (rotMatOfQuat q0)) (mm (rotMatOfQuat r) c)) in *.
  assert (Ur : unitq r). { destruct (C119_many q0 qs qsym L FU Fs GR SM) as (r' & m & reps & A1 & A2 & _). congruence. }
  pose proof C as C'. unfold rots in C'. apply in_map_iff in C' as (cq & <- & Cq). rewrite Forall_forall in Fs. specialize (Fs cq Cq).
  destruct (inv_lemma q0 U0) as (Ui & _ & Ri).
  assert (Eg : g = rotMatOfQuat (hmul (invertQuat q0) (hmul r cq))) by (unfold g; now rewrite !rot_hmul, Ri).
  assert (Ug : unitq (hmul (invertQuat q0) (hmul r cq))) by (repeat apply hmul_unit; auto).
  assert (GI : g = mI) by (rewrite Eg; apply trace_three; auto; rewrite <- Eg; lra).
  destruct GR as (_ & G2 & _). destruct (G2 _ C) as [[Oc _] Ct]. exists (mt (rotMatOfQuat cq)). split; [exact Ct|].
  assert (H1 : mm (rotMatOfQuat r) (rotMatOfQuat cq) = rotMatOfQuat q0).
  { transitivity (mm (mm (rotMatOfQuat q0) (mt (rotMatOfQuat q0))) (mm (rotMatOfQuat r) (rotMatOfQuat cq))); [now rewrite (orth_both _ O0), mI_mm|]. rewrite <- mm_assoc. fold g. now rewrite GI, mm_mI. }
  rewrite <- H1, <- mm_assoc, (orth_both _ Oc), mm_mI. reflexivity.
Qed.
Print Assumptions C119_equivalent.
(** two orientations with two equally near copies: an error *)
Lemma half_sqrt : sqrt (/ 2) * sqrt (/ 2) = / 2 /\ 0 < sqrt (/ 2).
Proof. split; [apply sqrt_sqrt; lra|apply sqrt_lt_R0; lra]. Qed.
Lemma inv_one : invertQuat qone = qone.
Proof.
  destruct (fix_unit (Q4 (-1 * qw qone) (1 * qx qone) (1 * qy qone) (1 * qz qone))) as (_ & P & [E|E] & _); [unfold unitq, qone; cbn [qw qx qy qz]; ring| |].
  - exfalso. rewrite E in P. unfold qone in P. cbn [qw] in P. lra.
  - unfold invertQuat. rewrite E. unfold negq, qone. cbn [qw qx qy qz]. f_equal; ring.
Qed.
Lemma fix_pos : forall q, unitq q -> 0 <= qw q -> fixQuat q = q.
Proof. intros q U P. unfold fixQuat. rewrite unit4_id by assumption. destruct (Rlt_dec (qw q) 0); [lra|reflexivity]. Qed.
Lemma fix_neg : forall q, unitq q -> qw q < 0 -> fixQuat q = negq q.
Proof. intros q U P. unfold fixQuat. rewrite unit4_id by assumption. destruct (Rlt_dec (qw q) 0); [apply neg_scale|lra]. Qed.
Theorem C119_tie_refuted : exists q1 q2 qsym, unitq q1 /\ unitq q2 /\ Forall unitq qsym /\ is_group (rots qsym) /\ quatAverageCluster [q1; q2] qsym = Err ValueError.
Proof.
  destruct half_sqrt as [K KP]. set (k := sqrt (/ 2)) in *. clearbody k. exists qone, (Q4 k 0 k 0), [qone; Q4 0 0 1 0].
  assert (U2 : unitq (Q4 k 0 k 0)) by (unfold unitq; cbn [qw qx qy qz]; lra). split; [apply qone_unit|]. split; [exact U2|].
  destruct C117_ex as (_ & _ & _ & F & GR & _). split; [exact F|]. split; [exact GR|].
  unfold quatAverageCluster. cbn [map]. rewrite !unit4_id by (auto; apply qone_unit).
  unfold misorientation. rewrite eqv_one, inv_one. cbn [map].
  assert (E1 : hmul (hmul qone (hmul (Q4 k 0 k 0) qone)) qone = Q4 k 0 k 0) by (unfold hmul, qone; cbn [qw qx qy qz]; f_equal; ring).
  assert (E2 : hmul (hmul qone (hmul (Q4 k 0 k 0) (Q4 0 0 1 0))) qone = Q4 (- k) 0 k 0) by (unfold hmul, qone; cbn [qw qx qy qz]; f_equal; ring).
  rewrite E1, E2. rewrite (fix_pos (Q4 k 0 k 0)) by (auto; cbn [qw]; lra). rewrite (fix_neg (Q4 (- k) 0 k 0)) by (unfold unitq; cbn [qw qx qy qz]; lra).
  unfold negq. cbn [qw qx qy qz map]. replace (- - k) with k by ring. cbn [rmax_list rbind]. replace (Rmax k k) with k by (unfold Rmax; destruct (Rle_dec k k); reflexivity).
  assert (AS : exists a, arccosSafe k = Ok a). { unfold arccosSafe. rewrite Rabs_right by lra. assert (k < 1) by nra. destruct (Rlt_dec (100001 / 100000) k); [lra|eauto]. }
  destruct AS as (a & ->). cbn [rbind filter qw]. destruct (Req_EM_T k k); [reflexivity|congruence].
Qed.
Print Assumptions C119_tie_refuted.
(** two orientations with a half turn in the middle: no orientation at all *)
Theorem C119_half_turn_refuted : exists q1 q2 qsym, unitq q1 /\ unitq q2 /\ Forall unitq qsym /\ is_group (rots qsym) /\ quatAverageCluster [q1; q2] qsym = Ok qzero /\ ~ unitq qzero.
Proof.
  assert (K : sqrt 3 * sqrt 3 = 3) by (apply sqrt_sqrt; lra). assert (KP : 0 < sqrt 3) by (apply sqrt_lt_R0; lra).
  set (q1 := Q4 (/ 2) 0 0 (sqrt 3 / 2)). set (q2 := Q4 (/ 2) 0 0 (- (sqrt 3 / 2))). exists q1, q2, [qone].
  assert (U1 : unitq q1) by (unfold unitq, q1; cbn [qw qx qy qz]; nra). assert (U2 : unitq q2) by (unfold unitq, q2; cbn [qw qx qy qz]; nra).
  split; [exact U1|]. split; [exact U2|]. split; [constructor; [apply qone_unit|constructor]|]. split.
  { cbn [rots map]. rewrite qone_rot. split; [now left|]. split.
    - intros a [<-|[]]. split; [|now left]. rewrite <- qone_rot. apply unit_rot, qone_unit.
    - intros a b [<-|[]] [<-|[]]. left. now rewrite mm_mI. }
  split; [|unfold unitq, qzero; cbn [qw qx qy qz]; lra].
  unfold quatAverageCluster. cbn [map]. rewrite !unit4_id by assumption. unfold misorientation. rewrite eqv_one. cbn [map].
  assert (I1 : invertQuat q1 = Q4 (/ 2) 0 0 (- (sqrt 3 / 2))).
  { unfold invertQuat. rewrite fix_neg; [unfold negq, q1; cbn [qw qx qy qz]; f_equal; ring|apply inv_pre_unit, U1|unfold q1; cbn [qw]; lra]. }
  rewrite I1. assert (E : hmul (hmul qone (hmul q2 qone)) (Q4 (/ 2) 0 0 (- (sqrt 3 / 2))) = Q4 (- / 2) 0 0 (- (sqrt 3 / 2))).
  { unfold hmul, qone, q2. cbn [qw qx qy qz]. f_equal; nra. }
  rewrite E. rewrite fix_neg by (unfold unitq; cbn [qw qx qy qz]; nra). unfold negq. cbn [qw qx qy qz map]. rewrite !Ropp_involutive. replace (-0) with 0 by ring. cbn [rmax_list rbind].
  assert (A : arccosSafe (/ 2) = Ok (PI / 3)).
  { unfold arccosSafe. rewrite Rabs_right by lra. destruct (Rlt_dec (100001 / 100000) (/ 2)); [lra|]. f_equal. rewrite Rmax_right by lra. rewrite Rmin_right by lra.
    replace (/ 2) with (cos (PI / 3)) by (rewrite cos_PI3; field). apply acos_cos. pose proof PI_RGT_0. lra. }
  rewrite A. cbn [rbind filter qw]. destruct (Req_EM_T (/ 2) (/ 2)); [|congruence]. unfold qvec. cbn [qw qx qy qz].
  assert (N2 : norm2 (V3 0 0 1) = 1) by (unfold norm2, dot; cbn [vx vy vz]; ring).
  assert (NV : norm (V3 0 0 (sqrt 3 / 2)) = sqrt 3 / 2). { unfold norm, norm2, dot. cbn [vx vy vz]. replace (0 * 0 + 0 * 0 + sqrt 3 / 2 * (sqrt 3 / 2)) with (sqrt 3 / 2 * (sqrt 3 / 2)) by ring. apply sqrt_square. lra. }
  assert (S1 : 1 < sqrt 3) by (destruct (Rlt_dec 1 (sqrt 3)); auto; exfalso; nra).
  assert (V : unitVector (V3 0 0 (sqrt 3 / 2)) = V3 0 0 1). { unfold unitVector. rewrite NV. pose proof ten_epsf_small. destruct (Rle_dec (sqrt 3 / 2) ten_epsf); [lra|]. cbn [vx vy vz]. f_equal; field; lra. }
  rewrite V. replace (/ 2 * (2 * (PI / 3))) with (PI / 3) by field.
  unfold quatOfExpMap. rewrite rotvec_quat by exact N2. cbn [vx vy vz]. replace (PI / 3 / 2) with (PI / 6) by field. rewrite cos_PI6, sin_PI6.
  assert (SQ : scipy_to_quat (Q4 (sqrt 3 / 2) (1 / 2 * 0) (1 / 2 * 0) (1 / 2 * 1)) = Q4 (sqrt 3 / 2) 0 0 (/ 2)).
  { unfold scipy_to_quat, npsign. cbn [qw]. destruct (Rlt_dec (sqrt 3 / 2) 0); [lra|]. destruct (Rlt_dec 0 (sqrt 3 / 2)); [|lra]. unfold qscale. cbn [qw qx qy qz]. f_equal; field. }
  rewrite SQ. apply product_zero; auto; [unfold unitq; cbn [qw qx qy qz]; nra|]. unfold hmul, q1. cbn [qw qx qy qz]. field.
Qed.
Print Assumptions C119_half_turn_refuted.
(** one or two orientations are not brought to the fundamental region *)
Theorem C119_region_refuted : exists q qsym r, unitq q /\ Forall unitq qsym /\ is_group (rots qsym) /\ quatAverageCluster [q] qsym = Ok r /\
  exists c, In c (rots qsym) /\ tr (rotMatOfQuat r) < tr (mm (rotMatOfQuat r) c).
Proof.
  set (h := Q4 0 0 1 0). assert (U : unitq h) by (unfold unitq, h; cbn [qw qx qy qz]; ring). exists h, [qone; h], h. split; [exact U|].
  destruct C117_ex as (_ & _ & _ & F & GR & _). split; [exact F|]. split; [exact GR|]. split; [now apply C119_single|]. exists (rotMatOfQuat h). split; [now right; left|].
  rewrite <- rot_hmul. rewrite !trace_unit by (try apply hmul_unit; assumption). unfold hmul, h. cbn [qw qx qy qz]. lra.
Qed.
Print Assumptions C119_region_refuted.
(** a quarter turn about z under a half turn about y *)
Lemma ten_epsf_tiny : ten_epsf * 100 < 1.
Proof.
  unfold ten_epsf. assert (2 ^ 10 <= 2 ^ 52) by (apply Rle_pow; [lra|repeat constructor]). assert (0 < 2 ^ 52) by (apply pow_lt; lra).
  apply Rmult_lt_reg_r with (2 ^ 52); auto. replace (10 / 2 ^ 52 * 100 * 2 ^ 52) with 1000 by (field; lra). lra.
Qed.
Example C119_pair_ex : exists q1 q2 qsym t, unitq q1 /\ unitq q2 /\ Forall unitq qsym /\ (2 <= length qsym)%nat /\ sole_nearest (rotMatOfQuat q1) (rotMatOfQuat q2) (rots qsym) /\
  smallest_angle (rotMatOfQuat q1) (rotMatOfQuat q2) (rots qsym) [mI] t /\ ten_epsf < sin (t / 2) /\ exists mid, (forall x, mv mid x = rotated (V3 0 0 1) (t / 2) (mv (rotMatOfQuat q1) x)) /\ tr mid <> -1.
Proof.
  destruct half_sqrt as [K KP]. assert (C4 : cos (PI / 4) = sqrt (/ 2)). { rewrite cos_PI4. apply Rmult_eq_reg_r with (sqrt 2); [|apply Rgt_not_eq, sqrt_lt_R0; lra]. unfold Rdiv. rewrite Rmult_assoc, Rinv_l, Rmult_1_r by (apply Rgt_not_eq, sqrt_lt_R0; lra). rewrite <- sqrt_mult by lra. replace (/ 2 * 2) with 1 by field. now rewrite sqrt_1. }
  assert (S4 : sin (PI / 4) = sqrt (/ 2)) by (rewrite sin_cos_PI4; exact C4).
  set (k := sqrt (/ 2)) in *. clearbody k. assert (U2 : unitq (Q4 k 0 0 k)) by (unfold unitq; cbn [qw qx qy qz]; lra).
  destruct C117_ex as (_ & _ & _ & F & GR & _). set (qsym := [qone; Q4 0 0 1 0]) in *.
  assert (R1 : rotMatOfQuat qone = mI) by apply qone_rot.
  assert (T1 : tr (mm (mt (rotMatOfQuat qone)) (mm (rotMatOfQuat (Q4 k 0 0 k)) (rotMatOfQuat qone))) = 1). { rewrite R1, mm_mI. replace (mt mI) with mI by (clear; lin). rewrite mI_mm, trace_unit by assumption. cbn [qw]. lra. }
  assert (T2 : tr (mm (mt (rotMatOfQuat qone)) (mm (rotMatOfQuat (Q4 k 0 0 k)) (rotMatOfQuat (Q4 0 0 1 0)))) = -1). { rewrite R1. replace (mt mI) with mI by (clear; lin). rewrite mI_mm, <- rot_hmul, trace_unit. { unfold hmul. cbn [qw qx qy qz]. ring. } apply hmul_unit; auto. unfold unitq; cbn [qw qx qy qz]; ring. }
  exists qone, (Q4 k 0 0 k), qsym, (PI / 2). split; [apply qone_unit|]. split; [exact U2|]. split; [exact F|]. split; [cbn; lia|]. split.
  { exists 0%nat. cbn [rots map qsym length nth]. split; [lia|]. intros [|[|j]] J N; try lia. cbn [nth]. rewrite T1, T2. lra. }
  pose proof PI_RGT_0 as PP. split.
  { split.
    - exists (rotMatOfQuat qone), mI. split; [now left|]. split; [now left|]. rewrite mI_mm. split; [lra|]. rewrite T1, cos_PI2. field.
    - intros c s u Hc [<-|[]] [B1 B2]. rewrite mI_mm in B2. destruct Hc as [<-|[<-|[]]].
      + rewrite T1 in B2. destruct (Rle_dec (PI / 2) u); auto. exfalso. assert (cos (PI / 2) < cos u) by (apply cos_decreasing_1; lra). rewrite cos_PI2 in H. lra.
      + rewrite T2 in B2. destruct (Rle_dec (PI / 2) u); auto. exfalso. assert (cos (PI / 2) < cos u) by (apply cos_decreasing_1; lra). rewrite cos_PI2 in H. lra. }
  replace (PI / 2 / 2) with (PI / 4) by field. split. { rewrite S4. pose proof ten_epsf_tiny. destruct (Rlt_dec ten_epsf k); auto. exfalso. pose proof ten_epsf_small. nra. }
  assert (N2 : norm2 (V3 0 0 1) = 1) by (unfold norm2, dot; cbn [vx vy vz]; ring).
  exists (rotMatOfQuat (Q4 (cos (PI / 4 / 2)) (sin (PI / 4 / 2) * 0) (sin (PI / 4 / 2) * 0) (sin (PI / 4 / 2) * 1))). split.
  - intros x. rewrite R1, mv_I. exact (rodrigues_quat (V3 0 0 1) (PI / 4) x N2).
  - rewrite trace_unit by (exact (trig_unit (V3 0 0 1) (PI / 4) N2)). cbn [qw]. assert (0 < cos (PI / 4 / 2)) by (apply cos_gt_0; lra). nra.
Qed.
(** three orientations, one of them a symmetric copy *)
Example C119_many_ex : let qs := [Q4 (4 / 5) 0 0 (3 / 5); Q4 0 0 1 0] in let qsym := [qone; Q4 0 0 1 0] in
  (2 <= length qs)%nat /\ Forall unitq (qone :: qs) /\ Forall unitq qsym /\ is_group (rots qsym) /\ ten_epsf * INR (length (qone :: qs)) < 1 /\
  equivalent_or (rots qsym) (rotMatOfQuat qone) (rotMatOfQuat (Q4 0 0 1 0)).
Proof.
  intros qs qsym. destruct C117_ex as (_ & _ & _ & F & GR & _). split; [cbn; lia|]. split.
  { repeat constructor; unfold unitq, qone; cbn [qw qx qy qz]; field. }
  split; [exact F|]. split; [exact GR|]. split. { cbn [length qs INR]. pose proof ten_epsf_tiny. pose proof ten_epsf_small. lra. }
  exists (rotMatOfQuat (Q4 0 0 1 0)). split; [now right; left|]. now rewrite qone_rot, mI_mm.
Qed.

(** ** C120 *)
Theorem C120_none : forall dbscan fcl skl a radius thr ms grid compl qfib qsym, above thr compl qfib = [] ->
  run_cluster dbscan fcl skl a radius thr ms grid compl qfib qsym = Ok (1%nat, [], []).
Proof. intros. unfold run_cluster. rewrite above_eq, H. reflexivity. Qed.
Print Assumptions C120_none.
Theorem C120_one : forall dbscan fcl skl a radius thr ms grid compl qfib qsym q, above thr compl qfib = [q] ->
  run_cluster dbscan fcl skl a radius thr ms grid compl qfib qsym = Ok (4%nat, [q], [1%Z]).
Proof. intros. unfold run_cluster. rewrite above_eq, H. reflexivity. Qed.
Print Assumptions C120_one.
Lemma one_based_numbered : forall l, one_based l = map (numbered 0) l.
Proof. intros l. unfold one_based. apply map_ext. intros z. unfold numbered. destruct (Z.eqb_spec z (-1)); destruct (Z.eq_dec z (-1)); try congruence; lia. Qed.
Lemma labels_case : forall dbscan fcl skl a radius ms grid (pts : list q4) labels first recheck,
  labelling dbscan fcl radius (samples ms grid) (length pts) skl a labels first recheck ->
  (labels_of dbscan fcl skl (fallback skl a (length pts)) radius ms grid pts = Ok (if Z.eqb first 0 then one_based (labels pts) else labels pts)) /\
  (algo_eqb (fallback skl a (length pts)) Dbscan || algo_eqb (fallback skl a (length pts)) OrtDbscan)%bool = recheck /\
  ((first = 0%Z /\ exists m r k, labels = dbscan m r k) \/ (first = 1%Z /\ recheck = false /\ labels = fcl radius)).
Proof.
  intros dbscan fcl skl a radius ms grid pts labels first recheck L.
  assert (M : (match ms with Some m => if grid then 1%nat else m | None => 1%nat end) = samples ms grid) by (destruct ms, grid; reflexivity).
  assert (R4 : radius / 4 = 1 / 4 * radius) by field. assert (R2 : radius / 2 = 1 / 2 * radius) by field.
  assert (NL : forall n, (n <= 25000)%nat -> Nat.ltb 25000 n = false) by (intros; now apply Nat.ltb_ge).
  inversion L as [H E1 E2 E3 E4 E5|a' H E1 E2 E3 E4 E5|E1 E2 E3 E4 E5|skl' a' H E1 E2 E3 E4 E5]; subst.
  - unfold fallback. rewrite (NL _ H). cbn [andb orb algo_eqb negb]. unfold labels_of, with_sklearn. rewrite M. cbn [Z.eqb algo_eqb orb]. repeat split; auto. left. split; [reflexivity|eauto].
  - assert (FB : fallback true a (length pts) = OrtDbscan).
    { unfold fallback. destruct H as [->|[H [->| ->]]]; [|apply Nat.ltb_lt in H; rewrite H; reflexivity|apply Nat.ltb_lt in H; rewrite H; reflexivity]. destruct (Nat.ltb 25000 _); reflexivity. }
    rewrite FB. unfold labels_of, with_sklearn. rewrite M, R4. cbn [Z.eqb algo_eqb orb]. repeat split; auto. left. split; [reflexivity|eauto].
  - assert (FB : fallback true Dbscan (length pts) = Dbscan) by (unfold fallback; destruct (Nat.ltb 25000 _); reflexivity).
    rewrite FB. unfold labels_of, with_sklearn. rewrite M, R2. cbn [Z.eqb algo_eqb orb]. repeat split; auto. left. split; [reflexivity|eauto].
  - assert (FB : fallback skl a (length pts) = Fclusterdata).
    { unfold fallback. destruct H as [[H ->]|[-> ->]]; [rewrite (NL _ H); reflexivity|]. destruct (Nat.ltb 25000 _); reflexivity. }
    rewrite FB. unfold labels_of. cbn [Z.eqb algo_eqb orb]. repeat split; auto.
Qed.
Lemma seq_groups : forall first n cl (pts : list q4), (forall i, (i < n)%nat -> with_label (Z.of_nat i + 1) cl pts = members (first + Z.of_nat i) cl pts) ->
  map (fun i => with_label (Z.of_nat i + 1) cl pts) (seq 0 n) = clusters first n cl pts.
Proof. intros first n cl pts H. unfold clusters. apply map_ext_in. intros i I. apply H. apply in_seq in I. lia. Qed.
Lemma clusters_nonempty : forall noise first n labels (l : list q4), length labels = length l -> labels_clusters noise first n labels -> forall g, In g (clusters first n labels l) -> g <> [].
Proof.
  intros noise first n labels l L (_ & B) g I. unfold clusters in I. apply in_map_iff in I as (i & <- & I). apply in_seq in I. apply members_some; auto. apply B. lia.
Qed.
(** every orientation above the threshold is in exactly one cluster or is noise; the averages of the clusters are the result,
    after merging those that the second clustering puts together *)
Theorem C120_clusters : forall dbscan fcl skl a radius thr ms grid compl qfib qsym rows qbar cl labels first recheck,
  (forall m r k, dbscan_labels (dbscan m r k)) -> (forall r, fcluster_labels (fcl r)) ->
  let pts := above thr compl qfib in (2 <= length pts)%nat ->
  labelling dbscan fcl radius (samples ms grid) (length pts) skl a labels first recheck ->
  run_cluster dbscan fcl skl a radius thr ms grid compl qfib qsym = Ok (rows, qbar, cl) ->
  rows = 4%nat /\ exists n cents, labels_clusters (Z.eqb first 0) first n (labels pts) /\
    Permutation (concat (clusters first n (labels pts) pts) ++ members (-1) (labels pts) pts) pts /\
    averages_of qsym (clusters first n (labels pts) pts) cents /\
    (recheck = false \/ (n <= 1)%nat -> qbar = cents /\ cl = map (numbered first) (labels pts)) /\
    (recheck = true /\ (1 < n)%nat -> exists n2, labels_clusters false 1 n2 (fcl radius cents) /\
      Permutation (concat (clusters 1 n2 (fcl radius cents) cents)) cents /\ cl = fcl radius cents /\
      ((n2 < n)%nat -> averages_of qsym (clusters 1 n2 (fcl radius cents) cents) qbar) /\ ((n <= n2)%nat -> qbar = cents)).
Proof.
  intros dbscan fcl skl a radius thr ms grid compl qfib qsym rows qbar cl labels first recheck HD HF pts L2 LB H.
  unfold run_cluster in H. rewrite above_eq in H. fold pts in H. destruct (labels_case _ _ _ _ _ ms grid pts _ _ _ LB) as (LO & RE & CA).
  assert (PM : forall (x : result (nat * list q4 * list Z)) y z, match pts with [] => x | [q] => y q | _ => z end = z) by (intros; destruct pts as [|? [|? ?]]; cbn in L2; [lia|lia|reflexivity]).
  assert (H' : (do cl <- labels_of dbscan fcl skl (fallback skl a (length pts)) radius ms grid pts;
    do qbar <- averages (n_blobs cl) cl pts qsym;
    if (algo_eqb (fallback skl a (length pts)) Dbscan || algo_eqb (fallback skl a (length pts)) OrtDbscan) && Nat.ltb 1 (length qbar) then
      let cl' := fcl radius qbar in let nblobs_new := n_labels cl' in
      if Nat.ltb nblobs_new (n_blobs cl) then do tmp <- averages nblobs_new cl' qbar qsym; Ok (4%nat, tmp, cl') else Ok (4%nat, qbar, cl')
    else Ok (4%nat, qbar, cl)) = Ok (rows, qbar, cl)) by (destruct pts as [|p0 [|p1 pr]]; cbn in L2; [lia|lia|exact H]).
  clear H PM. rewrite LO in H'. cbn [rbind] in H'. rewrite RE in H'.
  assert (LL : length (labels pts) = length pts /\ exists n, labels_clusters (Z.eqb first 0) first n (labels pts) /\ n_blobs (if Z.eqb first 0 then one_based (labels pts) else labels pts) = n /\
     map (fun i => with_label (Z.of_nat i + 1) (if Z.eqb first 0 then one_based (labels pts) else labels pts) pts) (seq 0 n) = clusters first n (labels pts) pts /\ (0 <= first)%Z /\
     (if Z.eqb first 0 then one_based (labels pts) else labels pts) = map (numbered first) (labels pts)).
  { destruct CA as [(-> & m & r & k & ->)|(-> & _ & ->)].
    - destruct (HD m r k pts) as (E & n & N). split; [exact E|]. exists n. cbn [Z.eqb]. split; [exact N|]. split; [now apply blobs_dbscan|]. split; [|split; [lia|apply one_based_numbered]]. unfold clusters. apply map_ext_in. intros i I.
      rewrite with_label_eq. replace (0 + Z.of_nat i)%Z with (Z.of_nat i) by lia. apply members_shift; try lia. intros z Z. destruct N as (A & _). destruct (A z Z) as [?|[_ ?]]; lia.
    - destruct (HF radius pts) as (E & n & N). split; [exact E|]. exists n. cbn [Z.eqb]. split; [exact N|]. split; [now apply blobs_fcluster|]. split; [|split; [lia|]].
      + unfold clusters. apply map_ext_in. intros i I. rewrite with_label_eq. f_equal. lia.
      + rewrite <- map_id at 1. apply map_ext_in. intros z Z. unfold numbered. destruct N as (A & _). destruct (A z Z) as [?|[? _]]; [|discriminate]. destruct (Z.eq_dec z (-1)); lia. }
  destruct LL as (EL & n & LC & NB & GE & F0 & NU). rewrite NB in H'. set (cl0 := if Z.eqb first 0 then one_based (labels pts) else labels pts) in *.
  destruct (averages n cl0 pts qsym) as [cents|] eqn:AV; cbn [rbind] in H'; [|discriminate].
  pose proof (averages_ok _ _ _ _ _ _ AV (eq_sym GE) (clusters_nonempty _ _ _ _ _ EL LC)) as AO.
  assert (LN : length cents = n). { unfold averages_of in AO. assert (length (clusters first n (labels pts) pts) = length cents) by (clear - AO; induction AO; cbn; congruence). rewrite <- H. unfold clusters. now rewrite map_length, seq_length. }
  assert (PE : Permutation (concat (clusters first n (labels pts) pts) ++ members (-1) (labels pts) pts) pts).
  { apply whole; auto. intros z Z. destruct LC as (A & _). destruct (A z Z) as [?|[_ ?]]; auto. }
  rewrite LN in H'. destruct recheck; cbn [andb] in H'.
  2:{ injection H' as <- <- <-. split; [reflexivity|]. exists n, cents. split; [exact LC|]. split; [exact PE|]. split; [exact AO|]. split; [auto|]. intros [? _]; discriminate. }
  destruct (Nat.ltb_spec 1 n) as [L1|L1].
  2:{ injection H' as <- <- <-. split; [reflexivity|]. exists n, cents. split; [exact LC|]. split; [exact PE|]. split; [exact AO|]. split; [auto|]. intros [_ ?]; lia. }
  cbv zeta in H'. destruct (HF radius cents) as (E2 & n2 & N2). destruct (blobs_fcluster _ _ N2) as [_ B2]. rewrite B2 in H'.
  assert (PE2 : Permutation (concat (clusters 1 n2 (fcl radius cents) cents)) cents).
  { assert (W : Permutation (concat (clusters 1 n2 (fcl radius cents) cents) ++ members (-1) (fcl radius cents) cents) cents) by (apply whole; [lia|exact E2|]; intros z Z; destruct N2 as (A & _); destruct (A z Z) as [?|[? _]]; [auto|discriminate]).
    rewrite members_none, app_nil_r in W; [exact W|]. intros I. destruct N2 as (A & _). destruct (A _ I) as [?|[? _]]; [lia|discriminate]. }
  destruct (Nat.ltb_spec n2 n) as [L3|L3].
  - destruct (averages n2 (fcl radius cents) cents qsym) as [tmp|] eqn:AV2; cbn [rbind] in H'; [|discriminate]. injection H' as <- <- <-. split; [reflexivity|]. exists n, cents. split; [exact LC|]. split; [exact PE|]. split; [exact AO|]. split; [intros [?|?]; [discriminate|lia]|].
    intros _. exists n2. split; [exact N2|]. split; [exact PE2|]. split; [reflexivity|]. split; [|lia]. intros _. eapply averages_ok; [exact AV2| |].
    + unfold clusters. apply map_ext_in. intros i I. rewrite with_label_eq. f_equal. lia.
    + eapply clusters_nonempty; eauto.
  - injection H' as <- <- <-. split; [reflexivity|]. exists n, cents. split; [exact LC|]. split; [exact PE|]. split; [exact AO|]. split; [intros [?|?]; [discriminate|lia]|].
    intros _. exists n2. split; [exact N2|]. split; [exact PE2|]. split; [reflexivity|]. split; [lia|reflexivity].
Qed.
Print Assumptions C120_clusters.
Theorem C120_unknown : forall dbscan fcl skl s radius thr ms grid compl qfib qsym, (2 <= length (above thr compl qfib))%nat ->
  run_cluster dbscan fcl skl (OtherAlgo s) radius thr ms grid compl qfib qsym = Err RuntimeError.
Proof.
  intros. unfold run_cluster. rewrite above_eq. destruct (above thr compl qfib) as [|p [|p' l]]; [cbn in H; lia|cbn in H; lia|]. unfold fallback. destruct (Nat.ltb 25000 _); reflexivity.
Qed.
Print Assumptions C120_unknown.
(** the labels returned need not be those of the orientations *)
Definition ex_dbscan (_ : metric) (_ : R) (_ : nat) (l : list q4) : list Z := match l with [_; _; _] => [0; -1; 1]%Z | _ => map Z.of_nat (seq 0 (length l)) end.
Definition ex_fcluster (_ : R) (l : list q4) : list Z := map (fun i => Z.of_nat i + 1)%Z (seq 0 (length l)).
Lemma ex_dbscan_ok : forall m r k, dbscan_labels (ex_dbscan m r k).
Proof.
  assert (G : forall n, labels_clusters true 0 n (map Z.of_nat (seq 0 n))). { intros n. split; [intros z Z; apply in_map_iff in Z as (i & <- & I); apply in_seq in I; left; lia|]. intros i I. apply in_map_iff. exists i. split; [lia|apply in_seq; lia]. }
  intros m r k l. destruct l as [|a [|b [|c [|d l]]]].
  3:{ split; [reflexivity|]. exists 2%nat. exact (G 2%nat). }
  3:{ split; [reflexivity|]. exists 2%nat. split; [intros z [<-|[<-|[<-|[]]]]; [left; lia|right; auto|left; lia]|]. intros [|[|i]] I; cbn; [auto|auto|lia]. }
  - split; [reflexivity|]. exists 0%nat. exact (G 0%nat).
  - split; [reflexivity|]. exists 1%nat. exact (G 1%nat).
  - unfold ex_dbscan. split; [now rewrite map_length, seq_length|]. eexists. apply G.
Qed.
Lemma ex_fcluster_ok : forall r, fcluster_labels (ex_fcluster r).
Proof.
  intros r l. unfold ex_fcluster. split; [now rewrite map_length, seq_length|]. exists (length l). split; [intros z Z; apply in_map_iff in Z as (i & <- & I); apply in_seq in I; left; lia|]. intros i I. apply in_map_iff. exists i. split; [lia|apply in_seq; lia].
Qed.
Definition ex_pts : list q4 := [qone; Q4 0 0 1 0; Q4 0 1 0 0].
Lemma ex_pts_unit : Forall unitq ex_pts.
Proof. repeat constructor; unfold unitq, qone; cbn [qw qx qy qz]; ring. Qed.
Lemma ex_above : above (1 / 2) [1; 1 / 2; 1; 1] (Q4 0 0 0 1 :: ex_pts) = Q4 0 0 0 1 :: tl ex_pts.
Proof. unfold ex_pts. cbn [above tl]. repeat (destruct (Rlt_dec _ _); try lra). reflexivity. Qed.
Example C120_ex : let compl := [1; 1 / 2; 1; 1] in let qfib := Q4 0 0 0 1 :: ex_pts in
  length (above (1 / 2) compl qfib) = 3%nat /\ labelling ex_dbscan ex_fcluster 1 1 3 true OrtDbscan (ex_dbscan Euclid3 (1 / 4) 1) 0 true /\
  run_cluster ex_dbscan ex_fcluster true OrtDbscan 1 (1 / 2) None false compl qfib [qone] = Ok (4%nat, [Q4 0 0 0 1; Q4 0 1 0 0], [1; 2]%Z).
Proof.
  intros compl qfib. unfold qfib, compl. rewrite ex_above. split; [reflexivity|]. split; [apply by_vector_part; now left|]. unfold run_cluster. rewrite above_eq, ex_above. unfold ex_pts, tl.
  replace (fallback true OrtDbscan (length [Q4 0 0 0 1; Q4 0 0 1 0; Q4 0 1 0 0])) with OrtDbscan by (unfold fallback; destruct (Nat.ltb 25000 _); reflexivity).
  unfold labels_of, with_sklearn, ex_dbscan. cbn [rbind]. change (one_based [0; -1; 1]%Z) with [1; -1; 2]%Z. change (n_blobs [1; -1; 2]%Z) with 2%nat. unfold averages. cbn [seq map_res].
  change (with_label (Z.of_nat 0 + 1) [1; -1; 2]%Z [Q4 0 0 0 1; Q4 0 0 1 0; Q4 0 1 0 0]) with [Q4 0 0 0 1]. change (with_label (Z.of_nat 1 + 1) [1; -1; 2]%Z [Q4 0 0 0 1; Q4 0 0 1 0; Q4 0 1 0 0]) with [Q4 0 1 0 0].
  rewrite !C119_single by (unfold unitq; cbn [qw qx qy qz]; ring). reflexivity.
Qed.
Theorem C120_labels_refuted : exists dbscan fcl a radius thr compl qfib qsym qbar cl, (forall m r k, dbscan_labels (dbscan m r k)) /\ (forall r, fcluster_labels (fcl r)) /\
  run_cluster dbscan fcl true a radius thr None false compl qfib qsym = Ok (4%nat, qbar, cl) /\ length cl <> length (above thr compl qfib).
Proof.
  exists ex_dbscan, ex_fcluster, OrtDbscan, 1, (1 / 2), [1; 1 / 2; 1; 1], (Q4 0 0 0 1 :: ex_pts), [qone], [Q4 0 0 0 1; Q4 0 1 0 0], [1; 2]%Z.
  split; [apply ex_dbscan_ok|]. split; [apply ex_fcluster_ok|]. destruct C120_ex as (L & _ & E). split; [exact E|]. rewrite L. cbn. lia.
Qed.
Print Assumptions C120_labels_refuted.
