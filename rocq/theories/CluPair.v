(** Lemmas on the average of two and of more orientations. *)
From Coq Require Import Reals List Lia Lra ZArith Psatz.
From Verif Require Import Prelude Lin TensorModel TensorProofs RotModel RotSpec RotProofs RotProofs2 XfSpec FibModel FibProofs FibProps CluModel CluSpec CluProofs.
Import ListNotations.
Local Open Scope R_scope.
Local Notation length := List.length.

Lemma filter_sole : forall (l : list q4) i v, (i < length l)%nat -> (forall j, (j < length l)%nat -> j <> i -> qw (nth j l qone) < qw (nth i l qone)) -> v = qw (nth i l qone) ->
  filter (fun q => if Req_EM_T (qw q) v then true else false) l = [nth i l qone].
Proof.
  induction l as [|x r IH]; intros i v I H V; [cbn in I; lia|]. destruct i as [|i].
  - cbn [nth] in *. cbn [filter]. destruct (Req_EM_T (qw x) v) as [_|N]; [|congruence]. f_equal.
    assert (A : forall q, In q r -> qw q < v). { intros q Q. apply In_nth with (d := qone) in Q as (j & J & <-). rewrite V. apply (H (S j)); cbn; lia. }
    clear - A. induction r as [|y r IH]; [reflexivity|]. cbn [filter]. destruct (Req_EM_T (qw y) v) as [E|_]; [specialize (A y (or_introl eq_refl)); lra|]. apply IH. intros; apply A; now right.
  - cbn [filter nth]. destruct (Req_EM_T (qw x) v) as [E|_].
    + exfalso. specialize (H 0%nat). cbn [nth] in H. assert (qw x < qw (nth i r qone)) by (apply H; cbn; lia). cbn [nth] in V. lra.
    + apply IH; auto. { cbn in I; lia. } intros j J N. apply (H (S j)); cbn; lia.
Qed.
Lemma eqv_one : forall q1 q2 crys, eqv_mis q1 q2 crys [qone] = map (fun c => fixQuat (hmul (hmul qone (hmul q2 c)) (invertQuat q1))) crys.
Proof.
  intros q1 q2 crys. unfold eqv_mis. induction crys as [|c r IH]; [reflexivity|]. cbn [map flat_map app]. rewrite !right_mul, left_mul. f_equal. exact IH.
Qed.
Lemma qone_unit : unitq qone.
Proof. unfold unitq, qone. cbn [qw qx qy qz]. ring. Qed.
Lemma mm_mI : forall a, mm a mI = a. Proof. lin. Qed.
Lemma mI_mm : forall a, mm mI a = a. Proof. lin. Qed.
Lemma unit_orth : forall q, unitq q -> orthogonal (rotMatOfQuat q).
Proof. intros q U. apply (unit_rot q U). Qed.

(** with a sole nearest copy there is one column *)
Lemma sole_column : forall q1 q2 crys, unitq q1 -> unitq q2 -> Forall unitq crys -> sole_nearest (rotMatOfQuat q1) (rotMatOfQuat q2) (rots crys) ->
  exists t m, misorientation q1 q2 crys [qone] = Ok (t, [m]) /\ smallest_angle (rotMatOfQuat q1) (rotMatOfQuat q2) (rots crys) [mI] t /\ t = 2 * acos (qw m) /\
   unitq m /\ 0 <= qw m /\ exists c, In c (rots crys) /\ rotMatOfQuat m = mm (mm (rotMatOfQuat q2) c) (mt (rotMatOfQuat q1)).
Proof.
  intros q1 q2 crys U1 U2 F (i & I & S).
  assert (Nc : crys <> []) by (intros ->; cbn in I; lia).
  assert (Fs : Forall unitq [qone]) by (constructor; [apply qone_unit|constructor]).
  destruct (mis_lemma q1 q2 crys [qone] U1 U2 F Fs Nc ltac:(congruence)) as (t & mis & E & SA & N & X).
  set (f := fun c => fixQuat (hmul (hmul qone (hmul q2 c)) (invertQuat q1))).
  assert (G : forall c, In c crys -> unitq (f c) /\ 0 <= qw (f c) /\ rotMatOfQuat (f c) = mm (mm (rotMatOfQuat q2) (rotMatOfQuat c)) (mt (rotMatOfQuat q1))).
  { intros c C. rewrite Forall_forall in F. destruct (mis_rot q1 q2 c qone U1 U2 (F c C) qone_unit) as (A & B & D). fold (f c) in A, B, D. rewrite qone_rot, mI_mm in D. auto. }
  unfold misorientation in E. rewrite eqv_one in E. fold f in E.
  destruct (rmax_list (map qw (map f crys))) as [v|] eqn:V; cbn [rbind] in E; [|discriminate].
  assert (Nv : map qw (map f crys) <> []) by (destruct crys; [congruence|discriminate]).
  destruct (rmax_lemma _ Nv) as (v' & V' & Iv & Mv). rewrite V in V'. injection V' as <-.
  unfold rots in I, S. rewrite map_length in I, S.
  assert (H : forall j, (j < length (map f crys))%nat -> j <> i -> qw (nth j (map f crys) qone) < qw (nth i (map f crys) qone)).
  { intros j J Ne. rewrite map_length in J. specialize (S j J Ne).
    rewrite (nth_indep (map f crys) qone (f qone)), (nth_indep (map f crys) qone (f qone)) by (rewrite map_length; assumption). rewrite !map_nth.
    rewrite (nth_indep _ mI (rotMatOfQuat qone)), (nth_indep _ mI (rotMatOfQuat qone)) in S by (rewrite map_length; assumption). rewrite !map_nth in S.
    destruct (G (nth j crys qone)) as (Uj & Pj & Rj); [now apply nth_In|]. destruct (G (nth i crys qone)) as (Ui & Pi & Ri); [now apply nth_In|].
    rewrite (tr_mm_comm (mt _)), (tr_mm_comm (mt _)), <- Ri, <- Rj, !trace_unit in S by assumption. nra. }
  assert (Ve : v = qw (nth i (map f crys) qone)).
  { apply in_map_iff in Iv as (y & <- & Y). apply In_nth with (d := qone) in Y as (j & J & <-). destruct (Nat.eq_dec j i) as [->|Ne]; [reflexivity|].
    exfalso. specialize (H j J Ne). assert (qw (nth i (map f crys) qone) <= qw (nth j (map f crys) qone)) by (apply Mv, in_map, nth_In; now rewrite map_length). lra. }
  assert (FS := filter_sole (map f crys) i v). rewrite map_length in FS at 1. specialize (FS I H Ve). rewrite FS in E.
  set (m := nth i (map f crys) qone) in *. assert (IM : In m (map f crys)) by (apply nth_In; now rewrite map_length).
  destruct (arccosSafe v) as [a|] eqn:A; cbn [rbind] in E; [|discriminate]. injection E as Et Em. subst mis.
  assert (MM : misorientation q1 q2 crys [qone] = Ok (t, [m])). { unfold misorientation. rewrite eqv_one. fold f. rewrite V. cbn [rbind]. rewrite FS. rewrite A. cbn [rbind]. now rewrite Et. }
  apply in_map_iff in IM as (c & Cm & C). destruct (G c C) as (Um & Pm & Rm). rewrite Cm in Um, Pm, Rm.
  exists t, m. split; [exact MM|]. split. { cbn [rots map] in SA. rewrite qone_rot in SA. exact SA. } split.
  - unfold arccosSafe in A. assert (M1 : qw m <= 1) by (clear - Um; destruct m as [a b c d]; unfold unitq in Um; cbn [qw qx qy qz] in *; nra).
    rewrite Ve in A. fold m in A. rewrite Rabs_right in A by lra. destruct (Rlt_dec (100001 / 100000) (qw m)); [discriminate|]. injection A as <-.
    rewrite <- Et. f_equal. f_equal. rewrite Rmax_right by lra. rewrite Rmin_right; lra.
  - split; [exact Um|]. split; [exact Pm|]. exists (rotMatOfQuat c). split; [now apply in_map|exact Rm].
Qed.
Lemma mv_same : forall a b, (forall x, mv a x = mv b x) -> a = b.
Proof.
  intros [a b c d e f g h i] [a' b' c' d' e' f' g' h' i'] H. pose proof (H (V3 1 0 0)) as H1. pose proof (H (V3 0 1 0)) as H2. pose proof (H (V3 0 0 1)) as H3.
  unfold mv, row0, row1, row2, dot in *. cbn [m00 m01 m02 m10 m11 m12 m20 m21 m22 vx vy vz] in *. injection H1 as ? ? ?. injection H2 as ? ? ?. injection H3 as ? ? ?. f_equal; lra.
Qed.
Lemma pair_lemma : forall q1 q2 crys, unitq q1 -> unitq q2 -> Forall unitq crys -> sole_nearest (rotMatOfQuat q1) (rotMatOfQuat q2) (rots crys) ->
  forall t, smallest_angle (rotMatOfQuat q1) (rotMatOfQuat q2) (rots crys) [mI] t -> (t = 0 \/ ten_epsf < sin (t / 2)) ->
  exists n c, norm n = 1 /\ In c (rots crys) /\ (forall x, mv (mm (rotMatOfQuat q2) c) x = rotated n t (mv (rotMatOfQuat q1) x)) /\
  forall mid, (forall x, mv mid x = rotated n (t / 2) (mv (rotMatOfQuat q1) x)) -> tr mid <> -1 ->
    exists q, quatAverageCluster [q1; q2] crys = Ok q /\ unitq q /\ 0 < qw q /\ rotMatOfQuat q = mid.
Proof.
  intros q1 q2 crys U1 U2 F S t SA T. destruct (sole_column q1 q2 crys U1 U2 F S) as (t' & m & M & SA' & Et & Um & Pm & c & C & Rm).
  assert (TT : t' = t). { destruct SA as [(c1 & s1 & A1 & A2 & A3) A4]. destruct SA' as [(c2 & s2 & B1 & B2 & B3) B4]. apply Rle_antisym; [exact (B4 _ _ _ A1 A2 A3)|exact (A4 _ _ _ B1 B2 B3)]. } rewrite TT in Et, M. clear TT SA' t'.
  assert (M1 : qw m <= 1) by (clear - Um; destruct m as [a b c d]; unfold unitq in Um; cbn [qw qx qy qz] in *; nra).
  assert (TB : 0 <= t <= PI). { destruct SA as [(c1 & s1 & _ & _ & A3 & _) _]. exact A3. }
  assert (Cm : cos (t / 2) = qw m). { rewrite Et. replace (2 * acos (qw m) / 2) with (acos (qw m)) by field. apply cos_acos. lra. }
  assert (Sn : norm (qvec m) = sin (t / 2)).
  { assert (0 <= sin (t / 2)) by (apply sin_ge_0; lra). unfold norm. replace (norm2 (qvec m)) with (sin (t / 2) * sin (t / 2)); [now apply sqrt_square|].
    pose proof (sin2_cos2 (t / 2)) as P. unfold Rsqr in P. rewrite Cm in P. unfold unitq in Um. destruct m as [a b d e]. unfold qvec, norm2, dot. cbn [qw qx qy qz vx vy vz] in *. lra. }
  assert (R2c : forall x, mv (mm (rotMatOfQuat q2) c) x = mv (rotMatOfQuat m) (mv (rotMatOfQuat q1) x)).
  { intros x. rewrite Rm, <- !mv_mm. f_equal. rewrite <- mm_assoc. replace (mm (mt (rotMatOfQuat q1)) (rotMatOfQuat q1)) with mI; [now rewrite mm_mI|]. symmetry. apply (unit_orth q1 U1). }
  assert (HN : exists n, norm n = 1 /\ vscale (/ 2 * t) (unitVector (qvec m)) = vscale (t / 2) n /\ m = Q4 (cos (t / 2)) (sin (t / 2) * vx n) (sin (t / 2) * vy n) (sin (t / 2) * vz n)).
  { destruct T as [T|T].
    - exists (V3 1 0 0). clear Et. subst t. replace (0 / 2) with 0 in * by field. rewrite cos_0, sin_0 in *. split; [|split].
      + unfold norm, norm2, dot. cbn. replace (1 * 1 + 0 * 0 + 0 * 0) with 1 by ring. apply sqrt_1.
      + destruct (unitVector (qvec m)) as [a b d]. unfold vscale. cbn [vx vy vz]. f_equal; ring.
      + unfold unitq in Um. destruct m as [a b d e]. cbn [qw qx qy qz vx vy vz] in *. subst a. assert (b = 0 /\ d = 0 /\ e = 0) as (-> & -> & ->) by (repeat split; nra). f_equal; ring.
    - exists (unitVector (qvec m)). rewrite <- Sn in T. destruct (unit_vector_norm _ T) as [N E]. split; [exact N|]. split; [f_equal; field|].
      rewrite Sn in E. set (n := unitVector (qvec m)) in *. clearbody n. rewrite Cm. clear - E. destruct m as [a b d e]. unfold qvec in E. destruct n as [x y z]. unfold vscale in E. cbn [qw qx qy qz vx vy vz] in *. injection E as -> -> ->. reflexivity. }
  destruct HN as (n & N1 & NE & ME). assert (N2 : norm2 n = 1) by (rewrite <- norm_sq, N1; ring).
  exists n, c. split; [exact N1|]. split; [exact C|]. split. { intros x. rewrite R2c. rewrite ME at 1. now apply rodrigues_quat. }
  intros mid MID TR. unfold quatAverageCluster. cbn [map]. rewrite !unit4_id by assumption. rewrite M. cbn [rbind]. rewrite NE.
  assert (NT : norm (vscale (t / 2) n) = t / 2). { unfold norm. replace (norm2 (vscale (t / 2) n)) with (t / 2 * (t / 2) * norm2 n) by (clear; lin). rewrite N2, Rmult_1_r. apply sqrt_square. lra. }
  destruct (quat_exp_map (vscale (t / 2) n)) as (Uh & Ph & Rh). { rewrite NT. assert (0 < cos (t / 2 / 2)); [|lra]. pose proof PI_RGT_0. apply cos_gt_0; lra. }
  set (h := quatOfExpMap (vscale (t / 2) n)) in *. destruct (exp_map_lemma (vscale (t / 2) n)) as [_ XM]. specialize (XM n (t / 2) N1 eq_refl).
  assert (ER : mm (rotMatOfQuat h) (rotMatOfQuat q1) = mid). { apply mv_same. intros x. rewrite mv_mm, Rh, XM, MID. reflexivity. }
  assert (Uq : unitq (hmul h q1)) by now apply hmul_unit.
  assert (Nz : qw (hmul h q1) <> 0). { intros Z. apply (half_turn _ Uq) in Z. apply TR. rewrite <- ER, <- rot_hmul. exact Z. }
  destruct (product_lemma q1 h U1 Uh Nz) as (q & Q & Uq' & Pq & Rq). exists q. rewrite Q. repeat split; auto. now rewrite Rq.
Qed.
