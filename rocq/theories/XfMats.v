(** Proofs about the rotation matrices, rotation of vectors and quaternion distance of the transforms. *)
From Coq Require Import Reals Lra Psatz ZArith Lia.
From Verif Require Import Prelude Lin TensorModel RotModel RotSpec RotProofs RotProofs2 RigModel RigProofs XfModel XfSpec XfTrig.
Local Open Scope R_scope.

(** ** vectors *)
Lemma urv_true : forall v u, unit_row_vector v = (u, true) -> c_epsf < norm v /\ u = direction v /\ unit u.
Proof.
  intros v u H. unfold unit_row_vector in H. destruct (Rlt_dec c_epsf (norm v)) as [L|L]; [|discriminate]. injection H as <-. split; [assumption|].
  pose proof epsf_small. assert (P : 0 < norm v) by lra. split.
  - unfold direction, vscale. f_equal; unfold Rdiv; ring.
  - unfold unit. pose proof (norm_sq v) as Q. destruct v as [x y z]. unfold norm2, dot in *. cbn [vx vy vz] in *. set (n := norm (V3 x y z)) in *.
    replace (x / n * (x / n) + y / n * (y / n) + z / n * (z / n)) with ((x * x + y * y + z * z) / (n * n)) by (field; lra). rewrite <- Q. field. lra.
Qed.
Lemma urv_false : forall v u, unit_row_vector v = (u, false) -> norm v <= c_epsf /\ u = v.
Proof. intros v u H. unfold unit_row_vector in H. destruct (Rlt_dec c_epsf (norm v)); [discriminate|]. injection H as <-. split; [lra|reflexivity]. Qed.
Lemma urv_big : forall v, c_epsf < norm v -> unit_row_vector v = (direction v, true).
Proof. intros v H. destruct (unit_row_vector v) as [u b] eqn:E. destruct b. { apply urv_true in E. destruct E as (_ & -> & _). reflexivity. } apply urv_false in E. lra. Qed.
Lemma guarded_big : forall v, c_epsf < norm v -> guarded_unit v = direction v.
Proof. intros v H. unfold guarded_unit. now rewrite (urv_big v H). Qed.
Lemma direction_unit : forall v, v <> vzero -> unit (direction v).
Proof.
  intros v H. pose proof (norm_gt0 v H) as P. pose proof (norm_sq v) as Q. unfold unit, direction. destruct v as [x y z]. unfold norm2, dot, vscale in *. cbn [vx vy vz] in *.
  set (n := norm (V3 x y z)) in *. replace (/ n * x * (/ n * x) + / n * y * (/ n * y) + / n * z * (/ n * z)) with ((x * x + y * y + z * z) / (n * n)) by (field; lra). rewrite <- Q. field. lra.
Qed.
Lemma big_nonzero : forall v, c_epsf < norm v -> v <> vzero.
Proof. intros v H ->. assert (N : norm vzero = 0) by (now apply norm_zero_iff). rewrite N in H. pose proof epsf_small. lra. Qed.
Lemma direction_of_unit : forall v, unit v -> direction v = v.
Proof. intros v H. unfold direction. rewrite (norm2_norm1 v H). destruct v. lin_unfold. f_equal; field. Qed.
Lemma unit_norm : forall v, unit v -> norm v = 1.
Proof. exact norm2_norm1. Qed.
Lemma unit_big : forall v, unit v -> c_epsf < norm v.
Proof. intros v H. rewrite (unit_norm v H). pose proof epsf_small. lra. Qed.
Lemma direction_scale : forall k v, 0 < k -> v <> vzero -> direction (vscale k v) = direction v.
Proof.
  intros k v K H. pose proof (norm_gt0 v H) as P. unfold direction. assert (E : norm (vscale k v) = k * norm v).
  { unfold norm. replace (norm2 (vscale k v)) with (k * k * norm2 v) by (destruct v; lin_unfold; ring). rewrite sqrt_mult_alt by nra. rewrite sqrt_square by lra. reflexivity. }
  rewrite E. destruct v as [x y z]. unfold vscale. cbn [vx vy vz]. f_equal; field; lra.
Qed.

(** ** frames *)
Lemma frame_rotation : forall b y, unit b -> unit y -> dot b y = 0 -> rotation (of_cols (cross b y) y (vneg b)).
Proof.
  intros b y B Y D. assert (L : norm2 (cross b y) = 1).
  { replace (norm2 (cross b y)) with (norm2 b * norm2 y - dot b y * dot b y) by (destruct b, y; lin_unfold; ring). rewrite B, Y, D. ring. }
  split.
  - apply orth_of_eqs; unfold of_cols, col0, col1, col2; rewrite mt_mt.
    + exact (eq_trans (f_equal norm2 (eq_sym (v3_eta (cross b y)))) L).
    + exact (eq_trans (f_equal norm2 (eq_sym (v3_eta y))) Y).
    + clear - B. destruct b. unfold unit in B. lin_unfold. lra.
    + destruct b, y. lin_unfold. ring.
    + destruct b, y. lin_unfold. ring.
    + clear - D. destruct b, y. lin_unfold. lra.
  - replace (det (of_cols (cross b y) y (vneg b))) with (norm2 (cross b y)) by (destruct b, y; lin_unfold; ring). exact L.
Qed.
Lemma cross_perp : forall a b, dot b (cross a b) = 0 /\ dot a (cross a b) = 0.
Proof. intros [] []. lin_unfold. split; ring. Qed.
Lemma beam_ok : forall b e r, make_beam_rmat b e = Ok r ->
  c_epsf < norm b /\ c_epsf < norm (cross e b) /\ r = of_cols (cross (direction b) (direction (cross e b))) (direction (cross e b)) (vneg (direction b)).
Proof.
  intros b e r H. unfold make_beam_rmat in H. destruct (unit_row_vector b) as [bh []] eqn:EB; [|discriminate]. cbn [negb] in H.
  replace (V3 (vy e * vz b - vy b * vz e) (vz e * vx b - vz b * vx e) (vx e * vy b - vx b * vy e)) with (cross e b) in H by (destruct b, e; lin_unfold; f_equal; ring).
  destruct (unit_row_vector (cross e b)) as [yh []] eqn:EY; [|discriminate]. cbn [negb] in H. injection H as <-.
  apply urv_true in EB as (NB & -> & _). apply urv_true in EY as (NY & -> & _). split; [assumption|]. split; [assumption|].
  generalize (direction b) (direction (cross e b)). intros [] []. lin_unfold. f_equal; ring.
Qed.
Lemma beam_total : forall b e, c_epsf < norm b -> c_epsf < norm (cross e b) -> exists r, make_beam_rmat b e = Ok r.
Proof.
  intros b e B Y. unfold make_beam_rmat. rewrite (urv_big b B). cbn [negb].
  replace (V3 (vy e * vz b - vy b * vz e) (vz e * vx b - vz b * vx e) (vx e * vy b - vx b * vy e)) with (cross e b) by (destruct b, e; lin_unfold; f_equal; ring).
  rewrite (urv_big _ Y). cbn [negb]. eexists. reflexivity.
Qed.
Lemma beam_err : forall b e, norm b <= c_epsf \/ norm (cross e b) <= c_epsf -> make_beam_rmat b e = Err RuntimeError.
Proof.
  intros b e H. destruct (make_beam_rmat b e) as [r|x] eqn:E.
  - apply beam_ok in E as (A & B & _). lra.
  - unfold make_beam_rmat in E. destruct (unit_row_vector b) as [bh []]; cbn [negb] in E; [|congruence].
    destruct (unit_row_vector (V3 _ _ _)) as [yh []]; cbn [negb] in E; congruence.
Qed.
Lemma dir_dot : forall u v, dot (direction u) v = / norm u * dot u v.
Proof. intros. unfold direction. destruct u, v. lin_unfold. ring. Qed.
Lemma dir_dot_r : forall u v, dot u (direction v) = / norm v * dot u v.
Proof. intros. rewrite dot_comm, dir_dot, dot_comm. reflexivity. Qed.
Lemma frame_of : forall b e, b <> vzero -> cross e b <> vzero ->
  beam_frame b e (of_cols (cross (direction b) (direction (cross e b))) (direction (cross e b)) (vneg (direction b))).
Proof.
  intros b e NB NY. pose proof (norm_gt0 _ NB) as PB. pose proof (norm_gt0 _ NY) as PY. pose proof (direction_unit _ NB) as UB. pose proof (direction_unit _ NY) as UY.
  assert (D : dot (direction b) (direction (cross e b)) = 0). { rewrite dir_dot, dir_dot_r, (proj1 (cross_perp e b)). ring. }
  split; [now apply frame_rotation|]. split; [|split].
  - generalize (direction b) (direction (cross e b)). intros [] []. lin_unfold. f_equal; ring.
  - replace (vx (mv (mt (of_cols (cross (direction b) (direction (cross e b))) (direction (cross e b)) (vneg (direction b)))) e))
      with (dot (direction (cross e b)) (cross e (direction b))).
    2: { generalize (direction b) (direction (cross e b)). intros [] []. destruct e. lin_unfold. ring. }
    rewrite dir_dot. replace (cross e (direction b)) with (vscale (/ norm b) (cross e b)). 2: { unfold direction. generalize (/ norm b). intros k. destruct e, b. lin_unfold. f_equal; ring. }
    replace (dot (cross e b) (vscale (/ norm b) (cross e b))) with (/ norm b * norm2 (cross e b)). 2: { generalize (/ norm b) (cross e b). intros k []. lin_unfold. ring. }
    rewrite <- norm_sq. apply Rmult_lt_0_compat; [now apply Rinv_0_lt_compat|]. apply Rmult_lt_0_compat; [now apply Rinv_0_lt_compat|]. nra.
  - replace (vy (mv (mt (of_cols (cross (direction b) (direction (cross e b))) (direction (cross e b)) (vneg (direction b)))) e))
      with (dot (direction (cross e b)) e).
    2: { generalize (direction b) (direction (cross e b)). intros [] []. destruct e. lin_unfold. ring. }
    rewrite dir_dot, dot_comm, (proj2 (cross_perp e b)). ring.
Qed.
Lemma beam_lemma : forall b e r, make_beam_rmat b e = Ok r -> beam_frame b e r.
Proof. intros b e r H. apply beam_ok in H as (B & Y & ->). apply frame_of; now apply big_nonzero. Qed.
(** the beam frame is unique *)
Lemma frame_unique : forall b e r r', b <> vzero -> beam_frame b e r -> beam_frame b e r' -> r = r'.
Proof.
  intros b e r r' NB (R & Z & X & Y) (R' & Z' & X' & Y').
  set (q := mm (mt r) r'). assert (Q : rotation q) by (apply rot_mm; [now apply rot_mt|assumption]).
  assert (QZ : mv q (V3 0 0 (-1)) = V3 0 0 (-1)).
  { unfold q. rewrite mv_mm, Z', <- Z, <- mv_mm. replace (mm (mt r) r) with mI by (symmetry; exact (proj1 R)). apply mv_I. }
  assert (QE : mv q (mv (mt r') e) = mv (mt r) e).
  { unfold q. rewrite mv_mm. rewrite <- (mv_mm r' (mt r')), (orth_both r' (proj1 R')), mv_I. reflexivity. }
  assert (QI : q = mI).
  { clearbody q. set (u := mv (mt r) e) in *. set (u' := mv (mt r') e) in *. clearbody u u'. clear R R' Z Z'.
    destruct (orth_eqs q (proj1 Q)) as (A & B & C & D & E & F). pose proof (rot_adj q Q) as AD.
    destruct q as [a b0 c d f g h i j]. destruct u as [x y z], u' as [x' y' z']. cbn [vx vy vz] in *. subst y y'.
    unfold mv, dot, row0, row1, row2 in QZ, QE. cbn [vx vy vz m00 m01 m02 m10 m11 m12 m20 m21 m22] in QZ, QE. injection QZ as c0 g0 j0. injection QE as E1 E2 E3.
    assert (c = 0) by lra. assert (g = 0) by lra. assert (j = 1) by lra. subst c g j. lin_unfold. injection AD as A1 A2 A3 A4 A5 A6 A7 A8 A9.
    assert (d = 0). { assert (d * x' = 0) by lra. apply Rmult_integral in H as [|]; lra. } subst d.
    assert (h = 0) by lra. assert (i = 0) by lra. subst h i. assert (b0 = 0) by lra. subst b0.
    assert (a * a = 1) by lra. assert (HX : a * x' = x) by lra. assert (A1' : a = 1). { assert (K : (a - 1) * (a + 1) = 0) by lra. apply Rmult_integral in K as [|]; [lra|]. exfalso. assert (Ha : a = -1) by lra. rewrite Ha in HX. clear - HX X X'. lra. }
    f_equal; lra. }
  rewrite <- (mm_I_r r), <- QI. unfold q. rewrite mm_assoc, (orth_both r (proj1 R)), mm_I_l. reflexivity.
Qed.
Lemma rot_x_rot : forall t, rotation (rot_x t).
Proof. intros t. pose proof (sin2_cos2 t) as T. unfold Rsqr in T. split; unfold rot_x; lin_unfold; [f_equal|]; nra. Qed.
Lemma rot_y_rot : forall t, rotation (rot_y t).
Proof. intros t. pose proof (sin2_cos2 t) as T. unfold Rsqr in T. split; unfold rot_y; lin_unfold; [f_equal|]; nra. Qed.
Lemma rot_z_rot : forall t, rotation (rot_z t).
Proof. intros t. pose proof (sin2_cos2 t) as T. unfold Rsqr in T. split; unfold rot_z; lin_unfold; [f_equal|]; nra. Qed.
Lemma sample_eq : forall chi ome, make_sample_rmat chi ome = mm (rot_x chi) (rot_y ome).
Proof. intros. unfold make_sample_rmat, rot_x, rot_y. lin_unfold. f_equal; ring. Qed.
Lemma sample_rot : forall chi ome, rotation (make_sample_rmat chi ome).
Proof. intros. rewrite sample_eq. apply rot_mm; [apply rot_x_rot|apply rot_y_rot]. Qed.
Lemma detector_eq : forall t, make_detector_rmat t = mm (rot_z (vz t)) (mm (rot_y (vy t)) (rot_x (vx t))).
Proof. intros. unfold make_detector_rmat, rot_x, rot_y, rot_z. lin_unfold. f_equal; ring. Qed.
Lemma detector_rot : forall t, rotation (make_detector_rmat t).
Proof. intros. rewrite detector_eq. apply rot_mm; [apply rot_z_rot|apply rot_mm; [apply rot_y_rot|apply rot_x_rot]]. Qed.
Lemma binary_action : forall a v, mv (make_binary_rmat a) v = vsub (vscale (2 * dot a v) a) v.
Proof. intros [] []. unfold make_binary_rmat. lin_unfold. f_equal; ring. Qed.
Lemma binary_rot : forall a, unit a -> rotation (make_binary_rmat a).
Proof.
  intros a H. assert (E : make_binary_rmat a = angleaxis_matrix PI a).
  { unfold make_binary_rmat, angleaxis_matrix. rewrite cos_PI, sin_PI. destruct a. unfold unit in H. lin_unfold. f_equal; ring. }
  unfold make_binary_rmat. destruct a as [x y z]. unfold unit in H. unfold norm2, dot in H. cbn [vx vy vz] in H. clear E.
  assert (X : x * x = 1 - y * y - z * z) by lra. split; lin_unfold; [f_equal|]; ring [X].
Qed.
Lemma binary_half_turn : forall a v, unit a -> mv (make_binary_rmat a) v = rotated a PI v.
Proof. intros a v _. rewrite binary_action. unfold rotated. rewrite cos_PI, sin_PI. destruct a, v. lin_unfold. f_equal; ring. Qed.
Lemma expmap_rot : forall e, rotation (make_rmat_of_expmap e).
Proof. intros. rewrite expmap_same. apply exp_map_rotation. Qed.
Lemma expmap_zero : make_rmat_of_expmap vzero = mI.
Proof. rewrite expmap_same. apply exp_map_lemma. reflexivity. Qed.
Lemma expmap_turn : forall n t v, unit n -> 0 < t -> mv (make_rmat_of_expmap (vscale t n)) v = rotated n t v.
Proof.
  intros n t v N T. assert (NN : norm (vscale t n) = t). { unfold norm. replace (norm2 (vscale t n)) with (t * t * norm2 n) by (destruct n; lin_unfold; ring). rewrite N, Rmult_1_r. apply sqrt_square. lra. }
  unfold make_rmat_of_expmap. rewrite NN, angleaxis_action. f_equal. unfold eigen_normalized. destruct (Req_EM_T (norm2 (vscale t n)) 0) as [Z|Z].
  { exfalso. assert (norm (vscale t n) = 0). { unfold norm. rewrite Z. apply sqrt_0. } lra. } rewrite NN. destruct n. lin_unfold. f_equal; field; lra.
Qed.

(** ** rotation of vectors *)
Lemma rotate_lemma : forall t a v, a <> vzero -> rotate_about_axis t a v = Some (rotated (direction a) t v).
Proof.
  intros t a v H. pose proof (norm_gt0 a H) as P. unfold rotate_about_axis. destruct (Req_EM_T (norm a) 0); [lra|]. f_equal.
  unfold rotated, direction. set (m := norm a) in *. clearbody m. destruct a as [x y z], v as [u w q]. unfold vadd, vscale, cross, dot. cbn [vx vy vz]. f_equal; field; lra.
Qed.
Lemma rotate_zero : forall t v, rotate_about_axis t vzero v = None.
Proof. intros. unfold rotate_about_axis. assert (N : norm vzero = 0) by (now apply norm_zero_iff). rewrite N. destruct (Req_EM_T 0 0); [reflexivity|lra]. Qed.
Lemma rotate_vecs_lemma : forall ang ax vecs out, rotate_vecs_about_axis ang ax vecs = Ok out -> exists angs axes,
  spread ang (List.length vecs) = Ok angs /\ spread ax (List.length vecs) = Ok axes /\ out = map (fun p => rotate_about_axis (fst (fst p)) (snd (fst p)) (snd p)) (combine (combine angs axes) vecs).
Proof.
  intros ang ax vecs out H. unfold rotate_vecs_about_axis in H. destruct (spread ang _) as [a|] eqn:A; [|discriminate]. cbn [rbind] in H. destruct (spread ax _) as [x|] eqn:X; [|discriminate]. cbn [rbind] in H. injection H as <-. now exists a, x.
Qed.

(** ** quaternion distance *)
Definition qd_abs (q1 q2 qs : q4) : R := Rabs (dot4 q1 (hmul q2 qs)).
Definition qd_max (q1 q2 : q4) (l : list q4) (m : R) : R := fold_left (fun m qs => if Rlt_dec m (qd_abs q1 q2 qs) then qd_abs q1 q2 qs else m) l m.
Lemma qd_unfold : forall q1 q2 l, quat_distance q1 q2 l =
  let m := qd_max q1 q2 l 0 in if Rle_dec m 1 then Some (2 * acos m) else if Rlt_dec (m - 1) (/ 10 ^ 12) then Some 0 else None.
Proof.
  intros q1 q2 l. unfold quat_distance, qd_max, qd_abs.
  match goal with |- context [fold_left ?f l 0] => match f with context [hmul] => fail 1 | _ => set (F := f) end end.
  replace (fold_left F l 0) with (fold_left (fun m qs => if Rlt_dec m (Rabs (dot4 q1 (hmul q2 qs))) then Rabs (dot4 q1 (hmul q2 qs)) else m) l 0); [reflexivity|].
  generalize 0. induction l as [|qs l IH]; intros m; cbn [fold_left]; [reflexivity|]. rewrite IH. f_equal. unfold F.
  match goal with |- _ = (if Rlt_dec _ (Rabs ?e) then _ else _) => replace e with (dot4 q1 (hmul q2 qs)); [reflexivity|] end.
  destruct q1 as [a b c d], q2 as [a' b' c' d'], qs as [e f g h]. unfold dot4, hmul. cbn [qw qx qy qz]. ring.
Qed.
Lemma qd_max_ge : forall q1 q2 l m, m <= qd_max q1 q2 l m /\ forall q, In q l -> qd_abs q1 q2 q <= qd_max q1 q2 l m.
Proof.
  intros q1 q2. induction l as [|a l IH]; intros m; cbn [qd_max fold_left]. { split; [lra|]. now intros q []. }
  fold (qd_max q1 q2 l (if Rlt_dec m (qd_abs q1 q2 a) then qd_abs q1 q2 a else m)). destruct (IH (if Rlt_dec m (qd_abs q1 q2 a) then qd_abs q1 q2 a else m)) as [A B].
  destruct (Rlt_dec m (qd_abs q1 q2 a)); split; try lra; intros q [<-|H]; auto; lra.
Qed.
Lemma qd_max_in : forall q1 q2 l m, qd_max q1 q2 l m = m \/ exists q, In q l /\ qd_max q1 q2 l m = qd_abs q1 q2 q.
Proof.
  intros q1 q2. induction l as [|a l IH]; intros m; cbn [qd_max fold_left]. { now left. }
  fold (qd_max q1 q2 l (if Rlt_dec m (qd_abs q1 q2 a) then qd_abs q1 q2 a else m)). destruct (IH (if Rlt_dec m (qd_abs q1 q2 a) then qd_abs q1 q2 a else m)) as [A|(q & Q & A)].
  - rewrite A. destruct (Rlt_dec m (qd_abs q1 q2 a)); [right; exists a; split; [now left|reflexivity]|now left].
  - right. exists q. split; [now right|assumption].
Qed.
Lemma dot4_le : forall p q, unitq p -> unitq q -> Rabs (dot4 p q) <= 1.
Proof.
  intros p q P Q. assert (H : dot4 p q * dot4 p q <= 1).
  { destruct p as [a b c d], q as [e f g h]. unfold unitq, dot4 in *. cbn [qw qx qy qz] in *.
    assert (0 <= (a * f - b * e) ^ 2 + (a * g - c * e) ^ 2 + (a * h - d * e) ^ 2 + (b * g - c * f) ^ 2 + (b * h - d * f) ^ 2 + (c * h - d * g) ^ 2).
    { repeat apply Rplus_le_le_0_compat; apply pow2_ge_0. }
    replace 1 with ((a * a + b * b + c * c + d * d) * (e * e + f * f + g * g + h * h)) by (rewrite P, Q; ring). nra. }
  destruct (Rle_dec (Rabs (dot4 p q)) 1) as [|N]; auto. exfalso. assert (1 < Rabs (dot4 p q)) by lra.
  assert (Rabs (dot4 p q) * Rabs (dot4 p q) = dot4 p q * dot4 p q) by (rewrite <- Rabs_mult; apply Rabs_right; nra). nra.
Qed.
Lemma qd_angle : forall q1 q2 qs, unitq q1 -> unitq q2 -> unitq qs ->
  angle_of (mm (mt (rotMatOfQuat q1)) (mm mI (mm (rotMatOfQuat q2) (rotMatOfQuat qs)))) (2 * acos (qd_abs q1 q2 qs)).
Proof.
  intros q1 q2 qs U1 U2 US. rewrite mm_I_l, <- rot_hmul. pose proof (hmul_unit q2 qs U2 US) as U. unfold qd_abs. set (q := hmul q2 qs) in *. clearbody q.
  pose proof (dot4_le q1 q U1 U) as L. pose proof (Rabs_pos (dot4 q1 q)) as P. set (m := Rabs (dot4 q1 q)) in *.
  assert (MM : m * m = dot4 q1 q * dot4 q1 q) by (unfold m; rewrite <- Rabs_mult; apply Rabs_right; nra).
  pose proof (acos_bound m) as B. assert (C : cos (acos m) = m) by (apply cos_acos; lra).
  assert (H : acos m <= PI / 2). { destruct (Rle_dec (acos m) (PI / 2)) as [|N]; auto. exfalso. assert (cos (acos m) < 0) by (apply cos_lt_0; lra). lra. }
  split. { lra. } rewrite rot_trace2. replace (dot4 q1 q1) with 1 by (symmetry; exact U1). replace (dot4 q q) with 1 by (symmetry; exact U). rewrite cos_2a_cos, C. lra.
Qed.
Lemma acos_anti : forall x y, 0 <= x <= y -> y <= 1 -> acos y <= acos x.
Proof.
  intros x y H L. destruct (Rle_dec (acos y) (acos x)) as [|N]; auto. exfalso. assert (acos x < acos y) by lra.
  pose proof (acos_bound x). pose proof (acos_bound y). assert (cos (acos y) < cos (acos x)) by (apply cos_decreasing_1; lra). rewrite !cos_acos in H3 by lra. lra.
Qed.
Lemma qd_lemma : forall q1 q2 l, unitq q1 -> unitq q2 -> Forall unitq l -> l <> [] ->
  exists t, quat_distance q1 q2 l = Some t /\ smallest_angle (rotMatOfQuat q1) (rotMatOfQuat q2) (rots l) [mI] t.
Proof.
  intros q1 q2 l U1 U2 F N. rewrite Forall_forall in F. destruct (qd_max_ge q1 q2 l 0) as [G0 G]. rewrite qd_unfold. cbv zeta.
  assert (I : exists q, In q l /\ qd_max q1 q2 l 0 = qd_abs q1 q2 q).
  { destruct (qd_max_in q1 q2 l 0) as [Z|]; auto. destruct l as [|q l']; [congruence|]. exists q. split; [now left|]. specialize (G q (or_introl eq_refl)). pose proof (Rabs_pos (dot4 q1 (hmul q2 q))). unfold qd_abs in *. lra. }
  destruct I as (q & Q & E). assert (L : qd_max q1 q2 l 0 <= 1). { rewrite E. apply dot4_le; auto. apply hmul_unit; auto. }
  destruct (Rle_dec (qd_max q1 q2 l 0) 1); [|lra]. eexists. split; [reflexivity|]. split.
  - exists (rotMatOfQuat q), mI. split; [now apply in_map|]. split; [now left|]. rewrite E. apply qd_angle; auto.
  - intros c s u Hc Hs A. apply in_map_iff in Hc as (q' & <- & Hq). destruct Hs as [<-|[]]. rewrite (angle_of_unique _ _ _ A (qd_angle q1 q2 q' U1 U2 (F _ Hq))).
    assert (acos (qd_max q1 q2 l 0) <= acos (qd_abs q1 q2 q')); [|lra]. apply acos_anti; auto. split; [apply Rabs_pos|]. now apply G.
Qed.
