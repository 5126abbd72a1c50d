(** Vectors of three reals and 3x3 real matrices.  Real numbers stand for floating point numbers in every
    model that imports this file. *)
From Coq Require Import Reals Lra Psatz.
Local Open Scope R_scope.

Record v3 := V3 { vx : R; vy : R; vz : R }.
(** rows first: [m01] is row 0, column 1 *)
Record m3 := M3 { m00 : R; m01 : R; m02 : R; m10 : R; m11 : R; m12 : R; m20 : R; m21 : R; m22 : R }.

Definition vadd (a b : v3) := V3 (vx a + vx b) (vy a + vy b) (vz a + vz b).
Definition vsub (a b : v3) := V3 (vx a - vx b) (vy a - vy b) (vz a - vz b).
Definition vscale (k : R) (a : v3) := V3 (k * vx a) (k * vy a) (k * vz a).
Definition vneg (a : v3) := vscale (-1) a.
Definition vzero := V3 0 0 0.
Definition dot (a b : v3) : R := vx a * vx b + vy a * vy b + vz a * vz b.
Definition cross (a b : v3) := V3 (vy a * vz b - vz a * vy b) (vz a * vx b - vx a * vz b) (vx a * vy b - vy a * vx b).
Definition norm2 (a : v3) : R := dot a a.
Definition norm (a : v3) : R := sqrt (norm2 a).
Definition e0 := V3 1 0 0.
Definition e1 := V3 0 1 0.
Definition e2 := V3 0 0 1.

Definition mzero := M3 0 0 0 0 0 0 0 0 0.
Definition mI := M3 1 0 0 0 1 0 0 0 1.
Definition madd (a b : m3) := M3 (m00 a + m00 b) (m01 a + m01 b) (m02 a + m02 b) (m10 a + m10 b) (m11 a + m11 b) (m12 a + m12 b)
  (m20 a + m20 b) (m21 a + m21 b) (m22 a + m22 b).
Definition mscale (k : R) (a : m3) := M3 (k * m00 a) (k * m01 a) (k * m02 a) (k * m10 a) (k * m11 a) (k * m12 a)
  (k * m20 a) (k * m21 a) (k * m22 a).
Definition msub (a b : m3) := madd a (mscale (-1) b).
Definition mt (a : m3) := M3 (m00 a) (m10 a) (m20 a) (m01 a) (m11 a) (m21 a) (m02 a) (m12 a) (m22 a).
Definition row0 (a : m3) := V3 (m00 a) (m01 a) (m02 a).
Definition row1 (a : m3) := V3 (m10 a) (m11 a) (m12 a).
Definition row2 (a : m3) := V3 (m20 a) (m21 a) (m22 a).
Definition col0 (a : m3) := row0 (mt a).
Definition col1 (a : m3) := row1 (mt a).
Definition col2 (a : m3) := row2 (mt a).
Definition of_rows (a b c : v3) := M3 (vx a) (vy a) (vz a) (vx b) (vy b) (vz b) (vx c) (vy c) (vz c).
Definition of_cols (a b c : v3) := mt (of_rows a b c).
Definition mv (a : m3) (u : v3) := V3 (dot (row0 a) u) (dot (row1 a) u) (dot (row2 a) u).
Definition mm (a b : m3) := of_cols (mv a (col0 b)) (mv a (col1 b)) (mv a (col2 b)).
Definition tr (a : m3) : R := m00 a + m11 a + m22 a.
Definition det (a : m3) : R := dot (row0 a) (cross (row1 a) (row2 a)).
Definition adj (a : m3) := of_cols (cross (row1 a) (row2 a)) (cross (row2 a) (row0 a)) (cross (row0 a) (row1 a)).
Definition diag (a b c : R) := M3 a 0 0 0 b 0 0 0 c.
Definition outer (a b : v3) := of_rows (vscale (vx a) b) (vscale (vy a) b) (vscale (vz a) b).
Definition symmetric (a : m3) := mt a = a.
Definition orthogonal (a : m3) := mm (mt a) a = mI.
(** a proper rotation *)
Definition rotation (a : m3) := orthogonal a /\ det a = 1.

Ltac lin_unfold := cbv beta iota delta [orthogonal symmetric norm2 vneg vadd vsub vscale cross vzero e0 e1 e2 mzero mI madd msub mscale adj diag outer of_cols
  tr mm mv mt col0 col1 col2 of_rows row0 row1 row2 det dot cross vx vy vz m00 m01 m02 m10 m11 m12 m20 m21 m22] in *.
Ltac lin_destruct := repeat match goal with v : v3 |- _ => destruct v | a : m3 |- _ => destruct a end.
Ltac lin := intros; lin_destruct; lin_unfold; try (f_equal; ring); try ring.

Lemma v3_eta : forall a, a = V3 (vx a) (vy a) (vz a). Proof. now intros []. Qed.
Lemma mm_assoc : forall a b c, mm a (mm b c) = mm (mm a b) c. Proof. lin. Qed.
Lemma mm_I_l : forall a, mm mI a = a. Proof. lin. Qed.
Lemma mm_I_r : forall a, mm a mI = a. Proof. lin. Qed.
Lemma mt_mt : forall a, mt (mt a) = a. Proof. lin. Qed.
Lemma mt_mm : forall a b, mt (mm a b) = mm (mt b) (mt a). Proof. lin. Qed.
Lemma mt_I : mt mI = mI. Proof. reflexivity. Qed.
Lemma mv_mm : forall a b u, mv (mm a b) u = mv a (mv b u). Proof. lin. Qed.
Lemma mv_I : forall u, mv mI u = u. Proof. lin. Qed.
Lemma mv_add : forall a u w, mv a (vadd u w) = vadd (mv a u) (mv a w). Proof. lin. Qed.
Lemma mv_sub : forall a u w, mv a (vsub u w) = vsub (mv a u) (mv a w). Proof. lin. Qed.
Lemma mv_scale : forall a k u, mv a (vscale k u) = vscale k (mv a u). Proof. lin. Qed.
Lemma det_mm : forall a b, det (mm a b) = det a * det b. Proof. lin. Qed.
Lemma det_mt : forall a, det (mt a) = det a. Proof. lin. Qed.
Lemma det_I : det mI = 1. Proof. lin. Qed.
Lemma mm_adj : forall a, mm a (adj a) = mscale (det a) mI. Proof. lin. Qed.
Lemma adj_mm : forall a, mm (adj a) a = mscale (det a) mI. Proof. lin. Qed.
Lemma mscale_1 : forall a, mscale 1 a = a. Proof. lin. Qed.
Lemma mscale_mm_l : forall k a b, mm (mscale k a) b = mscale k (mm a b). Proof. lin. Qed.
Lemma mscale_mm_r : forall k a b, mm a (mscale k b) = mscale k (mm a b). Proof. lin. Qed.
Lemma mscale_mscale : forall k l a, mscale k (mscale l a) = mscale (k * l) a. Proof. lin. Qed.
Lemma mv_dot : forall a u w, dot (mv a u) w = dot u (mv (mt a) w). Proof. lin. Qed.
Lemma dot_comm : forall u w, dot u w = dot w u. Proof. lin. Qed.
Lemma vsub_vadd : forall u w, vsub (vadd u w) w = u. Proof. lin. Qed.
Lemma norm2_pos : forall u, 0 <= norm2 u. Proof. lin. nra. Qed.
Lemma norm2_zero : forall u, norm2 u = 0 -> u = vzero.
Proof. lin. assert (vx0 = 0) by nra. assert (vy0 = 0) by nra. assert (vz0 = 0) by nra. now subst. Qed.
Lemma norm_sq : forall u, norm u * norm u = norm2 u. Proof. intros. apply sqrt_sqrt. apply norm2_pos. Qed.
Lemma norm_pos : forall u, 0 <= norm u. Proof. intros. apply sqrt_pos. Qed.
Lemma norm_zero_iff : forall u, norm u = 0 <-> u = vzero.
Proof.
  split; intros H.
  - apply norm2_zero. rewrite <- norm_sq, H. ring.
  - subst. unfold norm. lin_unfold. replace (0 * 0 + 0 * 0 + 0 * 0) with 0 by ring. apply sqrt_0.
Qed.
Lemma norm_gt0 : forall u, u <> vzero -> 0 < norm u.
Proof. intros u H. destruct (norm_pos u) as [G | G]; auto. exfalso. apply H. now apply norm_zero_iff. Qed.
Lemma norm2_norm1 : forall u, norm2 u = 1 -> norm u = 1.
Proof. intros u H. unfold norm. rewrite H. apply sqrt_1. Qed.

Lemma det_orth : forall a, orthogonal a -> det a * det a = 1.
Proof. intros a H. rewrite <- (det_mt a) at 1. rewrite <- det_mm, H. apply det_I. Qed.
Lemma orth_both : forall a, orthogonal a -> mm a (mt a) = mI.
Proof.
  intros a H. pose proof (det_orth a H) as D.
  assert (E : mt a = mscale (det a) (adj a)).
  { rewrite <- (mscale_1 (mt a)), <- D, <- mscale_mscale. f_equal. rewrite <- (mm_I_r (mt a)) at 1.
    rewrite <- mscale_mm_r. rewrite <- mm_adj. rewrite mm_assoc, H. now rewrite mm_I_l. }
  rewrite E, mscale_mm_r, mm_adj, mscale_mscale, D. apply mscale_1.
Qed.
Lemma orth_mt : forall a, orthogonal a -> orthogonal (mt a).
Proof. intros a H. unfold orthogonal. rewrite mt_mt. now apply orth_both. Qed.
Lemma orth_mm : forall a b, orthogonal a -> orthogonal b -> orthogonal (mm a b).
Proof. unfold orthogonal. intros a b A B. rewrite mt_mm, mm_assoc, <- (mm_assoc (mt b)), A, mm_I_r. exact B. Qed.
Lemma rot_mm : forall a b, rotation a -> rotation b -> rotation (mm a b).
Proof. intros a b [A A'] [B B']. split. { now apply orth_mm. } rewrite det_mm, A', B'. ring. Qed.
Lemma rot_mt : forall a, rotation a -> rotation (mt a).
Proof. intros a [A A']. split. { now apply orth_mt. } now rewrite det_mt. Qed.
Lemma rot_I : rotation mI. Proof. split; lin. Qed.
Lemma orth_dot : forall a u w, orthogonal a -> dot (mv a u) (mv a w) = dot u w.
Proof. intros a u w H. rewrite mv_dot, <- mv_mm, H. now rewrite mv_I. Qed.
Lemma orth_inj : forall a u w, orthogonal a -> mv a u = mv a w -> u = w.
Proof. intros a u w H E. rewrite <- (mv_I u), <- (mv_I w), <- H, !mv_mm. now rewrite E. Qed.
Lemma rot_adj : forall a, rotation a -> adj a = mt a.
Proof. intros a [H D]. rewrite <- (mm_I_l (adj a)), <- H, <- mm_assoc, mm_adj, D, mscale_1. apply mm_I_r. Qed.
Lemma cauchy : forall u w, dot u w * dot u w <= norm2 u * norm2 w.
Proof.
  intros [a b c] [x y z]. lin_unfold.
  pose proof (pow2_ge_0 (a * y - b * x)). pose proof (pow2_ge_0 (b * z - c * y)). pose proof (pow2_ge_0 (c * x - a * z)). nra.
Qed.
Lemma mm_col : forall a b, mm (mt a) b = M3 (dot (col0 a) (col0 b)) (dot (col0 a) (col1 b)) (dot (col0 a) (col2 b))
  (dot (col1 a) (col0 b)) (dot (col1 a) (col1 b)) (dot (col1 a) (col2 b)) (dot (col2 a) (col0 b)) (dot (col2 a) (col1 b)) (dot (col2 a) (col2 b)).
Proof. lin. Qed.
(** the nine scalar equations of orthogonality *)
Lemma orth_eqs : forall a, orthogonal a ->
  norm2 (col0 a) = 1 /\ norm2 (col1 a) = 1 /\ norm2 (col2 a) = 1 /\ dot (col0 a) (col1 a) = 0 /\ dot (col0 a) (col2 a) = 0 /\ dot (col1 a) (col2 a) = 0.
Proof. unfold orthogonal. intros a H. rewrite mm_col in H. unfold mI in H. injection H as ? ? ? ? ? ? ? ? ?. repeat split; assumption. Qed.
Lemma orth_of_eqs : forall a,
  norm2 (col0 a) = 1 -> norm2 (col1 a) = 1 -> norm2 (col2 a) = 1 -> dot (col0 a) (col1 a) = 0 -> dot (col0 a) (col2 a) = 0 -> dot (col1 a) (col2 a) = 0 -> orthogonal a.
Proof.
  unfold orthogonal, norm2. intros a H1 H2 H3 H4 H5 H6. rewrite mm_col. unfold mI.
  rewrite (dot_comm (col1 a) (col0 a)), (dot_comm (col2 a) (col0 a)), (dot_comm (col2 a) (col1 a)). f_equal; assumption.
Qed.
(** trace bounds *)
Lemma rot_trace_id : forall a, rotation a ->
  (1 + tr a) * (3 - tr a) = (m21 a - m12 a)^2 + (m02 a - m20 a)^2 + (m10 a - m01 a)^2.
Proof.
  intros a H. pose proof (rot_adj a H) as E. destruct H as [H _]. destruct (orth_eqs a H) as (A & B & C & _).
  destruct a as [a b c d e f g h i]. lin_unfold. injection E as E1 E2 E3 E4 E5 E6 E7 E8 E9. nra.
Qed.
Lemma orth_entry : forall a, orthogonal a -> -1 <= m00 a <= 1 /\ -1 <= m11 a <= 1 /\ -1 <= m22 a <= 1.
Proof. intros a H. destruct (orth_eqs a H) as (A & B & C & _). destruct a as [a b c d e f g h i]. lin_unfold. repeat split; nra. Qed.
Lemma rot_trace_bounds : forall a, rotation a -> -1 <= tr a <= 3.
Proof.
  intros a H. pose proof (rot_trace_id a H) as T. destruct H as [H _]. destruct (orth_entry a H) as (A & B & C).
  unfold tr in *. split; [|lra].
  assert (P : 0 <= (1 + (m00 a + m11 a + m22 a)) * (3 - (m00 a + m11 a + m22 a))).
  { rewrite T. pose proof (pow2_ge_0 (m21 a - m12 a)). pose proof (pow2_ge_0 (m02 a - m20 a)). pose proof (pow2_ge_0 (m10 a - m01 a)). lra. }
  destruct (Req_dec (m00 a + m11 a + m22 a) 3); [lra|]. nra.
Qed.
