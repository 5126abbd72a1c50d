(** Proofs about the unit cell geometry: lattice vectors. *)
From Coq Require Import Reals List String Lra Psatz.
From Verif Require Import Prelude Lin TensorModel LatModel LatSpec.
Import ListNotations.
Local Open Scope R_scope.

Definition ggram (ca cb cg : R) : R := 1 - ca * ca - cb * cb - cg * cg + 2 * ca * cb * cg.
(** what the construction needs *)
Definition good (k : cell) : Prop :=
  0 < vx (c_len k) /\ 0 < vy (c_len k) /\ 0 < vz (c_len k) /\ 0 < sin (vy (c_ang k)) /\ 0 < sin (vz (c_ang k)) /\
  0 < ggram (cos (vx (c_ang k))) (cos (vy (c_ang k))) (cos (vz (c_ang k))).
Definition gram (k : cell) : m3 :=
  let a := vx (c_len k) in let b := vy (c_len k) in let c := vz (c_len k) in
  let ca := cos (vx (c_ang k)) in let cb := cos (vy (c_ang k)) in let cg := cos (vz (c_ang k)) in
  M3 (a * a) (a * b * cg) (a * c * cb) (a * b * cg) (b * b) (b * c * ca) (a * c * cb) (b * c * ca) (c * c).

Lemma sin2_1 : forall x, sin x * sin x = 1 - cos x * cos x.
Proof. intros x. pose proof (sin2_cos2 x) as H. unfold Rsqr in H. lra. Qed.
Lemma possible_good : forall len ang, possible_cell len ang -> good (Cell len ang).
Proof.
  intros [a b c] [al be ga] (A & B & C & P & Q & R & T1 & T2 & T3 & T4). unfold good. cbn [c_len c_ang vx vy vz] in *.
  repeat split; try assumption; try (apply sin_gt_0; lra).
  assert (S : ggram (cos al) (cos be) (cos ga) = (cos al - cos (be + ga)) * (cos (be - ga) - cos al)).
  { rewrite cos_plus, cos_minus. unfold ggram. pose proof (sin2_1 be) as S1. pose proof (sin2_1 ga) as S2.
    replace ((cos al - (cos be * cos ga - sin be * sin ga)) * (cos be * cos ga + sin be * sin ga - cos al))
      with (2 * cos al * cos be * cos ga - cos al * cos al - cos be * cos be * (cos ga * cos ga) + (sin be * sin be) * (sin ga * sin ga)) by ring.
    rewrite S1, S2. ring. }
  rewrite S. apply Rmult_lt_0_compat.
  - destruct (Rle_dec (be + ga) PI) as [L|L].
    + assert (cos (be + ga) < cos al) by (apply cos_decreasing_1; lra). lra.
    + assert (E : cos (be + ga) = cos (2 * PI - (be + ga))).
      { replace (2 * PI - (be + ga)) with (- (be + ga) + 2 * INR 1 * PI) by (cbn [INR]; ring). rewrite cos_period, cos_neg. reflexivity. }
      rewrite E. assert (cos (2 * PI - (be + ga)) < cos al) by (apply cos_decreasing_1; lra). lra.
  - destruct (Rle_dec ga be) as [L|L].
    + assert (cos al < cos (be - ga)) by (apply cos_decreasing_1; lra). lra.
    + replace (be - ga) with (- (ga - be)) by ring. rewrite cos_neg.
      assert (cos al < cos (ga - be)) by (apply cos_decreasing_1; lra). lra.
Qed.

(** the direction cosines of the third vector *)
Lemma xform_facts : forall al be ga, 0 < sin be -> 0 < sin ga -> 0 < ggram (cos al) (cos be) (cos ga) ->
  forall x y, cosineXform al be ga = (x, y) -> x * (sin be * sin ga) = cos be * cos ga - cos al /\ y * y = 1 - x * x /\ 0 < y.
Proof.
  intros al be ga SB SG G x y E. unfold cosineXform in E. injection E as <- <-.
  set (x := (cos be * cos ga - cos al) / (sin be * sin ga)).
  assert (PP : 0 < sin be * sin ga) by (apply Rmult_lt_0_compat; assumption).
  assert (X : x * (sin be * sin ga) = cos be * cos ga - cos al) by (unfold x; field; lra).
  assert (L : 0 < 1 - x * x).
  { apply Rmult_lt_reg_r with ((sin be * sin ga) * (sin be * sin ga)). { apply Rmult_lt_0_compat; assumption. }
    rewrite Rmult_0_l. replace ((1 - x * x) * (sin be * sin ga * (sin be * sin ga)))
      with ((sin be * sin be) * (sin ga * sin ga) - (x * (sin be * sin ga)) * (x * (sin be * sin ga))) by ring.
    rewrite X, !sin2_1. unfold ggram in G. lra. }
  split; [exact X|]. split; [apply sqrt_sqrt; lra|]. apply sqrt_lt_R0. exact L.
Qed.
Lemma frame_facts : forall k, good k ->
  mm (mt (cell_frame k)) (cell_frame k) = gram k /\ 0 < det (cell_frame k) /\
  col0 (cell_frame k) = V3 (vx (c_len k)) 0 0 /\ 0 < vy (col1 (cell_frame k)) /\ vz (col1 (cell_frame k)) = 0.
Proof.
  intros [[a b c] [al be ga]] (A & B & C & SB & SG & G). cbn [c_len c_ang vx vy vz] in *.
  unfold cell_frame, gram. cbn [c_len c_ang vx vy vz].
  destruct (cosineXform al be ga) as [x y] eqn:E. destruct (xform_facts al be ga SB SG G x y E) as (X & Y & P). clear E G.
  pose proof (sin2_1 be) as S1. pose proof (sin2_1 ga) as S2.
  generalize dependent (cos al). intros ca X. generalize dependent (cos be). generalize dependent (cos ga). generalize dependent (sin be). generalize dependent (sin ga).
  intros sg SG sb SB cg S2 cb S1 X. lin_unfold.
  split; [|split; [|split; [|split]]].
  - f_equal; try ring.
    + replace (b * cg * (b * cg) + b * sg * (b * sg) + b * 0 * (b * 0)) with (b * b * (cg * cg + sg * sg)) by ring. rewrite S2. ring.
    + replace (b * cg * (c * cb) + b * sg * (c * (- x * sb)) + b * 0 * (c * (y * sb))) with (b * c * (cb * cg - x * (sb * sg))) by ring. rewrite X. ring.
    + replace (c * cb * (b * cg) + c * (- x * sb) * (b * sg) + c * (y * sb) * (b * 0)) with (b * c * (cb * cg - x * (sb * sg))) by ring. rewrite X. ring.
    + replace (c * cb * (c * cb) + c * (- x * sb) * (c * (- x * sb)) + c * (y * sb) * (c * (y * sb))) with (c * c * (cb * cb + (sb * sb) * (x * x + y * y))) by ring.
      rewrite Y, S1. ring.
  - match goal with |- 0 < ?e => replace e with ((a * (b * sg)) * (c * (y * sb))) by ring end.
    repeat apply Rmult_lt_0_compat; assumption.
  - f_equal; ring.
  - apply Rmult_lt_0_compat; assumption.
  - ring.
Qed.

Lemma cos_between : forall u v, u <> vzero -> v <> vzero -> -1 <= dot u v / norm u / norm v <= 1.
Proof.
  intros u v U V. pose proof (norm_gt0 u U) as NU. pose proof (norm_gt0 v V) as NV. pose proof (cauchy u v) as C.
  rewrite <- (norm_sq u), <- (norm_sq v) in C.
  set (x := dot u v / norm u / norm v). assert (X : dot u v = x * (norm u * norm v)) by (unfold x; field; lra).
  rewrite X in C. assert (P : 0 < norm u * norm v) by (apply Rmult_lt_0_compat; assumption).
  assert (XX : x * x <= 1).
  { apply Rmult_le_reg_r with ((norm u * norm v) * (norm u * norm v)). { apply Rmult_lt_0_compat; assumption. } lra. }
  split; nra.
Qed.
Lemma acos_between : forall u v, u <> vzero -> v <> vzero -> angle_between u v (acos (dot u v / norm u / norm v)).
Proof.
  intros u v U V. split; [apply acos_bound|]. rewrite cos_acos by (now apply cos_between).
  pose proof (norm_gt0 u U). pose proof (norm_gt0 v V). field. lra.
Qed.
Lemma angle_unique : forall u v s t, u <> vzero -> v <> vzero -> angle_between u v s -> angle_between u v t -> s = t.
Proof.
  intros u v s t U V [S A] [T B]. pose proof (norm_gt0 u U) as NU. pose proof (norm_gt0 v V) as NV.
  assert (E : cos s = cos t). { apply Rmult_eq_reg_l with (norm u * norm v). { lra. } apply Rgt_not_eq. apply Rmult_lt_0_compat; assumption. }
  rewrite <- (acos_cos s S), <- (acos_cos t T), E. reflexivity.
Qed.
Lemma angle_sym : forall u v t, angle_between u v t -> angle_between v u t.
Proof. intros u v t [A B]. split; auto. rewrite dot_comm, B. ring. Qed.

Lemma norm_eq : forall u x, 0 < x -> norm2 u = x * x -> norm u = x.
Proof. intros u x P E. unfold norm. rewrite E. apply sqrt_square. lra. Qed.
Lemma col_nonzero : forall M, det M <> 0 -> col0 M <> vzero /\ col1 M <> vzero /\ col2 M <> vzero.
Proof.
  intros [a b c d e f g h i] D. repeat split; intros E; apply D; lin_unfold; injection E as -> -> ->; ring.
Qed.
Lemma gram_shape : forall M k, 0 < vx (c_len k) -> 0 < vy (c_len k) -> 0 < vz (c_len k) ->
  0 <= vx (c_ang k) <= PI -> 0 <= vy (c_ang k) <= PI -> 0 <= vz (c_ang k) <= PI ->
  mm (mt M) M = gram k -> has_shape M (c_len k) (c_ang k).
Proof.
  intros M [[a b c] [al be ga]] A B C P Q R E. cbn [c_len c_ang vx vy vz] in *. rewrite mm_col in E. unfold gram in E. cbn [c_len c_ang vx vy vz] in E.
  injection E as E00 E01 E02 E10 E11 E12 E20 E21 E22.
  assert (NA : norm (col0 M) = a) by (apply norm_eq; assumption). assert (NB : norm (col1 M) = b) by (apply norm_eq; assumption). assert (NC : norm (col2 M) = c) by (apply norm_eq; assumption).
  unfold has_shape, angle_between. cbn [vx vy vz]. rewrite NA, NB, NC, E01, E12, E20. repeat split; try assumption; try lra; try tauto; ring.
Qed.
Lemma shape_gram : forall M k, has_shape M (c_len k) (c_ang k) -> mm (mt M) M = gram k.
Proof.
  intros M [[a b c] [al be ga]] (A & B & C & [_ P] & [_ Q] & [_ R]). cbn [c_len c_ang vx vy vz] in *. rewrite mm_col. unfold gram. cbn [c_len c_ang vx vy vz].
  rewrite (dot_comm (col1 M) (col0 M)), (dot_comm (col0 M) (col2 M)), (dot_comm (col2 M) (col1 M)), P, Q, R.
  change (dot (col0 M) (col0 M)) with (norm2 (col0 M)). change (dot (col1 M) (col1 M)) with (norm2 (col1 M)). change (dot (col2 M) (col2 M)) with (norm2 (col2 M)).
  rewrite <- !norm_sq, A, B, C. f_equal; ring.
Qed.
Lemma shape_params : forall M len ang, det M <> 0 -> has_shape M len ang -> latticeParameters M = Cell len ang.
Proof.
  intros M [a b c] [al be ga] D (A & B & C & P & Q & R). cbn [vx vy vz] in *. destruct (col_nonzero M D) as (ZA & ZB & ZC).
  unfold latticeParameters.
  assert (S : forall u v t, u <> vzero -> v <> vzero -> angle_between u v t -> acos (dot (vscale (/ norm u) u) (vscale (/ norm v) v)) = t).
  { intros u v t U V T. assert (E : dot (vscale (/ norm u) u) (vscale (/ norm v) v) = dot u v / norm u / norm v).
    { pose proof (norm_gt0 u U). pose proof (norm_gt0 v V). generalize dependent (norm u). generalize dependent (norm v). intros. destruct u, v. lin_unfold. field. lra. }
    rewrite E. apply (angle_unique u v); auto. now apply acos_between. }
  rewrite (S _ _ _ ZB ZC P), (S _ _ _ ZA ZC (angle_sym _ _ _ Q)), (S _ _ _ ZA ZB R), A, B, C. reflexivity.
Qed.
(** the columns of a regular matrix have good parameters *)
Lemma reg_good : forall M, 0 < det M * det M -> good (latticeParameters M) /\ has_shape M (c_len (latticeParameters M)) (c_ang (latticeParameters M)).
Proof.
  intros M D. assert (D' : det M <> 0) by (intros E; rewrite E in D; lra). destruct (col_nonzero M D') as (ZA & ZB & ZC).
  set (k := Cell (V3 (norm (col0 M)) (norm (col1 M)) (norm (col2 M)))
    (V3 (acos (dot (col1 M) (col2 M) / norm (col1 M) / norm (col2 M))) (acos (dot (col2 M) (col0 M) / norm (col2 M) / norm (col0 M)))
        (acos (dot (col0 M) (col1 M) / norm (col0 M) / norm (col1 M))))).
  assert (S : has_shape M (c_len k) (c_ang k)).
  { repeat split; cbn [k c_len c_ang vx vy vz]; try (apply acos_bound); apply acos_between; assumption. }
  pose proof (shape_params M (c_len k) (c_ang k) D' S) as E. rewrite E. split; [|exact S].
  pose proof (shape_gram M k S) as G.
  assert (DG : det M * det M = det (gram k)). { rewrite <- G, det_mm, det_mt. reflexivity. }
  destruct S as (A & B & C & [P _] & [Q _] & [R _]).
  assert (PA : 0 < vx (c_len k)) by (rewrite <- A; now apply norm_gt0). assert (PB : 0 < vy (c_len k)) by (rewrite <- B; now apply norm_gt0). assert (PC : 0 < vz (c_len k)) by (rewrite <- C; now apply norm_gt0).
  clearbody k. clear E. destruct k as [[a b c] [al be ga]]. unfold good. cbn [c_len c_ang vx vy vz] in *.
  assert (GG : 0 < ggram (cos al) (cos be) (cos ga)).
  { rewrite DG in D. unfold gram in D. cbn [c_len c_ang vx vy vz] in D. clear - D PA PB PC. lin_unfold. unfold ggram.
    set (x := cos al) in *. set (y := cos be) in *. set (z := cos ga) in *. clearbody x y z.
    apply Rmult_lt_reg_l with ((a * b * c) * (a * b * c)). { apply Rmult_lt_0_compat; repeat apply Rmult_lt_0_compat; assumption. } lra. }
  assert (SS : forall t x y, 0 <= t <= PI -> 0 < ggram x y (cos t) -> -1 <= x <= 1 -> 0 < sin t).
  { intros t x y T H X. assert (T0 : 0 <= sin t) by (apply sin_ge_0; lra). destruct T0 as [|T0]; [assumption|]. exfalso.
    pose proof (sin2_1 t) as S1. rewrite <- T0 in S1. assert (CC : cos t * cos t = 1) by lra.
    unfold ggram in H. assert (H' : ggram x y (cos t) = - ((x - y * cos t) * (x - y * cos t))) by (unfold ggram; replace ((x - y * cos t) * (x - y * cos t)) with (x * x - 2 * x * y * cos t + y * y * (cos t * cos t)) by ring; rewrite CC; ring).
    unfold ggram in H'. rewrite H' in H. pose proof (Rle_0_sqr (x - y * cos t)) as Z. unfold Rsqr in Z. lra. }
  pose proof (COS_bound al).
  repeat split; try assumption.
  - apply (SS be (cos al) (cos ga)); auto. unfold ggram in *. lra.
  - apply (SS ga (cos al) (cos be)); auto.
Qed.
Lemma minv_r : forall M, det M <> 0 -> mm M (minv M) = mI.
Proof. intros M D. unfold minv. rewrite mscale_mm_r, mm_adj, mscale_mscale. replace (/ det M * det M) with 1 by (field; exact D). apply mscale_1. Qed.
Lemma minv_l : forall M, det M <> 0 -> mm (minv M) M = mI.
Proof. intros M D. unfold minv. rewrite mscale_mm_l, adj_mm, mscale_mscale. replace (/ det M * det M) with 1 by (field; exact D). apply mscale_1. Qed.
Lemma recip_dual : forall F, det F <> 0 ->
  let a := col0 F in let b := col1 F in let c := col2 F in let V := dot a (cross b c) in
  mm (mt F) (of_cols (vscale (/ V) (cross b c)) (vscale (/ V) (cross c a)) (vscale (/ V) (cross a b))) = mI.
Proof.
  intros F D a b c V. assert (E : V = det F) by (unfold V, a, b, c; destruct F; lin_unfold; ring). assert (NV : V <> 0) by (now rewrite E).
  set (iv := / V). assert (IV : iv * V = 1) by (unfold iv; field; exact NV). clearbody iv. clear E D NV. unfold V, a, b, c in *. clear V a b c. destruct F as [p q r s t u v w x]. lin_unfold.
  f_equal; try ring; rewrite <- IV; ring.
Qed.
(** everything about a cell *)
Lemma lattice_facts : forall k, good k -> let L := lattice_of k in
  mm (mt (l_F L)) (l_F L) = gram k /\ col0 (l_F L) = V3 (vx (c_len k)) 0 0 /\ 0 < vy (col1 (l_F L)) /\ vz (col1 (l_F L)) = 0 /\
  l_vol L = det (l_F L) /\ 0 < l_vol L /\ mm (mt (l_F L)) (l_B L) = mI /\
  l_rparms L = latticeParameters (l_B L) /\ l_BR L = cell_frame (l_rparms L) /\ l_U0 L = mm (l_B L) (minv (l_BR L)) /\
  c_ang (l_dparms L) = c_ang k /\ c_len (l_dparms L) = V3 (norm (col0 (l_F L))) (norm (col1 (l_F L))) (norm (col2 (l_F L))).
Proof.
  intros k G L. destruct (frame_facts k G) as (A & D & C0 & C1 & C2).
  assert (V : l_vol L = det (l_F L)). { unfold L, lattice_of. cbn [l_vol l_F]. destruct (cell_frame k). lin_unfold. ring. }
  assert (D' : det (cell_frame k) <> 0) by lra.
  pose proof (recip_dual (cell_frame k) D') as RD. cbv zeta in RD.
  split; [exact A|]. split; [exact C0|]. split; [exact C1|]. split; [exact C2|]. split; [exact V|]. split; [rewrite V; exact D|].
  split; [exact RD|]. split; [|split; [reflexivity|split; [reflexivity|split; reflexivity]]].
  assert (DB : det (l_B L) <> 0).
  { intros E. apply (f_equal det) in RD. rewrite det_mm, det_I in RD. unfold L, lattice_of in E. cbn [l_B] in E. rewrite E in RD. lra. }
  destruct (col_nonzero _ DB) as (Z0 & Z1 & Z2).
  assert (S : has_shape (l_B L) (c_len (l_rparms L)) (c_ang (l_rparms L))).
  { revert Z0 Z1 Z2. unfold L, lattice_of. cbn [l_B l_rparms].
    generalize (vscale (/ dot (col0 (cell_frame k)) (cross (col1 (cell_frame k)) (col2 (cell_frame k)))) (cross (col1 (cell_frame k)) (col2 (cell_frame k)))).
    generalize (vscale (/ dot (col0 (cell_frame k)) (cross (col1 (cell_frame k)) (col2 (cell_frame k)))) (cross (col2 (cell_frame k)) (col0 (cell_frame k)))).
    generalize (vscale (/ dot (col0 (cell_frame k)) (cross (col1 (cell_frame k)) (col2 (cell_frame k)))) (cross (col0 (cell_frame k)) (col1 (cell_frame k)))).
    intros w v u.
    assert (E : col0 (of_cols u v w) = u /\ col1 (of_cols u v w) = v /\ col2 (of_cols u v w) = w) by (destruct u, v, w; repeat split; reflexivity).
    destruct E as (E0 & E1 & E2). unfold has_shape. rewrite E0, E1, E2. cbn [c_len c_ang vx vy vz]. intros Z0 Z1 Z2.
    repeat split; try apply acos_bound; apply acos_between; assumption. }
  symmetry. rewrite (shape_params _ _ _ DB S). destruct (l_rparms L). reflexivity.
Qed.
Lemma params_cell : forall rad tag l len ang, parameters_of (angle_unit rad) tag l len ang -> cellparms l tag rad = Ok (Cell len ang).
Proof. intros rad tag l len ang H. destruct H; reflexivity. Qed.

Record well_formed (len ang : v3) (L : lattice) : Prop := {
  wf_shape : has_shape (l_F L) len ang;
  wf_a : col0 (l_F L) = V3 (vx len) 0 0;
  wf_b : 0 < vy (col1 (l_F L)) /\ vz (col1 (l_F L)) = 0;
  wf_vol : l_vol L = det (l_F L) /\ 0 < l_vol L;
  wf_dual : mm (mt (l_F L)) (l_B L) = mI;
  wf_dparms : l_dparms L = Cell len ang;
  wf_rshape : has_shape (l_B L) (c_len (l_rparms L)) (c_ang (l_rparms L));
  wf_fable : has_shape (l_BR L) (c_len (l_rparms L)) (c_ang (l_rparms L)) /\ 0 < det (l_BR L) /\
    col0 (l_BR L) = V3 (vx (c_len (l_rparms L))) 0 0 /\ 0 < vy (col1 (l_BR L)) /\ vz (col1 (l_BR L)) = 0;
  wf_U0 : rotation (l_U0 L) /\ mm (l_U0 L) (l_BR L) = l_B L;
  wf_vectors : L = lattice_of (Cell len ang)
}.
Lemma lattice_wf : forall len ang, possible_cell len ang -> well_formed len ang (lattice_of (Cell len ang)).
Proof.
  intros len ang P. pose proof (possible_good len ang P) as G. destruct (lattice_facts _ G) as (A & C0 & C1 & C2 & V & VP & D & RP & BR & U0 & DA & DL). cbn [c_len c_ang] in *.
  set (L := lattice_of (Cell len ang)) in *.
  assert (SF : has_shape (l_F L) len ang).
  { destruct P as (PA & PB & PC & P1 & P2 & P3 & _). apply (gram_shape (l_F L) (Cell len ang)); cbn [c_len c_ang]; try assumption; lra. }
  assert (DD : det (l_F L) * det (l_B L) = 1). { rewrite <- (det_mt (l_F L)), <- det_mm, D. apply det_I. }
  rewrite V in VP.
  assert (PB : 0 < det (l_B L)). { destruct (Rlt_le_dec 0 (det (l_B L))) as [|N]; [assumption|]. pose proof (Rmult_le_pos (det (l_F L)) (- det (l_B L))) as M. assert (0 <= det (l_F L) * - det (l_B L)) by (apply M; lra). lra. }
  assert (RG : good (latticeParameters (l_B L)) /\ has_shape (l_B L) (c_len (latticeParameters (l_B L))) (c_ang (latticeParameters (l_B L)))).
  { apply reg_good. apply Rmult_lt_0_compat; assumption. }
  rewrite <- RP in RG. destruct RG as [RG RS]. destruct (frame_facts _ RG) as (FA & FD & FC0 & FC1 & FC2). rewrite <- BR in *.
  assert (GB : mm (mt (l_B L)) (l_B L) = gram (l_rparms L)) by (apply shape_gram; exact RS).
  assert (NZ : det (l_BR L) <> 0) by lra.
  constructor.
  - exact SF.
  - exact C0.
  - split; assumption.
  - split; [exact V|rewrite V; exact VP].
  - exact D.
  - destruct SF as (S1 & S2 & S3 & _). rewrite S1, S2, S3 in DL. destruct (l_dparms L) as [dl da]. cbn [c_len c_ang] in *. subst. destruct len. reflexivity.
  - exact RS.
  - split; [|repeat split; assumption]. destruct RS as (S1 & S2 & S3 & [R1 _] & [R2 _] & [R3 _]). destruct RG as (G1 & G2 & G3 & _).
    apply gram_shape; assumption.
  - rewrite U0. assert (UB : mm (mm (l_B L) (minv (l_BR L))) (l_BR L) = l_B L) by (rewrite <- mm_assoc, minv_l, mm_I_r; auto).
    split; [|exact UB]. assert (OO : orthogonal (mm (l_B L) (minv (l_BR L)))).
    { unfold orthogonal. rewrite mt_mm, <- mm_assoc, (mm_assoc (mt (l_B L))), GB, <- FA.
      assert (T : mm (mt (minv (l_BR L))) (mt (l_BR L)) = mI) by (rewrite <- mt_mm, minv_r; auto).
      rewrite <- (mm_assoc (mt (l_BR L))), (minv_r _ NZ), mm_I_r. exact T. }
    split; [exact OO|]. pose proof (det_orth _ OO) as DO. set (U := mm (l_B L) (minv (l_BR L))) in *.
    assert (DU : det U * det (l_BR L) = det (l_B L)) by (rewrite <- det_mm, UB; reflexivity).
    assert (PU : 0 < det U). { destruct (Rlt_le_dec 0 (det U)) as [|N]; [assumption|]. exfalso. assert (0 <= - det U * det (l_BR L)) by (apply Rmult_le_pos; lra). lra. }
    clear - DO PU. nra.
  - reflexivity.
Qed.
