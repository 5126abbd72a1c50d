(** Proofs about the reflection lists, first part: the symmetry operations in reciprocal space and the stars. *)
From Coq Require Import Reals String Lra Psatz.
From Verif Require Import Prelude SgModel SgSpec SgProofs SgProps Lin LatModel LatSpec LatProofs LatCell LatSpace UcModel UcSpec.
Import ListNotations.
Local Open Scope R_scope.

(** ** integers among the reals *)
Lemma int_part_IZR : forall n, Int_part (IZR n) = n.
Proof.
  intros n. destruct (base_Int_part (IZR n)) as [A B].
  apply Z.le_antisymm; [apply le_IZR; exact A|].
  assert (n < Int_part (IZR n) + 1)%Z by (apply lt_IZR; rewrite plus_IZR; lra). lia.
Qed.
Lemma rint_IZR : forall n, rint (IZR n) = n.
Proof. intros n. unfold rint. rewrite int_part_IZR. destruct (Rlt_dec (IZR n - IZR n) (1 / 2)); [reflexivity|exfalso; lra]. Qed.
Lemma trunc_IZR : forall n, trunc (IZR n) = n.
Proof. intros n. unfold trunc. destruct (Rlt_dec (IZR n) 0); [|apply int_part_IZR]. rewrite <- opp_IZR, int_part_IZR. lia. Qed.
Lemma vtrunc_rvec : forall v, vtrunc (rvec v) = v.
Proof. intros [a b c]. unfold vtrunc, rvec. cbn [vx vy vz v0 v1 v2]. now rewrite !trunc_IZR. Qed.
Lemma rvec_inj : forall a b, rvec a = rvec b -> a = b.
Proof. intros a b E. rewrite <- (vtrunc_rvec a), <- (vtrunc_rvec b), E. reflexivity. Qed.
Lemma rmat_imm : forall a b, rmat (imm a b) = mm (rmat a) (rmat b).
Proof.
  intros [[a11 a12 a13] [a21 a22 a23] [a31 a32 a33]] [[b11 b12 b13] [b21 b22 b23] [b31 b32 b33]]. unfold rmat, imm, ivm, ivdot, SgModel.col0, SgModel.col1, SgModel.col2. cbn [v0 v1 v2 r0 r1 r2].
  rewrite !plus_IZR, !mult_IZR. lin_unfold. f_equal; ring.
Qed.
Lemma rvec_imv : forall m v, rvec (imv m v) = mv (rmat m) (rvec v).
Proof.
  intros [[a11 a12 a13] [a21 a22 a23] [a31 a32 a33]] [x y z]. unfold rmat, rvec, imv, ivdot. cbn [v0 v1 v2 r0 r1 r2].
  rewrite !plus_IZR, !mult_IZR. lin_unfold. f_equal; ring.
Qed.
Lemma rmat_one : rmat one = mI. Proof. reflexivity. Qed.
Definition imt (m : imat) : imat :=
  IM (IV (v0 (r0 m)) (v0 (r1 m)) (v0 (r2 m))) (IV (v1 (r0 m)) (v1 (r1 m)) (v1 (r2 m))) (IV (v2 (r0 m)) (v2 (r1 m)) (v2 (r2 m))).
Lemma rmat_imt : forall m, rmat (imt m) = mt (rmat m). Proof. now intros [[a11 a12 a13] [a21 a22 a23] [a31 a32 a33]]. Qed.
Definition rint_mat (m : m3) : imat :=
  IM (IV (rint (m00 m)) (rint (m01 m)) (rint (m02 m))) (IV (rint (m10 m)) (rint (m11 m)) (rint (m12 m)))
     (IV (rint (m20 m)) (rint (m21 m)) (rint (m22 m))).
Lemma rint_rmat : forall m, rint_mat (rmat m) = m.
Proof. intros [[a11 a12 a13] [a21 a22 a23] [a31 a32 a33]]. unfold rint_mat, rmat. cbn [v0 v1 v2 r0 r1 r2 m00 m01 m02 m10 m11 m12 m20 m21 m22]. now rewrite !rint_IZR. Qed.
Lemma imm_matmul : forall a b, imm a b = matmul a b.
Proof. intros [[a11 a12 a13] [a21 a22 a23] [a31 a32 a33]] [[b11 b12 b13] [b21 b22 b23] [b31 b32 b33]]. unfold imm, matmul, ivm, row_act, ivdot, SgModel.col0, SgModel.col1, SgModel.col2. cbn [v0 v1 v2 r0 r1 r2]. repeat f_equal; ring. Qed.
Lemma imv_act : forall m v, imv m v = act m v. Proof. reflexivity. Qed.

(** ** the metric tensor is unchanged by the operations *)
Definition basis (t : lattice_type) : list imat :=
  match t with
  | Triclinic => [IM (IV 1 0 0) (IV 0 0 0) (IV 0 0 0); IM (IV 0 0 0) (IV 0 1 0) (IV 0 0 0); IM (IV 0 0 0) (IV 0 0 0) (IV 0 0 1);
                  IM (IV 0 1 0) (IV 1 0 0) (IV 0 0 0); IM (IV 0 0 1) (IV 0 0 0) (IV 1 0 0); IM (IV 0 0 0) (IV 0 0 1) (IV 0 1 0)]
  | Monoclinic => [IM (IV 1 0 0) (IV 0 0 0) (IV 0 0 0); IM (IV 0 0 0) (IV 0 1 0) (IV 0 0 0); IM (IV 0 0 0) (IV 0 0 0) (IV 0 0 1);
                   IM (IV 0 0 1) (IV 0 0 0) (IV 1 0 0)]
  | Orthorhombic => [IM (IV 1 0 0) (IV 0 0 0) (IV 0 0 0); IM (IV 0 0 0) (IV 0 1 0) (IV 0 0 0); IM (IV 0 0 0) (IV 0 0 0) (IV 0 0 1)]
  | Tetragonal => [IM (IV 1 0 0) (IV 0 1 0) (IV 0 0 0); IM (IV 0 0 0) (IV 0 0 0) (IV 0 0 1)]
  | Trigonal | Hexagonal => [IM (IV 2 (-1) 0) (IV (-1) 2 0) (IV 0 0 0); IM (IV 0 0 0) (IV 0 0 0) (IV 0 0 1)]
  | Cubic => [ieye]
  end%Z.
Definition coefs (t : lattice_type) (len deg : v3) : list R :=
  let a := vx len in let b := vy len in let c := vz len in
  match t with
  | Triclinic => [a * a; b * b; c * c; a * b * cos (vz deg * (PI / 180)); a * c * cos (vy deg * (PI / 180)); b * c * cos (vx deg * (PI / 180))]
  | Monoclinic => [a * a; b * b; c * c; a * c * cos (vy deg * (PI / 180))]
  | Orthorhombic => [a * a; b * b; c * c]
  | Tetragonal => [a * a; c * c]
  | Trigonal | Hexagonal => [a * a / 2; c * c]
  | Cubic => [a * a]
  end.
Fixpoint comb (cs : list R) (bs : list imat) : m3 :=
  match cs, bs with
  | c :: cs, b :: bs => madd (mscale c (rmat b)) (comb cs bs)
  | _, _ => mzero
  end.
Lemma cos_right : cos (90 * (PI / 180)) = 0.
Proof. replace (90 * (PI / 180)) with (PI / 2) by field. apply cos_PI2. Qed.
Lemma cos_120 : cos (120 * (PI / 180)) = - (1 / 2).
Proof. replace (120 * (PI / 180)) with (2 * (PI / 3)) by field. rewrite cos_2PI3. lra. Qed.
Lemma dmt_comb : forall t len deg, fits t len deg -> u_dmt (calcmatrices len deg) = comb (coefs t len deg) (basis t).
Proof.
  intros t [a b c] [al be ga] F. unfold calcmatrices. cbn [u_dmt vx vy vz].
  destruct t; cbn [fits vx vy vz] in F; cbn [coefs basis comb vx vy vz];
    decompose [and] F; subst; rewrite ?cos_right, ?cos_120; unfold rmat, ieye; cbn [v0 v1 v2 r0 r1 r2]; lin_unfold; f_equal; try ring; field.
Qed.
Definition keeps (g b : imat) : bool := im_eqb (imm (imt g) (imm b g)) b.
Lemma im_eqb_eq : forall a b, im_eqb a b = true <-> a = b.
Proof.
  intros [[a1 a2 a3] [a4 a5 a6] [a7 a8 a9]] [[b1 b2 b3] [b4 b5 b6] [b7 b8 b9]]. unfold im_eqb, iv_eqb. cbn [v0 v1 v2 r0 r1 r2].
  rewrite !andb_true_iff, !Z.eqb_eq. split; [intros; decompose [and] H; congruence|]. intros E. injection E as -> -> -> -> -> -> -> -> ->. tauto.
Qed.
Lemma iv_eqb_eq : forall a b, iv_eqb a b = true <-> a = b.
Proof.
  intros [a1 a2 a3] [b1 b2 b3]. unfold iv_eqb. cbn [v0 v1 v2]. rewrite !andb_true_iff, !Z.eqb_eq.
  split; [intros; decompose [and] H; congruence|]. intros E. injection E as -> -> ->. tauto.
Qed.
Lemma comb_keeps : forall g bs cs, forallb (keeps g) bs = true -> mm (mt (rmat g)) (mm (comb cs bs) (rmat g)) = comb cs bs.
Proof.
  intros g. induction bs as [|b bs IH]; intros cs H.
  - destruct cs; cbn [comb]; lin.
  - destruct cs as [|c cs]; cbn [comb]; [lin|]. cbn [forallb] in H. apply andb_true_iff in H. destruct H as [K H].
    specialize (IH cs H). unfold keeps in K. apply im_eqb_eq in K. apply (f_equal rmat) in K. rewrite !rmat_imm, rmat_imt in K.
    generalize dependent (comb cs bs). intros M IH. revert K IH. generalize (rmat g) (rmat b). intros G B K IH.
    transitivity (madd (mscale c (mm (mt G) (mm B G))) (mm (mt G) (mm M G))); [lin|]. now rewrite K, IH.
Qed.

(** ** what is checked for every space group *)
Definition check_uc (sgnum setting : Z) : bool :=
  match latticeType sgnum, GenerateSGSym sgnum setting with
  | Ok t, Ok (sg, pg, laue, _, _) =>
      match hd_error pg, hd_error laue with
      | Some e, Some e' => im_eqb e one && im_eqb e' one
      | _, _ => false
      end
      && forallb (fun g => forallb (keeps g) (basis t)) laue
      && (match t with Trigonal | Hexagonal => existsb (im_eqb (rotation_about_c 3)) laue | _ => true end)
      && (match t with Cubic => existsb (im_eqb (IM (IV 0 0 1) (IV 1 0 0) (IV 0 1 0))) laue | _ => true end)
  | _, _ => false
  end.
Lemma check_uc_all : forallb (fun n => check_uc n 0 && check_uc n 1) (zrange 1 231) = true.
Proof. vm_cast_no_check (eq_refl true). Qed.

(** ** the operations of a space group, put together *)
Record sym_facts (t : lattice_type) (pg laue : list imat) : Prop := {
  sf_pg : matrix_group pg;
  sf_laue : matrix_group laue;
  sf_hd : hd_error pg = Some one;
  sf_hdl : hd_error laue = Some one;
  sf_incl : incl pg laue;
  sf_neg : In (negm one) laue;
  sf_from : forall r, In r laue -> In r pg \/ exists q, In q pg /\ r = negm q;
  sf_keeps : forall g, In g laue -> forallb (keeps g) (basis t) = true;
  sf_three : t = Trigonal \/ t = Hexagonal -> In (rotation_about_c 3) laue;
  sf_cubic : t = Cubic -> In (IM (IV 0 0 1) (IV 1 0 0) (IV 0 1 0)) laue
}.
Lemma sym_facts_of : forall sgnum setting sg pg laue c s, (1 <= sgnum <= 230)%Z ->
  GenerateSGSym sgnum setting = Ok (sg, pg, laue, c, s) ->
  exists t, latticeType sgnum = Ok t /\ sym_facts t pg laue.
Proof.
  intros n st sg pg laue c s H E.
  assert (K : check_uc n (if (st =? 0)%Z then 0 else 1) = true).
  { pose proof (zrange_all _ _ _ check_uc_all n ltac:(lia)) as K. cbv beta in K. apply andb_true_iff in K. destruct (st =? 0)%Z; tauto. }
  destruct (C86_point_and_laue_groups n st sg pg laue c s H E) as (GP & GL & IP & IL & _).
  unfold check_uc in K. destruct (latticeType n) as [t|] eqn:T; [|discriminate].
  rewrite setting_norm in E. rewrite E in K.
  destruct (hd_error pg) as [e|] eqn:HP; [|discriminate]. destruct (hd_error laue) as [e'|] eqn:HL; [|discriminate].
  rewrite !andb_true_iff in K. destruct K as (((K1 & K2) & K3) & K4). destruct K1 as [K1 K1'].
  apply im_eqb_eq in K1, K1'. subst e e'. exists t. split; [reflexivity|].
  rewrite forallb_forall in K2. split; auto.
  - intros r R. apply IL. now left.
  - apply IL. right. exists one. split; [apply mg_one; assumption|reflexivity].
  - intros r R. apply IL in R. exact R.
  - intros [-> | ->]; apply existsb_exists in K3; destruct K3 as (x & X & Y); apply im_eqb_eq in Y; now subst.
  - intros ->. apply existsb_exists in K4; destruct K4 as (x & X & Y); apply im_eqb_eq in Y; now subst.
Qed.

(** ** planes and operations *)
Lemma idot_act : forall m h u, idot (act (imt m) h) u = idot h (act m u).
Proof. intros [[a11 a12 a13] [a21 a22 a23] [a31 a32 a33]] [h k l] [x y z]. unfold idot, act, imt, idot. cbn [v0 v1 v2 r0 r1 r2]. ring. Qed.
Lemma act_matmul : forall a b v, act (matmul a b) v = act a (act b v).
Proof. intros [[a11 a12 a13] [a21 a22 a23] [a31 a32 a33]] [[b11 b12 b13] [b21 b22 b23] [b31 b32 b33]] [x y z]. unfold act, matmul, row_act, idot. cbn [v0 v1 v2 r0 r1 r2]. f_equal; ring. Qed.
Lemma act_one : forall v, act one v = v.
Proof. intros [x y z]. unfold act, one, idot. cbn [v0 v1 v2 r0 r1 r2]. f_equal; ring. Qed.
Lemma idot_ext : forall a b, (forall u, idot a u = idot b u) -> a = b.
Proof.
  intros [a1 a2 a3] [b1 b2 b3] H. pose proof (H (IV 1 0 0)) as X. pose proof (H (IV 0 1 0)) as Y. pose proof (H (IV 0 0 1)) as Z.
  unfold idot in X, Y, Z. cbn [v0 v1 v2] in X, Y, Z. f_equal; lia.
Qed.
Lemma carries_iff : forall g b h h', matmul g b = one -> matmul b g = one -> (carries g h h' <-> h' = act (imt b) h).
Proof.
  intros g b h h' GB BG. split.
  - intros C. apply idot_ext. intros u. rewrite idot_act, <- C, <- act_matmul, GB, act_one. reflexivity.
  - intros -> u. rewrite idot_act, <- act_matmul, BG, act_one. reflexivity.
Qed.
Lemma carries_row : forall g h h', carries g h h' <-> row_act h' g = h.
Proof.
  intros g h h'. assert (I : forall u, idot h' (act g u) = idot (row_act h' g) u).
  { intros u. destruct g as [[a11 a12 a13] [a21 a22 a23] [a31 a32 a33]], h' as [x y z], u as [p q r]. unfold idot, act, row_act, idot. cbn [v0 v1 v2 r0 r1 r2]. ring. }
  split.
  - intros C. apply idot_ext. intros u. rewrite <- I. apply C.
  - intros E u. rewrite I, E. reflexivity.
Qed.
Lemma equivalent_refl : forall ops h, matrix_group ops -> equivalent ops h h.
Proof. intros ops h G. exists one. split; [apply mg_one; auto|]. intros u. now rewrite act_one. Qed.
Lemma equivalent_sym : forall ops h h', matrix_group ops -> equivalent ops h h' -> equivalent ops h' h.
Proof.
  intros ops h h' G (g & I & C). destruct (mg_inv _ G g I) as (b & B & GB & BG). exists b. split; [exact B|].
  intros u. rewrite <- C, <- act_matmul, GB, act_one. reflexivity.
Qed.
Lemma equivalent_trans : forall ops h h' h'', matrix_group ops -> equivalent ops h h' -> equivalent ops h' h'' -> equivalent ops h h''.
Proof.
  intros ops h h' h'' G (g & I & C) (g' & I' & C'). exists (matmul g' g). split; [apply mg_mul; auto|].
  intros u. rewrite act_matmul, C'. apply C.
Qed.

(** ** operations in reciprocal space *)
Lemma cell_metric : forall sgnum len deg, cell_of sgnum len deg -> exists L t,
  direct_vectors len deg L /\ well_formed len (radians_of deg) L /\ latticeType sgnum = Ok t /\ fits t len deg /\
  let u := calcmatrices len deg in mm (mt (l_F L)) (l_F L) = u_dmt u /\ mm (mt (l_B L)) (l_B L) = u_rmt u /\
  mm (u_dmt u) (u_rmt u) = mI.
Proof.
  intros n len deg [P (t & T & F)]. exists (lattice_of (Cell len (radians_of deg))), t.
  assert (D : direct_vectors len deg (lattice_of (Cell len (radians_of deg)))).
  { unfold direct_vectors, latticeVectors. destruct len as [a b c], deg as [al be ga]. cbn [vx vy vz cellparms String.eqb Ascii.eqb Bool.eqb parm nth_error rbind].
    unfold cellparms, parm. cbn. reflexivity. }
  pose proof (lattice_wf len (radians_of deg) P) as W. split; [exact D|]. split; [exact W|]. split; [exact T|]. split; [exact F|].
  destruct (metric_facts len deg _ W P) as (A & _ & B & _). cbv zeta. split; [symmetry; exact A|]. split; [symmetry; exact B|].
  rewrite A, B. pose proof (wf_dual _ _ _ W) as DU. destruct (dual_other _ _ DU) as (X & Y & Z).
  rewrite <- mm_assoc, (mm_assoc (l_F _) (mt _) _), X, mm_I_l. exact DU.
Qed.
Lemma recip_op_is : forall t u g b, (forallb (keeps g) (basis t) = true) -> (exists cs, u_dmt u = comb cs (basis t)) ->
  mm (u_dmt u) (u_rmt u) = mI -> matmul g b = one -> recip_op u g = imt b.
Proof.
  intros t u g b K (cs & D') I GB.
  pose proof (comb_keeps g (basis t) cs K) as Q. rewrite <- D' in Q.
  change (recip_op u g) with (rint_mat (mm (u_dmt u) (mm (rmat g) (u_rmt u)))).
  assert (E : mm (u_dmt u) (mm (rmat g) (u_rmt u)) = rmat (imt b)); [|rewrite E; apply rint_rmat].
  apply (f_equal rmat) in GB. rewrite <- imm_matmul, rmat_imm, rmat_one in GB. rewrite rmat_imt.
  revert GB I Q. generalize (rmat g) (rmat b) (u_dmt u) (u_rmt u). intros G B M N GB I Q.
  assert (T : mm (mt B) (mt G) = mI) by (rewrite <- mt_mm, GB; reflexivity).
  transitivity (mm (mm (mt B) (mt G)) (mm M (mm G N))). { rewrite T. now rewrite mm_I_l. }
  transitivity (mm (mt B) (mm (mm (mt G) (mm M G)) N)). { now rewrite !mm_assoc. }
  rewrite Q, I, mm_I_r. reflexivity.
Qed.

(** ** stars of integer vectors *)
Definition istar (v : ivec) (sym : list imat) : list ivec :=
  fold_left (fun acc s => let vp := imv s v in if existsb (iv_eqb vp) acc then acc else acc ++ [vp]) (tl sym) [v].
Lemma near_int : forall a b, near (rvec a) (rvec b) = iv_eqb a b.
Proof.
  intros a b. unfold near. destruct (iv_eqb a b) eqn:E.
  - apply iv_eqb_eq in E. subst b. destruct (Rlt_dec _ _) as [|N]; [reflexivity|]. exfalso. apply N.
    assert (Z : norm2 (vsub (rvec a) (rvec a)) = 0) by lin. rewrite Z. apply Rinv_0_lt_compat. apply pow_lt. lra.
  - destruct (Rlt_dec _ _) as [L|N]; [|reflexivity]. exfalso.
    assert (Q : norm2 (vsub (rvec a) (rvec b)) = IZR ((v0 a - v0 b) * (v0 a - v0 b) + (v1 a - v1 b) * (v1 a - v1 b) + (v2 a - v2 b) * (v2 a - v2 b))).
    { rewrite !plus_IZR, !mult_IZR, !minus_IZR. lin. }
    rewrite Q in L. assert (L' : IZR ((v0 a - v0 b) * (v0 a - v0 b) + (v1 a - v1 b) * (v1 a - v1 b) + (v2 a - v2 b) * (v2 a - v2 b)) < IZR 1).
    { eapply Rlt_trans; [exact L|]. lra. }
    apply lt_IZR in L'. assert (a = b); [|subst; now rewrite (proj2 (iv_eqb_eq b b) eq_refl) in E].
    destruct a as [a1 a2 a3], b as [b1 b2 b3]. cbn [v0 v1 v2] in L'.
    assert (forall x, 0 <= x * x)%Z by (intros; nia). pose proof (H (a1 - b1)%Z). pose proof (H (a2 - b2)%Z). pose proof (H (a3 - b3)%Z).
    f_equal; nia.
Qed.
Lemma existsb_map {A B} (f : A -> B) p l : existsb p (map f l) = existsb (fun x => p (f x)) l.
Proof. induction l as [|x l IH]; cbn; [reflexivity|]. now rewrite IH. Qed.
Lemma existsb_ext' {A} (p q : A -> bool) l : (forall x, p x = q x) -> existsb p l = existsb q l.
Proof. intros H. induction l as [|x l IH]; cbn; [reflexivity|]. now rewrite H, IH. Qed.
Lemma tl_map {A B} (f : A -> B) l : tl (map f l) = map f (tl l). Proof. now destruct l. Qed.
Lemma calcstar_int : forall v sym, calcstar (rvec v) (map rmat sym) = map rvec (istar v sym).
Proof.
  intros v sym. unfold calcstar, istar. rewrite tl_map. change [rvec v] with (map rvec [v]). generalize (tl sym) [v].
  induction l as [|s l IH]; intros acc; cbn [fold_left map]; [reflexivity|].
  rewrite <- IH. f_equal. rewrite <- rvec_imv, existsb_map. cbv zeta. rewrite (existsb_ext' _ (iv_eqb (imv s v))) by (intros; apply near_int).
  destruct (existsb _ acc); [reflexivity|]. now rewrite map_app.
Qed.
Lemma istar_acc : forall v l acc, NoDup acc ->
  let r := fold_left (fun acc s => let vp := imv s v in if existsb (iv_eqb vp) acc then acc else acc ++ [vp]) l acc in
  NoDup r /\ (forall x, In x r <-> In x acc \/ exists s, In s l /\ x = imv s v) /\ exists more, r = acc ++ more.
Proof.
  intros v. induction l as [|s l IH]; intros acc N; cbn [fold_left].
  - split; [exact N|]. split; [|exists []; now rewrite app_nil_r]. intros x. split; [now left|]. intros [|(? & [] & _)]; auto.
  - cbv zeta in *. destruct (existsb (iv_eqb (imv s v)) acc) eqn:E.
    + destruct (IH acc N) as (A & B & C). split; [exact A|]. split; [|exact C]. intros x. rewrite B.
      apply existsb_exists in E. destruct E as (y & Y & Z). apply iv_eqb_eq in Z.
      split; intros [|(s' & I & ->)]; auto. * right. exists s'. split; [now right|reflexivity].
      * destruct I as [->|I]; [left; now subst y|]. right. eauto.
    + assert (N' : NoDup (acc ++ [imv s v])).
      { rewrite <- rev_involutive. apply NoDup_rev. rewrite rev_app_distr. cbn [rev app]. constructor; [|now apply NoDup_rev].
        rewrite <- in_rev. intros I. assert (T : existsb (iv_eqb (imv s v)) acc = true); [|congruence].
        apply existsb_exists. exists (imv s v). split; [exact I|now apply iv_eqb_eq]. }
      destruct (IH _ N') as (A & B & (m & C)). split; [exact A|]. split; [|exists (imv s v :: m); rewrite C, <- app_assoc; reflexivity].
      intros x. rewrite B, in_app_iff. cbn [In]. split.
      * intros [[|[<-|[]]]|(s' & I & ->)]; [tauto| |]; right; [exists s; auto|exists s'; auto].
      * intros [|(s' & [<-|I] & ->)]; [tauto| |]; [left; right; now left|right; eauto].
Qed.
Lemma istar_facts : forall v sym, NoDup (istar v sym) /\ (exists more, istar v sym = v :: more) /\
  (hd_error sym = Some one -> forall x, In x (istar v sym) <-> exists s, In s sym /\ x = imv s v).
Proof.
  intros v sym. assert (N : NoDup [v]) by (constructor; [easy|constructor]).
  destruct (istar_acc v (tl sym) [v] N) as (A & B & C). split; [exact A|]. split; [exact C|].
  intros H x. unfold istar. cbv zeta in B. rewrite B. destruct sym as [|e sym]; [discriminate|]. injection H as ->. cbn [tl In]. split.
  - intros [[<-|[]]|(s & I & ->)]; [exists one; split; [now left|symmetry; rewrite imv_act; apply act_one]|exists s; auto].
  - intros (s & [<-|I] & ->); [left; left; rewrite imv_act; symmetry; apply act_one|right; eauto].
Qed.
Lemma recip_star : forall u t ops rops e, matrix_group ops -> hd_error ops = Some one ->
  (exists cs, u_dmt u = comb cs (basis t)) -> mm (u_dmt u) (u_rmt u) = mI ->
  (forall g, In g ops -> forallb (keeps g) (basis t) = true) ->
  e = one -> rops = e :: map (recip_op u) (tl ops) ->
  (Forall2 (fun g r => forall h, carries g h (act r h)) ops rops) /\
  forall h x, In x (istar h rops) <-> equivalent ops h x.
Proof.
  intros u t ops rops e G H D I K -> ->.
  assert (F : forall g, In g ops -> forall h x, x = act (recip_op u g) h <-> carries g h x).
  { intros g GI h x. destruct (mg_inv _ G g GI) as (b & BI & GB & BG). rewrite (recip_op_is t u g b); auto. symmetry. apply carries_iff; auto. }
  destruct ops as [|o ops]; [discriminate|]. injection H as ->. cbn [tl] in *. split.
  - constructor. { intros h x. now rewrite !act_one. }
    clear G K. assert (F' : forall g, In g ops -> forall h x, x = act (recip_op u g) h <-> carries g h x) by (intros; apply F; now right).
    clear F. induction ops as [|g ops IH]; cbn [map]; constructor.
    + intros h. apply F'; [now left|reflexivity].
    + apply IH. intros. apply F'. now right.
  - intros h x. destruct (istar_facts h (one :: map (recip_op u) ops)) as (_ & _ & Q). rewrite (Q eq_refl). split.
    + intros (s & [<-|S] & ->). * exists one. split; [now left|]. intros w. now rewrite imv_act, !act_one.
      * apply in_map_iff in S. destruct S as (g & <- & GI). exists g. split; [now right|]. apply F; [now right|reflexivity].
    + intros (g & GI & C). destruct GI as [<-|GI].
      * exists one. split; [now left|]. apply idot_ext. intros w. rewrite imv_act, act_one, <- C. now rewrite act_one.
      * exists (recip_op u g). split; [right; now apply in_map|]. apply F; [now right|exact C].
Qed.
