(** Proofs about the reflection lists, fourth part: is the box of indices large enough?  And the size of a star. *)
From Coq Require Import Reals String Lra Psatz Permutation Sorted.
From Verif Require Import Prelude SgModel SgSpec SgProofs SgProps Lin LatModel LatSpec LatProofs LatCell LatSpace UcModel UcSpec UcSym UcList UcProofs.
Import ListNotations.
Local Open Scope R_scope.

(** ** the reciprocal metric tensor by lattice type *)
Definition box_like (t : lattice_type) : Prop := t = Orthorhombic \/ t = Tetragonal \/ t = Cubic.
Definition hex_like (t : lattice_type) : Prop := t = Trigonal \/ t = Hexagonal.
Lemma rmt_is : forall u N, mm (u_dmt u) (u_rmt u) = mI -> mm (u_dmt u) N = mI -> u_rmt u = N.
Proof.
  intros u N I J. assert (D : det (u_dmt u) <> 0). { intros E. apply (f_equal det) in I. rewrite det_mm, E, det_I in I. lra. }
  rewrite <- (minv_unique _ _ D I). now apply minv_unique.
Qed.
Lemma rmt_box : forall t len deg u, u_dmt u = comb (coefs t len deg) (basis t) -> mm (u_dmt u) (u_rmt u) = mI -> box_like t ->
  0 < vx len -> 0 < vy len -> 0 < vz len -> exists x y z, 0 < x /\ 0 < y /\ 0 < z /\ u_rmt u = diag x y z.
Proof.
  intros t [a b c] deg u D I B A1 A2 A3. cbn [vx vy vz] in *.
  assert (Q : exists p q r, 0 < p /\ 0 < q /\ 0 < r /\ u_dmt u = diag p q r).
  { assert (0 < a * a) by (apply Rmult_lt_0_compat; lra). assert (0 < b * b) by (apply Rmult_lt_0_compat; lra). assert (0 < c * c) by (apply Rmult_lt_0_compat; lra).
    destruct B as [-> | [-> | ->]]; rewrite D; cbn [coefs basis comb vx vy vz]; unfold rmat, ieye, diag; cbn [v0 v1 v2 r0 r1 r2].
    - exists (a * a), (b * b), (c * c). repeat split; auto. lin_unfold. f_equal; ring.
    - exists (a * a), (a * a), (c * c). repeat split; auto. lin_unfold. f_equal; ring.
    - exists (a * a), (a * a), (a * a). repeat split; auto. lin_unfold. f_equal; ring. }
  destruct Q as (p & q & r & P & Q & R' & E). exists (/ p), (/ q), (/ r). repeat split; try (apply Rinv_0_lt_compat; assumption).
  apply rmt_is; auto. rewrite E. unfold diag. lin_unfold. f_equal; field; lra.
Qed.
Lemma rmt_hex : forall t len deg u, u_dmt u = comb (coefs t len deg) (basis t) -> mm (u_dmt u) (u_rmt u) = mI -> hex_like t ->
  0 < vx len -> 0 < vz len -> exists x z, 0 < x /\ 0 < z /\ u_rmt u = M3 x (x / 2) 0 (x / 2) x 0 0 0 z.
Proof.
  intros t [a b c] deg u D I B A1 A3. cbn [vx vy vz] in *. assert (Pa : 0 < a * a) by (apply Rmult_lt_0_compat; lra). assert (Pc : 0 < c * c) by (apply Rmult_lt_0_compat; lra).
  assert (E : u_dmt u = M3 (a * a) (- (a * a) / 2) 0 (- (a * a) / 2) (a * a) 0 0 0 (c * c)).
  { destruct B as [-> | ->]; rewrite D; cbn [coefs basis comb vx vy vz]; unfold rmat; cbn [v0 v1 v2 r0 r1 r2]; lin_unfold; f_equal; field. }
  exists (4 / (3 * (a * a))), (/ (c * c)). split; [apply Rdiv_lt_0_compat; lra|]. split; [now apply Rinv_0_lt_compat|].
  apply rmt_is; auto. rewrite E. lin_unfold. f_equal; field; repeat split; lra.
Qed.

(** ** bounds on the indices *)
Lemma index_bound : forall x q n h, 0 < x -> IZR h * IZR h * x <= q -> q <= IZR n * IZR n * x -> (0 <= n)%Z -> (- n <= h <= n)%Z.
Proof.
  intros x q n h X A B N. assert (C : IZR h * IZR h <= IZR n * IZR n). { apply Rmult_le_reg_r with x; lra. }
  rewrite <- !mult_IZR in C. apply le_IZR in C. nia.
Qed.
Section Box.
Context (len deg : v3) (sgnum setting : Z) (uc : unitcell) (L : lattice) (t : lattice_type) (sg : list symop).
Hypothesis O : object_geom len deg sgnum setting uc L t sg.
Hypothesis OF : object_facts len deg sgnum setting uc.

Lemma reach_norm : forall n (e : ivec) (axis : Z -> v3), axis n = rvec e -> reaches (uc_m uc) (uc_dmin uc) axis n -> e <> zero_index ->
  0 < uc_dmin uc /\ forall h d, spacing L h d -> uc_dmin uc <= d -> norm2 (gvector L h) <= norm2 (gvector L e).
Proof.
  intros n e axis E (N1 & Q & _) NZ. rewrite E in Q. specialize (Q _ (length_g _ L e (og_rmt _ _ _ _ _ _ _ _ O))).
  assert (P : 0 < norm (gvector L e)). { apply norm_gt0. intros X. apply gvector_zero in X; [auto|]. apply (og_det _ _ _ _ _ _ _ _ O). }
  assert (LE : 1 / norm (gvector L e) <= uc_dmin uc) by lra.
  assert (P1 : 0 < 1 / norm (gvector L e)) by (apply Rdiv_lt_0_compat; lra). split; [lra|].
  intros h d [D S] LD. assert (PH : 0 < norm (gvector L h)). { destruct (norm_pos (gvector L h)) as [|Z]; [assumption|]. rewrite <- Z in S. lra. }
  assert (DE : d = 1 / norm (gvector L h)). { apply Rmult_eq_reg_r with (norm (gvector L h)); [|lra]. rewrite S. field. lra. }
  assert (NN : norm (gvector L h) <= norm (gvector L e)).
  { apply Rnot_lt_le. intros X. assert (1 / norm (gvector L h) < 1 / norm (gvector L e)); [|lra]. unfold Rdiv. rewrite !Rmult_1_l. apply Rinv_lt_contravar; [|exact X]. apply Rmult_lt_0_compat; assumption. }
  rewrite <- !norm_sq. apply Rmult_le_compat; lra.
Qed.
Lemma reach_all : forall h d, spacing L h d -> uc_dmin uc <= d ->
  norm2 (gvector L h) <= norm2 (gvector L (IV (uc_ih uc) 0 0)) /\ norm2 (gvector L h) <= norm2 (gvector L (IV 0 (uc_ik uc) 0)) /\ norm2 (gvector L h) <= norm2 (gvector L (IV 0 0 (uc_il uc))).
Proof.
  intros h d S D. pose proof (of_h _ _ _ _ _ OF) as A. pose proof (of_k _ _ _ _ _ OF) as B. pose proof (of_l _ _ _ _ _ OF) as C.
  split; [|split].
  - eapply (reach_norm _ (IV (uc_ih uc) 0 0) _ eq_refl A); eauto. intros X. injection X. destruct A. lia.
  - eapply (reach_norm _ (IV 0 (uc_ik uc) 0) _ eq_refl B); eauto. intros X. injection X. destruct B. lia.
  - eapply (reach_norm _ (IV 0 0 (uc_il uc)) _ eq_refl C); eauto. intros X. injection X. destruct C. lia.
Qed.
Definition in_box (h : ivec) : Prop := (- uc_ih uc <= v0 h <= uc_ih uc /\ - uc_ik uc <= v1 h <= uc_ik uc /\ - uc_il uc <= v2 h <= uc_il uc)%Z.
Lemma dmt_form : u_dmt (uc_m uc) = comb (coefs t len deg) (basis t).
Proof. rewrite (of_m _ _ _ _ _ OF). apply dmt_comb. apply (og_fits _ _ _ _ _ _ _ _ O). Qed.
Lemma pos_len : 0 < vx len /\ 0 < vy len /\ 0 < vz len.
Proof.
  destruct (wf_shape _ _ _ (og_wf _ _ _ _ _ _ _ _ O)) as (A & B & C & _). pose proof (wf_detF _ _ _ (og_wf _ _ _ _ _ _ _ _ O)) as D.
  destruct (col_nonzero _ D) as (X & Y & Z). rewrite <- A, <- B, <- C. split; [|split]; now apply norm_gt0.
Qed.
Lemma box_bound : box_like t -> forall h d, spacing L h d -> uc_dmin uc <= d -> in_box h.
Proof.
  intros B h d S D. destruct pos_len as (A1 & A2 & A3). destruct (rmt_box t len deg (uc_m uc) dmt_form (og_inv _ _ _ _ _ _ _ _ O) B A1 A2 A3) as (x & y & z & X & Y & Z & E).
  destruct (reach_all h d S D) as (Q1 & Q2 & Q3). pose proof (fun h => quad_g (uc_m uc) L h (og_rmt _ _ _ _ _ _ _ _ O)) as QG. rewrite !QG, E in Q1, Q2, Q3. clear QG.
  pose proof (of_h _ _ _ _ _ OF) as [N1 _]. pose proof (of_k _ _ _ _ _ OF) as [N2 _]. pose proof (of_l _ _ _ _ _ OF) as [N3 _].
  destruct h as [p q r]. unfold rvec, diag in Q1, Q2, Q3. cbn [v0 v1 v2] in *. lin_unfold. cbn [vx vy vz m00 m01 m02 m10 m11 m12 m20 m21 m22] in *. unfold in_box. cbn [v0 v1 v2].
  assert (0 <= IZR p * IZR p * x) by (apply Rmult_le_pos; [apply Rle_0_sqr|lra]). assert (0 <= IZR q * IZR q * y) by (apply Rmult_le_pos; [apply Rle_0_sqr|lra]). assert (0 <= IZR r * IZR r * z) by (apply Rmult_le_pos; [apply Rle_0_sqr|lra]).
  split; [|split].
  - apply (index_bound x (IZR p * IZR p * x + IZR q * IZR q * y + IZR r * IZR r * z)); try lra; lia.
  - apply (index_bound y (IZR p * IZR p * x + IZR q * IZR q * y + IZR r * IZR r * z)); try lra; lia.
  - apply (index_bound z (IZR p * IZR p * x + IZR q * IZR q * y + IZR r * IZR r * z)); try lra; lia.
Qed.
Lemma hex_bound : hex_like t -> forall h d, spacing L h d -> uc_dmin uc <= d -> (0 <= v0 h * v1 h)%Z -> in_box h.
Proof.
  intros B h d S D SG. destruct pos_len as (A1 & A2 & A3). destruct (rmt_hex t len deg (uc_m uc) dmt_form (og_inv _ _ _ _ _ _ _ _ O) B A1 A3) as (x & z & X & Z & E).
  destruct (reach_all h d S D) as (Q1 & Q2 & Q3). pose proof (fun h => quad_g (uc_m uc) L h (og_rmt _ _ _ _ _ _ _ _ O)) as QG. rewrite !QG, E in Q1, Q2, Q3. clear QG.
  pose proof (of_h _ _ _ _ _ OF) as [N1 _]. pose proof (of_k _ _ _ _ _ OF) as [N2 _]. pose proof (of_l _ _ _ _ _ OF) as [N3 _].
  destruct h as [p q r]. cbn [v0 v1 v2] in SG. apply IZR_le in SG. rewrite mult_IZR in SG. unfold rvec in Q1, Q2, Q3. cbn [v0 v1 v2] in *. lin_unfold. cbn [vx vy vz m00 m01 m02 m10 m11 m12 m20 m21 m22] in *. unfold in_box. cbn [v0 v1 v2].
  assert (0 <= IZR p * IZR p * x) by (apply Rmult_le_pos; [apply Rle_0_sqr|lra]). assert (0 <= IZR q * IZR q * x) by (apply Rmult_le_pos; [apply Rle_0_sqr|lra]). assert (0 <= IZR r * IZR r * z) by (apply Rmult_le_pos; [apply Rle_0_sqr|lra]).
  assert (0 <= IZR p * IZR q * x) by (apply Rmult_le_pos; lra).
  split; [|split].
  - apply (index_bound x (IZR p * IZR p * x + IZR q * IZR q * x + IZR p * IZR q * x + IZR r * IZR r * z)); try lra; lia.
  - apply (index_bound x (IZR p * IZR p * x + IZR q * IZR q * x + IZR p * IZR q * x + IZR r * IZR r * z)); try lra; lia.
  - apply (index_bound z (IZR p * IZR p * x + IZR q * IZR q * x + IZR p * IZR q * x + IZR r * IZR r * z)); try lra; lia.
Qed.

(** ** a representative inside the box *)
Lemma laue_group : matrix_group (uc_laue uc). Proof. exact (sf_laue _ _ _ (og_sf _ _ _ _ _ _ _ _ O)). Qed.
Lemma equiv_neg : forall h, equivalent (uc_laue uc) h (negv h).
Proof.
  intros h. exists (negm one). split; [apply (sf_neg _ _ _ (og_sf _ _ _ _ _ _ _ _ O))|]. apply carries_row. rewrite row_negm, negv_negv, row_one. reflexivity.
Qed.
Lemma equiv_row : forall h g, In g (uc_laue uc) -> equivalent (uc_laue uc) h (row_act h g).
Proof. intros h g G. apply equivalent_sym; [exact laue_group|]. exists g. split; [exact G|]. now apply carries_row. Qed.
Lemma half_box : forall h, in_box h -> exists h', (h' = h \/ h' = negv h) /\ In h' (index_box (uc_ih uc) (uc_ik uc) (uc_il uc)).
Proof.
  intros [p q r] B. unfold in_box in B. cbn [v0 v1 v2] in B. destruct (Z.le_gt_cases 0 r) as [P|P].
  - exists (IV p q r). split; [now left|]. apply box_in. cbn [v0 v1 v2]. lia.
  - exists (negv (IV p q r)). split; [now right|]. apply box_in. unfold negv. cbn [v0 v1 v2]. lia.
Qed.
Lemma hex_rep : hex_like t -> forall h d, spacing L h d -> uc_dmin uc <= d -> exists h', equivalent (uc_laue uc) h h' /\ in_box h'.
Proof.
  intros B h d S D. pose proof (sf_three _ _ _ (og_sf _ _ _ _ _ _ _ _ O) B) as G. pose proof laue_group as LG.
  set (g := rotation_about_c 3) in *.
  pose proof (equiv_row h g G) as E1. pose proof (equiv_row (row_act h g) g G) as E2.
  pose proof (equivalent_trans _ _ _ _ LG E1 E2) as E3.
  assert (C : (0 <= v0 h * v1 h \/ 0 <= v0 (row_act h g) * v1 (row_act h g) \/ 0 <= v0 (row_act (row_act h g) g) * v1 (row_act (row_act h g) g))%Z).
  { clear. unfold g, rotation_about_c, row_act. destruct h as [p q r]. cbn [v0 v1 v2 r0 r1 r2]. nia. }
  destruct C as [C|[C|C]].
  - exists h. split; [now apply equivalent_refl|]. eapply hex_bound; eauto.
  - exists (row_act h g). split; [exact E1|]. eapply (hex_bound B); [eapply equiv_spacing; [exact O|exact OF|exact E1|exact S]|exact D|exact C].
  - exists (row_act (row_act h g) g). split; [exact E3|]. eapply (hex_bound B); [eapply equiv_spacing; [exact O|exact OF|exact E3|exact S]|exact D|exact C].
Qed.
Lemma kept_not_205 : sgnum <> 205%Z -> forall h kept, ~ absent sg h -> In h (index_box (uc_ih uc) (uc_ik uc) (uc_il uc)) ->
  Allowed_HKLs sgnum (index_box (uc_ih uc) (uc_ik uc) (uc_il uc)) = Ok kept -> In h kept.
Proof.
  intros N h kept A I K. destruct (og_sg _ _ _ _ _ _ _ _ O) as (c & s & S).
  destruct (C88_allowed_reflections_partial sgnum sg (of_range _ _ _ _ _ OF) N ltac:(exists setting; eauto) (index_box (uc_ih uc) (uc_ik uc) (uc_il uc))) as (kept' & K' & Q).
  rewrite K in K'. injection K' as <-. apply Q. auto.
Qed.

(** Pa-3 *)
Definition pyrite_ops : list symop := [OP (IM (IV (-1) 0 0) (IV 0 1 0) (IV 0 0 1)) (IV 12 12 0); OP (IM (IV 1 0 0) (IV 0 (-1) 0) (IV 0 0 1)) (IV 0 12 12); OP (IM (IV 1 0 0) (IV 0 1 0) (IV 0 0 (-1))) (IV 12 0 12)].
End Box.
Lemma pyrite_has : forall setting sg pg laue c s, GenerateSGSym 205 setting = Ok (sg, pg, laue, c, s) -> incl pyrite_ops sg.
Proof.
  intros st sg pg laue c s E. rewrite setting_norm in E.
  assert (K : forall st', st' = 0%Z \/ st' = 1%Z -> match GenerateSGSym 205 st' with Ok (sg, _, _, _, _) => forallb (fun o => existsb (op_eqb o) sg) pyrite_ops | _ => false end = true).
  { intros st' [-> | ->]; vm_compute; reflexivity. }
  specialize (K (if (st =? 0)%Z then 0 else 1)%Z ltac:(destruct (st =? 0)%Z; auto)). rewrite E in K.
  intros o I. rewrite forallb_forall in K. specialize (K o I). apply existsb_exists in K. destruct K as (x & X & Y).
  unfold op_eqb in Y. apply andb_true_iff in Y. destruct Y as [Y1 Y2]. apply im_eqb_eq in Y1. apply iv_eqb_eq in Y2. destruct o, x. cbn in *. now subst.
Qed.
Lemma pyrite_rules : forall sg h, incl pyrite_ops sg -> ~ absent sg h ->
  (v0 h = 0 -> Z.Even (v1 h))%Z /\ (v1 h = 0 -> Z.Even (v2 h))%Z /\ (v2 h = 0 -> Z.Even (v0 h))%Z.
Proof.
  intros sg [x y z] I A. cbn [v0 v1 v2].
  assert (E : forall n, ~ (~ (24 | 12 * n)%Z) -> Z.Even n).
  { intros n H. destruct (Z.Even_or_Odd n) as [|(k & K)]; [assumption|]. exfalso. apply H. intros (m & M). lia. }
  split; [|split]; intros Z; apply E; intros N; apply A; subst.
  - eexists. split; [apply I; left; reflexivity|]. split; [unfold row_act; cbn [op_r v0 v1 v2 r0 r1 r2]; f_equal; ring|]. unfold idot. cbn [op_t v0 v1 v2]. intros (m & M). apply N. exists m. lia.
  - eexists. split; [apply I; right; left; reflexivity|]. split; [unfold row_act; cbn [op_r v0 v1 v2 r0 r1 r2]; f_equal; ring|]. unfold idot. cbn [op_t v0 v1 v2]. intros (m & M). apply N. exists m. lia.
  - eexists. split; [apply I; right; right; left; reflexivity|]. split; [unfold row_act; cbn [op_r v0 v1 v2 r0 r1 r2]; f_equal; ring|]. unfold idot. cbn [op_t v0 v1 v2]. intros (m & M). apply N. exists m. lia.
Qed.
Section Pyrite.
Context (len deg : v3) (setting : Z) (uc : unitcell) (L : lattice) (t : lattice_type) (sg : list symop).
Hypothesis O : object_geom len deg 205 setting uc L t sg.
Hypothesis OF : object_facts len deg 205 setting uc.
Lemma pyrite_rep : forall h, h <> zero_index -> ~ absent sg h ->
  exists h', equivalent (uc_laue uc) h h' /\ ~ (v0 h' = 0 /\ Z.Odd (v2 h'))%Z /\ ~ (v1 h' = 0 /\ Z.Odd (v0 h'))%Z.
Proof.
  intros h N A. destruct (og_sg _ _ _ _ _ _ _ _ O) as (c & s & S).
  pose proof (pyrite_rules sg h (pyrite_has _ _ _ _ _ _ S) A) as (R1 & R2 & R3).
  assert (T : t = Cubic). { pose proof (og_t _ _ _ _ _ _ _ _ O) as T. vm_compute in T. congruence. }
  pose proof (sf_cubic _ _ _ (og_sf _ _ _ _ _ _ _ _ O) T) as G. pose proof (laue_group _ _ _ _ _ _ _ _ O) as LG.
  set (g := IM (IV 0 0 1) (IV 1 0 0) (IV 0 1 0)) in *.
  pose proof (equiv_row _ _ _ _ _ _ _ _ O h g G) as E1. pose proof (equiv_row _ _ _ _ _ _ _ _ O (row_act h g) g G) as E2.
  pose proof (equivalent_trans _ _ _ _ LG E1 E2) as E3.
  assert (F1 : row_act h g = IV (v1 h) (v2 h) (v0 h)). { unfold g, row_act. destruct h as [x y z]; cbn [v0 v1 v2 r0 r1 r2]. f_equal; ring. }
  assert (F2 : row_act (row_act h g) g = IV (v2 h) (v0 h) (v1 h)). { rewrite F1. unfold g, row_act. cbn [v0 v1 v2 r0 r1 r2]. f_equal; ring. }
  destruct h as [x y z]. cbn [v0 v1 v2] in *.
  assert (NO : forall n, Z.Even n -> ~ Z.Odd n). { intros n [k K] [m M]. lia. }
  assert (NZ : (x <> 0 \/ y <> 0 \/ z <> 0)%Z). { destruct (Z.eq_dec x 0); destruct (Z.eq_dec y 0); destruct (Z.eq_dec z 0); auto. exfalso. apply N. now subst. }
  destruct (Z.eq_dec z 0) as [Z|Z].
  - destruct (Z.eq_dec x 0) as [X|X].
    + exists (row_act (IV x y z) g). split; [exact E1|]. rewrite F1. cbn [v0 v1 v2]. split; intros [P Q]; [lia|]. apply R1 in X. now apply NO in X.
    + exists (IV x y z). split; [now apply equivalent_refl|]. cbn [v0 v1 v2]. split; intros [P Q]; [lia|]. apply R3 in Z. now apply NO in Z.
  - destruct (Z.eq_dec y 0) as [Y|Y].
    + exists (row_act (row_act (IV x y z) g) g). split; [exact E3|]. rewrite F2. cbn [v0 v1 v2]. split; intros [P Q]; [lia|]. apply R2 in Y. now apply NO in Y.
    + destruct (Z.eq_dec x 0) as [X|X].
      * exists (row_act (IV x y z) g). split; [exact E1|]. rewrite F1. cbn [v0 v1 v2]. split; intros [P Q]; [lia|]. apply Z. exact P.
      * exists (IV x y z). split; [now apply equivalent_refl|]. cbn [v0 v1 v2]. split; intros [P Q]; lia.
Qed.
End Pyrite.

Section Complete.
Context (len deg : v3) (sgnum setting : Z) (uc : unitcell) (L : lattice) (t : lattice_type) (sg : list symop).
Hypothesis O : object_geom len deg sgnum setting uc L t sg.
Hypothesis OF : object_facts len deg sgnum setting uc.

(** inside the box the list is complete for every group *)
Lemma complete_box : forall dmin h, observable L sg dmin h -> (exists h', equivalent (uc_laue uc) h h' /\ in_box uc h') -> box_like t \/ sgnum <> 205%Z ->
  (sgnum = 205%Z -> uc_dmin uc <= dmin) ->
  exists hkls h', getHKLs uc dmin = Ok hkls /\ In h' hkls /\ equivalent (uc_laue uc) h h'.
Proof.
  intros dmin h OB (h1 & E1 & B1) T DM. pose proof (laue_group _ _ _ _ _ _ _ _ O) as LG.
  assert (K : exists h2, equivalent (uc_laue uc) h h2 /\ In h2 (index_box (uc_ih uc) (uc_ik uc) (uc_il uc)) /\
     forall kept, Allowed_HKLs sgnum (index_box (uc_ih uc) (uc_ik uc) (uc_il uc)) = Ok kept -> In h2 kept).
  { destruct (Z.eq_dec sgnum 205) as [->|NE].
    - destruct T as [T|T]; [|congruence]. destruct OB as (NZ & NA & d & SP & DD).
      destruct (pyrite_rep len deg setting uc L t sg O h NZ NA) as (h2 & E2 & X1 & X2).
      assert (B2 : in_box uc h2). { eapply (box_bound _ _ _ _ _ _ _ _ O OF T); [eapply equiv_spacing; [exact O|exact OF|exact E2|exact SP]|]. specialize (DM eq_refl). lra. }
      assert (K : forall h3, h3 = h2 \/ h3 = negv h2 -> In h3 (index_box (uc_ih uc) (uc_ik uc) (uc_il uc)) -> exists h2, equivalent (uc_laue uc) h h2 /\ In h2 (index_box (uc_ih uc) (uc_ik uc) (uc_il uc)) /\
     forall kept, Allowed_HKLs 205 (index_box (uc_ih uc) (uc_ik uc) (uc_il uc)) = Ok kept -> In h2 kept).
      { intros h3 H3 I3. exists h3. assert (E3 : equivalent (uc_laue uc) h h3).
        { destruct H3 as [->| ->]; [exact E2|]. eapply equivalent_trans; [exact LG|exact E2|]. apply (equiv_neg _ _ _ _ _ _ _ _ O). }
        split; [exact E3|]. split; [exact I3|]. intros kept KK. destruct (og_sg _ _ _ _ _ _ _ _ O) as (c & s & S).
        destruct (C88_pyrite_refuted sg ltac:(exists setting; eauto)) as (_ & _ & PY). destruct (PY (index_box (uc_ih uc) (uc_ik uc) (uc_il uc))) as (kept' & K' & Q).
        rewrite KK in K'. injection K' as <-. apply Q. split; [exact I3|]. split.
        - intros X. apply NA. eapply (absent_equiv 205 setting sg _ _ c s h3 h); [lia|exact S|now apply equivalent_sym|exact X].
        - destruct H3 as [->| ->]; [auto|]. unfold negv. cbn [v0 v1 v2]. split.
          + intros [P [k Q']]. apply X1. split; [lia|]. exists (- k - 1)%Z. lia.
          + intros [P [k Q']]. apply X2. split; [lia|]. exists (- k - 1)%Z. lia. }
      destruct (half_box uc h2 B2) as (h3 & H3 & I3). eauto.
    - destruct (half_box uc h1 B1) as (h3 & H3 & I3). exists h3. assert (E3 : equivalent (uc_laue uc) h h3).
      { destruct H3 as [->| ->]; [exact E1|]. eapply equivalent_trans; [exact LG|exact E1|]. apply (equiv_neg _ _ _ _ _ _ _ _ O). }
      split; [exact E3|]. split; [exact I3|]. intros kept KK. eapply (kept_not_205 _ _ _ _ _ _ _ _ O OF); eauto.
      eapply equiv_observable; [exact O|exact OF|exact E3|exact OB]. }
  destruct K as (h2 & E2 & I2 & K2).
  assert (OB2 : observable L sg dmin h2) by (eapply equiv_observable; [exact O|exact OF|exact E2|exact OB]).
  destruct (getHKLs_cand _ _ _ _ _ _ _ _ O OF dmin h2) as (hkls & h' & G & I & E).
  - destruct OB2 as (NZ & _ & d & SP & DD). apply (in_range_iff _ L); [apply (og_rmt _ _ _ _ _ _ _ _ O)|apply (og_det _ _ _ _ _ _ _ _ O)|]. eauto.
  - exact K2.
  - exists hkls, h'. split; [exact G|]. split; [exact I|]. eapply equivalent_trans; eauto.
Qed.
Lemma complete_all : t <> Triclinic -> t <> Monoclinic -> forall dmin h, uc_dmin uc <= dmin -> observable L sg dmin h ->
  exists hkls h', getHKLs uc dmin = Ok hkls /\ In h' hkls /\ equivalent (uc_laue uc) h h'.
Proof.
  intros T1 T2 dmin h D OB. pose proof (laue_group _ _ _ _ _ _ _ _ O) as LG. pose proof OB as (NZ & NA & d & SP & DD).
  assert (C : box_like t \/ hex_like t) by (unfold box_like, hex_like; destruct t; auto; contradiction).
  apply complete_box; auto.
  - destruct C as [C|C].
    + exists h. split; [now apply equivalent_refl|]. eapply (box_bound _ _ _ _ _ _ _ _ O OF C); eauto. lra.
    + eapply (hex_rep _ _ _ _ _ _ _ _ O OF C); eauto. lra.
  - destruct C as [C|C]; [now left|]. right. intros ->. pose proof (og_t _ _ _ _ _ _ _ _ O) as T. vm_compute in T. injection T as <-. destruct C; discriminate.
Qed.
End Complete.
