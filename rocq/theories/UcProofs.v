(** Proofs about the reflection lists, third part: what [getHKLs] returns. *)
From Coq Require Import Reals String Lra Psatz Permutation Sorted.
From Verif Require Import Prelude SgModel SgSpec SgProofs SgProps Lin LatModel LatSpec LatProofs LatCell LatSpace UcModel UcSpec UcSym UcList.
Import ListNotations.
Local Open Scope R_scope.

(** ** systematic absences are the same for equivalent reflections *)
Lemma row_matmul : forall h a b, row_act h (matmul a b) = row_act (row_act h a) b.
Proof. intros [x y z] [[a11 a12 a13] [a21 a22 a23] [a31 a32 a33]] [[b11 b12 b13] [b21 b22 b23] [b31 b32 b33]]. unfold matmul, row_act. cbn [v0 v1 v2 r0 r1 r2]. f_equal; ring. Qed.
Lemma row_one : forall h, row_act h one = h.
Proof. intros [x y z]. unfold row_act, one. cbn [v0 v1 v2 r0 r1 r2]. f_equal; ring. Qed.
Lemma row_dot : forall h m u, idot (row_act h m) u = idot h (act m u).
Proof. intros [x y z] [[a11 a12 a13] [a21 a22 a23] [a31 a32 a33]] [p q r]. unfold idot, row_act, act, idot. cbn [v0 v1 v2 r0 r1 r2]. ring. Qed.
Definition vadd3 (a b : ivec) : ivec := IV (v0 a + v0 b) (v1 a + v1 b) (v2 a + v2 b).
Lemma compose_t : forall a b, op_t (compose a b) = vadd3 (act (op_r a) (op_t b)) (op_t a). Proof. reflexivity. Qed.
Lemma compose_r : forall a b, op_r (compose a b) = matmul (op_r a) (op_r b). Proof. reflexivity. Qed.
Lemma idot_add : forall h a b, idot h (vadd3 a b) = (idot h a + idot h b)%Z.
Proof. intros [x y z] [p q r] [s t u]. unfold idot, vadd3. cbn [v0 v1 v2]. ring. Qed.
Lemma same_dot : forall h a b, same_op a b -> (24 | idot h (op_t a) - idot h (op_t b))%Z.
Proof.
  intros [x y z] [ra [a1 a2 a3]] [rb [b1 b2 b3]] (_ & (p & P) & (q & Q) & (r & R')). cbn [op_t v0 v1 v2] in *. unfold idot. cbn [op_t v0 v1 v2].
  exists (x * p + y * q + z * r)%Z. lia.
Qed.
Lemma absent_moves : forall sg G h h', space_group sg -> In G sg -> row_act h' (op_r G) = h -> absent sg h -> absent sg h'.
Proof.
  intros sg G h h' SG IG E (op & IO & F & N).
  destruct (sg_inv _ SG G IG) as (b & IB & S1 & S2).
  destruct (sg_mul _ SG op b IO IB) as (c & IC & C). destruct (sg_mul _ SG G c IG IC) as (d & ID & D).
  assert (RB : matmul (op_r G) (op_r b) = one) by (destruct S1 as (X & _); exact X).
  assert (RC : op_r c = matmul (op_r op) (op_r b)) by (destruct C as (X & _); exact X).
  assert (RD : op_r d = matmul (op_r G) (op_r c)) by (destruct D as (X & _); exact X).
  exists d. split; [exact ID|]. split.
  - rewrite RD, row_matmul, E, RC, row_matmul, F, <- E, <- row_matmul, RB, row_one. reflexivity.
  - intros DV. apply N.
    pose proof (same_dot h' _ _ D) as D1. rewrite compose_t, idot_add, <- row_dot, E in D1.
    pose proof (same_dot h _ _ C) as C1. rewrite compose_t, idot_add, <- row_dot, F in C1.
    pose proof (same_dot h' _ _ S1) as S. rewrite compose_t, idot_add, <- row_dot, E in S.
    assert (Z0 : idot h' (op_t identity_op) = 0%Z) by (unfold idot, identity_op; cbn [op_t v0 v1 v2]; ring). rewrite Z0 in S.
    destruct D1 as (p & P), C1 as (q & Q), S as (r & R'), DV as (w & W). exists (w - p - q - r)%Z. lia.
Qed.
Lemma row_neg : forall h m, row_act (negv h) m = negv (row_act h m).
Proof. intros [x y z] [[a11 a12 a13] [a21 a22 a23] [a31 a32 a33]]. unfold row_act, negv. cbn [v0 v1 v2 r0 r1 r2]. f_equal; ring. Qed.
Lemma row_negm : forall h m, row_act h (negm m) = row_act (negv h) m.
Proof. intros [x y z] [[a11 a12 a13] [a21 a22 a23] [a31 a32 a33]]. unfold row_act, negm, negv. cbn [v0 v1 v2 r0 r1 r2]. f_equal; ring. Qed.
Lemma negv_negv : forall h, negv (negv h) = h.
Proof. intros [x y z]. unfold negv. cbn [v0 v1 v2]. f_equal; ring. Qed.
Lemma absent_neg : forall sg h, absent sg h -> absent sg (negv h).
Proof.
  intros sg h (op & I & E & N). exists op. split; [exact I|]. split; [rewrite row_neg, E; reflexivity|].
  intros (k & K). apply N. exists (- k)%Z. destruct h as [x y z], (op_t op) as [p q r]. unfold idot, negv in *. cbn [v0 v1 v2] in *. lia.
Qed.
Lemma absent_equiv : forall sgnum setting sg pg laue c s h h', (1 <= sgnum <= 230)%Z -> GenerateSGSym sgnum setting = Ok (sg, pg, laue, c, s) ->
  equivalent laue h h' -> absent sg h -> absent sg h'.
Proof.
  intros n st sg pg laue c s h h' H E (g & G & C) A.
  destruct (C86_point_and_laue_groups n st sg pg laue c s H E) as (GP & GL & IP & IL & _).
  destruct (C85_space_group_operations n st H) as (gs & gens & cs & sg' & pg' & laue' & c' & s' & _ & _ & E' & SG & _).
  rewrite E in E'. injection E' as <- <- <- <- <-.
  apply carries_row in C. apply IL in G. destruct G as [G|(q & G & ->)]; apply IP in G; destruct G as (op & I & <-).
  - eapply absent_moves; eauto.
  - rewrite row_negm in C. rewrite <- (negv_negv h'). apply absent_neg. eapply absent_moves; eauto.
Qed.

(** ** lengths *)
Lemma length_g : forall u L h, u_rmt u = mm (mt (l_B L)) (l_B L) -> CalcLength u (rvec h) "r" = Ok (norm (gvector L h)).
Proof. intros u L h E. unfold CalcLength. cbn [String.eqb Ascii.eqb Bool.eqb rbind]. rewrite E, quad. reflexivity. Qed.
Lemma quad_g : forall u L h, u_rmt u = mm (mt (l_B L)) (l_B L) -> norm2 (gvector L h) = dot (rvec h) (mv (u_rmt u) (rvec h)).
Proof. intros u L h E. rewrite E, quad. reflexivity. Qed.
Lemma gvector_zero : forall L h, det (l_B L) <> 0 -> (gvector L h = vzero <-> h = zero_index).
Proof.
  intros L h D. split.
  - intros E. apply inj_mv in E; [|exact D]. apply rvec_inj. unfold rvec, zero_index. cbn [v0 v1 v2]. exact E.
  - intros ->. unfold gvector, zero_index. cbn [v0 v1 v2]. lin.
Qed.
Lemma rvec_zero_abs : forall h, ((Z.abs (v0 h) + Z.abs (v1 h) + Z.abs (v2 h) =? 0) = true <-> h = zero_index)%Z.
Proof. intros [x y z]. cbn [v0 v1 v2]. rewrite Z.eqb_eq. unfold zero_index. split; [intros; f_equal; lia|]. intros E; injection E as -> -> ->. reflexivity. Qed.
Lemma in_range_iff : forall u L dmin h, u_rmt u = mm (mt (l_B L)) (l_B L) -> det (l_B L) <> 0 ->
  (in_range u dmin h = true <-> h <> zero_index /\ exists d, spacing L h d /\ dmin <= d).
Proof.
  intros u L dmin h E D. unfold in_range. destruct (Z.abs (v0 h) + Z.abs (v1 h) + Z.abs (v2 h) =? 0)%Z eqn:Z.
  - apply rvec_zero_abs in Z. split; [discriminate|]. intros [N _]. contradiction.
  - assert (NZ : h <> zero_index). { intros X. apply rvec_zero_abs in X. congruence. }
    rewrite (length_g u L h E). assert (P : 0 < norm (gvector L h)). { apply norm_gt0. intros X. apply gvector_zero in X; auto. }
    assert (S : forall d, spacing L h d <-> d = 1 / norm (gvector L h)).
    { intros d. unfold spacing. split. - intros [_ Q]. apply Rmult_eq_reg_r with (norm (gvector L h)); [|lra]. rewrite Q. field. lra.
      - intros ->. split; [apply Rdiv_lt_0_compat; lra|]. field. lra. }
    destruct (Rle_dec dmin (1 / norm (gvector L h))) as [L1|L1].
    + split; [|reflexivity]. intros _. split; [exact NZ|]. eexists. split; [apply S; reflexivity|exact L1].
    + split; [discriminate|]. intros (_ & d & Q & R'). apply S in Q. subst d. contradiction.
Qed.

(** ** the object *)
Definition reaches (u : ucell) (dmin : R) (axis : Z -> v3) (n : Z) : Prop :=
  (1 <= n)%Z /\ (forall len, CalcLength u (axis n) "r" = Ok len -> ~ dmin < 1 / len) /\
  forall m, (1 <= m < n)%Z -> exists len, CalcLength u (axis m) "r" = Ok len /\ dmin < 1 / len.
Lemma max_index_facts : forall fuel u dmin axis i n, (1 <= i)%Z ->
  (forall m, (1 <= m < i)%Z -> exists len, CalcLength u (axis m) "r" = Ok len /\ dmin < 1 / len) ->
  max_index fuel u dmin axis i = Ok n -> reaches u dmin axis n.
Proof.
  induction fuel as [|fuel IH]; intros u dmin axis i n I B H; cbn [max_index] in H; [discriminate|].
  destruct (CalcLength u (axis i) "r") as [len|] eqn:E; cbn [rbind] in H; [|discriminate].
  destruct (Rlt_dec dmin (1 / len)) as [L|L].
  - eapply IH; [| |exact H]; [lia|]. intros m M. assert (J : (m < i)%Z \/ m = i) by lia. destruct J as [J|J]; [apply B; lia|]. subst m. eauto.
  - injection H as <-. split; [exact I|]. split; [|exact B]. intros len' E'. rewrite E in E'. injection E' as <-. exact L.
Qed.
Record object_facts (len deg : v3) (sgnum setting : Z) (uc : unitcell) : Prop := {
  of_m : uc_m uc = calcmatrices len deg;
  of_n : uc_sgnum uc = sgnum;
  of_range : (1 <= sgnum <= 230)%Z;
  of_sym : exists sg c s, GenerateSGSym sgnum setting = Ok (sg, uc_pg uc, uc_laue uc, c, s);
  of_r : GenerateRecipPGSym (uc_m uc) (uc_pg uc) (uc_laue uc) = Ok (uc_r uc, uc_r_laue uc);
  of_h : reaches (uc_m uc) (uc_dmin uc) (fun i => V3 (IZR i) 0 0) (uc_ih uc);
  of_k : reaches (uc_m uc) (uc_dmin uc) (fun i => V3 0 (IZR i) 0) (uc_ik uc);
  of_l : reaches (uc_m uc) (uc_dmin uc) (fun i => V3 0 0 (IZR i)) (uc_il uc)
}.
Lemma calcmax_facts : forall fuel u dmin ih ik il, CalcMaxGIndex fuel u dmin = Ok (ih, ik, il) ->
  reaches u dmin (fun i => V3 (IZR i) 0 0) ih /\ reaches u dmin (fun i => V3 0 (IZR i) 0) ik /\ reaches u dmin (fun i => V3 0 0 (IZR i)) il.
Proof.
  intros fuel u dmin ih ik il H. unfold CalcMaxGIndex in H.
  destruct (max_index fuel u dmin (fun i => V3 (IZR i) 0 0) 1) as [a|] eqn:A; cbn [rbind] in H; [|discriminate].
  destruct (max_index fuel u dmin (fun i => V3 0 (IZR i) 0) 1) as [b|] eqn:B; cbn [rbind] in H; [|discriminate].
  destruct (max_index fuel u dmin (fun i => V3 0 0 (IZR i)) 1) as [c|] eqn:C; cbn [rbind] in H; [|discriminate].
  injection H as <- <- <-. apply max_index_facts in A, B, C; try lia; try (intros; lia). auto.
Qed.
Lemma object_of : forall len deg sgnum setting uc, unitcell_object len deg sgnum setting uc -> object_facts len deg sgnum setting uc.
Proof.
  intros len deg n st uc O. induction O as [fuel dmin uc H|fuel dmin uc uc' O IH H].
  - unfold new_unitcell in H. destruct (CalcMaxGIndex fuel (calcmatrices len deg) dmin) as [[[ih ik] il]|] eqn:M; cbn [rbind] in H; [|discriminate].
    destruct ((n <? 1) || (230 <? n))%Z%bool eqn:RG; [discriminate|].
    destruct (GenerateSGSym n st) as [[[[[sg pg] laue] c] s]|] eqn:S; cbn [rbind] in H; [|discriminate].
    destruct (GenerateRecipPGSym (calcmatrices len deg) pg laue) as [[r rl]|] eqn:G; cbn [rbind fst snd] in H; [|discriminate].
    injection H as <-. apply calcmax_facts in M. destruct M as (A & B & C). split; cbn [uc_m uc_sgnum uc_pg uc_laue uc_r uc_r_laue uc_dmin uc_ih uc_ik uc_il]; auto; [lia|eauto].
  - unfold set_dmin in H. destruct (Req_EM_T (uc_dmin uc) dmin) as [|NE]; [now injection H as <-|].
    destruct (CalcMaxGIndex fuel (uc_m uc) dmin) as [[[ih ik] il]|] eqn:M; cbn [rbind] in H; [|discriminate].
    injection H as <-. apply calcmax_facts in M. destruct M as (A & B & C). destruct IH. split; cbn [uc_m uc_sgnum uc_pg uc_laue uc_r uc_r_laue uc_dmin uc_ih uc_ik uc_il]; auto.
Qed.

(** everything about an object whose cell has the symmetry of its space group *)
Record object_geom (len deg : v3) (sgnum setting : Z) (uc : unitcell) (L : lattice) (t : lattice_type) (sg : list symop) : Prop := {
  og_L : direct_vectors len deg L;
  og_wf : well_formed len (radians_of deg) L;
  og_t : latticeType sgnum = Ok t;
  og_fits : fits t len deg;
  og_dmt : mm (mt (l_F L)) (l_F L) = u_dmt (uc_m uc);
  og_rmt : u_rmt (uc_m uc) = mm (mt (l_B L)) (l_B L);
  og_inv : mm (u_dmt (uc_m uc)) (u_rmt (uc_m uc)) = mI;
  og_det : det (l_B L) <> 0;
  og_sg : exists c s, GenerateSGSym sgnum setting = Ok (sg, uc_pg uc, uc_laue uc, c, s);
  og_sf : sym_facts t (uc_pg uc) (uc_laue uc);
  og_pg : Forall2 (fun g r => forall h, carries g h (act r h)) (uc_pg uc) (uc_r uc) /\ forall h x, In x (istar h (uc_r uc)) <-> equivalent (uc_pg uc) h x;
  og_laue : Forall2 (fun g r => forall h, carries g h (act r h)) (uc_laue uc) (uc_r_laue uc) /\ forall h x, In x (istar h (uc_r_laue uc)) <-> equivalent (uc_laue uc) h x
}.
Lemma object_geom_of : forall len deg sgnum setting uc, unitcell_object len deg sgnum setting uc -> cell_of sgnum len deg ->
  exists L t sg, object_geom len deg sgnum setting uc L t sg.
Proof.
  intros len deg n st uc O C. apply object_of in O. destruct O as [OM ON OR (sg & c & s & OS) OG _ _ _].
  destruct (cell_metric n len deg C) as (L & t & DV & W & T & F & A & B & I). cbv zeta in A, B, I.
  destruct (sym_facts_of n st sg _ _ c s OR OS) as (t' & T' & SF). rewrite T in T'. injection T' as <-.
  exists L, t, sg. rewrite <- OM in A, B, I.
  assert (DC : exists cs, u_dmt (uc_m uc) = comb cs (basis t)). { exists (coefs t len deg). rewrite OM. now apply dmt_comb. }
  unfold GenerateRecipPGSym in OG. pose proof (sf_hd _ _ _ SF) as H1. pose proof (sf_hdl _ _ _ SF) as H2.
  destruct (uc_pg uc) as [|e pg] eqn:P; [discriminate|]. injection H1 as ->. injection OG as R1 R2.
  split; auto.
  - eapply wf_detB; eauto. - exists c, s. rewrite P. exact OS. - now rewrite P.
  - rewrite P, <- R1. eapply recip_star with (t := t) (u := uc_m uc); eauto; [apply (sf_pg _ _ _ SF)|]. intros g G. apply (sf_keeps _ _ _ SF). apply (sf_incl _ _ _ SF). exact G.
  - rewrite <- R2. eapply recip_star with (t := t) (u := uc_m uc); eauto; [apply (sf_laue _ _ _ SF)|]. apply (sf_keeps _ _ _ SF).
Qed.

(** ** equivalent reflections have the same spacing *)
Lemma sandwich : forall M N G B, mm M N = mI -> det M <> 0 -> mm (mt G) (mm M G) = M -> mm G B = mI -> mm G (mm N (mt G)) = N.
Proof.
  intros M N G B I D Q GB. assert (NM : mm N M = mI). { rewrite <- (minv_unique M N D I). now apply minv_l. }
  assert (T : mm (mt B) (mt G) = mI) by (rewrite <- mt_mm, GB; reflexivity).
  assert (MG : mm M G = mm (mt B) M). { rewrite <- Q at 2. rewrite (mm_assoc (mt B)), T, mm_I_l. reflexivity. }
  assert (X : mm M (mm G (mm N (mt G))) = mI). { rewrite (mm_assoc M), MG, <- mm_assoc, (mm_assoc M N), I, mm_I_l, T. reflexivity. }
  rewrite <- (mm_I_l (mm G _)), <- NM, <- mm_assoc, X, mm_I_r. reflexivity.
Qed.
Lemma rvec_row : forall h m, rvec (row_act h m) = mv (mt (rmat m)) (rvec h).
Proof.
  intros [x y z] [[a11 a12 a13] [a21 a22 a23] [a31 a32 a33]]. unfold rvec, rmat, row_act. cbn [v0 v1 v2 r0 r1 r2].
  rewrite !plus_IZR, !mult_IZR. lin_unfold. f_equal; ring.
Qed.
Section Object.
Context (len deg : v3) (sgnum setting : Z) (uc : unitcell) (L : lattice) (t : lattice_type) (sg : list symop).
Hypothesis O : object_geom len deg sgnum setting uc L t sg.
Hypothesis OF : object_facts len deg sgnum setting uc.

Lemma det_dmt : det (u_dmt (uc_m uc)) <> 0.
Proof. intros E. pose proof (og_inv _ _ _ _ _ _ _ _ O) as I. apply (f_equal det) in I. rewrite det_mm, E, det_I in I. lra. Qed.
Lemma equiv_length : forall h h', equivalent (uc_laue uc) h h' -> norm (gvector L h') = norm (gvector L h).
Proof.
  intros h h' (g & G & C). apply carries_row in C. unfold norm. f_equal.
  rewrite !(quad_g _ _ _ (og_rmt _ _ _ _ _ _ _ _ O)), <- C, rvec_row.
  pose proof (og_sf _ _ _ _ _ _ _ _ O) as SF. destruct (mg_inv _ (sf_laue _ _ _ SF) g G) as (b & _ & GB & _).
  apply (f_equal rmat) in GB. rewrite <- imm_matmul, rmat_imm, rmat_one in GB.
  pose proof (comb_keeps g (basis t) (coefs t len deg) (sf_keeps _ _ _ SF g G)) as K.
  rewrite <- (dmt_comb t len deg (og_fits _ _ _ _ _ _ _ _ O)), <- (of_m _ _ _ _ _ OF) in K.
  pose proof (sandwich _ _ _ _ (og_inv _ _ _ _ _ _ _ _ O) det_dmt K GB) as S.
  rewrite <- S at 1. rewrite !mv_mm, dot_comm, mv_dot, dot_comm. reflexivity.
Qed.
Lemma equiv_spacing : forall h h' d, equivalent (uc_laue uc) h h' -> spacing L h d -> spacing L h' d.
Proof. intros h h' d E [P Q]. split; [exact P|]. now rewrite (equiv_length h h' E). Qed.
Lemma equiv_nonzero : forall h h', equivalent (uc_laue uc) h h' -> h <> zero_index -> h' <> zero_index.
Proof.
  intros h h' E N Z. apply N. pose proof (og_det _ _ _ _ _ _ _ _ O) as D. apply (gvector_zero L h' D) in Z. apply (gvector_zero L h D).
  apply norm_zero_iff. rewrite <- (equiv_length h h' E), Z. apply norm_zero_iff. reflexivity.
Qed.
Lemma equiv_observable : forall dmin h h', equivalent (uc_laue uc) h h' -> observable L sg dmin h -> observable L sg dmin h'.
Proof.
  intros dmin h h' E (N & A & d & S & LE). pose proof (og_sf _ _ _ _ _ _ _ _ O) as SF. destruct (og_sg _ _ _ _ _ _ _ _ O) as (c & s & G).
  split; [eapply equiv_nonzero; eauto|]. split; [|exists d; split; [eapply equiv_spacing; eauto|exact LE]].
  intros A'. apply A. eapply absent_equiv; [exact (of_range _ _ _ _ _ OF)|exact G| |exact A'].
  apply equivalent_sym; [apply (sf_laue _ _ _ SF)|exact E].
Qed.

(** ** choosing *)
Definition laue_star (h : ivec) : list ivec := istar h (uc_r_laue uc).
Lemma laue_star_in : forall h x, In x (laue_star h) <-> equivalent (uc_laue uc) h x.
Proof. exact (proj2 (og_laue _ _ _ _ _ _ _ _ O)). Qed.
Lemma laue_star_tl : forall h x, In x (tl (laue_star h)) <-> equivalent (uc_laue uc) h x /\ x <> h.
Proof.
  intros h x. rewrite <- laue_star_in. unfold laue_star. destruct (istar_facts h (uc_r_laue uc)) as (N & (m & E) & _). rewrite E in *. cbn [tl In]. inversion_clear N.
  split; [intros I; split; [tauto|]; intros ->; contradiction|]. intros [[->|I] X]; [congruence|exact I].
Qed.
Lemma equiv_dec : forall h h', {equivalent (uc_laue uc) h h'} + {~ equivalent (uc_laue uc) h h'}.
Proof.
  intros h h'. destruct (existsb (iv_eqb h') (laue_star h)) eqn:E.
  - left. apply laue_star_in. apply existsb_exists in E. destruct E as (y & Y & Z). apply iv_eqb_eq in Z. now subst.
  - right. intros Q. apply laue_star_in in Q. assert (existsb (iv_eqb h') (laue_star h) = true); [|congruence]. apply existsb_exists. exists h'. split; [exact Q|now apply iv_eqb_eq].
Qed.
Definition pick (h : ivec) : ivec := vtrunc (match map rvec (laue_star h) with [] => rvec h | v :: t => argmax_sum v t end).
Lemma vsum_rvec : forall h, vsum (rvec h) = IZR (index_sum h).
Proof. intros [x y z]. unfold vsum, rvec, index_sum. cbn [vx vy vz v0 v1 v2]. rewrite !plus_IZR. reflexivity. Qed.
Lemma pick_facts : forall h, equivalent (uc_laue uc) h (pick h) /\ forall x, equivalent (uc_laue uc) h x -> (index_sum x <= index_sum (pick h))%Z.
Proof.
  intros h. unfold pick. destruct (istar_facts h (uc_r_laue uc)) as (_ & (m & E) & _). pose proof (laue_star_in h) as I. unfold laue_star in *. rewrite E in *. cbn [map].
  destruct (argmax_in (map rvec m) (rvec h)) as [A B]. change (rvec h :: map rvec m) with (map rvec (h :: m)) in A, B.
  apply in_map_iff in A. destruct A as (y & Y & YI). rewrite <- Y in *. rewrite vtrunc_rvec. split; [now apply I|].
  intros x X. apply I in X. apply le_IZR. rewrite <- !vsum_rvec. apply B. now apply in_map.
Qed.
Definition candidates (dmin : R) (allowed : list ivec) : list ivec := filter (in_range (uc_m uc) dmin) allowed.
Lemma choose_facts : forall l, ChooseSymmetric uc l true = match l with [] => Err IndexError | _ => Ok (map pick (select (mask_loop laue_star l 0 l (repeat true (List.length l))) l)) end.
Proof.
  intros l. unfold ChooseSymmetric. destruct l as [|x l]; [reflexivity|]. cbv zeta. f_equal.
  assert (S : forall g, map vtrunc (calcstar (rvec g) (map rmat (uc_r_laue uc))) = laue_star g).
  { intros g. rewrite calcstar_int, map_map. unfold laue_star. rewrite <- (map_id (istar g (uc_r_laue uc))) at 2. apply map_ext. apply vtrunc_rvec. }
  assert (M : forall todo i mask, mask_loop (fun g => map vtrunc (calcstar (rvec g) (map rmat (uc_r_laue uc)))) (x :: l) i todo mask = mask_loop laue_star (x :: l) i todo mask).
  { induction todo as [|g todo IH]; intros i mask; cbn [mask_loop]; [reflexivity|]. now rewrite IH, S. }
  rewrite M. apply map_ext. intros g. unfold pick, laue_star. now rewrite calcstar_int.
Qed.

(** ** the whole list *)
Definition chosen (l : list ivec) : list ivec := select (mask_loop laue_star l 0 l (repeat true (List.length l))) l.
Lemma chosen_facts : forall l, NoDup l -> NoDup (chosen l) /\ forall h, In h (chosen l) <-> first_of (equivalent (uc_laue uc)) l h.
Proof.
  intros l N. pose proof (sf_laue _ _ _ (og_sf _ _ _ _ _ _ _ _ O)) as G.
  apply (choose_first laue_star (equivalent (uc_laue uc)));
    [intros; now apply equivalent_refl|intros; eauto using equivalent_sym|intros; eauto using equivalent_trans|apply laue_star_tl|exact N].
Qed.
Lemma nodup_filter {A} (p : A -> bool) l : NoDup l -> NoDup (filter p l).
Proof. induction l as [|x l IH]; intros N; cbn [filter]; [constructor|]. inversion_clear N. destruct (p x); [|auto]. constructor; [|auto]. intros I. apply filter_In in I. tauto. Qed.
Lemma getHKLs_shape : forall dmin, exists keep, Allowed_HKLs sgnum (index_box (uc_ih uc) (uc_ik uc) (uc_il uc)) = Ok (filter keep (index_box (uc_ih uc) (uc_ik uc) (uc_il uc))) /\
  let cand := candidates dmin (filter keep (index_box (uc_ih uc) (uc_ik uc) (uc_il uc))) in
  NoDup cand /\ getHKLs uc dmin = match cand with [] => Err IndexError | _ => Ok (SortHKL (uc_m uc) (map pick (chosen cand))) end.
Proof.
  intros dmin. destruct (C88_order sgnum (of_range _ _ _ _ _ OF)) as (keep & K). exists keep. split; [apply K|]. intros cand. split; [unfold cand, candidates; apply nodup_filter, nodup_filter, box_nodup|].
  unfold getHKLs. rewrite (of_n _ _ _ _ _ OF), K. cbn [rbind]. fold (candidates dmin (filter keep (index_box (uc_ih uc) (uc_ik uc) (uc_il uc)))). fold cand.
  rewrite choose_facts. destruct cand; reflexivity.
Qed.
Lemma pick_inj : forall l h h', NoDup l -> In h (chosen l) -> In h' (chosen l) -> equivalent (uc_laue uc) (pick h) (pick h') -> h = h'.
Proof.
  intros l h h' N I I' E. pose proof (sf_laue _ _ _ (og_sf _ _ _ _ _ _ _ _ O)) as G. destruct (chosen_facts l N) as [_ C]. apply C in I, I'.
  eapply (first_unique (equivalent (uc_laue uc))); eauto; [intros; eauto using equivalent_sym|].
  destruct (pick_facts h) as [P _]. destruct (pick_facts h') as [P' _].
  eapply equivalent_trans; [exact G|exact P|]. eapply equivalent_trans; [exact G|exact E|]. now apply equivalent_sym.
Qed.
Lemma getHKLs_list : forall dmin hkls, getHKLs uc dmin = Ok hkls ->
  NoDup hkls /\
  (forall h, In h hkls -> observable L sg dmin h /\ forall x, equivalent (uc_laue uc) h x -> (index_sum x <= index_sum h)%Z) /\
  (forall h h', In h hkls -> In h' hkls -> equivalent (uc_laue uc) h h' -> h = h').
Proof.
  intros dmin hkls H. pose proof (sf_laue _ _ _ (og_sf _ _ _ _ _ _ _ _ O)) as G.
  destruct (getHKLs_shape dmin) as (keep & K & N & E). cbv zeta in N, E. rewrite H in E.
  set (cand := candidates dmin (filter keep (index_box (uc_ih uc) (uc_ik uc) (uc_il uc)))) in *.
  assert (HP : hkls = SortHKL (uc_m uc) (map pick (chosen cand))) by (destruct cand; [discriminate|now injection E]).
  assert (P : Permutation hkls (map pick (chosen cand))) by (rewrite HP; apply sort_perm).
  destruct (chosen_facts cand N) as [NC C].
  assert (IN : forall h, In h hkls -> exists f, In f (chosen cand) /\ h = pick f).
  { intros h I. apply (Permutation_in _ P) in I. apply in_map_iff in I. destruct I as (f & <- & F). eauto. }
  split.
  - apply (Permutation_NoDup (Permutation_sym P)). assert (Q : forall a b, In a (chosen cand) -> In b (chosen cand) -> pick a = pick b -> a = b).
    { intros a b A B AB. apply (pick_inj cand); auto. rewrite AB. now apply equivalent_refl. }
    revert NC Q. clear. induction (chosen cand) as [|x l IH]; intros N Q; cbn [map]; [constructor|]. inversion_clear N. constructor.
    + intros I. apply in_map_iff in I. destruct I as (y & Y & I). assert (x = y) by (apply Q; [now left|now right|auto]). now subst.
    + apply IH; auto. intros; apply Q; auto; now right.
  - split.
    + intros h I. destruct (IN h I) as (f & F & ->). destruct (pick_facts f) as [PE PM]. split.
      * apply (equiv_observable dmin f _ PE). apply C in F. destruct F as (i & F & _). apply nth_error_In in F. unfold cand, candidates in F. apply filter_In in F. destruct F as [F R'].
        apply (in_range_iff _ _ _ _ (og_rmt _ _ _ _ _ _ _ _ O) (og_det _ _ _ _ _ _ _ _ O)) in R'. destruct R' as [NZ R']. split; [exact NZ|]. split; [|exact R'].
        destruct (og_sg _ _ _ _ _ _ _ _ O) as (c & s & S).
        destruct (C88_absent_removed sgnum sg (of_range _ _ _ _ _ OF) ltac:(exists setting; eauto) (index_box (uc_ih uc) (uc_ik uc) (uc_il uc))) as (kept & K' & A).
        rewrite K in K'. injection K' as <-. now apply A.
      * intros x X. apply PM. eapply equivalent_trans; eauto.
    + intros h h' I I' X. destruct (IN h I) as (f & F & ->), (IN h' I') as (f' & F' & ->). now rewrite (pick_inj cand f f' N F F' X).
Qed.
Lemma getHKLs_order : forall dmin hkls, getHKLs uc dmin = Ok hkls ->
  StronglySorted (fun a b => norm (gvector L a) <= norm (gvector L b) + / 10 ^ 8) hkls.
Proof.
  intros dmin hkls H. destruct (getHKLs_shape dmin) as (keep & K & N & E). cbv zeta in N, E. rewrite H in E.
  match type of E with _ = match ?c with _ => _ end => set (cand := c) in * end.
  assert (HP : hkls = SortHKL (uc_m uc) (map pick (chosen cand))) by (destruct cand; [discriminate|now injection E]).
  rewrite HP. pose proof (sort_sorted (uc_m uc) (map pick (chosen cand))) as S. revert S. generalize (SortHKL (uc_m uc) (map pick (chosen cand))). clear - O.
  assert (RB : forall x, IZR (rint x) - 1 / 2 <= x <= IZR (rint x) + 1 / 2).
  { intros x. unfold rint. destruct (base_Int_part x) as [A B]. destruct (Rlt_dec _ _); [lra|]. destruct (Rlt_dec _ _); [rewrite plus_IZR; lra|]. destruct (Z.even _); [lra|rewrite plus_IZR; lra]. }
  induction l as [|a l IH]; intros S; constructor; inversion_clear S as [|? ? S' F]; [auto|].
  rewrite Forall_forall in *. intros b B. specialize (F b B). unfold sort_key in F. rewrite !(length_g _ L _ (og_rmt _ _ _ _ _ _ _ _ O)) in F. cbn [key_leb] in F.
  assert (LE : (rint (norm (gvector L a) * 10 ^ 8) <= rint (norm (gvector L b) * 10 ^ 8))%Z).
  { destruct (rint (norm (gvector L a) * 10 ^ 8) <? rint (norm (gvector L b) * 10 ^ 8))%Z eqn:Q; [lia|]. destruct (rint (norm (gvector L a) * 10 ^ 8) =? rint (norm (gvector L b) * 10 ^ 8))%Z eqn:Q'; [lia|discriminate]. }
  apply IZR_le in LE. pose proof (RB (norm (gvector L a) * 10 ^ 8)). pose proof (RB (norm (gvector L b) * 10 ^ 8)).
  assert (T : 0 < 10 ^ 8) by (apply pow_lt; lra). apply Rmult_le_reg_r with (10 ^ 8); [exact T|]. rewrite Rmult_plus_distr_r, Rinv_l by lra. lra.
Qed.
Lemma getHKLs_ties : forall dmin hkls, getHKLs uc dmin = Ok hkls ->
  StronglySorted (fun a b => norm (gvector L a) = norm (gvector L b) -> tie_order a b) hkls.
Proof.
  intros dmin hkls H. destruct (getHKLs_shape dmin) as (keep & K & N & E). cbv zeta in N, E. rewrite H in E.
  match type of E with _ = match ?c with _ => _ end => set (cand := c) in * end.
  assert (HP : hkls = SortHKL (uc_m uc) (map pick (chosen cand))) by (destruct cand; [discriminate|now injection E]).
  rewrite HP. pose proof (sort_sorted (uc_m uc) (map pick (chosen cand))) as S. revert S. generalize (SortHKL (uc_m uc) (map pick (chosen cand))). clear - O.
  induction l as [|a l IH]; intros S; constructor; inversion_clear S as [|? ? S' F]; [auto|].
  rewrite Forall_forall in *. intros b B Eq. specialize (F b B). unfold sort_key in F. rewrite !(length_g _ L _ (og_rmt _ _ _ _ _ _ _ _ O)), Eq in F. cbn [key_leb] in F.
  rewrite Z.ltb_irrefl, Z.eqb_refl in F. unfold tie_order, index_sum. cbv zeta.
  repeat match type of F with (if (?x <? ?y)%Z then _ else _) = _ => destruct (Z.ltb_spec x y); [lia|]; destruct (Z.eqb_spec x y); [|discriminate] end; lia.
Qed.
Lemma getHKLs_cand : forall dmin h, in_range (uc_m uc) dmin h = true ->
  (forall kept, Allowed_HKLs sgnum (index_box (uc_ih uc) (uc_ik uc) (uc_il uc)) = Ok kept -> In h kept) ->
  exists hkls h', getHKLs uc dmin = Ok hkls /\ In h' hkls /\ equivalent (uc_laue uc) h h'.
Proof.
  intros dmin h R' A. pose proof (sf_laue _ _ _ (og_sf _ _ _ _ _ _ _ _ O)) as G.
  destruct (getHKLs_shape dmin) as (keep & K & N & E). cbv zeta in N, E. apply A in K.
  match type of E with _ = match ?c with _ => _ end => set (cand := c) in * end.
  assert (I : In h cand) by (unfold cand, candidates; apply filter_In; auto).
  destruct (chosen_facts cand N) as [_ C].
  destruct (first_exists laue_star (equivalent (uc_laue uc)) ltac:(intros; now apply equivalent_refl) ltac:(intros; eauto using equivalent_sym) ltac:(intros; eauto using equivalent_trans) laue_star_tl equiv_dec cand h I) as (f & F & X).
  exists (SortHKL (uc_m uc) (map pick (chosen cand))), (pick f). split; [rewrite E; destruct cand; [destruct I|reflexivity]|]. split.
  - apply (Permutation_in _ (Permutation_sym (sort_perm _ _))). apply in_map. now apply C.
  - apply equivalent_trans with f; [exact G|now apply equivalent_sym|]. apply pick_facts.
Qed.
Lemma getHKLs_from : forall dmin hkls h, getHKLs uc dmin = Ok hkls -> In h hkls -> exists f, In f (index_box (uc_ih uc) (uc_ik uc) (uc_il uc)) /\ equivalent (uc_laue uc) f h.
Proof.
  intros dmin hkls h H I. destruct (getHKLs_shape dmin) as (keep & K & N & E). cbv zeta in N, E. rewrite H in E.
  match type of E with _ = match ?c with _ => _ end => set (cand := c) in * end.
  assert (HP : hkls = SortHKL (uc_m uc) (map pick (chosen cand))) by (destruct cand; [discriminate|now injection E]).
  rewrite HP in I. apply (Permutation_in _ (sort_perm _ _)) in I. apply in_map_iff in I. destruct I as (f & <- & F).
  destruct (chosen_facts cand N) as [_ C]. apply C in F. destruct F as (i & F & _). apply nth_error_In in F. unfold cand, candidates in F. apply filter_In in F. destruct F as [F _]. apply filter_In in F.
  exists f. split; [tauto|]. apply pick_facts.
Qed.
End Object.
