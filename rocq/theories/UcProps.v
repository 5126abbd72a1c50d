(** C90: symmetry in reciprocal space.  C91: the list of reflections of a unit cell. *)
From Coq Require Import Reals String Lra Psatz Permutation Sorted Lia.
From Verif Require Import Prelude SgModel SgSpec SgProofs SgProps Lin LatModel LatSpec LatProofs LatCell LatSpace UcModel UcSpec UcSym UcList UcProofs UcComplete UcMore.
Import ListNotations.
Local Open Scope R_scope.

Lemma laue_type : forall sgnum t, latticeType sgnum = Ok t -> (16 <= sgnum)%Z -> t <> Triclinic /\ t <> Monoclinic.
Proof.
  intros n t T H. unfold latticeType in T. rewrite (proj2 (Z.leb_gt n 2)) in T by lia. rewrite (proj2 (Z.leb_gt n 15)), andb_false_r in T by lia.
  repeat match type of T with (if ?b then _ else _) = _ => destruct b; [injection T as <-; split; discriminate|] end. discriminate.
Qed.
Lemma ops_equiv : forall sgnum setting ops pg laue c s, (1 <= sgnum <= 230)%Z -> GenerateSGSym sgnum setting = Ok (ops, pg, laue, c, s) ->
  (forall h h', equivalent pg h h' <-> symmetry_equivalent ops h h') /\ (forall h h', equivalent laue h h' <-> laue_equivalent ops h h').
Proof.
  intros n st ops pg laue c s H E. destruct (C86_point_and_laue_groups _ _ _ _ _ _ _ H E) as (_ & _ & P & Q & _).
  assert (A : forall h h', equivalent pg h h' <-> symmetry_equivalent ops h h').
  { intros h h'. split.
    - intros (g & G & C). apply P in G. destruct G as (op & I & <-). exists op. auto.
    - intros (op & I & C). exists (op_r op). split; [|exact C]. apply P. eauto. }
  split; [exact A|]. intros h h'. unfold laue_equivalent. rewrite <- !A. split.
  - intros (g & G & C). apply Q in G. destruct G as [G|(q & G & ->)]; [left; exists g; auto|]. right. exists q. split; [exact G|].
    apply carries_row in C. apply carries_row. rewrite row_negm in C. exact C.
  - intros [(g & G & C)|(g & G & C)]; [exists g; split; [apply Q; auto|exact C]|]. exists (negm g). split; [apply Q; right; eauto|].
    apply carries_row in C. apply carries_row. rewrite row_negm. exact C.
Qed.
Lemma setup : forall len deg sgnum setting uc ops L, unitcell_object len deg sgnum setting uc -> cell_of sgnum len deg -> operations_in sgnum setting ops -> direct_vectors len deg L ->
  exists t, object_geom len deg sgnum setting uc L t ops /\ object_facts len deg sgnum setting uc /\
   (forall h h', equivalent (uc_pg uc) h h' <-> symmetry_equivalent ops h h') /\ (forall h h', equivalent (uc_laue uc) h h' <-> laue_equivalent ops h h').
Proof.
  intros len deg n st uc ops L U C (pg & laue & c & s & E) DV. pose proof (object_of _ _ _ _ _ U) as OF.
  destruct (object_geom_of _ _ _ _ _ U C) as (L' & t & sg & O). pose proof (og_L _ _ _ _ _ _ _ _ O) as DV'. unfold direct_vectors in DV, DV'. rewrite DV in DV'. injection DV' as <-.
  destruct (og_sg _ _ _ _ _ _ _ _ O) as (c' & s' & E'). rewrite E in E'. injection E' as <- -> -> <- <-.
  exists t. split; [exact O|]. split; [exact OF|]. exact (ops_equiv _ _ _ _ _ _ _ (of_range _ _ _ _ _ OF) E).
Qed.

(** The reciprocal-space operations hexrd rounds to integers are exactly the actions of the direct-space operations on
    plane indices: the planes h go to the planes r h. *)
Theorem C90_reciprocal_operations : forall len deg sgnum setting uc,
  unitcell_object len deg sgnum setting uc -> cell_of sgnum len deg ->
  Forall2 (fun g r => forall h, carries g h (act r h)) (uc_pg uc) (uc_r uc) /\
  Forall2 (fun g r => forall h, carries g h (act r h)) (uc_laue uc) (uc_r_laue uc).
Proof.
  intros len deg n st uc U C. destruct (object_geom_of _ _ _ _ _ U C) as (L & t & sg & O). split; [apply (og_pg _ _ _ _ _ _ _ _ O)|apply (og_laue _ _ _ _ _ _ _ _ O)].
Qed.

(** The star of a reflection: each equivalent reflection once, itself first, nothing else, all of one spacing. *)
Theorem C90_star : forall len deg sgnum setting uc ops L h laue,
  unitcell_object len deg sgnum setting uc -> cell_of sgnum len deg -> operations_in sgnum setting ops -> direct_vectors len deg L ->
  exists star, CalcStar uc (index_vector h) "r" laue = Ok (map index_vector star) /\ NoDup star /\ hd_error star = Some h /\
    (forall x, In x star <-> (if laue then laue_equivalent ops h x else symmetry_equivalent ops h x)) /\
    forall x d, In x star -> spacing L h d -> spacing L x d.
Proof.
  intros len deg n st uc ops L h laue U C OI DV. destruct (setup _ _ _ _ _ _ _ U C OI DV) as (t & O & OF & A & B).
  exists (istar h (if laue then uc_r_laue uc else uc_r uc)). split; [|split; [|split; [|split]]].
  - unfold CalcStar. cbn [String.eqb Ascii.eqb Bool.eqb]. change (index_vector h) with (rvec h). rewrite calcstar_int. reflexivity.
  - apply istar_facts.
  - destruct (istar_facts h (if laue then uc_r_laue uc else uc_r uc)) as (_ & (m & ->) & _). reflexivity.
  - intros x. destruct laue; [rewrite <- B; apply (og_laue _ _ _ _ _ _ _ _ O)|rewrite <- A; apply (og_pg _ _ _ _ _ _ _ _ O)].
  - intros x d I S. assert (E : equivalent (uc_laue uc) h x).
    { destruct laue; [now apply (og_laue _ _ _ _ _ _ _ _ O)|]. apply (og_pg _ _ _ _ _ _ _ _ O) in I. destruct I as (g & G & K). exists g. split; [|exact K]. now apply (sf_incl _ _ _ (og_sf _ _ _ _ _ _ _ _ O)). }
    eapply equiv_spacing; eauto.
Qed.

(** The multiplicity: the star times the operations that leave the reflection alone is the order of the group. *)
Theorem C90_multiplicity : forall len deg sgnum setting uc h laue star fixing,
  unitcell_object len deg sgnum setting uc -> cell_of sgnum len deg ->
  CalcStar uc (index_vector h) "r" laue = Ok star ->
  let group := if laue then uc_laue uc else uc_pg uc in
  NoDup fixing -> (forall g, In g fixing <-> In g group /\ carries g h h) ->
  (List.length star * List.length fixing = List.length group)%nat.
Proof.
  intros len deg n st uc h laue star fixing U C S group N F. destruct (object_geom_of _ _ _ _ _ U C) as (L & t & sg & O).
  unfold CalcStar in S. cbn [String.eqb Ascii.eqb Bool.eqb] in S. change (index_vector h) with (rvec h) in S. rewrite calcstar_int in S. injection S as <-. rewrite map_length.
  pose proof (og_sf _ _ _ _ _ _ _ _ O) as SF.
  apply star_size with (h := h); auto.
  - unfold group. destruct laue; apply SF.
  - apply istar_facts.
  - intros x. unfold group. destruct laue; [apply (og_laue _ _ _ _ _ _ _ _ O)|apply (og_pg _ _ _ _ _ _ _ _ O)].
Qed.

(** What is listed: observable reflections, one of each Laue class, the one with the largest sum of indices. *)
Theorem C91_listed : forall len deg sgnum setting uc ops L dmin hkls,
  unitcell_object len deg sgnum setting uc -> cell_of sgnum len deg -> operations_in sgnum setting ops -> direct_vectors len deg L ->
  getHKLs uc dmin = Ok hkls ->
  NoDup hkls /\
  (forall h, In h hkls -> observable L ops dmin h) /\
  (forall h x, In h hkls -> laue_equivalent ops h x -> (index_sum x <= index_sum h)%Z) /\
  (forall h h', In h hkls -> In h' hkls -> laue_equivalent ops h h' -> h = h') /\
  StronglySorted (fun a b => norm (gvector L a) <= norm (gvector L b) + / 10 ^ 8) hkls.
Proof.
  intros len deg n st uc ops L dmin hkls U C OI DV H. destruct (setup _ _ _ _ _ _ _ U C OI DV) as (t & O & OF & A & B).
  destruct (getHKLs_list _ _ _ _ _ _ _ _ O OF dmin hkls H) as (N & Q & R').
  split; [exact N|]. split; [intros h I; now apply Q|]. split; [intros h x I E; apply B in E; apply (proj2 (Q h I)); exact E|]. split; [intros h h' I I' E; apply B in E; auto|].
  eapply getHKLs_order; eauto.
Qed.
(** C91: reflections of the same spacing come in a fixed order. *)
Theorem C91_ties : forall len deg sgnum setting uc ops L dmin hkls,
  unitcell_object len deg sgnum setting uc -> cell_of sgnum len deg -> operations_in sgnum setting ops -> direct_vectors len deg L ->
  getHKLs uc dmin = Ok hkls -> StronglySorted (fun a b => norm (gvector L a) = norm (gvector L b) -> tie_order a b) hkls.
Proof.
  intros len deg n st uc ops L dmin hkls U C OI DV H. destruct (setup _ _ _ _ _ _ _ U C OI DV) as (t & O & OF & A & B). eapply getHKLs_ties; eauto.
Qed.

(** Completeness for space groups 16-230: every observable reflection down to dmin has its Laue class in the list. *)
Theorem C91_complete_partial : forall len deg sgnum setting uc ops L dmin h,
  unitcell_object len deg sgnum setting uc -> cell_of sgnum len deg -> operations_in sgnum setting ops -> direct_vectors len deg L ->
  (16 <= sgnum)%Z -> uc_dmin uc <= dmin -> observable L ops dmin h ->
  exists hkls h', getHKLs uc dmin = Ok hkls /\ In h' hkls /\ laue_equivalent ops h h'.
Proof.
  intros len deg n st uc ops L dmin h U C OI DV G D OB. destruct (setup _ _ _ _ _ _ _ U C OI DV) as (t & O & OF & A & B).
  destruct (laue_type n t (og_t _ _ _ _ _ _ _ _ O) G) as [T1 T2].
  destruct (complete_all _ _ _ _ _ _ _ _ O OF T1 T2 dmin h D OB) as (hkls & h' & X & Y & Z). exists hkls, h'. split; [exact X|]. split; [exact Y|]. now apply B.
Qed.

(** For the oblique cells (1-15), and for any dmin: the reflections are listed whose indices are not larger than the
    first index along each axis that is out of range. *)
Theorem C91_oblique_partial : forall len deg sgnum setting uc ops L dmin h,
  unitcell_object len deg sgnum setting uc -> cell_of sgnum len deg -> operations_in sgnum setting ops -> direct_vectors len deg L ->
  sgnum <> 205%Z -> observable L ops dmin h ->
  (forall n, (1 <= n < Z.abs (v0 h))%Z -> exists d, spacing L (IV n 0 0) d /\ uc_dmin uc < d) ->
  (forall n, (1 <= n < Z.abs (v1 h))%Z -> exists d, spacing L (IV 0 n 0) d /\ uc_dmin uc < d) ->
  (forall n, (1 <= n < Z.abs (v2 h))%Z -> exists d, spacing L (IV 0 0 n) d /\ uc_dmin uc < d) ->
  exists hkls h', getHKLs uc dmin = Ok hkls /\ In h' hkls /\ laue_equivalent ops h h'.
Proof.
  intros len deg n st uc ops L dmin h U C OI DV NE OB H0 H1 H2. destruct (setup _ _ _ _ _ _ _ U C OI DV) as (t & O & OF & A & B).
  assert (K : forall axis e m j, axis m = rvec e -> reaches (uc_m uc) (uc_dmin uc) axis m -> ((1 <= m < Z.abs j)%Z -> exists d, spacing L e d /\ uc_dmin uc < d) -> (- m <= j <= m)%Z).
  { intros axis e m j E (M & Q & _) X. destruct (Z_lt_le_dec m (Z.abs j)) as [LT|LE]; [exfalso|lia]. destruct X as (d & [P S] & D); [lia|].
    rewrite E in Q. specialize (Q _ (length_g _ L e (og_rmt _ _ _ _ _ _ _ _ O))). apply Q. replace (1 / norm (gvector L e)) with d; [exact D|].
    assert (norm (gvector L e) <> 0) by (intros Z; rewrite Z in S; lra). apply Rmult_eq_reg_r with (norm (gvector L e)); [|assumption]. rewrite S. field. assumption. }
  destruct (complete_box _ _ _ _ _ _ _ _ O OF dmin h OB) as (hkls & h' & X & Y & Z).
  - exists h. split; [apply equivalent_refl; apply (laue_group _ _ _ _ _ _ _ _ O)|].
    pose proof (K _ (IV (uc_ih uc) 0 0) _ _ eq_refl (of_h _ _ _ _ _ OF) (H0 (uc_ih uc))).
    pose proof (K _ (IV 0 (uc_ik uc) 0) _ _ eq_refl (of_k _ _ _ _ _ OF) (H1 (uc_ik uc))).
    pose proof (K _ (IV 0 0 (uc_il uc)) _ _ eq_refl (of_l _ _ _ _ _ OF) (H2 (uc_il uc))).
    unfold in_box. auto.
  - now right. - intros; contradiction.
  - exists hkls, h'. split; [exact X|]. split; [exact Y|]. now apply B.
Qed.

(** When nothing is observable there is no empty list: the call raises. *)
Theorem C91_nothing_refuted : forall len deg sgnum setting uc ops L dmin,
  unitcell_object len deg sgnum setting uc -> cell_of sgnum len deg -> operations_in sgnum setting ops -> direct_vectors len deg L ->
  (forall h, ~ observable L ops dmin h) -> getHKLs uc dmin = Err IndexError.
Proof.
  intros len deg n st uc ops L dmin U C OI DV N. destruct (setup _ _ _ _ _ _ _ U C OI DV) as (t & O & OF & A & B).
  destruct (getHKLs_shape _ _ _ _ _ OF dmin) as (keep & K & _ & E). cbv zeta in E.
  match type of E with _ = match ?c with _ => _ end => remember c as cand eqn:CE end. destruct cand as [|x cand]; [exact E|]. exfalso.
  assert (I : In x (x :: cand)) by now left. rewrite CE in I. unfold candidates in I. apply filter_In in I. destruct I as [I R'].
  destruct (getHKLs_cand _ _ _ _ _ _ _ _ O OF dmin x R') as (hkls & h' & G & I' & _); [intros kept K'; rewrite K in K'; now injection K' as <-|].
  destruct (getHKLs_list _ _ _ _ _ _ _ _ O OF dmin hkls G) as (_ & Q & _). apply (N h'). now apply Q.
Qed.

(** The object can be built, and its dmin changed, for every positive dmin; for dmin = 0 or less the constructor never returns. *)
Theorem C91_positive_dmin : forall len deg sgnum setting dmin, cell_of sgnum len deg -> (1 <= sgnum <= 230)%Z -> 0 < dmin ->
  (exists rounds, forall fuel, (rounds <= fuel)%nat -> exists uc, new_unitcell fuel len deg sgnum setting dmin = Ok uc /\ uc_dmin uc = dmin) /\
  forall uc, unitcell_object len deg sgnum setting uc ->
  exists rounds, forall fuel, (rounds <= fuel)%nat -> exists uc', set_dmin fuel uc dmin = Ok uc' /\ uc_dmin uc' = dmin.
Proof. intros len deg n st dmin C H P. split; [now apply new_ends|]. intros uc U. eapply set_ends; eauto. Qed.
Theorem C91_dmin_refuted : forall len deg sgnum setting dmin fuel, cell_of sgnum len deg -> dmin <= 0 ->
  new_unitcell fuel len deg sgnum setting dmin = Err OutOfFuel.
Proof. exact (fun len deg n st dmin fuel => new_loops len deg n st dmin fuel). Qed.

(** ** the lists that are too short *)
Lemma oblique_cell : cell_of 3 (V3 1 1 1) (V3 90 120 90).
Proof.
  pose proof PI_RGT_0. split; [|exists Monoclinic; cbn; auto]. unfold possible_cell, radians_of, vscale. cbn [vx vy vz]. repeat split; lra.
Qed.
Lemma cubic_cell : forall n, (195 <= n <= 230)%Z -> cell_of n (V3 1 1 1) (V3 90 90 90).
Proof.
  pose proof PI_RGT_0. intros n N. split; [unfold possible_cell, radians_of, vscale; cbn [vx vy vz]; repeat split; lra|]. exists Cubic. split; [|cbn; auto].
  unfold latticeType. repeat (match goal with |- context [(?a <=? ?b)%Z] => destruct (Z.leb_spec a b); try lia | |- context [(?a <? ?b)%Z] => destruct (Z.ltb_spec a b); try lia end; cbn [andb]); reflexivity.
Qed.
(** C2/P2-type monoclinic cell a = b = c = 1, beta = 120 degrees, dmin = 1/8: the planes (8 0 -4) have spacing 1/8 and
    are not extinct, but no equivalent of theirs is listed. *)
Theorem C91_monoclinic_refuted : let len := V3 1 1 1 in let deg := V3 90 120 90 in cell_of 3 len deg /\
  exists L ops uc hkls, direct_vectors len deg L /\ operations_in 3 0 ops /\
  (exists fuel, new_unitcell fuel len deg 3 0 (1 / 8) = Ok uc) /\ getHKLs uc (1 / 8) = Ok hkls /\
  observable L ops (1 / 8) (IV 8 0 (-4)) /\ forall h', In h' hkls -> ~ laue_equivalent ops (IV 8 0 (-4)) h'.
Proof.
  intros len deg. split; [exact oblique_cell|].
  destruct (new_ends len deg 3 0 (1 / 8) oblique_cell ltac:(lia) ltac:(lra)) as [F HF]. destruct (HF F (le_n F)) as (uc & NU & UD).
  pose proof (uo_new _ _ _ _ _ _ _ NU) as U. pose proof (object_of _ _ _ _ _ U) as OF. destruct (object_geom_of _ _ _ _ _ U oblique_cell) as (L & t & ops & O).
  pose proof (og_sg _ _ _ _ _ _ _ _ O) as (c & s & GS).
  destruct (ops_equiv _ _ _ _ _ _ _ (of_range _ _ _ _ _ OF) GS) as [EA EB].
  assert (RM : u_rmt (uc_m uc) = M3 (4 / 3) 0 (2 / 3) 0 1 0 (2 / 3) 0 (4 / 3)).
  { apply rmt_is; [apply (og_inv _ _ _ _ _ _ _ _ O)|]. rewrite (dmt_form _ _ _ _ _ _ _ _ O OF).
    assert (T : t = Monoclinic). { pose proof (og_t _ _ _ _ _ _ _ _ O) as T. vm_compute in T. congruence. } subst t.
    assert (CS : cos (PI / 180 * 120) = - / 2). { replace (PI / 180 * 120) with (PI - PI / 3) by field. rewrite Rtrigo_facts.cos_pi_minus, cos_PI3. lra. }
    unfold coefs, basis, comb, rmat, len, deg. cbn [vx vy vz v0 v1 v2 r0 r1 r2]. rewrite ?(Rmult_comm _ (PI / 180)), ?CS. lin_unfold. f_equal; field. }
  assert (Q : forall h, norm2 (gvector L h) = 4 / 3 * (IZR (v0 h) * IZR (v0 h)) + 4 / 3 * (IZR (v0 h) * IZR (v2 h)) + IZR (v1 h) * IZR (v1 h) + 4 / 3 * (IZR (v2 h) * IZR (v2 h))).
  { intros [x y z]. rewrite (quad_g _ _ _ (og_rmt _ _ _ _ _ _ _ _ O)), RM. unfold rvec. cbn [v0 v1 v2]. lin_unfold. field. }
  assert (H1 : (uc_ih uc <= 7)%Z).
  { destruct (Z_lt_le_dec 7 (uc_ih uc)) as [X|X]; [exfalso|exact X]. destruct (of_h _ _ _ _ _ OF) as (_ & _ & MIN). destruct (MIN 7%Z ltac:(lia)) as (l & CL & LT).
    change (V3 7 0 0) with (rvec (IV 7 0 0)) in CL. rewrite (length_g _ L _ (og_rmt _ _ _ _ _ _ _ _ O)) in CL. injection CL as <-. rewrite UD in LT.
    assert (P : 8 < norm (gvector L (IV 7 0 0))). { apply Rsqr_incrst_0; try lra; [|apply norm_pos]. unfold Rsqr. rewrite norm_sq, Q. cbn [v0 v1 v2]. lra. }
    apply (Rmult_lt_compat_r (norm (gvector L (IV 7 0 0)))) in LT; [|lra]. replace (1 / norm (gvector L (IV 7 0 0)) * norm (gvector L (IV 7 0 0))) with 1 in LT by (field; lra). lra. }
  assert (SP : spacing L (IV 8 0 (-4)) (1 / 8)).
  { split; [lra|]. assert (norm (gvector L (IV 8 0 (-4))) = 8); [|lra]. apply Rsqr_inj; [apply norm_pos|lra|]. unfold Rsqr. rewrite norm_sq, Q. cbn [v0 v1 v2]. lra. }
  assert (SGE : exists pg laue c s, GenerateSGSym 3 0 = Ok ([identity_op; OP (IM (IV (-1) 0 0) (IV 0 1 0) (IV 0 0 (-1))) (IV 0 0 0)], pg, laue, c, s)) by (vm_compute; eauto 10).
  destruct SGE as (pg & laue & c' & s' & GE). rewrite GE in GS. injection GS as OE _ _ _ _.
  assert (OB : observable L ops (1 / 8) (IV 8 0 (-4))).
  { split; [discriminate|]. split; [|exists (1 / 8); split; [exact SP|lra]]. rewrite <- OE. intros (op & [<-|[<-|[]]] & _ & N); apply N; vm_compute; exists 0%Z; reflexivity. }
  assert (OA : observable L ops (1 / 8) (IV 1 0 0)).
  { split; [discriminate|]. assert (NP : 0 < norm (gvector L (IV 1 0 0))). { apply norm_gt0. intros X. apply (gvector_zero L _ (og_det _ _ _ _ _ _ _ _ O)) in X. discriminate. }
    assert (N8 : norm (gvector L (IV 1 0 0)) <= 8). { apply Rsqr_incr_0; try lra. unfold Rsqr. rewrite norm_sq, Q. cbn [v0 v1 v2]. lra. }
    split; [rewrite <- OE; intros (op & [<-|[<-|[]]] & _ & N); apply N; vm_compute; exists 0%Z; reflexivity|].
    exists (/ norm (gvector L (IV 1 0 0))). split; [split; [now apply Rinv_0_lt_compat|apply Rinv_l; lra]|]. replace (1 / 8) with (/ 8) by lra. apply Rinv_le_contravar; lra. }
  destruct (C91_oblique_partial len deg 3 0 uc ops L (1 / 8) (IV 1 0 0) U oblique_cell ltac:(exists pg, laue, c', s'; rewrite <- OE; exact GE) (og_L _ _ _ _ _ _ _ _ O) ltac:(lia) OA) as (hkls & _ & G & _);
    [intros m M; cbn in M; lia..|].
  exists L, ops, uc, hkls. split; [apply (og_L _ _ _ _ _ _ _ _ O)|]. split; [exists pg, laue, c', s'; rewrite <- OE; exact GE|]. split; [eauto|]. split; [exact G|]. split; [exact OB|].
  intros h' I E. destruct (getHKLs_from _ _ _ _ _ _ _ _ O OF (1 / 8) hkls h' G I) as (f & FI & FE). apply EB in FE. apply EB in E. pose proof (laue_group _ _ _ _ _ _ _ _ O) as LG.
  assert (X : equivalent (uc_laue uc) (IV 8 0 (-4)) f) by (eapply equivalent_trans; [exact LG|exact E|]; apply equivalent_sym; [exact LG|]; now apply EB).
  apply box_in in FI. apply EB in X. assert (V : v0 f = 8%Z \/ v0 f = (-8)%Z).
  { rewrite <- OE in X. clear - X. destruct f as [x y z]. destruct X as [(op & [<-|[<-|[]]] & C)|(op & [<-|[<-|[]]] & C)]; apply carries_row in C; unfold row_act, negv in C; cbn [op_r identity_op one v0 v1 v2 r0 r1 r2] in *; injection C; lia. }
  lia.
Qed.
(** Asking for smaller spacings than the object's own dmin gives too short a list: primitive cubic cell with a = 1. *)
Theorem C91_smaller_dmin_refuted : let len := V3 1 1 1 in let deg := V3 90 90 90 in cell_of 221 len deg /\
  exists L ops uc hkls, direct_vectors len deg L /\ operations_in 221 0 ops /\
  (exists fuel, new_unitcell fuel len deg 221 0 1 = Ok uc) /\ getHKLs uc (1 / 2) = Ok hkls /\
  observable L ops (1 / 2) (IV 2 0 0) /\ forall h', In h' hkls -> ~ laue_equivalent ops (IV 2 0 0) h'.
Proof.
  intros len deg. pose proof (cubic_cell 221 ltac:(lia)) as CC. split; [exact CC|].
  destruct (new_ends len deg 221 0 1 CC ltac:(lia) ltac:(lra)) as [F HF]. destruct (HF F (le_n F)) as (uc & NU & UD).
  pose proof (uo_new _ _ _ _ _ _ _ NU) as U. pose proof (object_of _ _ _ _ _ U) as OF. destruct (object_geom_of _ _ _ _ _ U CC) as (L & t & ops & O).
  pose proof (og_sg _ _ _ _ _ _ _ _ O) as (c & s & GS).
  destruct (ops_equiv _ _ _ _ _ _ _ (of_range _ _ _ _ _ OF) GS) as [EA EB].
  assert (RM : u_rmt (uc_m uc) = mI).
  { apply rmt_is; [apply (og_inv _ _ _ _ _ _ _ _ O)|]. rewrite (dmt_form _ _ _ _ _ _ _ _ O OF).
    assert (T : t = Cubic). { pose proof (og_t _ _ _ _ _ _ _ _ O) as T. vm_compute in T. congruence. } subst t.
    unfold coefs, basis, comb, rmat, ieye, len, deg. cbn [vx vy vz v0 v1 v2 r0 r1 r2]. lin_unfold. f_equal; field. }
  assert (Q : forall h, norm2 (gvector L h) = IZR (v0 h * v0 h + v1 h * v1 h + v2 h * v2 h)).
  { intros [x y z]. rewrite (quad_g _ _ _ (og_rmt _ _ _ _ _ _ _ _ O)), RM. unfold rvec. cbn [v0 v1 v2]. rewrite !plus_IZR, !mult_IZR. lin_unfold. field. }
  assert (N1 : forall h m, (0 <= m)%Z -> (v0 h * v0 h + v1 h * v1 h + v2 h * v2 h = m * m)%Z -> norm (gvector L h) = IZR m).
  { intros h m M E. apply Rsqr_inj; [apply norm_pos|now apply IZR_le|]. unfold Rsqr. rewrite norm_sq, Q, E. apply mult_IZR. }
  assert (B1 : forall axis e m, axis 1%Z = rvec e -> (v0 e * v0 e + v1 e * v1 e + v2 e * v2 e = 1 * 1)%Z -> reaches (uc_m uc) (uc_dmin uc) axis m -> (m <= 1)%Z).
  { intros axis e m E V (_ & _ & MIN). destruct (Z_lt_le_dec 1 m) as [X|X]; [exfalso|exact X]. destruct (MIN 1%Z ltac:(lia)) as (l & CL & LT). rewrite E, (length_g _ L _ (og_rmt _ _ _ _ _ _ _ _ O)) in CL. injection CL as <-.
    rewrite (N1 e 1%Z) in LT; [lra|lia|exact V]. }
  pose proof (B1 _ (IV 1 0 0) _ eq_refl eq_refl (of_h _ _ _ _ _ OF)). pose proof (B1 _ (IV 0 1 0) _ eq_refl eq_refl (of_k _ _ _ _ _ OF)). pose proof (B1 _ (IV 0 0 1) _ eq_refl eq_refl (of_l _ _ _ _ _ OF)).
  assert (NA : forall h, ~ absent ops h).
  { assert (T0 : forallb (fun o => iv_eqb (op_t o) (IV 0 0 0)) ops = true).
    { assert (K : match GenerateSGSym 221 0 with Ok (sg, _, _, _, _) => forallb (fun o => iv_eqb (op_t o) (IV 0 0 0)) sg | _ => false end = true) by (vm_compute; reflexivity). rewrite GS in K. exact K. }
    intros h (op & I & _ & N). rewrite forallb_forall in T0. specialize (T0 op I). apply iv_eqb_eq in T0. rewrite T0 in N. apply N. exists 0%Z. unfold idot. cbn [v0 v1 v2]. lia. }
  assert (SP : spacing L (IV 2 0 0) (1 / 2)). { split; [lra|]. rewrite (N1 (IV 2 0 0) 2%Z); [lra|lia|reflexivity]. }
  assert (S1 : spacing L (IV 1 0 0) 1). { split; [lra|]. rewrite (N1 (IV 1 0 0) 1%Z); [lra|lia|reflexivity]. }
  assert (OI : operations_in 221 0 ops) by (do 4 eexists; exact GS).
  destruct (C91_oblique_partial len deg 221 0 uc ops L (1 / 2) (IV 1 0 0) U CC OI (og_L _ _ _ _ _ _ _ _ O) ltac:(lia)) as (hkls & _ & G & _);
    [split; [discriminate|]; split; [apply NA|]; exists 1; split; [exact S1|lra] | intros m M; cbn in M; lia..|].
  exists L, ops, uc, hkls. split; [apply (og_L _ _ _ _ _ _ _ _ O)|]. split; [exact OI|]. split; [eauto|]. split; [exact G|].
  split; [split; [discriminate|]; split; [apply NA|]; exists (1 / 2); split; [exact SP|lra]|].
  intros h' I E. destruct (getHKLs_from _ _ _ _ _ _ _ _ O OF (1 / 2) hkls h' G I) as (f & FI & FE). apply EB in E. pose proof (laue_group _ _ _ _ _ _ _ _ O) as LG.
  assert (X : equivalent (uc_laue uc) (IV 2 0 0) f) by (eapply equivalent_trans; [exact LG|exact E|]; now apply equivalent_sym).
  apply (equiv_length _ _ _ _ _ _ _ _ O OF) in X. rewrite (N1 (IV 2 0 0) 2%Z) in X by (lia || reflexivity). apply box_in in FI.
  assert (Y : norm2 (gvector L f) = 4) by (rewrite <- norm_sq, X; lra). rewrite Q in Y. apply eq_IZR in Y. destruct f as [x y z]. cbn [v0 v1 v2] in *. nia.
Qed.

(** The hypotheses above can be met, for every lattice type: the object exists. *)
Example C91_example : exists L ops uc hkls h', cell_of 225 (V3 1 1 1) (V3 90 90 90) /\ direct_vectors (V3 1 1 1) (V3 90 90 90) L /\ operations_in 225 0 ops /\
  unitcell_object (V3 1 1 1) (V3 90 90 90) 225 0 uc /\ uc_dmin uc = 1 / 2 /\ observable L ops (1 / 2) (IV (-1) 1 (-1)) /\
  getHKLs uc (1 / 2) = Ok hkls /\ In h' hkls /\ laue_equivalent ops (IV (-1) 1 (-1)) h' /\ h' = IV 1 1 1.
Proof.
  pose proof (cubic_cell 225 ltac:(lia)) as CC. set (len := V3 1 1 1) in *. set (deg := V3 90 90 90) in *.
  destruct (new_ends len deg 225 0 (1 / 2) CC ltac:(lia) ltac:(lra)) as [F HF]. destruct (HF F (le_n F)) as (uc & NU & UD).
  pose proof (uo_new _ _ _ _ _ _ _ NU) as U. pose proof (object_of _ _ _ _ _ U) as OF. destruct (object_geom_of _ _ _ _ _ U CC) as (L & t & ops & O).
  pose proof (og_sg _ _ _ _ _ _ _ _ O) as (c & s & GS). assert (OI : operations_in 225 0 ops) by (do 4 eexists; exact GS).
  assert (RM : u_rmt (uc_m uc) = mI).
  { apply rmt_is; [apply (og_inv _ _ _ _ _ _ _ _ O)|]. rewrite (dmt_form _ _ _ _ _ _ _ _ O OF).
    assert (T : t = Cubic). { pose proof (og_t _ _ _ _ _ _ _ _ O) as T. vm_compute in T. congruence. } subst t.
    unfold coefs, basis, comb, rmat, ieye, len, deg. cbn [vx vy vz v0 v1 v2 r0 r1 r2]. lin_unfold. f_equal; field. }
  assert (Q : norm2 (gvector L (IV (-1) 1 (-1))) = 3).
  { rewrite (quad_g _ _ _ (og_rmt _ _ _ _ _ _ _ _ O)), RM. unfold rvec. cbn [v0 v1 v2]. lin_unfold. lra. }
  assert (NP : 0 < norm (gvector L (IV (-1) 1 (-1)))). { apply norm_gt0. intros X. apply (gvector_zero L _ (og_det _ _ _ _ _ _ _ _ O)) in X. discriminate. }
  assert (OB : observable L ops (1 / 2) (IV (-1) 1 (-1))).
  { split; [discriminate|]. split.
    - assert (T0 : forallb (fun o => (idot (IV (-1) 1 (-1)) (op_t o) mod 24 =? 0)%Z) ops = true).
      { assert (K : match GenerateSGSym 225 0 with Ok (sg, _, _, _, _) => forallb (fun o => (idot (IV (-1) 1 (-1)) (op_t o) mod 24 =? 0)%Z) sg | _ => false end = true) by (vm_compute; reflexivity). rewrite GS in K. exact K. }
      intros (op & I & _ & N). rewrite forallb_forall in T0. specialize (T0 op I). apply Z.eqb_eq in T0. apply N. apply Z.mod_divide; [lia|exact T0].
    - exists (/ norm (gvector L (IV (-1) 1 (-1)))). split; [split; [now apply Rinv_0_lt_compat|apply Rinv_l; lra]|].
      replace (1 / 2) with (/ 2) by lra. apply Rinv_le_contravar; [exact NP|]. apply Rsqr_incr_0; try lra. unfold Rsqr. rewrite norm_sq, Q. lra. }
  destruct (C91_complete_partial len deg 225 0 uc ops L (1 / 2) (IV (-1) 1 (-1)) U CC OI (og_L _ _ _ _ _ _ _ _ O) ltac:(lia) ltac:(lra) OB) as (hkls & h' & G & I & E).
  exists L, ops, uc, hkls, h'. repeat (split; [first [exact CC|exact (og_L _ _ _ _ _ _ _ _ O)|exact OI|exact U|exact UD|exact OB|exact G|exact I|exact E]|]).
  destruct (C91_listed _ _ _ _ _ _ _ _ _ U CC OI (og_L _ _ _ _ _ _ _ _ O) G) as (_ & _ & S & _).
  assert (K : forall x, laue_equivalent ops (IV (-1) 1 (-1)) x <-> In x (map (fun p => row_act (IV (-1) 1 (-1)) p) (uc_laue uc))).
  { intros x. destruct (ops_equiv _ _ _ _ _ _ _ (of_range _ _ _ _ _ OF) GS) as [_ EB]. rewrite <- EB. pose proof (laue_group _ _ _ _ _ _ _ _ O) as LG. rewrite in_map_iff. split.
    - intros X. apply equivalent_sym in X; [|exact LG]. destruct X as (g & GI & GC). apply carries_row in GC. eauto.
    - intros (g & <- & GI). now apply (equiv_row _ _ _ _ _ _ _ _ O). }
  assert (K2 : forallb (fun x => (index_sum x <? 3)%Z || iv_eqb x (IV 1 1 1)) (map (fun p => row_act (IV (-1) 1 (-1)) p) (uc_laue uc)) = true /\ existsb (iv_eqb (IV 1 1 1)) (map (fun p => row_act (IV (-1) 1 (-1)) p) (uc_laue uc)) = true).
  { assert (K0 : match GenerateSGSym 225 0 with Ok (_, _, la, _, _) => let l := map (fun p => row_act (IV (-1) 1 (-1)) p) la in forallb (fun x => (index_sum x <? 3)%Z || iv_eqb x (IV 1 1 1)) l && existsb (iv_eqb (IV 1 1 1)) l | _ => false end = true) by (vm_compute; reflexivity).
    rewrite GS in K0. cbv zeta in K0. apply andb_true_iff in K0. exact K0. }
  destruct K2 as [K2 K3]. apply existsb_exists in K3. destruct K3 as (y & Y & YE). apply iv_eqb_eq in YE. subst y. apply K in Y. rewrite forallb_forall in K2. pose proof (K2 h' (proj1 (K h') E)) as Z. apply orb_true_iff in Z. destruct Z as [Z|Z]; [|now apply iv_eqb_eq].
  exfalso. apply Z.ltb_lt in Z. assert (X : laue_equivalent ops h' (IV 1 1 1)).
  { destruct (ops_equiv _ _ _ _ _ _ _ (of_range _ _ _ _ _ OF) GS) as [_ EB]. pose proof (laue_group _ _ _ _ _ _ _ _ O) as LG. apply EB. apply EB in E, Y. eapply equivalent_trans; [exact LG|apply equivalent_sym; [exact LG|exact E]|exact Y]. }
  pose proof (S h' _ I X) as W. unfold index_sum in W. cbn [v0 v1 v2] in W. unfold index_sum in Z. lia.
Qed.

Print Assumptions C90_reciprocal_operations.
Print Assumptions C90_star.
Print Assumptions C90_multiplicity.
Print Assumptions C91_listed.
Print Assumptions C91_ties.
Print Assumptions C91_complete_partial.
Print Assumptions C91_oblique_partial.
Print Assumptions C91_nothing_refuted.
Print Assumptions C91_positive_dmin.
Print Assumptions C91_dmin_refuted.
Print Assumptions C91_monoclinic_refuted.
Print Assumptions C91_smaller_dmin_refuted.
