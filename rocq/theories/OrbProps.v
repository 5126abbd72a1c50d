(** C112: the symmetric reflections of plane data.  C113: those of a material's space group.  C114: looking up an hkl. *)
From Coq Require Import Reals List String ZArith QArith Lra Lia Psatz Permutation.
From Verif Require Import Prelude Lin TensorModel TensorSpec TensorProofs RotModel RotSpec RotProofs RotProofs2 RotGroups StfGroups LatModel LatSpec LatProofs LatCell SgModel SgSpec SgProofs SgProps UcModel UcSpec UcSym UcList UcProofs UcComplete UcMore UcProps PlaneModel PlaneSpec PlaneProofs OrbModel OrbSpec OrbProofs OrbMain OrbGroup.
Import ListNotations.
Local Close Scope Q_scope.
Local Open Scope R_scope.
Local Notation length := List.length.

Lemma made_list : forall hkls lparms g s wl L, lattice_with g lparms L -> makePlaneData hkls lparms g s wl =
  Ok (map (fun p => make_hkl L (quatOfLaueGroup g) s wl (fst p) (snd p)) (combine (seq 0 (length hkls)) hkls)).
Proof. intros hkls lparms g s wl L (len & ang & P & PC & E & _). unfold makePlaneData. rewrite E. reflexivity. Qed.
Lemma made_in : forall hkls lparms g s wl L data d, lattice_with g lparms L -> makePlaneData hkls lparms g s wl = Ok data -> In d data ->
  exists i, d = make_hkl L (quatOfLaueGroup g) s wl i (hd_hkl d) /\ In (hd_hkl d) hkls.
Proof.
  intros hkls lparms g s wl L data d LW E I. rewrite (made_list _ _ _ _ _ _ LW) in E. injection E as <-. apply in_map_iff in I. destruct I as ((i & h) & <- & J).
  exists i. split; [reflexivity|]. apply in_combine_r in J. exact J.
Qed.
Lemma made_has : forall hkls lparms g s wl L data h, lattice_with g lparms L -> makePlaneData hkls lparms g s wl = Ok data -> In h hkls ->
  exists d, In d data /\ hd_hkl d = h.
Proof.
  intros hkls lparms g s wl L data h LW E I. rewrite (made_list _ _ _ _ _ _ LW) in E. injection E as <-.
  destruct (In_nth_error _ _ I) as (n & N). exists (make_hkl L (quatOfLaueGroup g) s wl n h). split; [|reflexivity].
  apply in_map_iff. exists (n, h). split; [reflexivity|]. clear - N.
  assert (G : forall l k m, nth_error l m = Some h -> In ((k + m)%nat, h) (combine (seq k (length l)) l)).
  { clear. induction l as [|x r IH]; intros k [|m] M; cbn [nth_error] in M; try discriminate; cbn [length seq combine].
    - injection M as ->. left. f_equal. lia.
    - right. replace (k + S m)%nat with (S k + m)%nat by lia. now apply IH. }
  exact (G hkls 0%nat n N).
Qed.

(** One entry per reflection, in order, with its list of symmetric reflections: the planes that a rotation of the Laue group
    makes of the given ones, and the opposite planes; each once. *)
Theorem C112_family : forall hkls lparms g strainMag wavelength L, lattice_with g lparms L ->
  exists data, makePlaneData hkls lparms g strainMag wavelength = Ok data /\ map hd_id data = seq 0 (length hkls) /\
  Forall2 (fun h d => hd_hkl d = h /\ NoDup (hd_sym d) /\ forall h', In h' (hd_sym d) <-> family g L h h') hkls data.
Proof.
  intros hkls lparms g s wl L LW. eexists. split; [exact (made_list _ _ _ _ _ _ LW)|]. split.
  - rewrite map_map. cbn [make_hkl hd_id]. generalize 0%nat. induction hkls as [|h r IH]; intros k; [reflexivity|]. cbn [length seq combine map fst]. now rewrite IH.
  - generalize 0%nat. induction hkls as [|h r IH]; intros k; cbn [length seq combine map fst snd]; constructor; [|apply IH].
    split; [reflexivity|]. destruct (made _ _ _ LW s wl k h _ eq_refl) as (N & I & _). split; [exact N|]. intros h'. rewrite I. symmetry. now apply (family_images _ _ _ LW).
Qed.
(** The normals are in the same order as the symmetric reflections: each is the unit normal of its planes, and all have the
    spacing of the reflection. *)
Lemma plane_norm : forall L wl s h h', norm (gvector L h) = norm (gvector L h') ->
  let p := lattice_plane L wl s (rvec h) in let q := lattice_plane L wl s (rvec h') in
  p_d p = p_d q /\ p_tth p = p_tth q /\ p_lo p = p_lo q /\ p_hi p = p_hi q.
Proof.
  intros L wl s h h' E p q. unfold p, q, lattice_plane. change (mv (l_B L) (rvec h)) with (gvector L h). change (mv (l_B L) (rvec h')) with (gvector L h'). rewrite E.
  destruct s as [s|]; [destruct (below_one _ && below_one _)%bool|]; cbn [p_d p_tth p_lo p_hi]; auto.
Qed.
Lemma family_norm : forall g lparms L h h', lattice_with g lparms L -> family g L h h' -> norm (gvector L h) = norm (gvector L h').
Proof.
  intros g lparms L h h' LW F. assert (T : forall x, turned g L h x -> norm (gvector L h) = norm (gvector L x)).
  { intros x (r & I & ->). destruct (group_lemma g) as (_ & R & _). destruct (R r I) as [RO _]. unfold norm. f_equal. unfold norm2. now rewrite (orth_dot r _ _ (proj1 RO)). }
  destruct LW as (len & ang & P & PC & E & _). assert (LF : lattice_for g lparms len ang L) by (split; [exact P|split; assumption]).
  destruct F as [F|F]; [now apply T|]. rewrite (T _ F), (gv_neg L). unfold norm. f_equal. generalize (gvector L h'). clear. lin.
Qed.
Theorem C112_normals : forall hkls lparms g strainMag wavelength L data d, lattice_with g lparms L ->
  makePlaneData hkls lparms g strainMag wavelength = Ok data -> In d data -> hd_hkl d <> zero_index ->
  Forall2 (fun h' n => plane_spacing (l_F L) (index_vector h') n (p_d (hd_plane d))) (hd_sym d) (hd_normals d).
Proof.
  intros hkls lparms g s wl L data d LW E I NZ. destruct (made_in _ _ _ _ _ _ _ _ LW E I) as (i & D & _). set (h := hd_hkl d) in *. clearbody h.
  destruct (made _ _ _ LW s wl i h d D) as (_ & IN & NE & _). rewrite NE. assert (PE : hd_plane d = lattice_plane L wl s (rvec h)) by (rewrite D; reflexivity). rewrite PE. clear NE E I D PE.
  assert (K : forall x, In x (hd_sym d) -> family g L h x) by (intros x X; apply (family_images _ _ _ LW), IN, X). clear IN.
  pose proof LW as (len & ang & P & PC & E & SM). assert (LF : lattice_for g lparms len ang L) by (split; [exact P|split; assumption]).
  assert (W : well_formed len ang L) by (rewrite (lattice_for_eq _ _ _ _ _ LF); now apply lattice_wf).
  induction (hd_sym d) as [|x r IH]; cbn [map]; constructor; [|apply IH; intros y Y; apply K; now right].
  pose proof (family_norm _ _ _ _ _ LW (K x (or_introl eq_refl))) as EN. pose proof (gv_length _ _ _ _ _ LF SM h NZ) as GL.
  destruct (plane_norm L wl s h x EN) as (PD & _). rewrite PD.
  assert (XZ : rvec x <> vzero). { intros Z. assert (x = zero_index) by (apply rvec_inj; exact Z). subst x.
    assert (norm (gvector L zero_index) = 0) as Q. { unfold gvector. change (V3 _ _ _) with vzero. replace (mv (l_B L) vzero) with vzero by (generalize (l_B L); clear; lin). unfold norm. lin_unfold. replace (0 * 0 + 0 * 0 + 0 * 0) with 0 by ring. apply sqrt_0. }
    rewrite EN, Q in GL. unfold sqrt_epsf in GL. assert (0 < / 2 ^ 26) by (apply Rinv_0_lt_compat; lra). lra. }
  destruct (plane_geom len ang L wl s (rvec x) W XZ) as (_ & PG). 
  assert (EQ : p_d (lattice_plane L wl s (rvec x)) = 1 / norm (gvector L x) /\ p_normal (lattice_plane L wl s (rvec x)) = unitVector (gvector L x)).
  { unfold lattice_plane. destruct s as [s|]; [destruct (below_one _ && below_one _)%bool|]; split; reflexivity. }
  destruct EQ as [E1 E2]. rewrite <- E2. apply PG. rewrite E1. unfold ten_epsf. rewrite <- EN.
  assert (0 < sqrt_epsf) by (unfold sqrt_epsf; apply Rinv_0_lt_compat; lra). unfold Rdiv at 1. rewrite Rmult_1_l.
  apply Rle_lt_trans with (/ sqrt_epsf); [apply Rinv_le_contravar; lra|]. unfold sqrt_epsf. rewrite Rinv_inv. lra.
Qed.
(** Reflections of one family have the same symmetric reflections, spacing, two-theta and bounds of two-theta; those of
    different families have no symmetric reflection in common. *)
Theorem C112_same_family : forall hkls hkls' lparms g strainMag wavelength L data data' d d', lattice_with g lparms L ->
  makePlaneData hkls lparms g strainMag wavelength = Ok data -> makePlaneData hkls' lparms g strainMag wavelength = Ok data' -> In d data -> In d' data' ->
  (family g L (hd_hkl d) (hd_hkl d') -> Permutation (hd_sym d) (hd_sym d') /\ hd_centrosym d = hd_centrosym d' /\
    p_d (hd_plane d) = p_d (hd_plane d') /\ p_tth (hd_plane d) = p_tth (hd_plane d') /\ p_lo (hd_plane d) = p_lo (hd_plane d') /\ p_hi (hd_plane d) = p_hi (hd_plane d')) /\
  (~ family g L (hd_hkl d) (hd_hkl d') -> forall h, In h (hd_sym d) -> ~ In h (hd_sym d')).
Proof.
  intros hkls hkls' lparms g s wl L data data' d d' LW E E' I I'.
  destruct (made_in _ _ _ _ _ _ _ _ LW E I) as (i & D & _). destruct (made_in _ _ _ _ _ _ _ _ LW E' I') as (i' & D' & _).
  destruct (made _ _ _ LW s wl i _ d D) as (N & IN & _ & CS). destruct (made _ _ _ LW s wl i' _ d' D') as (N' & IN' & _ & CS').
  pose proof (full_group g) as FG. pose proof (pure_group g) as PG. split.
  - intros F. split; [|split].
    + apply NoDup_Permutation; [exact N|exact N'|]. intros x. rewrite IN, IN'. apply (family_images _ _ _ LW) in F. split; intros X.
      * eapply equivalent_trans; [exact FG|apply equivalent_sym; [exact FG|exact F]|exact X].
      * eapply equivalent_trans; [exact FG|exact F|exact X].
    + assert (SYM : forall a b, equivalent (full g) a b -> equivalent (pure g) a (negv a) -> equivalent (pure g) b (negv b)).
      { intros a b AB A.
        assert (NG : forall x y, equivalent (pure g) x y -> equivalent (pure g) (negv x) (negv y)).
        { intros x y (m & M & C). exists m. split; [exact M|]. apply carries_row in C. apply carries_row. rewrite <- C. clear. destruct m as [[a11 a12 a13] [a21 a22 a23] [a31 a32 a33]], y as [x y z]. unfold row_act, negv. cbn [v0 v1 v2 r0 r1 r2]. f_equal; ring. }
        apply full_images, in_app_iff in AB. destruct AB as [AB|AB].
        - apply pure_images in AB. apply equivalent_trans with a; [exact PG|now apply equivalent_sym|]. apply equivalent_trans with (negv a); [exact PG|exact A|]. now apply NG.
        - apply in_map_iff in AB. destruct AB as (y & <- & Y). apply pure_images in Y. rewrite negv_inv.
          apply equivalent_trans with (negv a); [exact PG|apply equivalent_sym; [exact PG|now apply NG]|]. apply equivalent_trans with a; [exact PG|now apply equivalent_sym|exact Y]. }
      apply (family_images _ _ _ LW) in F. pose proof (equivalent_sym _ _ _ FG F) as F'.
      destruct (hd_centrosym d) eqn:A, (hd_centrosym d') eqn:B; try reflexivity; exfalso.
      * assert (false = true) by (apply CS'; eapply SYM; [exact F|]; now apply CS). discriminate.
      * assert (false = true) by (apply CS; eapply SYM; [exact F'|]; now apply CS'). discriminate.
    + assert (PE : hd_plane d = lattice_plane L wl s (rvec (hd_hkl d))) by (rewrite D at 1; reflexivity).
      assert (PE' : hd_plane d' = lattice_plane L wl s (rvec (hd_hkl d'))) by (rewrite D' at 1; reflexivity). rewrite PE, PE'. apply plane_norm. eapply family_norm; eauto.
  - intros NF h H H'. apply NF, (family_images _ _ _ LW). apply IN in H. apply IN' in H'. eapply equivalent_trans; [exact FG|exact H|now apply equivalent_sym].
Qed.
(** The multiplicity divides twice the number of rotations of the Laue group (the rotations and their products with the inversion). *)
Theorem C112_multiplicity : forall hkls lparms g strainMag wavelength L data d, lattice_with g lparms L ->
  makePlaneData hkls lparms g strainMag wavelength = Ok data -> In d data ->
  Nat.divide (multiplicity d) (2 * length (rots (quatOfLaueGroup g))) /\ (0 < multiplicity d)%nat.
Proof.
  intros hkls lparms g s wl L data d LW E I. destruct (made_in _ _ _ _ _ _ _ _ LW E I) as (i & D & _).
  destruct (made _ _ _ LW s wl i _ d D) as (N & IN & _). unfold multiplicity.
  assert (LE : (2 * length (rots (quatOfLaueGroup g)) = length (full g))%nat).
  { unfold full. rewrite app_length, !map_length. rewrite laue_mats_ok. destruct g; reflexivity. }
  set (stab := filter (fun m => iv_eqb (row_act (hd_hkl d) m) (hd_hkl d)) (full g)).
  pose proof (star_size (full g) (hd_hkl d) (hd_sym d) stab (full_group g) N IN) as SS.
  assert (S1 : NoDup stab) by (apply NoDup_filter, (mg_nodup _ (full_group g))).
  assert (S2 : forall m, In m stab <-> In m (full g) /\ carries m (hd_hkl d) (hd_hkl d)).
  { intros m. unfold stab. rewrite filter_In, carries_row. split; intros [A B]; (split; [exact A|]); now apply iv_eqb_eq. }
  specialize (SS S1 S2). split; [exists (length stab); lia|]. 
  assert (In (hd_hkl d) (hd_sym d)) by (apply IN, equivalent_refl, full_group). destruct (hd_sym d); [contradiction|cbn; lia].
Qed.
(** centrosym is set exactly if a rotation of the Laue group takes the planes to the opposite ones *)
Theorem C112_centrosym : forall hkls lparms g strainMag wavelength L data d, lattice_with g lparms L ->
  makePlaneData hkls lparms g strainMag wavelength = Ok data -> In d data ->
  (hd_centrosym d = true <-> turned g L (hd_hkl d) (negv (hd_hkl d))).
Proof.
  intros hkls lparms g s wl L data d LW E I. destruct (made_in _ _ _ _ _ _ _ _ LW E I) as (i & D & _).
  destruct (made _ _ _ LW s wl i _ d D) as (_ & _ & _ & CS). rewrite CS. symmetry. apply (turned_pure _ _ _ LW).
Qed.

Lemma NoDup_app_intro : forall {A} (l1 l2 : list A), NoDup l1 -> NoDup l2 -> (forall x, In x l1 -> In x l2 -> False) -> NoDup (l1 ++ l2).
Proof.
  intros A l1 l2 N1 N2 D. induction N1 as [|x r X N IH]; [exact N2|]. cbn [app]. constructor; [|apply IH; intros y Y; apply D; now right].
  rewrite in_app_iff. intros [I|I]; [contradiction|]. exact (D x (or_introl eq_refl) I).
Qed.

(** ** space groups *)
Definition same_ops (n st : Z) : bool :=
  match GetPgLg n, GenerateSGSym n st with
  | Ok (_, t, _, _), Ok (_, _, l, _, _) => match laue_of_tag t with Some g => subsetb l (full g) && subsetb (full g) l | None => false end
  | _, _ => false
  end.
Lemma same_ops_all : forallb (fun n => existsb (Z.eqb n) sideways || same_ops n 0 && same_ops n 1) (zrange 1 231) = true.
Proof. vm_cast_no_check (eq_refl true). Qed.
Definition other_ops (n st : Z) : bool :=
  match GenerateSGSym n st with
  | Ok (_, _, l, _, _) => existsb (fun m => iv_eqb (row_act (IV 1 0 1) m) (IV 0 1 1)) l && negb (existsb (fun m => iv_eqb (row_act (IV 2 1 1) m) (IV 1 2 (-1))) l)
  | _ => false
  end%Z.
Lemma other_ops_all : forallb (fun n => other_ops n 0 && other_ops n 1) sideways = true.
Proof. vm_cast_no_check (eq_refl true). Qed.
Lemma laue_full : forall sgnum setting ops pg laue c s g, (1 <= sgnum <= 230)%Z -> ~ In sgnum sideways ->
  GenerateSGSym sgnum setting = Ok (ops, pg, laue, c, s) -> has_laue sgnum g -> forall h h', equivalent (full g) h h' <-> equivalent laue h h'.
Proof.
  intros n st ops pg laue c s g R NS E (pgn & tag & sp & sl & T & G) h h'.
  pose proof (zrange_all _ _ _ same_ops_all n ltac:(lia)) as K. cbv beta in K. apply orb_true_iff in K. destruct K as [K|K].
  { exfalso. apply NS. apply existsb_exists in K. destruct K as (x & X & Q). apply Z.eqb_eq in Q. now subst. }
  assert (Q : same_ops n (if (st =? 0)%Z then 0 else 1) = true) by (apply andb_true_iff in K; destruct (st =? 0)%Z; tauto).
  unfold same_ops in Q. rewrite setting_norm in E. rewrite T, E, G in Q. apply andb_true_iff in Q. destruct Q as [Q1 Q2]. apply subsetb_incl in Q1, Q2.
  split; intros (m & M & C); exists m; auto.
Qed.
(** The symmetric reflections of a reflection are exactly those that the space group and Friedel's law make equivalent to it,
    in all space groups but seven. *)
Theorem C113_space_group_partial : forall sgnum setting ops g hkls lparms strainMag wavelength L data d, (1 <= sgnum <= 230)%Z -> ~ In sgnum sideways ->
  operations_in sgnum setting ops -> has_laue sgnum g -> lattice_with g lparms L ->
  makePlaneData hkls lparms g strainMag wavelength = Ok data -> In d data ->
  forall h', In h' (hd_sym d) <-> laue_equivalent ops (hd_hkl d) h'.
Proof.
  intros n st ops g hkls lparms s wl L data d R NS (pg & laue & c & sy & G) HL LW E I h'. destruct (made_in _ _ _ _ _ _ _ _ LW E I) as (i & D & _).
  destruct (made _ _ _ LW s wl i _ d D) as (_ & IN & _). rewrite IN. destruct (ops_equiv _ _ _ _ _ _ _ R G) as [_ <-]. exact (laue_full n st ops pg laue c sy g R NS G HL _ _).
Qed.
(** Together with the reflection list of a unit cell: every reflection that the crystal can show is in the symmetric
    reflections of exactly one entry, and nothing else is. *)
Theorem C113_every_reflection_once_partial : forall len deg sgnum setting uc ops Lu dmin hkls g lparms strainMag wavelength L data,
  unitcell_object len deg sgnum setting uc -> cell_of sgnum len deg -> operations_in sgnum setting ops -> direct_vectors len deg Lu ->
  (16 <= sgnum)%Z -> ~ In sgnum sideways -> uc_dmin uc <= dmin -> getHKLs uc dmin = Ok hkls ->
  has_laue sgnum g -> lattice_with g lparms L -> makePlaneData hkls lparms g strainMag wavelength = Ok data ->
  NoDup (concat (map hd_sym data)) /\ forall h, In h (concat (map hd_sym data)) <-> observable Lu ops dmin h.
Proof.
  intros len deg n st uc ops Lu dmin hkls g lparms s wl L data U C OI DV R NS DM GH HL LW E.
  destruct (setup _ _ _ _ _ _ _ U C OI DV) as (t & O & OF & _ & EB). pose proof (of_range _ _ _ _ _ OF) as RG.
  destruct (C91_listed _ _ _ _ _ _ _ _ _ U C OI DV GH) as (ND & OB & _ & ONE & _).
  assert (SG : forall d, In d data -> forall h', In h' (hd_sym d) <-> laue_equivalent ops (hd_hkl d) h') by (intros d I; exact (C113_space_group_partial n st ops g hkls lparms s wl L data d RG NS OI HL LW E I)).
  pose proof (laue_group _ _ _ _ _ _ _ _ O) as LG. split.
  - assert (MH : map hd_hkl data = hkls).
    { rewrite (made_list _ _ _ _ _ _ LW) in E. injection E as <-. rewrite map_map. cbn [make_hkl hd_hkl]. clear. generalize 0%nat. induction hkls as [|x r IH]; intros k; [reflexivity|]. cbn [length seq combine map snd]. now rewrite IH. }
    assert (NS' : forall d, In d data -> NoDup (hd_sym d)).
    { intros d I. destruct (made_in _ _ _ _ _ _ _ _ LW E I) as (i & D & _). apply (made _ _ _ LW s wl i _ d D). }
    assert (IH' : forall d, In d data -> In (hd_hkl d) hkls) by (intros d I; rewrite <- MH; now apply in_map). rewrite <- MH in ND. clear E GH MH. revert ND SG NS' IH'.
    induction data as [|d r IH]; intros ND SG NS' IH'; cbn [map concat]; [constructor|]. cbn [map] in ND. inversion ND as [|? ? N1 N2]; subst.
    apply NoDup_app_intro; [apply NS'; now left|apply IH; auto; intros; [apply SG|apply NS'|apply IH']; now right|].
    intros x X Y. apply in_concat in Y. destruct Y as (l & Y & Z). apply in_map_iff in Y. destruct Y as (d' & <- & D'). apply N1.
    apply (SG d (or_introl eq_refl)), EB in X. apply (SG d' (or_intror D')), EB in Z.
    rewrite (ONE (hd_hkl d) (hd_hkl d')); [now apply in_map|apply IH'; now left|apply IH'; now right|]. apply EB. eapply equivalent_trans; [exact LG|exact X|]. now apply equivalent_sym.
  - intros h. rewrite in_concat. split.
    + intros (l & I & H). apply in_map_iff in I. destruct I as (d & <- & I). apply (SG d I), EB in H. destruct (made_in _ _ _ _ _ _ _ _ LW E I) as (i & D & IH).
      eapply (equiv_observable _ _ _ _ _ _ _ _ O OF); [exact H|]. now apply OB.
    + intros H. destruct (C91_complete_partial _ _ _ _ _ _ _ _ _ U C OI DV R DM H) as (hkls' & h' & G' & I & Q). rewrite GH in G'. injection G' as <-.
      destruct (made_has _ _ _ _ _ _ _ _ LW E I) as (d & D & <-). exists (hd_sym d). split; [now apply in_map|]. apply (SG d D), EB. apply equivalent_sym; [exact LG|]. now apply EB.
Qed.
(** The seven space groups: equivalent reflections are missing and others are listed. *)
Theorem C113_sideways_refuted : forall sgnum setting ops g hkls lparms strainMag wavelength L data d, In sgnum sideways ->
  operations_in sgnum setting ops -> has_laue sgnum g -> lattice_with g lparms L ->
  makePlaneData hkls lparms g strainMag wavelength = Ok data -> In d data ->
  (hd_hkl d = IV 1 0 1 -> laue_equivalent ops (IV 1 0 1) (IV 0 1 1) /\ ~ In (IV 0 1 1) (hd_sym d)) /\
  (hd_hkl d = IV 2 1 1 -> In (IV 1 2 (-1)) (hd_sym d) /\ ~ laue_equivalent ops (IV 2 1 1) (IV 1 2 (-1))).
Proof.
  intros n st ops g hkls lparms s wl L data d SW (pg & laue & c & sy & G) (pgn & tag & sp & sl & T & GT) LW E I. destruct (made_in _ _ _ _ _ _ _ _ LW E I) as (i & D & _).
  destruct (made _ _ _ LW s wl i _ d D) as (_ & IN & _).
  assert (R : (1 <= n <= 230)%Z /\ g = D3d).
  { cbn [sideways In] in SW. destruct SW as [<-|[<-|[<-|[<-|[<-|[<-|[<-|[]]]]]]]]; (split; [lia|]); cbv in T; injection T as _ <- _ _; cbv in GT; congruence. }
  destruct R as [R ->]. destruct (ops_equiv _ _ _ _ _ _ _ R G) as [_ EB]. destruct (C86_point_and_laue_groups _ _ _ _ _ _ _ R G) as (_ & LG & _).
  pose proof other_ops_all as K. rewrite forallb_forall in K. specialize (K n SW). cbv beta in K.
  assert (Q : other_ops n (if (st =? 0)%Z then 0 else 1) = true) by (apply andb_true_iff in K; destruct (st =? 0)%Z; tauto).
  unfold other_ops in Q. rewrite setting_norm in G. rewrite G in Q. apply andb_true_iff in Q. destruct Q as [Q1 Q2]. apply negb_true_iff in Q2. split; intros HE; rewrite HE in *.
  - split.
    + apply EB, equivalent_image; [exact LG|]. apply existsb_exists in Q1. destruct Q1 as (m & M & X). apply iv_eqb_eq in X. eauto.
    + intros X. apply IN, equivalent_image in X; [|apply full_group]. destruct X as (m & M & X). assert (Z : existsb (fun m => iv_eqb (row_act (IV 1 0 1) m) (IV 0 1 1)) (full D3d) = true) by (apply existsb_exists; exists m; split; [exact M|now apply iv_eqb_eq]). vm_compute in Z. discriminate.
  - split.
    + apply IN, equivalent_image; [apply full_group|]. assert (Z : existsb (fun m => iv_eqb (row_act (IV 2 1 1) m) (IV 1 2 (-1))) (full D3d) = true) by (vm_compute; reflexivity).
      apply existsb_exists in Z. destruct Z as (m & M & X). apply iv_eqb_eq in X. eauto.
    + intros X. apply EB, equivalent_image in X; [|exact LG]. destruct X as (m & M & X).
      assert (Z : existsb (fun m => iv_eqb (row_act (IV 2 1 1) m) (IV 1 2 (-1))) laue = true) by (apply existsb_exists; exists m; split; [exact M|now apply iv_eqb_eq]). congruence.
Qed.

(** ** C114: the number of an hkl *)
(** reflection number i has h among its symmetric reflections *)
Definition holds (l : list refl) (h : ivec) (i : nat) : Prop := exists x, nth_error l i = Some x /\ In h (snd (snd x)).
Lemma has_hkl_iff : forall h l, has_hkl h l = true <-> In h l.
Proof.
  intros h l. unfold has_hkl. rewrite existsb_exists. split; [intros (x & I & E); apply iv_eqb_eq in E; now subst|intros I; exists h; split; [exact I|now apply iv_eqb_eq]].
Qed.
Lemma last_holder_spec : forall h (l : list refl) k found,
  match last_holder h (map (fun r : refl => snd (snd r)) l) k found with
  | Some i => (found = Some i /\ forall j, ~ holds l h j) \/ exists n, i = (k + n)%nat /\ holds l h n /\ forall j, holds l h j -> (j <= n)%nat
  | None => found = None /\ forall j, ~ holds l h j
  end.
Proof.
  intros h l. induction l as [|x r IH]; intros k found; cbn [map last_holder].
  - assert (N : forall j, ~ holds [] h j) by (intros [|j] (x & E & _); discriminate). destruct found; [left; now split|now split].
  - specialize (IH (k + 1)%nat (if has_hkl h (snd (snd x)) then Some k else found)).
    assert (S0 : holds (x :: r) h 0 <-> has_hkl h (snd (snd x)) = true).
    { rewrite has_hkl_iff. split; [intros (y & E & I); injection E as <-; exact I|intros I; exists x; now split]. }
    assert (SS : forall j, holds (x :: r) h (S j) <-> holds r h j) by (intros j; reflexivity).
    destruct (last_holder _ _ _ _) as [i|].
    + destruct IH as [[F N]|(n & -> & H & M)].
      * destruct (has_hkl h (snd (snd x))) eqn:E.
        -- right. exists 0%nat. injection F as <-. split; [lia|]. split; [now apply S0|]. intros [|j] J; [lia|]. apply SS in J. now apply N in J.
        -- left. split; [exact F|]. intros [|j] J; [apply S0 in J; discriminate|]. apply SS in J. now apply N in J.
      * right. exists (S n). split; [lia|]. split; [now apply SS|]. intros [|j] J; [lia|]. apply SS, M in J. lia.
    + destruct IH as [F N]. destruct (has_hkl h (snd (snd x))) eqn:E; [discriminate|]. split; [exact F|].
      intros [|j] J; [apply S0 in J; discriminate|]. apply SS in J. now apply N in J.
Qed.
Lemma last_holder_ok : forall h (l : list refl) i, last_holder h (map (fun r : refl => snd (snd r)) l) 0 None = Some i <-> holds l h i /\ forall j, holds l h j -> (j <= i)%nat.
Proof.
  intros h l i. pose proof (last_holder_spec h l 0 None) as K. destruct (last_holder _ _ _ _) as [m|].
  - destruct K as [[K _]|(n & -> & H & M)]; [discriminate|]. cbn [Nat.add]. split.
    + intros E. injection E as <-. now split.
    + intros [H' M']. f_equal. pose proof (M _ H'). pose proof (M' _ H). lia.
  - destruct K as [_ N]. split; [discriminate|]. intros [H _]. now apply N in H.
Qed.
Lemma last_holder_none : forall h (l : list refl), last_holder h (map (fun r : refl => snd (snd r)) l) 0 None = None <-> forall j, ~ holds l h j.
Proof.
  intros h l. pose proof (last_holder_spec h l 0 None) as K. destruct (last_holder _ _ _ _) as [m|].
  - destruct K as [[K _]|(n & -> & H & M)]; [discriminate|]. split; [discriminate|]. intros N. now apply N in H.
  - split; [intros _; apply K|reflexivity].
Qed.
Lemma masks_exist : forall (s : pd (nat * list ivec)), reachable s -> exists ex exi, exclusions s = Ok ex /\ fancy ex (tinv s) = Ok exi.
Proof.
  intros s R. apply reach_wf in R. destruct (exclusions_spec s R) as (ex & E & L & _). exists ex. eexists. split; [exact E|]. apply (fancy_ok ex false).
  intros i I. rewrite L. apply In_nth_error in I. destruct I as (n & N). exact (wf_tinv_lt s R n i N).
Qed.
(** The index of an hkl is the place, in the list of the reflections shown, of the last one it is symmetric to; RuntimeError if
    there is none. *)
Theorem C114_index : forall (s : pd (nat * list ivec)) l h, reachable s -> get_sym s = Ok l ->
  (forall i, getHKLID s h false = Ok i <-> holds l h i /\ forall j, holds l h j -> (j <= i)%nat) /\
  (getHKLID s h false = Err RuntimeError <-> forall i, ~ holds l h i) /\
  (getHKLID s h false = Err RuntimeError \/ exists i, getHKLID s h false = Ok i).
Proof.
  intros s l h R G. destruct (masks_exist s R) as (ex & exi & E & F). unfold getHKLID. rewrite G, E. cbn [rbind]. rewrite F. cbn [rbind andb].
  pose proof (last_holder_ok h l) as K. pose proof (last_holder_none h l) as N. destruct (last_holder _ _ _ _) as [m|].
  - split; [|split; [split; [discriminate|intros E1; apply N in E1; discriminate]|right; eauto]].
    intros i. rewrite <- K. split; intros E1; injection E1 as <-; reflexivity.
  - split; [|split; [split; [intros _; now apply N|reflexivity]|now left]].
    intros i. rewrite <- K. split; discriminate.
Qed.
Lemma identity_inverse : forall (s : pd (nat * list ivec)), reachable s -> tsort s = seq 0 (length (data s)) -> tinv s = seq 0 (length (data s)).
Proof.
  intros s R I. apply reach_wf in R. apply (nth_ext _ _ 0%nat 0%nat); [rewrite (wf_tinv_length s R), seq_length; reflexivity|]. intros k Hk. rewrite (wf_tinv_length s R) in Hk.
  rewrite seq_nth by exact Hk. destruct R as [O [Ei _]]. apply nth_error_nth. rewrite Ei. eapply scatter_inv; [exact O|].
  rewrite I. rewrite (nth_error_nth' _ 0%nat) by (rewrite seq_length; exact Hk). rewrite seq_nth by exact Hk. reflexivity.
Qed.
Lemma fancy_seq : forall {B} (d : B) (l : list B), fancy l (seq 0 (length l)) = Ok l.
Proof.
  intros B d l. rewrite (fancy_ok l d) by (intros i Hi; apply in_seq in Hi; lia). f_equal.
  assert (G : forall pre l : list B, map (fun i => nth i (pre ++ l) d) (seq (length pre) (length l)) = l).
  { clear. intros pre l. revert pre. induction l as [|b l IH]; intros pre; [reflexivity|]. cbn [length seq map]. f_equal.
    - rewrite app_nth2 by lia. rewrite Nat.sub_diag. reflexivity.
    - specialize (IH (pre ++ [b])%list). rewrite app_length, <- app_assoc in IH. cbn [app length] in IH. rewrite Nat.add_1_r in IH. exact IH. }
  exact (G [] l).
Qed.
Lemma select_filter : forall {X} (ex : list bool) (l : list X), map snd (filter (fun p => negb (fst p)) (combine ex l)) = select (map negb ex) l.
Proof.
  intros X ex. induction ex as [|b ex IH]; intros [|x l]; try reflexivity. cbn [combine filter map select fst]. destruct b; cbn [negb map snd]; now rewrite IH.
Qed.
(** The master index is the id of that reflection, when the reflections were given in order of their angles or no reflection is
    excluded.  (Missing: any order; refuted below.) *)
Theorem C114_master_partial : forall (s : pd (nat * list ivec)) l h, reachable s -> get_sym s = Ok l ->
  (tsort s = seq 0 (length (data s)) /\ (tmax s = None \/ forall r, ~ no_angle s r)) \/ l = data s ->
  (forall k, getHKLID s h true = Ok k <-> exists i x, nth_error l i = Some x /\ fst (snd x) = k /\ holds l h i /\ forall j, holds l h j -> (j <= i)%nat) /\
  (getHKLID s h true = Err RuntimeError <-> forall i, ~ holds l h i).
Proof.
  intros s l h R G OR. destruct (masks_exist s R) as (ex & exi & E & F). unfold getHKLID. rewrite G, E. cbn [rbind]. rewrite F. cbn [rbind andb].
  set (ids := map _ (filter _ _)). assert (ID : ids = map (fun x : refl => fst (snd x)) l).
  { unfold ids. rewrite <- (map_map snd (fun x : refl => fst (snd x))), select_filter. f_equal.
    assert (LS : listed s = Ok l) by (unfold get_sym in G; destruct (listed s) as [l'|]; [|discriminate]; cbn [rbind] in G; destruct (Nat.leb _ _); [exact G|discriminate]).
    destruct OR as [[I T]|A].
    - assert (INV : involutive s). { intros r m H. rewrite I in *. assert (r < length (data s))%nat by (rewrite <- (seq_length (length (data s)) 0); apply nth_error_Some; rewrite H; discriminate).
        rewrite (nth_error_nth' _ 0%nat) in H by (now rewrite seq_length). rewrite seq_nth in H by assumption. injection H as <-. cbn [Nat.add]. rewrite (nth_error_nth' _ 0%nat) by (now rewrite seq_length). now rewrite seq_nth. }
      destruct (involutive_lemma s R INV T) as (ex' & out & E' & L' & keep & K1 & K2 & K3). rewrite E in E'. injection E' as <-. rewrite LS in L'. injection L' as <-. rewrite K2. f_equal.
      destruct (exclusions_spec s (reach_wf s R)) as (ex2 & E2 & L2 & _). rewrite E in E2. injection E2 as <-.
      rewrite (identity_inverse s R I), <- L2 in F. rewrite (fancy_seq false) in F. injection F as <-.
      apply (nth_ext _ _ false false); [rewrite map_length; congruence|]. intros n Hn. rewrite map_length in Hn. rewrite (nth_map_d negb ex n false) by exact Hn.
      specialize (K3 n ltac:(lia)). destruct (nth n ex false), (nth n keep false); cbn [negb]; intuition congruence.
    - subst l. destruct (listed_exactly s (fun r => is_stored s (nth r (tinv s) 0%nat) = true) (reach_wf s R)) as (out & LO & keep & K1 & K2 & K3); [tauto|].
      rewrite LS in LO. injection LO as <-.
      assert (KT : forall r, (r < length (data s))%nat -> nth r keep false = true).
      { clear - K1 K2. revert K1 K2. generalize (data s). clear. intros d. revert keep. assert (SL : forall keep (d : list refl), (length (select keep d) <= length d)%nat).
        { induction keep as [|b k IH]; intros [|x d0]; cbn [select length]; try lia. specialize (IH d0). destruct b; cbn [length]; lia. }
        induction d as [|x d IH]; intros [|b k] L Q r Hr; cbn [length] in *; try lia. cbn [select] in Q. destruct b.
        - injection Q as Q. destruct r; [reflexivity|]. cbn [nth]. apply IH; [lia|exact Q|lia].
        - exfalso. pose proof (SL k d) as H. unfold refl in H. rewrite <- Q in H. cbn [length] in H. lia. }
      destruct (exclusions_spec s (reach_wf s R)) as (ex2 & E2 & L2 & EX). rewrite E in E2. injection E2 as <-.
      assert (ST : forall j, (j < length (data s))%nat -> is_stored s j = false).
      { intros j J. destruct (wf_tsort_some s (reach_wf s R) j J) as (m & M1 & M2 & M3). specialize (K3 m M2). destruct (proj1 K3 (KT m M2)) as [A _].
        apply (nth_error_nth _ _ 0%nat) in M3. rewrite M3 in A. destruct (is_stored s j); congruence. }
      assert (FE : exi = repeat false (length (data s))).
      { apply (nth_ext _ _ false false); [rewrite repeat_length, (fancy_length _ _ _ F); apply (wf_tinv_length s (reach_wf s R))|]. intros n Hn. rewrite (fancy_length _ _ _ F), (wf_tinv_length s (reach_wf s R)) in Hn.
        rewrite nth_repeat. rewrite (fancy_ok ex false) in F by (intros i I; rewrite L2; apply In_nth_error in I; destruct I as (q & Q); exact (wf_tinv_lt s (reach_wf s R) q i Q)). injection F as <-.
        rewrite (nth_map_d _ _ _ 0%nat) by (rewrite (wf_tinv_length s (reach_wf s R)); exact Hn).
        destruct (wf_tinv_some s (reach_wf s R) n Hn) as (j & J1 & J2 & J3). apply (nth_error_nth _ _ 0%nat) in J1. rewrite J1.
        destruct (nth_error (data s) j) as [x|] eqn:X; [|apply nth_error_None in X; lia]. rewrite (EX j x n X J3), (ST n Hn). cbn [orb].
        destruct (tmax s) as [q|] eqn:TM; [|reflexivity]. destruct (fgt (fst x) q) eqn:FG; [|reflexivity]. exfalso.
        destruct (proj1 (K3 j J2) (KT j J2)) as [_ C]. apply C. left. apply fgt_iff in FG. destruct FG as (t & T1 & T2). destruct x as [tt a]. cbn [fst] in T1. subst tt. exists t, a, q. auto. }
      rewrite FE. apply select_true; [rewrite map_length, repeat_length; reflexivity|]. intros r Hr. rewrite (nth_map_d negb _ r false) by (rewrite repeat_length; exact Hr). now rewrite nth_repeat. }
  rewrite ID, map_length, Nat.ltb_irrefl.
  pose proof (last_holder_ok h l) as K. pose proof (last_holder_none h l) as N. destruct (last_holder _ _ _ _) as [m|].
  - destruct (proj1 (K m) eq_refl) as [H M]. destruct H as (x & X1 & X2). rewrite nth_error_map, X1. cbn [option_map]. split.
    + intros k. split.
      * intros E1. injection E1 as <-. exists m, x. repeat split; auto. now exists x.
      * intros (i & y & Y & <- & Y1 & Y2). assert (Q : Some m = Some i) by (apply K; now split). injection Q as <-. pose proof (eq_trans (eq_sym X1) Y) as Z. injection Z as <-. reflexivity.
    + split; [discriminate|]. intros Q. apply N in Q. discriminate.
  - split; [|split; [intros _; now apply N|reflexivity]]. intros k. split; [discriminate|]. intros (i & y & _ & _ & Q). apply K in Q. discriminate.
Qed.
(** Three reflections given in the order of angles 3, 1, 2, so their ids are 1, 2, 0 in the order shown.  With an exclusion the
    reflections of ids 1 and 0 are left (C44), and the master index of one of id 1 is returned as 2; before, it is 1. *)
Theorem C114_master_refuted : exists (s s' : pd (nat * list ivec)) l, reachable s /\ getHKLID s (IV 1 0 0) true = Ok 1%nat /\
  set_exclusions s (EMask [false; false; true]) = Ok s' /\ get_sym s' = Ok l /\ map (fun x : refl => fst (snd x)) l = [1; 0]%nat /\
  nth_error l 0 = Some (Some 1%Q, (1%nat, [IV 1 0 0])) /\ getHKLID s' (IV 1 0 0) false = Ok 0%nat /\ getHKLID s' (IV 1 0 0) true = Ok 2%nat.
Proof.
  exists (Pd [(Some 1%Q, (1%nat, [IV 1 0 0])); (Some 2%Q, (2%nat, [IV 1 1 0])); (Some 3%Q, (0%nat, [IV 1 1 1]))] [1; 2; 0]%nat [2; 0; 1]%nat None None 3). eexists; eexists.
  split; [apply (r_new [(Some 3%Q, (0%nat, [IV 1 1 1])); (Some 1%Q, (1%nat, [IV 1 0 0])); (Some 2%Q, (2%nat, [IV 1 1 0]))] [1; 2; 0]%nat None); [|reflexivity]|].
  - unfold ordering. symmetry. apply (Permutation_cons_append [1; 2]%nat 0%nat).
  - repeat (split; [vm_compute; reflexivity|]). vm_compute. reflexivity.
Qed.

(** ** a case *)
Lemma cubic4 : exists L, lattice_with Oh [4] L.
Proof.
  assert (PP : parameters_of (PI / 180) "cubic" [4] (V3 4 4 4) (V3 (PI / 2) (PI / 2) (PI / 2))) by constructor.
  assert (PC : possible_cell (V3 4 4 4) (V3 (PI / 2) (PI / 2) (PI / 2))). { pose proof PI_RGT_0. unfold possible_cell. cbn [vx vy vz]. repeat split; lra. }
  exists (lattice_of (Cell (V3 4 4 4) (V3 (PI / 2) (PI / 2) (PI / 2)))). do 2 eexists. split; [exact PP|]. split; [exact PC|].
  split; [unfold latticeVectors; change (ltypeOfLaueGroup Oh) with "cubic"%string; rewrite (params_cell false _ _ _ _ PP); reflexivity|]. cbn [vx vy vz]. lra.
Qed.
Lemma images_list : forall g h l, forallb (fun m => existsb (iv_eqb (row_act h m)) l) (full g) = true ->
  forallb (fun x => existsb (fun m => iv_eqb (row_act h m) x) (full g)) l = true -> forall x, equivalent (full g) h x <-> In x l.
Proof.
  intros g h l A B x. rewrite (equivalent_image (full g) _ _ (full_group g)). rewrite forallb_forall in A, B. split.
  - intros (m & M & <-). specialize (A m M). apply existsb_exists in A. destruct A as (y & Y & E). apply iv_eqb_eq in E. now rewrite E.
  - intros X. specialize (B x X). apply existsb_exists in B. destruct B as (m & M & E). apply iv_eqb_eq in E. eauto.
Qed.
(** The (111) planes of a cubic crystal have eight symmetric reflections, the (200) planes six. *)
Example C112_ex : exists L data d e, lattice_with Oh [4] L /\ makePlaneData [IV 1 1 1; IV 2 0 0] [4] Oh None 1 = Ok data /\ data = [d; e] /\
  Permutation (hd_sym d) [IV 1 1 1; IV 1 1 (-1); IV 1 (-1) 1; IV 1 (-1) (-1); IV (-1) 1 1; IV (-1) 1 (-1); IV (-1) (-1) 1; IV (-1) (-1) (-1)] /\
  multiplicity d = 8%nat /\ multiplicity e = 6%nat /\ ~ family Oh L (IV 1 1 1) (IV 2 0 0).
Proof.
  destruct cubic4 as (L & LW). exists L. do 3 eexists. split; [exact LW|]. split; [exact (made_list _ _ _ _ _ _ LW)|]. split; [reflexivity|].
  set (d := make_hkl _ _ _ _ _ _). set (e := make_hkl _ _ _ _ (fst (_, IV 2 0 0)) _).
  destruct (made _ _ _ LW None 1 _ _ d eq_refl) as (N & IN & _). destruct (made _ _ _ LW None 1 _ _ e eq_refl) as (N' & IN' & _). cbn [fst snd] in IN, IN'.
  assert (P : Permutation (hd_sym d) [IV 1 1 1; IV 1 1 (-1); IV 1 (-1) 1; IV 1 (-1) (-1); IV (-1) 1 1; IV (-1) 1 (-1); IV (-1) (-1) 1; IV (-1) (-1) (-1)]).
  { apply NoDup_Permutation; [exact N|repeat (constructor; [cbn [In]; intuition discriminate|]); constructor|].
    intros x. rewrite IN. apply images_list; vm_compute; reflexivity. }
  assert (P' : Permutation (hd_sym e) [IV 2 0 0; IV (-2) 0 0; IV 0 2 0; IV 0 (-2) 0; IV 0 0 2; IV 0 0 (-2)]).
  { apply NoDup_Permutation; [exact N'|repeat (constructor; [cbn [In]; intuition discriminate|]); constructor|].
    intros x. rewrite IN'. apply images_list; vm_compute; reflexivity. }
  split; [exact P|]. split; [exact (Permutation_length P)|]. split; [exact (Permutation_length P')|].
  intros F. apply (family_images _ _ _ LW), IN in F. apply (Permutation_in _ P) in F. cbn [In] in F. intuition discriminate.
Qed.
Example C113_ex : exists L ops uc hkls data, lattice_with Oh [4] L /\ has_laue 225 Oh /\ ~ In 225%Z sideways /\ operations_in 225 0 ops /\
  unitcell_object (V3 1 1 1) (V3 90 90 90) 225 0 uc /\ cell_of 225 (V3 1 1 1) (V3 90 90 90) /\ getHKLs uc (1 / 2) = Ok hkls /\
  makePlaneData hkls [4] Oh None 1 = Ok data /\ In (IV (-1) 1 (-1)) (concat (map hd_sym data)).
Proof.
  destruct cubic4 as (L & LW). destruct C91_example as (Lu & ops & uc & hkls & h' & C & D & O & U & DM & OB & G & _).
  exists L, ops, uc, hkls. eexists. assert (HL : has_laue 225 Oh) by (do 4 eexists; split; reflexivity).
  assert (NS : ~ In 225%Z sideways) by (cbn [sideways In]; lia).
  repeat (split; [first [exact LW|exact HL|exact NS|exact O|exact U|exact C|exact G|exact (made_list _ _ _ _ _ _ LW)]|]).
  eapply (C113_every_reflection_once_partial _ _ 225 0 uc ops Lu (1 / 2) hkls Oh [4] None 1 L); eauto; [lia|lra|exact (made_list _ _ _ _ _ _ LW)].
Qed.
Example C113_sideways_ex : exists L ops data d e, lattice_with D3d [4; 5] L /\ has_laue 157 D3d /\ In 157%Z sideways /\ operations_in 157 0 ops /\
  makePlaneData [IV 1 0 1; IV 2 1 1] [4; 5] D3d None 1 = Ok data /\ In d data /\ hd_hkl d = IV 1 0 1 /\ In e data /\ hd_hkl e = IV 2 1 1.
Proof.
  assert (PP : parameters_of (PI / 180) "trigonal" [4; 5] (V3 4 4 5) (V3 (PI / 2) (PI / 2) (2 * PI / 3))) by constructor.
  assert (PC : possible_cell (V3 4 4 5) (V3 (PI / 2) (PI / 2) (2 * PI / 3))). { pose proof PI_RGT_0. unfold possible_cell. cbn [vx vy vz]. repeat split; lra. }
  set (L := lattice_of (Cell (V3 4 4 5) (V3 (PI / 2) (PI / 2) (2 * PI / 3)))). assert (LW : lattice_with D3d [4; 5] L).
  { do 2 eexists. split; [exact PP|]. split; [exact PC|]. split; [unfold latticeVectors; change (ltypeOfLaueGroup D3d) with "trigonal"%string; rewrite (params_cell false _ _ _ _ PP); reflexivity|]. cbn [vx vy vz]. lra. }
  exists L. assert (OI : exists ops, operations_in 157 0 ops).
  { destruct (GenerateSGSym 157 0) as [[[[[ops pg] la] c] s]|x] eqn:E; [exists ops; do 4 eexists; exact E|]. exfalso.
    assert (K : (match GenerateSGSym 157 0 with Ok _ => true | Err _ => false end) = true) by (vm_compute; reflexivity). rewrite E in K. discriminate. }
  destruct OI as (ops & OI). exists ops. do 3 eexists. split; [exact LW|]. split; [do 4 eexists; split; reflexivity|]. split; [cbn [sideways In]; tauto|]. split; [exact OI|].
  split; [exact (made_list _ _ _ _ _ _ LW)|]. split; [left; reflexivity|]. split; [reflexivity|]. split; [right; left; reflexivity|]. reflexivity.
Qed.
Example C114_ex : exists (s s' : pd (nat * list ivec)) l, reachable s /\ set_exclusions s (EMask [true; false; false]) = Ok s' /\ get_sym s' = Ok l /\
  tsort s' = seq 0 (length (data s')) /\ tmax s' = None /\ length l = 2%nat /\ getHKLID s' (IV 0 1 0) false = Ok 0%nat /\ getHKLID s' (IV 0 1 0) true = Ok 1%nat /\
  getHKLID s' (IV 1 1 1) true = Err RuntimeError.
Proof.
  exists (Pd [(Some 1%Q, (0%nat, [IV 1 1 1])); (Some 2%Q, (1%nat, [IV 1 0 0; IV 0 1 0])); (Some 3%Q, (2%nat, [IV 2 0 0]))] [0; 1; 2]%nat [0; 1; 2]%nat None None 3). eexists; eexists.
  split; [apply (r_new [(Some 1%Q, (0%nat, [IV 1 1 1])); (Some 2%Q, (1%nat, [IV 1 0 0; IV 0 1 0])); (Some 3%Q, (2%nat, [IV 2 0 0]))] [0; 1; 2]%nat None); [apply Permutation_refl|reflexivity]|].
  repeat (split; [vm_compute; reflexivity|]). vm_compute. reflexivity.
Qed.
Print Assumptions C112_family.
Print Assumptions C112_normals.
Print Assumptions C112_same_family.
Print Assumptions C112_multiplicity.
Print Assumptions C112_centrosym.
Print Assumptions C113_space_group_partial.
Print Assumptions C113_every_reflection_once_partial.
Print Assumptions C113_sideways_refuted.
Print Assumptions C114_index.
Print Assumptions C114_master_partial.
Print Assumptions C114_master_refuted.
