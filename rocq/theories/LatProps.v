(** Properties C43 and C81-C84: unit cells, lattice planes, spaces of a unit cell. *)
From Coq Require Import Reals List String Lra Psatz.
From Verif Require Import Prelude Lin TensorModel LatModel LatSpec LatProofs LatCell LatSpace.
Import ListNotations.
Local Open Scope R_scope.

(** ** C43 *)
Theorem C43_direct_lattice : forall l tag radians len ang, parameters_of (angle_unit radians) tag l len ang -> possible_cell len ang ->
  exists L, latticeVectors l tag radians = Ok L /\ has_shape (l_F L) len ang /\
    col0 (l_F L) = V3 (vx len) 0 0 /\ 0 < vy (col1 (l_F L)) /\ vz (col1 (l_F L)) = 0 /\
    l_vol L = dot (col0 (l_F L)) (cross (col1 (l_F L)) (col2 (l_F L))) /\ 0 < l_vol L /\
    c_len (l_dparms L) = len /\ c_ang (l_dparms L) = ang.
Proof.
  intros l tag rad len ang H P. exists (lattice_of (Cell len ang)). unfold latticeVectors. rewrite (params_cell _ _ _ _ _ H). split; [reflexivity|].
  pose proof (lattice_wf len ang P) as W. destruct (wf_b _ _ _ W) as [B1 B2]. destruct (wf_vol _ _ _ W) as [V VP]. repeat (split; [solve [apply W|assumption|reflexivity]|]).
  rewrite (wf_dparms _ _ _ W). split; reflexivity.
Qed.
Print Assumptions C43_direct_lattice.
Theorem C43_reciprocal_lattice : forall l tag radians len ang L, parameters_of (angle_unit radians) tag l len ang -> possible_cell len ang ->
  latticeVectors l tag radians = Ok L ->
  mm (mt (l_F L)) (l_B L) = mI /\ (exists z, 0 < z /\ col2 (l_B L) = V3 0 0 z) /\
  has_shape (l_B L) (c_len (l_rparms L)) (c_ang (l_rparms L)).
Proof.
  intros l tag rad len ang L H P E. unfold latticeVectors in E. rewrite (params_cell _ _ _ _ _ H) in E. injection E as <-.
  pose proof (lattice_wf len ang P) as W. split; [apply W|]. split; [exact (wf_cstar _ _ _ W)|apply W].
Qed.
Print Assumptions C43_reciprocal_lattice.
Theorem C43_fable_frame : forall l tag radians len ang L, parameters_of (angle_unit radians) tag l len ang -> possible_cell len ang ->
  latticeVectors l tag radians = Ok L ->
  has_shape (l_BR L) (c_len (l_rparms L)) (c_ang (l_rparms L)) /\ 0 < det (l_BR L) /\
  col0 (l_BR L) = V3 (vx (c_len (l_rparms L))) 0 0 /\ 0 < vy (col1 (l_BR L)) /\ vz (col1 (l_BR L)) = 0 /\
  rotation (l_U0 L) /\ mm (l_U0 L) (l_BR L) = l_B L.
Proof.
  intros l tag rad len ang L H P E. unfold latticeVectors in E. rewrite (params_cell _ _ _ _ _ H) in E. injection E as <-.
  pose proof (lattice_wf len ang P) as W. destruct (wf_fable _ _ _ W) as (A & B & C & D & F). destruct (wf_U0 _ _ _ W) as [U V].
  repeat (split; [assumption|]). assumption.
Qed.
Print Assumptions C43_fable_frame.
(** the parameters come back from the vectors, for any three independent vectors in any frame *)
Theorem C43_parameters_from_vectors : forall M len ang, det M <> 0 ->
  (has_shape M len ang <-> latticeParameters M = Cell len ang).
Proof.
  intros M len ang D. split; [exact (shape_params M len ang D)|]. intros E.
  assert (Q : 0 < det M * det M) by (pose proof (Rle_0_sqr (det M)) as Z; unfold Rsqr in Z; destruct Z as [Z|Z]; [exact Z|]; symmetry in Z; apply Rmult_integral in Z; tauto).
  destruct (reg_good M Q) as [_ S]. rewrite E in S. exact S.
Qed.
Print Assumptions C43_parameters_from_vectors.
Theorem C43_when_a_cell_exists : forall u tag l len ang, parameters_of u tag l len ang -> 0 < vx len -> 0 < vy len -> 0 < vz len ->
  (tag = "rhombohedral"%string -> 0 < vx ang < 2 * PI / 3) -> (tag = "monoclinic"%string -> 0 < vy ang < PI) -> tag <> "triclinic"%string ->
  possible_cell len ang.
Proof. exact possible_types. Qed.
Print Assumptions C43_when_a_cell_exists.
Theorem C43_rejected : forall l tag radians,
  (~ In tag lattice_types -> latticeVectors l tag radians = Err ValueError) /\
  (In tag lattice_types -> (forall len ang, ~ parameters_of (angle_unit radians) tag l len ang) -> latticeVectors l tag radians = Err IndexError).
Proof.
  intros l tag rad. split; intros H.
  - unfold latticeVectors, cellparms.
    repeat match goal with |- context [String.eqb tag ?x] => destruct (String.eqb_spec tag x); [exfalso; apply H; subst tag; unfold lattice_types; cbn [In]; tauto|] end. reflexivity.
  - intros N. unfold lattice_types in H. cbn [In] in H. unfold latticeVectors.
    assert (Z : forall len ang, cellparms l tag rad = Ok (Cell len ang) -> parameters_of (angle_unit rad) tag l len ang \/ False -> False) by (intros len ang _ [Q|[]]; exact (N _ _ Q)).
    decompose [or] H; subst; try contradiction; clear H Z; unfold cellparms; cbn [String.eqb Ascii.eqb Bool.eqb orb];
    (destruct l as [|p0 [|p1 [|p2 [|p3 [|p4 [|p5 r]]]]]]; cbn [parm nth_error rbind]; try reflexivity; exfalso; eapply N; constructor).
Qed.
Print Assumptions C43_rejected.
(** the docstring calls the tag case-insensitive *)
Theorem C43_capitals_refuted : latticeVectors [4] "Cubic" false = Err ValueError.
Proof. reflexivity. Qed.
Print Assumptions C43_capitals_refuted.
Example C43_example : parameters_of (angle_unit false) "monoclinic" [5; 6; 7; 100] (V3 5 6 7) (V3 (PI / 2) (PI / 180 * 100) (PI / 2)) /\
  possible_cell (V3 5 6 7) (V3 (PI / 2) (PI / 180 * 100) (PI / 2)).
Proof. pose proof PI_RGT_0. split; [constructor|]. unfold possible_cell. cbn [vx vy vz]. repeat split; lra. Qed.

(** ** C81: lattice planes *)
Theorem C81_plane_normals_and_spacings : forall l ltype len ang wl s hkls, parameters_of (PI / 180) ltype l len ang -> possible_cell len ang ->
  exists L ps, latticeVectors l ltype false = Ok L /\ latticePlanes hkls l ltype wl s = Ok ps /\
    Forall2 (fun hkl p => hkl <> vzero ->
      (exists n, plane_spacing (l_F L) hkl n (p_d p)) /\ (p_d p < / (10 / 2 ^ 52) -> plane_spacing (l_F L) hkl (p_normal p) (p_d p))) hkls ps.
Proof.
  intros l ltype len ang wl s hkls H P. pose proof (lattice_wf len ang P) as W. exists (lattice_of (Cell len ang)).
  exists (map (lattice_plane (lattice_of (Cell len ang)) wl s) hkls). unfold latticePlanes, latticeVectors. rewrite (params_cell false _ _ _ _ H). split; [reflexivity|]. split; [reflexivity|].
  induction hkls as [|h r IH]; cbn [map]; constructor; auto. intros Z. exact (plane_geom len ang _ wl s h W Z).
Qed.
Print Assumptions C81_plane_normals_and_spacings.
Theorem C81_bragg_angles : forall l ltype len ang wl s hkls ps, parameters_of (PI / 180) ltype l len ang -> possible_cell len ang -> 0 < wl ->
  latticePlanes hkls l ltype wl s = Ok ps ->
  Forall2 (fun hkl p => hkl <> vzero ->
    (wl < 2 * p_d p -> exists t, p_tth p = Some t /\ bragg wl (p_d p) t) /\ (2 * p_d p <= wl -> p_tth p = None)) hkls ps.
Proof.
  intros l ltype len ang wl s hkls ps H P WL E. pose proof (lattice_wf len ang P) as W. unfold latticePlanes, latticeVectors in E. rewrite (params_cell false _ _ _ _ H) in E. injection E as <-.
  induction hkls as [|h r IH]; cbn [map]; constructor; auto. intros Z. exact (plane_tth len ang _ wl s h W Z WL).
Qed.
Print Assumptions C81_bragg_angles.
Theorem C81_strain_bounds : forall l ltype len ang wl e hkls ps, parameters_of (PI / 180) ltype l len ang -> possible_cell len ang -> 0 < wl -> 0 <= e < 1 ->
  latticePlanes hkls l ltype wl (Some e) = Ok ps ->
  Forall2 (fun hkl p => hkl <> vzero ->
    (wl < 2 * (p_d p * (1 - e)) -> exists lo t hi, p_lo p = Some lo /\ p_tth p = Some t /\ p_hi p = Some hi /\
       bragg wl (p_d p * (1 + e)) lo /\ bragg wl (p_d p) t /\ bragg wl (p_d p * (1 - e)) hi /\ lo <= t <= hi) /\
    (2 * (p_d p * (1 - e)) <= wl -> p_lo p = None /\ p_hi p = None)) hkls ps.
Proof.
  intros l ltype len ang wl e hkls ps H P WL EB E. pose proof (lattice_wf len ang P) as W. unfold latticePlanes, latticeVectors in E. rewrite (params_cell false _ _ _ _ H) in E. injection E as <-.
  induction hkls as [|h r IH]; cbn [map]; constructor; auto. intros Z. exact (plane_strain len ang _ wl e h W Z WL EB).
Qed.
Print Assumptions C81_strain_bounds.
(** cubic cell of edge 4, plane 200, wavelength 1: spacing 2 *)
Example C81_example : exists p, latticePlanes [V3 2 0 0] [4] "cubic" 1 None = Ok [p] /\ p_d p = 2 /\ 1 < 2 * p_d p /\ p_d p < / (10 / 2 ^ 52).
Proof.
  assert (PP : parameters_of (PI / 180) "cubic" [4] (V3 4 4 4) (V3 (PI / 2) (PI / 2) (PI / 2))) by constructor.
  assert (PC : possible_cell (V3 4 4 4) (V3 (PI / 2) (PI / 2) (PI / 2))) by (eapply possible_types; [exact PP| | | | | |]; cbn; try lra; discriminate).
  destruct (C81_plane_normals_and_spacings _ _ _ _ 1 None [V3 2 0 0] PP PC) as (L & ps & EL & EP & F). inversion F as [|x p y r Q F' X Y]; subst. inversion F'; subst. exists p. split; [exact EP|].
  assert (HZ : V3 2 0 0 <> vzero) by (intros Z; injection Z; lra). destruct (Q HZ) as [(n & N1 & D & N2) _].
  destruct (C43_direct_lattice [4] "cubic" false _ _ PP PC) as (L' & EL' & (NA & NB & NC & AA & AB & AC) & A & _). rewrite EL in EL'. injection EL' as <-.
  destruct (C43_reciprocal_lattice [4] "cubic" false _ _ L PP PC EL) as (DU & _).
  assert (ED : p_d p = 2).
  { pose proof (N2 (V3 1 0 0)) as T. pose proof (N2 (V3 0 1 0)) as T1. pose proof (N2 (V3 0 0 1)) as T2. cbn [vx vy vz] in A, NA, NB, NC.
    assert (F00 : l_F L = M3 4 0 0 0 4 0 0 0 4).
    { unfold latticeVectors, cellparms in EL. cbn [String.eqb Ascii.eqb Bool.eqb parm nth_error rbind] in EL. injection EL as <-. unfold lattice_of, cell_frame, cosineXform. cbn [l_F c_len c_ang vx vy vz].
      rewrite cos_PI2, sin_PI2. replace ((0 * 0 - 0) / (1 * 1)) with 0 by field. replace (1 - 0 * 0) with 1 by ring. rewrite sqrt_1. lin_unfold. f_equal; ring. }
    rewrite F00 in T, T1, T2. clear - T T1 T2 N1 D. destruct n as [x y z]. lin_unfold. assert (y = 0) by lra. assert (z = 0) by lra. subst y z. set (d := p_d p) in *. clearbody d. nra. }
  split; [exact ED|]. rewrite ED. split; [lra|]. unfold Rdiv. rewrite Rinv_mult, Rinv_inv. assert (2 ^ 6 < 2 ^ 52) by (apply Rlt_pow; [lra|repeat constructor]). lra.
Qed.

(** ** C82: the unit cell's matrices *)
Theorem C82_metric_tensors : forall a b c al be ga L, possible_cell (V3 a b c) (radians_of (V3 al be ga)) ->
  latticeVectors [a; b; c; al; be; ga] "triclinic" false = Ok L -> let u := calcmatrices (V3 a b c) (V3 al be ga) in
  u_dmt u = mm (mt (l_F L)) (l_F L) /\ u_rmt u = mm (mt (l_B L)) (l_B L) /\ u_vol u = l_vol L.
Proof.
  intros a b c al be ga L P E. change (latticeVectors [a; b; c; al; be; ga] "triclinic" false) with (Ok (lattice_of (Cell (V3 a b c) (radians_of (V3 al be ga))))) in E. injection E as <-.
  destruct (metric_facts _ _ _ (lattice_wf _ _ P) P) as (A & B & C & _). cbv zeta. auto.
Qed.
Print Assumptions C82_metric_tensors.
Theorem C82_structure_matrices_partial : forall a b c al be ga L, possible_cell (V3 a b c) (radians_of (V3 al be ga)) ->
  latticeVectors [a; b; c; al; be; ga] "triclinic" false = Ok L -> let u := calcmatrices (V3 a b c) (V3 al be ga) in
  (entries not_tiny (l_F L) -> u_dsm u = l_F L) /\ (entries not_tiny (l_B L) -> u_rsm u = l_B L).
Proof.
  intros a b c al be ga L P E. change (latticeVectors [a; b; c; al; be; ga] "triclinic" false) with (Ok (lattice_of (Cell (V3 a b c) (radians_of (V3 al be ga))))) in E. injection E as <-.
  destruct (metric_facts _ _ _ (lattice_wf _ _ P) P) as (_ & _ & _ & F & B). cbv zeta. rewrite F, B. split; apply chop_all.
Qed.
Print Assumptions C82_structure_matrices_partial.
Lemma tiny_pos : 0 < / 10 ^ 9 < / 2 ^ 26.
Proof. split; [apply Rinv_0_lt_compat; apply pow_lt; lra|]. apply Rinv_lt_contravar. { apply Rmult_lt_0_compat; apply pow_lt; lra. } cbn. lra. Qed.
Lemma ok_inj : forall (A : Type) (a b : A), Ok a = Ok b -> a = b. Proof. intros A a b H. now injection H. Qed.
Lemma third_col : forall M N, mv M (V3 0 0 1) = mv N (V3 0 0 1) -> m02 M = m02 N.
Proof. intros [a b c d e f g h i] [a' b' c' d' e' f' g' h' i'] H. lin_unfold. injection H as H _ _. lra. Qed.
(** a cell with beta a little off the right angle: the structure matrix drops the component *)
Theorem C82_near_right_angle_refuted : exists be L, let deg := V3 90 be 90 in
  possible_cell (V3 1 1 1) (radians_of deg) /\ latticeVectors [1; 1; 1; 90; be; 90] "triclinic" false = Ok L /\
  u_dsm (calcmatrices (V3 1 1 1) deg) <> l_F L /\
  TransSpace (calcmatrices (V3 1 1 1) deg) (V3 0 0 1) "d" "c" <> Ok (mv (l_F L) (V3 0 0 1)).
Proof.
  pose proof tiny_pos as TP. set (x := / 10 ^ 9) in *. assert (X1 : x < 1). { apply Rlt_trans with (/ 2 ^ 26); [apply TP|]. apply Rlt_le_trans with (/ 1); [|lra]. apply Rinv_lt_contravar; [rewrite Rmult_1_l; apply pow_lt; lra|]. apply Rlt_pow_R1; [lra|repeat constructor]. }
  set (be := acos x * (180 / PI)). pose proof PI_RGT_0 as PP.
  assert (BE : PI / 180 * be = acos x) by (unfold be; field; lra).
  assert (CA : cos (acos x) = x) by (apply cos_acos; lra).
  assert (AB : 0 < acos x < PI).
  { pose proof (acos_bound x) as B. split.
    - destruct (Rlt_le_dec 0 (acos x)) as [|N]; auto. assert (E : acos x = 0) by lra. rewrite E, cos_0 in CA. lra.
    - destruct (Rlt_le_dec (acos x) PI) as [|N]; auto. assert (E : acos x = PI) by lra. rewrite E, cos_PI in CA. lra. }
  assert (RO : radians_of (V3 90 be 90) = V3 (PI / 2) (acos x) (PI / 2)) by (unfold radians_of, vscale; cbn [vx vy vz]; rewrite BE; f_equal; field).
  assert (PC : possible_cell (V3 1 1 1) (radians_of (V3 90 be 90))) by (rewrite RO; unfold possible_cell; cbn [vx vy vz]; repeat split; lra).
  exists be. exists (lattice_of (Cell (V3 1 1 1) (radians_of (V3 90 be 90)))). cbv zeta. split; [exact PC|]. split; [reflexivity|].
  destruct (metric_facts _ _ _ (lattice_wf _ _ PC) PC) as (_ & _ & _ & F & _). 
  set (L := lattice_of (Cell (V3 1 1 1) (radians_of (V3 90 be 90)))) in *.
  assert (E02 : m02 (l_F L) = x).
  { unfold L. rewrite RO. unfold lattice_of, cell_frame, cosineXform. cbn [l_F c_len c_ang vx vy vz]. rewrite CA. lin_unfold. ring. }
  assert (D02 : m02 (u_dsm (calcmatrices (V3 1 1 1) (V3 90 be 90))) = 0).
  { rewrite F. unfold mmap. cbn [m02]. rewrite E02. unfold chop, uc_eps. rewrite Rabs_right by lra. destruct (Rlt_dec x (/ 2 ^ 26)); lra. }
  split.
  - intros Z. rewrite Z, E02 in D02. lra.
  - unfold TransSpace. cbn [String.eqb Ascii.eqb Bool.eqb]. intros Z. apply ok_inj in Z. apply third_col in Z. rewrite D02, E02 in Z. lra.
Qed.
Print Assumptions C82_near_right_angle_refuted.

(** ** C83: changing between direct, reciprocal and Cartesian space *)
Theorem C83_spaces_partial : forall a b c al be ga L s t v w, possible_cell (V3 a b c) (radians_of (V3 al be ga)) ->
  latticeVectors [a; b; c; al; be; ga] "triclinic" false = Ok L ->
  (s = "c"%string \/ t = "c"%string -> entries not_tiny (l_F L) /\ entries not_tiny (l_B L)) ->
  in_space (l_F L) (l_B L) s v w -> is_space t ->
  exists v', TransSpace (calcmatrices (V3 a b c) (V3 al be ga)) v s t = Ok v' /\ in_space (l_F L) (l_B L) t v' w.
Proof.
  intros a b c al be ga L s t v w P E NT I T. change (latticeVectors [a; b; c; al; be; ga] "triclinic" false) with (Ok (lattice_of (Cell (V3 a b c) (radians_of (V3 al be ga))))) in E. injection E as <-.
  apply (trans_space _ _ _ s t v w (conj (lattice_wf _ _ P) P) NT I T).
Qed.
Print Assumptions C83_spaces_partial.
Theorem C83_unknown_space : forall u v s t, s <> t -> ~ (is_space s /\ is_space t) -> TransSpace u v s t = Err ValueError.
Proof. exact trans_bad. Qed.
Print Assumptions C83_unknown_space.
Theorem C83_products_and_lengths : forall a b c al be ga L s v v' w w', possible_cell (V3 a b c) (radians_of (V3 al be ga)) ->
  latticeVectors [a; b; c; al; be; ga] "triclinic" false = Ok L ->
  in_space (l_F L) (l_B L) s v w -> in_space (l_F L) (l_B L) s v' w' -> let u := calcmatrices (V3 a b c) (V3 al be ga) in
  CalcDot u v v' s = Ok (dot w w') /\ CalcLength u v s = Ok (norm w) /\
  exists n, NormVec u v s = Ok n /\ in_space (l_F L) (l_B L) s n (vscale (/ norm w) w).
Proof.
  intros a b c al be ga L s v v' w w' P E I I'. change (latticeVectors [a; b; c; al; be; ga] "triclinic" false) with (Ok (lattice_of (Cell (V3 a b c) (radians_of (V3 al be ga))))) in E. injection E as <-.
  pose proof (conj (lattice_wf _ _ P) P) as C. split; [exact (calc_dot _ _ _ _ _ _ _ _ C I I')|]. split; [exact (calc_length _ _ _ _ _ _ C I)|exact (norm_vec _ _ _ _ _ _ C I)].
Qed.
Print Assumptions C83_products_and_lengths.
Theorem C83_angles_partial : forall a b c al be ga L s v v' w w' t, possible_cell (V3 a b c) (radians_of (V3 al be ga)) ->
  latticeVectors [a; b; c; al; be; ga] "triclinic" false = Ok L ->
  in_space (l_F L) (l_B L) s v w -> in_space (l_F L) (l_B L) s v' w' -> w <> vzero -> w' <> vzero -> angle_between w w' t ->
  let u := calcmatrices (V3 a b c) (V3 al be ga) in
  (/ 10 ^ 8 + / 10 ^ 5 < 1 - Rabs (cos t) -> CalcAngle u v v' s = Ok t) /\
  (1 - Rabs (cos t) <= / 10 ^ 8 + / 10 ^ 5 -> CalcAngle u v v' s = Ok 0 /\ t < PI / 2 \/ CalcAngle u v v' s = Ok PI /\ PI / 2 < t).
Proof.
  intros a b c al be ga L s v v' w w' t P E I I' Z Z' A. change (latticeVectors [a; b; c; al; be; ga] "triclinic" false) with (Ok (lattice_of (Cell (V3 a b c) (radians_of (V3 al be ga))))) in E. injection E as <-.
  pose proof (calc_angle _ _ _ s v v' w w' t (conj (lattice_wf _ _ P) P) I I' Z Z' A) as Q. cbv zeta. rewrite Q. pose proof (COS_bound t) as CB. destruct A as [T _].
  assert (AB : Rabs (Rabs (cos t) - 1) = 1 - Rabs (cos t)). { rewrite Rabs_left1. ring. assert (Rabs (cos t) <= 1) by (apply Rabs_le; lra). lra. }
  rewrite AB. split; intros H.
  - destruct (Rle_dec (1 - Rabs (cos t)) (/ 10 ^ 8 + / 10 ^ 5)); [lra|reflexivity].
  - destruct (Rle_dec (1 - Rabs (cos t)) (/ 10 ^ 8 + / 10 ^ 5)); [|lra]. pose proof PI_RGT_0 as PP.
    assert (NZ : cos t <> 0). { intros C. rewrite C, Rabs_R0 in H. lra. }
    destruct (Rlt_dec 0 (cos t)) as [G|G]; [left|right]; (split; [reflexivity|]).
    + destruct (Rlt_le_dec t (PI / 2)) as [|N]; auto. assert (cos t <= cos (PI / 2)) by (apply cos_decr_1; lra). rewrite cos_PI2 in *. lra.
    + destruct (Rlt_le_dec (PI / 2) t) as [|N]; auto. assert (cos (PI / 2) <= cos t) by (apply cos_decr_1; lra). rewrite cos_PI2 in *. lra.
Qed.
Print Assumptions C83_angles_partial.
Lemma cart_space : forall F B v, in_space F B "c" v v. Proof. intros. constructor. Qed.
(** two directions a thousandth of a radian apart: the reported angle is zero *)
Theorem C83_small_angles_refuted : exists v v' t, angle_between v v' t /\ 0 < t /\
  CalcAngle (calcmatrices (V3 1 1 1) (V3 90 90 90)) v v' "c" = Ok 0.
Proof.
  pose proof PI_RGT_0 as PP.
  assert (PC : possible_cell (V3 1 1 1) (radians_of (V3 90 90 90))).
  { replace (radians_of (V3 90 90 90)) with (V3 (PI / 2) (PI / 2) (PI / 2)) by (unfold radians_of, vscale; cbn [vx vy vz]; f_equal; field). unfold possible_cell; cbn [vx vy vz]; repeat split; lra. }
  set (v := V3 1 0 0). set (v' := V3 1 (/ 1000) 0). assert (Z : v <> vzero) by (intros E; injection E; lra). assert (Z' : v' <> vzero) by (intros E; injection E; lra).
  pose proof (acos_between v v' Z Z') as A. set (t := acos (dot v v' / norm v / norm v')) in *. exists v, v', t. split; [exact A|].
  assert (N : norm v = 1) by (apply norm2_norm1; unfold v; lin_unfold; ring).
  assert (N2 : norm v' * norm v' = 1 + / 1000 * / 1000) by (rewrite norm_sq; unfold v'; lin_unfold; ring).
  assert (D : dot v v' = 1) by (unfold v, v'; lin_unfold; ring).
  destruct A as [T E]. rewrite D, N in E. pose proof (norm_pos v') as NP.
  assert (NB : 1 < norm v' < 1 + / 10 ^ 6) by (split; nra).
  assert (CT : cos t < 1 /\ 1 - / 10 ^ 6 < cos t). { split; nra. }
  split. { destruct (Rlt_le_dec 0 t) as [|L]; auto. assert (t = 0) by lra. rewrite H, cos_0 in CT. lra. }
  destruct (C83_angles_partial 1 1 1 90 90 90 _ "c" v v' v v' t PC eq_refl (cart_space _ _ _) (cart_space _ _ _) Z Z') as [_ Q]. { split; [exact T|]. rewrite D, N. exact E. }
  destruct Q as [[Q _]|[_ Q]]. { rewrite Rabs_right by lra. lra. } { exact Q. }
  exfalso. assert (cos t <= cos (PI / 2)) by (apply cos_decr_1; lra). rewrite cos_PI2 in *. lra.
Qed.
Print Assumptions C83_small_angles_refuted.
(** the cross product, with [vol_divide] and without it (the default) *)
Theorem C83_cross_products_partial : forall a b c al be ga L s t v v' w w' k, possible_cell (V3 a b c) (radians_of (V3 al be ga)) ->
  latticeVectors [a; b; c; al; be; ga] "triclinic" false = Ok L ->
  (s = "c"%string \/ t = "c"%string -> entries not_tiny (l_F L) /\ entries not_tiny (l_B L)) ->
  in_space (l_F L) (l_B L) s v w -> in_space (l_F L) (l_B L) s v' w' -> is_space t ->
  exists r, CalcCross (calcmatrices (V3 a b c) (V3 al be ga)) v v' s t k = Ok r /\
    (k = true \/ s = "c"%string -> in_space (l_F L) (l_B L) t r (cross w w')) /\
    (k = false -> s = "d"%string -> in_space (l_F L) (l_B L) t r (vscale (/ l_vol L) (cross w w'))) /\
    (k = false -> s = "r"%string -> in_space (l_F L) (l_B L) t r (vscale (l_vol L) (cross w w'))).
Proof.
  intros a b c al be ga L s t v v' w w' k P E NT I I' T. change (latticeVectors [a; b; c; al; be; ga] "triclinic" false) with (Ok (lattice_of (Cell (V3 a b c) (radians_of (V3 al be ga))))) in E. injection E as <-.
  destruct (calc_cross_gen _ _ _ s t v v' w w' k (conj (lattice_wf _ _ P) P) NT I I' T) as (r & R & Q). exists r. split; [exact R|]. split; [|split].
  - intros [->| ->].
    + replace (cross w w') with (vscale 1 (cross w w')). { exact Q. } generalize (cross w w'). intros [x y z]. unfold vscale. cbn [vx vy vz]. f_equal; ring.
    + cbn [String.eqb Ascii.eqb Bool.eqb] in Q. replace (cross w w') with (vscale (if k then 1 else 1) (cross w w')). { exact Q. } generalize (cross w w'). intros [x y z]. unfold vscale. cbn [vx vy vz]. destruct k; f_equal; ring.
  - intros -> ->. exact Q.
  - intros -> ->. exact Q.
Qed.
Print Assumptions C83_cross_products_partial.
Example C83_example : exists L, possible_cell (V3 1 1 1) (radians_of (V3 90 90 90)) /\ latticeVectors [1; 1; 1; 90; 90; 90] "triclinic" false = Ok L /\
  entries not_tiny (l_F L) /\ entries not_tiny (l_B L) /\ in_space (l_F L) (l_B L) "d" (V3 1 2 3) (mv (l_F L) (V3 1 2 3)).
Proof.
  pose proof PI_RGT_0 as PP. assert (RO : radians_of (V3 90 90 90) = V3 (PI / 2) (PI / 2) (PI / 2)) by (unfold radians_of, vscale; cbn [vx vy vz]; f_equal; field).
  assert (PC : possible_cell (V3 1 1 1) (radians_of (V3 90 90 90))) by (rewrite RO; unfold possible_cell; cbn [vx vy vz]; repeat split; lra).
  exists (lattice_of (Cell (V3 1 1 1) (radians_of (V3 90 90 90)))). split; [exact PC|]. split; [reflexivity|].
  pose proof (wf_dual _ _ _ (lattice_wf _ _ PC)) as D. set (L := lattice_of _) in *.
  assert (F : l_F L = mI).
  { unfold L. rewrite RO. unfold lattice_of, cell_frame, cosineXform. cbn [l_F c_len c_ang vx vy vz]. rewrite cos_PI2, sin_PI2. replace ((0 * 0 - 0) / (1 * 1)) with 0 by field. replace (1 - 0 * 0) with 1 by ring. rewrite sqrt_1. lin_unfold. f_equal; ring. }
  rewrite F, mt_I, mm_I_l in D. rewrite F, D.
  assert (S1 : not_tiny 1). { right. rewrite Rabs_R1. rewrite <- Rinv_1. apply Rinv_le_contravar; [lra|]. apply pow_R1_Rle. lra. }
  assert (S0 : not_tiny 0) by (left; reflexivity).
  assert (EE : entries not_tiny mI) by (unfold entries, mI; cbn [m00 m01 m02 m10 m11 m12 m20 m21 m22]; tauto).
  split; [exact EE|]. split; [exact EE|]. constructor.
Qed.

(** ** C84: hexagonal and rhombohedral descriptions *)
Theorem C84_rhombohedral_parameters : forall a c L ar al, 0 < a -> 0 < c -> latticeVectors [a; c] "hexagonal" false = Ok L ->
  rhombohedralParametersFromHexagonal a c = (ar, al) -> has_shape (obverse (l_F L)) (V3 ar ar ar) (V3 al al al) /\ 0 < al < 2 * PI / 3.
Proof. exact rhomb_shape. Qed.
Print Assumptions C84_rhombohedral_parameters.
(** the lattice built from the rhombohedral parameters has the same shape, and a third of the volume *)
Theorem C84_rhombohedral_lattice : forall a c L ar al Lr, 0 < a -> 0 < c -> latticeVectors [a; c] "hexagonal" false = Ok L ->
  rhombohedralParametersFromHexagonal a c = (ar, al) -> latticeVectors [ar; al] "rhombohedral" true = Ok Lr ->
  mm (mt (l_F Lr)) (l_F Lr) = mm (mt (obverse (l_F L))) (obverse (l_F L)) /\ l_vol Lr = l_vol L / 3.
Proof.
  intros a c L ar al Lr A C E H ER. destruct (rhomb_shape a c L ar al A C E H) as [S AL].
  assert (AR : 0 < ar). { unfold rhombohedralParametersFromHexagonal in H. injection H as <- _. assert (0 < sqrt (3 * (a * a) + c * c)) by (apply sqrt_lt_R0; nra). lra. }
  assert (PP : parameters_of (angle_unit true) "rhombohedral" [ar; al] (V3 ar ar ar) (V3 (1 * al) (1 * al) (1 * al))) by constructor.
  assert (PC : possible_cell (V3 ar ar ar) (V3 (1 * al) (1 * al) (1 * al))). { apply (possible_types _ _ _ _ _ PP); cbn [vx vy vz]; auto; try discriminate. intros _. lra. }
  destruct (C43_direct_lattice _ _ _ _ _ PP PC) as (L' & E' & S' & _ & _ & _ & V' & VP' & _). rewrite ER in E'. injection E' as <-. replace (1 * al) with al in S' by ring.
  assert (G : mm (mt (l_F Lr)) (l_F Lr) = mm (mt (obverse (l_F L))) (obverse (l_F L))).
  { rewrite (shape_gram _ (Cell (V3 ar ar ar) (V3 al al al)) S), (shape_gram _ (Cell (V3 ar ar ar) (V3 al al al)) S'). reflexivity. }
  split; [exact G|].
  assert (PH : parameters_of (angle_unit false) "hexagonal" [a; c] (V3 a a c) (V3 (PI / 2) (PI / 2) (2 * PI / 3))) by constructor.
  assert (PCH : possible_cell (V3 a a c) (V3 (PI / 2) (PI / 2) (2 * PI / 3))). { apply (possible_types _ _ _ _ _ PH); cbn [vx vy vz]; auto; discriminate. }
  destruct (C43_direct_lattice _ _ _ _ _ PH PCH) as (L' & E' & _ & _ & _ & _ & V & VP & _). rewrite E in E'. injection E' as <-.
  assert (DT : forall M, dot (col0 M) (cross (col1 M) (col2 M)) = det M) by (intros [p q r s t u v w x]; lin_unfold; ring).
  rewrite DT in V, V'. apply (f_equal det) in G. rewrite !det_mm, !det_mt, <- V' in G.
  assert (DO : det (obverse (l_F L)) = det (l_F L) / 3). { generalize (l_F L). intros [p q r s t u v w x]. unfold obverse. lin_unfold. field. }
  rewrite DO, <- V in G. apply Rsqr_inj; unfold Rsqr; lra.
Qed.
Print Assumptions C84_rhombohedral_lattice.
Theorem C84_direction_to_cartesian : forall u v w a c L, 0 < a -> 0 < c -> latticeVectors [a; c] "hexagonal" false = Ok L ->
  convert_Miller_direction_to_cartesian (V3 u v w) a c false = mv (l_F L) (V3 (2 * u + v) (u + 2 * v) w) /\
  (10 / 2 ^ 52 < norm (mv (l_F L) (V3 (2 * u + v) (u + 2 * v) w)) ->
   convert_Miller_direction_to_cartesian (V3 u v w) a c true =
     vscale (/ norm (mv (l_F L) (V3 (2 * u + v) (u + 2 * v) w))) (mv (l_F L) (V3 (2 * u + v) (u + 2 * v) w))).
Proof.
  intros u v w a c L A C E. rewrite (hex_frame a c L A C E).
  assert (Q : convert_Miller_direction_to_cartesian (V3 u v w) a c false = mv (M3 a (- a / 2) 0 0 (sqrt 3 / 2 * a) 0 0 0 c) (V3 (2 * u + v) (u + 2 * v) w)).
  { unfold convert_Miller_direction_to_cartesian. generalize (sqrt 3). intros. lin_unfold. f_equal; field. }
  split; [exact Q|]. rewrite <- Q. change (convert_Miller_direction_to_cartesian (V3 u v w) a c true) with (unitVector (convert_Miller_direction_to_cartesian (V3 u v w) a c false)).
  generalize (convert_Miller_direction_to_cartesian (V3 u v w) a c false). intros y H. unfold unitVector, ten_epsf. destruct (Rle_dec (norm y) (10 / 2 ^ 52)); [lra|]. unfold vscale, Rdiv. f_equal; ring.
Qed.
Print Assumptions C84_direction_to_cartesian.
Example C84_example : exists L ar al, latticeVectors [3; 5] "hexagonal" false = Ok L /\ rhombohedralParametersFromHexagonal 3 5 = (ar, al) /\ ar = sqrt 52 / 3.
Proof. do 3 eexists. split; [reflexivity|]. split; [reflexivity|]. f_equal. f_equal. ring. Qed.
