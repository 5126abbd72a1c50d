(** Proofs about the unit cell geometry: lattice planes, metric tensors, changes of space, rhombohedral cells. *)
From Coq Require Import Reals List String Lra Psatz.
From Verif Require Import Prelude Lin TensorModel LatModel LatSpec LatProofs.
Import ListNotations.
Local Open Scope R_scope.

Lemma wf_cstar : forall len ang L, well_formed len ang L -> exists z, 0 < z /\ col2 (l_B L) = V3 0 0 z.
Proof.
  intros len ang L W. pose proof (wf_a _ _ _ W) as A. destruct (wf_b _ _ _ W) as [B1 B2]. destruct (wf_vol _ _ _ W) as [V VP]. pose proof (wf_dual _ _ _ W) as D.
  destruct (wf_shape _ _ _ W) as (NA & _). rewrite V in VP. clear W V. destruct len as [la lb lc]. destruct (l_F L) as [p q r s t u v w x]. destruct (l_B L) as [p' q' r' s' t' u' v' w' x'].
  lin_unfold. injection A as -> -> ->. subst w. injection D as D00 D01 D02 D10 D11 D12 D20 D21 D22.
  assert (P0 : la <> 0). { intros E. rewrite E in VP. ring_simplify in VP. lra. }
  assert (R0 : r' = 0). { apply Rmult_eq_reg_l with (la); [|exact P0]. lra. }
  subst r'. assert (U0 : u' = 0). { apply Rmult_eq_reg_l with t; [|lra]. lra. }
  subst u'. exists x'. split; [|reflexivity].
  assert (XX : x * x' = 1) by lra. assert (VV : 0 < la * t * x) by lra.
  assert (LP : 0 < la). { assert (N := sqrt_pos (la * la + 0 * 0 + 0 * 0)). unfold norm in NA. lin_unfold. rewrite NA in N. lra. }
  assert (VT : 0 < la * t) by (apply Rmult_lt_0_compat; assumption).
  assert (X : 0 < x). { destruct (Rlt_le_dec 0 x) as [|N]; [assumption|]. assert (0 <= (la * t) * - x) by (apply Rmult_le_pos; lra). lra. }
  destruct (Rlt_le_dec 0 x') as [|N]; [assumption|]. assert (0 <= x * - x') by (apply Rmult_le_pos; lra). lra.
Qed.

(** ** planes *)
Lemma asin_half : forall s, 0 < s < 1 -> 0 < 2 * asin s < PI /\ sin (2 * asin s / 2) = s.
Proof.
  intros s S. replace (2 * asin s / 2) with (asin s) by lra. assert (E : sin (asin s) = s) by (apply sin_asin; lra). split; [|exact E].
  pose proof (asin_bound s) as B. pose proof PI_RGT_0.
  assert (A : 0 < asin s). { destruct (Rlt_le_dec 0 (asin s)) as [|N]; auto. assert (sin (asin s) <= sin 0) by (apply sin_incr_1; lra). rewrite sin_0 in *. lra. }
  assert (A' : asin s <> PI / 2). { intros Z. rewrite Z, sin_PI2 in E. lra. } lra.
Qed.
Lemma below_one_iff : forall x, 0 < x -> below_one x = true <-> x < 1.
Proof. intros x P. unfold below_one. rewrite Rabs_right by lra. destruct (Rlt_dec x 1); split; intros; auto; try discriminate; lra. Qed.
Lemma bragg_arg : forall wl d, 0 < wl -> 0 < d -> 0 < wl / 2 / d /\ (wl / 2 / d < 1 <-> wl < 2 * d) /\ (forall t, sin t = wl / 2 / d -> wl = 2 * d * sin t).
Proof.
  intros wl d W D. set (x := wl / 2 / d). assert (X : wl = 2 * d * x) by (unfold x; field; lra).
  assert (P : 0 < x). { destruct (Rlt_le_dec 0 x) as [|N]; auto. assert (0 <= d * - x) by (apply Rmult_le_pos; lra). lra. }
  split; [exact P|]. split.
  - split; intros H. + rewrite X. assert (0 < d * (1 - x)) by (apply Rmult_lt_0_compat; lra). lra.
    + destruct (Rlt_le_dec x 1) as [|N]; auto. assert (0 <= d * (x - 1)) by (apply Rmult_le_pos; lra). lra.
  - intros t E. rewrite E. exact X.
Qed.
Lemma tth_spec : forall wl d, 0 < wl -> 0 < d ->
  (wl < 2 * d -> below_one (wl / 2 / d) = true /\ bragg wl d (2 * asin (wl / 2 / d))) /\ (2 * d <= wl -> below_one (wl / 2 / d) = false).
Proof.
  intros wl d W D. destruct (bragg_arg wl d W D) as (P & I & Q). split; intros H.
  - assert (L : wl / 2 / d < 1) by tauto. split. { now apply below_one_iff. } destruct (asin_half _ (conj P L)) as [R S]. split; [exact R|]. apply Q. exact S.
  - destruct (below_one (wl / 2 / d)) eqn:E; auto. apply below_one_iff in E; auto. apply I in E. lra.
Qed.
Lemma bragg_mono : forall wl d d' t t', 0 < wl -> 0 < d -> d <= d' -> bragg wl d t -> bragg wl d' t' -> t' <= t.
Proof.
  intros wl d d' t t' W D LE [T E] [T' E'].
  destruct (Rle_dec t' t) as [|N]; auto. exfalso.
  assert (S : sin (t / 2) < sin (t' / 2)) by (apply sin_increasing_1; lra).
  assert (0 < sin (t / 2)) by (apply sin_gt_0; lra).
  assert (d * sin (t / 2) < d * sin (t' / 2)) by (apply Rmult_lt_compat_l; lra).
  assert (d * sin (t' / 2) <= d' * sin (t' / 2)) by (apply Rmult_le_compat_r; lra). lra.
Qed.
Lemma inj_mv : forall M, det M <> 0 -> forall v, mv M v = vzero -> v = vzero.
Proof. intros M D v E. rewrite <- (mv_I v), <- (minv_l M D), mv_mm, E. lin. Qed.
Lemma wf_detB : forall len ang L, well_formed len ang L -> det (l_B L) <> 0.
Proof. intros len ang L W E. pose proof (wf_dual _ _ _ W) as D. apply (f_equal det) in D. rewrite det_mm, E, det_I in D. lra. Qed.
Lemma wf_detF : forall len ang L, well_formed len ang L -> det (l_F L) <> 0.
Proof. intros len ang L W. destruct (wf_vol _ _ _ W) as [V P]. lra. Qed.
Lemma plane_geom : forall len ang L wl s hkl, well_formed len ang L -> hkl <> vzero ->
  let p := lattice_plane L wl s hkl in
  (exists n, plane_spacing (l_F L) hkl n (p_d p)) /\ (p_d p < / ten_epsf -> plane_spacing (l_F L) hkl (p_normal p) (p_d p)).
Proof.
  intros len ang L wl s hkl W H p. set (G := mv (l_B L) hkl).
  assert (E : p_d p = 1 / norm G /\ p_normal p = unitVector G) by (unfold p, lattice_plane; destruct s as [s|]; [|split; reflexivity]; destruct (below_one _ && below_one _)%bool; split; reflexivity).
  destruct E as [ED EN]. assert (GZ : G <> vzero). { intros E. apply H. apply (inj_mv (l_B L)); auto. eapply wf_detB; eauto. }
  pose proof (norm_gt0 G GZ) as NP. assert (DP : 0 < p_d p). { rewrite ED. apply Rdiv_lt_0_compat; lra. }
  assert (PS : plane_spacing (l_F L) hkl (vscale (/ norm G) G) (p_d p)).
  { split; [|split; [exact DP|]].
    - pose proof (norm_sq G) as Q. assert (I : norm2 (vscale (/ norm G) G) = / norm G * / norm G * norm2 G) by (destruct G; lin_unfold; ring). rewrite I, <- Q. field. lra.
    - intros uvw. rewrite ED. assert (I : dot (vscale (/ norm G) G) (mv (l_F L) uvw) = / norm G * dot G (mv (l_F L) uvw)) by (generalize (mv (l_F L) uvw); intros y; destruct G, y; lin_unfold; ring).
      rewrite I. unfold G. rewrite dot_comm, mv_dot, <- mv_mm, (wf_dual _ _ _ W), mv_I, dot_comm. unfold Rdiv. ring. }
  split; [eexists; exact PS|]. intros SM.
  assert (T : 0 < ten_epsf). { unfold ten_epsf. apply Rdiv_lt_0_compat. lra. apply pow_lt. lra. }
  assert (NE : p_normal p = vscale (/ norm G) G).
  { rewrite EN. unfold unitVector. destruct (Rle_dec (norm G) ten_epsf) as [LE|GT].
    - exfalso. rewrite ED in SM. unfold Rdiv in SM. rewrite Rmult_1_l in SM. apply (Rlt_irrefl (/ ten_epsf)). apply Rle_lt_trans with (/ norm G); [|exact SM]. apply Rinv_le_contravar; lra.
    - unfold vscale, Rdiv. f_equal; ring. }
  rewrite NE. exact PS.
Qed.
Lemma plane_tth : forall len ang L wl s hkl, well_formed len ang L -> hkl <> vzero -> 0 < wl ->
  let p := lattice_plane L wl s hkl in
  (wl < 2 * p_d p -> exists t, p_tth p = Some t /\ bragg wl (p_d p) t) /\ (2 * p_d p <= wl -> p_tth p = None).
Proof.
  intros len ang L wl s hkl W H WL p. destruct (plane_geom len ang L wl s hkl W H) as [[n (_ & D & _)] _]. fold p in D.
  assert (E : p_tth p = if below_one (wl / 2 / p_d p) then Some (2 * asin (wl / 2 / p_d p)) else None).
  { unfold p, lattice_plane. destruct s as [s|]; [|reflexivity]. destruct (below_one (wl / 2 / (1 / norm (mv (l_B L) hkl) * (1 + s))) && _)%bool; reflexivity. }
  destruct (tth_spec wl (p_d p) WL D) as [A B]. rewrite E. split; intros C.
  - destruct (A C) as [-> Q]. eexists. split; [reflexivity|exact Q].
  - now rewrite (B C).
Qed.
Lemma plane_strain : forall len ang L wl e hkl, well_formed len ang L -> hkl <> vzero -> 0 < wl -> 0 <= e < 1 ->
  let p := lattice_plane L wl (Some e) hkl in
  (wl < 2 * (p_d p * (1 - e)) -> exists lo t hi, p_lo p = Some lo /\ p_tth p = Some t /\ p_hi p = Some hi /\
     bragg wl (p_d p * (1 + e)) lo /\ bragg wl (p_d p) t /\ bragg wl (p_d p * (1 - e)) hi /\ lo <= t <= hi) /\
  (2 * (p_d p * (1 - e)) <= wl -> p_lo p = None /\ p_hi p = None).
Proof.
  intros len ang L wl e hkl W H WL EB p. destruct (plane_geom len ang L wl (Some e) hkl W H) as [[n (_ & D & _)] _]. fold p in D.
  pose proof (plane_tth len ang L wl (Some e) hkl W H WL) as T. cbv zeta in T. fold p in T.
  set (d := p_d p) in *.
  assert (E : (p_lo p, p_hi p) = if (below_one (wl / 2 / (d * (1 + e))) && below_one (wl / 2 / (d * (1 - e))))%bool
     then (Some (2 * asin (wl / 2 / (d * (1 + e)))), Some (2 * asin (wl / 2 / (d * (1 - e))))) else (None, None)).
  { assert (ED : d = 1 / norm (mv (l_B L) hkl)) by (unfold d, p, lattice_plane; destruct (below_one _ && below_one _)%bool; reflexivity).
    rewrite ED. unfold p, lattice_plane.
    destruct (below_one (wl / 2 / (1 / norm (mv (l_B L) hkl) * (1 + e))) && below_one (wl / 2 / (1 / norm (mv (l_B L) hkl) * (1 - e))))%bool; reflexivity. }
  clearbody d. assert (DM : 0 < d * (1 - e)) by (apply Rmult_lt_0_compat; lra). assert (DPL : 0 < d * (1 + e)) by (apply Rmult_lt_0_compat; lra).
  assert (DE : 0 <= d * e) by (apply Rmult_le_pos; lra).
  destruct (tth_spec wl _ WL DPL) as [A1 B1]. destruct (tth_spec wl _ WL DM) as [A2 B2]. split; intros C.
  - destruct A1 as [X1 Y1]. { lra. } destruct (A2 C) as [X2 Y2]. rewrite X1, X2 in E. cbn [andb] in E. injection E as E1 E2.
    destruct T as [T0 _]. assert (TL : wl < 2 * d) by lra. destruct (T0 TL) as (t & T1 & T2). exists (2 * asin (wl / 2 / (d * (1 + e)))), t, (2 * asin (wl / 2 / (d * (1 - e)))).
    repeat (split; [assumption|]).
    split; [apply (bragg_mono wl d (d * (1 + e))); auto; lra|apply (bragg_mono wl (d * (1 - e)) d); auto; lra].
  - rewrite (B2 C), Bool.andb_false_r in E. injection E as E1 E2. split; assumption.
Qed.

Lemma chop_id : forall x, not_tiny x -> chop x = x.
Proof. intros x [->|H]; unfold chop, uc_eps; destruct (Rlt_dec _ _) as [L|L]; auto. exfalso. exact (Rlt_irrefl _ (Rlt_le_trans _ _ _ L H)). Qed.
Lemma chop_all : forall a, entries not_tiny a -> mmap chop a = a.
Proof. intros [a b c d e f g h i] (A & B & C & D & E & F & G & H & I). unfold mmap. cbn [m00 m01 m02 m10 m11 m12 m20 m21 m22] in *. rewrite !chop_id by assumption. reflexivity. Qed.

Lemma minv_unique : forall M N, det M <> 0 -> mm M N = mI -> minv M = N.
Proof. intros M N D E. rewrite <- (mm_I_r (minv M)), <- E, mm_assoc, minv_l, mm_I_l; auto. Qed.
Lemma dual_other : forall F B, mm (mt F) B = mI -> mm F (mt B) = mI /\ mm B (mt F) = mI /\ mm (mt B) F = mI.
Proof.
  intros F B E. assert (D : det (mt F) <> 0). { intros Z. apply (f_equal det) in E. rewrite det_mm, Z, det_I in E. lra. }
  assert (X : mm B (mt F) = mI) by (rewrite <- (minv_unique _ _ D E); now apply minv_l).
  split; [|split; [exact X|]]. - apply (f_equal mt) in X. rewrite mt_mm, mt_mt, mt_I in X. exact X.
  - apply (f_equal mt) in E. rewrite mt_mm, mt_mt, mt_I in E. exact E.
Qed.
Lemma metric_facts : forall len deg L, well_formed len (radians_of deg) L -> possible_cell len (radians_of deg) -> let u := calcmatrices len deg in
  u_dmt u = mm (mt (l_F L)) (l_F L) /\ u_vol u = l_vol L /\ u_rmt u = mm (mt (l_B L)) (l_B L) /\
  u_dsm u = mmap chop (l_F L) /\ u_rsm u = mmap chop (l_B L).
Proof.
  intros len deg L W P u. pose proof (wf_shape _ _ _ W) as S. pose proof (shape_gram (l_F L) (Cell len (radians_of deg)) S) as G.
  destruct (wf_vol _ _ _ W) as [V VP]. pose proof (wf_dual _ _ _ W) as D. pose proof (wf_a _ _ _ W) as FA. destruct (wf_b _ _ _ W) as [FB1 FB2].
  assert (DM : u_dmt u = mm (mt (l_F L)) (l_F L)).
  { rewrite G. unfold u, calcmatrices, gram, radians_of. cbn [u_dmt c_len c_ang]. destruct len as [a b c], deg as [al be ga]. lin_unfold. rewrite !(Rmult_comm (PI / 180)). reflexivity. }
  assert (VV : u_vol u = l_vol L).
  { unfold u, calcmatrices. cbn [u_vol]. change (sqrt (det (u_dmt u)) = l_vol L). rewrite DM, det_mm, det_mt, <- V. apply sqrt_square. lra. }
  assert (RM : u_rmt u = mm (mt (l_B L)) (l_B L)).
  { change (minv (u_dmt u) = mm (mt (l_B L)) (l_B L)). destruct (dual_other _ _ D) as (D1 & D2 & D3). apply minv_unique.
    - rewrite DM, det_mm, det_mt, <- V. apply Rgt_not_eq. apply Rmult_lt_0_compat; assumption.
    - rewrite DM, <- mm_assoc, (mm_assoc (l_F L)), D1, mm_I_l. exact D. }
  split; [exact DM|]. split; [exact VV|]. split; [exact RM|].
  (* the raw structure matrices *)
  assert (DF : u_dsm u = mmap chop (dsm_raw (vx len) (vy len) (vz len) (cos (vx deg * (PI / 180))) (cos (vy deg * (PI / 180))) (cos (vz deg * (PI / 180))) (sin (vz deg * (PI / 180))) (u_vol u))) by reflexivity.
  assert (DR : u_rsm u = mmap chop (rsm_raw (vx len) (vy len) (vz len) (cos (vx deg * (PI / 180))) (cos (vy deg * (PI / 180))) (cos (vz deg * (PI / 180))) (sin (vz deg * (PI / 180))) (u_vol u))) by reflexivity.
  rewrite DF, DR, VV. clear DF DR.
  destruct (possible_good _ _ P) as (LA & LB & LC & SB & SG & GG). cbn [c_len c_ang] in *.
  unfold gram in G. cbn [c_len c_ang] in G. clear DM VV RM u S W P.
  assert (AX : vx (radians_of deg) = vx deg * (PI / 180) /\ vy (radians_of deg) = vy deg * (PI / 180) /\ vz (radians_of deg) = vz deg * (PI / 180)) by (destruct deg as [d1 d2 d3]; cbn [radians_of vscale vx vy vz]; repeat split; ring).
  destruct AX as (AX & AY & AZ). rewrite AX, AY, AZ in *. clear AX AY AZ.
  pose proof (sin2_1 (vz deg * (PI / 180))) as S2.
  set (ca := cos (vx deg * (PI / 180))) in *. set (cb := cos (vy deg * (PI / 180))) in *. set (cg := cos (vz deg * (PI / 180))) in *. set (sg := sin (vz deg * (PI / 180))) in *.
  clearbody ca cb cg sg. destruct len as [a b c]. cbn [vx vy vz] in *. rewrite V in *. clear V SB GG deg.
  destruct (l_F L) as [f00 f01 f02 f10 f11 f12 f20 f21 f22]. destruct (l_B L) as [b00 b01 b02 b10 b11 b12 b20 b21 b22].
  lin_unfold. injection FA as -> -> ->. subst f21. injection G as G00 G01 G02 G10 G11 G12 G20 G21 G22.
  assert (E01 : f01 = b * cg). { apply Rmult_eq_reg_l with a; lra. }
  assert (E02 : f02 = c * cb). { apply Rmult_eq_reg_l with a; lra. }
  subst f01 f02.
  assert (E11 : f11 = b * sg).
  { assert (Q : f11 * f11 = (b * sg) * (b * sg)). { replace ((b * sg) * (b * sg)) with (b * b * (sg * sg)) by ring. rewrite S2. lra. }
    assert (0 < b * sg) by (apply Rmult_lt_0_compat; assumption). apply Rsqr_inj; unfold Rsqr; lra. }
  subst f11.
  assert (E12 : f12 = - c * (cb * cg - ca) / sg).
  { apply Rmult_eq_reg_l with (b * sg); [|lra]. replace (b * sg * (- c * (cb * cg - ca) / sg)) with (b * c * ca - b * cg * (c * cb)) by (field; lra). lra. }
  assert (BSG : b * sg <> 0) by lra.
  set (vol := a * (b * sg * f22 - f12 * 0) + b * cg * (f12 * 0 - 0 * f22) + c * cb * (0 * 0 - b * sg * 0)) in *.
  assert (EV : vol = a * (b * sg) * f22) by (unfold vol; ring).
  assert (E22 : f22 = vol / (a * b * sg)) by (rewrite EV; field; repeat split; lra).
  assert (F22 : f22 <> 0). { intros Z. rewrite Z in EV. lra. }
  split.
  - f_equal. unfold dsm_raw. rewrite <- E12, <- E22. reflexivity.
  - clearbody vol. injection D as D00 D01 D02 D10 D11 D12 D20 D21 D22.
    assert (B00 : b00 = 1 / a). { apply Rmult_eq_reg_l with a; [|lra]. replace (a * (1 / a)) with 1 by (field; lra). lra. }
    assert (B01 : b01 = 0). { apply Rmult_eq_reg_l with a; lra. }
    assert (B02 : b02 = 0). { apply Rmult_eq_reg_l with a; lra. }
    assert (B10 : b10 = - cg / (a * sg)).
    { apply Rmult_eq_reg_l with (b * sg); [|lra]. replace (b * sg * (- cg / (a * sg))) with (- (b * cg * (1 / a))) by (field; lra). rewrite <- B00. lra. }
    assert (B11 : b11 = 1 / (b * sg)). { apply Rmult_eq_reg_l with (b * sg); [|lra]. replace (b * sg * (1 / (b * sg))) with 1 by (field; split; lra). rewrite B01 in D11. lra. }
    assert (B12 : b12 = 0). { apply Rmult_eq_reg_l with (b * sg); [|lra]. rewrite B02 in D12. lra. }
    assert (SGN : sg <> 0) by lra.
    assert (B20 : b20 = b * c * (cg * ca - cb) / (vol * sg)).
    { apply Rmult_eq_reg_l with f22; [|exact F22]. rewrite EV. replace (f22 * (b * c * (cg * ca - cb) / (a * (b * sg) * f22 * sg))) with (c * (cg * ca - cb) / (a * (sg * sg))) by (field; repeat split; lra).
      assert (Q : f22 * b20 = - (c * cb * b00 + f12 * b10)) by lra. rewrite Q, B00, B10, E12. 
      replace (- (c * cb * (1 / a) + - c * (cb * cg - ca) / sg * (- cg / (a * sg)))) with (- (c * (cb * (sg * sg) + (cb * cg - ca) * cg) / (a * (sg * sg)))) by (field; repeat split; lra).
      rewrite S2. assert (1 - cg * cg <> 0). { rewrite <- S2. apply Rgt_not_eq. apply Rmult_lt_0_compat; assumption. } field. split; lra. }
    assert (B21 : b21 = a * c * (cb * cg - ca) / (vol * sg)).
    { apply Rmult_eq_reg_l with f22; [|exact F22]. rewrite EV. replace (f22 * (a * c * (cb * cg - ca) / (a * (b * sg) * f22 * sg))) with (c * (cb * cg - ca) / (b * (sg * sg))) by (field; repeat split; lra).
      assert (Q : f22 * b21 = - (f12 * b11)) by (rewrite B01 in D21; lra). rewrite Q, B11, E12. field. repeat split; lra. }
    assert (B22 : b22 = a * b * sg / vol).
    { apply Rmult_eq_reg_l with f22; [|exact F22]. rewrite EV. replace (f22 * (a * b * sg / (a * (b * sg) * f22))) with 1 by (field; repeat split; lra). rewrite B02, B12 in D22. lra. }
    f_equal. unfold rsm_raw. rewrite <- B20, <- B21, <- B22, <- B00, <- B11, B01, B02, B12. f_equal.
    rewrite B10. destruct (Req_EM_T cg 0) as [Z|NZ]. { rewrite Z. field. split; lra. } field. repeat split; lra.
Qed.
