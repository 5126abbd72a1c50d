(** Proofs about the unit cell geometry: changes of space, angles, cross products, rhombohedral cells. *)
From Coq Require Import Reals List String Lra Psatz.
From Verif Require Import Prelude Lin TensorModel LatModel LatSpec LatProofs LatCell.
Import ListNotations.
Local Open Scope R_scope.

Definition cell_ok (len deg : v3) (L : lattice) : Prop := well_formed len (radians_of deg) L /\ possible_cell len (radians_of deg).
Definition no_tiny (L : lattice) : Prop := entries not_tiny (l_F L) /\ entries not_tiny (l_B L).

Lemma vm_sym : forall v M, vm v (mm (mt M) M) = mv (mt M) (mv M v).
Proof. intros. unfold vm. rewrite mt_mm, mt_mt, mv_mm. reflexivity. Qed.
Lemma trans_space : forall len deg L s t v w, cell_ok len deg L -> (s = "c"%string \/ t = "c"%string -> no_tiny L) ->
  in_space (l_F L) (l_B L) s v w -> is_space t ->
  exists v', TransSpace (calcmatrices len deg) v s t = Ok v' /\ in_space (l_F L) (l_B L) t v' w.
Proof.
  intros len deg L s t v w [W P] NT I T. destruct (metric_facts len deg L W P) as (MD & MV & MR & MF & MB).
  pose proof (wf_dual _ _ _ W) as D. destruct (dual_other _ _ D) as (D1 & D2 & D3).
  assert (MF' : s = "c"%string \/ t = "c"%string -> u_dsm (calcmatrices len deg) = l_F L /\ u_rsm (calcmatrices len deg) = l_B L).
  { intros Q. destruct (NT Q) as [Q1 Q2]. rewrite MF, MB, !chop_all by assumption. split; reflexivity. }
  destruct I; destruct T as [->|[->| ->]]; unfold TransSpace; cbn [String.eqb Ascii.eqb Bool.eqb]; (eexists; split; [reflexivity|]); try constructor.
  - rewrite MD, vm_sym. replace (mv (l_F L) v) with (mv (l_B L) (mv (mt (l_F L)) (mv (l_F L) v))) at 2. { constructor. } rewrite <- (mv_mm (l_B L)), D2. apply mv_I.
  - destruct MF' as [-> _]; auto. constructor.
  - rewrite MR, vm_sym. replace (mv (l_B L) v) with (mv (l_F L) (mv (mt (l_B L)) (mv (l_B L) v))) at 2. { constructor. } rewrite <- (mv_mm (l_F L)), D1. apply mv_I.
  - destruct MF' as [_ ->]; auto. constructor.
  - destruct MF' as [_ ->]; auto. unfold vm. replace v with (mv (l_F L) (mv (mt (l_B L)) v)) at 2. { constructor. } rewrite <- mv_mm, D1. apply mv_I.
  - destruct MF' as [-> _]; auto. unfold vm. replace v with (mv (l_B L) (mv (mt (l_F L)) v)) at 2. { constructor. } rewrite <- mv_mm, D2. apply mv_I.
Qed.
Lemma trans_bad : forall u v s t, s <> t -> ~ (is_space s /\ is_space t) -> TransSpace u v s t = Err ValueError.
Proof.
  intros u v s t N B. unfold TransSpace. destruct (String.eqb_spec s t); [contradiction|].
  destruct (String.eqb_spec s "d"); [subst s; destruct (String.eqb_spec t "r"); [subst t; exfalso; apply B; unfold is_space; tauto|]; destruct (String.eqb_spec t "c"); [subst t; exfalso; apply B; unfold is_space; tauto|reflexivity]|].
  destruct (String.eqb_spec s "r"); [subst s; destruct (String.eqb_spec t "d"); [subst t; exfalso; apply B; unfold is_space; tauto|]; destruct (String.eqb_spec t "c"); [subst t; exfalso; apply B; unfold is_space; tauto|reflexivity]|].
  destruct (String.eqb_spec s "c"); [subst s; destruct (String.eqb_spec t "r"); [subst t; exfalso; apply B; unfold is_space; tauto|]; destruct (String.eqb_spec t "d"); [subst t; exfalso; apply B; unfold is_space; tauto|reflexivity]|].
  reflexivity.
Qed.
Lemma quad : forall M u v, dot u (mv (mm (mt M) M) v) = dot (mv M u) (mv M v).
Proof. intros. rewrite mv_mm. rewrite (mv_dot M u). reflexivity. Qed.
Lemma calc_dot : forall len deg L s v v' w w', cell_ok len deg L -> in_space (l_F L) (l_B L) s v w -> in_space (l_F L) (l_B L) s v' w' ->
  CalcDot (calcmatrices len deg) v v' s = Ok (dot w w').
Proof.
  intros len deg L s v v' w w' [W P] I I'. destruct (metric_facts len deg L W P) as (MD & MV & MR & _).
  destruct I; inversion I'; subst; unfold CalcDot; cbn [String.eqb Ascii.eqb Bool.eqb]; try rewrite MD; try rewrite MR; try rewrite quad; reflexivity.
Qed.
Lemma calc_length : forall len deg L s v w, cell_ok len deg L -> in_space (l_F L) (l_B L) s v w -> CalcLength (calcmatrices len deg) v s = Ok (norm w).
Proof.
  intros len deg L s v w [W P] I. destruct (metric_facts len deg L W P) as (MD & MV & MR & _).
  destruct I; unfold CalcLength; cbn [String.eqb Ascii.eqb Bool.eqb rbind]; try rewrite MD; try rewrite MR; try rewrite quad; try rewrite mv_I; reflexivity.
Qed.
Lemma space_scale : forall F B s v w k, in_space F B s v w -> in_space F B s (vscale k v) (vscale k w).
Proof. intros F B s v w k I. destruct I; try rewrite <- mv_scale; constructor. Qed.
Lemma norm_vec : forall len deg L s v w, cell_ok len deg L -> in_space (l_F L) (l_B L) s v w ->
  exists v', NormVec (calcmatrices len deg) v s = Ok v' /\ in_space (l_F L) (l_B L) s v' (vscale (/ norm w) w).
Proof. intros len deg L s v w C I. unfold NormVec. rewrite (calc_length _ _ _ _ _ _ C I). eexists. split; [reflexivity|]. now apply space_scale. Qed.
Lemma calc_angle : forall len deg L s v v' w w' t, cell_ok len deg L -> in_space (l_F L) (l_B L) s v w -> in_space (l_F L) (l_B L) s v' w' ->
  w <> vzero -> w' <> vzero -> angle_between w w' t ->
  CalcAngle (calcmatrices len deg) v v' s =
    Ok (if Rle_dec (Rabs (Rabs (cos t) - 1)) (/ 10 ^ 8 + / 10 ^ 5) then (if Rlt_dec 0 (cos t) then 0 else PI) else t).
Proof.
  intros len deg L s v v' w w' t C I I' Z Z' A. unfold CalcAngle. rewrite (calc_length _ _ _ _ _ _ C I), (calc_length _ _ _ _ _ _ C I'), (calc_dot _ _ _ _ _ _ _ _ C I I'). cbn [rbind].
  pose proof (norm_gt0 w Z) as N. pose proof (norm_gt0 w' Z') as N'. destruct A as [T A].
  assert (E : dot w w' / norm w / norm w' = cos t) by (rewrite A; field; lra). rewrite E. f_equal.
  destruct (Rle_dec (Rabs (Rabs (cos t) - 1)) (/ 10 ^ 8 + / 10 ^ 5)) as [L'|L'].
  - assert (NZ : cos t <> 0). { intros Q. rewrite Q, Rabs_R0 in L'. replace (0 - 1) with (-1) in L' by ring. rewrite Rabs_left in L' by lra. lra. }
    unfold sgn. destruct (Rlt_dec 0 (cos t)). { apply acos_1. } destruct (Rlt_dec (cos t) 0); [|lra]. replace (-1) with (- (1)) by ring. rewrite acos_opp, acos_1. ring.
  - apply acos_cos. exact T.
Qed.
Lemma cross_cof : forall F p q, mv (mt F) (cross (mv F p) (mv F q)) = vscale (det F) (cross p q).
Proof. intros [a b c d e f g h i] [p q r] [s t u]. lin_unfold. f_equal; ring. Qed.
Lemma cross_dual : forall F B p q, mm (mt F) B = mI -> cross (mv F p) (mv F q) = mv B (vscale (det F) (cross p q)).
Proof.
  intros F B p q D. destruct (dual_other _ _ D) as (D1 & D2 & D3).
  rewrite <- cross_cof, <- mv_mm, D2, mv_I. reflexivity.
Qed.
Lemma calc_cross_gen : forall len deg L s t v v' w w' (k : bool), cell_ok len deg L -> (s = "c"%string \/ t = "c"%string -> no_tiny L) ->
  in_space (l_F L) (l_B L) s v w -> in_space (l_F L) (l_B L) s v' w' -> is_space t ->
  exists r, CalcCross (calcmatrices len deg) v v' s t k = Ok r /\
    in_space (l_F L) (l_B L) t r (vscale (if k then 1 else if String.eqb s "d" then / l_vol L else if String.eqb s "r" then l_vol L else 1) (cross w w')).
Proof.
  intros len deg L s t v v' w w' k C NT I I' T. pose proof C as [W P]. destruct (metric_facts len deg L W P) as (_ & MV & _).
  destruct (wf_vol _ _ _ W) as [V VP]. pose proof (wf_dual _ _ _ W) as D. destruct (dual_other _ _ D) as (D1 & D2 & D3).
  assert (DB : det (l_B L) = / l_vol L). { apply (f_equal det) in D. rewrite det_mm, det_mt, <- V, det_I in D. apply Rmult_eq_reg_l with (l_vol L); [|lra]. rewrite D. field. lra. }
  unfold CalcCross. fold (cross v v').
  destruct I; inversion I'; subst; cbn [String.eqb Ascii.eqb Bool.eqb] in *.
  - (* d *)
    assert (J : in_space (l_F L) (l_B L) "r" (vscale (if k then u_vol (calcmatrices len deg) else 1) (cross v v')) (vscale (if k then 1 else / l_vol L) (cross (mv (l_F L) v) (mv (l_F L) v')))).
    { rewrite (cross_dual _ _ v v' D), <- mv_scale, <- V, MV. replace (vscale (if k then 1 else / l_vol L) (vscale (l_vol L) (cross v v'))) with (vscale (if k then l_vol L else 1) (cross v v')). { constructor. }
      destruct k; generalize (cross v v'); intros [x y z]; unfold vscale; cbn [vx vy vz]; f_equal; field; lra. }
    destruct T as [->|[->| ->]]; cbn [String.eqb Ascii.eqb Bool.eqb].
    + apply (trans_space len deg L "r" "d" _ _ C); auto. { intros [Q|Q]; discriminate. } left; reflexivity.
    + eexists. split; [reflexivity|]. exact J.
    + apply (trans_space len deg L "r" "c" _ _ C); auto. right; right; reflexivity.
  - (* r *)
    assert (J : in_space (l_F L) (l_B L) "d" (vscale (/ (if k then u_vol (calcmatrices len deg) else 1)) (cross v v')) (vscale (if k then 1 else l_vol L) (cross (mv (l_B L) v) (mv (l_B L) v')))).
    { rewrite (cross_dual _ _ v v' D3), <- mv_scale, DB, MV. replace (vscale (if k then 1 else l_vol L) (vscale (/ l_vol L) (cross v v'))) with (vscale (/ (if k then l_vol L else 1)) (cross v v')). { constructor. }
      destruct k; generalize (cross v v'); intros [x y z]; unfold vscale; cbn [vx vy vz]; f_equal; field; lra. }
    destruct T as [->|[->| ->]]; cbn [String.eqb Ascii.eqb Bool.eqb].
    + eexists. split; [reflexivity|]. exact J.
    + apply (trans_space len deg L "d" "r" _ _ C); auto. { intros [Q|Q]; discriminate. } right; left; reflexivity.
    + apply (trans_space len deg L "d" "c" _ _ C); auto. right; right; reflexivity.
  - (* c *)
    assert (J : in_space (l_F L) (l_B L) "c" (cross v w') (vscale (if k then 1 else 1) (cross v w'))).
    { replace (vscale (if k then 1 else 1) (cross v w')) with (cross v w'). { constructor. } destruct k; generalize (cross v w'); intros [x y z]; unfold vscale; cbn [vx vy vz]; f_equal; ring. }
    destruct T as [->|[->| ->]]; cbn [String.eqb Ascii.eqb Bool.eqb].
    + apply (trans_space len deg L "c" "d" _ _ C); auto. left; reflexivity.
    + apply (trans_space len deg L "c" "r" _ _ C); auto. right; left; reflexivity.
    + eexists. split; [reflexivity|]. exact J.
Qed.

(** ** simple conditions for the cell to exist *)
Lemma possible_types : forall (u : R) tag l len ang, parameters_of u tag l len ang ->
  0 < vx len -> 0 < vy len -> 0 < vz len ->
  (tag = "rhombohedral"%string -> 0 < vx ang < 2 * PI / 3) -> (tag = "monoclinic"%string -> 0 < vy ang < PI) -> tag <> "triclinic"%string ->
  possible_cell len ang.
Proof.
  intros u tag l len ang H A B C R M T. pose proof PI_RGT_0 as P.
  destruct H; cbn [vx vy vz] in *; unfold possible_cell; cbn [vx vy vz]; try (repeat split; lra).
  - destruct (R eq_refl). repeat split; lra.
  - destruct (M eq_refl). repeat split; lra.
  - contradiction.
Qed.
(** ** hexagonal and rhombohedral cells *)
Lemma hex_frame : forall a c L, 0 < a -> 0 < c -> latticeVectors [a; c] "hexagonal" false = Ok L ->
  l_F L = M3 a (- a / 2) 0 0 (sqrt 3 / 2 * a) 0 0 0 c.
Proof.
  intros a c L A C E. unfold latticeVectors, cellparms, parm in E. cbn [String.eqb Ascii.eqb Bool.eqb orb nth_error rbind] in E. injection E as <-.
  unfold lattice_of, cell_frame, cosineXform. cbn [l_F c_len c_ang vx vy vz].
  assert (S3 : sin (2 * PI / 3) = sqrt 3 / 2). { replace (2 * PI / 3) with (2 * (PI / 3)) by field. exact sin_2PI3. }
  assert (C3 : cos (2 * PI / 3) = - 1 / 2). { replace (2 * PI / 3) with (2 * (PI / 3)) by field. rewrite cos_2PI3. field. }
  rewrite S3, C3, cos_PI2, sin_PI2.
  replace ((0 * (-1 / 2) - 0) / (1 * (sqrt 3 / 2))) with 0. 2:{ assert (0 < sqrt 3) by (apply sqrt_lt_R0; lra). field. lra. }
  replace (1 - 0 * 0) with 1 by ring. rewrite sqrt_1. lin_unfold. f_equal; field.
Qed.
Lemma rhomb_shape : forall a c L ar al, 0 < a -> 0 < c -> latticeVectors [a; c] "hexagonal" false = Ok L ->
  rhombohedralParametersFromHexagonal a c = (ar, al) -> has_shape (obverse (l_F L)) (V3 ar ar ar) (V3 al al al) /\ 0 < al < 2 * PI / 3.
Proof.
  intros a c L ar al A C E H. rewrite (hex_frame a c L A C E). unfold rhombohedralParametersFromHexagonal in H. injection H as <- <-.
  set (q := 3 + c / a * (c / a)). assert (Q : q * (a * a) = 3 * (a * a) + c * c) by (unfold q; field; lra).
  assert (Q3 : 3 < q). { unfold q. assert (0 < c / a) by (apply Rdiv_lt_0_compat; assumption). assert (0 < c / a * (c / a)) by (apply Rmult_lt_0_compat; assumption). lra. }
  set (s := 3 / (2 * sqrt q)). assert (SQ : sqrt q * sqrt q = q) by (apply sqrt_sqrt; lra). assert (SP : 0 < sqrt q) by (apply sqrt_lt_R0; lra).
  assert (SS : s * s * (4 * q) = 9). { unfold s. clear s. set (r := sqrt q) in *. clearbody r. replace (4 * q) with (4 * (r * r)) by (rewrite SQ; reflexivity). field. lra. }
  assert (S0 : 0 < s) by (unfold s; apply Rdiv_lt_0_compat; lra).
  assert (S1 : s * s < 3 / 4). { apply Rmult_lt_reg_r with (4 * q); lra. }
  assert (S1' : s < 1) by nra.
  assert (SA : sin (asin s) = s) by (apply sin_asin; lra).
  assert (AB : 0 < asin s < PI / 3).
  { pose proof (asin_bound s) as B. pose proof PI_RGT_0. split.
    - destruct (Rlt_le_dec 0 (asin s)) as [|N]; auto. assert (sin (asin s) <= sin 0) by (apply sin_incr_1; lra). rewrite sin_0 in *. lra.
    - destruct (Rlt_le_dec (asin s) (PI / 3)) as [|N]; auto. assert (T : sin (PI / 3) <= sin (asin s)) by (apply sin_incr_1; lra). rewrite sin_PI3, SA in T.
      pose proof (sqrt_sqrt 3) as T3. assert (0 < sqrt 3) by (apply sqrt_lt_R0; lra). assert (sqrt 3 / 2 * (sqrt 3 / 2) <= s * s) by (apply Rmult_le_compat; lra). lra. }
  split; [|lra].
  assert (CA : cos (2 * asin s) = 1 - 2 * (s * s)). { rewrite cos_2a_sin, SA. ring. }
  set (n2 := 3 * (a * a) + c * c) in *. assert (N2 : 0 < n2) by (unfold n2; nra).
  assert (ND : sqrt n2 * sqrt n2 = n2) by (apply sqrt_sqrt; lra).
  assert (CA' : (n2 / 9) * cos (2 * asin s) = c * c / 9 - a * a / 6).
  { rewrite CA. assert (S9 : s * s * n2 = 9 / 4 * (a * a)). { rewrite <- Q. apply Rmult_eq_reg_l with 4; [|lra]. replace (4 * (s * s * (q * (a * a)))) with (s * s * (4 * q) * (a * a)) by ring. rewrite SS. field. }
    replace (n2 / 9 * (1 - 2 * (s * s))) with (n2 / 9 - 2 / 9 * (s * s * n2)) by field. rewrite S9. unfold n2. field. }
  pose proof (sqrt_sqrt 3) as T3. set (r3 := sqrt 3) in *. assert (T3' : r3 * r3 = 3) by (apply T3; lra). clearbody r3.
  assert (NP : 0 < sqrt n2 / 3). { assert (0 < sqrt n2) by (apply sqrt_lt_R0; lra). lra. }
  assert (NN : (sqrt n2 / 3) * (sqrt n2 / 3) = n2 / 9). { replace (sqrt n2 / 3 * (sqrt n2 / 3)) with (sqrt n2 * sqrt n2 / 9) by field. now rewrite ND. }
  apply (gram_shape _ (Cell (V3 (sqrt n2 / 3) (sqrt n2 / 3) (sqrt n2 / 3)) (V3 (2 * asin s) (2 * asin s) (2 * asin s)))); cbn [c_len c_ang vx vy vz]; try assumption; try lra.
  unfold gram, obverse. cbn [c_len c_ang vx vy vz]. rewrite NN, CA'. clear - T3'. lin_unfold. unfold n2.
  f_equal; match goal with |- ?l = ?r => replace r with (r + (r3 * r3 - 3) * 0) by ring end;
   match goal with |- ?l = _ => 
   let x := fresh in pose proof T3' as x; field_simplify; [| try lra ..] end.
  all: replace (r3 ^ 2) with 3 by (rewrite <- T3'; ring); try (field_simplify; lra); try field.
Qed.
