(** Proofs about oscill_angles_of_hkls. *)
From Coq Require Import Reals Lra Psatz ZArith Lia.
From Verif Require Import Prelude Lin RotSpec RigModel XfModel XfSpec XfTrig XfMats.
Local Open Scope R_scope.

Definition tensor_of (s : sym6) : m3 := tensor6 (s0 s) (s1 s) (s2 s) (s3 s) (s4 s) (s5 s).
Lemma apply_tensor : forall s g, apply_sym6 s g = mv (tensor_of s) g.
Proof.
  intros [a b c d e f] [x y z]. assert (S : sqrt 2 <> 0) by (pose proof (sqrt_lt_R0 2); lra).
  unfold apply_sym6, tensor_of, tensor6. lin_unfold. cbn [s0 s1 s2 s3 s4 s5]. f_equal; field; assumption.
Qed.
Lemma tensor_default : tensor_of v_inv_default = mI.
Proof. unfold tensor_of, v_inv_default, tensor6, mI. cbn [s0 s1 s2 s3 s4 s5]. f_equal; unfold Rdiv; ring. Qed.
Lemma norm_rot : forall r v, rotation r -> norm (mv r v) = norm v.
Proof. intros r v [O _]. unfold norm, norm2. now rewrite (orth_dot r v v O). Qed.
Lemma osc_g : forall hkl rc bm wl v, rotation rc -> let G := mv (tensor_of v) (mv rc (mv bm hkl)) in c_epsf < norm G ->
  osc_gvec hkl rc bm wl v = (direction G, / 2 * wl * norm G).
Proof.
  intros hkl rc bm wl v R G N. unfold osc_gvec. rewrite apply_tensor. fold G. rewrite (norm_rot _ _ (rot_mt _ R)).
  destruct (Rlt_dec c_epsf (norm G)); [|contradiction]. f_equal. unfold direction. generalize (norm G). intros n. destruct G as [gx gy gz]. unfold vscale. cbn [vx vy vz]. f_equal; unfold Rdiv; ring.
Qed.
(** the Laue condition on the beam component *)
Lemma laue_iff : forall wl b g, 0 < wl -> b <> vzero -> (diffracts wl b g <-> dot (direction b) g = - (/ 2 * wl * norm2 g)).
Proof.
  intros wl b g W NB. pose proof (direction_unit b NB) as U. unfold diffracts, wave_out, wave. set (d := direction b) in *. clearbody d.
  assert (E : norm2 (vadd (vscale (/ wl) d) g) = norm2 (vscale (/ wl) d) + (2 / wl * dot d g + norm2 g)).
  { generalize (/ wl) (2 / wl) (eq_refl : 2 / wl = 2 * / wl). intros k k2 ->. destruct d, g. lin_unfold. ring. }
  assert (P : 0 < / wl) by (now apply Rinv_0_lt_compat). split; intros H.
  - assert (K : norm2 (vadd (vscale (/ wl) d) g) = norm2 (vscale (/ wl) d)). { rewrite <- !norm_sq, H. ring. }
    assert (Z : 2 / wl * dot d g = - norm2 g) by lra. apply Rmult_eq_reg_l with (2 / wl). 2: { apply Rgt_not_eq. unfold Rdiv. lra. } rewrite Z. field. lra.
  - unfold norm. f_equal. rewrite E, H. replace (2 / wl * - (/ 2 * wl * norm2 g)) with (- norm2 g) by (field; lra). ring.
Qed.
Lemma scale_dir : forall g, g <> vzero -> vscale (norm g) (direction g) = g.
Proof. intros g H. pose proof (norm_gt0 g H). unfold direction. destruct g as [x y z]. unfold vscale. cbn [vx vy vz]. f_equal; field; lra. Qed.
Lemma laue_unit : forall wl b g r, 0 < wl -> b <> vzero -> g <> vzero -> rotation r ->
  (diffracts wl b (mv r g) <-> dot (direction b) (mv r (direction g)) = - (/ 2 * wl * norm g)).
Proof.
  intros wl b g r W NB NG R. rewrite (laue_iff wl b _ W NB). pose proof (norm_gt0 g NG) as P.
  assert (N : norm2 (mv r g) = norm g * norm g). { rewrite norm_sq. unfold norm2. now rewrite (orth_dot r g g (proj1 R)). }
  rewrite N. rewrite <- (scale_dir g NG) at 1. rewrite mv_scale. replace (dot (direction b) (vscale (norm g) (mv r (direction g)))) with (norm g * dot (direction b) (mv r (direction g))).
  2: { generalize (direction b) (mv r (direction g)) (norm g). intros [] [] k. lin_unfold. ring. }
  split; intros H.
  - apply Rmult_eq_reg_l with (norm g); [|lra]. rewrite H. ring.
  - rewrite H. ring.
Qed.
(** the harmonic form *)
Lemma harmonic_form : forall b g chi ome,
  dot b (mv (make_sample_rmat chi ome) g) =
  (vz g * vx b + sin chi * vx g * vy b - cos chi * vx g * vz b) * sin ome + (vx g * vx b - sin chi * vz g * vy b + cos chi * vz g * vz b) * cos ome
  + (cos chi * vy g * vy b + sin chi * vy g * vz b).
Proof. intros [] [] chi ome. unfold make_sample_rmat. lin_unfold. ring. Qed.
Lemma same_shift : forall x p y, same_dir_angle (x + p) y <-> same_dir_angle x (y - p).
Proof. intros x p y. split; intros [k K]; exists k; lra. Qed.

Definition ring_out (o : oresult) (chi wl : R) (beam G : v3) : Prop :=
  match o with
  | Solutions p q => forall w, diffracts wl beam (mv (sample_turn chi w) G) <-> same_dir_angle w (o_ome p) \/ same_dir_angle w (o_ome q)
  | NoSolution => forall w, ~ diffracts wl beam (mv (sample_turn chi w) G)
  | Degenerate => forall w w', dot beam (mv (sample_turn chi w) G) = dot beam (mv (sample_turn chi w') G)
  end.
Lemma osc_omega : forall chi rc bm wl v beam eta hkl, 0 < wl -> rotation rc -> c_epsf < norm beam ->
  c_epsf < norm (mv (tensor_of v) (mv rc (mv bm hkl))) ->
  ring_out (oscill_angles_of_hkl chi rc bm wl v beam eta hkl) chi wl beam (mv (tensor_of v) (mv rc (mv bm hkl))).
Proof.
  intros chi rc bm wl v beam eta hkl W R NB NG. unfold oscill_angles_of_hkl. rewrite (osc_g hkl rc bm wl v R NG). rewrite (guarded_big beam NB).
  set (G := mv (tensor_of v) (mv rc (mv bm hkl))) in *. clearbody G. pose proof (big_nonzero _ NB) as B0. pose proof (big_nonzero _ NG) as G0.
  set (bh := direction beam) in *. set (g := direction G) in *.
  set (a := vz g * vx bh + sin chi * vx g * vy bh - cos chi * vx g * vz bh). set (b := vx g * vx bh - sin chi * vz g * vy bh + cos chi * vz g * vz bh).
  set (c := - (/ 2 * wl * norm G) - cos chi * vy g * vy bh - sin chi * vy g * vz bh).
  assert (K : forall w, diffracts wl beam (mv (sample_turn chi w) G) <-> a * sin w + b * cos w = c).
  { intros w. unfold sample_turn. rewrite <- sample_eq. rewrite (laue_unit wl beam G _ W B0 G0 (sample_rot chi w)). fold bh. fold g. rewrite harmonic_form. fold a. fold b. unfold c. lra. }
  destruct (Req_EM_T (sqrt (a * a + b * b)) 0) as [Z|Z].
  - cbn [ring_out]. intros w w'. assert (A0 : a = 0 /\ b = 0). { apply sqrt_eq_0 in Z; [|nra]. split; nra. } destruct A0 as [A0 B1].
    unfold sample_turn. rewrite <- !sample_eq. rewrite <- (scale_dir beam B0), <- (scale_dir G G0), !mv_scale. fold bh. fold g.
    assert (L : forall u, dot (vscale (norm beam) bh) (vscale (norm G) u) = norm beam * norm G * dot bh u). { intros u. generalize (norm beam) (norm G) bh. intros k m []. destruct u. lin_unfold. ring. }
    rewrite !L, !harmonic_form. fold a. fold b. rewrite A0, B1. ring.
  - destruct (Rlt_dec 1 (Rabs (c / sqrt (a * a + b * b)))) as [L|L].
    + cbn [ring_out]. intros w D. apply K in D. apply harmonic in D; [|assumption]. rewrite <- D in L. pose proof (SIN_bound (w + atan2 b a)). apply Rgt_not_le in L. apply L. apply Rabs_le. lra.
    + assert (B : -1 <= c / sqrt (a * a + b * b) <= 1). { assert (Rabs (c / sqrt (a * a + b * b)) <= 1) by lra. pose proof (Rle_abs (c / sqrt (a * a + b * b))). pose proof (Rle_abs (- (c / sqrt (a * a + b * b)))). rewrite Rabs_Ropp in *. lra. }
      assert (Q : forall w, diffracts wl beam (mv (sample_turn chi w) G) <->
        same_dir_angle w (asin (c / sqrt (a * a + b * b)) - atan2 b a) \/ same_dir_angle w (PI - asin (c / sqrt (a * a + b * b)) - atan2 b a)).
      { intros w. rewrite K, (harmonic a b c w Z), (sin_solutions _ _ B), !same_shift. reflexivity. }
      destruct (Rlt_dec (Rabs (dot bh (guarded_unit eta))) (1 - c_sqrt_epsf)); exact Q.
Qed.
(** ** two theta and eta *)
Lemma osc_values : forall chi rc bm wl v beam eta hkl p q, rotation rc -> c_epsf < norm beam -> c_epsf < norm eta -> c_epsf < norm (mv (tensor_of v) (mv rc (mv bm hkl))) ->
  oscill_angles_of_hkl chi rc bm wl v beam eta hkl = Solutions p q ->
  (Rabs (dot (direction beam) (direction eta)) < 1 - c_sqrt_epsf /\ forall o, o = p \/ o = q ->
     o_tth o = Some (2 * asin (/ 2 * wl * norm (mv (tensor_of v) (mv rc (mv bm hkl))))) /\
     o_eta o = osc_eta (direction beam) (direction eta) (direction (mv (tensor_of v) (mv rc (mv bm hkl)))) chi (o_ome o)) \/
  (1 - c_sqrt_epsf <= Rabs (dot (direction beam) (direction eta)) /\ forall o, o = p \/ o = q -> o_tth o = None /\ o_eta o = None).
Proof.
  intros chi rc bm wl v beam eta hkl p q R NB NE NG H. unfold oscill_angles_of_hkl in H. rewrite (osc_g hkl rc bm wl v R NG) in H. rewrite (guarded_big beam NB), (guarded_big eta NE) in H.
  set (G := mv (tensor_of v) (mv rc (mv bm hkl))) in *. clearbody G. destruct (Req_EM_T _ 0); [discriminate|]. destruct (Rlt_dec 1 _); [discriminate|].
  destruct (Rlt_dec (Rabs (dot (direction beam) (direction eta))) (1 - c_sqrt_epsf)) as [L|L]; injection H as <- <-; [left|right]; (split; [lra|]); intros o [->| ->]; split; reflexivity.
Qed.
Lemma scattered_of : forall r u wl, 0 < wl -> rotation r -> unit u -> forall th, 0 <= sin th <= 1 -> - (PI / 2) <= th <= PI / 2 ->
  vz (mv (mt r) u) = sin th ->
  vadd (vscale (/ wl) (mv r (V3 0 0 (-1)))) (vscale (2 * sin th / wl) u) =
  vscale (/ wl) (scattered r (2 * th) (atan2 (vy (mv (mt r) u)) (vx (mv (mt r) u)))).
Proof.
  intros r u wl W R U th Sb Tb Z. set (w := mv (mt r) u) in *. assert (E : u = mv r w). { unfold w. rewrite <- mv_mm, (orth_both r (proj1 R)). now rewrite mv_I. }
  assert (UW : unit w). { unfold unit, w, norm2. rewrite (orth_dot (mt r) u u (orth_mt r (proj1 R))). exact U. }
  rewrite E. unfold scattered. clearbody w. clear E U u. rewrite <- !mv_scale, <- mv_add. f_equal.
  destruct w as [x y z]. cbn [vx vy vz] in *. subst z. unfold unit, norm2, dot in UW. cbn [vx vy vz] in UW.
  assert (C0 : 0 <= cos th) by (apply cos_ge_0; lra). pose proof (sin2_cos2 th) as T. unfold Rsqr in T.
  assert (XY : x * x + y * y = cos th * cos th) by lra.
  assert (P : cos th * cos (atan2 y x) = x /\ cos th * sin (atan2 y x) = y).
  { destruct (Req_dec (cos th) 0) as [Q|Q].
    - rewrite Q in *. assert (x = 0) by nra. assert (y = 0) by nra. subst. split; ring.
    - destruct (atan2_polar x y) as [A B]. { destruct (Req_dec x 0) as [->|]; [|now left]. right. intros ->. nra. } rewrite A, B, XY, (sqrt_square _ C0). split; field; assumption. }
  destruct P as [PX PY]. generalize dependent (atan2 y x). intros h PX PY. unfold vadd, vscale. cbn [vx vy vz]. rewrite sin_2a, cos_2a_sin. rewrite <- PX, <- PY. f_equal; field; lra.
Qed.
Lemma osc_directions : forall chi rc bm wl v beam eta hkl p q r, 0 < wl -> rotation rc -> c_epsf < norm beam -> c_epsf < norm eta ->
  let G := mv (tensor_of v) (mv rc (mv bm hkl)) in c_epsf < norm G ->
  Rabs (dot (direction beam) (direction eta)) < 1 - c_sqrt_epsf -> beam_frame beam eta r ->
  oscill_angles_of_hkl chi rc bm wl v beam eta hkl = Solutions p q ->
  forall o, o = p \/ o = q -> exists t h, o_tth o = Some t /\ o_eta o = Some h /\ 0 <= t <= PI /\ - PI < h <= PI /\
    t = 2 * asin (wl * norm G / 2) /\
    wave_out wl beam (mv (sample_turn chi (o_ome o)) G) = vscale (/ wl) (scattered r t h).
Proof.
  intros chi rc bm wl v beam eta hkl p q r W R NB NE G NG CR FR H o O. fold G in NG |- *.
  pose proof (osc_omega chi rc bm wl v beam eta hkl W R NB NG) as OM. rewrite H in OM. cbn [ring_out] in OM. fold G in OM.
  destruct (osc_values _ _ _ _ _ _ _ _ _ _ R NB NE NG H) as [[_ V]|[C _]]; [|lra]. destruct (V o O) as [VT VE]. clear V. fold G in VT, VE.
  assert (D : diffracts wl beam (mv (sample_turn chi (o_ome o)) G)). { apply OM. destruct O as [->| ->]; [left|right]; exists 0%Z; ring. }
  pose proof (big_nonzero _ NB) as B0. pose proof (big_nonzero _ NG) as G0. pose proof (big_nonzero _ NE) as E0. clearbody G. clear OM H.
  (* the frame computed inside *)
  assert (UB : unit (direction beam)) by (now apply direction_unit). assert (UE : unit (direction eta)) by (now apply direction_unit).
  destruct (beam_total (direction beam) (direction eta)) as [r' ER].
  { now apply unit_big. }
  { assert (L : norm2 (cross (direction eta) (direction beam)) = 1 - dot (direction beam) (direction eta) * dot (direction beam) (direction eta)).
    { replace (norm2 (cross (direction eta) (direction beam))) with (norm2 (direction eta) * norm2 (direction beam) - dot (direction beam) (direction eta) * dot (direction beam) (direction eta))
        by (generalize (direction eta) (direction beam); intros [] []; lin_unfold; ring). rewrite UB, UE. ring. }
    pose proof sqrt_epsf_small as SS. pose proof epsf_small as SE. set (x := dot (direction beam) (direction eta)) in *. pose proof (Rabs_pos x).
    assert (XX : x * x = Rabs x * Rabs x). { rewrite <- Rabs_mult. symmetry. apply Rabs_right. nra. }
    assert (SQ : c_epsf * c_epsf < c_sqrt_epsf). { assert (c_epsf < c_sqrt_epsf). { unfold c_epsf, c_sqrt_epsf. apply Rlt_trans with (/ 2 ^ 30). { apply Rinv_lt_contravar. { apply Rmult_lt_0_compat; apply pow_lt; lra. } apply Rlt_pow; [lra|]. repeat constructor. } lra. } nra. }
    assert (c_sqrt_epsf < 1 - x * x). { rewrite XX. set (m := Rabs x) in *. assert (m * m <= (1 - c_sqrt_epsf) * (1 - c_sqrt_epsf)) by nra. nra. }
    unfold norm. rewrite L. rewrite <- (sqrt_square c_epsf) by lra. apply sqrt_lt_1_alt. split; [nra|lra]. }
  pose proof (beam_lemma _ _ _ ER) as FR'. assert (r' = r).
  { apply (frame_unique (direction beam) (direction eta)); auto. { intros Z. rewrite Z in UB. unfold unit in UB. lin_unfold. lra. }
    destruct FR as (F1 & F2 & F3 & F4). split; [assumption|]. split. { rewrite F2. symmetry. now apply direction_of_unit. }
    unfold direction. rewrite mv_scale. assert (0 < / norm eta) by (apply Rinv_0_lt_compat; now apply norm_gt0). unfold vscale. cbn [vx vy]. split; [nra|]. rewrite F4. ring. }
  subst r'. clear FR'. unfold osc_eta in VE. rewrite ER in VE. clear ER.
  set (m := make_sample_rmat chi (o_ome o)) in *. unfold sample_turn in D |- *. rewrite <- sample_eq in D |- *. fold m in D |- *. assert (RM : rotation m) by apply sample_rot.
  pose proof D as D1. apply (laue_unit wl beam G m W B0 G0 RM) in D1. destruct FR as (FR & FB & _).
  set (th := asin (/ 2 * wl * norm G)) in *. pose proof (norm_gt0 G G0) as PG.
  assert (UG : unit (mv m (direction G))). { unfold unit, norm2. rewrite (orth_dot m _ _ (proj1 RM)). now apply direction_unit. }
  assert (SB : 0 <= / 2 * wl * norm G <= 1).
  { split; [nra|]. pose proof (cauchy (direction beam) (mv m (direction G))) as CS. rewrite UB, UG, D1 in CS. assert (0 < / 2 * wl * norm G) by nra. nra. }
  assert (ST : sin th = / 2 * wl * norm G) by (apply sin_asin; lra). pose proof (asin_bound (/ 2 * wl * norm G)) as AB. fold th in AB.
  exists (2 * th), (atan2 (vy (mv (mt r) (mv m (direction G)))) (vx (mv (mt r) (mv m (direction G))))).
  split; [exact VT|]. split; [exact VE|]. split. { assert (0 <= th). { destruct (Rle_dec 0 th); auto. exfalso. assert (sin th < 0) by (apply sin_lt_0_var; pose proof PI_RGT_0; lra). lra. } lra. }
  split; [apply atan2_range|]. split. { unfold th. f_equal. f_equal. field. }
  rewrite <- (scattered_of r (mv m (direction G)) wl W FR UG th); [|lra|lra|].
  - unfold wave_out, wave. rewrite FB. f_equal. rewrite ST. replace (2 * (/ 2 * wl * norm G) / wl) with (norm G) by (field; lra). rewrite <- mv_scale, (scale_dir G G0). reflexivity.
  - rewrite ST. rewrite <- FB in D1. clear - D1. replace (dot (mv r (V3 0 0 (-1))) (mv m (direction G))) with (- vz (mv (mt r) (mv m (direction G)))) in D1; [lra|].
    generalize (mv m (direction G)). intros []. destruct r. lin_unfold. ring.
Qed.
Lemma osc_collinear : forall chi rc bm wl v beam eta hkl p q, rotation rc -> c_epsf < norm beam -> c_epsf < norm eta -> c_epsf < norm (mv (tensor_of v) (mv rc (mv bm hkl))) ->
  oscill_angles_of_hkl chi rc bm wl v beam eta hkl = Solutions p q -> 1 - c_sqrt_epsf <= Rabs (dot (direction beam) (direction eta)) ->
  o_tth p = None /\ o_eta p = None /\ o_tth q = None /\ o_eta q = None.
Proof.
  intros. destruct (osc_values _ _ _ _ _ _ _ _ _ _ H H0 H1 H2 H3) as [[C _]|[_ V]]; [lra|]. destruct (V p (or_introl eq_refl)). destruct (V q (or_intror eq_refl)). auto.
Qed.
