(** Round trips between detector points, directions and angles; findings. *)
From Coq Require Import Reals Lra Psatz ZArith Lia List.
From Verif Require Import Prelude Lin RotSpec RigModel XfModel XfSpec XfTrig XfMats XfOsc XfRay.
Import ListNotations.
Local Open Scope R_scope.

Lemma meets_dir : forall rd td o d x y, unit d -> meets rd td o d x y -> direction (vsub (lab_point rd td x y) o) = d /\ vsub (lab_point rd td x y) o <> vzero.
Proof.
  intros rd td o d x y U (s & P & E). rewrite E. replace (vsub (vadd o (vscale s d)) o) with (vscale s d) by (destruct o, d; lin_unfold; f_equal; ring).
  split. - rewrite direction_scale; [|assumption|now apply unit_nonzero]. now apply direction_of_unit.
  - intros Z. apply (unit_nonzero d U). apply norm2_zero. assert (N : norm2 (vscale s d) = 0) by (rewrite Z; lin_unfold; ring). replace (norm2 (vscale s d)) with (s * s * norm2 d) in N by (destruct d; lin_unfold; ring). pose proof U as U2. unfold unit in U2. rewrite U2 in *. nra.
Qed.
Lemma meets_back : forall rd td o x y, vsub (lab_point rd td x y) o <> vzero -> meets rd td o (direction (vsub (lab_point rd td x y) o)) x y.
Proof.
  intros rd td o x y N. exists (norm (vsub (lab_point rd td x y) o)). split; [now apply norm_gt0|]. rewrite (scale_dir _ N). generalize (lab_point rd td x y). intros []. destruct o. lin_unfold. f_equal; ring.
Qed.
Lemma meets_unique : forall rd td o d x y x' y', rotation rd -> dot (col2 rd) d <> 0 -> meets rd td o d x y -> meets rd td o d x' y' -> x' = x /\ y' = y.
Proof.
  intros rd td o d x y x' y' R N M M'. apply meets_iff in M as (s & P & S1 & -> & ->); auto. apply meets_iff in M' as (s' & P' & S1' & -> & ->); auto.
  assert (E : s = s'). { apply Rmult_eq_reg_r with (dot (col2 rd) d); auto. lra. } subst s'. now split.
Qed.
Lemma not_collinear : forall b g, unit b -> unit g -> -1 < dot b g < 0 -> cross b (mirrored g b) <> vzero.
Proof.
  intros b g UB UG D Z. assert (N : norm2 (cross b (mirrored g b)) = 4 * (dot b g * dot b g) * (norm2 b * norm2 g - dot b g * dot b g)).
  { unfold mirrored. generalize (dot b g) at 1 2 3. intros k. destruct b as [b0 b1 b2], g as [x y z]. unfold norm2, dot, cross, vsub, vscale. cbn [vx vy vz]. ring. }
  rewrite Z in N. unfold unit in *. rewrite UB, UG in N. replace (norm2 vzero) with 0 in N by (lin_unfold; ring).
  set (k := dot b g) in *. assert (0 < k * k) by nra. assert (0 < 1 * 1 - k * k) by nra. assert (0 < 4 * (k * k) * (1 * 1 - k * k)) by (apply Rmult_lt_0_compat; lra). lra.
Qed.
(** G vector to point and back *)
Lemma g_xy_g : forall rd rs rc rb td ts tc g x y, rotation rd -> rotation rs -> rotation rc -> rotation rb -> unit g ->
  let b := vneg (col2 rb) in let gl := mv rs (mv rc g) in -1 < dot b gl < 0 -> used_beam b = b ->
  ray_result rd rs rc td ts tc b g (XY x y) -> c_epsf < norm2 (vsub (lab_point rd td x y) (vadd ts (mv rs tc))) ->
  exists h, xy_to_gvec [(x, y)] rd rs td ts tc (Some rb) = [(2 * asin (- dot b gl), Some h, Some gl)] /\ - PI < h <= PI /\
    scattered rb (2 * asin (- dot b gl)) h = mirrored gl b.
Proof.
  intros rd rs rc rb td ts tc g x y RD RS RC RB U b gl D UBM RR FAR. destruct (frame_cols rb RB) as (FE & UB & DB). fold b in FE, UB, DB.
  assert (UG : unit gl) by (apply rot_unit, rot_unit; assumption).
  apply (ray_xy rd rs rc td ts tc b g _ RD RS RC (unit_nonzero _ UB) U) with (x := x) (y := y) in RR. destruct RR as [RR _]. destruct (RR eq_refl) as [M _]. clear RR. rewrite UBM in M. fold gl in M.
  destruct (meets_dir _ _ _ _ _ _ (mirrored_unit gl b UG UB) M) as [DD NZ].
  destruct (xy_lemma rd rs td ts tc b (col0 rb) rb x y (unit_big _ UB) FE FAR) as (t & h & og & E & T & H & SC & G & _). rewrite DD, DB in *.
  destruct (G (not_collinear b gl UB UG D)) as (g' & -> & HW). assert (g' = gl). { apply (half_way_unique b (mirrored gl b)); auto. split; [assumption|]. split; [reflexivity|apply D]. } subst g'.
  assert (TT : t = 2 * asin (- dot b gl)).
  { assert (BB : b = mv rb (V3 0 0 (-1))) by (unfold b; destruct rb; lin_unfold; f_equal; ring). assert (CT : dot b (scattered rb t h) = cos t). { rewrite BB. unfold scattered. rewrite (orth_dot rb _ _ (proj1 RB)). lin_unfold. ring. }
    rewrite SC in CT. assert (CM : dot b (mirrored gl b) = 1 - 2 * (dot b gl * dot b gl)).
    { unfold mirrored. replace (dot b (vsub b (vscale (2 * dot b gl) gl))) with (norm2 b - 2 * (dot b gl * dot b gl)) by (destruct b, gl; lin_unfold; ring). unfold unit in UB. now rewrite UB. }
    set (k := dot b gl) in *. pose proof (asin_bound (- k)) as AB. assert (SA : sin (asin (- k)) = - k) by (apply sin_asin; lra).
    assert (A0 : 0 < asin (- k)). { destruct (Rlt_dec 0 (asin (- k))); auto. exfalso. assert (sin (asin (- k)) <= 0); [|lra]. destruct (Req_dec (asin (- k)) 0) as [Z|Z]; [rewrite Z, sin_0; lra|]. left. apply sin_lt_0_var; pose proof PI_RGT_0; lra. }
    rewrite <- (acos_cos t) by assumption. rewrite <- CT, CM. rewrite <- (acos_cos (2 * asin (- k))) by lra. f_equal. rewrite cos_2a_sin, SA. ring. }
  exists h. rewrite <- TT. split; [|now split]. unfold xy_to_gvec. cbn [map]. fold b. now rewrite E.
Qed.
(** point to G vector and back *)
Lemma xy_g_xy : forall rd rs rc rb td ts tc x y vm bm, rotation rd -> rotation rs -> rotation rc -> rotation rb ->
  let b := vneg (col2 rb) in let d := vsub (lab_point rd td x y) (vadd ts (mv rs tc)) in used_beam b = b ->
  c_epsf < norm2 d -> cross b d <> vzero -> dot (col2 rd) d <> 0 ->
  exists t h gl, xy_to_gvec [(x, y)] rd rs td ts tc (Some rb) = [(t, Some h, Some gl)] /\ half_way b (direction d) gl /\ scattered rb t h = direction d /\
    gvec_to_xy [mv (mt rc) (mv (mt rs) gl)] rd (OneRmat rs) rc td ts tc (Some b) vm bm = Ok [XY x y].
Proof.
  intros rd rs rc rb td ts tc x y vm bm RD RS RC RB b d UBM FAR NC NP. destruct (frame_cols rb RB) as (FE & UB & DB). fold b in FE, UB, DB.
  assert (NZ : d <> vzero). { intros Z. rewrite Z in FAR. pose proof epsf_small. lin_unfold. lra. } pose proof (norm_gt0 d NZ) as PD.
  destruct (xy_lemma rd rs td ts tc b (col0 rb) rb x y (unit_big _ UB) FE FAR) as (t & h & og & E & T & H & SC & G & _). fold d in SC, G. rewrite DB in G.
  assert (NC' : cross b (direction d) <> vzero). { intros Z. apply NC. replace (cross b d) with (vscale (norm d) (cross b (direction d))). { rewrite Z. lin_unfold. f_equal; ring. } rewrite <- (scale_dir d NZ) at 3. generalize (direction d) (norm d). intros [] k. destruct b. lin_unfold. f_equal; ring. }
  destruct (G NC') as (gl & -> & HW). exists t, h, gl. split. { unfold xy_to_gvec. cbn [map]. fold b. now rewrite E. } split; [assumption|]. split; [assumption|].
  destruct (gvec_one_lemma [mv (mt rc) (mv (mt rs) gl)] rd rs rc td ts tc b vm bm (unit_big _ UB)) as (out & -> & F). inversion F as [|? o ? ? R1 R2]; subst. inversion R2; subst. f_equal. f_equal.
  assert (U1 : unit (mv (mt rc) (mv (mt rs) gl))). { apply rot_unit; [now apply rot_mt|]. apply rot_unit; [now apply rot_mt|]. apply HW. }
  apply (ray_xy rd rs rc td ts tc b _ _ RD RS RC (unit_nonzero _ UB) U1 R1). rewrite (rot_back rc) by assumption. rewrite (rot_back rs) by assumption. rewrite UBM. destruct HW as (_ & -> & _).
  pose proof (meets_back rd td (vadd ts (mv rs tc)) x y NZ) as M. fold d in M. split; [assumption|].
  assert (DN : dot (col2 rd) (direction d) <> 0). { rewrite dir_dot_r. intros Z. apply Rmult_integral in Z as [Z|Z]; [|contradiction]. pose proof (Rinv_0_lt_compat _ PD). lra. }
  intros x' y' M'. apply (meets_unique _ _ _ _ _ _ _ _ RD DN M M').
Qed.
(** ** flat detectors *)
Lemma acos_turn : forall chi w, 0 <= chi <= PI -> 0 <= w <= PI -> acos (m11 (sample_turn chi w)) = chi /\ acos (m00 (sample_turn chi w)) = w.
Proof. intros chi w C W. unfold sample_turn. rewrite <- sample_eq. cbn [make_sample_rmat m11 m00]. split; now apply acos_cos. Qed.
Lemma cart_ray : forall p chi w ts tc te r, rotation (f_rmat p) -> c_epsf < norm (f_bvec p) -> beam_frame (f_bvec p) (f_evec p) r -> used_beam (f_bvec p) = direction (f_bvec p) ->
  0 <= chi <= PI -> 0 <= w <= PI ->
  exists out, angles_to_cart p (sample_turn chi w) mI ts tc te = Ok out /\
    Forall2 (fun a o => o = project (f_rmat p) (f_tvec p) (vadd ts (mv (sample_turn chi w) tc)) (scattered r (fst a) (snd a))) te out.
Proof.
  intros p chi w ts tc te r RD NB F UB C W. unfold angles_to_cart. destruct (acos_turn chi w C W) as [-> ->].
  destruct (gvec_one_lemma (map (fun t => angles_to_gvec (f_bvec p) (f_evec p) chi mI (fst t) (snd t) w) te) (f_rmat p) (sample_turn chi w) mI (f_tvec p) ts tc (f_bvec p) None None NB) as (out & E & FF).
  exists out. split; [exact E|]. clear E. remember (map _ te) as gs eqn:G. revert te G. induction FF as [|g o gs out H1 H2 IH]; intros te G; destruct te as [|[t h] te]; try discriminate; constructor.
  - injection G as G _. unfold ray_result in H1. rewrite H1, UB. f_equal. subst g. apply (proj2 (proj2 (gvec_lemma (f_bvec p) (f_evec p) chi mI t h w r (big_nonzero _ NB) F rot_I))).
  - apply IH. now injection G as _ G.
Qed.
Lemma scattered_unit : forall r t h, rotation r -> unit (scattered r t h).
Proof.
  intros r t h R. unfold scattered. apply rot_unit; auto. unfold unit. lin_unfold. pose proof (sin2_cos2 t) as S. pose proof (sin2_cos2 h) as S'. unfold Rsqr in *.
  transitivity (sin t * sin t * (sin h * sin h + cos h * cos h) + cos t * cos t); [ring|]. rewrite S'. lra.
Qed.
Lemma flat_frame : forall p r, make_beam_rmat (f_bvec p) (f_evec p) = Ok r -> c_epsf < norm (f_bvec p) /\ beam_frame (f_bvec p) (f_evec p) r /\ rotation r /\ direction (f_bvec p) = vneg (col2 r).
Proof.
  intros p r H. pose proof (beam_lemma _ _ _ H) as F. pose proof (proj1 (beam_ok _ _ _ H)) as NB. split; [assumption|]. split; [assumption|]. destruct F as (R & FB & _). split; [assumption|]. rewrite <- FB. destruct r. lin_unfold. f_equal; ring.
Qed.
Lemma cart_angles_one : forall p r rs ts tc x y, make_beam_rmat (f_bvec p) (f_evec p) = Ok r ->
  let d := vsub (lab_point (f_rmat p) (f_tvec p) x y) (vadd ts (mv rs tc)) in c_epsf < norm2 d ->
  exists t h og, cart_to_angles p rs ts tc [(x, y)] = Ok [(t, Some h, og)] /\ 0 <= t <= PI /\ - PI < h <= PI /\ scattered r t h = direction d.
Proof.
  intros p r rs ts tc x y E d FAR. destruct (flat_frame p r E) as (NB & F & R & DB). destruct (frame_cols r R) as (FE & UB & DC).
  destruct (xy_lemma (f_rmat p) rs (f_tvec p) ts tc (vneg (col2 r)) (col0 r) r x y (unit_big _ UB) FE FAR) as (t & h & og & EQ & T & H & SC & _). exists t, h, og. split; [|now split].
  unfold cart_to_angles. rewrite E. cbn [rbind]. unfold xy_to_gvec. cbn [map]. now rewrite EQ.
Qed.
Lemma angles_cart_angles : forall p r chi w ts tc t h x y, rotation (f_rmat p) -> make_beam_rmat (f_bvec p) (f_evec p) = Ok r -> used_beam (f_bvec p) = direction (f_bvec p) ->
  0 <= chi <= PI -> 0 <= w <= PI -> 0 < t < PI -> - PI < h <= PI ->
  angles_to_cart p (sample_turn chi w) mI ts tc [(t, h)] = Ok [XY x y] ->
  c_epsf < norm2 (vsub (lab_point (f_rmat p) (f_tvec p) x y) (vadd ts (mv (sample_turn chi w) tc))) ->
  exists og, cart_to_angles p (sample_turn chi w) ts tc [(x, y)] = Ok [(t, Some h, og)].
Proof.
  intros p r chi w ts tc t h x y RD E UB C W T H EQ FAR. destruct (flat_frame p r E) as (NB & F & R & DB). destruct (cart_ray p chi w ts tc [(t, h)] r RD NB F UB C W) as (out & EQ' & FF).
  rewrite EQ in EQ'. injection EQ' as <-. inversion FF as [|? ? ? ? R1 _]; subst. cbn [fst snd] in R1. symmetry in R1. apply project_xy in R1; [|assumption|apply unit_nonzero; now apply scattered_unit]. destruct R1 as [M _].
  destruct (meets_dir _ _ _ _ _ _ (scattered_unit r t h R) M) as [DD _].
  destruct (cart_angles_one p r (sample_turn chi w) ts tc x y E FAR) as (t' & h' & og & Q & T' & H' & SC). rewrite DD in SC.
  destruct (scattered_inj r t h t' h' R T H T' H' (eq_sym SC)) as [-> ->]. now exists og.
Qed.
Lemma cart_angles_cart : forall p r chi w ts tc x y, rotation (f_rmat p) -> make_beam_rmat (f_bvec p) (f_evec p) = Ok r -> used_beam (f_bvec p) = direction (f_bvec p) ->
  0 <= chi <= PI -> 0 <= w <= PI -> let d := vsub (lab_point (f_rmat p) (f_tvec p) x y) (vadd ts (mv (sample_turn chi w) tc)) in
  c_epsf < norm2 d -> dot (col2 (f_rmat p)) d <> 0 ->
  exists t h og, cart_to_angles p (sample_turn chi w) ts tc [(x, y)] = Ok [(t, Some h, og)] /\ angles_to_cart p (sample_turn chi w) mI ts tc [(t, h)] = Ok [XY x y].
Proof.
  intros p r chi w ts tc x y RD E UB C W d FAR NP. destruct (flat_frame p r E) as (NB & F & R & DB).
  destruct (cart_angles_one p r (sample_turn chi w) ts tc x y E FAR) as (t & h & og & Q & T & H & SC). exists t, h, og. split; [assumption|].
  destruct (cart_ray p chi w ts tc [(t, h)] r RD NB F UB C W) as (out & -> & FF). inversion FF as [|? o ? ? R1 R2]; subst. inversion R2; subst. cbn [fst snd]. f_equal. f_equal.
  fold d in SC. rewrite SC. assert (NZ : d <> vzero). { intros Z. rewrite Z in FAR. pose proof epsf_small. lin_unfold. lra. } pose proof (norm_gt0 d NZ) as PD.
  apply project_xy; auto. { apply unit_nonzero. now apply direction_unit. } pose proof (meets_back _ _ _ _ _ NZ) as M. fold d in M. split; [assumption|].
  assert (DN : dot (col2 (f_rmat p)) (direction d) <> 0). { rewrite dir_dot_r. intros Z. apply Rmult_integral in Z as [Z|Z]; [|contradiction]. pose proof (Rinv_0_lt_compat _ PD). lra. }
  intros x' y' M'. apply (meets_unique _ _ _ _ _ _ _ _ RD DN M M').
Qed.
(** ** where the beam meets the panel *)
Lemma beam_pos : forall p x y, rotation (f_rmat p) -> beam_position p = Some (x, y) -> exists u, lab_point (f_rmat p) (f_tvec p) x y = vscale u (f_bvec p).
Proof.
  intros p x y R H. unfold beam_position in H. cbv zeta in H. destruct (Rlt_dec _ (Rabs _)); [|discriminate]. destruct (Rlt_dec _ 0) as [L|]; [|discriminate].
  set (n := col2 (f_rmat p)) in *. set (u := dot n (f_tvec p) / dot (f_bvec p) n) in *. exists u. apply plane_coords; auto.
  assert (V : forall v, mv (mt (f_rmat p)) v = V3 (dot (col0 (f_rmat p)) v) (dot (col1 (f_rmat p)) v) (dot (col2 (f_rmat p)) v)). { intros v. destruct (f_rmat p), v. lin_unfold. f_equal; ring. }
  rewrite V in H. cbn [vx vy] in H. injection H as X Y. split; [|split; congruence]. fold n. replace (dot n (vsub (vscale u (f_bvec p)) (f_tvec p))) with (u * dot (f_bvec p) n - dot n (f_tvec p)) by (generalize (f_tvec p) (f_bvec p) n u; intros [] [] [] ?; lin_unfold; ring).
  unfold u. field. lra.
Qed.
Lemma beam_pos_ray : forall p x y, rotation (f_rmat p) -> dot (col2 (f_rmat p)) (f_tvec p) < 0 -> dot (f_bvec p) (col2 (f_rmat p)) < - sqrt c_epsf ->
  (beam_position p = Some (x, y) <-> meets_only (f_rmat p) (f_tvec p) vzero (f_bvec p) x y).
Proof.
  intros p x y R T B. assert (B0 : 0 <= sqrt c_epsf) by apply sqrt_pos. set (n := col2 (f_rmat p)) in *.
  assert (UQ : forall x' y' x'' y'', meets (f_rmat p) (f_tvec p) vzero (f_bvec p) x' y' -> meets (f_rmat p) (f_tvec p) vzero (f_bvec p) x'' y'' -> x' = x'' /\ y' = y'').
  { intros x' y' x'' y'' M M'. apply (meets_unique _ _ _ _ _ _ _ _ R) with (1 := ltac:(rewrite dot_comm; fold n; lra) : dot (col2 (f_rmat p)) (f_bvec p) <> 0) (2 := M') (3 := M). }
  assert (SM : exists x0 y0, beam_position p = Some (x0, y0)). { unfold beam_position. cbv zeta. fold n. destruct (Rlt_dec _ (Rabs _)) as [|K]. 2: { elim K. rewrite Rabs_left; lra. } destruct (Rlt_dec _ 0); [|lra]. eexists _, _. reflexivity. }
  destruct SM as (x0 & y0 & E0). assert (M0 : meets (f_rmat p) (f_tvec p) vzero (f_bvec p) x0 y0).
  { destruct (beam_pos p x0 y0 R E0) as (u & E). exists u. assert (E' : lab_point (f_rmat p) (f_tvec p) x0 y0 = vadd vzero (vscale u (f_bvec p))). { rewrite E. generalize (vscale u (f_bvec p)). intros []. lin_unfold. f_equal; ring. } split; [|assumption].
    apply plane_coords in E; auto. destruct E as [E _]. fold n in E. replace (dot n (vsub (vscale u (f_bvec p)) (f_tvec p))) with (u * dot (f_bvec p) n - dot n (f_tvec p)) in E by (generalize (f_tvec p) (f_bvec p) n u; intros [] [] [] ?; lin_unfold; ring). nra. }
  split.
  - intros H. rewrite E0 in H. injection H as <- <-. split; [assumption|]. intros x' y' M. now apply UQ.
  - intros [M _]. destruct (UQ _ _ _ _ M0 M) as [-> ->]. assumption.
Qed.
Lemma beam_pos_upstream : exists p x y, rotation (f_rmat p) /\ beam_position p = Some (x, y) /\ forall x' y', ~ meets (f_rmat p) (f_tvec p) vzero (f_bvec p) x' y'.
Proof.
  exists (Flat mI (V3 0 0 1) (V3 0 0 (-1)) (V3 1 0 0)), 0, 0. split; [apply rot_I|]. split.
  - unfold beam_position. cbn [f_rmat f_tvec f_bvec]. cbv zeta. lin_unfold. replace (0 * 0 + 0 * 0 + -1 * 1) with (-1) by ring. destruct (Rlt_dec (sqrt c_epsf) (Rabs (-1))) as [|K].
    + destruct (Rlt_dec (-1) 0); [|lra]. f_equal. f_equal; field.
    + elim K. rewrite Rabs_left by lra. pose proof epsf_small. replace (- (-1)) with (sqrt 1) by (rewrite sqrt_1; ring). apply sqrt_lt_1_alt. lra.
  - intros x' y' (s & P & E). cbn [f_rmat f_tvec f_bvec] in E. unfold lab_point in E. lin_unfold. injection E as _ _ E. lra.
Qed.
(** ** findings *)
Lemma angles_to_cart_negative : exists p r ts tc t h chi w x y, rotation (f_rmat p) /\ beam_frame (f_bvec p) (f_evec p) r /\ 0 < t < PI /\
  meets_only (f_rmat p) (f_tvec p) (vadd ts (mv (sample_turn chi w) tc)) (scattered r t h) x y /\ angles_to_cart p (sample_turn chi w) mI ts tc [(t, h)] = Ok [NaNs].
Proof.
  set (p := Flat mI (V3 0 0 (-1)) (V3 0 0 (-1)) (V3 1 0 0)). set (t := PI / 4). pose proof PI_RGT_0 as PP.
  assert (C4 : 0 < cos t) by (apply cos_gt_0; unfold t; lra).
  assert (F : beam_frame (V3 0 0 (-1)) (V3 1 0 0) mI).
  { split; [apply rot_I|]. assert (U : unit (V3 0 0 (-1))) by (unfold unit; lin_unfold; ring). rewrite (direction_of_unit _ U). split; [apply mv_I|]. rewrite mt_I, mv_I. cbn [vx vy]. lra. }
  exists p, mI, vzero, vzero, t, 0, 0, (- (PI / 4)), (sin t / cos t), 0. cbn [p f_rmat f_tvec f_bvec f_evec]. split; [apply rot_I|]. split; [assumption|]. split; [unfold t; lra|].
  assert (O : vadd vzero (mv (sample_turn 0 (- (PI / 4))) vzero) = vzero). { unfold sample_turn, rot_x, rot_y. lin_unfold. f_equal; ring. }
  split.
  - apply project_xy; [apply rot_I|apply unit_nonzero, scattered_unit, rot_I|]. rewrite O. unfold project, scattered. rewrite mv_I, cos_0, sin_0. cbv zeta. lin_unfold.
    destruct (Req_EM_T _ 0) as [Z|Z]; [lra|]. assert (Q : forall z, (z = -1 / cos t * -1)%R -> True) by trivial. clear Q.
    match goal with |- context [Rlt_dec ?a 0] => assert (L : a = - (1 / cos t)) by (field; lra); rewrite L end. assert (0 < 1 / cos t) by (apply Rdiv_lt_0_compat; lra). destruct (Rlt_dec _ 0); [|lra]. f_equal; field; lra.
  - unfold angles_to_cart. cbn [f_rmat f_tvec f_bvec f_evec].
    assert (A : acos (m11 (sample_turn 0 (- (PI / 4)))) = 0 /\ acos (m00 (sample_turn 0 (- (PI / 4)))) = PI / 4).
    { unfold sample_turn. rewrite <- sample_eq. cbn [make_sample_rmat m11 m00]. rewrite cos_neg. split; apply acos_cos; lra. } destruct A as [-> ->].
    assert (NB : c_epsf < norm (V3 0 0 (-1))). { apply unit_big. unfold unit. lin_unfold. ring. }
    edestruct gvec_one_lemma as (out & EQ & FF); [exact NB|]. cbn [map] in *. rewrite EQ. inversion FF as [|? o ? ? R1 R2]; subst. inversion R2; subst. f_equal. f_equal. unfold ray_result in R1. rewrite R1. clear FF R1 R2 EQ. cbn [fst snd].
    unfold angles_to_gvec. rewrite (angles_vec true (V3 0 0 (-1)) (V3 1 0 0) 0 mI t 0 (PI / 4) mI (big_nonzero _ NB) F). rewrite mt_I, !mv_I, O.
    assert (UB : used_beam (V3 0 0 (-1)) = V3 0 0 (-1)). { assert (U : unit (V3 0 0 (-1))) by (unfold unit; lin_unfold; ring). rewrite used_exact; [now apply direction_of_unit|now apply big_nonzero|]. left. now apply direction_of_unit. } rewrite UB.
    change (t * / 2) with (t / 2). set (u := t / 2). assert (GL : mv (sample_turn 0 (- (PI / 4))) (mv (mt (sample_turn 0 (PI / 4))) (V3 (cos u * cos 0) (cos u * sin 0) (sin u))) = V3 (- sin u) 0 (cos u)).
    { unfold sample_turn, rot_x, rot_y. rewrite cos_neg, sin_neg, cos_0, sin_0, cos_PI4, sin_PI4. assert (S2 : / sqrt 2 * / sqrt 2 = / 2) by (rewrite <- Rinv_mult, sqrt_sqrt; lra).
      unfold Rdiv. rewrite !Rmult_1_l. lin_unfold. set (q := / sqrt 2) in *. clearbody q. f_equal; ring [S2] || (transitivity (q * q * 2 * cos u); [ring|rewrite S2; field]) || (transitivity (- (q * q * 2 * sin u)); [ring|rewrite S2; field]). }
    rewrite GL. assert (CT : cos t = 2 * (cos u * cos u) - 1). { replace t with (2 * u) by (unfold u; field). rewrite cos_2a_cos. ring. }
    try change (f_rmat p) with mI. try change (f_tvec p) with (V3 0 0 (-1)). unfold project. cbv zeta. unfold mirrored. lin_unfold. set (c := cos u) in *. set (s := sin u) in *. clearbody c s.
    match goal with |- context [Req_EM_T ?a 0] => assert (L : a = cos t) by (rewrite CT; ring) end. rewrite L. destruct (Req_EM_T (cos t) 0); [lra|].
    match goal with |- context [Rlt_dec ?a 0] => assert (L2 : 0 < a) end. { match goal with |- 0 < ?a / _ => replace a with 1 by ring end. apply Rdiv_lt_0_compat; lra. } destruct (Rlt_dec _ 0); [lra|reflexivity].
Qed.
(** the same point for G and -G, so also for vectors that cannot diffract *)
Lemma opposite_same : forall gs rd rs rc td ts tc b vm bm, c_epsf < norm b -> gvec_to_xy (map vneg gs) rd (OneRmat rs) rc td ts tc (Some b) vm bm = gvec_to_xy gs rd (OneRmat rs) rc td ts tc (Some b) vm bm.
Proof.
  intros gs rd rs rc td ts tc b vm bm NB. unfold gvec_to_xy. f_equal. unfold gvec_group_single. rewrite map_length. rewrite !in_groups_map by (rewrite ?map_length; unfold group_size; lia). rewrite map_map. apply map_ext. intros g.
  f_equal. rewrite !diffract_mirrored by assumption. assert (E : mv (mm rs rc) (vneg g) = vneg (mv (mm rs rc) g)). { generalize (mm rs rc). intros []. destruct g. lin_unfold. f_equal; ring. } rewrite E. generalize (mv (mm rs rc) g) (used_beam b). intros [] []. unfold mirrored. lin_unfold. f_equal; ring.
Qed.
Lemma strain_ignored : forall gs rd rs rc td ts tc b vm bm vm' bm', gvec_to_xy gs rd rs rc td ts tc b vm bm = gvec_to_xy gs rd rs rc td ts tc b vm' bm'.
Proof. reflexivity. Qed.
Lemma back_reflection : forall rd rs td ts tc b e x y, c_epsf < norm b -> let d := vsub (lab_point rd td x y) (vadd ts (mv rs tc)) in c_epsf < norm2 d ->
  direction d = vneg (direction b) -> exists t h, xy_to_gvec_one rd rs td ts tc b e (x, y) = (t, h, None) /\ half_way (direction b) (direction d) (vneg (direction b)).
Proof.
  intros rd rs td ts tc b e x y NB d FAR DD. rewrite (xy_values rd rs td ts tc b e x y NB FAR). fold d. rewrite DD. eexists _, _. split.
  - f_equal. assert (Z : cross (direction b) (vneg (direction b)) = vzero) by (generalize (direction b); intros []; lin_unfold; f_equal; ring). cbv zeta. rewrite Z. destruct (Req_EM_T (norm vzero) 0) as [|N]; [reflexivity|]. elim N. now apply norm_zero_iff.
  - pose proof (direction_unit b (big_nonzero b NB)) as U. set (u := direction b) in *. clearbody u. unfold unit in *. assert (NN : norm2 (vneg u) = norm2 u) by (destruct u; lin_unfold; ring). assert (DN : dot u (vneg u) = - norm2 u) by (destruct u; lin_unfold; ring).
    split; [unfold unit; congruence|]. split; [|rewrite DN, U; lra]. unfold mirrored. rewrite DN, U. destruct u. lin_unfold. f_equal; ring.
Qed.
Lemma rows_not_columns : exists bmat hkl, makeGVector bmat hkl = [V3 (3 / 5) 0 0; V3 (4 / 5) 0 0] /\ map (mv bmat) hkl = [V3 3 0 0; V3 4 0 0].
Proof.
  exists mI, [V3 3 0 0; V3 4 0 0]. split; [|cbn [map]; now rewrite !mv_I]. unfold makeGVector. cbn [map]. rewrite !mv_I. cbv zeta. cbn [map vx vy vz]. unfold row_norm_factor, sumsq. cbn [fold_right].
  replace (sqrt (3 * 3 + (4 * 4 + 0))) with 5. 2: { replace (3 * 3 + (4 * 4 + 0)) with (5 * 5) by ring. rewrite sqrt_square; lra. } replace (0 * 0 + (0 * 0 + 0)) with 0 by ring. rewrite sqrt_0. pose proof epsf_small. destruct (Rlt_dec c_epsf 5); [|lra]. destruct (Rlt_dec c_epsf 0); [lra|]. cbv zeta. f_equal; [|f_equal]; f_equal; field.
Qed.
