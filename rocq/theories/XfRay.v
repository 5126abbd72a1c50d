(** Proofs about gvec_to_xy, xy_to_gvec, angles_to_gvec, angles_to_dvec and the flat detector. *)
From Coq Require Import Reals Lra Psatz ZArith Lia List.
From Verif Require Import Prelude Lin RotSpec RigModel XfModel XfSpec XfTrig XfMats XfOsc.
Import ListNotations.
Local Open Scope R_scope.

(** ** a ray against a plane *)
Lemma plane_coords : forall r t p x y, rotation r -> (lab_point r t x y = p <-> dot (col2 r) (vsub p t) = 0 /\ x = dot (col0 r) (vsub p t) /\ y = dot (col1 r) (vsub p t)).
Proof.
  intros r t p x y R.
  assert (E : lab_point r t x y = p <-> V3 x y 0 = mv (mt r) (vsub p t)).
  { unfold lab_point. split.
    - intros <-. rewrite vsub_vadd, <- mv_mm. replace (mm (mt r) r) with mI by (symmetry; exact (proj1 R)). symmetry. apply mv_I.
    - intros ->. rewrite <- mv_mm, (orth_both r (proj1 R)), mv_I. destruct p, t. lin_unfold. f_equal; ring. }
  rewrite E. replace (mv (mt r) (vsub p t)) with (V3 (dot (col0 r) (vsub p t)) (dot (col1 r) (vsub p t)) (dot (col2 r) (vsub p t))).
  2: { generalize (vsub p t). intros []. destruct r. lin_unfold. f_equal; ring. }
  generalize (dot (col0 r) (vsub p t)) (dot (col1 r) (vsub p t)) (dot (col2 r) (vsub p t)). intros a b c. split.
  - intros H. injection H as -> -> H. auto.
  - intros (-> & -> & ->). reflexivity.
Qed.
Lemma meets_iff : forall r t o d x y, rotation r -> (meets r t o d x y <-> exists s, 0 < s /\
  - dot t (col2 r) + dot (col2 r) o + s * dot (col2 r) d = 0 /\ x = - dot t (col0 r) + dot (col0 r) o + s * dot (col0 r) d /\ y = - dot t (col1 r) + dot (col1 r) o + s * dot (col1 r) d).
Proof.
  intros r t o d x y R. unfold meets.
  assert (L : forall c s, dot c (vsub (vadd o (vscale s d)) t) = - dot t c + dot c o + s * dot c d). { intros [] s. destruct o, d, t. lin_unfold. ring. }
  split; intros (s & P & H); exists s; (split; [assumption|]).
  - apply plane_coords in H; auto. rewrite !L in H. exact H.
  - apply plane_coords; auto. rewrite !L. exact H.
Qed.
Lemma cols_span : forall r d, rotation r -> dot (col0 r) d = 0 -> dot (col1 r) d = 0 -> dot (col2 r) d = 0 -> d = vzero.
Proof.
  intros r d R A B C. assert (E : mv (mt r) d = vzero). { transitivity (V3 (dot (col0 r) d) (dot (col1 r) d) (dot (col2 r) d)). { destruct d, r. lin_unfold. f_equal; ring. } now rewrite A, B, C. }
  apply (orth_inj (mt r)); [apply orth_mt, R|]. rewrite E. destruct r. lin_unfold. f_equal; ring.
Qed.
Lemma project_xy : forall r t o d x y, rotation r -> d <> vzero -> (project r t o d = XY x y <-> meets_only r t o d x y).
Proof.
  intros r t o d x y R D. unfold project. cbv zeta. unfold meets_only.
  assert (MI : forall x y, meets r t o d x y <-> exists s, 0 < s /\ - dot t (col2 r) + dot (col2 r) o + s * dot (col2 r) d = 0 /\
    x = - dot t (col0 r) + dot (col0 r) o + s * dot (col0 r) d /\ y = - dot t (col1 r) + dot (col1 r) o + s * dot (col1 r) d) by (intros; now apply meets_iff).
  set (num := - dot t (col2 r) + dot (col2 r) o) in *. set (xb := - dot t (col0 r) + dot (col0 r) o) in *. set (yb := - dot t (col1 r) + dot (col1 r) o) in *.
  pose proof (cols_span r d R) as CS. set (xd := dot (col0 r) d) in *. set (yd := dot (col1 r) d) in *. set (zd := dot (col2 r) d) in *. clearbody num xb yb xd yd zd.
  destruct (Req_EM_T zd 0) as [Z|Z].
  - split; [destruct (Req_EM_T num 0); discriminate|]. intros [M U]. exfalso. apply MI in M as (s & P & S1 & X & Y). rewrite Z in S1.
    assert (A : x = xb + (s + 1) * xd /\ y = yb + (s + 1) * yd).
    { destruct (U (xb + (s + 1) * xd) (yb + (s + 1) * yd)) as [U1 U2]; [|now split]. apply MI. exists (s + 1). split; [lra|]. split; [rewrite Z; lra|]. now split. }
    destruct A as [A B]. apply D, CS; [lra|lra|assumption].
  - destruct (Rlt_dec (num / zd) 0) as [L|L].
    + split.
      * intros H. injection H as <- <-. split.
        -- apply MI. exists (- (num / zd)). split; [lra|]. split; [field; assumption|]. split; ring.
        -- intros x' y' M. apply MI in M as (s & P & S1 & -> & ->). assert (s = - (num / zd)). { apply Rmult_eq_reg_r with zd; auto. replace (- (num / zd) * zd) with (- num) by (field; assumption). lra. } subst s. split; ring.
      * intros [M U]. apply MI in M as (s & P & S1 & -> & ->). assert (s = - (num / zd)). { apply Rmult_eq_reg_r with zd; auto. replace (- (num / zd) * zd) with (- num) by (field; assumption). lra. } subst s. f_equal; ring.
    + split; [discriminate|]. intros [M U]. exfalso. apply MI in M as (s & P & S1 & _). apply L. replace (num / zd) with (- s); [lra|]. apply Rmult_eq_reg_r with zd; auto. replace (num / zd * zd) with num by (field; assumption). lra.
Qed.
Lemma project_no : forall r t o d, rotation r -> (project r t o d = NaNs -> dot (col2 r) d <> 0 -> forall x y, ~ meets r t o d x y) /\
  (project r t o d = Parallel -> dot (col2 r) d = 0 /\ forall x y, ~ meets r t o d x y).
Proof.
  intros r t o d R. unfold project. cbv zeta. split.
  - intros H Z x y M. apply meets_iff in M as (s & P & S1 & _); auto. destruct (Req_EM_T _ 0); [contradiction|]. destruct (Rlt_dec _ 0) as [|L]; [discriminate|].
    apply L. set (num := - dot t (col2 r) + dot (col2 r) o) in *. set (zd := dot (col2 r) d) in *. replace (num / zd) with (- s); [lra|]. apply Rmult_eq_reg_r with zd; auto. replace (num / zd * zd) with num by (field; assumption). lra.
  - intros H. destruct (Req_EM_T _ 0) as [Z|]; [|destruct (Rlt_dec _ 0); discriminate]. split; [assumption|]. destruct (Req_EM_T _ 0) as [|NZ]; [discriminate|].
    intros x y M. apply meets_iff in M as (s & P & S1 & _); auto. apply NZ. rewrite Z in S1. lra.
Qed.

(** ** the diffracted direction *)
Lemma mirrored_unit : forall g b, unit g -> unit b -> unit (mirrored g b).
Proof.
  intros g b G B. unfold unit, mirrored in *. replace (norm2 (vsub b (vscale (2 * dot b g) g))) with (norm2 b - 4 * (dot b g * dot b g) * (1 - norm2 g)) by (destruct g, b; lin_unfold; ring). rewrite G, B. ring.
Qed.
Lemma unit_nonzero : forall v, unit v -> v <> vzero.
Proof. intros v U ->. unfold unit in U. lin_unfold. lra. Qed.
Definition near_axis (b : v3) : Prop := Rabs (1 + vz (direction b)) < c_epsf.
Definition used_beam (b : v3) : v3 := if Rlt_dec (Rabs (1 + vz (direction b))) c_epsf then V3 0 0 (-1) else direction b.
Lemma norm2_big : forall b, c_epsf < norm b -> c_epsf * c_epsf < norm2 b.
Proof. intros b H. pose proof epsf_small. rewrite <- norm_sq. nra. Qed.
Lemma diffract_mirrored : forall b g, c_epsf < norm b -> diffract (normalize_beam b) g = mirrored g (used_beam b).
Proof.
  intros b g H. unfold normalize_beam, used_beam. pose proof (norm2_big b H) as N. destruct (Rlt_dec _ _); [|contradiction]. fold (norm b). cbv zeta.
  replace (vz b * (- (1) / norm b)) with (- vz (direction b)). 2: { unfold direction, vscale. cbn [vz]. unfold Rdiv. ring. }
  replace (Rabs (- vz (direction b) - 1)) with (Rabs (1 + vz (direction b))) by (rewrite <- Rabs_Ropp; f_equal; ring).
  destruct (Rlt_dec (Rabs (1 + vz (direction b))) c_epsf).
  - unfold diffract, mirrored. destruct g as [x y z]. unfold vsub, vscale, dot. cbn [vx vy vz]. f_equal; ring.
  - unfold diffract, mirrored. replace (direction b) with (V3 (vx (direction b)) (vy (direction b)) (vz (direction b))) by (symmetry; apply v3_eta).
    unfold direction, vscale. cbn [vx vy vz]. destruct g as [x y z], b as [p q s]. unfold vsub, vscale, dot. cbn [vx vy vz]. unfold Rdiv. f_equal; ring.
Qed.
Lemma used_unit : forall b, b <> vzero -> unit (used_beam b).
Proof. intros b H. unfold used_beam. destruct (Rlt_dec _ _); [unfold unit; lin_unfold; ring|now apply direction_unit]. Qed.
Lemma used_close : forall b, b <> vzero -> norm2 (vsub (used_beam b) (direction b)) <= 2 * c_epsf.
Proof.
  intros b H. pose proof (direction_unit b H) as U. unfold used_beam. pose proof epsf_small. destruct (Rlt_dec _ _) as [L|L].
  - pose proof (Rle_abs (1 + vz (direction b))). unfold unit in U. destruct (direction b) as [x y z]. cbn [vz] in *. unfold norm2, dot, vsub in *. cbn [vx vy vz] in *. nra.
  - replace (norm2 (vsub (direction b) (direction b))) with 0; [lra|]. destruct (direction b). lin_unfold. ring.
Qed.
Lemma used_exact : forall b, b <> vzero -> direction b = V3 0 0 (-1) \/ c_epsf <= 1 + vz (direction b) -> used_beam b = direction b.
Proof.
  intros b _ [E|E]; unfold used_beam; destruct (Rlt_dec _ _) as [L|L]; auto. exfalso. pose proof (Rle_abs (1 + vz (direction b))). lra.
Qed.
Lemma in_groups_map : forall {A B} (f : A -> B) n, (0 < n)%nat -> forall fuel l, (List.length l < fuel)%nat -> in_groups fuel n (map f) l = map f l.
Proof.
  intros A B f n N. induction fuel as [|k IH]; intros l L; [lia|]. cbn [in_groups]. destruct (Nat.leb n (List.length l)) eqn:E.
  - apply Nat.leb_le in E. rewrite IH by (rewrite skipn_length; lia). now rewrite <- map_app, firstn_skipn.
  - destruct l; reflexivity.
Qed.
Definition ray_result (rd rs rc : m3) (td ts tc b g : v3) (o : dpoint) : Prop :=
  o = project rd td (vadd ts (mv rs tc)) (mirrored (mv rs (mv rc g)) (used_beam b)).
Lemma forall2_map : forall {A B} (P : A -> B -> Prop) (f : A -> B) l, (forall a, In a l -> P a (f a)) -> Forall2 P l (map f l).
Proof. induction l as [|a l IH]; intros H; constructor; [apply H; now left|]. apply IH. intros. apply H. now right. Qed.
Lemma gvec_one_lemma : forall gs rd rs rc td ts tc b vm bm, c_epsf < norm b ->
  exists out, gvec_to_xy gs rd (OneRmat rs) rc td ts tc (Some b) vm bm = Ok out /\ Forall2 (ray_result rd rs rc td ts tc b) gs out.
Proof.
  intros. unfold gvec_to_xy. eexists. split; [reflexivity|]. unfold gvec_group_single. rewrite in_groups_map by (unfold group_size; lia).
  apply forall2_map. intros g _. unfold ray_result. rewrite diffract_mirrored, mv_mm by assumption. reflexivity.
Qed.
Lemma gvec_per_lemma : forall gs rd l rc td ts tc b vm bm, c_epsf < norm b -> List.length gs = List.length l ->
  exists out, gvec_to_xy gs rd (RmatPer l) rc td ts tc (Some b) vm bm = Ok out /\ Forall2 (fun p => ray_result rd (snd p) rc td ts tc b (fst p)) (combine gs l) out.
Proof.
  intros gs rd l rc td ts tc b vm bm H E. unfold gvec_to_xy. rewrite (proj2 (Nat.eqb_eq _ _) E). eexists. split; [reflexivity|]. unfold gvec_group_array.
  rewrite in_groups_map. 2: unfold group_size; lia. 2: rewrite combine_length; lia.
  apply forall2_map. intros [g rs] _. unfold ray_result. rewrite diffract_mirrored by assumption. reflexivity.
Qed.
Lemma gvec_mismatch : forall gs rd l rc td ts tc b vm bm, List.length gs <> List.length l -> gvec_to_xy gs rd (RmatPer l) rc td ts tc b vm bm = Err ValueError.
Proof. intros. unfold gvec_to_xy. now rewrite (proj2 (Nat.eqb_neq _ _) H). Qed.
Lemma default_beam : forall gs rd rs rc td ts tc vm bm, gvec_to_xy gs rd rs rc td ts tc None vm bm = gvec_to_xy gs rd rs rc td ts tc (Some (V3 0 0 (-1))) vm bm.
Proof. reflexivity. Qed.
Lemma rot_unit : forall r g, rotation r -> unit g -> unit (mv r g).
Proof. intros r g R U. unfold unit, norm2. rewrite (orth_dot r g g (proj1 R)). exact U. Qed.
Lemma ray_xy : forall rd rs rc td ts tc b g o, rotation rd -> rotation rs -> rotation rc -> b <> vzero -> unit g -> ray_result rd rs rc td ts tc b g o ->
  forall x y, o = XY x y <-> meets_only rd td (vadd ts (mv rs tc)) (mirrored (mv rs (mv rc g)) (used_beam b)) x y.
Proof. intros rd rs rc td ts tc b g o RD RS RC B U -> x y. apply project_xy; auto. apply unit_nonzero, mirrored_unit; [apply rot_unit, rot_unit; assumption|now apply used_unit]. Qed.
Lemma ray_no : forall rd rs rc td ts tc b g o, rotation rd -> ray_result rd rs rc td ts tc b g o ->
  let d := mirrored (mv rs (mv rc g)) (used_beam b) in dot (col2 rd) d <> 0 \/ o = Parallel -> (forall x y, o <> XY x y) -> forall x y, ~ meets rd td (vadd ts (mv rs tc)) d x y.
Proof.
  intros rd rs rc td ts tc b g o RD E d D N. destruct (project_no rd td (vadd ts (mv rs tc)) d RD) as [P1 P2]. unfold ray_result in E. fold d in E. destruct o as [x y| |]; [now elim (N x y)| |].
  - destruct D as [D|]; [|discriminate]. now apply P1.
  - now apply P2.
Qed.

(** ** xy_to_gvec *)
Lemma half_way_unique : forall b d g g', half_way b d g -> half_way b d g' -> g = g'.
Proof.
  intros b d g g' (U & M & N) (U' & M' & N'). unfold mirrored in *.
  assert (E : vscale (dot b g) g = vscale (dot b g') g').
  { assert (E : vsub b (vscale (2 * dot b g) g) = vsub b (vscale (2 * dot b g') g')) by congruence. clear M M' N N' U U'. generalize dependent (dot b g'). generalize (dot b g). intros k k' E. destruct b as [b0 b1 b2], g as [x y z], g' as [x' y' z'].
    unfold vsub, vscale in *. cbn [vx vy vz] in *. injection E as E1 E2 E3. f_equal; lra. }
  assert (K : dot b g * dot b g = dot b g' * dot b g').
  { assert (Q : forall k v, norm2 (vscale k v) = k * k * norm2 v) by (intros k []; lin_unfold; ring). pose proof (Q (dot b g) g) as Q1. pose proof (Q (dot b g') g') as Q2. unfold unit in *. rewrite U in Q1. rewrite U' in Q2. rewrite E in Q1. lra. }
  assert (K' : dot b g = dot b g') by nra. rewrite K' in E. clear K K' U U' M M' N. set (k := dot b g') in *. clearbody k. destruct g as [x y z], g' as [x' y' z']. unfold vscale in E. cbn [vx vy vz] in E. injection E as E1 E2 E3.
  f_equal; apply Rmult_eq_reg_l with k; lra.
Qed.
Lemma unit_dot : forall u w, unit u -> unit w -> -1 <= dot u w <= 1.
Proof. intros u w U W. pose proof (cauchy u w) as C. unfold unit in *. rewrite U, W in C. nra. Qed.
Lemma cross_norm2 : forall u w, norm2 (cross u w) = norm2 u * norm2 w - dot u w * dot u w.
Proof. intros [] []. lin_unfold. ring. Qed.
Lemma rotate_half : forall b d, unit b -> unit d -> cross b d <> vzero ->
  exists g, rotate_about_axis (/ 2 * (PI - acos (dot b d))) (V3 (vx (cross b d) / norm (cross b d)) (vy (cross b d) / norm (cross b d)) (vz (cross b d) / norm (cross b d))) d = Some g /\ half_way b d g.
Proof.
  intros b d UB UD NC. pose proof (unit_dot b d UB UD) as KB. set (t := acos (dot b d)). pose proof (acos_bound (dot b d)) as TB. fold t in TB.
  assert (KT : cos t = dot b d) by (now apply cos_acos). pose proof (norm_gt0 _ NC) as NP.
  assert (NS : norm (cross b d) = sin t).
  { assert (S0 : 0 <= sin t) by (apply sin_ge_0; lra). unfold norm. rewrite cross_norm2. unfold unit in UB, UD. rewrite UB, UD, <- KT. pose proof (sin2_cos2 t) as S. unfold Rsqr in S.
    replace (1 * 1 - cos t * cos t) with (sin t * sin t) by lra. now apply sqrt_square. }
  set (h := t / 2). assert (TH : t = 2 * h) by (unfold h; field). assert (HC : 0 < sin t) by lra.
  assert (CP : 0 < sin h). { destruct (Rle_lt_or_eq_dec 0 h) as [P|P]; [unfold h; lra| |]. { apply sin_gt_0; [assumption|unfold h; pose proof PI_RGT_0; lra]. } exfalso. rewrite TH, <- P, Rmult_0_r, sin_0 in HC. lra. }
  assert (SP : 0 < cos h). { rewrite TH, sin_2a in HC. nra. }
  assert (AX : V3 (vx (cross b d) / norm (cross b d)) (vy (cross b d) / norm (cross b d)) (vz (cross b d) / norm (cross b d)) = direction (cross b d)).
  { unfold direction, vscale. unfold Rdiv. f_equal; ring. }
  rewrite AX. assert (ND : direction (cross b d) <> vzero) by (now apply unit_nonzero, direction_unit). rewrite (rotate_lemma _ _ _ ND). eexists. split; [reflexivity|].
  rewrite (direction_of_unit _ (direction_unit _ NC)).
  assert (EG : rotated (direction (cross b d)) (/ 2 * (PI - t)) d = vscale (/ (2 * sin h)) (vsub d b)).
  { unfold rotated. assert (D0 : dot (direction (cross b d)) d = 0). { rewrite dir_dot, dot_comm. rewrite (proj1 (cross_perp b d)). ring. }
    rewrite D0. replace (/ 2 * (PI - t)) with (PI / 2 - h) by (unfold h; field). rewrite cos_shift, sin_shift.
    assert (CX : cross (direction (cross b d)) d = vscale (/ sin t) (vsub (vscale (dot b d) d) b)).
    { unfold direction. rewrite NS. transitivity (vscale (/ sin t) (vsub (vscale (dot b d) d) (vscale (norm2 d) b))). { generalize (/ sin t). intros k. destruct b, d. lin_unfold. f_equal; ring. } unfold unit in UD. rewrite UD. generalize (/ sin t) (dot b d). intros k k'. destruct b, d. lin_unfold. f_equal; ring. }
    rewrite CX, <- KT, TH, sin_2a, cos_2a_sin. clear - CP SP. generalize dependent (sin h). generalize dependent (cos h). intros c C s S. destruct b as [b0 b1 b2], d as [d0 d1 d2]. unfold vadd, vsub, vscale. cbn [vx vy vz]. f_equal; field; lra. }
  rewrite EG. assert (K2 : dot b d = 1 - 2 * (sin h * sin h)). { rewrite <- KT, TH, cos_2a_sin. ring. }
  assert (BG : dot b (vscale (/ (2 * sin h)) (vsub d b)) = - sin h).
  { replace (dot b (vscale (/ (2 * sin h)) (vsub d b))) with (/ (2 * sin h) * (dot b d - norm2 b)) by (generalize (/ (2 * sin h)); intros; destruct b, d; lin_unfold; ring). unfold unit in UB. rewrite UB, K2. field. lra. }
  split; [|split].
  - unfold unit in *. replace (norm2 (vscale (/ (2 * sin h)) (vsub d b))) with (/ (2 * sin h) * / (2 * sin h) * (norm2 d + norm2 b - 2 * dot b d)) by (generalize (/ (2 * sin h)); intros; destruct b, d; lin_unfold; ring).
    rewrite UB, UD, K2. field. lra.
  - unfold mirrored. rewrite BG. clear - CP. generalize dependent (sin h). intros s S. destruct b as [b0 b1 b2], d as [d0 d1 d2]. unfold vadd, vsub, vscale. cbn [vx vy vz]. f_equal; field; lra.
  - rewrite BG. lra.
Qed.
Lemma xy_values : forall rd rs td ts tc b e x y, c_epsf < norm b ->
  let d := vsub (lab_point rd td x y) (vadd ts (mv rs tc)) in c_epsf < norm2 d ->
  xy_to_gvec_one rd rs td ts tc b e (x, y) =
    (acos (dot (direction b) (direction d)),
     match make_beam_rmat b e with Ok r => Some (atan2 (vy (mv (mt r) (direction d))) (vx (mv (mt r) (direction d)))) | Err _ => None end,
     let n := cross (direction b) (direction d) in
     if Req_EM_T (norm n) 0 then None else rotate_about_axis (/ 2 * (PI - acos (dot (direction b) (direction d)))) (V3 (vx n / norm n) (vy n / norm n) (vz n / norm n)) (direction d)).
Proof.
  intros rd rs td ts tc b e x y NB d ND. unfold xy_to_gvec_one. rewrite (guarded_big b NB). cbv zeta. cbn [fst snd].
  assert (E : vadd (vsub (vsub td ts) (mv rs tc)) (vadd (vscale x (col0 rd)) (vscale y (col1 rd))) = d).
  { unfold d, lab_point. generalize (mv rs tc). intros []. destruct td, ts, rd. lin_unfold. f_equal; ring. }
  rewrite E. destruct (Rlt_dec c_epsf (norm2 d)); [|contradiction].
  replace (V3 (vx d / sqrt (norm2 d)) (vy d / sqrt (norm2 d)) (vz d / sqrt (norm2 d))) with (direction d). 2: { unfold direction, vscale, norm, Rdiv. f_equal; ring. } reflexivity.
Qed.
Lemma scatter_back : forall r d, rotation r -> unit d ->
  d = scattered r (acos (dot (mv r (V3 0 0 (-1))) d)) (atan2 (vy (mv (mt r) d)) (vx (mv (mt r) d))).
Proof.
  intros r d R U. set (w := mv (mt r) d) in *. assert (E : d = mv r w). { unfold w. rewrite <- mv_mm, (orth_both r (proj1 R)). now rewrite mv_I. }
  assert (UW : unit w) by (unfold w; apply rot_unit; [now apply rot_mt|assumption]).
  assert (D : dot (mv r (V3 0 0 (-1))) d = - vz w). { rewrite E. rewrite (orth_dot r _ _ (proj1 R)). destruct w. lin_unfold. ring. }
  rewrite D. unfold scattered. rewrite E at 1. f_equal. clearbody w. clear E D U d R r.
  destruct w as [x y z]. cbn [vx vy vz]. unfold unit, norm2, dot in UW. cbn [vx vy vz] in UW. assert (B : -1 <= - z <= 1) by nra.
  rewrite (cos_acos _ B). pose proof (acos_bound (- z)) as AB. set (t := acos (- z)) in *. assert (C : cos t = - z) by (now apply cos_acos).
  assert (S0 : 0 <= sin t) by (apply sin_ge_0; lra). pose proof (sin2_cos2 t) as S. unfold Rsqr in S. rewrite C in S. assert (XY : x * x + y * y = sin t * sin t) by lra.
  assert (P : sin t * cos (atan2 y x) = x /\ sin t * sin (atan2 y x) = y).
  { destruct (Req_dec (sin t) 0) as [Q|Q].
    - rewrite Q in *. assert (x = 0) by nra. assert (y = 0) by nra. subst. split; ring.
    - destruct (atan2_polar x y) as [A B']. { destruct (Req_dec x 0) as [->|]; [|now left]. right. intros ->. nra. } rewrite A, B', XY, (sqrt_square _ S0). split; field; assumption. }
  destruct P as [-> ->]. f_equal. ring.
Qed.
Lemma xy_lemma : forall rd rs td ts tc b e r x y, c_epsf < norm b -> make_beam_rmat b e = Ok r ->
  let d := vsub (lab_point rd td x y) (vadd ts (mv rs tc)) in c_epsf < norm2 d ->
  exists t h og, xy_to_gvec_one rd rs td ts tc b e (x, y) = (t, Some h, og) /\ 0 <= t <= PI /\ - PI < h <= PI /\ scattered r t h = direction d /\
    (cross (direction b) (direction d) <> vzero -> exists g, og = Some g /\ half_way (direction b) (direction d) g) /\
    (cross (direction b) (direction d) = vzero -> og = None).
Proof.
  intros rd rs td ts tc b e r x y NB ER d ND. rewrite (xy_values rd rs td ts tc b e x y NB ND). rewrite ER. fold d. eexists _, _, _. split; [reflexivity|].
  assert (D0 : d <> vzero). { intros Z. rewrite Z in ND. pose proof epsf_small. lin_unfold. lra. }
  pose proof (direction_unit d D0) as UD. pose proof (direction_unit b (big_nonzero b NB)) as UB. set (dh := direction d) in *. clearbody dh.
  split; [apply acos_bound|]. split; [apply atan2_range|]. destruct (beam_lemma _ _ _ ER) as (RR & FB & _). split.
  - rewrite <- FB. symmetry. now apply scatter_back.
  - split; intros C; cbv zeta.
    + destruct (Req_EM_T _ 0) as [Z|Z]; [apply norm_zero_iff in Z; contradiction|]. now apply rotate_half.
    + destruct (Req_EM_T _ 0) as [Z|Z]; [reflexivity|]. elim Z. now apply norm_zero_iff.
Qed.
(** the frame given by its columns *)
Lemma frame_cols : forall r, rotation r -> make_beam_rmat (vneg (col2 r)) (col0 r) = Ok r /\ unit (vneg (col2 r)) /\ direction (vneg (col2 r)) = vneg (col2 r).
Proof.
  intros r R. destruct (orth_eqs r (proj1 R)) as (A & B & C & D & E & F).
  assert (U : unit (vneg (col2 r))). { unfold unit. replace (norm2 (vneg (col2 r))) with (norm2 (col2 r)) by (destruct (col2 r); lin_unfold; ring). clear - A B C D E F. destruct r. lin_unfold. lra. }
  pose proof (direction_of_unit _ U) as DU. split; [|now split].
  assert (X : cross (col0 r) (vneg (col2 r)) = col1 r). { pose proof (rot_adj r R) as AD. clear - AD. destruct r as [a b c d e f g h i]. lin_unfold. injection AD as H1 H2 H3 H4 H5 H6 H7 H8 H9. f_equal; lra. }
  destruct (beam_total (vneg (col2 r)) (col0 r)) as [r' Er]. { now apply unit_big. } { rewrite X. apply unit_big. unfold unit. clear - A B C D E F. destruct r. lin_unfold. lra. }
  rewrite Er. f_equal. apply beam_lemma in Er. apply (frame_unique _ _ _ _ (unit_nonzero _ U) Er). split; [assumption|]. rewrite DU.
  split; [destruct r; lin_unfold; f_equal; ring|]. clear - A B C D E F. destruct r. lin_unfold. split; lra.
Qed.

(** ** angles to vectors *)
Lemma eigen_dir : forall v, v <> vzero -> eigen_normalized v = direction v.
Proof. intros v H. unfold eigen_normalized, direction. destruct (Req_EM_T (norm2 v) 0) as [Z|]; [|reflexivity]. elim H. now apply norm2_zero. Qed.
Lemma frame_cross : forall b e r, b <> vzero -> beam_frame b e r -> cross e b <> vzero.
Proof.
  intros b e r NB (R & F & X & Y) Z. set (k := norm b). pose proof (norm_gt0 b NB) as P. fold k in P. assert (B : b = mv r (V3 0 0 (- k))).
  { rewrite <- (scale_dir b NB). fold k. rewrite <- F, <- mv_scale. f_equal. lin_unfold. f_equal; ring. }
  set (u := mv (mt r) e) in *. assert (E : e = mv r u). { unfold u. rewrite <- mv_mm, (orth_both r (proj1 R)). now rewrite mv_I. }
  assert (N : norm2 (cross e b) = norm2 (cross u (V3 0 0 (- k)))). { rewrite E, B. rewrite !cross_norm2. unfold norm2. now rewrite !(orth_dot r _ _ (proj1 R)). }
  rewrite Z in N. clearbody u k. clear - N X P. destruct u as [x y z]. unfold norm2, dot, cross, vzero in N. cbn [vx vy vz] in *. assert (0 < (x * k) * (x * k)) by (apply Rmult_lt_0_compat; nra). nra.
Qed.
Lemma angles_vec : forall tog b e chi rc t h w r, b <> vzero -> beam_frame b e r ->
  angles_to_vec tog b e chi rc t h w =
  mv (mt rc) (mv (mt (sample_turn chi w)) (mv r (if tog then V3 (cos (t * / 2) * cos h) (cos (t * / 2) * sin h) (sin (t * / 2)) else V3 (sin t * cos h) (sin t * sin h) (- cos t)))).
Proof.
  intros tog b e chi rc t h w r NB F. pose proof (frame_cross b e r NB F) as NC. pose proof (frame_of b e NB NC) as F'. pose proof (frame_unique b e _ _ NB F F') as ->.
  unfold angles_to_vec. rewrite (eigen_dir _ NC), (eigen_dir _ NB). unfold sample_turn. rewrite <- sample_eq. cbv zeta. set (r := of_cols _ _ _). clearbody r. clear.
  set (p := if tog then _ else _). clearbody p. unfold make_sample_rmat. destruct p as [p0 p1 p2], r, rc. lin_unfold. f_equal; ring.
Qed.
Lemma turn_rot : forall chi w, rotation (sample_turn chi w).
Proof. intros. unfold sample_turn. rewrite <- sample_eq. apply sample_rot. Qed.
Lemma rot_back : forall r v, rotation r -> mv r (mv (mt r) v) = v.
Proof. intros r v R. rewrite <- mv_mm, (orth_both r (proj1 R)). apply mv_I. Qed.
Lemma rot_forth : forall r v, rotation r -> mv (mt r) (mv r v) = v.
Proof. intros r v R. rewrite <- mv_mm. replace (mm (mt r) r) with mI by (symmetry; exact (proj1 R)). apply mv_I. Qed.
Lemma dvec_lemma : forall b e chi rc t h w r, b <> vzero -> beam_frame b e r -> rotation rc ->
  mv (sample_turn chi w) (mv rc (angles_to_dvec b e chi rc t h w)) = scattered r t h.
Proof. intros b e chi rc t h w r NB F RC. unfold angles_to_dvec. rewrite (angles_vec false b e chi rc t h w r NB F). rewrite (rot_back rc) by assumption. rewrite rot_back by apply turn_rot. reflexivity. Qed.
Lemma gvec_lemma : forall b e chi rc t h w r, b <> vzero -> beam_frame b e r -> rotation rc ->
  let g := mv (sample_turn chi w) (mv rc (angles_to_gvec b e chi rc t h w)) in
  unit g /\ dot (direction b) g = - sin (t / 2) /\ mirrored g (direction b) = scattered r t h.
Proof.
  intros b e chi rc t h w r NB F RC g. unfold g, angles_to_gvec. rewrite (angles_vec true b e chi rc t h w r NB F). rewrite (rot_back rc) by assumption. rewrite rot_back by apply turn_rot. clear g.
  destruct F as (R & FB & _). rewrite <- FB. change (t * / 2) with (t / 2). set (u := t / 2). assert (T : t = 2 * u) by (unfold u; field).
  assert (S : sin u * sin u + cos u * cos u = 1). { pose proof (sin2_cos2 u). unfold Rsqr in *. lra. } assert (S' : sin h * sin h + cos h * cos h = 1). { pose proof (sin2_cos2 h). unfold Rsqr in *. lra. }
  assert (D : dot (mv r (V3 0 0 (-1))) (mv r (V3 (cos u * cos h) (cos u * sin h) (sin u))) = - sin u). { rewrite (orth_dot r _ _ (proj1 R)). lin_unfold. ring. }
  split; [|split; [exact D|]].
  - apply rot_unit; auto. unfold unit. lin_unfold. transitivity (cos u * cos u * (sin h * sin h + cos h * cos h) + sin u * sin u); [ring|]. rewrite S'. lra.
  - unfold mirrored, scattered. rewrite D, <- mv_scale, <- mv_sub. f_equal. rewrite T, sin_2a, cos_2a_sin. unfold vsub, vscale. cbn [vx vy vz]. f_equal; ring.
Qed.
(** ** angles are recovered *)
Lemma scattered_inj : forall r t h t' h', rotation r -> 0 < t < PI -> - PI < h <= PI -> 0 <= t' <= PI -> - PI < h' <= PI -> scattered r t h = scattered r t' h' -> t = t' /\ h = h'.
Proof.
  intros r t h t' h' R T H T' H' E. unfold scattered in E. apply orth_inj in E; [|exact (proj1 R)]. injection E as E1 E2 E3.
  assert (C : cos t = cos t') by lra. assert (TT : t = t'). { rewrite <- (acos_cos t) by lra. rewrite C. apply acos_cos. lra. } split; [assumption|]. rewrite <- TT in *.
  assert (S : 0 < sin t) by (apply sin_gt_0; lra). apply range_unique; auto. apply same_turn; apply Rmult_eq_reg_l with (sin t); lra.
Qed.
