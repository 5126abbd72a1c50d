From Coq Require Import Reals List Lra.
From Verif Require Import Prelude Lin RotSpec XfSpec XfModel XfTrig XfRay XfFlat CylModel CylSpec.
Local Open Scope R_scope.

Lemma dot_lin : forall k w q a, dot (vsub w (vscale a q)) k = dot k w - a * dot k q. Proof. lin. Qed.
Lemma dot_lin' : forall k w q a, dot k (vsub w (vscale a q)) = dot k w - a * dot k q. Proof. lin. Qed.
Lemma dot_neg : forall a b, dot (vneg a) b = - dot b a. Proof. lin. Qed.
Lemma neg_lin : forall k w a, dot (vneg k) (vsub w (vscale a k)) = a * dot k k - dot k w. Proof. lin. Qed.
Lemma norm2_neg : forall a, norm2 (vneg a) = dot a a. Proof. lin. Qed.
Lemma vadd_sub : forall a b, vadd b (vsub a b) = a. Proof. lin. Qed.
Lemma vsub_add : forall a b, vsub (vadd a b) a = b. Proof. lin. Qed.
Lemma norm2_lin : forall s d e, norm2 (vsub (vscale s d) e) = s * s * norm2 d - 2 * s * dot d e + norm2 e. Proof. lin. Qed.
Lemma dot_lin2 : forall s d e c, dot (vsub (vscale s d) e) c = s * dot d c - dot e c. Proof. lin. Qed.
Lemma complete_square : forall A B K s, A * s * s - 2 * B * s - K = 0 -> (A * s - B) * (A * s - B) = B * B + A * K.
Proof. intros A B K s E. replace ((A * s - B) * (A * s - B)) with (A * (A * s * s - 2 * B * s - K) + B * B + A * K) by ring. rewrite E. ring. Qed.

Section Panel.
Variables (rm : m3) (t : v3) (r : R).
Hypothesis Hrm : rotation rm.
Hypothesis Hr : 0 < r.
Let C := mv rm (V3 0 1 0).
Let P := mv rm (V3 1 0 0).
Definition pa p := dot (col0 rm) (vsub p t).
Definition pb p := dot (col1 rm) (vsub p t).
Definition pg p := dot (col2 rm) (vsub p t).

Lemma frame_comp : forall p, in_panel_frame rm t p = V3 (pa p) (pb p) (pg p).
Proof. intros. unfold in_panel_frame, pa, pb, pg. destruct rm, p, t. lin_unfold. cbn. f_equal; ring. Qed.
Lemma C_col : C = col1 rm. Proof. unfold C. destruct rm. lin_unfold. cbn. f_equal; ring. Qed.
Lemma P_col : P = col0 rm. Proof. unfold P. destruct rm. lin_unfold. cbn. f_equal; ring. Qed.
Lemma cross_10 : cross (col1 rm) (col0 rm) = vneg (col2 rm).
Proof. pose proof (rot_adj rm Hrm) as E. destruct rm as [a b c d e f g h i]. unfold adj, mt in E. cbn in E. injection E as. lin_unfold. cbn. f_equal; lra. Qed.
Lemma cross_01 : cross (col0 rm) (col1 rm) = col2 rm.
Proof. pose proof (rot_adj rm Hrm) as E. destruct rm as [a b c d e f g h i]. unfold adj, mt in E. cbn in E. injection E as. lin_unfold. cbn. f_equal; lra. Qed.
Lemma rm_eqs : dot (col0 rm) (col0 rm) = 1 /\ dot (col1 rm) (col1 rm) = 1 /\ dot (col2 rm) (col2 rm) = 1 /\
  dot (col0 rm) (col1 rm) = 0 /\ dot (col0 rm) (col2 rm) = 0 /\ dot (col1 rm) (col2 rm) = 0.
Proof. destruct Hrm as [Ho _]. pose proof (orth_eqs rm Ho). tauto. Qed.

Section Source.
Variables (ts : v3) (rs : m3) (tc : v3).
Let o := source ts rs tc.
Let delta := centre_from r t (vneg (col2 rm)) ts rs tc.
Lemma rel : forall u, vsub u delta = vsub (vsub (vadd o u) t) (vscale r (col2 rm)).
Proof. intros. unfold delta, centre_from, o, source. generalize (col2 rm) (mv rs tc). intros. destruct u, t, ts, v, v0. lin_unfold. f_equal; ring. Qed.
Lemma rel_c : forall u, dot (vsub u delta) (col1 rm) = pb (vadd o u).
Proof. intros. rewrite rel, dot_lin. destruct rm_eqs as (_ & _ & _ & _ & _ & E). rewrite E. unfold pb. ring. Qed.
Lemma rel_n : forall u, dot (vsub (vsub u delta) (vscale (dot (vsub u delta) (col1 rm)) (col1 rm))) (vneg (col2 rm)) = r - pg (vadd o u).
Proof.
  intros. rewrite rel_c. rewrite rel. destruct rm_eqs as (_ & _ & E2 & _ & _ & E). rewrite dot_lin. unfold pg. set (w := vsub (vadd o u) t).
  rewrite neg_lin, dot_neg, E, E2. ring.
Qed.
Lemma rel_p : forall u, dot (vsub (vsub u delta) (vscale (dot (vsub u delta) (col1 rm)) (col1 rm))) (col0 rm) = pa (vadd o u).
Proof.
  intros. rewrite rel_c. rewrite rel. destruct rm_eqs as (_ & _ & _ & E1 & E2 & _). rewrite dot_lin, E1. unfold pa. set (w := vsub (vadd o u) t).
  rewrite dot_lin', E2. ring.
Qed.
Lemma norm_n : vscale (/ norm (vneg (col2 rm))) (vneg (col2 rm)) = vneg (col2 rm).
Proof.
  destruct rm_eqs as (_ & _ & E & _). replace (norm (vneg (col2 rm))) with 1. { generalize (col2 rm). intros []. lin_unfold. f_equal; field. }
  symmetry. apply norm2_norm1. rewrite norm2_neg. exact E.
Qed.
(** the tube in the coordinates of the panel *)
Lemma tube_iff : forall p, on_tube rm t r p <-> pa p ^ 2 + (pg p - r) ^ 2 = r ^ 2.
Proof. intros. unfold on_tube. rewrite frame_comp. cbn [vx vy vz]. tauto. Qed.
Lemma inside_iff : forall p, inside_tube rm t r p <-> pa p ^ 2 + (pg p - r) ^ 2 < r ^ 2.
Proof. intros. unfold inside_tube. rewrite frame_comp. cbn [vx vy vz]. tauto. Qed.
Lemma bent_iff : forall p x y, bent_point rm t r x y = p <-> pa p = r * sin (x / r) /\ pb p = y /\ pg p = r - r * cos (x / r).
Proof.
  intros. set (q := V3 (r * sin (x / r)) y (r - r * cos (x / r))). assert (E : bent_point rm t r x y = p <-> in_panel_frame rm t p = q).
  { unfold bent_point, in_panel_frame. fold q. clearbody q. split; intros H.
    - subst p. rewrite vsub_add. now apply rot_forth.
    - rewrite <- H, rot_back by exact Hrm. apply vadd_sub. }
  rewrite E, frame_comp. unfold q. split; [intros [= -> -> ->]|intros (-> & -> & ->)]; tauto.
Qed.
Lemma bent_comp : forall x y, let p := bent_point rm t r x y in pa p = r * sin (x / r) /\ pb p = y /\ pg p = r - r * cos (x / r).
Proof. intros. now apply bent_iff. Qed.
Lemma bent_on : forall x y, on_tube rm t r (bent_point rm t r x y).
Proof.
  intros. apply tube_iff. destruct (bent_comp x y) as (-> & _ & ->). pose proof (sin2_cos2 (x / r)) as S. unfold Rsqr in S.
  replace ((r * sin (x / r)) ^ 2 + (r - r * cos (x / r) - r) ^ 2) with (r ^ 2 * (sin (x / r) * sin (x / r) + cos (x / r) * cos (x / r))) by ring. rewrite S. ring.
Qed.
Lemma warp_bent : forall x y, warp_to_cylinder t r C P ts rs tc false (x, y) = vsub (bent_point rm t r x y) o.
Proof.
  intros. unfold warp_to_cylinder. rewrite C_col, P_col, cross_01. unfold bent_point, o, source. generalize (r * sin (x / r)) (cos (x / r)). intros. generalize (mv rs tc). intros w.
  destruct rm, t, w, ts. lin_unfold. f_equal; ring.
Qed.
Lemma warp_dir : forall x y, warp_to_cylinder t r C P ts rs tc true (x, y) = direction (vsub (bent_point rm t r x y) o).
Proof. intros. rewrite <- warp_bent. reflexivity. Qed.
(** the angle of a point on the tube *)
Lemma safe_acos_in : forall a, -1 <= a <= 1 -> safe_acos a = acos a.
Proof. intros a H. unfold safe_acos. destruct (Rlt_dec 1 (Rabs a)) as [B|]; [|reflexivity]. exfalso. revert B. unfold Rabs. destruct (Rcase_abs a); lra. Qed.
Lemma dewarp_eq : forall u, dewarp_from_cylinder t C P r ts rs tc (Some u) =
  Some (r * safe_acos ((r - pg (vadd o u)) / r) * (if Rlt_dec (pa (vadd o u)) 0 then -1 else 1), pb (vadd o u)).
Proof.
  intros. unfold dewarp_from_cylinder. rewrite C_col, P_col, cross_10, norm_n. fold delta. cbv zeta. rewrite rel_n, rel_p, rel_c. reflexivity.
Qed.
Lemma acos_cos_abs : forall a, - PI <= a <= PI -> acos (cos a) = Rabs a.
Proof. intros a H. unfold Rabs. destruct (Rcase_abs a). - rewrite <- cos_neg. apply acos_cos. lra. - apply acos_cos. lra. Qed.
Lemma dewarp_bent : forall x y, once_around r x -> dewarp_from_cylinder t C P r ts rs tc (Some (vsub (bent_point rm t r x y) o)) = Some (x, y).
Proof.
  intros x y H. rewrite dewarp_eq. rewrite vadd_sub.
  destruct (bent_comp x y) as (-> & -> & ->). replace ((r - (r - r * cos (x / r))) / r) with (cos (x / r)) by (field; lra). red in H. set (a := x / r) in *.
  rewrite safe_acos_in by (pose proof (COS_bound a); lra). rewrite acos_cos_abs by lra. assert (X : x = r * a) by (unfold a; field; lra). clearbody a. subst x. f_equal. f_equal.
  assert (G : (r * sin a < 0 <-> a < 0)).
  { split; intros G. - destruct (Rlt_dec a 0); [assumption|]. exfalso. assert (0 <= sin a) by (apply sin_ge_0; lra). assert (0 <= r * sin a) by (apply Rmult_le_pos; lra). lra.
    - assert (0 < sin (- a)) by (apply sin_gt_0; lra). rewrite sin_neg in *. assert (0 < r * - sin a) by (apply Rmult_lt_0_compat; lra). lra. }
  unfold Rabs. destruct (Rcase_abs a) as [L|L], (Rlt_dec (r * sin a) 0) as [M|M]; try (exfalso; rewrite G in M; lra); ring.
Qed.
Lemma tube_bent : forall p, on_tube rm t r p -> exists x y, once_around r x /\ bent_point rm t r x y = p.
Proof.
  intros p H. apply tube_iff in H. exists (r * atan2 (pa p) (r - pg p)), (pb p). split.
  - red. replace (r * _ / r) with (atan2 (pa p) (r - pg p)) by (field; lra). apply atan2_range.
  - apply bent_iff. replace (r * _ / r) with (atan2 (pa p) (r - pg p)) by (field; lra). assert (HS : (r - pg p) * (r - pg p) + pa p * pa p = r * r) by (transitivity (pa p ^ 2 + (pg p - r) ^ 2); [ring|rewrite H; ring]).
    destruct (atan2_polar (r - pg p) (pa p)) as [A B]. { destruct (Req_dec (r - pg p) 0) as [E|]; [|now left]. right. intros F. rewrite E, F in HS. nra. }
    cbv zeta in A, B. rewrite HS in A, B. rewrite sqrt_square in A, B by lra. rewrite A, B. split; [field; lra|]. split; [reflexivity|]. field. lra.
Qed.
Lemma bent_inj : forall x y x' y', once_around r x -> once_around r x' -> bent_point rm t r x y = bent_point rm t r x' y' -> x = x' /\ y = y'.
Proof. intros x y x' y' H H' E. pose proof (dewarp_bent x y H) as D. rewrite E, (dewarp_bent x' y' H') in D. now injection D as -> ->. Qed.
(** the quadratic equation of a ray *)
Section Ray.
Variable d : v3.
Hypothesis Hd : unit d.
Let A := 1 - dot d (col1 rm) * dot d (col1 rm).
Let B := dot d delta - dot d (col1 rm) * dot delta (col1 rm).
Let K := r * r - norm delta * norm delta + dot delta (col1 rm) * dot delta (col1 rm).
Lemma span2 : forall w, norm2 w = dot (col0 rm) w * dot (col0 rm) w + dot (col1 rm) w * dot (col1 rm) w + dot (col2 rm) w * dot (col2 rm) w.
Proof.
  intros w. pose proof (orth_dot (mt rm) w w (orth_mt rm (proj1 Hrm))) as E. unfold norm2. rewrite <- E. destruct rm, w. lin_unfold. ring.
Qed.
Lemma tube_norm : forall u, pa (vadd o u) ^ 2 + (pg (vadd o u) - r) ^ 2 = norm2 (vsub u delta) - dot (vsub u delta) (col1 rm) * dot (vsub u delta) (col1 rm).
Proof.
  intros u. rewrite span2. rewrite (dot_comm (vsub u delta) (col1 rm)). rewrite (dot_comm (col0 rm)), (dot_comm (col2 rm)), rel, !dot_lin. destruct rm_eqs as (E1 & E2 & E3 & E4 & E5 & E6).
  rewrite E5, E3. unfold pa, pg. ring.
Qed.
Lemma ray_quad : forall s, pa (vadd o (vscale s d)) ^ 2 + (pg (vadd o (vscale s d)) - r) ^ 2 - r ^ 2 = A * s * s - 2 * B * s - K.
Proof. intros s. rewrite tube_norm. unfold A, B, K. rewrite norm_sq, norm2_lin, dot_lin2. red in Hd. rewrite Hd. ring. Qed.
Lemma unitvec_eq : unitvec_to_cylinder C P r t ts rs tc d =
  if Rlt_dec (Rabs A) (1 / 10 ^ 10) then None else if Rlt_dec (B * B + A * K) 0 then None else Some (vscale ((B + sqrt (B * B + A * K)) / A) d).
Proof. unfold unitvec_to_cylinder. rewrite C_col, P_col, cross_10, norm_n. reflexivity. Qed.
Lemma A_nonneg : 0 <= A.
Proof. unfold A. destruct rm_eqs as (_ & E & _). pose proof (cauchy d (col1 rm)) as H. red in Hd. unfold norm2 in H at 2. rewrite Hd, E in H. lra. Qed.
Lemma K_inside : inside_tube rm t r o <-> 0 < K.
Proof.
  rewrite inside_iff. pose proof (ray_quad 0) as Q. replace (vadd o (vscale 0 d)) with o in Q. 2:{ generalize o. intros []. destruct d. lin_unfold. f_equal; ring. } split; intros; lra.
Qed.
Lemma tiny : 0 < 1 / 10 ^ 10. Proof. apply Rdiv_lt_0_compat; [lra|]. apply pow_lt. lra. Qed.
Lemma on_ray : forall s, on_tube rm t r (vadd o (vscale s d)) <-> A * s * s - 2 * B * s - K = 0.
Proof. intros s. rewrite tube_iff. pose proof (ray_quad s). split; lra. Qed.
Lemma unitvec_some : forall u, unitvec_to_cylinder C P r t ts rs tc d = Some u ->
  exists s, u = vscale s d /\ on_tube rm t r (vadd o u) /\ (forall s', on_tube rm t r (vadd o (vscale s' d)) -> s' <= s).
Proof.
  intros u. rewrite unitvec_eq. pose proof A_nonneg as HA. pose proof tiny. destruct (Rlt_dec (Rabs A) _) as [|G]; [discriminate|]. rewrite Rabs_right in G by lra.
  destruct (Rlt_dec _ 0) as [|D]; [discriminate|]. intros [= <-]. eexists. split; [reflexivity|]. set (q := sqrt (B * B + A * K)).
  assert (Q : q * q = B * B + A * K) by (apply sqrt_sqrt; lra). assert (Q0 : 0 <= q) by apply sqrt_pos. assert (A0 : 0 < A) by lra. clearbody q. split.
  - rewrite on_ray. clearbody A B K. replace (A * ((B + q) / A) * ((B + q) / A) - 2 * B * ((B + q) / A) - K) with ((q * q - B * B - A * K) / A) by (field; lra). rewrite Q. field. lra.
  - intros s' E. rewrite on_ray in E. clearbody A B K. apply (Rmult_le_reg_l A); [assumption|]. replace (A * ((B + q) / A)) with (B + q) by (field; lra).
    destruct (Rle_dec (A * s') (B + q)) as [|N]; [assumption|]. exfalso. assert (E' : (A * s' - B) * (A * s' - B) = q * q) by (rewrite Q; now apply complete_square). nra.
Qed.
Lemma unitvec_none : unitvec_to_cylinder C P r t ts rs tc d = None -> not_axial rm d -> forall s, ~ on_tube rm t r (vadd o (vscale s d)).
Proof.
  rewrite unitvec_eq. pose proof A_nonneg as HA. pose proof tiny. unfold not_axial. fold C. rewrite C_col. intros E N. assert (N' : 1 / 10 ^ 10 <= A) by (unfold A; lra).
  destruct (Rlt_dec (Rabs A) _) as [G|G]; [rewrite Rabs_right in G by lra; lra|]. destruct (Rlt_dec _ 0) as [D|]; [|discriminate]. intros s F. rewrite on_ray in F.
  clearbody A B K. pose proof (complete_square _ _ _ _ F). pose proof (Rle_0_sqr (A * s - B)) as G'. unfold Rsqr in G'. lra.
Qed.
Lemma unitvec_axial : ~ not_axial rm d -> unitvec_to_cylinder C P r t ts rs tc d = None.
Proof.
  rewrite unitvec_eq. pose proof A_nonneg as HA. unfold not_axial. fold C. rewrite C_col. intros N. destruct (Rlt_dec (Rabs A) _) as [|G]; [reflexivity|]. rewrite Rabs_right in G by lra. elim N. unfold A in G. lra.
Qed.
Lemma unitvec_inside : inside_tube rm t r o -> not_axial rm d -> exists s, 0 < s /\ unitvec_to_cylinder C P r t ts rs tc d = Some (vscale s d) /\
  on_tube rm t r (vadd o (vscale s d)) /\ forall s', 0 < s' -> on_tube rm t r (vadd o (vscale s' d)) -> s' = s.
Proof.
  rewrite K_inside. intros HK N. rewrite unitvec_eq. pose proof A_nonneg as HA. pose proof tiny. unfold not_axial in N. fold C in N. rewrite C_col in N. assert (N' : 1 / 10 ^ 10 <= A) by (unfold A; lra).
  destruct (Rlt_dec (Rabs A) _) as [G|G]; [rewrite Rabs_right in G by lra; lra|]. assert (AK : 0 < A * K) by (apply Rmult_lt_0_compat; lra).
  destruct (Rlt_dec _ 0) as [D|]; [nra|]. set (q := sqrt (B * B + A * K)). assert (Q : q * q = B * B + A * K) by (apply sqrt_sqrt; nra). assert (Q0 : 0 <= q) by apply sqrt_pos. assert (A0 : 0 < A) by lra. clearbody q.
  assert (S : 0 < (B + q)) by (clearbody A B K; nra). exists ((B + q) / A). split; [now apply Rdiv_lt_0_compat|]. split; [reflexivity|]. split.
  - rewrite on_ray. clearbody A B K. replace (A * ((B + q) / A) * ((B + q) / A) - 2 * B * ((B + q) / A) - K) with ((q * q - B * B - A * K) / A) by (field; lra). rewrite Q. field. lra.
  - intros s' P' E. rewrite on_ray in E. clearbody A B K. assert (E' : (A * s' - B - q) * (A * s' - B + q) = 0) by (pose proof (complete_square _ _ _ _ E); lra).
    apply Rmult_integral in E'. assert (0 < A * s') by now apply Rmult_lt_0_compat. destruct E' as [E'|E'].
    + apply (Rmult_eq_reg_l A); [|lra]. replace (A * ((B + q) / A)) with (B + q) by (field; lra). lra.
    + exfalso. nra.
Qed.
End Ray.
(** the clipped point *)
Lemma clip_eq : forall h ext u, clip_to_cylinder t C P r h ext ts rs tc (Some u) =
  if orb (if Rlt_dec (h * (1 / 2)) (Rabs (pb (vadd o u))) then true else false) (if Rle_dec ext (safe_acos ((r - pg (vadd o u)) / r)) then true else false) then (None, false) else (Some u, true).
Proof. intros. unfold clip_to_cylinder. rewrite C_col, P_col, cross_10. fold delta. cbv zeta. rewrite rel_n, rel_c. reflexivity. Qed.
Lemma clip_bent : forall w h x y u, once_around r x -> bent_point rm t r x y = vadd o u ->
  (on_sheet w h x y /\ clip_to_cylinder t C P r h (w / r / 2) ts rs tc (Some u) = (Some u, true)) \/
  (~ on_sheet w h x y /\ clip_to_cylinder t C P r h (w / r / 2) ts rs tc (Some u) = (None, false)).
Proof.
  intros w h x y u H E. rewrite clip_eq. rewrite <- E. destruct (bent_comp x y) as (_ & -> & ->). replace ((r - (r - r * cos (x / r))) / r) with (cos (x / r)) by (field; lra). red in H.
  rewrite safe_acos_in by (pose proof (COS_bound (x / r)); lra). rewrite acos_cos_abs by lra. unfold on_sheet.
  assert (X : Rabs (x / r) = Rabs x / r) by (unfold Rdiv; rewrite Rabs_mult, Rabs_inv, (Rabs_right r) by lra; reflexivity). rewrite X.
  assert (W : w / r / 2 <= Rabs x / r <-> w / 2 <= Rabs x).
  { replace (w / r / 2) with (w / 2 * / r) by (field; lra). unfold Rdiv at 2. assert (0 < / r) by now apply Rinv_0_lt_compat. split; intros G. - apply (Rmult_le_reg_r (/ r)); assumption. - apply Rmult_le_compat_r; lra. }
  destruct (Rlt_dec (h * (1 / 2)) (Rabs y)); cbn [orb]; [right; split; [lra|reflexivity]|]. destruct (Rle_dec (w / r / 2) (Rabs x / r)) as [G|G]; rewrite W in G; [right|left]; split; try reflexivity; lra.
Qed.
(** the whole projection of a ray from inside the tube *)
Lemma xy_inside : forall w h d, unit d -> inside_tube rm t r o -> not_axial rm d ->
  (exists x y, meets_tube rm t r o d x y /\ on_sheet w h x y /\ dvec_to_xy_cylinder t C P r h (w / r / 2) ts rs tc d = (Some (x, y), true)) \/
  (exists x y, meets_tube rm t r o d x y /\ ~ on_sheet w h x y /\ dvec_to_xy_cylinder t C P r h (w / r / 2) ts rs tc d = (None, false)).
Proof.
  intros w h d Ud HI HN. destruct (unitvec_inside d Ud HI HN) as (s & S0 & E & T & _). destruct (tube_bent _ T) as (x & y & H & F).
  unfold dvec_to_xy_cylinder. rewrite E. destruct (clip_bent w h x y (vscale s d) H F) as [[G ->]|[G ->]]; [left|right]; exists x, y; (split; [split; [assumption|]; exists s; now split|]); (split; [assumption|]); [|reflexivity].
  f_equal. rewrite <- (dewarp_bent x y H). rewrite F, vsub_add. reflexivity.
Qed.
Lemma meets_tube_unique : forall d x y x' y', unit d -> inside_tube rm t r o -> not_axial rm d -> meets_tube rm t r o d x y -> meets_tube rm t r o d x' y' -> x = x' /\ y = y'.
Proof.
  intros d x y x' y' Ud HI HN (H & s & S & E) (H' & s' & S' & E'). destruct (unitvec_inside d Ud HI HN) as (q & _ & _ & _ & U).
  assert (s = q) by (apply U; [assumption|]; rewrite <- E; apply bent_on). assert (s' = q) by (apply U; [assumption|]; rewrite <- E'; apply bent_on). subst.
  apply bent_inj; try assumption. congruence.
Qed.
End Source.
End Panel.
