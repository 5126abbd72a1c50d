(** C172, C173: points mapped to planes and angular sizes of pixels *)
From Coq Require Import Reals List ZArith Lra Lia.
From Verif Require Import Prelude Lin PmModel PmSpec.
Import ListNotations.
Local Open Scope R_scope.

Lemma cross_rot r : rotation r -> cross (col0 r) (col1 r) = col2 r.
Proof. intros H. pose proof (rot_adj r H) as AD. clear H. destruct r as [a b c d e f g h i]. lin_unfold. injection AD as H1 H2 H3 H4 H5 H6 H7 H8 H9. f_equal; lra. Qed.
Lemma place_mv r t pt : place r t pt = vadd (mv r (V3 (fst pt) (snd pt) 0)) t.
Proof. destruct pt as [x y]. unfold place. cbn [fst snd]. destruct r, t. lin_unfold. f_equal; ring. Qed.
Lemma mt_place r t pt : rotation r -> mv (mt r) (vsub (place r t pt) t) = V3 (fst pt) (snd pt) 0.
Proof.
  intros [O _]. rewrite place_mv. replace (vsub (vadd (mv r (V3 (fst pt) (snd pt) 0)) t) t) with (mv r (V3 (fst pt) (snd pt) 0)) by (generalize (mv r (V3 (fst pt) (snd pt) 0)); intros w; destruct w, t; lin_unfold; f_equal; ring).
  rewrite <- mv_mm. unfold orthogonal in O. rewrite O. lin_unfold. f_equal; ring.
Qed.
Lemma normal_place r t pt : rotation r -> dot (col2 r) (place r t pt) = dot (col2 r) t.
Proof.
  intros H. pose proof (f_equal vz (mt_place r t pt H)) as E. cbn [vz] in E. assert (X : vz (mv (mt r) (vsub (place r t pt) t)) = dot (col2 r) (place r t pt) - dot (col2 r) t).
  { generalize (place r t pt). intros w. clear. destruct r, t, w. lin_unfold. ring. }
  lra.
Qed.
Lemma map_is r0 t0 r t pt : rotation r -> crosses r (place r0 t0 pt) -> forall pt', map_to_plane r0 t0 r t pt = pt' <-> on_line_with (place r0 t0 pt) (place r t pt').
Proof.
  intros H C pt'. unfold crosses in C. rewrite (cross_rot r H) in C. unfold map_to_plane. rewrite <- place_mv. set (p := place r0 t0 pt) in *. set (u := dot (col2 r) t / dot (col2 r) p).
  assert (D : dot (col2 r) (vsub (vscale u p) t) = 0).
  { replace (dot (col2 r) (vsub (vscale u p) t)) with (u * dot (col2 r) p - dot (col2 r) t) by (clear; destruct r, p, t; lin_unfold; ring). unfold u. field. exact C. }
  split.
  - intros <-. exists u. rewrite place_mv. cbn [fst snd].
    assert (Z : mv (mt r) (vsub (vscale u p) t) = V3 (vx (mv (mt r) (vsub (vscale u p) t))) (vy (mv (mt r) (vsub (vscale u p) t))) 0).
    { assert (X : vz (mv (mt r) (vsub (vscale u p) t)) = 0) by (rewrite <- D; generalize (vsub (vscale u p) t); clear; intros w; destruct r, w; lin_unfold; ring).
      rewrite <- X. now destruct (mv (mt r) (vsub (vscale u p) t)). }
    rewrite <- Z. rewrite <- mv_mm, (orth_both r (proj1 H)). generalize (vscale u p). clear. intros w. destruct w, t. lin_unfold. f_equal; ring.
  - intros [v E]. assert (Ev : v = u).
    { pose proof (normal_place r t pt' H) as N. rewrite E in N. assert (X : v * dot (col2 r) p = dot (col2 r) t) by (rewrite <- N; clear; destruct r, p; lin_unfold; ring). unfold u. rewrite <- X. field. exact C. }
    rewrite <- Ev, <- E, (mt_place r t pt' H). cbn [vx vy]. now destruct pt'.
Qed.
(** C172: the point of the other plane on the line through the origin and the point of the panel, and that alone *)
Theorem C172_map : forall r0 t0 r t pt, rotation r -> crosses r (place r0 t0 pt) ->
  forall pt', map_to_plane r0 t0 r t pt = pt' <-> on_line_with (place r0 t0 pt) (place r t pt').
Proof. exact map_is. Qed.
Print Assumptions C172_map.
(** a panel's own plane gives the point back *)
Theorem C172_self : forall r t pt, rotation r -> crosses r t -> map_to_plane r t r t pt = pt.
Proof.
  intros r t pt H C. apply map_is; [exact H| |exists 1; destruct (place r t pt); lin_unfold; f_equal; ring].
  unfold crosses in *. rewrite (cross_rot r H) in *. now rewrite normal_place.
Qed.
Print Assumptions C172_self.
(** through a plane in between, the point is the same *)
Theorem C172_through : forall r0 t0 r1 t1 r2 t2 pt, rotation r1 -> rotation r2 -> crosses r1 (place r0 t0 pt) -> crosses r2 (place r0 t0 pt) -> crosses r1 t1 ->
  map_to_plane r1 t1 r2 t2 (map_to_plane r0 t0 r1 t1 pt) = map_to_plane r0 t0 r2 t2 pt.
Proof.
  intros r0 t0 r1 t1 r2 t2 pt H1 H2 C1 C2 C3. destruct (proj1 (map_is r0 t0 r1 t1 pt H1 C1 _) eq_refl) as [u E]. set (q := map_to_plane r0 t0 r1 t1 pt) in *.
  destruct (proj1 (map_is r0 t0 r2 t2 pt H2 C2 _) eq_refl) as [v F]. set (s := map_to_plane r0 t0 r2 t2 pt) in *.
  assert (U : u <> 0).
  { intros ->. apply C3. unfold crosses. rewrite (cross_rot r1 H1), <- (normal_place r1 t1 q H1), E. clear. destruct r1, (place r0 t0 pt). lin_unfold. ring. }
  apply map_is; [exact H2| |].
  - unfold crosses in *. rewrite E. replace (dot (cross (col0 r2) (col1 r2)) (vscale u (place r0 t0 pt))) with (u * dot (cross (col0 r2) (col1 r2)) (place r0 t0 pt)) by (clear; generalize (cross (col0 r2) (col1 r2)); intros w; destruct w, (place r0 t0 pt); lin_unfold; ring).
    now apply Rmult_integral_contrapositive_currified.
  - exists (v / u). rewrite E, F. clear - U. destruct (place r0 t0 pt) as [x y z]. lin_unfold. f_equal; field; exact U.
Qed.
Print Assumptions C172_through.
(** the line is not a ray: a point on the other side of the origin is mapped as well *)
Theorem C172_ray_refuted : exists r0 t0 r t pt pt' u, rotation r /\ crosses r (place r0 t0 pt) /\ map_to_plane r0 t0 r t pt = pt' /\ u < 0 /\ place r t pt' = vscale u (place r0 t0 pt).
Proof.
  exists mI, (V3 0 0 1), mI, (V3 0 0 (-1)), (1, 0), (-1, 0), (-1). assert (R0 : rotation mI) by (split; [unfold orthogonal|]; lin_unfold; [f_equal|]; ring).
  assert (P : place mI (V3 0 0 1) (1, 0) = V3 1 0 1) by (unfold place; cbn [fst snd]; lin_unfold; f_equal; ring). assert (P' : place mI (V3 0 0 (-1)) (-1, 0) = V3 (-1) 0 (-1)) by (unfold place; cbn [fst snd]; lin_unfold; f_equal; ring).
  assert (C : crosses mI (place mI (V3 0 0 1) (1, 0))) by (rewrite P; unfold crosses; lin_unfold; lra).
  split; [exact R0|]. split; [exact C|]. split; [|split; [lra|rewrite P, P'; lin_unfold; f_equal; ring]].
  apply map_is; [exact R0|exact C|]. exists (-1). rewrite P, P'. lin_unfold. f_equal; ring.
Qed.
Print Assumptions C172_ray_refuted.

(** C173 *)
Lemma eta_turn a b : turn_between a b (eta_size (a - b)).
Proof.
  unfold eta_size, remainder. pose proof PI_RGT_0 as P. set (x := a - b). destruct (base_Int_part ((x + PI) / (2 * PI))) as [H1 H2]. set (k := Int_part ((x + PI) / (2 * PI))) in *.
  assert (Y : (x + PI) / (2 * PI) * (2 * PI) = x + PI) by (field; lra). set (z := (x + PI) / (2 * PI)) in *.
  assert (L : 0 <= x + PI - 2 * PI * IZR k < 2 * PI) by (split; nra).
  split.
  - split; [apply Rabs_pos|]. apply Rabs_le. lra.
  - exists k. destruct (Rle_dec 0 (x + PI - 2 * PI * IZR k - PI)); [rewrite Rabs_right by lra; left|rewrite Rabs_left by lra; right]; fold x; lra.
Qed.
Lemma turn_unique a b d e : turn_between a b d -> turn_between a b e -> d = e.
Proof.
  intros [[D0 D1] [j Hj]] [[E0 E1] [k Hk]]. pose proof PI_RGT_0 as P.
  assert (S1 : forall x y (n : Z), 0 <= x <= PI -> 0 <= y <= PI -> x - y = 2 * PI * IZR n -> x = y).
  { intros x y n X Y E. assert (n = 0%Z). { destruct (Z.lt_trichotomy n 0) as [L|[L|L]]; [exfalso|exact L|exfalso].
      - apply Zlt_le_succ, IZR_le in L. rewrite succ_IZR in L. cbn in L. nra.
      - apply Zlt_le_succ, IZR_le in L. cbn in L. nra. } subst n. lra. }
  assert (S2 : forall x y (n : Z), 0 <= x <= PI -> 0 <= y <= PI -> x + y = 2 * PI * IZR n -> x = y).
  { intros x y n X Y E. destruct (Z.lt_trichotomy n 0) as [L|[L|L]].
    - apply Zlt_le_succ, IZR_le in L. rewrite succ_IZR in L. cbn in L. nra.
    - subst n. cbn in E. lra.
    - apply Zlt_le_succ, IZR_le in L. cbn in L. assert (PI * 2 <= 2 * PI * IZR n) by nra. lra. }
  destruct Hj as [Hj|Hj], Hk as [Hk|Hk].
  - apply (S1 d e (k - j)%Z); [lra|lra|rewrite minus_IZR; lra].
  - apply (S2 d e (k - j)%Z); [lra|lra|rewrite minus_IZR; lra].
  - apply (S2 d e (j - k)%Z); [lra|lra|rewrite minus_IZR; lra].
  - apply (S1 d e (j - k)%Z); [lra|lra|rewrite minus_IZR; lra].
Qed.
Lemma turn_sym a b d : turn_between a b d -> turn_between b a d.
Proof. intros [H [k E]]. split; [exact H|]. exists (- k)%Z. rewrite opp_IZR. destruct E as [E|E]; [right|left]; lra. Qed.
Lemma expand_cons x l w h : expand_pixels (x :: l) w h = [(fst x - 1 / 2 * w, snd x - 1 / 2 * h); (fst x + 1 / 2 * w, snd x - 1 / 2 * h); (fst x + 1 / 2 * w, snd x + 1 / 2 * h); (fst x - 1 / 2 * w, snd x + 1 / 2 * h)] ++ expand_pixels l w h.
Proof. now destruct x. Qed.
(** what is measured on a side *)
Definition tth_of (angles : R * R -> R * R) (c1 c2 : R * R) (d : R) : Prop := d = Rabs (fst (angles c1) - fst (angles c2)).
Definition eta_of (angles : R * R -> R * R) (c1 c2 : R * R) (d : R) : Prop := turn_between (snd (angles c1)) (snd (angles c2)) d.
Lemma four_max (f : R * R -> R * R -> R) (measure : R * R -> R * R -> R -> Prop) w h pt :
  (forall c1 c2, measure c1 c2 (f c1 c2) /\ f c1 c2 = f c2 c1) -> (forall c1 c2 d e, measure c1 c2 d -> measure c1 c2 e -> d = e) ->
  let a0 := (fst pt - 1 / 2 * w, snd pt - 1 / 2 * h) in let a1 := (fst pt + 1 / 2 * w, snd pt - 1 / 2 * h) in
  let a2 := (fst pt + 1 / 2 * w, snd pt + 1 / 2 * h) in let a3 := (fst pt - 1 / 2 * w, snd pt + 1 / 2 * h) in
  largest w h pt measure (Rmax (f a2 a3) (Rmax (f a1 a2) (Rmax (f a0 a1) (f a0 a3)))).
Proof.
  intros M U a0 a1 a2 a3. assert (E1 : fst pt - 1 / 2 * w = fst pt - w / 2) by lra. assert (E2 : fst pt + 1 / 2 * w = fst pt + w / 2) by lra.
  assert (E3 : snd pt - 1 / 2 * h = snd pt - h / 2) by lra. assert (E4 : snd pt + 1 / 2 * h = snd pt + h / 2) by lra. unfold a0, a1, a2, a3. clear a0 a1 a2 a3. rewrite E1, E2, E3, E4. clear E1 E2 E3 E4.
  set (xl := fst pt - w / 2). set (xr := fst pt + w / 2). set (yl := snd pt - h / 2). set (yr := snd pt + h / 2).
  set (m := Rmax (f (xr, yr) (xl, yr)) (Rmax (f (xr, yl) (xr, yr)) (Rmax (f (xl, yl) (xr, yl)) (f (xl, yl) (xl, yr))))).
  assert (L1 : f (xr, yr) (xl, yr) <= m) by apply Rmax_l. assert (L2 : f (xr, yl) (xr, yr) <= m) by (eapply Rle_trans; [|apply Rmax_r]; apply Rmax_l).
  assert (L3 : f (xl, yl) (xr, yl) <= m) by (eapply Rle_trans; [|apply Rmax_r]; eapply Rle_trans; [|apply Rmax_r]; apply Rmax_l).
  assert (L4 : f (xl, yl) (xl, yr) <= m) by (eapply Rle_trans; [|apply Rmax_r]; eapply Rle_trans; [|apply Rmax_r]; apply Rmax_r).
  split.
  - intros c1 c2 d Sd Hd. inversion Sd as [y Hy|x Hx]; subst c1 c2.
    + fold xl xr in Hd |- *. rewrite (U _ _ _ _ Hd (proj1 (M _ _))). destruct Hy as [->| ->]; fold yl yr; [exact L3|]. rewrite (proj2 (M _ _)). exact L1.
    + fold yl yr in Hd |- *. rewrite (U _ _ _ _ Hd (proj1 (M _ _))). destruct Hx as [->| ->]; fold xl xr; [exact L4|exact L2].
  - assert (Cs : m = f (xr, yr) (xl, yr) \/ m = f (xr, yl) (xr, yr) \/ m = f (xl, yl) (xr, yl) \/ m = f (xl, yl) (xl, yr)).
    { unfold m. unfold Rmax. repeat destruct (Rle_dec _ _); auto. }
    destruct Cs as [->|[->|[->| ->]]].
    + exists (xl, yr), (xr, yr). split; [apply side_row; now right|]. rewrite (proj2 (M _ _)). apply M.
    + exists (xr, yl), (xr, yr). split; [apply side_col; now right|]. apply M.
    + exists (xl, yl), (xr, yl). split; [apply side_row; now left|]. apply M.
    + exists (xl, yl), (xl, yr). split; [apply side_col; now left|]. apply M.
Qed.
(** for every pixel, in the order given, the largest difference of two theta and the largest turn in eta along a side *)
Theorem C173_sizes : forall angles distort pixels w h,
  Forall2 (fun pt size => let pt' := match distort with Some f => f pt | None => pt end in
                          largest w h pt' (tth_of angles) (fst size) /\ largest w h pt' (eta_of angles) (snd size))
          pixels (angularPixelSize angles distort pixels (w, h)).
Proof.
  intros angles distort pixels w h. unfold angularPixelSize. cbn [fst snd].
  assert (G : forall l, Forall2 (fun pt size => largest w h pt (tth_of angles) (fst size) /\ largest w h pt (eta_of angles) (snd size)) l (compute_max (map angles (expand_pixels l w h)))).
  { induction l as [|x l IH]; [constructor|]. rewrite expand_cons. cbn [app map compute_max]. constructor; [|exact IH]. cbn [fst snd]. split.
    - apply (four_max (fun c1 c2 => Rabs (fst (angles c1) - fst (angles c2)))); [intros c1 c2; split; [reflexivity|apply Rabs_minus_sym]|]. unfold tth_of. congruence.
    - apply (four_max (fun c1 c2 => eta_size (snd (angles c1) - snd (angles c2)))).
      + intros c1 c2. split; [apply eta_turn|]. eapply turn_unique; [apply eta_turn|apply turn_sym, eta_turn].
      + intros c1 c2 d e. apply turn_unique. }
  destruct distort as [f|]; [|apply G]. specialize (G (map f pixels)). revert G. generalize (compute_max (map angles (expand_pixels (map f pixels) w h))). induction pixels as [|x l IH]; intros res G; cbn [map] in G; inversion G; subst; constructor; auto.
Qed.
Print Assumptions C173_sizes.
(** whole turns of eta at any corner do not matter *)
Theorem C173_turns : forall a b j k, eta_size (a + 2 * PI * IZR j - (b + 2 * PI * IZR k)) = eta_size (a - b).
Proof.
  intros a b j k. eapply turn_unique; [apply eta_turn|]. destruct (eta_turn a b) as [H [n E]]. split; [exact H|]. exists (n + j - k)%Z. rewrite minus_IZR, plus_IZR. destruct E as [E|E]; [left|right]; lra.
Qed.
Print Assumptions C173_turns.
(** sides are not all: along a diagonal more may be spanned *)
Theorem C173_extent_refuted : exists angles size c1 c2, angularPixelSize angles None [(0, 0)] (2, 2) = [size] /\ Rabs (fst c1) <= 1 /\ Rabs (snd c1) <= 1 /\ Rabs (fst c2) <= 1 /\ Rabs (snd c2) <= 1 /\
  fst size < Rabs (fst (angles c1) - fst (angles c2)).
Proof.
  exists (fun p => (fst p + snd p, 0)). eexists. exists (-1, -1), (1, 1). split; [reflexivity|]. cbn [fst snd].
  assert (A : forall x, -1 <= x <= 1 -> Rabs x <= 1) by (intros x H; apply Rabs_le; lra). do 4 (split; [apply A; lra|]).
  replace (-1 + -1 - (1 + 1)) with (-4) by ring. rewrite (Rabs_left (-4)) by lra. repeat apply Rmax_lub_lt; apply Rabs_def1; lra.
Qed.
Print Assumptions C173_extent_refuted.
Example C172_ex : map_to_plane mI (V3 0 0 2) mI (V3 0 0 1) (4, 6) = (2, 3) /\ rotation mI /\ crosses mI (place mI (V3 0 0 2) (4, 6)) /\ crosses mI (V3 0 0 1).
Proof.
  split; [unfold map_to_plane; cbn [fst snd]; lin_unfold; f_equal; field|]. split; [split; [unfold orthogonal|]; lin_unfold; [f_equal|]; ring|]. split; unfold crosses, place; cbn [fst snd]; lin_unfold; lra.
Qed.
Print Assumptions C172_ex.
(** a pixel across the branch of eta: the turn between -3 and 3 is 2 pi - 6 *)
Example C173_ex : eta_size (3 - -3) = 2 * PI - 6.
Proof.
  eapply turn_unique; [apply eta_turn|]. pose proof PI_RGT_0. pose proof PI2_3_2. pose proof PI_4. split; [lra|]. exists 1%Z. right. cbn. lra.
Qed.
Print Assumptions C173_ex.
