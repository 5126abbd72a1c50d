(** C115: Friedel pairs. *)
From Coq Require Import Reals List Lra Lia Psatz ZArith.
From Verif Require Import Prelude Lin TensorModel RotModel RotSpec RotProofs RotProofs2 XfModel XfSpec XfTrig FpModel FpSpec.
Import ListNotations.
Local Open Scope R_scope.

Lemma map_deg : forall a, exists v, mapAngle a (Some (-180, 180)) ADeg = Ok v /\ -180 <= v <= 180 /\ same_angle 360 a v.
Proof. intros a. destruct (map_angle_lemma a (-180) 180 ADeg 360 eq_refl ltac:(lra)) as (v & E & B & S & _). eauto. Qed.
Lemma map_rad : forall a, exists v, mapAngle a (Some (- PI, PI)) ARad = Ok v /\ - PI <= v <= PI /\ same_angle (2 * PI) a v.
Proof. intros a. destruct (map_angle_lemma a (- PI) PI ARad (2 * PI) eq_refl ltac:(lra)) as (v & E & B & S & _). eauto. Qed.
Lemma deg_rad : forall a b, same_angle 360 a b -> same_angle (2 * PI) (d2r * a) (d2r * b).
Proof. intros a b (k & ->). exists k. unfold d2r. field. Qed.
Lemma same_trig : forall a b, same_angle (2 * PI) a b -> cos b = cos a /\ sin b = sin a.
Proof. intros a b (k & ->). split; [apply turn_cos|apply turn_sin]. Qed.
Lemma same_trans : forall p a b c, same_angle p a b -> same_angle p b c -> same_angle p a c.
Proof. intros p a b c (k & ->) (l & ->). exists (k + l)%Z. rewrite plus_IZR. ring. Qed.
Lemma same_sym : forall p a b, same_angle p a b -> same_angle p b a.
Proof. intros p a b (k & ->). exists (- k)%Z. rewrite opp_IZR. ring. Qed.
Lemma same_plus : forall p a b c, same_angle p a b -> same_angle p (a + c) (b + c).
Proof. intros p a b c (k & ->). exists k. ring. Qed.
Lemma near_zero : forall a y, - PI <= a <= PI -> same_angle (2 * PI) a y -> Rabs a <= Rabs y.
Proof.
  intros a y B (k & ->). pose proof PI_RGT_0. destruct (Z.eq_dec k 0) as [->|N]; [rewrite Rmult_0_l, Rplus_0_r; lra|].
  assert (A : Rabs a <= PI) by (apply Rabs_le; lra). apply Rle_trans with PI; [exact A|].
  destruct (Z_lt_le_dec k 0) as [L|L].
  - assert (IZR k <= -1) by (apply (IZR_le k (-1)); lia). rewrite Rabs_left1 by nra. nra.
  - assert (1 <= IZR k) by (apply (IZR_le 1 k); lia). rewrite Rabs_right by nra. nra.
Qed.
Lemma rotated_z : forall chi x v, vz (rotated (axis chi) x v) = cos x * vz v - sin x * (cos chi * vx v) + (1 - cos x) * (cos chi * vy v + sin chi * vz v) * sin chi.
Proof. intros chi x [a b c]. unfold rotated, axis. lin_unfold. ring. Qed.
Lemma axis_norm : forall chi, norm (axis chi) = 1.
Proof. intros chi. unfold norm. replace (norm2 (axis chi)) with 1; [apply sqrt_1|]. unfold axis. lin_unfold. pose proof (sin2_cos2 chi) as T. unfold Rsqr in T. lra. Qed.
Lemma rotated_norm2 : forall chi x v, norm2 (rotated (axis chi) x v) = norm2 v.
Proof.
  intros chi x v. rewrite <- (proj2 (exp_map_lemma (vscale x (axis chi))) (axis chi) x (axis_norm chi) eq_refl).
  destruct (exp_map_rotation (vscale x (axis chi))) as [O _]. unfold norm2. now rewrite (orth_dot _ _ _ O).
Qed.
Lemma normal_norm2 : forall th eta, norm2 (normal th eta) = 1.
Proof. intros th eta. unfold normal. lin_unfold. pose proof (sin2_cos2 th) as T. pose proof (sin2_cos2 eta) as E. unfold Rsqr in *. nra. Qed.
(** a unit vector at the right height is the normal with its azimuth *)
Lemma unit_normal : forall th w, 0 < cos th -> norm2 w = 1 -> vz w = sin th -> w = normal th (atan2 (vy w) (vx w)).
Proof.
  intros th [a b c] C N Z. cbn [vx vy vz] in *. assert (Q : a * a + b * b = cos th * cos th).
  { unfold norm2, dot in N. cbn [vx vy vz] in N. pose proof (sin2_cos2 th) as T. unfold Rsqr in T. rewrite Z in N. lra. }
  assert (NZ : a <> 0 \/ b <> 0). { destruct (Req_dec a 0) as [->|]; [|now left]. right. intros ->. nra. }
  destruct (atan2_polar a b NZ) as [CC SS]. assert (R : sqrt (a * a + b * b) = cos th) by (rewrite Q; apply sqrt_square; lra). rewrite R in *.
  unfold normal. rewrite CC, SS, Z. f_equal; field; lra.
Qed.

(** what the function computes, for any inclination *)
Lemma one_general : forall o tth0 eta0 ome0, let u := unit_of o in let th := u * tth0 / 2 in
  let eta := if fable o then PI / 2 - u * eta0 else u * eta0 in let chi := match chiTilt o with Some c => u * c | None => 0 end in
  let a := cos chi * cos eta * cos th in let b := - cos chi * sin th in let c := sin th + sin chi * sin eta * cos th in
  0 < sqrt (a * a + b * b) -> Rabs (c / sqrt (a * a + b * b)) <= 1 ->
  exists x ome1 eta1, friedel_one o tth0 eta0 ome0 = Ok (Some (ome1, eta1)) /\ a * sin x + b * cos x = c /\
    (forall y, a * sin y + b * cos y = c -> Rabs x <= Rabs y) /\ - PI <= ome1 <= PI /\ - PI <= eta1 <= PI /\ same_angle (2 * PI) (u * ome0 + x) ome1 /\
    let w := rotated (axis chi) x (vneg (normal th eta)) in same_angle (2 * PI) (atan2 (vy w) (vx w)) eta1.
Proof.
  intros o tth0 eta0 ome0 u th eta chi a b c AB RH. pose proof PI_RGT_0 as PP. unfold friedel_one.
  destruct (map_deg ((if radians o then 180 / PI else 1) * eta0)) as (e & E & _ & SE). rewrite E. cbn [rbind]. cbv zeta.
  set (eta' := d2r * (if fable o then 90 - e else e)).
  assert (ET : cos eta' = cos eta /\ sin eta' = sin eta).
  { apply deg_rad in SE. replace (d2r * ((if radians o then 180 / PI else 1) * eta0)) with (u * eta0) in SE by (unfold d2r, u, unit_of; destruct (radians o); field; lra).
    apply same_trig in SE. destruct SE as [SC SS]. unfold eta', eta. destruct (fable o); [|now split].
    replace (d2r * (90 - e)) with (PI / 2 - d2r * e) by (unfold d2r; field). rewrite !cos_shift, !sin_shift. now split. }
  destruct ET as [EC ES]. rewrite EC, ES.
  replace ((if radians o then 1 else PI / 180) * tth0 / 2) with th by (unfold th, u, unit_of; destruct (radians o); reflexivity).
  replace (match chiTilt o with Some c0 => (if radians o then 1 else PI / 180) * c0 | None => 0 end) with chi by (unfold chi, u, unit_of; destruct (chiTilt o), (radians o); reflexivity).
  change (V3 (cos eta * cos th) (sin eta * cos th) (sin th)) with (normal th eta). change (V3 0 (cos chi) (sin chi)) with (axis chi).
  fold a b c. destruct (Rlt_dec 0 (sqrt (a * a + b * b))) as [_|]; [|contradiction].
  destruct (Rlt_dec 1 (Rabs (c / sqrt (a * a + b * b)))) as [K|_]; [lra|].
  set (r := c / sqrt (a * a + b * b)) in *. assert (RB : -1 <= r <= 1) by (unfold Rabs in RH; destruct (Rcase_abs r); lra).
  destruct (map_rad (asin r - atan2 b a)) as (o1 & E1 & B1 & S1). destruct (map_rad (PI - asin r - atan2 b a)) as (o2 & E2 & B2 & S2).
  rewrite E1. cbn [rbind]. rewrite E2. cbn [rbind].
  assert (SOL : forall y, a * sin y + b * cos y = c <-> same_angle (2 * PI) o1 y \/ same_angle (2 * PI) o2 y).
  { intros y. rewrite harmonic by lra. fold r. rewrite (sin_solutions r _ RB). split.
    - intros [(k & K)|(k & K)]; [left|right].
      + apply (same_trans _ _ (asin r - atan2 b a)); [now apply same_sym|]. exists k. lra.
      + apply (same_trans _ _ (PI - asin r - atan2 b a)); [now apply same_sym|]. exists k. lra.
    - intros [K|K]; [left; pose proof (same_trans _ _ _ _ S1 K) as (k & ->)|right; pose proof (same_trans _ _ _ _ S2 K) as (k & ->)]; exists k; lra. }
  set (x := if Rle_dec (Rabs o1) (Rabs o2) then o1 else o2).
  assert (XS : a * sin x + b * cos x = c). { apply SOL. unfold x. destruct (Rle_dec _ _); [left|right]; exists 0%Z; lra. }
  assert (XM : forall y, a * sin y + b * cos y = c -> Rabs x <= Rabs y).
  { intros y Y. apply SOL in Y. unfold x. destruct Y as [Y|Y]; apply near_zero in Y; try assumption; destruct (Rle_dec _ _); lra. }
  destruct (map_deg (r2d * x)) as (m & E3 & _ & S3). rewrite E3. cbn [rbind].
  destruct (map_deg (m + (if radians o then 180 / PI else 1) * ome0)) as (w1 & E4 & B4 & S4). rewrite E4. cbn [rbind].
  set (w := mv (rotMatOfExpMap (vscale x (axis chi))) (vneg (normal th eta))).
  assert (WE : w = rotated (axis chi) x (vneg (normal th eta))) by (apply (proj2 (exp_map_lemma (vscale x (axis chi))) (axis chi) x (axis_norm chi) eq_refl)).
  destruct (map_deg (r2d * atan2 (vy w) (vx w))) as (e1 & E5 & B5 & S5). rewrite E5. cbn [rbind].
  assert (D : forall z, -180 <= z <= 180 -> - PI <= d2r * z <= PI) by (intros z Z; unfold d2r; split; nra).
  exists x, (d2r * w1), (d2r * e1). split; [reflexivity|]. split; [exact XS|]. split; [exact XM|]. split; [now apply D|]. split; [now apply D|]. split.
  - apply deg_rad in S4. apply (same_trans _ _ (d2r * (m + (if radians o then 180 / PI else 1) * ome0))); [|exact S4].
    replace (d2r * (m + (if radians o then 180 / PI else 1) * ome0)) with (d2r * m + u * ome0) by (unfold d2r, u, unit_of; destruct (radians o); field; lra).
    rewrite (Rplus_comm (u * ome0)). apply same_plus. apply deg_rad in S3. replace (d2r * (r2d * x)) with x in S3 by (unfold d2r, r2d; field; lra). exact S3.
  - cbv zeta. rewrite <- WE. apply deg_rad in S5. replace (d2r * (r2d * atan2 (vy w) (vx w))) with (atan2 (vy w) (vx w)) in S5 by (unfold d2r, r2d; field; lra). exact S5.
Qed.

(** without inclination *)
Lemma one_upright : forall o tth0 eta0 ome0, chiTilt o = None \/ chiTilt o = Some 0 -> 0 < unit_of o * tth0 < PI ->
  let eta := if fable o then PI / 2 - unit_of o * eta0 else unit_of o * eta0 in
  exists x ome1 eta1, friedel_one o tth0 eta0 ome0 = Ok (Some (ome1, eta1)) /\ friedel_pair 0 (unit_of o * tth0) eta x eta1 /\
    same_angle (2 * PI) (unit_of o * ome0 + x) ome1 /\ - PI <= ome1 <= PI /\ - PI <= eta1 <= PI.
Proof.
  intros o tth0 eta0 ome0 CH T eta. pose proof (one_general o tth0 eta0 ome0) as G. cbv zeta in G. fold eta in G. set (th := unit_of o * tth0 / 2) in *.
  assert (CE : match chiTilt o with Some c => unit_of o * c | None => 0 end = 0) by (destruct CH as [->| ->]; ring). rewrite CE in G. rewrite cos_0, sin_0 in G.
  assert (CT : 0 < cos th) by (apply cos_gt_0; unfold th; lra). assert (ST : 0 < sin th) by (apply sin_gt_0; unfold th; lra).
  set (a := 1 * cos eta * cos th) in *. set (b := - (1) * sin th) in *. set (c := sin th + 0 * sin eta * cos th) in *.
  assert (BB : c * c <= a * a + b * b) by (unfold a, b, c; nra).
  assert (AP : 0 < a * a + b * b) by (assert (0 < c * c) by (unfold c; nra); lra). pose proof (sqrt_lt_R0 _ AP) as SP.
  assert (RH : Rabs (c / sqrt (a * a + b * b)) <= 1).
  { rewrite Rabs_right by (apply Rle_ge, Rlt_le, Rdiv_lt_0_compat; [unfold c; lra|exact SP]). apply Rmult_le_reg_r with (sqrt (a * a + b * b)); [exact SP|].
    replace (c / sqrt (a * a + b * b) * sqrt (a * a + b * b)) with c by (field; lra). rewrite Rmult_1_l. apply Rsqr_incr_0; [|unfold c; lra|lra]. unfold Rsqr. rewrite sqrt_sqrt; lra. }
  destruct (G SP RH) as (x & ome1 & eta1 & E & XS & XM & B1 & B2 & SO & SE). exists x, ome1, eta1. split; [exact E|].
  assert (Z : forall y, vz (rotated (axis 0) y (vneg (normal th eta))) = a * sin y + b * cos y).
  { intros y. rewrite rotated_z, cos_0, sin_0. unfold normal, a, b. lin_unfold. ring. }
  assert (CS : c = sin th) by (unfold c; ring). split; [|now split].
  unfold friedel_pair. fold th. split.
  - set (w := rotated (axis 0) x (vneg (normal th eta))) in *. assert (WN : norm2 w = 1).
    { unfold w. rewrite rotated_norm2. rewrite <- (normal_norm2 th eta). generalize (normal th eta). clear. lin. }
    assert (WZ : vz w = sin th) by (unfold w; rewrite Z, XS; exact CS). rewrite (unit_normal th w CT WN WZ) at 1.
    apply same_trig in SE. destruct SE as [SC SS]. unfold normal. now rewrite <- SC, <- SS.
  - intros y Y. apply XM. unfold reflecting in Y. rewrite Z in Y. now rewrite CS.
Qed.
Lemma all_upright : forall o (P : R * R * R -> option (R * R) -> Prop) l, (forall t e w, In (t, e, w) l -> exists r, friedel_one o t e w = Ok r /\ P (t, e, w) r) ->
  exists out, friedel_all o l = Ok out /\ Forall2 P l out.
Proof.
  intros o P l. induction l as [|((t & e) & w) r IH]; intros H; [exists []; split; [reflexivity|constructor]|].
  destruct (H t e w (or_introl eq_refl)) as (x & X & PX). destruct IH as (out & O & F); [intros; apply H; now right|].
  exists (x :: out). cbn [friedel_all]. rewrite X. cbn [rbind]. rewrite O. cbn [rbind]. split; [reflexivity|now constructor].
Qed.
(** one reflection of the arguments and its result, without inclination; [turned_eta] is the azimuth counted from x to y *)
Definition found (o : options) (p : R * R * R) (r : option (R * R)) : Prop := let '(tth0, eta0, ome0) := p in
  let turned_eta := if fable o then PI / 2 - unit_of o * eta0 else unit_of o * eta0 in
  exists x ome1 eta1, r = Some (ome1, eta1) /\ friedel_pair 0 (unit_of o * tth0) turned_eta x eta1 /\
    same_angle (2 * PI) (unit_of o * ome0 + x) ome1 /\ - PI <= ome1 <= PI /\ - PI <= eta1 <= PI.
Lemma any_upright : forall o tth0 eta0 ome0, chiTilt o = None \/ chiTilt o = Some 0 ->
  (forall t, In t tth0 -> 0 < unit_of o * t < PI) -> List.length eta0 = List.length tth0 -> List.length ome0 = List.length tth0 \/ ome0 = [] ->
  exists out, getFriedelPair o tth0 eta0 ome0 = Ok out /\
    Forall2 (found o) (combine (combine tth0 eta0) (match ome0 with [] => repeat 0 (List.length tth0) | _ => ome0 end)) out.
Proof.
  intros o tth0 eta0 ome0 CH T L1 L2. unfold getFriedelPair, tile. rewrite L1, Nat.eqb_refl. cbn [rbind].
  set (omes := match ome0 with [] => repeat 0 (List.length tth0) | _ => ome0 end).
  assert (TO : tile_ome ome0 (List.length tth0) = Ok omes).
  { unfold tile_ome, omes. destruct ome0 as [|w r]; [reflexivity|]. destruct L2 as [L2|]; [|discriminate]. cbn [List.length Nat.eqb]. rewrite <- L2. cbn [List.length].
    cbn [Nat.eqb]. rewrite Nat.eqb_refl. destruct (Nat.eqb_spec (List.length r) 0) as [E|E]; [rewrite E; reflexivity|reflexivity]. }
  rewrite TO. cbn [rbind]. apply all_upright. intros t e w I. assert (IT : In t tth0). { apply in_combine_l in I. now apply in_combine_l in I. }
  destruct (one_upright o t e w CH (T t IT)) as (x & ome1 & eta1 & E & H). eexists. split; [exact E|]. exists x, ome1, eta1. split; [reflexivity|exact H].
Qed.
(** Without inclination, one result for each reflection: the angles returned (in radians) are those of the opposite planes after the
    smallest rotation, from the reference angle, that brings them into reflecting position; there always is one. *)
Theorem C115_pairs_partial : forall o tth0 eta0 ome0, fable o = false -> chiTilt o = None \/ chiTilt o = Some 0 ->
  (forall t, In t tth0 -> 0 < unit_of o * t < PI) -> List.length eta0 = List.length tth0 -> List.length ome0 = List.length tth0 \/ ome0 = [] ->
  exists out, getFriedelPair o tth0 eta0 ome0 = Ok out /\ List.length out = List.length tth0 /\
  forall i t e r, nth_error tth0 i = Some t -> nth_error eta0 i = Some e -> nth_error out i = Some r ->
  exists x ome1 eta1, r = Some (ome1, eta1) /\ friedel_pair 0 (unit_of o * t) (unit_of o * e) x eta1 /\
    same_angle (2 * PI) (unit_of o * nth i ome0 0 + x) ome1 /\ - PI <= ome1 <= PI /\ - PI <= eta1 <= PI.
Proof.
  intros o tth0 eta0 ome0 FA CH T L1 L2. destruct (any_upright o tth0 eta0 ome0 CH T L1 L2) as (out & E & F). exists out. split; [exact E|].
  set (omes := match ome0 with [] => repeat 0 (List.length tth0) | _ => ome0 end) in *. assert (LO : List.length omes = List.length tth0).
  { unfold omes. destruct ome0; [apply repeat_length|]. destruct L2 as [L2|]; [exact L2|discriminate]. }
  assert (FL : forall A B (P : A -> B -> Prop) l m, Forall2 P l m -> List.length m = List.length l) by (clear; intros A B P l m F; induction F; cbn [List.length]; congruence).
  split; [rewrite (FL _ _ _ _ _ F), !combine_length; lia|]. intros i t e r Ht He Hr.
  assert (NW : nth_error omes i = Some (nth i ome0 0)).
  { assert (i < List.length tth0)%nat by (apply nth_error_Some; rewrite Ht; discriminate). unfold omes. destruct ome0 as [|w l]; [|apply nth_error_nth'; destruct L2 as [->|]; [assumption|discriminate]].
    rewrite (nth_error_nth' _ 0) by (now rewrite repeat_length). rewrite nth_repeat. now destruct i. }
  assert (N2 : forall A B (l : list A) (m : list B) j x y, nth_error l j = Some x -> nth_error m j = Some y -> nth_error (combine l m) j = Some (x, y)).
  { clear. induction l as [|p l IH]; intros [|q m] [|j] x y X Y; cbn [nth_error combine] in *; try discriminate; [congruence|now apply IH]. }
  assert (F2 : forall A B (P : A -> B -> Prop) l m, Forall2 P l m -> forall j x y, nth_error l j = Some x -> nth_error m j = Some y -> P x y).
  { clear. intros A B P l m F. induction F as [|p q l m H F IH]; intros [|j] x y X Y; cbn [nth_error] in *; try discriminate; [congruence|now apply (IH j)]. }
  pose proof (F2 _ _ _ _ _ F i _ _ (N2 _ _ _ _ i _ _ (N2 _ _ _ _ i _ _ Ht He) NW) Hr) as K. unfold found in K. rewrite FA in K. exact K.
Qed.
(** In the 'fable' convention azimuths are counted from the y axis; they are read so, but returned counted from the x axis. *)
Theorem C115_fable_refuted : forall o tth0 eta0, fable o = true -> chiTilt o = None -> 0 < unit_of o * tth0 < PI ->
  exists x ome1 eta1, getFriedelPair o [tth0] [eta0] [] = Ok [Some (ome1, eta1)] /\ friedel_pair 0 (unit_of o * tth0) (PI / 2 - unit_of o * eta0) x eta1 /\
    (unit_of o * eta0 = PI / 2 -> ~ friedel_pair 0 (unit_of o * tth0) (PI / 2 - unit_of o * eta0) x (PI / 2 - eta1)).
Proof.
  intros o tth0 eta0 FA CH T. destruct (any_upright o [tth0] [eta0] [] (or_introl CH)) as (out & E & F); [intros t [<-|[]]; exact T|reflexivity|now right|].
  cbn [combine List.length repeat] in F. inversion F as [|p r l m H F' Q1 Q2]; subst. inversion F'; subst. unfold found in H. rewrite FA in H.
  destruct H as (x & ome1 & eta1 & -> & FP & _). exists x, ome1, eta1. split; [exact E|]. split; [exact FP|]. intros Q (C & _). destruct FP as (D & _). rewrite C in D.
  assert (CT : 0 < cos (unit_of o * tth0 / 2)) by (apply cos_gt_0; lra). rewrite Q in *. replace (PI / 2 - PI / 2) with 0 in * by lra.
  assert (YY : vy (rotated (axis 0) x (vneg (normal (unit_of o * tth0 / 2) 0))) = 0). { unfold normal, axis, rotated. rewrite cos_0, sin_0. lin_unfold. ring. }
  rewrite C in YY. unfold normal in YY, D. cbn [vy] in YY. injection D as D1 D2. rewrite sin_shift, cos_shift in *. pose proof (sin2_cos2 eta1) as K. unfold Rsqr in K. nra.
Qed.
(** With an inclination the rotation returned does not bring the planes into reflecting position: for 30 degrees and eta = 0, at every
    Bragg angle for which there is a result. *)
Theorem C115_tilt_refuted : forall tth0, let o := Options false false (Some 30) in 0 < tth0 <= 60 ->
  exists ome1 eta1, getFriedelPair o [tth0] [0] [] = Ok [Some (ome1, eta1)] /\
  forall x, same_angle (2 * PI) ome1 x -> ~ reflecting (PI / 180 * tth0 / 2) (rotated (axis (PI / 6)) x (vneg (normal (PI / 180 * tth0 / 2) 0))).
Proof.
  intros tth0 o T. pose proof PI_RGT_0 as PP. pose proof (one_general o tth0 0 0) as G. cbv zeta in G. cbn [o fable chiTilt unit_of radians] in G. unfold unit_of in G. cbn [radians] in G.
  replace (PI / 180 * 30) with (PI / 6) in G by field. replace (PI / 180 * 0) with 0 in G by ring. set (th := PI / 180 * tth0 / 2) in *. rewrite cos_0, sin_0, cos_PI6, sin_PI6 in G.
  assert (TB : 0 < th <= PI / 6) by (unfold th; split; nra). assert (ST : 0 < sin th) by (apply sin_gt_0; lra).
  assert (SM : sin th <= 1 / 2). { rewrite <- sin_PI6. apply sin_incr_1; lra. }
  assert (S3 : sqrt 3 * sqrt 3 = 3) by (apply sqrt_sqrt; lra). assert (P3 : 0 < sqrt 3) by (apply sqrt_lt_R0; lra).
  assert (P3L : 17 / 10 < sqrt 3 < 18 / 10) by (split; nra).
  pose proof (sin2_cos2 th) as SC. unfold Rsqr in SC.
  assert (AB : (sqrt 3 / 2 * 1 * cos th) * (sqrt 3 / 2 * 1 * cos th) + - (sqrt 3 / 2) * sin th * (- (sqrt 3 / 2) * sin th) = 3 / 4) by nra.
  rewrite AB in G. assert (SQ : sqrt (3 / 4) = sqrt 3 / 2). { rewrite <- (sqrt_square (sqrt 3 / 2)) by lra. f_equal. lra. }
  rewrite SQ in G. destruct G as (x & ome1 & eta1 & E & XS & _ & _ & _ & SO & _); [lra| |].
  { replace (sin th + 1 / 2 * 0 * cos th) with (sin th) by ring. rewrite Rabs_right by (apply Rle_ge, Rlt_le, Rdiv_lt_0_compat; lra).
    apply Rmult_le_reg_r with (sqrt 3 / 2); [lra|]. replace (sin th / (sqrt 3 / 2) * (sqrt 3 / 2)) with (sin th) by (field; lra). lra. }
  exists ome1, eta1. split. { unfold getFriedelPair, tile, tile_ome. cbn [List.length Nat.eqb rbind andb Nat.ltb Nat.leb repeat combine friedel_all]. fold o in E. rewrite E. reflexivity. }
  intros y Y RF. rewrite Rplus_0_l in SO. apply (same_trans _ _ _ _ SO), same_trig in Y. destruct Y as [YC YS].
  unfold reflecting in RF. rewrite rotated_z, YC, YS, cos_PI6, sin_PI6 in RF. unfold normal in RF. rewrite cos_0, sin_0 in RF. unfold vneg, vscale in RF; cbn [vx vy vz] in RF.
  pose proof (COS_bound x) as CB.
  assert (K : sin th * (1 / 4 + (3 / 4 - sqrt 3 / 2) * cos x) = 0) by lra. apply Rmult_integral in K. destruct K as [K|K]; [lra|nra].
Qed.
(** One Bragg angle cannot be given for several azimuths, nor one azimuth for several Bragg angles, nor one reference angle. *)
Theorem C115_single_refuted : forall o tth0 eta0 ome0, 
  (List.length tth0 = 1%nat -> (1 < List.length eta0)%nat -> getFriedelPair o tth0 eta0 ome0 = Err ValueError) /\
  (List.length eta0 = 1%nat -> (1 < List.length tth0)%nat -> getFriedelPair o tth0 eta0 ome0 = Err ValueError) /\
  (List.length eta0 = List.length tth0 -> (1 < List.length tth0)%nat -> List.length ome0 = 1%nat -> getFriedelPair o tth0 eta0 ome0 = Err ValueError).
Proof.
  intros o tth0 eta0 ome0. assert (K : forall m, (1 < m)%nat -> Nat.eqb 1 m = false /\ Nat.eqb m 1 = false) by (intros [|[|m]] M; try lia; now split).
  unfold getFriedelPair, tile, times_ones. split; [|split].
  - intros L M. rewrite L. destruct (K _ M) as [A B]. rewrite A. cbn [Nat.eqb]. now rewrite B.
  - intros L M. rewrite L. destruct (K _ M) as [A B]. rewrite B, A. reflexivity.
  - intros L M Q. rewrite L, Nat.eqb_refl. cbn [rbind]. unfold tile_ome, times_ones. rewrite Q. destruct (K _ M) as [A B]. rewrite (proj2 (Nat.ltb_lt _ _) M), A, B. reflexivity.
Qed.
Example C115_ex : let o := Options false false None in exists x ome1 eta1, getFriedelPair o [60] [0] [] = Ok [Some (ome1, eta1)] /\
  friedel_pair 0 (PI / 3) 0 x eta1 /\ Rabs x = PI / 3.
Proof.
  intros o. pose proof PI_RGT_0 as PP. assert (U : unit_of o = PI / 180) by reflexivity.
  destruct (C115_pairs_partial o [60] [0] [] eq_refl (or_introl eq_refl)) as (out & E & L & H); [intros t [<-|[]]; rewrite U; lra|reflexivity|now right|].
  destruct out as [|r [|]]; try discriminate. destruct (H 0%nat 60 0 r eq_refl eq_refl eq_refl) as (x & ome1 & eta1 & -> & FP & _). exists x, ome1, eta1. split; [exact E|].
  rewrite U in FP. replace (PI / 180 * 60) with (PI / 3) in FP by field. replace (PI / 180 * 0) with 0 in FP by ring. split; [exact FP|]. destruct FP as (A & B).
  replace (PI / 3 / 2) with (PI / 6) in * by field. assert (S3 : sqrt 3 * sqrt 3 = 3) by (apply sqrt_sqrt; lra).
  assert (Z : forall y, vz (rotated (axis 0) y (vneg (normal (PI / 6) 0))) = sin (y - PI / 6)).
  { intros y. rewrite rotated_z, sin_minus. unfold normal. rewrite cos_0, sin_0. lin_unfold. ring. }
  assert (X1 : Rabs x <= PI / 3). { rewrite <- (Rabs_right (PI / 3)) by lra. apply B. unfold reflecting. rewrite Z. f_equal. field. }
  assert (X2 : sin (x - PI / 6) = sin (PI / 6)) by (rewrite <- Z, A; reflexivity).
  assert (SA : asin (sin (PI / 6)) = PI / 6) by (apply asin_sin; lra). pose proof (SIN_bound (PI / 6)) as SB. apply (sin_solutions (sin (PI / 6)) _ SB) in X2. rewrite SA in X2.
  assert (XB : - (PI / 3) <= x <= PI / 3) by (unfold Rabs in X1; destruct (Rcase_abs x); lra).
  destruct X2 as [(k & K)|(k & K)].
  - assert (x = PI / 3 + IZR k * (2 * PI)) by lra. assert (KK : -1 < IZR k < 1) by (split; apply Rmult_lt_reg_r with (2 * PI); lra). destruct KK as [K1 K2]. apply lt_IZR in K1, K2. replace k with 0%Z in * by lia. rewrite Rabs_right; lra.
  - exfalso. assert (x = PI + IZR k * (2 * PI)) by lra. assert (KK : -1 < IZR k < 0) by (split; apply Rmult_lt_reg_r with (2 * PI); lra). destruct KK as [K1 K2]. apply lt_IZR in K1, K2. lia.
Qed.
Print Assumptions C115_pairs_partial.
Print Assumptions C115_fable_refuted.
Print Assumptions C115_tilt_refuted.
Print Assumptions C115_single_refuted.
