(** Property C42: the inverse distortion undoes the distortion. *)
From Coq Require Import Reals List String Lra Psatz.
From Verif Require Import Prelude DistModel DistSpec DistProofs.
Import ListNotations.
Local Open Scope R_scope.

(** ** eight displacements by quadrant *)
(** what the distortion does, and when the inverse undoes it: exactly when the quadrant reached has the same displacement *)
Theorem C42_dexela_displacement : forall p q n, quadrant n q ->
  apply (Dexela p) q = Some (fst q + fst (displacement p n), snd q + snd (displacement p n)) /\
  apply_inverse (Dexela p) q = Some (fst q - fst (displacement p n), snd q - snd (displacement p n)).
Proof. intros p q n H. split; [exact (dexela_apply p q n H)|exact (dexela_inv p q n H)]. Qed.
Print Assumptions C42_dexela_displacement.
Theorem C42_dexela_partial : forall p q q' n m, quadrant n q -> quadrant m q' ->
  (apply (Dexela p) q = Some q' -> (apply_inverse (Dexela p) q' = Some q <-> displacement p n = displacement p m)) /\
  (apply_inverse (Dexela p) q = Some q' -> (apply (Dexela p) q' = Some q <-> displacement p n = displacement p m)).
Proof. intros p q q' n m A B. split; intros E; [exact (dexela_there_and_back p q q' n m A E B)|exact (dexela_back_and_there p q q' n m A E B)]. Qed.
Print Assumptions C42_dexela_partial.
Theorem C42_dexela_quadrants : forall q, exists n, quadrant n q /\ forall m, quadrant m q -> m = n.
Proof. intros q. destruct (one_quadrant q) as [n H]. exists n. split; auto. intros m M. exact (quadrant_unique q m n M H). Qed.
Print Assumptions C42_dexela_quadrants.
(** two pixels of displacement across the vertical axis: two points are sent to one, and neither round trip works *)
Theorem C42_dexela_refuted : exists p q q', List.length p = 8%nat /\ apply (Dexela p) q = Some q' /\ apply_inverse (Dexela p) q' <> Some q /\
  exists q2, q2 <> q /\ apply (Dexela p) q2 = Some q'.
Proof.
  set (p := [-2; 0; 0; 0; 0; 0; 0; 0]). exists p, (1, 1), (-1, 1). split; [reflexivity|].
  assert (Q1 : quadrant 1 (1, 1)) by (cbn; lra). assert (Q2 : quadrant 2 (-1, 1)) by (cbn; lra).
  assert (E1 : apply (Dexela p) (1, 1) = Some (-1, 1)). { rewrite (dexela_apply p _ 1 Q1). cbn [fst snd displacement nth p Nat.mul Nat.sub Nat.add]. f_equal. f_equal; ring. }
  assert (E2 : apply (Dexela p) (-1, 1) = Some (-1, 1)). { rewrite (dexela_apply p _ 2 Q2). cbn [fst snd displacement nth p Nat.mul Nat.sub Nat.add]. f_equal. f_equal; ring. }
  split; [exact E1|]. split.
  - intros H. apply (proj1 (C42_dexela_partial p _ _ 1 2 Q1 Q2) E1) in H. cbn in H. injection H. lra.
  - exists (-1, 1). split; [|exact E2]. intros H. injection H. lra.
Qed.
Print Assumptions C42_dexela_refuted.

(** ** affine distortion *)
Theorem C42_quad : forall p, nth 1 p 0 + / 10 ^ 12 <> 0 -> nth 5 p 0 + / 10 ^ 12 <> 0 ->
  (nth 1 p 0 + / 10 ^ 12) * (nth 5 p 0 + / 10 ^ 12) <> nth 2 p 0 * nth 4 p 0 -> forall q,
  (exists q', apply (DexelaQuad p) q = Some q' /\ apply_inverse (DexelaQuad p) q' = Some q) /\
  (exists q', apply_inverse (DexelaQuad p) q = Some q' /\ apply (DexelaQuad p) q' = Some q).
Proof. intros p A B C q. split; [exact (quad_facts p A B C q)|exact (quad_facts' p A B C q)]. Qed.
Print Assumptions C42_quad.
(** the inverse is the affine map of the parameters, up to 1e-12 *)
Theorem C42_quad_map : forall p x y, is_trivial (DexelaQuad p) = false ->
  apply_inverse (DexelaQuad p) (x, y) = Some (nth 0 p 0 + (nth 1 p 0 + / 10 ^ 12) * x + nth 2 p 0 * y, nth 3 p 0 + nth 4 p 0 * x + (nth 5 p 0 + / 10 ^ 12) * y).
Proof. intros p x y H. unfold apply_inverse. rewrite H. reflexivity. Qed.
Print Assumptions C42_quad_map.
Theorem C42_quad_singular_refuted : exists p, List.length p = 6%nat /\ is_trivial (DexelaQuad p) = false /\
  (forall q, apply (DexelaQuad p) q = None) /\ forall q, exists q', apply_inverse (DexelaQuad p) q = Some q'.
Proof.
  exists [0; - / 10 ^ 12; 1; 0; 1; 1]. split; [reflexivity|]. assert (T : 0 < / 10 ^ 12) by (apply Rinv_0_lt_compat; apply pow_lt; lra).
  assert (NT : is_trivial (DexelaQuad [0; - / 10 ^ 12; 1; 0; 1; 1]) = false).
  { destruct (is_trivial _) eqn:E; auto. cbn [is_trivial] in E. pose proof (all_zero_nth _ 2 E) as Z. cbn [nth] in Z. lra. }
  split; [exact NT|]. split; intros [x y].
  - unfold apply. rewrite NT. unfold quad_distortion. cbn [nth]. assert (Z : is0 (- / 10 ^ 12 + / 10 ^ 12) = true) by (apply is0_iff; ring). rewrite Z. reflexivity.
  - unfold apply_inverse. rewrite NT. eexists. reflexivity.
Qed.
Print Assumptions C42_quad_singular_refuted.
Example C42_quad_example : let p := [1; 2; 1; 0; 1; 3] in
  nth 1 p 0 + / 10 ^ 12 <> 0 /\ nth 5 p 0 + / 10 ^ 12 <> 0 /\ (nth 1 p 0 + / 10 ^ 12) * (nth 5 p 0 + / 10 ^ 12) <> nth 2 p 0 * nth 4 p 0.
Proof. cbn [nth]. assert (T : 0 < / 10 ^ 12) by (apply Rinv_0_lt_compat; apply pow_lt; lra). split; [lra|]. split; [lra|]. set (e := / 10 ^ 12) in *. clearbody e. nra. Qed.

(** ** radial distortion *)
(** the azimuth stays, the radius changes by the factor 1 + p0 (r/rho)^p3 cos 2h + p1 (r/rho)^p4 cos 4h + p2 (r/rho)^p5 *)
Theorem C42_ge_law : forall p q r h, polar q r h -> / 2 ^ 26 <= r -> is_trivial (GE p) = false ->
  exists q', apply (GE p) q = Some q' /\
    polar q' (r * (1 + nth 0 p 0 * Rpower (r / rho_max) (nth 3 p 0) * cos (2 * h) + nth 1 p 0 * Rpower (r / rho_max) (nth 4 p 0) * cos (4 * h)
      + nth 2 p 0 * Rpower (r / rho_max) (nth 5 p 0))) h.
Proof.
  intros p q r h P R NT. unfold polar in P. subst q. unfold apply. rewrite NT. eexists. split; [reflexivity|]. rewrite ge_polar by assumption.
  assert (Z : r / RHO_MAX <> 0). { pose proof tiny26. pose proof rho_pos. apply Rgt_not_eq. apply Rdiv_lt_0_compat; lra. }
  unfold rpow. destruct (Req_EM_T (r / RHO_MAX) 0); [contradiction|]. change RHO_MAX with rho_max. unfold polar. cbv zeta. f_equal; ring.
Qed.
Print Assumptions C42_ge_law.
Theorem C42_ge_partial : forall p q r h, quadratic p -> polar q r h -> / 2 ^ 26 <= r -> strength p h < 0 ->
  (3 * - strength p h * (r / rho_max * (r / rho_max)) <= 1 -> exists q', apply (GE p) q = Some q' /\ apply_inverse (GE p) q' = Some q) /\
  (27 * - strength p h * (r / rho_max * (r / rho_max)) <= 4 -> exists q', apply_inverse (GE p) q = Some q' /\ apply (GE p) q' = Some q).
Proof. intros p q r h Q P R S. split; intros B; [exact (ge_there_and_back p q r h Q P R S B)|exact (ge_back_and_there p q r h Q P R S B)]. Qed.
Print Assumptions C42_ge_partial.
(** every point has polar coordinates, so the theorems above speak of every point *)
Theorem C42_polar_coordinates : forall q, exists h, polar q (radius q) h.
Proof.
  intros [x y]. unfold polar, radius. cbn [fst snd]. set (r := sqrt (x * x + y * y)). assert (N : 0 <= x * x + y * y) by (pose proof (Rle_0_sqr x); pose proof (Rle_0_sqr y); unfold Rsqr in *; lra).
  assert (RR : r * r = x * x + y * y) by (apply sqrt_sqrt; exact N). assert (RP : 0 <= r) by apply sqrt_pos.
  destruct RP as [RP|RP]; [|exists 0; rewrite <- RP in *; f_equal; nra].
  assert (XB : -1 <= x / r <= 1). { assert (X : x / r * r = x) by (field; lra). set (z := x / r) in *. assert ((z * r) * (z * r) <= r * r) by (rewrite X, RR; pose proof (Rle_0_sqr y); unfold Rsqr in *; lra). assert (z * z <= 1) by (apply Rmult_le_reg_r with (r * r); [apply Rmult_lt_0_compat; assumption|lra]). split; nra. }
  pose proof (acos_bound (x / r)) as B. assert (C : r * cos (acos (x / r)) = x) by (rewrite cos_acos by assumption; field; lra).
  assert (S0 : 0 <= sin (acos (x / r))) by (apply sin_ge_0; lra). pose proof (cos2_sin2 (acos (x / r))) as CS. set (a := acos (x / r)) in *.
  assert (S2 : (r * sin a) * (r * sin a) = y * y). { replace (r * sin a * (r * sin a)) with (r * r * (cos a * cos a + sin a * sin a) - (r * cos a) * (r * cos a)) by ring. rewrite CS, C, RR. ring. }
  assert (S1 : 0 <= r * sin a) by (apply Rmult_le_pos; lra).
  destruct (Rle_dec 0 y) as [Y|Y].
  - exists a. rewrite C. f_equal. apply Rsqr_inj; unfold Rsqr; lra.
  - exists (- a). rewrite cos_neg, sin_neg, C. f_equal. assert (- y = r * sin a) by (apply Rsqr_inj; unfold Rsqr; lra). lra.
Qed.
Print Assumptions C42_polar_coordinates.
(** outside these limits: nothing comes back where the strength is zero or positive, nor at the origin *)
Theorem C42_ge_nan_refuted : forall p q r h, is_trivial (GE p) = false ->
  (polar q r h -> 0 < r -> 0 <= strength p h -> apply_inverse (GE p) q = None) /\
  (apply (GE p) (0, 0) = Some (0, 0) /\ apply_inverse (GE p) (0, 0) = None).
Proof. intros p q r h NT. split; [intros P R S; exact (ge_nan p q r h P R NT S)|]. destruct (ge_origin p NT). tauto. Qed.
Print Assumptions C42_ge_nan_refuted.
(** other exponents: the inverse uses the cubic formula all the same *)
Theorem C42_ge_exponents_refuted : exists p q q', List.length p = 6%nat /\ apply (GE p) q = Some q' /\ apply_inverse (GE p) q' <> Some q.
Proof.
  set (p := [0; 0; -1 / 4; 1; 1; 1]). pose proof rho_pos as RP.
  assert (ST : strength p 0 = -1 / 4) by (unfold strength; cbn [nth p]; ring). assert (SN : strength p 0 < 0) by (rewrite ST; lra).
  set (r := RHO_MAX). assert (R26 : / 2 ^ 26 <= r). { apply Rle_trans with 1; [|unfold r, RHO_MAX; lra]. rewrite <- Rinv_1. apply Rinv_le_contravar; [lra|]. apply pow_R1_Rle. lra. }
  exists p, (r / 2 * cos 0, r / 2 * sin 0). eexists. split; [reflexivity|].
  assert (R26' : / 2 ^ 26 <= r / 2). { apply Rle_trans with 1; [|unfold r, RHO_MAX; lra]. rewrite <- Rinv_1. apply Rinv_le_contravar; [lra|]. apply pow_R1_Rle. lra. }
  split. { unfold apply. rewrite (not_trivial p 0 SN). rewrite ge_polar by assumption. reflexivity. }
  unfold apply_inverse. rewrite (not_trivial p 0 SN). cbn [nth p].
  assert (P1 : rpow (r / 2 / RHO_MAX) 1 = 1 / 2). { unfold rpow, r. replace (RHO_MAX / 2 / RHO_MAX) with (1 / 2) by (field; lra). destruct (Req_EM_T (1 / 2) 0); [lra|]. apply Rpower_1. lra. }
  rewrite P1. cbv zeta. replace ((0 * (1 / 2) * cos (2 * 0) + 0 * (1 / 2) * cos (4 * 0) + -1 / 4 * (1 / 2) + 1) * (r / 2)) with (7 / 16 * r) by field.
  assert (RR : 0 < 7 / 16 * r) by (unfold r; lra).
  destruct (ge_inverse_root p (7 / 16 * r) 0 RR SN) as (s & E & SP & SB & SE).
  { rewrite ST. replace (7 / 16 * r / RHO_MAX) with (7 / 16) by (unfold r; field; lra). lra. }
  rewrite E. intros H. assert (S : s = r / 2). { injection H as H1 H2. rewrite cos_0 in H1. lra. }
  rewrite ST, S in SE. replace (r / 2 / RHO_MAX) with (1 / 2) in SE by (unfold r; field; lra). lra.
Qed.
Print Assumptions C42_ge_exponents_refuted.
Example C42_ge_example : let p := [1 / 10000; 0; - 1 / 1000; 2; 2; 2] in
  quadratic p /\ polar (100, 0) 100 0 /\ / 2 ^ 26 <= 100 /\ strength p 0 < 0 /\ 27 * - strength p 0 * (100 / rho_max * (100 / rho_max)) <= 4.
Proof.
  cbv zeta. split; [unfold quadratic; cbn [nth]; lra|]. split; [unfold polar; rewrite cos_0, sin_0; f_equal; ring|]. split.
  { apply Rle_trans with 1; [|lra]. rewrite <- Rinv_1. apply Rinv_le_contravar; [lra|]. apply pow_R1_Rle. lra. }
  assert (E : strength [1 / 10000; 0; - 1 / 1000; 2; 2; 2] 0 = - 9 / 10000). { unfold strength. cbn [nth]. rewrite !Rmult_0_r, cos_0. field. }
  rewrite E. unfold rho_max. split; lra.
Qed.

(** ** all models *)
Theorem C42_trivial : forall d q, is_trivial d = true -> apply d q = Some q /\ apply_inverse d q = Some q.
Proof. intros d q H. unfold apply, apply_inverse. rewrite H. split; reflexivity. Qed.
Print Assumptions C42_trivial.
Theorem C42_get_mapping : forall m p,
  (m = "identity"%string -> exists d, get_mapping m p = Ok d /\ forall q, apply d q = Some q /\ apply_inverse d q = Some q) /\
  (m = "Dexela_2923_quad"%string -> List.length p <> 6%nat -> get_mapping m p = Err AssertionError) /\
  (~ In m ["identity"; "nyi"; "GE_41RT"; "Dexela_2923"; "Dexela_2923_quad"]%string -> get_mapping m p = Err KeyError) /\
  (m = "GE_41RT"%string -> get_mapping m p = Ok (GE p)) /\ (m = "Dexela_2923"%string -> get_mapping m p = Ok (Dexela p)) /\
  (m = "Dexela_2923_quad"%string -> List.length p = 6%nat -> get_mapping m p = Ok (DexelaQuad p)).
Proof.
  intros m p. split; [|split; [|split; [|split; [intros ->; reflexivity|split; [intros ->; reflexivity|intros -> H; unfold get_mapping; rewrite H; reflexivity]]]]].
  - intros ->. exists Identity. split; [reflexivity|]. intros q. split; reflexivity.
  - intros -> H. unfold get_mapping. cbn [String.eqb Ascii.eqb Bool.eqb]. destruct (Nat.eqb_spec (List.length p) 6); [contradiction|reflexivity].
  - intros H. unfold get_mapping.
    repeat match goal with |- context [String.eqb m ?x] => destruct (String.eqb_spec m x); [exfalso; apply H; subst m; cbn [In]; tauto|] end. reflexivity.
Qed.
Print Assumptions C42_get_mapping.
