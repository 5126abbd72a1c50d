(** Proofs about the detector distortion functions. *)
From Coq Require Import Reals List String Lra Psatz.
From Verif Require Import Prelude DistModel DistSpec.
Import ListNotations.
Local Open Scope R_scope.

Lemma neg_iff : forall x, neg x = true <-> x < 0.
Proof. intros x. unfold neg. destruct (Rlt_dec x 0); split; intros; auto; discriminate. Qed.
Lemma is0_iff : forall x, is0 x = true <-> x = 0.
Proof. intros x. unfold is0. destruct (Req_EM_T x 0); split; intros; auto; discriminate. Qed.
Lemma is0_false : forall x, x <> 0 -> is0 x = false.
Proof. intros x H. unfold is0. destruct (Req_EM_T x 0); auto. contradiction. Qed.
(** ** Dexela: shifts by quadrant *)
Lemma one_quadrant : forall q, exists n, quadrant n q.
Proof.
  intros [x y]. destruct (Rlt_le_dec x 0), (Rlt_le_dec y 0); [exists 3%nat|exists 2%nat|exists 4%nat|exists 1%nat]; cbn; auto.
Qed.
Ltac quad_cases n := destruct n as [|[|[|[|[|n]]]]]; cbn [quadrant fst snd] in *; try contradiction.
Lemma quadrant_unique : forall q n m, quadrant n q -> quadrant m q -> n = m.
Proof. intros [x y] n m A B. quad_cases n; quad_cases m; try reflexivity; exfalso; lra. Qed.
Lemma dexela_shift : forall p q n, quadrant n q ->
  dexela_distortion p q = (fst q + fst (displacement p n), snd q + snd (displacement p n)) /\
  dexela_inverse_distortion p q = (fst q - fst (displacement p n), snd q - snd (displacement p n)).
Proof.
  intros p [x y] n H. unfold dexela_distortion, dexela_inverse_distortion, neg.
  quad_cases n; destruct (Rlt_dec x 0), (Rlt_dec y 0); try (exfalso; lra); split; reflexivity.
Qed.
Lemma all_zero_nth : forall p i, all_zero p = true -> nth i p 0 = 0.
Proof.
  intros p i H. unfold all_zero in H. rewrite forallb_forall in H. destruct (Nat.lt_ge_cases i (List.length p)) as [L|L].
  - apply is0_iff. apply H. now apply nth_In. - now apply nth_overflow.
Qed.
Lemma displacement_zero : forall p n, all_zero p = true -> displacement p n = (0, 0).
Proof. intros p n H. unfold displacement. now rewrite !all_zero_nth. Qed.
Lemma dexela_apply : forall p q n, quadrant n q -> apply (Dexela p) q = Some (fst q + fst (displacement p n), snd q + snd (displacement p n)).
Proof.
  intros p q n H. unfold apply. cbn [is_trivial]. destruct (all_zero p) eqn:Z.
  - rewrite displacement_zero by assumption. destruct q. cbn [fst snd]. rewrite !Rplus_0_r. reflexivity.
  - now rewrite (proj1 (dexela_shift p q n H)).
Qed.
Lemma dexela_inv : forall p q n, quadrant n q -> apply_inverse (Dexela p) q = Some (fst q - fst (displacement p n), snd q - snd (displacement p n)).
Proof.
  intros p q n H. unfold apply_inverse. cbn [is_trivial]. destruct (all_zero p) eqn:Z.
  - rewrite displacement_zero by assumption. destruct q. cbn [fst snd]. rewrite !Rminus_0_r. reflexivity.
  - now rewrite (proj2 (dexela_shift p q n H)).
Qed.
Lemma pair_shift : forall (x y a b c d : R), Some (x + a - c, y + b - d) = Some (x, y) <-> (a, b) = (c, d).
Proof. intros. split; intros H; injection H as H1 H2; [f_equal; lra|subst; repeat f_equal; lra]. Qed.
Lemma dexela_there_and_back : forall p q q' n m, quadrant n q -> apply (Dexela p) q = Some q' -> quadrant m q' ->
  (apply_inverse (Dexela p) q' = Some q <-> displacement p n = displacement p m).
Proof.
  intros p q q' n m Hn E Hm. rewrite (dexela_apply p q n Hn) in E. rewrite (dexela_inv p _ m Hm). revert E. clear.
  generalize (displacement p n) (displacement p m). destruct q as [x y], q' as [x' y']. intros [a b] [c d]. cbn [fst snd]. intros E. injection E as <- <-. apply pair_shift.
Qed.
Lemma dexela_back_and_there : forall p q q' n m, quadrant n q -> apply_inverse (Dexela p) q = Some q' -> quadrant m q' ->
  (apply (Dexela p) q' = Some q <-> displacement p n = displacement p m).
Proof.
  intros p q q' n m Hn E Hm. rewrite (dexela_inv p q n Hn) in E. rewrite (dexela_apply p _ m Hm). revert E. clear.
  generalize (displacement p n) (displacement p m). destruct q as [x y], q' as [x' y']. intros [a b] [c d]. cbn [fst snd]. intros E. injection E as <- <-.
  split; intros H; injection H as H1 H2; [f_equal; lra|subst; repeat f_equal; lra].
Qed.

(** ** quad: an affine map *)
Lemma quad_facts : forall p, nth 1 p 0 + / 10 ^ 12 <> 0 -> nth 5 p 0 + / 10 ^ 12 <> 0 ->
  (nth 1 p 0 + / 10 ^ 12) * (nth 5 p 0 + / 10 ^ 12) <> nth 2 p 0 * nth 4 p 0 ->
  forall q, exists q', apply (DexelaQuad p) q = Some q' /\ apply_inverse (DexelaQuad p) q' = Some q.
Proof.
  intros p A B C [x y]. unfold apply, apply_inverse. cbn [is_trivial]. destruct (all_zero p) eqn:Z. { eexists. split; reflexivity. }
  unfold quad_distortion, quad_inverse_distortion. set (p1 := nth 1 p 0 + / 10 ^ 12) in *. set (p5 := nth 5 p 0 + / 10 ^ 12) in *. clearbody p1 p5.
  set (p0 := nth 0 p 0). set (p2 := nth 2 p 0) in *. set (p3 := nth 3 p 0). set (p4 := nth 4 p 0) in *. clearbody p0 p2 p3 p4. clear Z.
  assert (D : 1 - p2 * p4 / (p1 * p5) <> 0). { intros E. apply C. assert (Q : p2 * p4 / (p1 * p5) * (p1 * p5) = p2 * p4) by (field; auto). rewrite <- Q. replace (p2 * p4 / (p1 * p5)) with 1 by lra. ring. }
  rewrite !is0_false by assumption. cbn [orb]. eexists. split; [reflexivity|].
  assert (D' : p1 * p5 - p2 * p4 <> 0) by lra.
  cbv beta iota. f_equal. f_equal; field; auto.
Qed.
Lemma quad_facts' : forall p, nth 1 p 0 + / 10 ^ 12 <> 0 -> nth 5 p 0 + / 10 ^ 12 <> 0 ->
  (nth 1 p 0 + / 10 ^ 12) * (nth 5 p 0 + / 10 ^ 12) <> nth 2 p 0 * nth 4 p 0 ->
  forall q, exists q', apply_inverse (DexelaQuad p) q = Some q' /\ apply (DexelaQuad p) q' = Some q.
Proof.
  intros p A B C [x y]. unfold apply, apply_inverse. cbn [is_trivial]. destruct (all_zero p) eqn:Z. { eexists. split; reflexivity. }
  unfold quad_distortion, quad_inverse_distortion. set (p1 := nth 1 p 0 + / 10 ^ 12) in *. set (p5 := nth 5 p 0 + / 10 ^ 12) in *. clearbody p1 p5.
  set (p0 := nth 0 p 0). set (p2 := nth 2 p 0) in *. set (p3 := nth 3 p 0). set (p4 := nth 4 p 0) in *. clearbody p0 p2 p3 p4. clear Z.
  assert (D : 1 - p2 * p4 / (p1 * p5) <> 0). { intros E. apply C. assert (Q : p2 * p4 / (p1 * p5) * (p1 * p5) = p2 * p4) by (field; auto). rewrite <- Q. replace (p2 * p4 / (p1 * p5)) with 1 by lra. ring. }
  eexists. split; [reflexivity|]. rewrite !is0_false by assumption. cbn [orb].
  assert (D' : p1 * p5 - p2 * p4 <> 0) by lra.
  cbv beta iota. f_equal. f_equal; field; auto.
Qed.

(** ** GE: radial distortion *)
Lemma cos2_sin2 : forall h, cos h * cos h + sin h * sin h = 1.
Proof. intros h. pose proof (sin2_cos2 h) as H. unfold Rsqr in H. lra. Qed.
Lemma cos_double : forall h, cos (2 * h) = 2 * (cos h * cos h) - 1.
Proof. intros h. rewrite cos_2a_cos. ring. Qed.
Lemma cos_quad : forall h, cos (4 * h) = 2 * (cos (2 * h) * cos (2 * h)) - 1.
Proof. intros h. replace (4 * h) with (2 * (2 * h)) by ring. apply cos_double. Qed.
Lemma polar_radius : forall r h, 0 <= r -> sqrt (r * cos h * (r * cos h) + r * sin h * (r * sin h)) = r.
Proof. intros r h H. replace (r * cos h * (r * cos h) + r * sin h * (r * sin h)) with (r * r * (cos h * cos h + sin h * sin h)) by ring. rewrite cos2_sin2, Rmult_1_r. now apply sqrt_square. Qed.
Lemma tiny26 : 0 < / 2 ^ 26. Proof. apply Rinv_0_lt_compat. apply pow_lt. lra. Qed.
Lemma ge_polar : forall p r h, / 2 ^ 26 <= r ->
  ge_distortion p (r * cos h, r * sin h) =
    (let r' := (nth 0 p 0 * rpow (r / RHO_MAX) (nth 3 p 0) * cos (2 * h) + nth 1 p 0 * rpow (r / RHO_MAX) (nth 4 p 0) * cos (4 * h)
       + nth 2 p 0 * rpow (r / RHO_MAX) (nth 5 p 0) + 1) * r in (r' * cos h, r' * sin h)).
Proof.
  intros p r h H. pose proof tiny26 as T. unfold ge_distortion. rewrite polar_radius by lra. destruct (Rlt_dec r (/ 2 ^ 26)) as [L|L]. { exfalso. lra. }
  replace (r * (1 / RHO_MAX)) with (r / RHO_MAX) by (unfold Rdiv; ring).
  replace (r * cos h * (1 / r)) with (cos h) by (field; lra). replace (r * sin h * (1 / r)) with (sin h) by (field; lra).
  replace (cos h * cos h - sin h * sin h) with (cos (2 * h)) by (rewrite cos_double; pose proof (cos2_sin2 h); lra).
  replace (cos (2 * h) * cos (2 * h) - 2 * sin h * cos h * (2 * sin h * cos h)) with (cos (4 * h)).
  2:{ replace (2 * sin h * cos h * (2 * sin h * cos h)) with (sin (2 * h) * sin (2 * h)) by (rewrite sin_2a; ring). rewrite cos_quad. pose proof (cos2_sin2 (2 * h)). lra. }
  reflexivity.
Qed.
Lemma rpow_2 : forall x, 0 < x -> rpow x 2 = x * x.
Proof. intros x H. unfold rpow. destruct (Req_EM_T x 0); [lra|]. replace 2 with (INR 2) by (cbn; lra). rewrite Rpower_pow by assumption. cbn [pow]. ring. Qed.
Lemma rho_pos : 0 < RHO_MAX. Proof. unfold RHO_MAX. lra. Qed.
Lemma ge_cubic : forall p r h, quadratic p -> / 2 ^ 26 <= r ->
  ge_distortion p (r * cos h, r * sin h) = (let r' := r * (1 + strength p h * (r / RHO_MAX * (r / RHO_MAX))) in (r' * cos h, r' * sin h)).
Proof.
  intros p r h (A & B & C) H. pose proof tiny26 as T. rewrite ge_polar by assumption. rewrite A, B, C. rewrite rpow_2 by (apply Rdiv_lt_0_compat; [lra|apply rho_pos]).
  cbv zeta. unfold strength. f_equal; ring.
Qed.
Lemma cos_triple : forall x, cos (3 * x) = 4 * (cos x * cos x * cos x) - 3 * cos x.
Proof.
  intros x. replace (3 * x) with (2 * x + x) by ring. rewrite cos_plus, cos_double, sin_2a. pose proof (cos2_sin2 x) as H.
  replace (2 * sin x * cos x * sin x) with (2 * cos x * (sin x * sin x)) by ring. replace (sin x * sin x) with (1 - cos x * cos x) by lra. ring.
Qed.
(** the branch of the arc cosine formula *)
Lemma root_branch : forall a, -1 <= a < 0 -> let c := cos (acos a / 3 + PI * 4 / 3) in 0 < c <= 1 / 2 /\ 4 * (c * c * c) - 3 * c = a.
Proof.
  intros a A c. pose proof PI_RGT_0 as P. pose proof (acos_bound a) as B. assert (CA : cos (acos a) = a) by (apply cos_acos; lra).
  assert (L : PI / 2 < acos a). { destruct (Rlt_le_dec (PI / 2) (acos a)) as [|N]; auto. assert (cos (PI / 2) <= cos (acos a)) by (apply cos_decr_1; lra). rewrite cos_PI2 in *. lra. }
  set (f := acos a / 3 + PI * 4 / 3) in *.
  assert (E : c = cos (2 * PI - f)). { unfold c. replace (2 * PI - f) with (- f + 2 * INR 1 * PI) by (cbn [INR]; ring). now rewrite cos_period, cos_neg. }
  assert (R1 : PI / 3 <= 2 * PI - f < PI / 2) by (unfold f; lra).
  split.
  - rewrite E. split; [apply cos_gt_0; lra|]. rewrite <- cos_PI3. apply cos_decr_1; lra.
  - unfold c. rewrite <- cos_triple. unfold f. replace (3 * (acos a / 3 + PI * 4 / 3)) with (acos a + 2 * INR 2 * PI) by (cbn [INR]; field). now rewrite cos_period.
Qed.
Lemma cubic_injective : forall k r s, 0 < k -> 0 <= r -> 0 <= s -> 3 * k * (r * r) <= 1 -> 3 * k * (s * s) <= 1 ->
  r - k * (r * r * r) = s - k * (s * s * s) -> r = s.
Proof.
  intros k r s K R S A B E.
  assert (F : (r - s) * (1 - k * (r * r + r * s + s * s)) = 0) by lra.
  destruct (Rmult_integral _ _ F) as [G|G]; [lra|].
  assert (Z : k * ((r - s) * (r - s)) = 0).
  { assert (P : 0 <= k * ((r - s) * (r - s))). { apply Rmult_le_pos; [lra|]. apply Rle_0_sqr. }
    assert (Q : k * (r * s) = 1 - k * (r * r) - k * (s * s)) by lra. assert (W : k * ((r - s) * (r - s)) = k * (r * r) + k * (s * s) - 2 * (k * (r * s))) by ring. rewrite Q in W. lra. }
  destruct (Rmult_integral _ _ Z) as [G'|G']; [lra|]. destruct (Rmult_integral _ _ G'); lra.
Qed.
Lemma ge_inverse_root : forall p r h, 0 < r -> strength p h < 0 ->
  27 * - strength p h * (r / RHO_MAX * (r / RHO_MAX)) <= 4 ->
  exists s, ge_inverse_distortion p (r * cos h, r * sin h) = Some (s * cos h, s * sin h) /\ 0 < s /\
    3 * - strength p h * (s / RHO_MAX * (s / RHO_MAX)) <= 1 /\ s * (1 + strength p h * (s / RHO_MAX * (s / RHO_MAX))) = r.
Proof.
  intros p r h R S B. unfold ge_inverse_distortion. rewrite polar_radius by lra. rewrite is0_false by lra.
  replace (r * cos h * / r) with (cos h) by (field; lra). rewrite <- cos_double, <- cos_quad.
  replace (- nth 0 p 0 * cos (2 * h) - nth 1 p 0 * cos (4 * h) - nth 2 p 0) with (- strength p h) by (unfold strength; ring).
  set (k := - strength p h) in *. assert (K : 0 < k) by (unfold k; lra). replace (strength p h) with (- k) by (unfold k; ring). clearbody k. clear S.
  destruct (Rle_dec k 0) as [L|_]; [lra|]. pose proof rho_pos as RP.
  set (z := sqrt k). assert (ZZ : z * z = k) by (apply sqrt_sqrt; lra). assert (ZP : 0 < z) by (apply sqrt_lt_R0; assumption). clearbody z.
  set (t := sqrt 3). assert (TT : t * t = 3) by (apply sqrt_sqrt; lra). assert (TP : 0 < t) by (apply sqrt_lt_R0; lra). clearbody t.
  set (w := RHO_MAX / z). assert (W : w * z = RHO_MAX) by (unfold w; field; lra). assert (WP : 0 < w) by (unfold w; apply Rdiv_lt_0_compat; assumption). clearbody w.
  set (x := r / RHO_MAX) in *. assert (X : x * RHO_MAX = r) by (unfold x; field; lra). assert (XP : 0 < x) by (unfold x; apply Rdiv_lt_0_compat; assumption). clearbody x.
  set (a := -3 / 2 * t * r / w).
  assert (EA : a = -3 / 2 * t * (x * z)). { unfold a. rewrite <- X, <- W. field. lra. }
  assert (XZ : 0 < x * z) by (apply Rmult_lt_0_compat; assumption).
  assert (AB : -1 <= a < 0).
  { rewrite EA. assert (Q : 27 * ((x * z) * (x * z)) <= 4) by (replace ((x * z) * (x * z)) with (z * z * (x * x)) by ring; rewrite ZZ; lra).
    set (y := x * z) in *. assert (0 < t * y) by (apply Rmult_lt_0_compat; assumption). split; [|lra].
    assert (YY : (3 * (t * y)) * (3 * (t * y)) <= 4) by (replace ((3 * (t * y)) * (3 * (t * y))) with (9 * (t * t) * (y * y)) by ring; rewrite TT; lra). nra. }
  clearbody a. destruct (Rlt_dec a (-1)) as [L|_]; [lra|]. destruct (root_branch a AB) as [CB CC]. set (c := cos (acos a / 3 + PI * 4 / 3)) in *. clearbody c.
  exists (2 / t * w * c). split. { f_equal. f_equal; field; repeat split; lra. }
  set (s := 2 / t * w * c). assert (SP : 0 < s). { unfold s. repeat apply Rmult_lt_0_compat; try lra. apply Rinv_0_lt_compat. lra. }
  assert (SR : s / RHO_MAX = 2 / t * c / z). { unfold s. rewrite <- W. field. repeat split; lra. }
  split; [exact SP|]. rewrite SR.
  assert (KS : k * (2 / t * c / z * (2 / t * c / z)) = 4 / 3 * (c * c)). { rewrite <- ZZ. replace (z * z * (2 / t * c / z * (2 / t * c / z))) with (4 / (t * t) * (c * c)) by (field; repeat split; lra). rewrite TT. field. }
  split.
  - replace (3 * k * (2 / t * c / z * (2 / t * c / z))) with (3 * (k * (2 / t * c / z * (2 / t * c / z)))) by ring. rewrite KS. nra.
  - replace (1 + - k * (2 / t * c / z * (2 / t * c / z))) with (1 - k * (2 / t * c / z * (2 / t * c / z))) by ring. rewrite KS. unfold s.
    replace (2 / t * w * c * (1 - 4 / 3 * (c * c))) with (- (2 / 3) / t * w * (4 * (c * c * c) - 3 * c)) by (field; lra). rewrite CC, EA.
    replace (- (2 / 3) / t * w * (-3 / 2 * t * (x * z))) with (x * (w * z)) by (field; lra). rewrite W, X. reflexivity.
Qed.
Lemma not_trivial : forall p h, strength p h < 0 -> is_trivial (GE p) = false.
Proof.
  intros p h S. cbn [is_trivial]. destruct (is0 (nth 0 p 0)) eqn:A; [|reflexivity]. destruct (is0 (nth 1 p 0)) eqn:B; [|reflexivity]. destruct (is0 (nth 2 p 0)) eqn:C; [|reflexivity].
  apply is0_iff in A, B, C. unfold strength in S. rewrite A, B, C in S. exfalso. lra.
Qed.
Lemma ge_back_and_there : forall p q r h, quadratic p -> polar q r h -> / 2 ^ 26 <= r -> strength p h < 0 ->
  27 * - strength p h * (r / RHO_MAX * (r / RHO_MAX)) <= 4 -> exists q', apply_inverse (GE p) q = Some q' /\ apply (GE p) q' = Some q.
Proof.
  intros p q r h Q P R S B. unfold polar in P. subst q. pose proof tiny26 as T. assert (R0 : 0 < r) by lra. destruct (ge_inverse_root p r h R0 S B) as (s & E & SP & SB & SE).
  exists (s * cos h, s * sin h). unfold apply_inverse, apply. rewrite (not_trivial p h S). split; [exact E|].
  assert (RS : r <= s). { rewrite <- SE. pose proof rho_pos as RP. set (y := s / RHO_MAX). assert (0 < y) by (apply Rdiv_lt_0_compat; assumption). assert (0 <= s * (- strength p h * (y * y))) by (apply Rmult_le_pos; [lra|]; apply Rmult_le_pos; [lra|]; apply Rle_0_sqr). lra. }
  rewrite ge_cubic by (auto; lra). cbv zeta. rewrite SE. reflexivity.
Qed.
Lemma ge_there_and_back : forall p q r h, quadratic p -> polar q r h -> / 2 ^ 26 <= r -> strength p h < 0 ->
  3 * - strength p h * (r / RHO_MAX * (r / RHO_MAX)) <= 1 -> exists q', apply (GE p) q = Some q' /\ apply_inverse (GE p) q' = Some q.
Proof.
  intros p q r h Q P R S B. unfold polar in P. subst q. pose proof tiny26 as T. assert (R0 : 0 < r) by lra. pose proof rho_pos as RP.
  set (r' := r * (1 + strength p h * (r / RHO_MAX * (r / RHO_MAX)))). exists (r' * cos h, r' * sin h). unfold apply_inverse, apply. rewrite (not_trivial p h S). split. { now rewrite ge_cubic. }
  set (x := r / RHO_MAX) in *. assert (XR : x * RHO_MAX = r) by (unfold x; field; lra). assert (XP : 0 < x) by (unfold x; apply Rdiv_lt_0_compat; assumption).
  set (k := - strength p h) in *. assert (K : 0 < k) by (unfold k; lra). assert (KE : strength p h = - k) by (unfold k; ring).
  assert (RE : r' = r * (1 - k * (x * x))) by (unfold r'; rewrite KE; ring).
  assert (RP' : 0 < r'). { rewrite RE. apply Rmult_lt_0_compat; [assumption|]. lra. }
  assert (BX : 27 * k * (r' / RHO_MAX * (r' / RHO_MAX)) <= 4).
  { assert (E : r' / RHO_MAX = x * (1 - k * (x * x))) by (rewrite RE, <- XR; field; lra). rewrite E.
    set (u := k * (x * x)) in *. assert (U : 0 <= u <= 1 / 3). { unfold u. split; [|lra]. apply Rmult_le_pos; [lra|apply Rle_0_sqr]. }
    replace (27 * k * (x * (1 - u) * (x * (1 - u)))) with (27 * u * ((1 - u) * (1 - u))) by (unfold u; ring).
    assert (F : 4 - 27 * u * ((1 - u) * (1 - u)) = (1 - 3 * u) * (1 - 3 * u) * (4 - 3 * u)) by ring.
    assert (0 <= (1 - 3 * u) * (1 - 3 * u) * (4 - 3 * u)) by (apply Rmult_le_pos; [apply Rle_0_sqr|lra]). lra. }
  destruct (ge_inverse_root p r' h RP' S) as (s & E & SP & SB & SE). { exact BX. } rewrite E.
  assert (s = r); [|now subst s].
  set (y := s / RHO_MAX) in *. assert (YR : y * RHO_MAX = s) by (unfold y; field; lra).
  assert (XY : x = y). { apply (cubic_injective k); auto; try lra. { unfold y. apply Rlt_le. apply Rdiv_lt_0_compat; assumption. }
    apply Rmult_eq_reg_r with RHO_MAX; [|lra]. rewrite KE in SE. replace ((x - k * (x * x * x)) * RHO_MAX) with (x * RHO_MAX * (1 - k * (x * x))) by ring. replace ((y - k * (y * y * y)) * RHO_MAX) with (y * RHO_MAX * (1 + - k * (y * y))) by ring. rewrite XR, YR, SE, RE. reflexivity. }
  rewrite <- YR, <- XR, XY. reflexivity.
Qed.
Lemma ge_nan : forall p q r h, polar q r h -> 0 < r -> is_trivial (GE p) = false -> 0 <= strength p h -> apply_inverse (GE p) q = None.
Proof.
  intros p q r h P R NT S. unfold polar in P. subst q. unfold apply_inverse. rewrite NT. unfold ge_inverse_distortion. rewrite polar_radius by lra. rewrite is0_false by lra.
  replace (r * cos h * / r) with (cos h) by (field; lra). rewrite <- cos_double, <- cos_quad.
  replace (- nth 0 p 0 * cos (2 * h) - nth 1 p 0 * cos (4 * h) - nth 2 p 0) with (- strength p h) by (unfold strength; ring).
  destruct (Rle_dec (- strength p h) 0) as [_|N]; [reflexivity|exfalso; lra].
Qed.
Lemma ge_origin : forall p, is_trivial (GE p) = false -> apply_inverse (GE p) (0, 0) = None /\ apply (GE p) (0, 0) = Some (0, 0).
Proof.
  intros p NT. unfold apply_inverse, apply. rewrite NT. unfold ge_inverse_distortion, ge_distortion. replace (0 * 0 + 0 * 0) with 0 by ring. rewrite sqrt_0.
  unfold is0. destruct (Req_EM_T 0 0); [|contradiction]. split; [reflexivity|]. destruct (Rlt_dec 0 (/ 2 ^ 26)) as [_|N]. 2:{ exfalso. apply N. exact tiny26. }
  f_equal. f_equal; ring.
Qed.
