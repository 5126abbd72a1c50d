(** The equation of state. *)
From Coq Require Import Reals List Lra Lia Psatz Ranalysis5.
From Verif Require Import Prelude Lin LatModel EosModel EosSpec.
Import ListNotations.
Local Open Scope R_scope.

(** ** the linear compression x with v = v0 / x^3 *)
Definition lin_of (v0 v : R) : R := Rpower (v0 / v) (1 / 3).
Lemma lin_pos : forall v0 v, 0 < lin_of v0 v. Proof. intros. unfold lin_of, Rpower. apply exp_pos. Qed.
Lemma power_lin : forall v0 v n c, c = 1 / 3 * INR n -> Rpower (v0 / v) c = lin_of v0 v ^ n.
Proof. intros v0 v n c ->. unfold lin_of. rewrite <- Rpower_mult, Rpower_pow; [reflexivity|]. unfold Rpower. apply exp_pos. Qed.
Lemma lin_cube : forall v0 v, 0 < v0 -> 0 < v -> lin_of v0 v ^ 3 = v0 / v.
Proof.
  intros v0 v A B. rewrite <- (power_lin v0 v 3 1) by (cbn [INR]; lra). apply Rpower_1. apply Rdiv_lt_0_compat; assumption.
Qed.
Lemma of_lin : forall v0 v, 0 < v0 -> 0 < v -> v = 1 / lin_of v0 v ^ 3 * v0.
Proof. intros v0 v A B. rewrite lin_cube by assumption. field. lra. Qed.
Lemma cube_inj : forall x y, 0 < x -> 0 < y -> x ^ 3 = y ^ 3 -> x = y.
Proof. intros x y X Y H. assert ((x - y) * (x * x + x * y + y * y) = 0) by (ring_simplify; cbn [pow] in *; lra). apply Rmult_integral in H0 as [H0|H0]; [lra|nra]. Qed.
Lemma lin_of_cube : forall v0 x, 0 < v0 -> 0 < x -> lin_of v0 (1 / x ^ 3 * v0) = x.
Proof.
  intros v0 x A B. assert (0 < x ^ 3) by (apply pow_lt; assumption). apply cube_inj; [apply lin_pos|assumption|]. rewrite lin_cube; [field; lra|assumption|].
  apply Rmult_lt_0_compat; [apply Rdiv_lt_0_compat; lra|assumption].
Qed.
Lemma cube_le : forall x, 0 < x -> (1 <= x <-> 1 / x ^ 3 <= 1).
Proof.
  intros x X. assert (C : 0 < x ^ 3) by (apply pow_lt; assumption). split; intros H.
  - assert (1 <= x ^ 3) by (apply pow_R1_Rle; assumption). apply Rmult_le_reg_r with (x ^ 3); [assumption|]. field_simplify; [|lra]. lra.
  - destruct (Rle_or_lt 1 x) as [|L]; [assumption|]. exfalso. assert (D : x ^ 3 < 1) by (cbn [pow]; nra).
    assert (1 / x ^ 3 * x ^ 3 = 1) by (field; lra). assert (1 / x ^ 3 * x ^ 3 <= 1 * x ^ 3) by (apply Rmult_le_compat_r; lra). lra.
Qed.

(** ** the pressure as a polynomial in x *)
Definition ppoly (alpha x : R) : R := (x ^ 7 - x ^ 5) * (1 + alpha * (x ^ 2 - 1)).
Lemma bm_lin : forall v0 k kp v, birch_murnaghan v0 k kp v = 3 * k / 2 * ppoly (3 / 4 * (kp - 4)) (lin_of v0 v).
Proof.
  intros. unfold birch_murnaghan, ppoly. rewrite (power_lin v0 v 7), (power_lin v0 v 5), (power_lin v0 v 2) by (cbn [INR]; lra). ring.
Qed.
Lemma pressure_bm : forall e t v, calc_pressure e (Some v) t = birch_murnaghan (vt e t) (kt e t) (ktp e t) v.
Proof.
  intros. rewrite bm_lin. unfold calc_pressure, ppoly. rewrite (power_lin (vt e t) v 2) by (cbn [INR]; lra). set (x := lin_of (vt e t) v). assert (X : 0 < x) by apply lin_pos.
  assert (Q : Rpower x 2 = x ^ 2) by (rewrite <- Rpower_pow by assumption; f_equal; cbn [INR]; ring).
  replace (1 + 2 * (/ 2 * (x ^ 2 - 1))) with (Rpower x 2) by (rewrite Q; field).
  rewrite Rpower_mult. replace (2 * (5 / 2)) with (INR 5) by (cbn [INR]; lra). rewrite Rpower_pow by assumption. field.
Qed.
Lemma value_poly : forall k kp p x, k <> 0 -> (value (volume_poly k kp p) x = 0 <-> 3 * k / 2 * ppoly (3 / 4 * (kp - 4)) x = p).
Proof.
  intros k kp p x K. assert (E : value (volume_poly k kp p) x = ppoly (3 / 4 * (kp - 4)) x - 2 * p / 3 / k).
  { unfold volume_poly, ppoly. cbn [value length]. set (a := 3 / 4 * (kp - 4)). clearbody a. cbn [pow]. field. assumption. }
  rewrite E. split; intros H.
  - assert (G : ppoly (3 / 4 * (kp - 4)) x = 2 * p / 3 / k) by lra. rewrite G. field. assumption.
  - rewrite <- H. field. assumption.
Qed.
Lemma poly_nonzero : forall k kp p, exists a, In a (volume_poly k kp p) /\ a <> 0.
Proof.
  intros. unfold volume_poly. set (a := 3 / 4 * (kp - 4)). destruct (Req_dec a 0) as [A|A].
  - exists (1 - 2 * a). split; [cbn [In]; tauto|lra].
  - exists a. split; [now left|assumption].
Qed.

(** ** the selection *)
Lemma kept_in : forall l r, In r (kept_all l) <-> exists x, In x l /\ 1 <= x /\ r = 1 / x ^ 3.
Proof.
  induction l as [|y l IH]; intros r; cbn [kept_all]; [split; [intros []|now intros (x & [] & _)]|].
  assert (K : forall r, kept y = Some r <-> 1 <= y /\ r = 1 / y ^ 3).
  { intros q. unfold kept. destruct (Req_EM_T y 0) as [->|N]; [split; [discriminate|lra]|]. destruct (Rle_dec 0 (1 / y ^ 3)) as [P|P].
    - assert (Y : 0 < y).
      { destruct (Rtotal_order y 0) as [L|[L|L]]; [|contradiction|assumption]. exfalso.
        assert (Y2 : 0 < y * y) by nra. assert (C : y ^ 3 < 0) by (replace (y ^ 3) with (y * (y * y)) by ring; nra). assert (1 / y ^ 3 * y ^ 3 = 1) by (field; lra). nra. }
      destruct (Rle_dec (1 / y ^ 3) 1) as [Q|Q].
      + split; [intros [= <-]; split; [now apply cube_le|reflexivity]|now intros [_ ->]].
      + split; [discriminate|]. intros [Z _]. exfalso. apply Q. now apply cube_le.
    - split; [discriminate|]. intros [Z _]. exfalso. apply P. left. apply Rdiv_lt_0_compat; [lra|apply pow_lt; lra]. }
  destruct (kept y) as [q|] eqn:E.
  - destruct (proj1 (K q) eq_refl) as [E1 E2]. cbn [In]. rewrite IH. split.
    + intros [<- | (x & X)]; [exists y; tauto|]. exists x. tauto.
    + intros (x & [<- | X] & Y & ->); [now left|]. right. now exists x.
  - rewrite IH. split; intros (x & X & Y & Z); [exists x; cbn [In]; tauto|]. destruct X as [<- | X]; [|now exists x].
    exfalso. pose proof (proj2 (K r) (conj Y Z)). discriminate.
Qed.
Lemma max_in : forall l x, In (rmaximum x l) (x :: l) /\ forall y, In y (x :: l) -> y <= rmaximum x l.
Proof.
  induction l as [|z l IH]; intros x; cbn [rmaximum fold_left]; [split; [now left|]; intros y [<- | []]; unfold rmaximum; cbn [fold_left]; lra|].
  unfold rmaximum in *. cbn [fold_left]. destruct (IH (Rmax x z)) as [A B]. split.
  - destruct A as [A|A]; [|right; now right]. rewrite <- A. unfold Rmax. destruct (Rle_dec x z); [right; now left|now left].
  - intros y [<- | [<- | Y]]; [apply Rle_trans with (Rmax x z); [apply Rmax_l|apply B; now left]|apply Rle_trans with (Rmax x z); [apply Rmax_r|apply B; now left]|apply B; now right].
Qed.

Section Volume.
Variable roots : list R -> list R.
Hypothesis HR : finds_roots roots.
Lemma volume_found : forall e t p, 0 < vt e t -> kt e t <> 0 ->
  (exists v, 0 < v <= vt e t /\ birch_murnaghan (vt e t) (kt e t) (ktp e t) v = p) ->
  largest_volume (vt e t) (kt e t) (ktp e t) p (calc_volume roots e (Some p) t).
Proof.
  intros e t p V K (v & Bv & Pv). unfold calc_volume. set (v0 := vt e t) in *. set (k := kt e t) in *. set (kp := ktp e t) in *. clearbody v0 k kp.
  assert (ST : forall r, In r (kept_all (roots (volume_poly k kp p))) <-> exists w, 0 < w <= v0 /\ birch_murnaghan v0 k kp w = p /\ w = r * v0).
  { intros r. rewrite kept_in. split.
    - intros (x & X & Y & ->). apply HR in X; [|apply poly_nonzero]. apply value_poly in X; [|assumption].
      assert (C : 0 < x ^ 3) by (apply pow_lt; lra). assert (D : 0 < 1 / x ^ 3) by (apply Rdiv_lt_0_compat; lra).
      assert (E : 1 / x ^ 3 <= 1) by (apply cube_le; lra). exists (1 / x ^ 3 * v0). split; [split; [now apply Rmult_lt_0_compat|nra]|].
      split; [|reflexivity]. rewrite bm_lin, lin_of_cube by lra. assumption.
    - intros (w & W & Pw & E). exists (lin_of v0 w). pose proof (lin_pos v0 w) as L. pose proof (of_lin v0 w ltac:(lra) ltac:(lra)) as O.
      assert (Er : r = 1 / lin_of v0 w ^ 3) by (apply Rmult_eq_reg_r with v0; lra). split; [|split].
      + apply HR; [apply poly_nonzero|]. apply value_poly; [assumption|]. now rewrite <- bm_lin.
      + apply cube_le; [assumption|]. rewrite <- Er. apply Rmult_le_reg_r with v0; lra.
      + assumption. }
  destruct (kept_all (roots (volume_poly k kp p))) as [|r l] eqn:E.
  - exfalso. destruct (proj2 (ST (v / v0))). exists v. split; [assumption|split; [assumption|field; lra]].
  - destruct (max_in l r) as [A B]. apply ST in A as (w & W & Pw & Ew). rewrite <- Ew. split; [assumption|split; [assumption|]].
    intros u U Pu. rewrite Ew. destruct (proj2 (ST (u / v0))) as [Q|Q]; [exists u; split; [assumption|split; [assumption|field; lra]]| |].
    + assert (Z : u / v0 <= rmaximum r l) by (apply B; left; exact Q). apply Rmult_le_compat_r with (r := v0) in Z; [|lra]. replace (u / v0 * v0) with u in Z by (field; lra). assumption.
    + assert (Z : u / v0 <= rmaximum r l) by (apply B; right; exact Q). apply Rmult_le_compat_r with (r := v0) in Z; [|lra]. replace (u / v0 * v0) with u in Z by (field; lra). assumption.
Qed.
Lemma volume_none : forall e t p, 0 < vt e t -> kt e t <> 0 ->
  (forall v, 0 < v <= vt e t -> birch_murnaghan (vt e t) (kt e t) (ktp e t) v <> p) -> calc_volume roots e (Some p) t = vt e t.
Proof.
  intros e t p V K N. unfold calc_volume. destruct (kept_all (roots (volume_poly (kt e t) (ktp e t) p))) as [|r l] eqn:E; [reflexivity|]. exfalso.
  assert (I : In r (kept_all (roots (volume_poly (kt e t) (ktp e t) p)))) by (rewrite E; now left). apply kept_in in I as (x & X & Y & ->).
  apply HR in X; [|apply poly_nonzero]. apply value_poly in X; [|assumption].
  assert (C : 0 < x ^ 3) by (apply pow_lt; lra). assert (D : 0 < 1 / x ^ 3) by (apply Rdiv_lt_0_compat; lra).
  assert (F : 1 / x ^ 3 <= 1) by (apply cube_le; lra). apply (N (1 / x ^ 3 * vt e t)); [split; [now apply Rmult_lt_0_compat|nra]|].
  rewrite bm_lin, lin_of_cube by lra. assumption.
Qed.
End Volume.
