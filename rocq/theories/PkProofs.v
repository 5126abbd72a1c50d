(** Lemmas for C133 and C134 *)
From Coq Require Import Reals List ZArith Lra Lia.
From Verif Require Import Prelude PkModel PkSpec.
Import ListNotations.
Local Open Scope R_scope.
Local Notation length := List.length.

Lemma ln2_pos : 0 < ln 2.
Proof. rewrite <- ln_1. apply ln_increasing; lra. Qed.
Lemma gwf_sq : gauss_width_fact ^ 2 = 8 * ln 2.
Proof. unfold gauss_width_fact. pose proof ln2_pos. replace ((2 * sqrt (2 * ln 2)) ^ 2) with (4 * (sqrt (2 * ln 2) * sqrt (2 * ln 2))) by ring. rewrite sqrt_sqrt; lra. Qed.
Lemma gwf_pos : 0 < gauss_width_fact.
Proof. unfold gauss_width_fact. pose proof ln2_pos. assert (0 < sqrt (2 * ln 2)) by (apply sqrt_lt_R0; lra). lra. Qed.
Lemma sigma_ne F : F <> 0 -> F / gauss_width_fact <> 0.
Proof. intros H E. pose proof gwf_pos. apply H. replace F with (F / gauss_width_fact * gauss_width_fact) by (field; lra). rewrite E. ring. Qed.
(** the exponent of the code is that of the textbook *)
Lemma expo_eq d F : F <> 0 -> - d ^ 2 / (2 * (F / gauss_width_fact) ^ 2) = - (2 * d / F) ^ 2 * ln 2.
Proof.
  intros H. pose proof gwf_pos. pose proof gwf_sq. pose proof ln2_pos.
  replace (2 * (F / gauss_width_fact) ^ 2) with (2 * F ^ 2 / gauss_width_fact ^ 2) by (field; lra). rewrite gwf_sq. field. split; lra.
Qed.
Lemma gauss_exp A x0 F x : gauss A x0 F x = A * exp (- (2 * (x - x0) / F) ^ 2 * ln 2).
Proof. reflexivity. Qed.

Lemma unit_gaussian_ok x0 F r : F <> 0 -> exists g, unit_gaussian (x0 :: F :: r) = Ok g /\ forall x, g x = Some (gauss 1 x0 F x).
Proof.
  intros H. eexists. split; [reflexivity|]. intros x. cbv beta. destruct (Req_EM_T (F / gauss_width_fact) 0) as [E|E]; [destruct (sigma_ne F H E)|].
  rewrite expo_eq by exact H. rewrite gauss_exp. f_equal. ring.
Qed.
Lemma lor_den d F : F <> 0 -> 0 < d ^ 2 + (F / lorentz_width_fact) ^ 2.
Proof. intros H. unfold lorentz_width_fact. assert (0 < (F / 2) ^ 2) by (assert (F / 2 <> 0) by lra; rewrite <- Rsqr_pow2; apply Rlt_0_sqr; assumption). pose proof (pow2_ge_0 d). lra. Qed.
Lemma lor_den' d F : 0 < 1 + (2 * d / F) ^ 2.
Proof. pose proof (pow2_ge_0 (2 * d / F)). lra. Qed.
Lemma lor_eq d F : F <> 0 -> (F / lorentz_width_fact) ^ 2 / (d ^ 2 + (F / lorentz_width_fact) ^ 2) = 1 / (1 + (2 * d / F) ^ 2).
Proof.
  intros H. pose proof (lor_den d F H) as H1. pose proof (lor_den' d F) as H2. unfold lorentz_width_fact in *.
  assert (E : d ^ 2 + (F / 2) ^ 2 = (F / 2) ^ 2 * (1 + (2 * d / F) ^ 2)) by (field; exact H).
  assert ((F / 2) ^ 2 <> 0) by (intros G; rewrite E, G in H1; lra).
  rewrite E. set (D := 1 + (2 * d / F) ^ 2) in *. set (K := (F / 2) ^ 2) in *. field. split; lra.
Qed.
Lemma unit_lorentzian_ok x0 F r : F <> 0 -> exists g, unit_lorentzian (x0 :: F :: r) = Ok g /\ forall x, g x = Some (lorentz 1 x0 F x).
Proof.
  intros H. eexists. split; [reflexivity|]. intros x. cbv beta. pose proof (lor_den (x - x0) F H) as L.
  destruct (Req_EM_T ((x - x0) ^ 2 + (F / lorentz_width_fact) ^ 2) 0) as [E|E]; [lra|]. rewrite lor_eq by exact H. reflexivity.
Qed.
Lemma gauss_scale A x0 F x : gauss A x0 F x = A * gauss 1 x0 F x.
Proof. unfold gauss. ring. Qed.
Lemma lorentz_scale A x0 F x : lorentz A x0 F x = A * lorentz 1 x0 F x.
Proof. unfold lorentz. pose proof (lor_den' (x - x0) F). set (D := 1 + (2 * (x - x0) / F) ^ 2) in *. field. lra. Qed.
Lemma mixed_scale A x0 F n x : mixed A x0 F n x = A * mixed 1 x0 F n x.
Proof. unfold mixed. rewrite (gauss_scale A), (lorentz_scale A). ring. Qed.
Lemma unit_pvoigt_ok x0 F n r : F <> 0 -> exists g, unit_pvoigt1d (x0 :: F :: n :: r) = Ok g /\ forall x, g x = Some (mixed 1 x0 F n x).
Proof.
  intros H. unfold unit_pvoigt1d. cbn [at_ nth_error rbind firstn].
  destruct (unit_gaussian_ok x0 F [] H) as (g & -> & Hg). destruct (unit_lorentzian_ok x0 F [] H) as (l & -> & Hl). cbn [rbind].
  eexists. split; [reflexivity|]. intros x. cbv beta. rewrite Hg, Hl. reflexivity.
Qed.

(** ** one dimension *)
Definition is_profile (f : result profile) (g : R -> R) : Prop := exists h, f = Ok h /\ forall x, h x = Some (g x).
Lemma gaussian_no_bg_ok A x0 F r : F <> 0 -> is_profile (gaussian1d_no_bg (A :: x0 :: F :: r)) (gauss A x0 F).
Proof.
  intros H. unfold gaussian1d_no_bg. cbn [at_ nth_error rbind pick]. destruct (unit_gaussian_ok x0 F [] H) as (g & -> & Hg). cbn [rbind].
  eexists. split; [reflexivity|]. intros x. unfold times. rewrite Hg. cbn [nmul]. rewrite (gauss_scale A). reflexivity.
Qed.
Lemma lorentzian_no_bg_ok A x0 F r : F <> 0 -> is_profile (lorentzian1d_no_bg (A :: x0 :: F :: r)) (lorentz A x0 F).
Proof.
  intros H. unfold lorentzian1d_no_bg. cbn [at_ nth_error rbind pick]. destruct (unit_lorentzian_ok x0 F [] H) as (g & -> & Hg). cbn [rbind].
  eexists. split; [reflexivity|]. intros x. unfold times. rewrite Hg. cbn [nmul]. rewrite (lorentz_scale A). reflexivity.
Qed.
Lemma pvoigt_no_bg_ok A x0 F n r : F <> 0 -> is_profile (pvoigt1d_no_bg (A :: x0 :: F :: n :: r)) (mixed A x0 F n).
Proof.
  intros H. unfold pvoigt1d_no_bg. cbn [at_ nth_error rbind pick]. destruct (unit_pvoigt_ok x0 F n [] H) as (g & -> & Hg). cbn [rbind].
  eexists. split; [reflexivity|]. intros x. unfold times. rewrite Hg. cbn [nmul]. rewrite (mixed_scale A). reflexivity.
Qed.
Lemma split_no_bg_ok A x0 Fl Fr nl nr r : Fl <> 0 -> Fr <> 0 ->
  is_profile (split_pvoigt1d_no_bg (A :: x0 :: Fl :: Fr :: nl :: nr :: r)) (two_sided A x0 Fl Fr nl nr).
Proof.
  intros Hl Hr. unfold split_pvoigt1d_no_bg. cbn [at_ nth_error rbind pick].
  destruct (unit_pvoigt_ok x0 Fr nr [] Hr) as (g & -> & Hg). cbn [rbind at_ nth_error pick].
  destruct (unit_pvoigt_ok x0 Fl nl [] Hl) as (l & -> & Hll). cbn [rbind].
  eexists. split; [reflexivity|]. intros x. cbv beta. unfold two_sided. rewrite Hg, Hll. cbn [nmul].
  rewrite (mixed_scale A x0 Fl), (mixed_scale A x0 Fr). destruct (Rle_dec x0 x), (Rlt_dec x x0); try lra; reflexivity.
Qed.
Lemma over_line f g c0 c1 xs : is_profile f g ->
  over (do h <- f; Ok (with_line c0 c1 h)) xs = Ok (map (on_line g c0 c1) xs).
Proof.
  intros (h & -> & Hh). cbn [rbind over]. f_equal. apply map_ext. intros x. unfold with_line, on_line. rewrite Hh. cbn [nadd]. f_equal. ring.
Qed.

(** ** shapes *)
Lemma gauss_at A x0 F : gauss A x0 F x0 = A.
Proof. rewrite gauss_exp. replace (- (2 * (x0 - x0) / F) ^ 2 * ln 2) with 0. rewrite exp_0. ring. unfold Rdiv. ring. Qed.
Lemma gauss_sq A x0 F x k : (2 * (x - x0) / F) ^ 2 = k -> gauss A x0 F x = A * exp (- k * ln 2).
Proof. intros <-. reflexivity. Qed.
Lemma half_sq x0 F : F <> 0 -> (2 * (x0 + F / 2 - x0) / F) ^ 2 = 1 /\ (2 * (x0 - F / 2 - x0) / F) ^ 2 = 1.
Proof. intros H. split; field; exact H. Qed.
Lemma exp_half : exp (Ropp 1 * ln 2) = 1 / 2.
Proof. replace (Ropp 1 * ln 2) with (- ln 2) by ring. rewrite exp_Ropp, exp_ln by lra. lra. Qed.
Lemma gauss_widths A x0 F : F <> 0 -> widths A x0 F F (gauss A x0 F).
Proof.
  intros H. destruct (half_sq x0 F H) as (H1 & H2). repeat split; [apply gauss_at| |].
  - rewrite (gauss_sq A x0 F _ 1 H2), exp_half. lra.
  - rewrite (gauss_sq A x0 F _ 1 H1), exp_half. lra.
Qed.
Lemma lorentz_widths A x0 F : F <> 0 -> widths A x0 F F (lorentz A x0 F).
Proof.
  intros H. destruct (half_sq x0 F H) as (H1 & H2). unfold widths, lorentz. rewrite H1, H2. repeat split; try lra.
  replace ((2 * (x0 - x0) / F) ^ 2) with 0 by (unfold Rdiv; ring). lra.
Qed.
Lemma mixed_widths A x0 F n : F <> 0 -> widths A x0 F F (mixed A x0 F n).
Proof.
  intros H. destruct (gauss_widths A x0 F H) as (g1 & g2 & g3). destruct (lorentz_widths A x0 F H) as (l1 & l2 & l3).
  unfold widths, mixed. rewrite g1, g2, g3, l1, l2, l3. repeat split; lra.
Qed.
Lemma two_sided_widths A x0 Fl Fr nl nr : 0 < Fl -> 0 < Fr -> widths A x0 Fl Fr (two_sided A x0 Fl Fr nl nr).
Proof.
  intros Hl Hr. destruct (mixed_widths A x0 Fl nl ltac:(lra)) as (a1 & a2 & a3). destruct (mixed_widths A x0 Fr nr ltac:(lra)) as (b1 & b2 & b3).
  unfold widths, two_sided. destruct (Rlt_dec x0 x0); [lra|]. destruct (Rlt_dec (x0 - Fl / 2) x0); [|lra]. destruct (Rlt_dec (x0 + Fr / 2) x0); [lra|]. auto.
Qed.

(** squares of distances *)
Lemma sq_lt_r x0 F x y : 0 < F -> x0 <= x -> x < y -> (2 * (x - x0) / F) ^ 2 < (2 * (y - x0) / F) ^ 2.
Proof.
  intros H H1 H2. assert (Hi : 0 < / F) by (apply Rinv_0_lt_compat; lra). unfold Rdiv.
  assert (0 <= 2 * (x - x0) * / F) by (apply Rmult_le_pos; lra). assert (2 * (x - x0) * / F < 2 * (y - x0) * / F) by (apply Rmult_lt_compat_r; lra). nra.
Qed.
Lemma sq_lt_l x0 F x y : 0 < F -> x < y -> y <= x0 -> (2 * (y - x0) / F) ^ 2 < (2 * (x - x0) / F) ^ 2.
Proof.
  intros H H1 H2. assert (Hi : 0 < / F) by (apply Rinv_0_lt_compat; lra). unfold Rdiv.
  assert (0 <= 2 * (x0 - y) * / F) by (apply Rmult_le_pos; lra). assert (2 * (x0 - y) * / F < 2 * (x0 - x) * / F) by (apply Rmult_lt_compat_r; lra). nra.
Qed.
Lemma gauss_mono A x0 F x y : 0 < A -> (2 * (x - x0) / F) ^ 2 < (2 * (y - x0) / F) ^ 2 -> gauss A x0 F y < gauss A x0 F x.
Proof. intros HA H. rewrite !gauss_exp. apply Rmult_lt_compat_l; [exact HA|]. apply exp_increasing. apply Rmult_lt_compat_r; [apply ln2_pos|lra]. Qed.
Lemma lorentz_mono A x0 F x y : 0 < A -> (2 * (x - x0) / F) ^ 2 < (2 * (y - x0) / F) ^ 2 -> lorentz A x0 F y < lorentz A x0 F x.
Proof.
  intros HA H. unfold lorentz. apply Rmult_lt_compat_l; [exact HA|]. pose proof (lor_den' (x - x0) F). pose proof (lor_den' (y - x0) F).
  apply Rinv_lt_contravar; [apply Rmult_lt_0_compat; assumption|lra].
Qed.
Lemma gauss_pos A x0 F x : 0 < A -> 0 < gauss A x0 F x.
Proof. intros H. rewrite gauss_exp. apply Rmult_lt_0_compat; [exact H|apply exp_pos]. Qed.
Lemma lorentz_pos A x0 F x : 0 < A -> 0 < lorentz A x0 F x.
Proof. intros H. unfold lorentz. apply Rdiv_lt_0_compat; [exact H|apply lor_den']. Qed.
Lemma blend n a a' b b' : 0 <= n <= 1 -> a < a' -> b < b' -> n * a + (1 - n) * b < n * a' + (1 - n) * b'.
Proof.
  intros Hn Ha Hb. destruct (Req_dec n 0) as [->|N]; [lra|].
  assert (n * a < n * a') by (apply Rmult_lt_compat_l; lra). assert ((1 - n) * b <= (1 - n) * b') by (apply Rmult_le_compat_l; lra). lra.
Qed.
Lemma mixed_mono A x0 F n x y : 0 < A -> 0 <= n <= 1 -> (2 * (x - x0) / F) ^ 2 < (2 * (y - x0) / F) ^ 2 -> mixed A x0 F n y < mixed A x0 F n x.
Proof.
  intros HA Hn H. pose proof (gauss_mono A x0 F x y HA H). pose proof (lorentz_mono A x0 F x y HA H). unfold mixed. apply blend; lra.
Qed.
Lemma mixed_pos A x0 F n x : 0 < A -> 0 <= n <= 1 -> 0 < mixed A x0 F n x.
Proof. intros HA Hn. pose proof (gauss_pos A x0 F x HA). pose proof (lorentz_pos A x0 F x HA). unfold mixed. pose proof (blend n 0 _ 0 _ Hn H H0). lra. Qed.
Lemma peak_of x0 F g : 0 < F -> (forall x, 0 < g x) -> (forall x y, (2 * (x - x0) / F) ^ 2 < (2 * (y - x0) / F) ^ 2 -> g y < g x) -> single_peak x0 g.
Proof.
  intros H Hp Hm. split; [exact Hp|]. split; intros x y H1 H2; apply Hm.
  - apply sq_lt_l; assumption.
  - apply sq_lt_r; assumption.
Qed.
Lemma two_sided_peak A x0 Fl Fr nl nr : 0 < A -> 0 < Fl -> 0 < Fr -> 0 <= nl <= 1 -> 0 <= nr <= 1 -> single_peak x0 (two_sided A x0 Fl Fr nl nr).
Proof.
  intros HA Hl Hr H1 H2. unfold two_sided. split; [|split].
  - intros x. destruct (Rlt_dec x x0); apply mixed_pos; assumption.
  - intros x y Hxy Hy. destruct (Rlt_dec x x0); [|lra]. destruct (Rlt_dec y x0) as [h|h].
    + apply mixed_mono; try assumption. apply sq_lt_l; lra.
    + assert (y = x0) by lra. subst y. destruct (mixed_widths A x0 Fr nr ltac:(lra)) as (-> & _). destruct (mixed_widths A x0 Fl nl ltac:(lra)) as (e & _).
      apply Rlt_le_trans with (mixed A x0 Fl nl x0); [|lra]. apply mixed_mono; try assumption. apply sq_lt_l; lra.
  - intros x y Hx Hxy. destruct (Rlt_dec x x0); [lra|]. destruct (Rlt_dec y x0); [lra|]. apply mixed_mono; try assumption. apply sq_lt_r; lra.
Qed.
Lemma sq_sym x0 F d : (2 * (x0 + d - x0) / F) ^ 2 = (2 * (x0 - d - x0) / F) ^ 2.
Proof. unfold Rdiv. ring. Qed.
Lemma gauss_sym A x0 F : symmetric x0 (gauss A x0 F).
Proof. intros d. unfold gauss. rewrite sq_sym. reflexivity. Qed.
Lemma lorentz_sym A x0 F : symmetric x0 (lorentz A x0 F).
Proof. intros d. unfold lorentz. rewrite sq_sym. reflexivity. Qed.
Lemma mixed_sym A x0 F n : symmetric x0 (mixed A x0 F n).
Proof. intros d. unfold mixed. rewrite gauss_sym, lorentz_sym. reflexivity. Qed.
