(** Lemmas for C133 (steps, more dimensions), C134 (derivatives) and C135 (sums, mixtures) *)
From Coq Require Import Reals List ZArith Lra Lia.
From Verif Require Import Prelude PkModel PkSpec PkProofs.
Import ListNotations.
Local Open Scope R_scope.
Local Notation length := List.length.

(** ** rules of differentiation for functions written as terms *)
Lemma d_const c t : derivable_pt_lim (fun _ => c) t 0.
Proof. apply derivable_pt_lim_const. Qed.
Lemma d_id t : derivable_pt_lim (fun v => v) t 1.
Proof. apply derivable_pt_lim_id. Qed.
Lemma d_plus f g t a b : derivable_pt_lim f t a -> derivable_pt_lim g t b -> derivable_pt_lim (fun v => f v + g v) t (a + b).
Proof. apply derivable_pt_lim_plus. Qed.
Lemma d_minus f g t a b : derivable_pt_lim f t a -> derivable_pt_lim g t b -> derivable_pt_lim (fun v => f v - g v) t (a - b).
Proof. apply derivable_pt_lim_minus. Qed.
Lemma d_opp f t a : derivable_pt_lim f t a -> derivable_pt_lim (fun v => - f v) t (- a).
Proof. apply derivable_pt_lim_opp. Qed.
Lemma d_mult f g t a b : derivable_pt_lim f t a -> derivable_pt_lim g t b -> derivable_pt_lim (fun v => f v * g v) t (a * g t + f t * b).
Proof. apply derivable_pt_lim_mult. Qed.
Lemma d_div f g t a b : g t <> 0 -> derivable_pt_lim f t a -> derivable_pt_lim g t b -> derivable_pt_lim (fun v => f v / g v) t ((a * g t - b * f t) / Rsqr (g t)).
Proof. intros. apply (derivable_pt_lim_div f g); assumption. Qed.
Lemma d_sq f t a : derivable_pt_lim f t a -> derivable_pt_lim (fun v => f v ^ 2) t (2 * f t * a).
Proof.
  intros H. pose proof (derivable_pt_lim_comp f (fun y => y ^ 2) t a (2 * f t) H) as G. replace (2 * f t * a) with (2 * f t * a) by ring. apply G.
  replace (2 * f t) with (INR 2 * f t ^ pred 2) by (cbn; ring). apply derivable_pt_lim_pow.
Qed.
Lemma d_exp f t a : derivable_pt_lim f t a -> derivable_pt_lim (fun v => exp (f v)) t (exp (f t) * a).
Proof. intros H. apply (derivable_pt_lim_comp f exp); [exact H|apply derivable_pt_lim_exp]. Qed.
Lemma d_eq f t a b : derivable_pt_lim f t a -> a = b -> derivable_pt_lim f t b.
Proof. intros H <-. exact H. Qed.
Ltac d_step := first
  [ match goal with |- derivable_pt_lim (fun _ => ?c) _ _ => apply d_const end
  | match goal with |- derivable_pt_lim (fun v => v) _ _ => apply d_id end
  | apply d_plus | apply d_minus | apply d_opp | apply d_div | apply d_sq | apply d_exp | apply d_mult ].

(** ** C134 *)
Definition gauss_line (p : list R) (x : R) : R := gauss (nth 0 p 0) (nth 1 p 0) (nth 2 p 0) x + (nth 3 p 0 + nth 4 p 0 * x).
Definition lorentz_line (p : list R) (x : R) : R := lorentz (nth 0 p 0) (nth 1 p 0) (nth 2 p 0) x + (nth 3 p 0 + nth 4 p 0 * x).

Lemma gauss_dA A x0 F k x : derivable_pt_lim (fun v => gauss v x0 F x + k) A (gauss 1 x0 F x).
Proof.
  unfold gauss. eapply d_eq; [apply d_plus; [apply d_mult; [apply d_id|apply d_const]|apply d_const]|]. cbv beta. ring.
Qed.
Lemma gauss_dx0 A x0 F k x : F <> 0 -> derivable_pt_lim (fun v => gauss A v F x + k) x0 (gauss A x0 F x * ((x - x0) / (F / gauss_width_fact) ^ 2)).
Proof.
  intros H. unfold gauss, Rpower. eapply d_eq; [repeat d_step; try exact H|]. cbv beta.
  pose proof gwf_pos. replace ((F / gauss_width_fact) ^ 2) with (F ^ 2 / gauss_width_fact ^ 2) by (field; lra). rewrite gwf_sq. unfold Rsqr.
  pose proof ln2_pos. field. split; [lra|exact H].
Qed.
Lemma gauss_dF A x0 F k x : F <> 0 -> derivable_pt_lim (fun v => gauss A x0 v x + k) F (gauss A x0 F x * ((x - x0) ^ 2 / (F / gauss_width_fact) ^ 3 / gauss_width_fact)).
Proof.
  intros H. unfold gauss, Rpower. eapply d_eq; [repeat d_step; try exact H|]. cbv beta.
  pose proof gwf_pos. replace ((x - x0) ^ 2 / (F / gauss_width_fact) ^ 3 / gauss_width_fact) with ((x - x0) ^ 2 * gauss_width_fact ^ 2 / F ^ 3) by (field; split; lra).
  rewrite gwf_sq. unfold Rsqr. field. exact H.
Qed.
Lemma lorentz_dA A x0 F k x : derivable_pt_lim (fun v => lorentz v x0 F x + k) A (lorentz 1 x0 F x).
Proof.
  unfold lorentz. pose proof (lor_den' (x - x0) F) as L. eapply d_eq; [apply d_plus; [apply d_div; [|apply d_id|apply d_const]|apply d_const]; lra|].
  unfold Rsqr. set (D := 1 + (2 * (x - x0) / F) ^ 2) in *. field. lra.
Qed.
Lemma lor_code d F : F <> 0 -> d ^ 2 + (F / lorentz_width_fact) ^ 2 = F ^ 2 / 4 * (1 + (2 * d / F) ^ 2).
Proof. intros H. unfold lorentz_width_fact. field. exact H. Qed.
Lemma lorentz_dx0 A x0 F k x : F <> 0 ->
  derivable_pt_lim (fun v => lorentz A v F x + k) x0 (lorentz A x0 F x * (2 * (x - x0) / ((x - x0) ^ 2 + (F / lorentz_width_fact) ^ 2))).
Proof.
  intros H. unfold lorentz. pose proof (lor_den' (x - x0) F) as L. eapply d_eq; [repeat d_step; try exact H; try lra|]. cbv beta.
  rewrite lor_code by exact H. unfold Rsqr. assert (F * F <> 0) by (apply Rmult_integral_contrapositive; auto).
  assert (E : (2 * (x - x0) / F) ^ 2 = 4 * (x - x0) ^ 2 / (F * F)) by (field; exact H).
  set (D := 1 + (2 * (x - x0) / F) ^ 2) in *. field. repeat split; try exact H; try lra.
Qed.
Lemma lorentz_dF A x0 F k x : F <> 0 ->
  derivable_pt_lim (fun v => lorentz A x0 v x + k) F
    (lorentz A x0 F x * (2 * (x - x0) ^ 2 / (F / lorentz_width_fact * ((x - x0) ^ 2 + (F / lorentz_width_fact) ^ 2)) / lorentz_width_fact)).
Proof.
  intros H. unfold lorentz. pose proof (lor_den' (x - x0) F) as L. eapply d_eq; [repeat d_step; try exact H; try lra|]. cbv beta.
  rewrite lor_code by exact H. unfold Rsqr, lorentz_width_fact.
  set (D := 1 + (2 * (x - x0) / F) ^ 2) in *. field. repeat split; try exact H; try lra.
Qed.
Lemma line_d0 G c1 x t : derivable_pt_lim (fun v => G + (v + c1 * x)) t 1.
Proof. eapply d_eq; [repeat d_step|]. cbv beta. ring. Qed.
Lemma line_d1 G c0 x t : derivable_pt_lim (fun v => G + (c0 + v * x)) t x.
Proof. eapply d_eq; [repeat d_step|]. cbv beta. ring. Qed.

Lemma gauss_jac_lemma A x0 F c0 c1 xs : F <> 0 ->
  exists m, gaussian1d_deriv [A; x0; F; c0; c1] xs = Ok m /\ jacobian gauss_line [A; x0; F; c0; c1] xs m.
Proof.
  intros H. unfold gaussian1d_deriv. cbn [firstn]. unfold gaussian1d_no_bg_deriv. cbn [at_ nth_error rbind].
  destruct (gaussian_no_bg_ok A x0 F [] H) as (f & -> & Hf). cbn [rbind pick at_ nth_error].
  destruct (unit_gaussian_ok x0 F [] H) as (u & -> & Hu). cbn [rbind length Nat.ltb Nat.leb Nat.sub repeat app].
  eexists. split; [reflexivity|]. split; [reflexivity|]. intros i Hi. cbn [length] in Hi.
  destruct (Req_EM_T (F / gauss_width_fact) 0) as [E|E]; [destruct (sigma_ne F H E)|].
  destruct i as [|[|[|[|[|i]]]]]; [..|lia]; cbn [nth]; (split; [rewrite map_length; reflexivity|]); intros j Hj; unfold partial, gauss_line, lorentz_line; cbn [put nth];
    rewrite (nth_indep _ None (Some 0)) by (rewrite map_length; exact Hj).
  - rewrite (nth_indep _ (Some 0) (u 0)) by (rewrite map_length; exact Hj). rewrite map_nth. rewrite Hu. eexists. split; [reflexivity|]. apply gauss_dA.
  - rewrite (nth_indep _ (Some 0) ((fun z => nmul (f z) (Some ((z - x0) / (F / gauss_width_fact) ^ 2))) 0)) by (rewrite map_length; exact Hj).
    rewrite (map_nth (fun z => nmul (f z) (Some ((z - x0) / (F / gauss_width_fact) ^ 2)))). cbv beta. rewrite Hf. cbn [nmul]. eexists. split; [reflexivity|]. apply gauss_dx0. exact H.
  - rewrite (nth_indep _ (Some 0) ((fun z => nmul (f z) (Some ((z - x0) ^ 2 / (F / gauss_width_fact) ^ 3 / gauss_width_fact))) 0)) by (rewrite map_length; exact Hj).
    rewrite (map_nth (fun z => nmul (f z) (Some ((z - x0) ^ 2 / (F / gauss_width_fact) ^ 3 / gauss_width_fact)))). cbv beta. rewrite Hf. cbn [nmul]. eexists. split; [reflexivity|]. apply gauss_dF. exact H.
  - rewrite (nth_indep _ (Some 0) ((fun _ : R => Some 1) 0)) by (rewrite map_length; exact Hj). rewrite (map_nth (fun _ : R => Some 1) xs 0 j). eexists. split; [reflexivity|]. apply line_d0.
  - rewrite map_nth. eexists. split; [reflexivity|]. apply line_d1.
Qed.
Lemma lorentz_jac_lemma A x0 F c0 c1 xs : F <> 0 ->
  exists m, lorentzian1d_deriv [A; x0; F; c0; c1] xs = Ok m /\ jacobian lorentz_line [A; x0; F; c0; c1] xs m.
Proof.
  intros H. unfold lorentzian1d_deriv. cbn [firstn]. unfold lorentzian1d_no_bg_deriv. cbn [at_ nth_error rbind].
  destruct (lorentzian_no_bg_ok A x0 F [] H) as (f & -> & Hf). cbn [rbind pick at_ nth_error].
  destruct (unit_lorentzian_ok x0 F [] H) as (u & -> & Hu). cbn [rbind length Nat.ltb Nat.leb Nat.sub repeat app].
  eexists. split; [reflexivity|]. split; [reflexivity|]. intros i Hi. cbn [length] in Hi.
  destruct (Req_EM_T (F / lorentz_width_fact) 0) as [E|E]; [unfold lorentz_width_fact in E; lra|].
  destruct i as [|[|[|[|[|i]]]]]; [..|lia]; cbn [nth]; (split; [rewrite map_length; reflexivity|]); intros j Hj; unfold partial, gauss_line, lorentz_line; cbn [put nth];
    rewrite (nth_indep _ None (Some 0)) by (rewrite map_length; exact Hj).
  - rewrite (nth_indep _ (Some 0) (u 0)) by (rewrite map_length; exact Hj). rewrite map_nth. rewrite Hu. eexists. split; [reflexivity|]. apply lorentz_dA.
  - set (h := fun z => nmul (f z) (Some (2 * (z - x0) / ((z - x0) ^ 2 + (F / lorentz_width_fact) ^ 2)))).
    rewrite (nth_indep _ (Some 0) (h 0)) by (rewrite map_length; exact Hj).
    rewrite (map_nth h). unfold h. rewrite Hf. cbn [nmul]. eexists. split; [reflexivity|]. apply lorentz_dx0. exact H.
  - set (h := fun z => nmul (f z) (Some (2 * (z - x0) ^ 2 / (F / lorentz_width_fact * ((z - x0) ^ 2 + (F / lorentz_width_fact) ^ 2)) / lorentz_width_fact))).
    rewrite (nth_indep _ (Some 0) (h 0)) by (rewrite map_length; exact Hj).
    rewrite (map_nth h). unfold h. rewrite Hf. cbn [nmul]. eexists. split; [reflexivity|]. apply lorentz_dF. exact H.
  - rewrite (nth_indep _ (Some 0) ((fun _ : R => Some 1) 0)) by (rewrite map_length; exact Hj). rewrite (map_nth (fun _ : R => Some 1) xs 0 j). eexists. split; [reflexivity|]. apply line_d0.
  - rewrite map_nth. eexists. split; [reflexivity|]. apply line_d1.
Qed.
