(** Lemmas for C133 (steps, more dimensions) and C135 *)
From Coq Require Import Reals List ZArith Lra Lia Permutation.
From Verif Require Import Prelude PkModel PkSpec PkProofs PkMore.
Import ListNotations.
Local Open Scope R_scope.
Local Notation length := List.length.

(** ** the step *)
Lemma tanh_step t : 1 / 2 * (1 - tanh t) = 1 / (1 + exp (2 * t)).
Proof.
  unfold tanh, sinh, cosh. pose proof (exp_pos t). pose proof (exp_pos (- t)).
  assert (E : exp (2 * t) = exp t / exp (- t)). { unfold Rdiv. rewrite <- exp_Ropp, <- exp_plus. f_equal. lra. }
  rewrite E. field. repeat split; lra.
Qed.
Lemma step_ok A x0 w xs : w <> 0 -> tanh_stepdown_nobg [A; x0; w] xs = Ok (map (fun x => Some (logistic_step A x0 w x)) xs).
Proof.
  intros H. unfold tanh_stepdown_nobg. cbn [at_ nth_error rbind over]. f_equal. apply map_ext. intros x.
  destruct (Req_EM_T w 0); [contradiction|]. rewrite tanh_step. unfold logistic_step. f_equal.
  replace (2 * ((x - x0) / w)) with (2 * (x - x0) / w) by (field; exact H). unfold Rdiv. ring.
Qed.
Lemma step_shape A x0 w : 0 < A -> 0 < w ->
  logistic_step A x0 w x0 = A / 2 /\ (forall d, logistic_step A x0 w (x0 + d) + logistic_step A x0 w (x0 - d) = A) /\
  (forall x, 0 < logistic_step A x0 w x < A) /\ (forall x y, x < y -> logistic_step A x0 w y < logistic_step A x0 w x).
Proof.
  intros HA Hw. unfold logistic_step. split; [|split; [|split]].
  - replace (2 * (x0 - x0) / w) with 0 by (field; lra). rewrite exp_0. lra.
  - intros d. replace (2 * (x0 + d - x0) / w) with (2 * d / w) by (field; lra). replace (2 * (x0 - d - x0) / w) with (- (2 * d / w)) by (field; lra).
    rewrite exp_Ropp. pose proof (exp_pos (2 * d / w)). field. lra.
  - intros x. pose proof (exp_pos (2 * (x - x0) / w)). split; [apply Rdiv_lt_0_compat; lra|].
    apply Rmult_lt_reg_r with (1 + exp (2 * (x - x0) / w)); [lra|]. unfold Rdiv at 1. rewrite Rmult_assoc, Rinv_l by lra. nra.
  - intros x y H. assert (exp (2 * (x - x0) / w) < exp (2 * (y - x0) / w)).
    { apply exp_increasing. unfold Rdiv. apply Rmult_lt_compat_r; [apply Rinv_0_lt_compat; lra|lra]. }
    pose proof (exp_pos (2 * (x - x0) / w)). apply Rmult_lt_compat_l; [exact HA|]. apply Rinv_lt_contravar; [|lra]. apply Rmult_lt_0_compat; lra.
Qed.

(** ** more dimensions *)
Lemma gauss_shift A x0 F x : gauss A x0 F x = gauss A 0 F (x - x0).
Proof. unfold gauss. rewrite Rminus_0_r. reflexivity. Qed.
Lemma lorentz_shift A x0 F x : lorentz A x0 F x = lorentz A 0 F (x - x0).
Proof. unfold lorentz. rewrite Rminus_0_r. reflexivity. Qed.
Lemma two_sided_shift A x0 Fl Fr nl nr x : two_sided A x0 Fl Fr nl nr x = two_sided A 0 Fl Fr nl nr (x - x0).
Proof.
  unfold two_sided, mixed. rewrite (gauss_shift A x0 Fl), (gauss_shift A x0 Fr), (lorentz_shift A x0 Fl), (lorentz_shift A x0 Fr).
  destruct (Rlt_dec x x0), (Rlt_dec (x - x0) 0); try lra; reflexivity.
Qed.
Lemma two_sided_scale A x0 Fl Fr nl nr x : two_sided A x0 Fl Fr nl nr x = A * two_sided 1 x0 Fl Fr nl nr x.
Proof. unfold two_sided. rewrite (mixed_scale A x0 Fl), (mixed_scale A x0 Fr). destruct (Rlt_dec x x0); reflexivity. Qed.

Definition is_profile2 (f : result profile2) (g : R -> R -> R) : Prop := exists h, f = Ok h /\ forall x y, h x y = Some (g x y).
Lemma gaussian2d_no_bg_ok A x0 y0 Fx Fy r : Fx <> 0 -> Fy <> 0 ->
  is_profile2 (gaussian2d_no_bg (A :: x0 :: y0 :: Fx :: Fy :: r)) (fun x y => gauss A x0 Fx x * gauss 1 y0 Fy y).
Proof.
  intros Hx Hy. unfold gaussian2d_no_bg. cbn [at_ nth_error rbind pick].
  destruct (unit_gaussian_ok x0 Fx [] Hx) as (g & -> & Hg). cbn [rbind at_ nth_error pick].
  destruct (unit_gaussian_ok y0 Fy [] Hy) as (k & -> & Hk). cbn [rbind].
  eexists. split; [reflexivity|]. intros x y. cbv beta. rewrite Hg, Hk. cbn [nmul]. rewrite (gauss_scale A x0 Fx). reflexivity.
Qed.
Lemma split2d_no_bg_ok A x0 y0 Fxl Fxr Fyl Fyr nxl nxr nyl nyr r : Fxl <> 0 -> Fxr <> 0 -> Fyl <> 0 -> Fyr <> 0 ->
  is_profile2 (split_pvoigt2d_no_bg (A :: x0 :: y0 :: Fxl :: Fxr :: Fyl :: Fyr :: nxl :: nxr :: nyl :: nyr :: r))
    (fun x y => two_sided A x0 Fxl Fxr nxl nxr x * two_sided 1 y0 Fyl Fyr nyl nyr y).
Proof.
  intros H1 H2 H3 H4. unfold split_pvoigt2d_no_bg. cbn [at_ nth_error rbind pick].
  destruct (unit_pvoigt_ok x0 Fxr nxr [] H2) as (a & -> & Ha). cbn [rbind at_ nth_error pick].
  destruct (unit_pvoigt_ok y0 Fyr nyr [] H4) as (b & -> & Hb). cbn [rbind at_ nth_error pick].
  destruct (unit_pvoigt_ok y0 Fyl nyl [] H3) as (c & -> & Hc). cbn [rbind at_ nth_error pick].
  destruct (unit_pvoigt_ok x0 Fxl nxl [] H1) as (d & -> & Hd). cbn [rbind].
  eexists. split; [reflexivity|]. intros x y. cbv beta. rewrite Ha, Hb, Hc, Hd. cbn [nmul]. rewrite (two_sided_scale A). unfold two_sided.
  destruct (Rle_dec x0 x), (Rlt_dec x x0); try lra; destruct (Rle_dec y0 y), (Rlt_dec y y0); try lra; reflexivity.
Qed.
Lemma over2_plane f g c0 cx cy pts : is_profile2 f g ->
  over2 (do h <- f; Ok (with_plane c0 cx cy h)) pts = Ok (map (fun q => Some (g (fst q) (snd q) + (c0 + cx * fst q + cy * snd q))) pts).
Proof. intros (h & -> & Hh). cbn [rbind over2]. f_equal. apply map_ext. intros q. unfold with_plane. rewrite Hh. reflexivity. Qed.

(** ** the mixture *)
Lemma mix_eq g l : g ^ 5 + 2.69269 * g ^ 4 * l + 2.42843 * g ^ 3 * l ^ 2 + 4.47163 * g ^ 2 * l ^ 3 + 0.07842 * g * l ^ 4 + l ^ 5 = tch_fifth g l.
Proof. unfold tch_fifth. ring. Qed.
Lemma tch_terms g l : 0 <= g -> 0 <= l -> 0 <= g ^ 4 * l /\ 0 <= g ^ 3 * l ^ 2 /\ 0 <= g ^ 2 * l ^ 3 /\ 0 <= g * l ^ 4 /\ 0 <= g ^ 5 /\ 0 <= l ^ 5.
Proof.
  intros Hg Hl. assert (G : forall n, 0 <= g ^ n) by (intros; apply pow_le; exact Hg). assert (L : forall n, 0 <= l ^ n) by (intros; apply pow_le; exact Hl).
  repeat split; first [apply G | apply L | apply Rmult_le_pos; first [apply G | apply L | assumption]].
Qed.
Lemma tch_pos g l : 0 <= g -> 0 <= l -> 0 < g + l -> 0 < tch_fifth g l.
Proof.
  intros Hg Hl H. destruct (tch_terms g l Hg Hl) as (a & b & c & d & e & f). unfold tch_fifth.
  assert (0 < g \/ 0 < l) as [K|K] by lra; pose proof (pow_lt _ 5 K); lra.
Qed.
Lemma fifth_root s : 0 < s -> Rpower s (1 / 5) ^ 5 = s /\ 0 < Rpower s (1 / 5).
Proof.
  intros H. split; [|apply exp_pos]. rewrite <- (Rpower_pow 5) by (apply exp_pos). rewrite Rpower_mult.
  replace (1 / 5 * INR 5) with 1 by (cbn; lra). apply Rpower_1. exact H.
Qed.
Lemma pow5_le a b : 0 <= a -> 0 <= b -> a ^ 5 <= b ^ 5 -> a <= b.
Proof.
  intros Ha Hb H. destruct (Rle_dec a b) as [|N]; [assumption|]. exfalso. apply Rnot_le_lt in N.
  assert (b ^ 5 < a ^ 5); [|lra]. pose proof (pow_lt a 4 ltac:(lra)). assert (b ^ 4 <= a ^ 4) by (apply pow_incr; lra). pose proof (pow_le b 4 Hb).
  change (b ^ 5) with (b * b ^ 4). change (a ^ 5) with (a * a ^ 4). nra.
Qed.
Lemma pow5_inj a b : 0 <= a -> 0 <= b -> a ^ 5 = b ^ 5 -> a = b.
Proof. intros Ha Hb H. apply Rle_antisym; apply pow5_le; lra. Qed.
Lemma fraction_range r : 0 <= r <= 1 -> 0 <= tch_fraction r <= 1.
Proof. intros H. unfold tch_fraction. assert (0 <= r ^ 2 <= r) by (split; nra). assert (0 <= r ^ 3 <= r ^ 2) by (split; [apply pow_le; lra|nra]). split; [lra|]. nra. Qed.
Lemma mixing_lemma g l : 0 <= g -> 0 <= l -> 0 < g + l ->
  exists F, mixing_factor_pv g l = Ok (Some (tch_fraction (l / F)), Some F) /\ 0 < F /\ F ^ 5 = tch_fifth g l /\
  0 <= tch_fraction (l / F) <= 1 /\ Rmax g l <= F <= g + l.
Proof.
  intros Hg Hl H. pose proof (tch_pos g l Hg Hl H) as P. destruct (fifth_root _ P) as (E & Fp). unfold mixing_factor_pv. rewrite mix_eq.
  destruct (Rlt_dec (tch_fifth g l) 0); [lra|]. destruct (Req_EM_T (tch_fifth g l) 0); [lra|].
  set (F := Rpower (tch_fifth g l) (1 / 5)) in *. exists F.
  destruct (tch_terms g l Hg Hl) as (a & b & c & d & e & f).
  assert (B1 : g <= F) by (apply pow5_le; [lra|lra|]; rewrite E; unfold tch_fifth; lra).
  assert (B2 : l <= F) by (apply pow5_le; [lra|lra|]; rewrite E; unfold tch_fifth; lra).
  assert (B3 : F <= g + l). { apply pow5_le; [lra|lra|]. rewrite E. unfold tch_fifth.
    replace ((g + l) ^ 5) with (g ^ 5 + 5 * (g ^ 4 * l) + 10 * (g ^ 3 * l ^ 2) + 10 * (g ^ 2 * l ^ 3) + 5 * (g * l ^ 4) + l ^ 5) by ring. lra. }
  assert (Hr : 0 <= l / F <= 1).
  { split; [apply Rmult_le_pos; [lra|left; apply Rinv_0_lt_compat; lra]|]. apply Rmult_le_reg_r with F; [lra|]. unfold Rdiv. rewrite Rmult_assoc, Rinv_l by lra. lra. }
  pose proof (fraction_range _ Hr) as (r1 & r2).
  change (1.36603 * (l / F) - 0.47719 * (l / F) ^ 2 + 0.11116 * (l / F) ^ 3) with (tch_fraction (l / F)).
  destruct (Rlt_dec (tch_fraction (l / F)) 0); [lra|]. destruct (Rlt_dec 1 (tch_fraction (l / F))); [lra|].
  repeat split; auto. apply Rmax_lub; assumption.
Qed.
Lemma mixing_unique g l F : 0 <= g -> 0 <= l -> 0 < g + l -> 0 < F -> F ^ 5 = tch_fifth g l -> mixing_factor_pv g l = Ok (Some (tch_fraction (l / F)), Some F).
Proof. intros Hg Hl H HF E. destruct (mixing_lemma g l Hg Hl H) as (F' & M & P & E' & _). assert (F = F') by (apply pow5_inj; lra). subst F'. exact M. Qed.

(** ** several peaks *)
Lemma rows_blocks w bs r : Forall (fun b => length b = w) bs -> rows (length bs) w (concat bs ++ r) = bs.
Proof.
  induction 1 as [|b bs Hb _ IH]; [reflexivity|]. cbn [length rows concat]. rewrite <- app_assoc.
  assert (E : forall z : list R, firstn w (b ++ z) = b /\ skipn w (b ++ z) = z).
  { intros z. rewrite <- Hb. rewrite firstn_app, skipn_app, firstn_all, skipn_all, Nat.sub_diag. cbn [firstn skipn app]. rewrite app_nil_r. auto. }
  destruct (E (concat bs ++ r)%list) as (-> & ->). rewrite IH. reflexivity.
Qed.
Lemma blocks_length w bs : Forall (fun b : list R => length b = w) bs -> length (concat bs) = (length bs * w)%nat.
Proof. induction 1 as [|b bs Hb _ IH]; [reflexivity|]. cbn [concat]. rewrite app_length, IH, Hb. cbn [length]. lia. Qed.
Lemma combine_maps {A B C} (f : A -> B) (g : A -> C) l : combine (map f l) (map g l) = map (fun a => (f a, g a)) l.
Proof. induction l; cbn; congruence. Qed.
Lemma combine_self {A B} (f : A -> B) l : combine (map f l) l = map (fun a => (f a, a)) l.
Proof. induction l; cbn; congruence. Qed.
Lemma accumulate_ok pink t xs (shape : list R -> R -> R) bs acc :
  (forall b, In b bs -> one_peak pink t b xs = Ok (map (fun x => Some (shape b x)) xs)) ->
  accumulate pink t bs xs (map (fun x => Some (acc x)) xs) = Ok (map (fun x => Some (acc x + total (map (fun b => shape b x) bs))) xs).
Proof.
  revert acc. induction bs as [|b bs IH]; intros acc H.
  - cbn [accumulate map total fold_right]. f_equal. apply map_ext. intros x. f_equal. ring.
  - cbn [accumulate]. rewrite (H b) by (left; reflexivity). cbn [rbind]. unfold add_rows. rewrite combine_maps, map_map. cbn [fst snd nadd].
    rewrite (IH (fun x => acc x + shape b x)) by (intros c Hc; apply H; right; exact Hc). f_equal. apply map_ext. intros x. f_equal. unfold total. cbn [map fold_right]. ring.
Qed.
Lemma mpeak_no_bg_ok pink t w (shape : list R -> R -> R) bs r xs : mpeak_nparams t = Ok w -> Forall (fun b => length b = w) bs ->
  (forall b, In b bs -> one_peak pink t b xs = Ok (map (fun x => Some (shape b x)) xs)) ->
  mpeak_1d_no_bg pink (concat bs ++ r) xs t (length bs) = Ok (map (fun x => Some (total (map (fun b => shape b x) bs))) xs).
Proof.
  intros Hw Hb H. unfold mpeak_1d_no_bg. rewrite Hw. cbn [rbind]. pose proof (blocks_length w bs Hb) as L.
  rewrite firstn_app. replace (w * length bs - length (concat bs))%nat with 0%nat by (rewrite L; lia). cbn [firstn]. rewrite app_nil_r.
  rewrite firstn_all2 by (rewrite L; lia). unfold reshape. rewrite L, Nat.eqb_refl. cbn [rbind].
  pose proof (rows_blocks w bs [] Hb) as E. rewrite app_nil_r in E. rewrite E. rewrite (accumulate_ok pink t xs shape bs (fun _ => 0) H). f_equal. apply map_ext. intros x. f_equal. ring.
Qed.
Lemma from_end_app p c k : (0 < k <= length c)%nat -> from_end (p ++ c) k = at_ c (length c - k).
Proof.
  intros H. unfold from_end. rewrite app_length. destruct (Nat.ltb_spec (length p + length c) k); [lia|]. unfold at_.
  rewrite nth_error_app2 by lia. replace (length p + length c - k - length p)%nat with (length c - k)%nat by lia. reflexivity.
Qed.
