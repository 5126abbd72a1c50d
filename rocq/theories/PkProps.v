(** C133, C134, C135 *)
From Coq Require Import Reals List ZArith Lra Lia Permutation.
From Verif Require Import Prelude PkModel PkSpec PkSpec2 PkProofs PkMore PkTwo PkfModel.
Import ListNotations.
Local Open Scope R_scope.
Local Notation length := List.length.

(** C133: every peak function is the textbook profile with the given height, centre and full width at half maximum, on the given
    straight line *)
Theorem C133_gaussian : forall A x0 F c0 c1 xs, F <> 0 -> gaussian1d [A; x0; F; c0; c1] xs = Ok (map (on_line (gauss A x0 F) c0 c1) xs).
Proof. intros. unfold gaussian1d. cbn [at_ nth_error rbind firstn]. apply over_line, gaussian_no_bg_ok. assumption. Qed.
Print Assumptions C133_gaussian.
Theorem C133_lorentzian : forall A x0 F c0 c1 xs, F <> 0 -> lorentzian1d [A; x0; F; c0; c1] xs = Ok (map (on_line (lorentz A x0 F) c0 c1) xs).
Proof. intros. unfold lorentzian1d. cbn [at_ nth_error rbind firstn]. apply over_line, lorentzian_no_bg_ok. assumption. Qed.
Print Assumptions C133_lorentzian.
Theorem C133_pvoigt : forall A x0 F n c0 c1 xs, F <> 0 -> pvoigt1d [A; x0; F; n; c0; c1] xs = Ok (map (on_line (mixed A x0 F n) c0 c1) xs).
Proof. intros. unfold pvoigt1d. cbn [at_ nth_error rbind firstn]. apply over_line, pvoigt_no_bg_ok. assumption. Qed.
Print Assumptions C133_pvoigt.
Theorem C133_split : forall A x0 Fl Fr nl nr c0 c1 xs, Fl <> 0 -> Fr <> 0 ->
  split_pvoigt1d [A; x0; Fl; Fr; nl; nr; c0; c1] xs = Ok (map (on_line (two_sided A x0 Fl Fr nl nr) c0 c1) xs).
Proof. intros. unfold split_pvoigt1d. cbn [at_ nth_error rbind firstn]. apply over_line, split_no_bg_ok; assumption. Qed.
Print Assumptions C133_split.

(** the height and the widths of these profiles are the parameters, whatever the mixture *)
Theorem C133_widths : forall A x0 F Fl Fr n nl nr, 0 < F -> 0 < Fl -> 0 < Fr ->
  widths A x0 F F (gauss A x0 F) /\ widths A x0 F F (lorentz A x0 F) /\ widths A x0 F F (mixed A x0 F n) /\
  widths A x0 Fl Fr (two_sided A x0 Fl Fr nl nr).
Proof.
  intros. split; [apply gauss_widths; lra|]. split; [apply lorentz_widths; lra|]. split; [apply mixed_widths; lra|]. apply two_sided_widths; assumption.
Qed.
Print Assumptions C133_widths.

(** they have one maximum and fall on both sides, and all but the two-sided one are symmetric *)
Theorem C133_single_peak : forall A x0 F Fl Fr n nl nr, 0 < A -> 0 < F -> 0 < Fl -> 0 < Fr -> 0 <= n <= 1 -> 0 <= nl <= 1 -> 0 <= nr <= 1 ->
  single_peak x0 (gauss A x0 F) /\ single_peak x0 (lorentz A x0 F) /\ single_peak x0 (mixed A x0 F n) /\
  single_peak x0 (two_sided A x0 Fl Fr nl nr) /\
  symmetric x0 (gauss A x0 F) /\ symmetric x0 (lorentz A x0 F) /\ symmetric x0 (mixed A x0 F n).
Proof.
  intros A x0 F Fl Fr n nl nr HA HF Hl Hr Hn Hnl Hnr.
  split; [apply (peak_of x0 F _ HF); [intros; apply gauss_pos; assumption|intros; apply gauss_mono; assumption]|].
  split; [apply (peak_of x0 F _ HF); [intros; apply lorentz_pos; assumption|intros; apply lorentz_mono; assumption]|].
  split; [apply (peak_of x0 F _ HF); [intros; apply mixed_pos; assumption|intros; apply mixed_mono; assumption]|].
  split; [apply two_sided_peak; assumption|].
  split; [apply gauss_sym|]. split; [apply lorentz_sym|apply mixed_sym].
Qed.
Print Assumptions C133_single_peak.

(** a width of zero gives NaN at the centre and the background elsewhere *)
Theorem C133_zero_width : forall A x0 n c0 c1 x,
  let line := Some (c0 + c1 * x) in
  (x <> x0 -> gaussian1d [A; x0; 0; c0; c1] [x] = Ok [line] /\ lorentzian1d [A; x0; 0; c0; c1] [x] = Ok [line] /\ pvoigt1d [A; x0; 0; n; c0; c1] [x] = Ok [line]) /\
  (x = x0 -> gaussian1d [A; x0; 0; c0; c1] [x] = Ok [None] /\ lorentzian1d [A; x0; 0; c0; c1] [x] = Ok [None] /\ pvoigt1d [A; x0; 0; n; c0; c1] [x] = Ok [None]).
Proof.
  intros A x0 n c0 c1 x line.
  assert (G : gaussian1d [A; x0; 0; c0; c1] [x] = Ok [if Req_EM_T x x0 then None else line]).
  { unfold gaussian1d. cbn [over rbind at_ nth_error firstn gaussian1d_no_bg pick unit_gaussian map]. unfold with_line, times.
    destruct (Req_EM_T (0 / gauss_width_fact) 0) as [E|E]; [|destruct E; unfold Rdiv; ring].
    destruct (Req_EM_T x x0); [reflexivity|]. cbn [nmul nadd]. unfold line. do 3 f_equal. ring. }
  assert (L : lorentzian1d [A; x0; 0; c0; c1] [x] = Ok [if Req_EM_T x x0 then None else line]).
  { unfold lorentzian1d. cbn [over rbind at_ nth_error firstn lorentzian1d_no_bg pick unit_lorentzian map]. unfold with_line, times.
    destruct (Req_EM_T ((x - x0) ^ 2 + (0 / lorentz_width_fact) ^ 2) 0) as [E|E]; destruct (Req_EM_T x x0) as [e|e].
    - reflexivity.
    - exfalso. unfold lorentz_width_fact in E. assert (D : (x - x0) ^ 2 = 0) by lra. rewrite <- Rsqr_pow2 in D. apply Rsqr_0_uniq in D. lra.
    - exfalso. apply E. subst x. unfold Rdiv. ring.
    - cbn [nmul nadd]. unfold line, lorentz_width_fact. do 3 f_equal. unfold Rdiv. ring. }
  assert (P : pvoigt1d [A; x0; 0; n; c0; c1] [x] = Ok [if Req_EM_T x x0 then None else line]).
  { unfold pvoigt1d. cbn [over rbind at_ nth_error firstn pvoigt1d_no_bg pick unit_pvoigt1d unit_gaussian unit_lorentzian map]. unfold with_line, times.
    destruct (Req_EM_T (0 / gauss_width_fact) 0) as [E0|E0]; [|destruct E0; unfold Rdiv; ring].
    destruct (Req_EM_T ((x - x0) ^ 2 + (0 / lorentz_width_fact) ^ 2) 0) as [E|E]; destruct (Req_EM_T x x0) as [e|e].
    - reflexivity.
    - exfalso. unfold lorentz_width_fact in E. assert (D : (x - x0) ^ 2 = 0) by lra. rewrite <- Rsqr_pow2 in D. apply Rsqr_0_uniq in D. lra.
    - exfalso. apply E. subst x. unfold Rdiv. ring.
    - cbn [nmul nadd]. unfold line, lorentz_width_fact. do 3 f_equal. unfold Rdiv. ring. }
  rewrite G, L, P. destruct (Req_EM_T x x0); split; intros; try contradiction; auto.
Qed.
Print Assumptions C133_zero_width.

(** too few parameters are refused *)
Theorem C133_too_few : forall p xs,
  ((length p < 5)%nat -> gaussian1d p xs = Err IndexError /\ lorentzian1d p xs = Err IndexError) /\
  ((length p < 6)%nat -> pvoigt1d p xs = Err IndexError) /\ ((length p < 8)%nat -> split_pvoigt1d p xs = Err IndexError).
Proof.
  intros p xs. split; [|split]; intros H.
  - do 5 (destruct p as [|? p]; [split; reflexivity|]). cbn in H. lia.
  - do 6 (destruct p as [|? p]; [reflexivity|]). cbn in H. lia.
  - do 8 (destruct p as [|? p]; [reflexivity|]). cbn in H. lia.
Qed.
Print Assumptions C133_too_few.

(** the step falls from [A] to 0, through [A / 2] at the centre *)
Theorem C133_step : forall A x0 w xs, 0 < A -> 0 < w ->
  exists f, tanh_stepdown_nobg [A; x0; w] xs = Ok (map (fun x => Some (f x)) xs) /\
  f x0 = A / 2 /\ (forall d, f (x0 + d) + f (x0 - d) = A) /\ (forall x, 0 < f x < A) /\ (forall x y, x < y -> f y < f x).
Proof. intros A x0 w xs HA Hw. exists (logistic_step A x0 w). split; [apply step_ok; lra|]. apply step_shape; assumption. Qed.
Print Assumptions C133_step.

(** two and three dimensions: the product of the profiles along the axes, which may be turned *)
Theorem C133_gaussian2d : forall A x0 y0 Fx Fy c0 cx cy pts, Fx <> 0 -> Fy <> 0 ->
  gaussian2d [A; x0; y0; Fx; Fy; c0; cx; cy] pts =
  Ok (map (fun q => Some (gauss A x0 Fx (fst q) * gauss 1 y0 Fy (snd q) + (c0 + cx * fst q + cy * snd q))) pts).
Proof.
  intros. unfold gaussian2d. cbn [at_ nth_error rbind firstn].
  rewrite (over2_plane _ (fun x y => gauss A x0 Fx x * gauss 1 y0 Fy y)) by (apply gaussian2d_no_bg_ok; assumption). reflexivity.
Qed.
Print Assumptions C133_gaussian2d.
Theorem C133_gaussian2d_rot : forall A x0 y0 Fx Fy theta c0 cx cy pts, Fx <> 0 -> Fy <> 0 ->
  gaussian2d_rot [A; x0; y0; Fx; Fy; theta; c0; cx; cy] pts =
  Ok (map (fun q : R * R => let (x, y) := q in
       Some (gauss A 0 Fx (along theta x0 y0 x y) * gauss 1 0 Fy (across theta x0 y0 x y) + (c0 + cx * x + cy * y))) pts).
Proof.
  intros A x0 y0 Fx Fy theta c0 cx cy pts Hx Hy. unfold gaussian2d_rot. cbn [at_ nth_error rbind firstn].
  rewrite (over2_plane _ (fun x y => gauss A 0 Fx (along theta x0 y0 x y) * gauss 1 0 Fy (across theta x0 y0 x y))).
  - f_equal. apply map_ext. intros [x y]. reflexivity.
  - unfold gaussian2d_rot_no_bg, rotated. cbn [at_ nth_error rbind firstn set_nth coord_transform fst snd].
    set (a := cos theta * x0 + sin theta * y0). set (b := - sin theta * x0 + cos theta * y0).
    destruct (gaussian2d_no_bg_ok A a b Fx Fy [] Hx Hy) as (h & -> & Hh). cbn [rbind]. eexists. split; [reflexivity|]. intros x y. cbv beta. rewrite Hh.
    rewrite (gauss_shift A a), (gauss_shift 1 b). 
    replace (cos theta * x + sin theta * y - a) with (along theta x0 y0 x y) by (unfold along, a; ring).
    replace (- sin theta * x + cos theta * y - b) with (across theta x0 y0 x y) by (unfold across, b; ring). reflexivity.
Qed.
Print Assumptions C133_gaussian2d_rot.
Theorem C133_split2d_rot : forall A x0 y0 Fxl Fxr Fyl Fyr nxl nxr nyl nyr theta c0 cx cy pts, Fxl <> 0 -> Fxr <> 0 -> Fyl <> 0 -> Fyr <> 0 ->
  split_pvoigt2d_rot [A; x0; y0; Fxl; Fxr; Fyl; Fyr; nxl; nxr; nyl; nyr; theta; c0; cx; cy] pts =
  Ok (map (fun q : R * R => let (x, y) := q in
       Some (two_sided A 0 Fxl Fxr nxl nxr (along theta x0 y0 x y) * two_sided 1 0 Fyl Fyr nyl nyr (across theta x0 y0 x y) + (c0 + cx * x + cy * y))) pts).
Proof.
  intros A x0 y0 Fxl Fxr Fyl Fyr nxl nxr nyl nyr theta c0 cx cy pts H1 H2 H3 H4. unfold split_pvoigt2d_rot. cbn [at_ nth_error rbind firstn].
  rewrite (over2_plane _ (fun x y => two_sided A 0 Fxl Fxr nxl nxr (along theta x0 y0 x y) * two_sided 1 0 Fyl Fyr nyl nyr (across theta x0 y0 x y))).
  - f_equal. apply map_ext. intros [x y]. reflexivity.
  - unfold split_pvoigt2d_rot_no_bg, rotated. cbn [at_ nth_error rbind firstn set_nth coord_transform fst snd].
    set (a := cos theta * x0 + sin theta * y0). set (b := - sin theta * x0 + cos theta * y0).
    destruct (split2d_no_bg_ok A a b Fxl Fxr Fyl Fyr nxl nxr nyl nyr [] H1 H2 H3 H4) as (h & -> & Hh). cbn [rbind]. eexists. split; [reflexivity|]. intros x y. cbv beta. rewrite Hh.
    rewrite (two_sided_shift A a), (two_sided_shift 1 b). 
    replace (cos theta * x + sin theta * y - a) with (along theta x0 y0 x y) by (unfold along, a; ring).
    replace (- sin theta * x + cos theta * y - b) with (across theta x0 y0 x y) by (unfold across, b; ring). reflexivity.
Qed.
Print Assumptions C133_split2d_rot.
Theorem C133_gaussian3d : forall A x0 y0 z0 Fx Fy Fz c0 cx cy cz pts, Fx <> 0 -> Fy <> 0 -> Fz <> 0 ->
  gaussian3d [A; x0; y0; z0; Fx; Fy; Fz; c0; cx; cy; cz] pts =
  Ok (map (fun q : R * R * R => let '(x, y, z) := q in
       Some (gauss A x0 Fx x * gauss 1 y0 Fy y * gauss 1 z0 Fz z + (c0 + cx * x + cy * y + cz * z))) pts).
Proof.
  intros A x0 y0 z0 Fx Fy Fz c0 cx cy cz pts Hx Hy Hz. unfold gaussian3d. cbn [at_ nth_error rbind pick].
  destruct (unit_gaussian_ok x0 Fx [] Hx) as (f & -> & Hf). cbn [rbind at_ nth_error pick].
  destruct (unit_gaussian_ok y0 Fy [] Hy) as (g & -> & Hg). cbn [rbind at_ nth_error pick].
  destruct (unit_gaussian_ok z0 Fz [] Hz) as (h & -> & Hh). cbn [rbind].
  f_equal. apply map_ext. intros [[x y] z]. rewrite Hf, Hg, Hh. cbn [nmul nadd]. rewrite (gauss_scale A x0). reflexivity.
Qed.
Print Assumptions C133_gaussian3d.

Example C133_ex : exists v, pvoigt1d [4; 1; 2; 1 / 3; 0; 0] [2] = Ok [Some v] /\ v = 2.
Proof.
  eexists. split; [rewrite C133_pvoigt by lra; cbn [map on_line]; reflexivity|].
  destruct (mixed_widths 4 1 2 (1 / 3) ltac:(lra)) as (_ & _ & W). replace (1 + 2 / 2) with 2 in W by lra. rewrite W. lra.
Qed.

(** C134: the rows of the derivative matrix are the derivatives in the parameters *)
Theorem C134_gaussian : forall A x0 F c0 c1 xs, F <> 0 ->
  exists m, gaussian1d_deriv [A; x0; F; c0; c1] xs = Ok m /\
  jacobian (fun p x => gauss (nth 0 p 0) (nth 1 p 0) (nth 2 p 0) x + (nth 3 p 0 + nth 4 p 0 * x)) [A; x0; F; c0; c1] xs m.
Proof. exact gauss_jac_lemma. Qed.
Print Assumptions C134_gaussian.
Theorem C134_lorentzian : forall A x0 F c0 c1 xs, F <> 0 ->
  exists m, lorentzian1d_deriv [A; x0; F; c0; c1] xs = Ok m /\
  jacobian (fun p x => lorentz (nth 0 p 0) (nth 1 p 0) (nth 2 p 0) x + (nth 3 p 0 + nth 4 p 0 * x)) [A; x0; F; c0; c1] xs m.
Proof. exact lorentz_jac_lemma. Qed.
Print Assumptions C134_lorentzian.

(** constants and straight lines: a row for every position *)
Theorem C134_line_partial : forall m b c xs j, (j < length xs)%nat ->
  let x := nth j xs 0 in
  nth j (lin_fit_obj xs m b) 0 = m * x + b /\
  (exists dm db, nth j (lin_fit_jac xs m b) [] = [dm; db] /\
     derivable_pt_lim (fun v => nth j (lin_fit_obj xs v b) 0) m dm /\ derivable_pt_lim (fun v => nth j (lin_fit_obj xs m v) 0) b db) /\
  nth j (cnst_fit_obj xs c) 0 = c /\
  (exists dc, nth j (cnst_fit_jac xs c) [] = [dc] /\ derivable_pt_lim (fun v => nth j (cnst_fit_obj xs v) 0) c dc).
Proof.
  intros m b c xs j Hj x.
  assert (L : forall u v, nth j (lin_fit_obj xs u v) 0 = u * x + v).
  { intros u v. unfold lin_fit_obj. rewrite (nth_indep _ 0 ((fun z => u * z + v) 0)) by (rewrite map_length; exact Hj). rewrite (map_nth (fun z => u * z + v)). reflexivity. }
  assert (C : forall v, nth j (cnst_fit_obj xs v) 0 = v).
  { intros v. unfold cnst_fit_obj. rewrite (nth_indep _ 0 ((fun _ : R => 1 * v) 0)) by (rewrite map_length; exact Hj). rewrite (map_nth (fun _ : R => 1 * v) xs 0 j). ring. }
  assert (X : forall f g : R -> R, (forall v, f v = g v) -> forall t d, derivable_pt_lim g t d -> derivable_pt_lim f t d).
  { intros f g E t d H eps He. destruct (H eps He) as (dl & Hd). exists dl. intros h h1 h2. rewrite !E. apply Hd; assumption. }
  split; [apply L|]. split; [|split; [apply C|]].
  - exists x, 1. split; [|split].
    + unfold lin_fit_jac. rewrite (nth_indep _ [] ((fun z => [z; 1]) 0)) by (rewrite map_length; exact Hj). rewrite (map_nth (fun z => [z; 1])). reflexivity.
    + apply (X _ _ (fun v => L v b)). eapply d_eq; [repeat d_step|]. cbv beta. ring.
    + apply (X _ _ (fun v => L m v)). eapply d_eq; [repeat d_step|]. cbv beta. ring.
  - exists 1. split.
    + unfold cnst_fit_jac. rewrite (nth_indep _ [] ((fun _ : R => [1]) 0)) by (rewrite map_length; exact Hj). rewrite (map_nth (fun _ : R => [1]) xs 0 j). reflexivity.
    + apply (X _ _ C). apply d_id.
Qed.
Print Assumptions C134_line_partial.
(** what is given as the Jacobian of a parabola never is one: it is the function itself *)
Theorem C134_parabola_refuted : forall a b c xs, ~ exists l, quad_fit_jac xs a b c = Rows l.
Proof. intros a b c xs (l & H). discriminate H. Qed.
Print Assumptions C134_parabola_refuted.

Example C134_ex : exists m d, gaussian1d_deriv [4; 1; 2; 0; 0] [2] = Ok m /\ nth 0 (nth 0 m []) None = Some d /\ d = 1 / 2.
Proof.
  destruct (C134_gaussian 4 1 2 0 0 [2] ltac:(lra)) as (m & E & _ & J). exists m. destruct (J 0%nat ltac:(cbn; lia)) as (_ & K). destruct (K 0%nat ltac:(cbn; lia)) as (d & Ed & D).
  exists d. split; [exact E|]. split; [exact Ed|]. unfold partial in D. cbn [put nth] in D.
  pose proof (gauss_dA 4 1 2 (0 + 0 * 2) 2) as D'. rewrite (uniqueness_limite _ _ _ _ D D').
  destruct (gauss_widths 1 1 2 ltac:(lra)) as (_ & _ & W). replace (1 + 2 / 2) with 2 in W by lra. exact W.
Qed.

(** C135: several peaks on a background are summed; every peak has its own block of parameters and the background the last ones *)
Lemma one_peak_ok pink k xs : proper k -> one_peak pink (kind k) (params k) xs = Ok (map (fun x => Some (height k x)) xs).
Proof.
  assert (O : forall f g, is_profile f g -> over f xs = Ok (map (fun x => Some (g x)) xs)).
  { intros f g (h & -> & Hh). cbn [over rbind]. f_equal. apply map_ext. exact Hh. }
  destruct k; cbn [proper kind params one_peak height]; intros H; apply O.
  - apply gaussian_no_bg_ok; exact H.
  - apply lorentzian_no_bg_ok; exact H.
  - apply pvoigt_no_bg_ok; exact H.
  - apply split_no_bg_ok; tauto.
Qed.
Theorem C135_sum : forall pink t peaks bg c xs,
  (forall k, In k peaks -> kind k = t /\ proper k) -> (peaks = [] -> exists k, kind k = t) -> bg <> CubicBg -> length c = coefficients bg ->
  mpeak_1d pink (concat (map params peaks) ++ c) xs t (length peaks) bg =
  Ok (map (fun x => Some (total (map (fun k => height k x) peaks) + polynomial c x)) xs).
Proof.
  intros pink t peaks bg c xs H Hne Hb Hc.
  assert (K : exists k, kind k = t) by (destruct peaks as [|k r]; [apply Hne; reflexivity|exists k; apply H; left; reflexivity]).
  assert (W : exists w, mpeak_nparams t = Ok w /\ forall k, kind k = t -> length (params k) = w).
  { destruct K as (k & <-). destruct k; (eexists; split; [reflexivity|]; intros [ | | | ] E; try discriminate E; reflexivity). }
  destruct W as (w & W1 & W2).
  set (f := fun q x => total (map (fun k => height k x) q)).
  assert (N : mpeak_1d_no_bg pink (concat (map params peaks) ++ c) xs t (length peaks) = Ok (map (fun x => Some (f peaks x)) xs)).
  { unfold mpeak_1d_no_bg. rewrite W1. cbn [rbind].
    assert (Fb : Forall (fun b => length b = w) (map params peaks)).
    { apply Forall_forall. intros b Hin. apply in_map_iff in Hin. destruct Hin as (k & <- & Hk). apply W2, H. exact Hk. }
    pose proof (blocks_length w _ Fb) as L. rewrite map_length in L.
    rewrite firstn_app. replace (w * length peaks - length (concat (map params peaks)))%nat with 0%nat by (rewrite L; lia). cbn [firstn]. rewrite app_nil_r.
    rewrite firstn_all2 by (rewrite L; lia). unfold reshape. rewrite L, Nat.eqb_refl. cbn [rbind].
    pose proof (rows_blocks w _ [] Fb) as E. rewrite app_nil_r, map_length in E. rewrite E. clear - H.
    assert (G : forall acc, accumulate pink t (map params peaks) xs (map (fun x => Some (acc x)) xs) = Ok (map (fun x => Some (acc x + f peaks x)) xs)).
    { induction peaks as [|k r IH]; intros acc.
      - cbn. f_equal. apply map_ext. intros x. f_equal. unfold f. cbn. ring.
      - cbn [map accumulate]. destruct (H k (or_introl eq_refl)) as (<- & Hp). rewrite one_peak_ok by exact Hp. cbn [rbind]. unfold add_rows.
        rewrite combine_maps, map_map. cbn [fst snd nadd]. rewrite (IH (fun k' h => H k' (or_intror h)) (fun x => acc x + height k x)).
        f_equal. apply map_ext. intros x. f_equal. unfold f, total. cbn [map fold_right]. ring. }
    rewrite (G (fun _ => 0)). f_equal. apply map_ext. intros x. f_equal. ring. }
  unfold mpeak_1d. rewrite N. cbn [rbind].
  destruct bg; cbn [coefficients] in Hc.
  - destruct c; [|discriminate Hc]. f_equal. apply map_ext. intros x. f_equal. unfold f. cbn [polynomial]. ring.
  - destruct c as [|c0 [|]]; try discriminate Hc. rewrite from_end_app by (cbn; lia). cbn [length Nat.sub at_ nth_error rbind]. rewrite map_map. f_equal. apply map_ext. intros x.
    cbn [nadd polynomial]. f_equal. unfold f. ring.
  - destruct c as [|c0 [|c1 [|]]]; try discriminate Hc. rewrite !from_end_app by (cbn; lia). cbn [length Nat.sub at_ nth_error rbind]. rewrite combine_self, map_map.
    f_equal. apply map_ext. intros x. cbn [fst snd nadd polynomial]. f_equal. unfold f. ring.
  - destruct c as [|c0 [|c1 [|c2 [|]]]]; try discriminate Hc. rewrite !from_end_app by (cbn; lia). cbn [length Nat.sub at_ nth_error rbind]. rewrite combine_self, map_map.
    f_equal. apply map_ext. intros x. cbn [fst snd nadd polynomial]. f_equal. unfold f. ring.
  - destruct (Hb eq_refl).
Qed.
Print Assumptions C135_sum.
(** the order of the peaks does not matter *)
Theorem C135_order : forall pink t peaks peaks' bg c xs, Permutation peaks peaks' ->
  (forall k, In k peaks -> kind k = t /\ proper k) -> bg <> CubicBg -> length c = coefficients bg ->
  mpeak_1d pink (concat (map params peaks) ++ c) xs t (length peaks) bg = mpeak_1d pink (concat (map params peaks') ++ c) xs t (length peaks') bg.
Proof.
  intros pink t peaks peaks' bg c xs P H Hb Hc. destruct peaks as [|k r].
  - apply Permutation_nil in P. subst. reflexivity.
  - assert (N : k :: r <> []) by discriminate. rewrite C135_sum; [|assumption|intros E; discriminate E|assumption|assumption]. rewrite C135_sum.
    + f_equal. apply map_ext. intros x. do 2 f_equal. assert (Q : Permutation (map (fun k => height k x) (k :: r)) (map (fun k => height k x) peaks')) by (apply Permutation_map; exact P).
      unfold total. clear - Q. induction Q; cbn [fold_right]; try congruence; try ring. 
    + intros k' Hk. apply H. apply (Permutation_in _ (Permutation_sym P)). exact Hk.
    + intros ->. exists k. apply H. left. reflexivity.
    + exact Hb.
    + exact Hc.
Qed.
Print Assumptions C135_order.
(** a type that is not known, or too few parameters *)
Theorem C135_refused : forall pink p xs t n bg,
  (mpeak_nparams t = Err KeyError -> mpeak_1d pink p xs t n bg = Err KeyError) /\
  (forall w, mpeak_nparams t = Ok w -> (length p < w * n)%nat -> mpeak_1d pink p xs t n bg = Err ValueError).
Proof.
  intros pink p xs t n bg. split.
  - intros E. unfold mpeak_1d, mpeak_1d_no_bg. rewrite E. reflexivity.
  - intros w E H. unfold mpeak_1d, mpeak_1d_no_bg. rewrite E. cbn [rbind]. unfold reshape. rewrite firstn_length.
    destruct (Nat.eqb_spec (Nat.min (w * n) (length p)) (n * w)) as [e|e]; [lia|]. reflexivity.
Qed.
Print Assumptions C135_refused.
(** a cubic background, for which first guesses are made, is left out *)
Theorem C135_cubic_refuted : exists peaks c xs, (forall k, In k peaks -> kind k = Gaussian /\ proper k) /\ length c = coefficients CubicBg /\
  forall pink, mpeak_1d pink (concat (map params peaks) ++ c) xs Gaussian (length peaks) CubicBg <>
    Ok (map (fun x => Some (total (map (fun k => height k x) peaks) + polynomial c x)) xs).
Proof.
  exists [PGauss 1 0 1], [5; 0; 0; 0], [0]. split; [intros k [<-|[]]; split; [reflexivity|cbn; lra]|]. split; [reflexivity|]. intros pink.
  pose proof (C135_sum pink Gaussian [PGauss 1 0 1] NoBg [] [0]) as S0. cbn [length coefficients app concat map] in *.
  assert (S1 : mpeak_1d pink (params (PGauss 1 0 1) ++ [5; 0; 0; 0]) [0] Gaussian 1 CubicBg = mpeak_1d pink ((params (PGauss 1 0 1) ++ []) ++ []) [0] Gaussian 1 NoBg) by reflexivity.
  rewrite app_nil_r. rewrite S1. rewrite S0.
  - intros E. injection E. cbn. intros E'. lra.
  - intros k [<-|[]]; split; [reflexivity|cbn; lra].
  - discriminate.
  - discriminate.
  - reflexivity.
Qed.
Print Assumptions C135_cubic_refuted.

(** the mixture for a Gaussian and a Lorentzian width: the width of the sum is that of Thompson, Cox and Hastings, between the
    larger and the sum of the two; the fraction is between 0 and 1 *)
Theorem C135_mixing : forall g l, 0 <= g -> 0 <= l -> 0 < g + l ->
  exists F, mixing_factor_pv g l = Ok (Some (tch_fraction (l / F)), Some F) /\ 0 < F /\ F ^ 5 = tch_fifth g l /\
  0 <= tch_fraction (l / F) <= 1 /\ Rmax g l <= F <= g + l.
Proof. exact mixing_lemma. Qed.
Print Assumptions C135_mixing.
(** whatever widths are given, negative ones included, a fraction that is returned is one *)
Theorem C135_fraction_bounds : forall g l eta F, mixing_factor_pv g l = Ok (Some eta, F) -> 0 <= eta <= 1.
Proof.
  intros g l eta F H. unfold mixing_factor_pv in H. destruct (Rlt_dec _ 0); [discriminate H|]. destruct (Req_EM_T _ 0); [discriminate H|]. injection H as H _.
  rewrite <- H. destruct (Rlt_dec _ 0); [lra|]. destruct (Rlt_dec 1 _); lra.
Qed.
Print Assumptions C135_fraction_bounds.
(** pure cases, and the scale *)
Theorem C135_pure : forall w, 0 < w -> mixing_factor_pv w 0 = Ok (Some 0, Some w) /\ mixing_factor_pv 0 w = Ok (Some 1, Some w) /\
  mixing_factor_pv 0 0 = Err ZeroDivisionError.
Proof.
  intros w H. split; [|split].
  - rewrite (mixing_unique w 0 w); try lra; [|unfold tch_fifth; ring]. do 3 f_equal. unfold tch_fraction, Rdiv. ring.
  - rewrite (mixing_unique 0 w w); try lra; [|unfold tch_fifth; ring]. do 3 f_equal. unfold tch_fraction. replace (w / w) with 1 by (field; lra). lra.
  - unfold mixing_factor_pv. rewrite mix_eq. replace (tch_fifth 0 0) with 0 by (unfold tch_fifth; ring). destruct (Rlt_dec 0 0); [lra|]. destruct (Req_EM_T 0 0); [reflexivity|lra].
Qed.
Print Assumptions C135_pure.
Theorem C135_scale : forall g l k, 0 <= g -> 0 <= l -> 0 < g + l -> 0 < k ->
  exists eta F, mixing_factor_pv g l = Ok (Some eta, Some F) /\ mixing_factor_pv (k * g) (k * l) = Ok (Some eta, Some (k * F)).
Proof.
  intros g l k Hg Hl H Hk. destruct (mixing_lemma g l Hg Hl H) as (F & M & P & E & _). exists (tch_fraction (l / F)), F. split; [exact M|].
  rewrite (mixing_unique (k * g) (k * l) (k * F)).
  - do 4 f_equal. field. split; lra.
  - apply Rmult_le_pos; lra.
  - apply Rmult_le_pos; lra.
  - nra.
  - apply Rmult_lt_0_compat; lra.
  - rewrite Rpow_mult_distr, E. unfold tch_fifth. ring.
Qed.
Print Assumptions C135_scale.
(** equal rise and decay should give a symmetric pink-beam profile; it is not, for whatever function with the value 1 at 0 that
    falls faster than a Gaussian stands for erfc *)
Theorem C135_pink_refuted : forall erfc, erfc 0 = 1 -> (forall s, 0 < s -> 0 < erfc s < exp (- s ^ 2)) ->
  exists alpha F d v w, 0 < alpha /\ 0 < F /\ gaussian_pink_beam erfc 1 0 alpha alpha F [d; - d] = Ok [v; w] /\ v <> w.
Proof.
  intros erfc E0 El. exists 1, 1, 1.
  assert (S2 : sqrt 2 * sqrt 2 = 2) by (apply sqrt_sqrt; lra). assert (Sp : 0 < sqrt 2) by (apply sqrt_lt_R0; lra).
  assert (Q2 : 2 / sqrt 2 = sqrt 2) by (rewrite <- S2 at 1; field; lra). set (s := sqrt 2).
  assert (V1 : pink_value erfc 1 1 1 (1 - 0) = 1 / 4 * exp (3 / 2) * erfc s + exp (- (1 / 2))).
  { unfold pink_value. destruct (Rlt_dec 5 (Rabs (1 - 0))) as [h|h]; [rewrite Rabs_right in h; lra|].
    replace ((1 * 1 ^ 2 + 2 * (1 - 0) - (1 - 0)) / (sqrt 2 * 1)) with s by (unfold s; rewrite <- Q2 at 1; field; lra).
    replace ((1 * 1 ^ 2 - 2 * (1 - 0) + (1 - 0)) / (sqrt 2 * 1)) with 0 by (field; lra). rewrite E0.
    replace (1 / 2 * 1 * (1 * 1 ^ 2 + 2 * (1 - 0))) with (3 / 2) by lra. replace (1 / 2 * 1 * (1 * 1 ^ 2 - 2 * (1 - 0))) with (- (1 / 2)) by lra. lra. }
  assert (V2 : pink_value erfc 1 1 1 (- (1) - 0) = 1 / 4 * exp (- (1 / 2)) + exp (3 / 2) * erfc s).
  { unfold pink_value. destruct (Rlt_dec 5 (Rabs (- (1) - 0))) as [h|h]; [rewrite Rabs_left in h; lra|].
    replace ((1 * 1 ^ 2 - 2 * (- (1) - 0) + (- (1) - 0)) / (sqrt 2 * 1)) with s by (unfold s; rewrite <- Q2 at 1; field; lra).
    replace ((1 * 1 ^ 2 + 2 * (- (1) - 0) - (- (1) - 0)) / (sqrt 2 * 1)) with 0 by (field; lra). rewrite E0.
    replace (1 / 2 * 1 * (1 * 1 ^ 2 + 2 * (- (1) - 0))) with (- (1 / 2)) by lra. replace (1 / 2 * 1 * (1 * 1 ^ 2 - 2 * (- (1) - 0))) with (3 / 2) by lra. lra. }
  assert (B : 0 < exp (3 / 2) * erfc s < exp (- (1 / 2))).
  { destruct (El s Sp) as (e1 & e2). pose proof (exp_pos (3 / 2)). split; [apply Rmult_lt_0_compat; assumption|].
    replace (exp (- (1 / 2))) with (exp (3 / 2) * exp (- s ^ 2)). apply Rmult_lt_compat_l; assumption.
    rewrite <- exp_plus. f_equal. unfold s. replace (sqrt 2 ^ 2) with (sqrt 2 * sqrt 2) by ring. lra. }
  set (a := exp (3 / 2) * erfc s) in *. set (b := exp (- (1 / 2))) in *.
  assert (V1' : pink_value erfc 1 1 1 (1 - 0) = a / 4 + b) by (rewrite V1; unfold a; lra).
  assert (V2' : pink_value erfc 1 1 1 (- (1) - 0) = b / 4 + a) by (rewrite V2; lra).
  unfold gaussian_pink_beam. destruct (Req_EM_T (1 + 1) 0); [lra|]. cbn [map]. rewrite V1', V2'. cbn [list_max].
  set (m := Rmax (b / 4 + a) (a / 4 + b)). assert (M : 0 < m) by (pose proof (Rmax_l (b / 4 + a) (a / 4 + b)); fold m in H; lra).
  destruct (Req_EM_T m 0); [lra|]. exists ((a / 4 + b) * (1 / m)), ((b / 4 + a) * (1 / m)). split; [lra|]. split; [lra|]. split; [reflexivity|].
  intros Q. apply Rmult_eq_reg_r in Q; [lra|]. assert (0 < 1 / m) by (apply Rdiv_lt_0_compat; lra). lra.
Qed.
Print Assumptions C135_pink_refuted.
Example C135_erfc_ex : let e := fun s => exp (- s ^ 2) * exp (- s) in e 0 = 1 /\ forall s, 0 < s -> 0 < e s < exp (- s ^ 2).
Proof.
  intros e. unfold e. split; [replace (- 0 ^ 2) with 0 by ring; rewrite Ropp_0, exp_0; ring|]. intros s H. pose proof (exp_pos (- s ^ 2)). pose proof (exp_pos (- s)).
  assert (exp (- s) < 1) by (rewrite <- exp_0; apply exp_increasing; lra). split; [apply Rmult_lt_0_compat; assumption|nra].
Qed.
Example C135_ex : exists v, mpeak_1d (fun _ _ _ => Err KeyError) [4; 1; 2; 2; 3; 2; 10; 1] [2] Gaussian 2 LinearBg = Ok [Some v] /\ v = 15.
Proof.
  pose proof (C135_sum (fun _ _ _ => Err KeyError) Gaussian [PGauss 4 1 2; PGauss 2 3 2] LinearBg [10; 1] [2]) as H.
  cbn [map concat params app length] in H. rewrite H.
  - eexists. split; [reflexivity|]. cbn [height total fold_right polynomial].
    destruct (gauss_widths 4 1 2 ltac:(lra)) as (_ & _ & W1). destruct (gauss_widths 2 3 2 ltac:(lra)) as (_ & W2 & _).
    replace (1 + 2 / 2) with 2 in W1 by lra. replace (3 - 2 / 2) with 2 in W2 by lra. rewrite W1, W2. lra.
  - intros k [<-|[<-|[]]]; split; try reflexivity; cbn; lra.
  - discriminate.
  - discriminate.
  - reflexivity.
Qed.
