(** C136 *)
From Coq Require Import Reals List ZArith Lra Lia Bool.
From Verif Require Import Prelude PkModel PkSpec PkSpec2 PkProofs PkMore PkTwo PkfModel PkfSpec PkfProofs.
Import ListNotations.
Local Open Scope R_scope.
Local Notation length := List.length.

(** C136: the residuals of a fit without bounds are peak plus line minus data *)
Theorem C136_residuals : forall pink k c0 c1 xs ys, proper k -> length ys = length xs ->
  fit_pk_obj_1d pink (params k ++ [c0; c1]) xs ys (kind k) = Ok (map (fun q => Some (misfit k c0 c1 q)) (combine xs ys)).
Proof. intros. unfold fit_pk_obj_1d. rewrite peak_values_ok by assumption. cbn [rbind]. apply minus_ok. assumption. Qed.
Print Assumptions C136_residuals.

(** with bounds, for a mixed peak: nothing is left exactly if the data are met and the parameters are near the guess *)
Theorem C136_bounded : forall pink A0 m0 F0 n0 b0 s0 A x0 F n c0 c1 xs ys w,
  F <> 0 -> xs <> [] -> length ys = length xs -> w <> 0 ->
  exists lb ub r, bounds Pvoigt [A0; m0; F0; n0; b0; s0] xs = Ok (lb, ub) /\
  fit_pk_obj_1d_bnded pink [A; x0; F; n; c0; c1] xs ys Pvoigt w lb ub = Ok r /\
  (zeros r <-> exact (PMixed A x0 F n) c0 c1 xs ys /\ near_guess A0 F0 b0 xs A x0 F n c0).
Proof.
  intros pink A0 m0 F0 n0 b0 s0 A x0 F n c0 c1 xs ys w HF Hx L Hw. unfold bounds. cbn [at_ nth_error rbind].
  destruct (np_min_ok xs Hx) as (lo & -> & l1 & l2). destruct (np_max_ok xs Hx) as (hi & -> & h1 & h2). cbn [rbind].
  eexists. eexists. match goal with |- exists r, Ok (?lb, ?ub) = _ /\ _ => destruct (bnded_ok pink (PMixed A x0 F n) c0 c1 xs ys w lb ub) as (r & E & Z) end.
  - exact HF.
  - left. reflexivity.
  - exact L.
  - exact Hw.
  - reflexivity.
  - unfold paired. repeat constructor; intros; discriminate.
  - exists r. split; [reflexivity|]. split; [exact E|]. rewrite Z. cbn [params app within]. unfold near_guess. rewrite (spanned_iff xs lo hi x0 l1 l2 h1 h2).
    split; intros (e & g); (split; [exact e|]); intuition lra.
Qed.
Print Assumptions C136_bounded.
(** for a two-sided peak: the bound of the background is taken from the left mixture of the guess and that of the right width from
    its left width *)
Theorem C136_bounded_split_partial : forall pink A0 m0 Fl0 Fr0 nl0 nr0 b0 s0 A x0 Fl Fr nl nr c0 c1 xs ys w,
  Fl <> 0 -> Fr <> 0 -> xs <> [] -> length ys = length xs -> w <> 0 ->
  exists lb ub r, bounds SplitPvoigt [A0; m0; Fl0; Fr0; nl0; nr0; b0; s0] xs = Ok (lb, ub) /\
  fit_pk_obj_1d_bnded pink [A; x0; Fl; Fr; nl; nr; c0; c1] xs ys SplitPvoigt w lb ub = Ok r /\
  (zeros r <-> exact (PTwoSided A x0 Fl Fr nl nr) c0 c1 xs ys /\ near_guess2 A0 Fl0 Fl0 nl0 xs A x0 Fl Fr nl nr c0).
Proof.
  intros pink A0 m0 Fl0 Fr0 nl0 nr0 b0 s0 A x0 Fl Fr nl nr c0 c1 xs ys w Hl Hr Hx L Hw. unfold bounds. cbn [at_ nth_error rbind].
  destruct (np_min_ok xs Hx) as (lo & -> & l1 & l2). destruct (np_max_ok xs Hx) as (hi & -> & h1 & h2). cbn [rbind].
  eexists. eexists. match goal with |- exists r, Ok (?lb, ?ub) = _ /\ _ => destruct (bnded_ok pink (PTwoSided A x0 Fl Fr nl nr) c0 c1 xs ys w lb ub) as (r & E & Z) end.
  - split; assumption.
  - right. reflexivity.
  - exact L.
  - exact Hw.
  - reflexivity.
  - unfold paired. repeat constructor; intros; discriminate.
  - exists r. split; [reflexivity|]. split; [exact E|]. rewrite Z. cbn [params app within]. unfold near_guess2. rewrite (spanned_iff xs lo hi x0 l1 l2 h1 h2).
    split; intros (e & g); (split; [exact e|]); intuition lra.
Qed.
Print Assumptions C136_bounded_split_partial.
(** so exact data with a background above 1 and the true parameters as the guess leave a residual: whatever the pink beam
    functions, the true parameters are not where the residuals vanish *)
Theorem C136_split_refuted : forall c0, 1 < c0 -> exists A x0 F xs ys,
  exact (PTwoSided A x0 F F (1 / 2) (1 / 2)) c0 0 xs ys /\ near_guess2 A F F c0 xs A x0 F F (1 / 2) (1 / 2) c0 /\
  forall pink w, w <> 0 -> exists lb ub r, bounds SplitPvoigt [A; x0; F; F; 1 / 2; 1 / 2; c0; 0] xs = Ok (lb, ub) /\
  fit_pk_obj_1d_bnded pink [A; x0; F; F; 1 / 2; 1 / 2; c0; 0] xs ys SplitPvoigt w lb ub = Ok r /\ ~ zeros r.
Proof.
  intros c0 Hc. exists 4, 1, 1, [1], [4 + c0]. assert (E : exact (PTwoSided 4 1 1 1 (1 / 2) (1 / 2)) c0 0 [1] [4 + c0]).
  { constructor; [|constructor]. unfold misfit. cbn [fst snd height]. destruct (two_sided_widths 4 1 1 1 (1 / 2) (1 / 2) ltac:(lra) ltac:(lra)) as (-> & _). lra. }
  split; [exact E|]. split.
  - unfold near_guess2, spanned. repeat split; try lra; exists 1; (split; [left; reflexivity|lra]).
  - intros pink w Hw.
    destruct (C136_bounded_split_partial pink 4 1 1 1 (1 / 2) (1 / 2) c0 0 4 1 1 1 (1 / 2) (1 / 2) c0 0 [1] [4 + c0] w) as (lb & ub & r & B & Q & Z); try lra; try discriminate; try reflexivity.
    exists lb, ub, r. split; [exact B|]. split; [exact Q|]. rewrite Z. intros (_ & G). unfold near_guess2 in G. lra.
Qed.
Print Assumptions C136_split_refuted.

(** what is returned: the numbers the optimiser finds from the guess, or the guess *)
Theorem C136_returned : forall pink least p0 x f t q, fit_pk_parms_1d pink least p0 x f t = Ok q ->
  q = p0 \/ exists obj, least obj p0 = Ok (map Some q).
Proof.
  intros pink least p0 x f t q H. unfold fit_pk_parms_1d in H. destruct (np_max f) as [m|]; [|discriminate H]. cbn [rbind] in H.
  assert (N : forall p r, all_numbers p = Some r -> p = map Some r).
  { induction p as [|[a|] p IH]; intros r E; cbn [all_numbers fold_right] in E; try discriminate E.
    - injection E as <-. reflexivity.
    - destruct (fold_right _ _ p) as [t'|] eqn:Q; [|discriminate E]. injection E as <-. cbn [map]. f_equal. apply IH. exact Q. }
  assert (G : forall obj, (do p <- least obj p0; Ok (match all_numbers p with Some q' => q' | None => p0 end)) = Ok q -> q = p0 \/ exists obj, least obj p0 = Ok (map Some q)).
  { intros obj E. destruct (least obj p0) as [p|] eqn:Lq; [|discriminate E]. cbn [rbind] in E. destruct (all_numbers p) as [q'|] eqn:Aq; injection E as <-; [|left; reflexivity].
    right. exists obj. rewrite Lq. f_equal. apply N. exact Aq. }
  destruct t; try (apply G in H; exact H); try (injection H as <-; left; reflexivity).
  - destruct (bounds Pvoigt p0 x) as [b|]; [|discriminate H]. cbn [rbind] in H. apply G in H. exact H.
  - destruct (bounds SplitPvoigt p0 x) as [b|]; [|discriminate H]. cbn [rbind] in H. apply G in H. exact H.
Qed.
Print Assumptions C136_returned.
(** the residuals the optimiser is given for a mixed peak vanish exactly if the data are met by parameters near the guess *)
Theorem C136_objective : forall pink least A0 m0 F0 n0 b0 s0 x f q,
  x <> [] -> length f = length x -> (exists m, In m f /\ m <> 0 /\ forall v, In v f -> v <= m) ->
  fit_pk_parms_1d pink least [A0; m0; F0; n0; b0; s0] x f Pvoigt = Ok q ->
  exists obj p, least obj [A0; m0; F0; n0; b0; s0] = Ok p /\ (p = map Some q \/ q = [A0; m0; F0; n0; b0; s0]) /\
  forall A x0 F n c0 c1, F <> 0 -> exists r, obj [A; x0; F; n; c0; c1] = Ok r /\ (zeros r <-> exact (PMixed A x0 F n) c0 c1 x f /\ near_guess A0 F0 b0 x A x0 F n c0).
Proof.
  intros pink least A0 m0 F0 n0 b0 s0 x f q Hx L (m & Mi & Mn & Mm) H. unfold fit_pk_parms_1d in H.
  destruct (np_max_ok f) as (m' & E' & I' & G'). { intros ->. destruct Mi. } rewrite E' in H. cbn [rbind] in H.
  assert (m' = m) as -> by (pose proof (Mm _ I'); pose proof (G' _ Mi); lra). assert (W : m * 10 <> 0) by lra.
  pose proof (fun A x0 F n c0 c1 HF => C136_bounded pink A0 m0 F0 n0 b0 s0 A x0 F n c0 c1 x f (m * 10) HF Hx L W) as B.
  destruct (bounds Pvoigt [A0; m0; F0; n0; b0; s0] x) as [[lb ub]|] eqn:Eb; [|discriminate H]. cbn [rbind fst snd] in H.
  destruct (least _ _) as [p|] eqn:Lq; [|discriminate H]. cbn [rbind] in H. eexists. exists p. split; [exact Lq|]. split.
  - assert (N : forall p r, all_numbers p = Some r -> p = map Some r).
    { clear. induction p as [|[a|] p IH]; intros r E; cbn [all_numbers fold_right] in E; try discriminate E.
      - injection E as <-. reflexivity.
      - destruct (fold_right _ _ p) as [t'|] eqn:Q; [|discriminate E]. injection E as <-. cbn [map]. f_equal. apply IH. exact Q. }
    destruct (all_numbers p) as [q'|] eqn:Aq; injection H as <-; [left; apply N; exact Aq|right; reflexivity].
  - intros A x0 F n c0 c1 HF. destruct (B A x0 F n c0 c1 HF) as (lb' & ub' & r & E1 & E2 & Z). injection E1 as <- <-. exists r. split; [exact E2|exact Z].
Qed.
Print Assumptions C136_objective.
(** the guessed height is the greatest value between the positions nearest to half a width on either side *)
Theorem C136_window : forall x x0 y F a, amplitude_guess x x0 y F = Ok a ->
  exists l h xl xh, nth_error x l = Some xl /\ nth_error x h = Some xh /\
    (forall v, In v x -> Rabs (xl - (x0 - F / 2)) <= Rabs (v - (x0 - F / 2))) /\ (forall v, In v x -> Rabs (xh - (x0 + F / 2)) <= Rabs (v - (x0 + F / 2))) /\
    (exists j, (l <= j <= h)%nat /\ nth_error y j = Some a) /\ forall j v, (l <= j <= h)%nat -> nth_error y j = Some v -> v <= a.
Proof.
  intros x x0 y F a H. unfold amplitude_guess in H. destruct x as [|x1 x']; [discriminate H|]. set (x := x1 :: x') in *.
  replace (x0 - F / 2) with (x0 - 1 / 2 * F) by field. replace (x0 + F / 2) with (x0 + 1 / 2 * F) by field.
  assert (S1 : forall c, exists i xi, argmin (map (fun z => Rabs (z - c)) x) = Ok i /\ nth_error x i = Some xi /\ forall v, In v x -> Rabs (xi - c) <= Rabs (v - c)).
  { intros c. destruct (argmin_ok (map (fun z => Rabs (z - c)) x)) as (i & v & Ei & Ni & Mi); [unfold x; discriminate|]. rewrite nth_error_map in Ni.
    destruct (nth_error x i) as [xi|] eqn:Nx; [|discriminate Ni]. injection Ni as <-. exists i, xi. split; [exact Ei|]. split; [exact Nx|].
    intros u Hu. apply Mi. apply (in_map (fun z => Rabs (z - c))). exact Hu. }
  destruct (S1 (x0 - 1 / 2 * F)) as (l & xl & El & Nl & Ml). destruct (S1 (x0 + 1 / 2 * F)) as (h & xh & Eh & Nh & Mh). rewrite El in H. cbn [rbind] in H. rewrite Eh in H. cbn [rbind] in H.
  assert (NF : forall {A} n k (z : list A) j, nth_error (firstn n (skipn k z)) j = if Nat.ltb j n then nth_error z (k + j) else None).
  { clear. intros A n k z. revert k. induction k as [|k IH] in z |- *; intros j.
    - cbn [skipn Nat.add]. revert n j. induction z as [|b z IH]; intros [|n] [|j]; cbn [firstn nth_error]; try reflexivity. { destruct (Nat.ltb _ _); reflexivity. } rewrite IH. reflexivity.
    - destruct z as [|b z]; cbn [skipn]. { rewrite firstn_nil. destruct j as [|j]; cbn [nth_error Nat.add]; [destruct (Nat.ltb 0 n)|destruct (Nat.ltb (S j) n)]; reflexivity. } rewrite IH. reflexivity. }
  destruct (np_max_ok (firstn (h + 1 - l) (skipn l y))) as (a' & Ea & Ia & Ga). { intros E. rewrite E in H. discriminate H. }
  rewrite H in Ea. injection Ea as <-. exists l, h, xl, xh. split; [exact Nl|]. split; [exact Nh|]. split; [exact Ml|]. split; [exact Mh|]. split.
  - apply In_nth_error in Ia as [j Ej]. rewrite NF in Ej. destruct (Nat.ltb_spec j (h + 1 - l)); [|discriminate Ej]. exists (l + j)%nat. split; [lia|exact Ej].
  - intros j v Hj Ev. apply Ga. apply (nth_error_In _ (j - l)). rewrite NF. destruct (Nat.ltb_spec (j - l) (h + 1 - l)); [|lia]. replace (l + (j - l))%nat with j by lia. exact Ev.
Qed.
Print Assumptions C136_window.
(** the pink-beam type for which guesses are made is never fitted, and for the one that is fitted no guess is made *)
Theorem C136_pink_names_refuted : forall pink least snip line_fit p0 x f q,
  (fit_pk_parms_1d pink least p0 x f PinkBeamDcs = Ok q -> q = p0) /\
  ~ (exists g, estimate_pk_parms_1d snip line_fit x f DcsPinkbeam = Ok g).
Proof.
  intros pink least snip line_fit p0 x f q. split.
  - unfold fit_pk_parms_1d. destruct (np_max f); [|discriminate]. cbn [rbind]. intros H. injection H as <-. reflexivity.
  - intros (g & H). unfold estimate_pk_parms_1d in H. destruct (negb (Nat.eqb (length f) (length x))); [discriminate H|].
    cbv zeta in H. repeat (match type of H with rbind ?e _ = _ => destruct e; [|discriminate H]; cbn [rbind] in H end). discriminate H.
Qed.
Print Assumptions C136_pink_names_refuted.

Lemma nth_skip {A} (l : list A) i : forall r, nth_error (skipn i l) r = nth_error l (i + r).
Proof. revert i; induction l as [|x l IH]; intros [|i] r; cbn; try reflexivity; [destruct r; reflexivity|apply IH]. Qed.
Lemma nth_first {A} (l : list A) : forall i r, (r < i)%nat -> nth_error (firstn i l) r = nth_error l r.
Proof. induction l as [|x l IH]; intros [|i] [|r] H; cbn; try reflexivity; try lia. apply IH. lia. Qed.
Lemma increasing_nth xs : forall i j a b, increasing xs -> (i < j)%nat -> nth_error xs i = Some a -> nth_error xs j = Some b -> a < b.
Proof.
  induction xs as [|x xs IH]; intros i j a b H Hij Ea Eb; [destruct i; discriminate Ea|]. destruct j as [|j]; [lia|]. destruct H as (h & H). cbn [nth_error] in Eb.
  destruct i as [|i].
  - injection Ea as <-. destruct xs as [|y xs]; [destruct j; discriminate Eb|]. destruct j as [|j]; [injection Eb as <-; exact h|].
    specialize (IH 0%nat (S j) y b H ltac:(lia) eq_refl Eb). lra.
  - apply (IH i j a b H); [lia|exact Ea|exact Eb].
Qed.
Lemma estimate_lemma : forall snip line_fit xs ys t,
  t = Gaussian \/ t = Lorentzian \/ t = Pvoigt \/ t = SplitPvoigt -> increasing xs -> (2 <= length xs)%nat -> length ys = length xs ->
  exists k c0 c1 i x y, estimate_pk_parms_1d snip line_fit xs ys t = Ok (params k ++ [c0; c1]) /\ kind k = t /\
  (c1, c0) = line_fit xs (snip (Nat.div (2 * length xs) 3) ys) /\
  nth_error xs i = Some x /\ nth_error ys i = Some y /\ centre k = x /\ height k x + (c0 + c1 * x) = y /\
  (forall j x' y', nth_error xs j = Some x' -> nth_error ys j = Some y' -> y' - (c0 + c1 * x') <= top k) /\
  0 < left_width k /\ 0 < right_width k /\
  ((0 < i < length xs - 1)%nat -> exists l r xl xr, nearest c0 c1 xs ys (fun j => (j < i)%nat) (top k / 2) l /\
  nearest c0 c1 xs ys (fun j => (i <= j)%nat) (top k / 2) r /\ nth_error xs l = Some xl /\ nth_error xs r = Some xr /\
  (xr - xl <= 3 / 4 * INR (length xs) -> left_width k = xr - xl /\ right_width k = xr - xl)).
Proof.
  intros snip line_fit xs ys t Ht Hi Hl L. unfold estimate_pk_parms_1d. rewrite L, Nat.eqb_refl. cbn [negb]. cbv zeta.
  destruct (line_fit xs (snip (Nat.div (2 * length xs) 3) ys)) as [c1 c0] eqn:Lf. cbn [fst snd].
  set (pint := map (fun q => fst q - snd q) (combine ys (lin_fit_obj xs c1 c0))).
  assert (Pn : forall j, nth_error pint j = match nth_error ys j, nth_error xs j with Some y, Some x => Some (y - (c1 * x + c0)) | _, _ => None end).
  { unfold pint, lin_fit_obj. clear - L. revert ys L. induction xs as [|x xs IH]; intros [|y ys] L j; try discriminate L.
    - destruct j; reflexivity.
    - destruct j; [reflexivity|]. cbn [map combine nth_error]. apply IH. injection L as L. exact L. }
  assert (Lp : length pint = length xs) by (unfold pint, lin_fit_obj; rewrite map_length, combine_length, map_length; lia).
  destruct (argmax_ok pint) as (i & A & E & N & M); [intros Z; rewrite Z in Lp; cbn in Lp; lia|]. rewrite E. cbn [rbind]. unfold at_ at 1. rewrite N. cbn [rbind].
  pose proof N as N'. rewrite Pn in N'. destruct (nth_error ys i) as [y|] eqn:Ey; [|discriminate N']. destruct (nth_error xs i) as [x|] eqn:Ex; [|discriminate N']. injection N' as EA.
  unfold at_. rewrite Ex. cbn [rbind].
  assert (Li : (i < length pint)%nat) by (apply nth_error_Some; rewrite N; discriminate).
  assert (Ab : forall j e, nth_error pint j = Some e <-> above c0 c1 xs ys j e).
  { intros j e. rewrite Pn. unfold above. split.
    - destruct (nth_error ys j) as [b|]; [|discriminate]. destruct (nth_error xs j) as [a|]; [|discriminate]. intros Q. injection Q as <-. exists a, b. repeat split. ring.
    - intros (a & b & -> & -> & ->). f_equal. ring. }
  assert (S1 : exists r, argmin (map (fun v => Rabs (v - 1 / 2 * A)) (skipn i pint)) = Ok r /\ nearest c0 c1 xs ys (fun j => (i <= j)%nat) (A / 2) (i + r)).
  { destruct (argmin_ok (map (fun v => Rabs (v - 1 / 2 * A)) (skipn i pint))) as (r & v & Er & Nr & Mr).
    - intros Z. apply map_eq_nil in Z. assert (Q : length (skipn i pint) = 0%nat) by (rewrite Z; reflexivity). rewrite skipn_length in Q. lia.
    - exists r. split; [exact Er|]. split; [lia|]. rewrite nth_error_map in Nr. destruct (nth_error (skipn i pint) r) as [e|] eqn:Se; [|discriminate Nr]. injection Nr as Nr.
      exists e. split; [apply Ab; rewrite <- Se; symmetry; apply nth_skip|].
      intros j' e' Hj He. apply Ab in He. replace j' with (i + (j' - i))%nat in He by lia. rewrite <- nth_skip in He. apply nth_error_In in He.
      apply (in_map (fun v => Rabs (v - 1 / 2 * A))) in He. apply Mr in He. rewrite <- Nr in He. replace (A / 2) with (1 / 2 * A) by lra. exact He. }
  assert (S2 : (0 < i)%nat -> exists r, argmin (map (fun v => Rabs (v - 1 / 2 * A)) (firstn i pint)) = Ok r /\ nearest c0 c1 xs ys (fun j => (j < i)%nat) (A / 2) r).
  { intros Hg. destruct (argmin_ok (map (fun v => Rabs (v - 1 / 2 * A)) (firstn i pint))) as (r & v & Er & Nr & Mr).
    - intros Z. apply map_eq_nil in Z. assert (Q : length (firstn i pint) = 0%nat) by (rewrite Z; reflexivity). rewrite firstn_length in Q. lia.
    - exists r. split; [exact Er|]. rewrite nth_error_map in Nr. destruct (nth_error (firstn i pint) r) as [e|] eqn:Se; [|discriminate Nr]. injection Nr as Nr.
      assert (Hr : (r < i)%nat). { assert (Q : (r < length (firstn i pint))%nat) by (apply nth_error_Some; rewrite Se; discriminate). rewrite firstn_length in Q. lia. }
      split; [exact Hr|]. rewrite nth_first in Se by exact Hr. exists e. split; [apply Ab; exact Se|].
      intros j' e' Hj He. apply Ab in He. rewrite <- (nth_first pint i j' Hj) in He. apply nth_error_In in He.
      apply (in_map (fun v => Rabs (v - 1 / 2 * A))) in He. apply Mr in He. rewrite <- Nr in He. replace (A / 2) with (1 / 2 * A) by lra. exact He. }
  match goal with |- context [do lr <- ?e; _] => assert (LR : exists lr, e = Ok lr /\ ((0 < i < length xs - 1)%nat ->
     nearest c0 c1 xs ys (fun j => (j < i)%nat) (A / 2) (fst lr) /\ nearest c0 c1 xs ys (fun j => (i <= j)%nat) (A / 2) (i + snd lr))) end.
  { destruct S1 as (b & -> & Nb). destruct (andb (Nat.ltb 0 i) (Nat.ltb i (length xs - 1))) eqn:B1.
    - apply andb_true_iff in B1. destruct B1 as (B1 & _). apply Nat.ltb_lt in B1. destruct (S2 B1) as (a & -> & Na). cbn [rbind]. exists (a, b). auto.
    - assert (NI : ~ (0 < i < length xs - 1)%nat). { apply andb_false_iff in B1. destruct B1 as [B1|B1]; apply Nat.ltb_ge in B1; lia. }
      destruct (Nat.eqb_spec i 0) as [Z|Z].
      + cbn [rbind]. exists (b, b). split; [reflexivity|intros K; destruct (NI K)].
      + destruct (S2 ltac:(lia)) as (a & -> & _). cbn [rbind]. exists (a, a). split; [reflexivity|intros K; destruct (NI K)]. }
  destruct LR as (lr & LR & LRn). rewrite LR. cbn [rbind].
  match goal with |- context [Ok [A; x; ?w; c0; c1]] => set (F := w) end.
  assert (HF : 0 < F).
  { assert (Q : 0 < 1 / 4 * (last xs 0 - hd 0 xs)).
    { destruct xs as [|a [|b r]]; [cbn in Hl; lia|cbn in Hl; lia|]. destruct Hi as (ab & Hi). pose proof (increasing_le r b Hi) as B. cbn [hd].
      assert (last (a :: b :: r) 0 = last r b). { destruct r as [|d r]; [reflexivity|]. change (last (a :: b :: d :: r) 0) with (last (d :: r) 0). apply last_change. discriminate. }
      lra. }
    unfold F. repeat match goal with |- context [if ?c then _ else _] => destruct c end; lra. }
  assert (HW : (0 < i < length xs - 1)%nat -> exists l r xl xr, nearest c0 c1 xs ys (fun j => (j < i)%nat) (A / 2) l /\
     nearest c0 c1 xs ys (fun j => (i <= j)%nat) (A / 2) r /\ nth_error xs l = Some xl /\ nth_error xs r = Some xr /\
     (xr - xl <= 3 / 4 * INR (length xs) -> F = xr - xl)).
  { intros K. destruct (LRn K) as (n1 & n2). pose proof n1 as (P1 & e1 & (xl & yl & X1 & _) & _). pose proof n2 as (P2 & e2 & (xr & yr & X2 & _) & _).
    exists (fst lr), (i + snd lr)%nat, xl, xr. repeat (split; [assumption|]). intros Q. unfold F. rewrite X1, X2.
    assert (xl < xr) by (apply (increasing_nth xs (fst lr) (i + snd lr) xl xr Hi); [lia|assumption|assumption]).
    destruct (Rle_dec (xr - xl) 0); [lra|]. destruct (Rlt_dec (3 / 4 * INR (length xs)) (xr - xl)); lra. }
  clearbody F.
  assert (T : forall k, centre k = x -> top k = A -> 0 < left_width k -> 0 < right_width k -> height k x + (c0 + c1 * x) = y).
  { intros k Hc HA h1 h2. assert (height k x = A); [|lra]. destruct k; cbn [centre top left_width right_width height] in *; subst.
    - apply gauss_widths. lra.
    - apply lorentz_widths. lra.
    - apply mixed_widths. lra.
    - apply two_sided_widths; lra. }
  assert (U : forall j x' y', nth_error xs j = Some x' -> nth_error ys j = Some y' -> y' - (c0 + c1 * x') <= A).
  { intros j x' y' h1 h2. specialize (Pn j). rewrite h1, h2 in Pn. apply nth_error_In in Pn. apply M in Pn. lra. }
  destruct Ht as [-> |[-> |[-> | ->]]];
    [exists (PGauss A x F), c0, c1, i, x, y|exists (PLorentz A x F), c0, c1, i, x, y|exists (PMixed A x F (1 / 2)), c0, c1, i, x, y|exists (PTwoSided A x F F (1 / 2) (1 / 2)), c0, c1, i, x, y];
    (split; [reflexivity|]); (split; [reflexivity|]); (split; [reflexivity|]); (split; [assumption|]); (split; [assumption|]); (split; [reflexivity|]);
    (split; [apply T; (reflexivity || exact HF)|]); (split; [exact U|]); (split; [exact HF|]); (split; [exact HF|]);
    cbn [top left_width right_width]; intros K; destruct (HW K) as (l & r & xl & xr & n1 & n2 & X1 & X2 & Q); exists l, r, xl, xr; auto 8.
Qed.
(** the first guess of a single peak: it stands on the fitted line, goes through the data point highest above the line, and has a
    positive width *)
Theorem C136_estimate : forall snip line_fit xs ys t,
  t = Gaussian \/ t = Lorentzian \/ t = Pvoigt \/ t = SplitPvoigt -> increasing xs -> (2 <= length xs)%nat -> length ys = length xs ->
  exists k c0 c1 i x y, estimate_pk_parms_1d snip line_fit xs ys t = Ok (params k ++ [c0; c1]) /\ kind k = t /\
  (c1, c0) = line_fit xs (snip (Nat.div (2 * length xs) 3) ys) /\
  nth_error xs i = Some x /\ nth_error ys i = Some y /\ centre k = x /\ height k x + (c0 + c1 * x) = y /\
  (forall j x' y', nth_error xs j = Some x' -> nth_error ys j = Some y' -> y' - (c0 + c1 * x') <= top k) /\
  0 < left_width k /\ 0 < right_width k.
Proof.
  intros snip line_fit xs ys t Ht Hi Hl L. destruct (estimate_lemma snip line_fit xs ys t Ht Hi Hl L) as (k & c0 & c1 & i & x & y & H1 & H2 & H3 & H4 & H5 & H6 & H7 & H8 & H9 & H10 & _).
  exists k, c0, c1, i, x, y. auto 12.
Qed.
Print Assumptions C136_estimate.
(** inside the data, the width is the distance of the places where the data are nearest to half the height, on either side, if
    that is not more than three quarters of the number of points *)
Theorem C136_width_partial : forall snip line_fit xs ys t,
  t = Gaussian \/ t = Lorentzian \/ t = Pvoigt \/ t = SplitPvoigt -> increasing xs -> (2 <= length xs)%nat -> length ys = length xs ->
  exists k c0 c1 i, estimate_pk_parms_1d snip line_fit xs ys t = Ok (params k ++ [c0; c1]) /\ nth_error xs i = Some (centre k) /\
  ((0 < i < length xs - 1)%nat -> exists l r xl xr, nearest c0 c1 xs ys (fun j => (j < i)%nat) (top k / 2) l /\
  nearest c0 c1 xs ys (fun j => (i <= j)%nat) (top k / 2) r /\ nth_error xs l = Some xl /\ nth_error xs r = Some xr /\
  (xr - xl <= 3 / 4 * INR (length xs) -> left_width k = xr - xl /\ right_width k = xr - xl)).
Proof.
  intros snip line_fit xs ys t Ht Hi Hl L. destruct (estimate_lemma snip line_fit xs ys t Ht Hi Hl L) as (k & c0 & c1 & i & x & y & H1 & H2 & H3 & H4 & H5 & H6 & H7 & H8 & H9 & H10 & H11).
  exists k, c0, c1, i. subst x. auto.
Qed.
Print Assumptions C136_width_partial.
(** that limit compares a distance with a number of points, so the width depends on the unit of the positions *)
Theorem C136_units_refuted : exists xs ys A x0 F F', forall snip,
  let flat := fun _ _ : list R => (0, 0) in
  estimate_pk_parms_1d snip flat xs ys Gaussian = Ok [A; x0; F; 0; 0] /\
  estimate_pk_parms_1d snip flat (map (Rmult 10) xs) ys Gaussian = Ok [A; 10 * x0; F'; 0; 0] /\ F' <> 10 * F.
Proof.
  exists [0; 1; 2], [1; 2; 1], 2, 1, 2, 5. intros snip flat. unfold estimate_pk_parms_1d. cbn [length Nat.eqb negb map]. cbv zeta. unfold flat. cbn [fst snd].
  unfold lin_fit_obj. cbn [map combine fst snd].
  assert (E0 : forall z : R, 0 * z + 0 = 0) by (intros; ring). rewrite !E0. rewrite !Rminus_0_r. unfold argmax. cbn [map argmin argmin_from].
  destruct (Rlt_dec (- (2)) (- (1))) as [q1|q1]; [|lra]. destruct (Rlt_dec (- (1)) (- (2))) as [q2|q2]; [lra|]. cbn [rbind at_ nth_error Nat.ltb Nat.leb Nat.sub andb firstn skipn map argmin argmin_from].
  assert (R1 : Rabs (2 - 1 / 2 * 2) = 1) by (rewrite Rabs_right; lra). assert (R2 : Rabs (1 - 1 / 2 * 2) = 0) by (replace (1 - 1 / 2 * 2) with 0 by lra; apply Rabs_R0).
  rewrite R1, R2. destruct (Rlt_dec 0 1) as [q3|q3]; [|lra]. cbn [rbind fst snd Nat.add nth_error last hd INR length].
  destruct (Rle_dec (2 - 0) 0); [lra|]. destruct (Rlt_dec (3 / 4 * (1 + 1 + 1)) (2 - 0)); [lra|].
  destruct (Rle_dec (10 * 2 - 10 * 0) 0); [lra|]. destruct (Rlt_dec (3 / 4 * (1 + 1 + 1)) (10 * 2 - 10 * 0)); [|lra].
  repeat split; try lra; repeat f_equal; lra.
Qed.
Print Assumptions C136_units_refuted.

Definition one_of_four (t : pktype) : Prop := t = Gaussian \/ t = Lorentzian \/ t = Pvoigt \/ t = SplitPvoigt.
Lemma within_app p1 : forall l1 u1 p2 l2 u2, within p1 l1 u1 -> within p2 l2 u2 -> within (p1 ++ p2) (l1 ++ l2) (u1 ++ u2).
Proof. induction p1 as [|v p1 IH]; intros [|l l1] [|u u1] p2 l2 u2 H1 H2; cbn in *; try contradiction; [exact H2|]. destruct H1 as (a & b & c). auto. Qed.
Lemma within_none (c : list R) : within c (map (fun _ => None) c) (map (fun _ => None) c).
Proof. induction c; cbn; auto. Qed.
Lemma np_max_in l m : np_max l = Ok m -> In m l.
Proof. intros E. destruct l as [|a l]; [discriminate E|]. destruct (np_max_ok (a :: l)) as (m' & E' & H & _); [discriminate|]. rewrite E in E'. injection E' as <-. exact H. Qed.
Lemma firstn_skipn_in {A} (l : list A) n k v : In v (firstn n (skipn k l)) -> In v l.
Proof. intros H. rewrite <- (firstn_skipn k l). apply in_or_app. right. rewrite <- (firstn_skipn n (skipn k l)). apply in_or_app. left. exact H. Qed.
Lemma blocks_lemma t x fs mv fwhm cb am fm : one_of_four t -> forall pos p lb ub,
  peak_blocks t x fs mv pos fwhm cb am fm = Ok (p, lb, ub) ->
  exists ks, p = concat (map params ks) /\ map centre ks = pos /\
  Forall (fun k => kind k = t /\ left_width k = fwhm /\ right_width k = fwhm /\ In (top k) fs) ks /\
  (Forall (fun k => 0 <= top k) ks -> 0 <= fwhm -> 0 <= cb -> fst am <= 1 <= snd am -> fst fm <= 1 <= snd fm -> (t = Pvoigt -> mv <= 1) -> within p (map Some lb) (map Some ub)).
Proof.
  intros Ht pos. induction pos as [|c pos IH]; intros p lb ub E; cbn [peak_blocks] in E.
  - injection E as <- <- <-. exists []. repeat split; auto.
  - unfold peak_block in E. destruct (amplitude_guess x c fs fwhm) as [amp|] eqn:Ea; [|discriminate E]. cbn [rbind] in E.
    assert (Ha : In amp fs).
    { unfold amplitude_guess in Ea. destruct (argmin _) as [a|]; [|discriminate Ea]. cbn [rbind] in Ea. destruct (argmin _) as [b|]; [|discriminate Ea]. cbn [rbind] in Ea.
      apply np_max_in in Ea. eapply firstn_skipn_in; eauto. }
    destruct Ht as [-> |[-> |[-> | ->]]]; cbn [rbind] in E;
      (destruct (peak_blocks _ x fs mv pos fwhm cb am fm) as [[[p' lb'] ub']|] eqn:Eb; [|discriminate E]); cbn [rbind fst snd] in E; injection E as <- <- <-;
      destruct (IH p' lb' ub' eq_refl) as (ks & -> & <- & Hk & Hw).
    + exists (PGauss amp c fwhm :: ks). split; [reflexivity|]. split; [reflexivity|]. split; [constructor; auto|]. intros Q Q0 Q1 Q2 Q3 Q4. inversion Q; subst. cbn [top] in *.
      cbn -[concat]. split; [nra|]. split; [nra|]. split; [lra|]. split; [lra|]. split; [nra|]. split; [nra|]. apply Hw; assumption.
    + exists (PLorentz amp c fwhm :: ks). split; [reflexivity|]. split; [reflexivity|]. split; [constructor; auto|]. intros Q Q0 Q1 Q2 Q3 Q4. inversion Q; subst. cbn [top] in *.
      cbn -[concat]. split; [nra|]. split; [nra|]. split; [lra|]. split; [lra|]. split; [nra|]. split; [nra|]. apply Hw; assumption.
    + exists (PMixed amp c fwhm (1 / 2) :: ks). split; [reflexivity|]. split; [reflexivity|]. split; [constructor; auto|]. intros Q Q0 Q1 Q2 Q3 Q4. inversion Q; subst. cbn [top] in *.
      specialize (Q4 eq_refl) as Q5. cbn -[concat]. split; [nra|]. split; [nra|]. split; [lra|]. split; [lra|]. split; [nra|]. split; [nra|]. split; [lra|]. split; [lra|]. apply Hw; assumption.
    + exists (PTwoSided amp c fwhm fwhm (1 / 2) (1 / 2) :: ks). split; [reflexivity|]. split; [reflexivity|]. split; [constructor; auto|]. intros Q Q0 Q1 Q2 Q3 Q4. inversion Q; subst. cbn [top] in *.
      cbn -[concat]. split; [nra|]. split; [nra|]. split; [lra|]. split; [lra|]. split; [nra|]. split; [nra|]. split; [nra|]. split; [nra|]. split; [lra|]. split; [lra|]. split; [lra|]. split; [lra|]. apply Hw; assumption.
Qed.
(** the first guess of several peaks: one peak at each of the given positions, in their order, as high as some of the data above
    the line; then the coefficients of the background.  It lies within the bounds that are returned with it, if the heights and
    the width are not negative, and for the pseudo-Voigt function if the data come down to one or less *)
Theorem C136_guess_partial : forall snip line_fit pos x f t bg w cb am fm p lb ub, one_of_four t ->
  estimate_mpk_parms_1d snip line_fit pos x f t bg w cb am fm = Ok (p, lb, ub) ->
  exists ks c c0 c1, p = (concat (map params ks) ++ c)%list /\ map centre ks = pos /\ length c = coefficients bg /\
  (c1, c0) = line_fit x (snip (Nat.div (length f) 4) f) /\
  Forall (fun k => kind k = t /\ left_width k = right_width k /\ (forall v, w = Some v -> left_width k = v) /\ exists j, above c0 c1 x f j (top k)) ks /\
  (Forall (fun k => 0 <= top k /\ 0 <= left_width k) ks -> 0 <= cb -> fst am <= 1 <= snd am -> fst fm <= 1 <= snd fm ->
   (t = Pvoigt -> exists y, In y f /\ y <= 1) -> within p lb ub).
Proof.
  intros snip line_fit pos x f t bg w cb am fm p lb ub Ht. unfold estimate_mpk_parms_1d.
  destruct (Nat.eqb_spec (length f) (length x)) as [L|L]; cbn [negb]; [|discriminate]. cbv zeta.
  destruct (np_max x) as [xmax|]; [|discriminate]. cbn [rbind]. destruct (np_min x) as [xmin|]; [|discriminate]. cbn [rbind].
  destruct (np_min f) as [mv|] eqn:Em; [|discriminate]. cbn [rbind].
  destruct (line_fit x (snip (Nat.div (length f) 4) f)) as [c1 c0] eqn:Lf. cbn [fst snd].
  set (fwhm := match w with Some v => v | None => (xmax - xmin) / (20 * INR (length pos)) end).
  set (fs := map (fun q => fst q - snd q) (combine f (lin_fit_obj x c1 c0))).
  destruct (peak_blocks t x fs mv pos fwhm cb am fm) as [[[p1 l1] u1]|] eqn:Eb; [|discriminate]. cbn [rbind].
  destruct (blocks_lemma _ _ _ _ _ _ _ _ Ht _ _ _ _ Eb) as (ks & -> & Hc & Hk & Hw).
  assert (A : forall v, In v fs -> exists j, above c0 c1 x f j v).
  { intros v Hv. apply In_nth_error in Hv. destruct Hv as (j & Hj). exists j.
    assert (Pn : nth_error fs j = match nth_error f j, nth_error x j with Some y, Some a => Some (y - (c1 * a + c0)) | _, _ => None end).
    { unfold fs, lin_fit_obj. clear - L. revert x L j. induction f as [|y ys IH]; intros [|a x] L j; try discriminate L.
      - destruct j; reflexivity.
      - destruct j; [reflexivity|]. cbn [map combine nth_error]. apply IH. injection L as L. exact L. }
    rewrite Hj in Pn. destruct (nth_error f j) as [y|] eqn:Ey; [|discriminate Pn]. destruct (nth_error x j) as [a|] eqn:Ex; [|discriminate Pn]. injection Pn as ->.
    exists a, y. repeat split; auto. ring. }
  assert (M : (exists y, In y f /\ y <= 1) -> mv <= 1).
  { intros (y & Hy & Hl). destruct (np_min_ok f) as (m & E & _ & Hm); [intros Z; rewrite Z in Hy; destruct Hy|]. rewrite E in Em. injection Em as ->. specialize (Hm y Hy). lra. }
  assert (G : forall c, length c = coefficients bg -> Ok (concat (map params ks) ++ c, map Some l1 ++ map (fun _ => None) c, map Some u1 ++ map (fun _ => None) c)%list = Ok (p, lb, ub) ->
    exists ks' c' c0' c1', p = (concat (map params ks') ++ c')%list /\ map centre ks' = pos /\ length c' = coefficients bg /\ (c1', c0') = (c1, c0) /\
    Forall (fun k => kind k = t /\ left_width k = right_width k /\ (forall v, w = Some v -> left_width k = v) /\ exists j, above c0' c1' x f j (top k)) ks' /\
    (Forall (fun k => 0 <= top k /\ 0 <= left_width k) ks' -> 0 <= cb -> fst am <= 1 <= snd am -> fst fm <= 1 <= snd fm ->
     (t = Pvoigt -> exists y, In y f /\ y <= 1) -> within p lb ub)).
  { intros c Lc E. injection E as <- <- <-. exists ks, c, c0, c1. repeat (split; [first [reflexivity|assumption]|]). split.
    - revert Hk. apply Forall_impl. intros k (k1 & k2 & k3 & k4). rewrite k2, k3. repeat split; auto. intros v ->. reflexivity.
    - intros Q Qc Qa Qf Qp. apply within_app; [|apply within_none]. destruct ks as [|k ks].
      + destruct pos; [|discriminate Hc]. cbn in Eb. injection Eb as <- <-. exact I.
      + apply Hw; auto.
        * revert Q. apply Forall_impl. tauto.
        * inversion Q as [|? ? (q1 & q2) Q']. inversion Hk as [|? ? (_ & h & _) _]. rewrite <- h. exact q2. }
  destruct bg; [discriminate|..]; apply G; reflexivity.
Qed.
Print Assumptions C136_guess_partial.
(** not so for the pseudo-Voigt function when the data stand on a high background: the least of the data is taken off a height
    that is already counted from the background *)
Theorem C136_guess_refuted : exists pos x f p lb ub, forall snip,
  let flat := fun _ _ : list R => (0, 1000) in
  estimate_mpk_parms_1d snip flat pos x f Pvoigt LinearBg (Some 2) 1 (1 / 10, 10) (1 / 10, 2) = Ok (p, lb, ub) /\ ~ within p lb ub.
Proof.
  exists [1], [0; 1; 2], [1000; 1050; 1000], [50; 1; 2; 1 / 2; 1000; 0], [Some 5; Some 0; Some (1 / 5); Some 0; None; None], [Some (- 9490); Some 2; Some 4; Some 1; None; None].
  intros snip flat. split; [|cbn; lra].
  assert (M1 : np_max [0; 1; 2] = Ok 2).
  { destruct (np_max_ok [0; 1; 2]) as (m & -> & Hi & Hm); [discriminate|]. f_equal. specialize (Hm 2 ltac:(cbn; tauto)). cbn in Hi. lra. }
  assert (M2 : np_min [0; 1; 2] = Ok 0).
  { destruct (np_min_ok [0; 1; 2]) as (m & -> & Hi & Hm); [discriminate|]. f_equal. specialize (Hm 0 ltac:(cbn; tauto)). cbn in Hi. lra. }
  assert (M3 : np_min [1000; 1050; 1000] = Ok 1000).
  { destruct (np_min_ok [1000; 1050; 1000]) as (m & -> & Hi & Hm); [discriminate|]. f_equal. specialize (Hm 1000 ltac:(cbn; tauto)). cbn in Hi. lra. }
  assert (M4 : np_max [0; 50; 0] = Ok 50).
  { destruct (np_max_ok [0; 50; 0]) as (m & -> & Hi & Hm); [discriminate|]. f_equal. specialize (Hm 50 ltac:(cbn; tauto)). cbn in Hi. lra. }
  assert (N1 : argmin (map (fun z => Rabs (z - (1 - 1 / 2 * 2))) [0; 1; 2]) = Ok 0%nat).
  { cbn [map]. replace (Rabs (0 - (1 - 1 / 2 * 2))) with 0 by (rewrite Rabs_right; lra). replace (Rabs (1 - (1 - 1 / 2 * 2))) with 1 by (rewrite Rabs_right; lra).
    replace (Rabs (2 - (1 - 1 / 2 * 2))) with 2 by (rewrite Rabs_right; lra). cbn [argmin argmin_from]. repeat (destruct (Rlt_dec _ _); try lra). reflexivity. }
  assert (N2 : argmin (map (fun z => Rabs (z - (1 + 1 / 2 * 2))) [0; 1; 2]) = Ok 2%nat).
  { cbn [map]. replace (Rabs (0 - (1 + 1 / 2 * 2))) with 2 by (rewrite Rabs_left; lra). replace (Rabs (1 - (1 + 1 / 2 * 2))) with 1 by (rewrite Rabs_left; lra).
    replace (Rabs (2 - (1 + 1 / 2 * 2))) with 0 by (rewrite Rabs_right; lra). cbn [argmin argmin_from]. destruct (Rlt_dec 1 2); [|lra]. destruct (Rlt_dec 0 1); [|lra]. reflexivity. }
  unfold estimate_mpk_parms_1d, flat. rewrite M1, M2, M3. cbn [length Nat.eqb negb fst snd rbind]. cbv zeta. unfold lin_fit_obj.
  replace (map (fun q => fst q - snd q) (combine [1000; 1050; 1000] (map (fun z => 0 * z + 1000) [0; 1; 2]))) with [0; 50; 0] by (cbn [map combine fst snd]; repeat f_equal; lra).
  cbn [peak_blocks]. unfold peak_block, amplitude_guess. rewrite N1. cbn [rbind]. rewrite N2. cbn [rbind Nat.add Nat.sub skipn firstn]. rewrite M4. cbn [rbind fst snd app map].
  replace (50 * (1 / 10)) with 5 by lra. replace (1 - 1) with 0 by lra. replace (2 * (1 / 10)) with (1 / 5) by lra. replace ((50 - 1000 + 1) * 10) with (- 9490) by lra.
  replace (1 + 1) with 2 by lra. replace (2 * 2) with 4 by lra. reflexivity.
Qed.
Print Assumptions C136_guess_refuted.

(** ** the quality of a fit *)
Lemma rsum_sq_nonneg {A} (g : A -> R) l : (forall q, In q l -> 0 <= g q) -> 0 <= rsum (map g l) /\ (rsum (map g l) = 0 -> forall q, In q l -> g q = 0).
Proof.
  unfold rsum. induction l as [|a l IH]; intros H; cbn [map fold_right]; [split; [lra|intros _ q []]|].
  destruct IH as (I1 & I2); [intros; apply H; right; assumption|]. pose proof (H a (or_introl eq_refl)). split; [lra|]. intros Z q [<-|Hq]; [lra|apply I2; [lra|exact Hq]].
Qed.
(** the two factors are not negative, and the first is zero only when fit and data agree everywhere *)
Theorem C136_goodness : forall f f0, length f = length f0 -> (exists v, In v f0 /\ v <> 0) ->
  exists r rw, goodness_of_fit f f0 = (Some r, Some rw) /\ 0 <= r /\ 0 <= rw /\ (r = 0 <-> f = f0) /\
  (rw = 0 <-> forall j a b, nth_error f j = Some a -> nth_error f0 j = Some b -> b <> 0 -> a = b).
Proof.
  intros f f0 L (v & Hv & Nz). unfold goodness_of_fit. cbv zeta.
  destruct (rsum_sq_nonneg (fun v => v ^ 2) f0) as (a1 & a2); [intros; apply pow2_ge_0|].
  destruct (rsum_sq_nonneg (fun v => Rabs (v ^ 3)) f0) as (b1 & b2); [intros; apply Rabs_pos|].
  destruct (rsum_sq_nonneg (fun q : R * R => (fst q - snd q) ^ 2) (combine f f0)) as (c1 & c2); [intros; apply pow2_ge_0|].
  destruct (rsum_sq_nonneg (fun q : R * R => Rabs (snd q * (fst q - snd q) ^ 2)) (combine f f0)) as (d1 & d2); [intros; apply Rabs_pos|].
  destruct (Req_EM_T _ 0) as [Z|Z1]; [exfalso; specialize (a2 Z v Hv); cbn beta in a2; apply (pow_nonzero v 2) in Nz; auto|].
  destruct (Req_EM_T _ 0) as [Z|Z2]; [exfalso; specialize (b2 Z v Hv); cbn beta in b2; apply (pow_nonzero v 3) in Nz; apply Rabs_no_R0 in Nz; auto|].
  eexists. eexists. split; [reflexivity|].
  set (D1 := rsum (map (fun v => v ^ 2) f0)) in *. set (D2 := rsum (map (fun v => Rabs (v ^ 3)) f0)) in *.
  set (N1 := rsum (map (fun q => (fst q - snd q) ^ 2) (combine f f0))) in *. set (N2 := rsum (map (fun q => Rabs (snd q * (fst q - snd q) ^ 2)) (combine f f0))) in *.
  assert (p1 : 0 < D1) by lra. assert (p2 : 0 < D2) by lra. pose proof (Rinv_0_lt_compat _ p1) as q1. pose proof (Rinv_0_lt_compat _ p2) as q2.
  split; [unfold Rdiv; nra|]. split; [unfold Rdiv; nra|].
  assert (Nt : forall j a b, nth_error f j = Some a -> nth_error f0 j = Some b -> In (a, b) (combine f f0)).
  { clear. revert f0. induction f as [|x f IH]; intros [|y f0] [|j] a b H1 H2; try discriminate. 
    - injection H1 as <-. injection H2 as <-. left. reflexivity.
    - right. apply (IH f0 j); assumption. }
  assert (Ti : forall a b, In (a, b) (combine f f0) -> exists j, nth_error f j = Some a /\ nth_error f0 j = Some b).
  { clear. revert f0. induction f as [|x f IH]; intros [|y f0] a b H; cbn in H; try contradiction. destruct H as [H|H].
    - injection H as <- <-. exists 0%nat. auto.
    - destruct (IH f0 a b H) as (j & h1 & h2). exists (S j). auto. }
  split; split.
  - intros Z. assert (N0 : N1 = 0) by (unfold Rdiv in Z; apply Rmult_integral in Z; lra). specialize (c2 N0).
    assert (E : forall q, In q (combine f f0) -> fst q = snd q) by (intros q Hq; specialize (c2 q Hq); cbn beta in c2; nra).
    clear - L E. revert f0 L E. induction f as [|x f IH]; intros [|y f0] L E; try discriminate L; [reflexivity|]. f_equal.
    + apply (E (x, y)). left. reflexivity.
    + apply IH; [injection L as L; exact L|]. intros q Hq. apply E. right. exact Hq.
  - intros ->. replace N1 with 0; [unfold Rdiv; ring|]. symmetry. unfold N1. clear. unfold rsum. induction f0 as [|y f0 IH]; cbn [combine map fold_right fst snd]; [reflexivity|]. rewrite IH. ring.
  - intros Z j a b H1 H2 H3. assert (N0 : N2 = 0) by (unfold Rdiv in Z; apply Rmult_integral in Z; lra). specialize (d2 N0 _ (Nt _ _ _ H1 H2)). cbn [fst snd] in d2.
    destruct (Req_dec (a - b) 0) as [Q|Q]; [lra|]. exfalso. revert d2. apply Rabs_no_R0. apply Rmult_integral_contrapositive. split; [exact H3|]. apply pow_nonzero. exact Q.
  - intros H. assert (E : N2 = 0); [|rewrite E; unfold Rdiv; ring]. unfold N2.
    assert (A : forall q, In q (combine f f0) -> Rabs (snd q * (fst q - snd q) ^ 2) = 0).
    { intros (a & b) Hq. destruct (Ti a b Hq) as (j & h1 & h2). cbn [fst snd]. destruct (Req_dec b 0) as [-> |Nb].
      - replace (0 * (a - 0) ^ 2) with 0 by ring. apply Rabs_R0.
      - rewrite (H j a b h1 h2 Nb). replace (b * (b - b) ^ 2) with 0 by ring. apply Rabs_R0. }
    clear - A. unfold rsum. induction (combine f f0) as [|q l IH]; cbn [map fold_right]; [reflexivity|]. rewrite (A q (or_introl eq_refl)), IH; [ring|]. intros; apply A; right; assumption.
Qed.
Print Assumptions C136_goodness.
(** the two are relative to the second list; the documentation names the first one as the measured intensities *)
Theorem C136_goodness_order_refuted : exists measured fit r r', goodness_of_fit measured fit = (Some r, Some r) /\
  goodness_of_fit fit measured = (Some r', Some r') /\ r <> r'.
Proof.
  exists [1], [2], (1 / 4), 1. unfold goodness_of_fit, rsum. cbn [map combine fst snd fold_right].
  replace (Rabs (2 ^ 3)) with 8 by (rewrite Rabs_right; lra). replace (Rabs (1 ^ 3)) with 1 by (rewrite Rabs_right; lra).
  replace (Rabs (2 * (1 - 2) ^ 2)) with 2 by (rewrite Rabs_right; lra). replace (Rabs (1 * (2 - 1) ^ 2)) with 1 by (rewrite Rabs_right; lra).
  repeat (destruct (Req_EM_T _ _); try lra). repeat split; try (f_equal; f_equal; lra).
Qed.
Print Assumptions C136_goodness_order_refuted.

(** data for which the hypotheses hold: a line fit that returns the true line leaves exactly the peak *)
Example C136_ex : increasing [0; 1; 2; 3] /\ one_of_four SplitPvoigt /\ proper (PMixed 5 1 2 (1 / 2)) /\ exact (PMixed 5 1 2 (1 / 2)) 3 1 [1] [9] /\
  (exists v, In v [1; 0; 2] /\ v <> 0).
Proof.
  split; [cbn; lra|]. split; [unfold one_of_four; auto|]. split; [cbn; lra|]. split.
  - constructor; [|constructor]. unfold misfit. cbn [fst snd height]. unfold mixed, gauss, lorentz. cbn beta.
    replace (- (2 * (1 - 1) / 2) ^ 2) with 0 by field. rewrite Rpower_O by lra. field.
  - exists 1. split; [left; reflexivity|lra].
Qed.
