(** C128, C129 *)
From Coq Require Import Reals List ZArith Lra Lia Bool.
From Verif Require Import Prelude Lin TensorModel RotModel FibModel EomModel EomProofs EmsProofs SnpModel SnpSpec SnpProofs SnpMore.
Import ListNotations.
Local Open Scope R_scope.
Local Notation length := List.length.

(** C128: every value of the result is the sum of the (extended, masked, filled) values under the reversed kernel, normalised if
    asked for, and the weighted mean of the numbers under the kernel if there are gaps; NaNs are kept if asked for, and without a
    border the places where the kernel sticks out are zero *)
Theorem C128_convolve : forall o ker a, a <> [] -> mask_fits o a -> kernel_fits o ker a ->
  exists r, convolve o ker a = Ok r /\ length r = length a /\
  forall i, (i < length a)%nat ->
    (o_preserve o = true -> seen o a i = None -> nth i r None = None) /\
    (o_preserve o = false \/ seen o a i <> None ->
       (inside o ker a i -> convolved o ker a i (nth i r None)) /\ (~ inside o ker a i -> nth i r None = Some 0)).
Proof. exact convolve_lemma. Qed.
Print Assumptions C128_convolve.

(** what does not fit is refused *)
Theorem C128_refused : forall o ker a, a <> [] -> ~ (mask_fits o a /\ kernel_fits o ker a) -> exists e, convolve o ker a = Err e.
Proof.
  intros o ker a Ha H. unfold convolve. destruct (match o_mask o with Some m => negb (Nat.eqb (length m) (length a)) | None => false end) eqn:M; [eauto|].
  assert (Hm : mask_fits o a).
  { unfold mask_fits. destruct (o_mask o) as [m|]; [|exact I]. apply negb_false_iff, Nat.eqb_eq in M. exact M. }
  destruct (Nat.even (length ker)) eqn:Ho'; [eauto|]. cbv zeta. pose proof (odd_length ker Ho') as Lk.
  assert (Ho : Nat.odd (length ker) = true) by (rewrite <- Nat.negb_even, Ho'; reflexivity).
  rewrite (masked_seen o a Hm). rewrite map_length, seq_length.
  destruct (match o_boundary o with BNone => Nat.leb (length a) (2 * (length ker / 2)) | _ => false end) eqn:T; [eauto|].
  pose proof (gap_dec o a Hm) as G. set (interp := negb (o_nan_fill o) && existsb is_nan (map (seen o a) (seq 0 (length a)))) in *.
  rewrite kernel_sum_rsum. destruct ((o_normalize o || interp) && rlt (kernel_sum ker) (1 / 100)) eqn:K; [eauto|].
  exfalso. apply H. split; [exact Hm|]. split; [exact Ho|]. split.
  - intros B. rewrite B in T. apply Nat.leb_gt in T. lia.
  - intros [N|N]; apply rlt_false_le; apply andb_false_iff in K; destruct K as [K|K]; auto; exfalso; apply orb_false_iff in K; destruct K as [K1 K2]; [congruence|].
    apply G in N. congruence.
Qed.
Print Assumptions C128_refused.

(** a normalised kernel without negative weights gives values between the lowest and the highest value used; so a constant array stays *)
Lemma weighted_bounds (g : Z -> cell) ker i m M : (forall k, In k ker -> 0 <= k) ->
  (forall k x, (k < length ker)%nat -> g (Z.of_nat (i + k) - Z.of_nat (length ker / 2))%Z = Some x -> m <= x <= M) ->
  0 <= weight g ker i /\ m * weight g ker i <= weighted g ker i <= M * weight g ker i.
Proof.
  intros Hp Hb. unfold weight, weighted. set (nk := length ker) in *.
  assert (K : forall n, (n <= nk)%nat ->
     let W := sum_to n (fun k => match g (Z.of_nat (i + k) - Z.of_nat (nk / 2))%Z with Some _ => nth (nk - 1 - k) ker 0 | None => 0 end) in
     let T := sum_to n (fun k => match g (Z.of_nat (i + k) - Z.of_nat (nk / 2))%Z with Some x => x * nth (nk - 1 - k) ker 0 | None => 0 end) in
     0 <= W /\ m * W <= T <= M * W).
  { induction n as [|n IH]; intros Hn; cbv zeta; cbn [sum_to]; [lra|]. specialize (IH ltac:(lia)). cbv zeta in IH. destruct IH as (I1 & I2 & I3).
    destruct (g (Z.of_nat (i + n) - Z.of_nat (nk / 2))%Z) as [x|] eqn:E; [|lra]. apply Hb in E; [|lia].
    assert (P : 0 <= nth (nk - 1 - n) ker 0) by (apply Hp; apply nth_In; fold nk; lia). nra. }
  apply (K nk). lia.
Qed.
Lemma weight_whole (g : Z -> cell) ker i : (forall k, (k < length ker)%nat -> g (Z.of_nat (i + k) - Z.of_nat (length ker / 2))%Z <> None) -> weight g ker i = kernel_sum ker.
Proof.
  intros H. unfold weight, kernel_sum. rewrite <- (sum_rev (length ker) (fun k => nth k ker 0)). apply sum_ext. intros k Hk. specialize (H k Hk). destruct (g _); [reflexivity|congruence].
Qed.
Lemma field_used o a j x : a <> [] -> field o a j = Some x -> (o_boundary o = BFill /\ x = o_fill o) \/ exists i, (i < length a)%nat /\ used o a i = Some x.
Proof.
  intros Ha E. unfold field in E. set (u := map (used o a) (seq 0 (length a))) in *. assert (Lu : length u = length a) by (unfold u; rewrite map_length, seq_length; reflexivity).
  assert (Hn : (0 < length a)%nat) by (destruct a; [congruence|cbn; lia]).
  assert (K : forall i, (0 <= i < Z.of_nat (length a))%Z -> at_index u i = Some x -> exists i, (i < length a)%nat /\ used o a i = Some x).
  { intros i Hi F. exists (Z.to_nat i). split; [lia|]. unfold at_index, u in F. rewrite nth_mapseq in F by lia. exact F. }
  unfold extended in E. rewrite Lu in E. destruct ((0 <=? j)%Z && (j <? Z.of_nat (length a))%Z) eqn:C.
  - apply andb_true_iff in C. destruct C as [C1 C2]. apply Z.leb_le in C1. apply Z.ltb_lt in C2. right. apply (K j); auto; lia.
  - destruct (o_boundary o) eqn:B; [discriminate| | |].
    + left. split; congruence.
    + right. destruct (j <? 0)%Z; eapply K; eauto; lia.
    + right. eapply K; eauto. apply Z.mod_pos_bound. lia.
Qed.
Theorem C128_bounds : forall o ker a m M r i x, a <> [] -> mask_fits o a -> kernel_fits o ker a -> o_normalize o = true -> (forall k, In k ker -> 0 <= k) ->
  (forall j y, used o a j = Some y -> (j < length a)%nat -> m <= y <= M) -> (o_boundary o = BFill -> m <= o_fill o <= M) ->
  convolve o ker a = Ok r -> (i < length a)%nat -> inside o ker a i -> nth i r None = Some x -> m <= x <= M.
Proof.
  intros o ker a m M r i x Ha Hm Hk Hn Hp Hb Hf Hr Hi I Hx. destruct (convolve_lemma o ker a Ha Hm Hk) as (r' & Er & _ & N). rewrite Hr in Er. injection Er as <-.
  destruct (N i Hi) as [N1 N2].
  assert (C : convolved o ker a i (Some x)).
  { rewrite <- Hx. apply N2; auto. destruct (o_preserve o); [right|left; reflexivity]. intros E. rewrite N1 in Hx by auto. discriminate. }
  clear N N1 N2. destruct C as (A & _ & B & _ & D & _).
  assert (Wb : 0 <= weight (field o a) ker i /\ m * weight (field o a) ker i <= weighted (field o a) ker i <= M * weight (field o a) ker i).
  { apply weighted_bounds; auto. intros k y Hk' E. apply field_used in E; auto. destruct E as [[E1 ->]|(j & Hj & E)]; eauto. }
  destruct Wb as (W0 & W1 & W2).
  assert (Q : forall W, 0 < W -> m * W <= weighted (field o a) ker i <= M * W -> m <= weighted (field o a) ker i / W <= M).
  { intros W HW [Q1 Q2]. split; apply Rmult_le_reg_r with W; auto; unfold Rdiv; rewrite Rmult_assoc, Rinv_l by lra; lra. }
  pose proof (gap_dec o a Hm) as G. destruct (_ && _) eqn:E.
  - apply proj1 in G. specialize (G eq_refl). destruct (Req_dec (weight (field o a) ker i) 0) as [Z0|Z0].
    + specialize (D G Z0 Hn). eapply Hb; eauto.
    + specialize (B G Z0 Hn). injection B as ->. apply Q; lra.
  - assert (G' : ~ has_gap o a) by (rewrite <- G; discriminate). specialize (A G' Hn). injection A as ->.
    assert (Wk : weight (field o a) ker i = kernel_sum ker).
    { apply weight_whole. intros k Hk'. destruct Hk as (Ho & Hs & _). assert (Ho' : Nat.even (length ker) = false) by (rewrite <- Nat.negb_odd, Ho; reflexivity). pose proof (odd_length ker Ho') as Lk.
      unfold field. set (u := map (used o a) (seq 0 (length a))). assert (Lu : length u = length a) by (unfold u; rewrite map_length, seq_length; reflexivity).
      assert (Nu : no_nan u) by (intros c Hc ->; unfold u in Hc; apply in_map_iff in Hc; destruct Hc as (j & Ej & Hj); apply in_seq in Hj; apply G'; exists j; split; [lia|auto]).
      destruct (boundary_none (o_boundary o)) as [Bn|Bn].
      - destruct (I Bn) as [I1 I2]. replace (Z.of_nat (i + k) - Z.of_nat (length ker / 2))%Z with (Z.of_nat (i + k - length ker / 2)) by lia.
        rewrite ext_in by (rewrite Lu; lia). apply Nu. apply nth_In. rewrite Lu. lia.
      - apply ext_number; auto. intros E0. rewrite E0 in Lu. destruct a; [congruence|discriminate]. }
    rewrite Wk in *. destruct Hk as (_ & _ & Hk). specialize (Hk (or_introl Hn)). apply Q; lra.
Qed.
Print Assumptions C128_bounds.

Definition over : options := Options BExtend 0 false true None false.
Example C128_ex : convolve over [1; 1; 2] [Some 4; None; Some 8; Some 0] = Ok [Some 4; Some (16 / 3); Some 4; Some 4].
Proof.
  unfold convolve. cbn [o_mask over masked o_boundary o_nan_fill o_normalize o_preserve o_fill negb andb existsb is_nan orb length Nat.even Nat.div Nat.divmod fst].
  unfold rsum. cbn [fold_right]. rewrite rlt_le_false by lra.
  cbn [padded rbind last repeat app]. unfold convolve_c. cbn [length Nat.div Nat.divmod fst snd Nat.mul Nat.add Nat.sub seq map skipn firstn nth].
  unfold window_nan, rsum. cbn [combine rev app flat_map map fold_right fst snd].
  repeat match goal with |- context [Req_EM_T ?x 0] => destruct (Req_EM_T x 0); [lra|] end. repeat f_equal; lra.
Qed.

(** C129: in an image with numbers and rows of equal length, hidden pixels get the threshold, and the background of every other
    pixel is at most its value and at least the lowest visible value of its row (so a flat row is its own background) *)
Definition settled (threshold : option R) (c : cell) : cell := match c with None => threshold | Some x => Some x end.
Lemma image_lemma w k threshold order y n : (1 <= w)%nat -> (1 <= k)%nat -> (0 < n)%nat -> y <> [] -> rectangle y n ->
  (forall j, (j < length y)%nat -> In j order) -> (exists row x, In row y /\ In (Some x) row) ->
  exists lo rows, (exists row, In row y /\ In (Some lo) row) /\ lower_bound lo y /\
   map_res (fun row => snip_row w k lo (scaled lo row) (map (below threshold) row)) y = Ok rows /\ length rows = length y /\
   snip1d w k threshold order y = Ok (map (map (settled threshold)) rows) /\ nan_min (concat y) = Some lo.
Proof.
  intros Hw Hk Hn Hy Rc Ho (row0 & x0 & Hr0 & Hx0).
  assert (C0 : In (Some x0) (concat y)) by (apply in_concat; eauto).
  pose proof (nan_min_lemma (concat y)) as M. destruct (nan_min (concat y)) as [lo|] eqn:E; [|apply M in C0; discriminate]. destruct M as [M1 M2].
  exists lo. assert (LB : lower_bound lo y) by (intros row x Hr Hx; apply M2; apply in_concat; eauto).
  assert (R : exists rows, map_res (fun row => snip_row w k lo (scaled lo row) (map (below threshold) row)) y = Ok rows /\ length rows = length y).
  { clear - Rc Hw Hk Hn LB. induction y as [|row t IH]; [exists []; split; reflexivity|]. cbn [map_res].
    destruct (row_lemma w k threshold lo row Hw Hk) as (r & Er & _); [intros ->; specialize (Rc [] (or_introl eq_refl)); cbn in Rc; lia|intros x Hx; eapply LB; [left; reflexivity|exact Hx]|].
    rewrite Er. cbn [rbind]. destruct IH as (rs & Ers & Lrs); [intros r' Hr'; apply Rc; right; auto|intros r' x' Hr' Hx'; eapply LB; [right; eauto|eauto]|].
    rewrite Ers. cbn [rbind]. eexists. split; [reflexivity|]. cbn [length]. lia. }
  destruct R as (rows & Er & Lr). exists rows. split; [apply in_concat in M1; destruct M1 as (r & A & B); eauto|]. split; [exact LB|]. split; [exact Er|]. split; [exact Lr|]. split; [|reflexivity].
  unfold snip1d. destruct (concat y) as [|c0 t0] eqn:Ec; [destruct C0|]. rewrite E. unfold scaled in Er. rewrite Er. cbn [rbind].
  rewrite write_rows_all; [reflexivity|rewrite map_length; lia|intros j Hj; apply Ho; lia].
Qed.
Lemma map_res_nth {A B} (f : A -> result B) l rs k da db : map_res f l = Ok rs -> (k < length l)%nat -> f (nth k l da) = Ok (nth k rs db).
Proof.
  revert rs k. induction l as [|x t IH]; intros rs k H Hk; [cbn in Hk; lia|]. cbn [map_res] in H. destruct (f x) as [b|] eqn:E; [|discriminate]. cbn [rbind] in H.
  destruct (map_res f t) as [bs|] eqn:F; [|discriminate]. cbn [rbind] in H. injection H as <-. destruct k as [|k]; cbn [nth]; auto. apply IH; auto. cbn in Hk. lia.
Qed.
Theorem C129_background : forall w k threshold order y n, (1 <= w)%nat -> (1 <= k)%nat -> (0 < n)%nat -> y <> [] -> rectangle y n ->
  (forall j, (j < length y)%nat -> In j order) -> (exists row x, In row y /\ In (Some x) row) ->
  exists b, snip1d w k threshold order y = Ok b /\ length b = length y /\ rectangle b n /\
  forall j i, (j < length y)%nat -> (i < n)%nat ->
    (hidden threshold (pixel y j i) -> pixel b j i = threshold) /\
    (forall x, pixel y j i = Some x -> ~ hidden threshold (Some x) -> exists v, pixel b j i = Some v /\ v <= x /\
       forall a, (forall u, In (Some u) (nth j y []) -> ~ hidden threshold (Some u) -> a <= u) -> a <= v).
Proof.
  intros w k threshold order y n Hw Hk Hn Hy Rc Ho Hx. destruct (image_lemma w k threshold order y n Hw Hk Hn Hy Rc Ho Hx) as (lo & rows & Hlo & LB & Er & Lr & E & _).
  eexists. split; [exact E|].
  assert (Row : forall j, (j < length y)%nat -> let row := nth j y [] in let r := nth j rows [] in length r = n /\ length row = n /\ forall i, (i < n)%nat ->
     (hidden threshold (nth i row None) -> nth i r None = None) /\
     (forall x, nth i row None = Some x -> ~ hidden threshold (Some x) -> exists v, nth i r None = Some v /\ v <= x /\
       forall a, lo <= a -> (forall u, In (Some u) row -> ~ hidden threshold (Some u) -> a <= u) -> a <= v)).
  { intros j Hj row r. assert (Hin : In row y) by (apply nth_In; auto). pose proof (Rc row Hin) as Lrow.
    pose proof (map_res_nth _ y rows j [] [] Er Hj) as F. cbv beta in F. fold row r in F.
    destruct (row_lemma w k threshold lo row Hw Hk) as (r' & Er' & L' & _ & N'); [intros E0; rewrite E0 in Lrow; cbn in Lrow; lia|intros x Hx'; eapply LB; eauto|].
    rewrite Er' in F. injection F as ->. split; [lia|]. split; [auto|]. intros i Hi. apply N'. lia. }
  assert (Px : forall j i, (j < length y)%nat -> (i < n)%nat -> pixel (map (map (settled threshold)) rows) j i = settled threshold (nth i (nth j rows []) None)).
  { intros j i Hj Hi. unfold pixel. rewrite (@map_nth_lt (list cell) (list cell) (map (settled threshold)) rows j [] []) by lia. apply (@map_nth_lt cell cell (settled threshold)). destruct (Row j Hj) as [L _]. cbv zeta in L. rewrite L. auto. }
  split; [rewrite map_length; auto|]. split.
  { intros r Hr. apply in_map_iff in Hr. destruct Hr as (r0 & <- & Hr0). rewrite map_length. apply (In_nth _ _ []) in Hr0. destruct Hr0 as (j & Hj & <-). apply (Row j). lia. }
  intros j i Hj Hi. rewrite (Px j i Hj Hi). destruct (Row j Hj) as (_ & Lrow & N). destruct (N i Hi) as [N1 N2]. split.
  - intros Hh. unfold pixel in Hh. rewrite N1 by auto. reflexivity.
  - intros x Hp Nh. destruct (N2 x Hp Nh) as (v & Ev & Lv & Bv). exists v. rewrite Ev. split; [reflexivity|]. split; [exact Lv|].
    intros a Ha. destruct (Rle_dec lo a) as [La|La]; [apply Bv; auto|]. apply Rle_trans with lo; [lra|].
    apply Bv; [lra|]. intros u Hu _. eapply LB; [apply nth_In; exact Hj|exact Hu].
Qed.
Print Assumptions C129_background.

(** the background of a row with a visible pixel is the scaled-up result of [k] passes over the scaled-down row *)
Theorem C129_passes : forall w k threshold order y n, (1 <= w)%nat -> (1 <= k)%nat -> (0 < n)%nat -> y <> [] -> rectangle y n ->
  (forall j, (j < length y)%nat -> In j order) -> (exists row x, In row y /\ In (Some x) row) ->
  exists lo b, (exists row, In row y /\ In (Some lo) row) /\ lower_bound lo y /\ snip1d w k threshold order y = Ok b /\
  forall j, (j < length y)%nat -> (exists i, (i < n)%nat /\ match pixel y j i with Some x => ~ hidden threshold (Some x) | None => True end) ->
  exists mask z, (forall i, (i < n)%nat -> nth i mask false = true <-> pixel y j i <> None /\ hidden threshold (pixel y j i)) /\
    passes mask w k
      (map (fun c => match c with Some x => Some (ln (ln (sqrt (x - lo) + 1) + 1)) | None => None end) (nth j y [])) z /\
    forall i v, (i < n)%nat -> nth i z None = Some v -> exists u, pixel b j i = Some u /\ lo <= u /\ (0 <= v -> ln (ln (sqrt (u - lo) + 1) + 1) = v).
Proof.
  intros w k threshold order y n Hw Hk Hn Hy Rc Ho Hx. destruct (image_lemma w k threshold order y n Hw Hk Hn Hy Rc Ho Hx) as (lo & rows & Hlo & LB & Er & Lr & E & _).
  exists lo. eexists. split; [exact Hlo|]. split; [exact LB|]. split; [exact E|]. intros j Hj (i0 & Hi0 & Vi0).
  assert (Hin : In (nth j y []) y) by (apply nth_In; auto). pose proof (Rc _ Hin) as Lrow.
  pose proof (map_res_nth _ y rows j [] [] Er Hj) as F. cbv beta in F.
  destruct (row_lemma w k threshold lo (nth j y []) Hw Hk) as (r' & Er' & L' & Z' & _); [intros E0; rewrite E0 in Lrow; cbn in Lrow; lia|intros x Hx'; eapply LB; eauto|].
  rewrite Er' in F. injection F as F. destruct Z' as (z & Pz & Rz).
  { exists i0. split; [lia|]. destruct (below threshold (nth i0 (nth j y []) None)) eqn:B; [|reflexivity]. exfalso. apply below_hidden in B. unfold pixel in Vi0.
    destruct (nth i0 (nth j y []) None) as [x|]; [apply Vi0; tauto|destruct B; congruence]. }
  exists (map (below threshold) (nth j y [])), z. split.
  { intros i Hi. rewrite (@map_nth_lt cell bool (below threshold) _ i false None) by lia. apply below_hidden. }
  split; [exact Pz|]. intros i v Hi Hv. exists (scale_up v lo). unfold pixel.
  rewrite (@map_nth_lt (list cell) (list cell) (map (settled threshold)) rows j [] []) by lia. rewrite (@map_nth_lt cell cell (settled threshold) _ i None None) by (rewrite <- F, L'; lia).
  rewrite <- F, Rz, omap_nth, Hv. split; [reflexivity|]. split; [unfold scale_up; pose proof (Rle_0_sqr (exp (exp v - 1) - 1)) as Q; unfold Rsqr in Q; lra|]. intros Pv. unfold scale_up.
  replace ((exp (exp v - 1) - 1) * (exp (exp v - 1) - 1) + lo - lo) with ((exp (exp v - 1) - 1) * (exp (exp v - 1) - 1)) by ring.
  pose proof (exp_le 0 v Pv) as X1. rewrite exp_0 in X1. assert (X2 : exp 0 <= exp (exp v - 1)) by (apply exp_le; lra). rewrite exp_0 in X2.
  rewrite sqrt_square by lra. replace (exp (exp v - 1) - 1 + 1) with (exp (exp v - 1)) by ring. rewrite ln_exp. replace (exp v - 1 + 1) with (exp v) by ring. apply ln_exp.
Qed.
Print Assumptions C129_passes.

(** the order in which the workers deliver the rows does not matter *)
Theorem C129_order : forall w k threshold order order' y, (forall j, (j < length y)%nat -> In j order) -> (forall j, (j < length y)%nat -> In j order') ->
  snip1d w k threshold order y = snip1d w k threshold order' y.
Proof.
  intros w k threshold order order' y H H'. unfold snip1d. destruct (concat y); [reflexivity|]. destruct (nan_min _) as [lo|]; [|reflexivity].
  destruct (map_res _ y) as [rows|] eqn:E; [|reflexivity]. cbn [rbind].
  assert (L : length rows = length y).
  { clear - E. revert rows E. generalize (fun row => snip_row w k lo (map (omap (fun x => scale_down x lo)) row) (map (below threshold) row)). intros f. induction y as [|x t IH]; intros rows E; cbn [map_res] in E; [injection E as <-; reflexivity|].
    destruct (f x); [|discriminate]. cbn [rbind] in E. destruct (map_res f t) as [bs|]; [|discriminate]. cbn [rbind] in E. injection E as <-. cbn [length]. rewrite (IH bs); reflexivity. }
  rewrite !write_rows_all; auto; try (rewrite map_length; auto); rewrite L; auto.
Qed.
Print Assumptions C129_order.

(** adding a constant to the image (and to the threshold) adds it to the background *)
Definition shifted (c : R) (x : cell) : cell := match x with Some u => Some (u + c) | None => None end.
Lemma scale_shift x lo c : scale_down (x + c) (lo + c) = scale_down x lo.
Proof. unfold scale_down. replace (x + c - (lo + c)) with (x - lo) by ring. reflexivity. Qed.
Lemma below_shift t c x : below (shifted c t) (shifted c x) = below t x.
Proof.
  unfold below, shifted. destruct t as [t|], x as [x|]; auto. unfold rle. destruct (Rle_dec (x + c) (t + c)), (Rle_dec x t); auto; lra.
Qed.
Lemma nan_min_shift c l : nan_min (map (shifted c) l) = shifted c (nan_min l).
Proof.
  induction l as [|x t IH]; [reflexivity|]. cbn [map nan_min]. rewrite IH. destruct x as [x|]; cbn [shifted]; [|reflexivity]. destruct (nan_min t) as [m|]; cbn [shifted]; [|reflexivity].
  f_equal. unfold Rmin. destruct (Rle_dec (x + c) (m + c)), (Rle_dec x m); lra.
Qed.
Lemma snip_row_shift w k lo c z mask : snip_row w k (lo + c) z mask = match snip_row w k lo z mask with Ok r => Ok (map (shifted c) r) | Err e => Err e end.
Proof.
  unfold snip_row. destruct (forallb _ mask); [rewrite map_map; reflexivity|]. destruct (snip_rounds mask w k z) as [b|]; [|reflexivity]. cbn [rbind]. rewrite map_map. f_equal. apply map_ext. intros [x|]; cbn [omap shifted]; [|reflexivity].
  f_equal. unfold scale_up. ring.
Qed.
Theorem C129_shift : forall w k threshold order y c b, (forall j, (j < length y)%nat -> In j order) -> snip1d w k threshold order y = Ok b ->
  snip1d w k (shifted c threshold) order (map (map (shifted c)) y) = Ok (map (map (shifted c)) b).
Proof.
  intros w k threshold order y c b Ho. unfold snip1d. rewrite <- concat_map. destruct (concat y) as [|c0 t0] eqn:Ec; [discriminate|].
  cbn [map]. change (shifted c c0 :: map (shifted c) t0) with (map (shifted c) (c0 :: t0)). rewrite nan_min_shift. destruct (nan_min (c0 :: t0)) as [lo|]; cbn [shifted].
  2: { intros H. injection H as <-. f_equal. rewrite !map_map. apply map_ext. intros r. rewrite !map_map. reflexivity. }
  assert (L : forall f (z : list (list cell)) (rows : list (list cell)), map_res f z = Ok rows -> length rows = length z).
  { intros f z. induction z as [|x t IH]; intros rows E; cbn [map_res] in E; [injection E as <-; reflexivity|].
    destruct (f x); [|discriminate]. cbn [rbind] in E. destruct (map_res f t) as [bs|]; [|discriminate]. cbn [rbind] in E. injection E as <-. cbn [length]. rewrite (IH bs); reflexivity. }
  destruct (map_res (fun row => snip_row w k lo _ _) y) as [rows|] eqn:E; [|discriminate]. cbn [rbind]. intros H. injection H as <-.
  assert (E' : map_res (fun row => snip_row w k (lo + c) (map (omap (fun x => scale_down x (lo + c))) row) (map (below (shifted c threshold)) row)) (map (map (shifted c)) y) = Ok (map (map (shifted c)) rows)).
  { clear - E. revert rows E. induction y as [|row t IH]; intros rows E; cbn [map map_res] in *; [injection E as <-; reflexivity|].
    replace (map (omap (fun x => scale_down x (lo + c))) (map (shifted c) row)) with (map (omap (fun x => scale_down x lo)) row)
      by (rewrite map_map; apply map_ext; intros [x|]; cbn [omap shifted]; [rewrite scale_shift|]; reflexivity).
    replace (map (below (shifted c threshold)) (map (shifted c) row)) with (map (below threshold) row) by (rewrite map_map; apply map_ext; intros x; rewrite below_shift; reflexivity).
    rewrite snip_row_shift. destruct (snip_row w k lo _ _) as [r|]; [|discriminate]. cbn [rbind] in *. destruct (map_res _ t) as [rs|] eqn:F; [|discriminate]. cbn [rbind] in E. injection E as <-.
    rewrite (IH rs eq_refl). reflexivity. }
  match goal with |- rbind ?m _ = _ => replace m with (Ok (map (map (shifted c)) rows)) by (symmetry; exact E') end. cbn [rbind]. pose proof (L _ _ _ E) as Lr.
  rewrite !write_rows_all; try (rewrite ?map_length; auto; fail); try (rewrite ?map_length, Lr; auto; fail).
  f_equal. rewrite !map_map. apply map_ext. intros r. rewrite !map_map. apply map_ext. intros [x|]; [reflexivity|]. destruct threshold; reflexivity.
Qed.
Print Assumptions C129_shift.

(** [fast_snip1d] takes zeros outside the row: a flat row above the lowest value of the image is not its own background *)
Theorem C129_fast_flat_refuted : forall lo c, lo < c -> exists v, nth 0 (fast_row 1 1 lo [c; c]) 0 = v /\ v < c.
Proof.
  intros lo c H. eexists. split; [reflexivity|]. unfold fast_row. cbn [map fast_rounds down_from fast_windows fold_left].
  set (s := scale_down c lo). unfold fast_windows. cbn [fold_left combine seq length map nth fst snd].
  assert (P : 0 < s).
  { assert (S1 : 0 < sqrt (c - lo)) by (apply sqrt_lt_R0; lra). assert (S2 : ln 1 < ln (sqrt (c - lo) + 1)) by (apply ln_increasing; lra). rewrite ln_1 in S2.
    assert (S3 : ln 1 < ln (ln (sqrt (c - lo) + 1) + 1)) by (apply ln_increasing; lra). rewrite ln_1 in S3. exact S3. }
  assert (M : mean_zero [s; s] 1 0 = s / 2) by (unfold mean_zero; change (zero_at [s; s] (Z.of_nat 0 - Z.of_nat 1)) with 0; change (zero_at [s; s] (Z.of_nat 0 + Z.of_nat 1)) with s; lra). rewrite M. rewrite Rmin_right by lra.
  assert (Ec : scale_up s lo = c) by (apply scale_up_down; lra). rewrite <- Ec. unfold scale_up. clear Ec.
  assert (X0 : exp 0 < exp (s / 2)) by (apply exp_increasing; lra). assert (X1 : exp (s / 2) < exp s) by (apply exp_increasing; lra). rewrite exp_0 in X0.
  assert (Y0 : exp 0 < exp (exp (s / 2) - 1)) by (apply exp_increasing; lra). assert (Y1 : exp (exp (s / 2) - 1) < exp (exp s - 1)) by (apply exp_increasing; lra). rewrite exp_0 in Y0. nra.
Qed.
Print Assumptions C129_fast_flat_refuted.

Example C129_ex : exists b, snip1d 1 1 (Some 0) [1; 0]%nat [[Some 5; Some 0; None; Some 5]; [Some 2; Some 2; Some 2; Some 2]] = Ok b /\
  pixel b 0 1 = Some 0 /\ pixel b 0 2 = Some 0 /\ pixel b 0 0 = Some 5 /\ pixel b 1 2 = Some 2.
Proof.
  set (y := [[Some 5; Some 0; None; Some 5]; [Some 2; Some 2; Some 2; Some 2]] : list (list cell)).
  destruct (C129_background 1 1 (Some 0) [1; 0]%nat y 4) as (b & E & _ & _ & P); try lia; try discriminate.
  - intros r [<-|[<-|[]]]; reflexivity.
  - cbn. intros j Hj. lia.
  - exists [Some 5; Some 0; None; Some 5]. exists 5. split; left; reflexivity.
  - exists b. split; [exact E|]. cbn [y length] in P.
    assert (F : forall j i x, (j < 2)%nat -> (i < 4)%nat -> pixel y j i = Some x -> ~ hidden (Some 0) (Some x) -> (forall u, In (Some u) (nth j y []) -> ~ hidden (Some 0) (Some u) -> x <= u) -> pixel b j i = Some x).
    { intros j i x Hj Hi Hp Hh Hu. destruct (P j i Hj Hi) as [_ P2]. destruct (P2 x Hp Hh) as (v & Ev & L & Lo). rewrite Ev. f_equal. apply Rle_antisym; auto. }
    split; [apply (P 0 1)%nat; try lia; cbn; lra|]. split; [apply (P 0 2)%nat; try lia; exact I|]. split.
    + apply F; try lia; [reflexivity|cbn; lra|]. cbn. intros u Hu Hh. repeat (destruct Hu as [Hu|Hu]; [try discriminate; injection Hu as <-; lra|]). destruct Hu.
    + apply F; try lia; [reflexivity|cbn; lra|]. cbn. intros u Hu Hh. repeat (destruct Hu as [Hu|Hu]; [try discriminate; injection Hu as <-; lra|]). destruct Hu.
Qed.
