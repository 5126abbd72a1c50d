(** C137, C138, C139: the polar view of detector images *)
From Coq Require Import QArith Qround Qabs Lqa Qfield String Permutation.
From Verif Require Import Prelude GridModel GridSpec GridProofs DetModel DetSpec DetProofs DetMore PolModel PolSpec PolProofs PolMore.
Local Open Scope Q_scope.
Local Notation length := List.length.

(** * C137: the angular grid *)
(** the entries of the grid are the middles of intervals that follow each other from the lower limits *)
Theorem C137_grid : forall v i j,
  (((Z.of_nat i < fst (shape v))%Z /\ (Z.of_nat j < snd (shape v))%Z) ->
     exists e t, entry (angular_grid v) i j = Some (e, t) /\ e == middle (eta_min v) (eta_pixel_size v) i /\ t == middle (tth_min v) (tth_pixel_size v) j) /\
  (~ ((Z.of_nat i < fst (shape v))%Z /\ (Z.of_nat j < snd (shape v))%Z) -> entry (angular_grid v) i j = None).
Proof.
  intros v i j. unfold shape. cbn [fst snd]. rewrite grid_entry. split.
  - intros (H1 & H2). destruct (eta_nth v i ltac:(lia)) as (e & -> & E). destruct (tth_nth v j ltac:(lia)) as (t & -> & T). eauto.
  - intros H. destruct (nth_error (eta_vec v) i) eqn:E1; [|reflexivity]. destruct (nth_error (tth_vec v) j) eqn:E2; [|reflexivity]. exfalso. apply H.
    assert (A : (i < length (eta_vec v))%nat) by (apply nth_error_Some; congruence). assert (B : (j < length (tth_vec v))%nat) by (apply nth_error_Some; congruence).
    rewrite eta_len in A. rewrite tth_len in B. lia.
Qed.
Print Assumptions C137_grid.

(** the size of the grid is the range to within half a pixel, exactly if the range is a number of pixels *)
Theorem C137_size : forall v, proper_view v -> let (n, m) := shape v in
  (0 <= n)%Z /\ (0 <= m)%Z /\
  Qabs (inject_Z n * eta_pixel_size v - (eta_max v - eta_min v)) <= eta_pixel_size v / 2 /\
  Qabs (inject_Z m * tth_pixel_size v - (tth_max v - tth_min v)) <= tth_pixel_size v / 2 /\
  (forall k, eta_max v - eta_min v == inject_Z k * eta_pixel_size v -> n = k) /\
  (forall k, tth_max v - tth_min v == inject_Z k * tth_pixel_size v -> m = k).
Proof.
  intros v (H1 & H2 & H3 & H4). unfold shape. pose proof (round_close (eta_max v - eta_min v) _ H4) as A. pose proof (round_close (tth_max v - tth_min v) _ H3) as B.
  fold (neta v) in A. fold (ntth v) in B.
  assert (NN : forall n step range, 0 < step -> 0 < range -> Qabs (inject_Z n * step - range) <= step / 2 -> (0 <= n)%Z).
  { intros n step range S R K. apply Qabs_Qle_condition in K. destruct (Z_lt_le_dec n 0) as [L|L]; [|exact L]. assert (L' : (n <= -1)%Z) by lia. rewrite Zle_Qle in L'. change (inject_Z (-1)) with (-(1)) in L'.
    pose proof (Qmult_le_compat_r _ _ step L' ltac:(lra)) as M. assert (X : step / 2 == (1 # 2) * step) by field. lra. }
  split; [apply (NN _ _ (eta_max v - eta_min v) H4 ltac:(lra) A)|]. split; [apply (NN _ _ (tth_max v - tth_min v) H3 ltac:(lra) B)|]. split; [exact A|]. split; [exact B|].
  split; intros k E; apply round_exact; assumption.
Qed.
Print Assumptions C137_size.

Lemma floor_pixel lo step tth j : 0 < step -> in_interval lo step j tth <-> Qfloor ((tth - lo) / step) = Z.of_nat j.
Proof.
  intros S. unfold in_interval. set (u := (tth - lo) / step). assert (E : tth == lo + u * step) by (unfold u; field; lra).
  assert (K1 : lo + inject_Z (Z.of_nat j) * step <= tth <-> inject_Z (Z.of_nat j) <= u).
  { rewrite E. pose proof (Qmult_le_r (inject_Z (Z.of_nat j)) u step S) as (X & Y). split; intros H; [apply X; lra|specialize (Y H); lra]. }
  assert (K2 : tth < lo + (inject_Z (Z.of_nat j) + 1) * step <-> u < inject_Z (Z.of_nat j) + 1).
  { rewrite E. pose proof (Qmult_lt_r u (inject_Z (Z.of_nat j) + 1) step S) as (X & Y). split; intros H; [apply X; lra|specialize (Y H); lra]. }
  rewrite K1, K2. pose proof (Qfloor_le u) as F1. pose proof (Qlt_floor u) as F2. rewrite inject_Z_plus in F2. change (inject_Z 1) with 1 in F2. split.
  - intros (A & B). assert (Z1 : inject_Z (Z.of_nat j) < inject_Z (Qfloor u + 1)) by (rewrite inject_Z_plus; change (inject_Z 1) with 1; lra).
    assert (Z2 : inject_Z (Qfloor u) < inject_Z (Z.of_nat j + 1)) by (rewrite inject_Z_plus; change (inject_Z 1) with 1; lra). rewrite <- Zlt_Qlt in Z1, Z2. lia.
  - intros <-. split; lra.
Qed.
(** if the range is a number of pixels, every angle of the range is in exactly one pixel, the whole part of [tth_to_pixel] *)
Theorem C137_partition : forall v k, proper_view v -> tth_max v - tth_min v == inject_Z k * tth_pixel_size v ->
  forall tth, tth_min v <= tth < tth_max v ->
  exists j, (Z.of_nat j < snd (shape v))%Z /\ in_interval (tth_min v) (tth_pixel_size v) j tth /\ Qfloor (tth_to_pixel v tth) = Z.of_nat j /\
  forall j', in_interval (tth_min v) (tth_pixel_size v) j' tth -> j' = j.
Proof.
  intros v k P E tth (T1 & T2). pose proof P as (H1 & H2 & H3 & H4). unfold tth_to_pixel.
  set (u := (tth - tth_min v) / tth_pixel_size v). assert (U : 0 <= u) by (unfold u; apply Qle_shift_div_l; lra).
  assert (F : (0 <= Qfloor u)%Z). { change 0%Z with (Qfloor (inject_Z 0)). apply Qfloor_resp_le. exact U. }
  assert (Ej : Qfloor u = Z.of_nat (Z.to_nat (Qfloor u))) by lia.
  exists (Z.to_nat (Qfloor u)). split; [|split; [|split]].
  - unfold shape. cbn [snd]. unfold ntth. rewrite (round_exact _ _ k H3 E). rewrite <- Ej.
    pose proof (Qfloor_le u). assert (u < inject_Z k) by (unfold u; apply Qlt_shift_div_r; lra). rewrite Zlt_Qlt. lra.
  - apply floor_pixel; [exact H3|exact Ej].
  - exact Ej.
  - intros j' Hj. apply floor_pixel in Hj; [|exact H3]. fold u in Hj. lia.
Qed.
Print Assumptions C137_partition.

Theorem C137_middle : forall v i j e t, proper_view v -> entry (angular_grid v) i j = Some (e, t) -> tth_to_pixel v t == inject_Z (Z.of_nat j) + (1 # 2).
Proof.
  intros v i j e t (_ & _ & H3 & _) H. destruct (C137_grid v i j) as (G1 & G2).
  destruct (Z_lt_dec (Z.of_nat i) (fst (shape v))) as [A|A]; [destruct (Z_lt_dec (Z.of_nat j) (snd (shape v))) as [B|B]|]; [|rewrite G2 in H by tauto; discriminate H..].
  destruct (G1 (conj A B)) as (e' & t' & E & _ & T). rewrite E in H. injection H as <- <-. unfold tth_to_pixel. rewrite T. unfold middle. field. lra.
Qed.
Print Assumptions C137_middle.

(** the extent for drawing is the union of the pixels *)
Theorem C137_extent : forall v, proper_view v -> (0 < fst (shape v))%Z -> (0 < snd (shape v))%Z ->
  exists a b c d, extent v = Ok (a, b, c, d) /\ a == tth_min v /\ b == tth_min v + inject_Z (snd (shape v)) * tth_pixel_size v /\
                  c == eta_min v + inject_Z (fst (shape v)) * eta_pixel_size v /\ d == eta_min v.
Proof.
  intros v (_ & _ & H3 & H4) N M. unfold shape in *. cbn [fst snd] in *. unfold extent.
  assert (IN : forall i j, (i < Z.to_nat (neta v))%nat -> (j < Z.to_nat (ntth v))%nat -> exists e t, In (e, t) (concat (angular_grid v)) /\ e == middle (eta_min v) (eta_pixel_size v) i /\ t == middle (tth_min v) (tth_pixel_size v) j).
  { intros i j Hi Hj. destruct (proj1 (C137_grid v i j)) as (e & t & E & E1 & E2); [unfold shape; cbn; lia|]. exists e, t. split; [|auto]. rewrite <- grid_flat in E by exact Hj. exact (nth_error_In _ _ E). }
  assert (ALL : forall q, In q (concat (angular_grid v)) -> exists i j, (i < Z.to_nat (neta v))%nat /\ (j < Z.to_nat (ntth v))%nat /\ fst q == middle (eta_min v) (eta_pixel_size v) i /\ snd q == middle (tth_min v) (tth_pixel_size v) j).
  { intros q Hq. apply In_nth_error in Hq. destruct Hq as (k & Hk). assert (L : (k < length (concat (angular_grid v)))%nat) by (apply nth_error_Some; rewrite Hk; discriminate).
    destruct (flat_index v k L) as (i & j & Hi & Hj & ->). rewrite grid_flat in Hk by exact Hj. destruct (proj1 (C137_grid v i j)) as (e & t & E & E1 & E2); [unfold shape; cbn; lia|].
    rewrite E in Hk. injection Hk as <-. exists i, j. auto. }
  assert (MONO : forall lo step i k, 0 < step -> (i <= k)%nat -> middle lo step i <= middle lo step k).
  { intros lo step i k S Hik. unfold middle. assert (Z1 : (Z.of_nat i <= Z.of_nat k)%Z) by lia. rewrite Zle_Qle in Z1. pose proof (Qmult_le_compat_r _ _ step Z1 ltac:(lra)). lra. }
  assert (LAST : forall lo step n, (0 < n)%Z -> middle lo step (Z.to_nat n - 1) + (1 # 2) * step == lo + inject_Z n * step).
  { intros lo step n Hn. unfold middle. replace (Z.of_nat (Z.to_nat n - 1)) with (n + -1)%Z by lia. rewrite inject_Z_plus. change (inject_Z (-1)) with (-(1)). ring. }
  destruct (np_min_val (map snd (concat (angular_grid v))) (middle (tth_min v) (tth_pixel_size v) 0)) as (t0 & -> & T0).
  { destruct (IN 0%nat 0%nat ltac:(lia) ltac:(lia)) as (e & t & I & _ & E). exists t. split; [apply in_map_iff; exists (e, t); auto|exact E]. }
  { intros x Hx. apply in_map_iff in Hx. destruct Hx as (q & <- & Hq). destruct (ALL q Hq) as (i & j & Hi & Hj & _ & E). rewrite E. apply MONO; [exact H3|lia]. }
  destruct (np_max_val (map snd (concat (angular_grid v))) (middle (tth_min v) (tth_pixel_size v) (Z.to_nat (ntth v) - 1))) as (t1 & -> & T1).
  { destruct (IN 0%nat (Z.to_nat (ntth v) - 1)%nat ltac:(lia) ltac:(lia)) as (e & t & I & _ & E). exists t. split; [apply in_map_iff; exists (e, t); auto|exact E]. }
  { intros x Hx. apply in_map_iff in Hx. destruct Hx as (q & <- & Hq). destruct (ALL q Hq) as (i & j & Hi & Hj & _ & E). rewrite E. apply MONO; [exact H3|lia]. }
  destruct (np_max_val (map fst (concat (angular_grid v))) (middle (eta_min v) (eta_pixel_size v) (Z.to_nat (neta v) - 1))) as (e1 & -> & E1).
  { destruct (IN (Z.to_nat (neta v) - 1)%nat 0%nat ltac:(lia) ltac:(lia)) as (e & t & I & E & _). exists e. split; [apply in_map_iff; exists (e, t); auto|exact E]. }
  { intros x Hx. apply in_map_iff in Hx. destruct Hx as (q & <- & Hq). destruct (ALL q Hq) as (i & j & Hi & Hj & E & _). rewrite E. apply MONO; [exact H4|lia]. }
  destruct (np_min_val (map fst (concat (angular_grid v))) (middle (eta_min v) (eta_pixel_size v) 0)) as (e0 & -> & E0).
  { destruct (IN 0%nat 0%nat ltac:(lia) ltac:(lia)) as (e & t & I & E & _). exists e. split; [apply in_map_iff; exists (e, t); auto|exact E]. }
  { intros x Hx. apply in_map_iff in Hx. destruct Hx as (q & <- & Hq). destruct (ALL q Hq) as (i & j & Hi & Hj & E & _). rewrite E. apply MONO; [exact H4|lia]. }
  cbn [rbind]. do 4 eexists. split; [reflexivity|]. rewrite T0, T1, E1, E0, !LAST by assumption. unfold middle. change (inject_Z (Z.of_nat 0)) with 0.
  split; [ring|]. split; [reflexivity|]. split; [reflexivity|ring].
Qed.
Print Assumptions C137_extent.

(** no sequence of settings, failed ones included, makes a range empty or a pixel size zero *)
Theorem C137_settings : forall ss v, proper_view v -> proper_view (fold_left after ss v).
Proof.
  induction ss as [|s ss IH]; intros v P; [exact P|]. cbn [fold_left]. apply IH. clear IH ss. destruct P as (H1 & H2 & H3 & H4).
  destruct s; unfold after, set; destruct (qlt _ _) eqn:E; try (repeat split; assumption); apply qlt_iff in E; repeat split; cbn; assumption.
Qed.
Print Assumptions C137_settings.
Theorem C137_set : forall v s, (exists v', set v s = Ok v' /\ after v s = v') \/ (set v s = Err AssertionError /\ after v s = v).
Proof. intros v []; unfold after, set; destruct (qlt _ _); eauto. Qed.
Print Assumptions C137_set.

(** the constructor does not compare the limits *)
Theorem C137_reversed_refuted : exists v, new_view (10, 5) (0, 360) (1, 1) = Ok v /\ ~ proper_view v /\ (snd (shape v) < 0)%Z /\
  forall load ztol ds imgs pad, warp_image load ztol (Polar v ds None) imgs pad = Err ValueError.
Proof.
  eexists. split; [reflexivity|]. split; [intros (H & _); cbn in H; lra|]. split; [vm_compute; reflexivity|]. intros. reflexivity.
Qed.
Print Assumptions C137_reversed_refuted.
(** otherwise up to half a pixel of the range is in no pixel *)
Theorem C137_short_refuted : exists v tth, new_view (0, 7 # 5) (0, 360) (1, 1) = Ok v /\ proper_view v /\ tth_min v <= tth < tth_max v /\
  forall j, (Z.of_nat j < snd (shape v))%Z -> ~ in_interval (tth_min v) (tth_pixel_size v) j tth.
Proof.
  eexists. exists (6 # 5). split; [reflexivity|]. cbn [tth_min tth_max fst snd]. split; [repeat split; cbn; lra|]. split; [lra|].
  intros j Hj. assert (E : snd (shape (View 0 (7 # 5) 0 360 1 1)) = 1%Z) by (vm_compute; reflexivity). cbn [fst snd] in *. rewrite E in Hj. assert (j = 0%nat) by lia. subst j.
  intros (_ & B). vm_compute in B. discriminate B.
Qed.
Print Assumptions C137_short_refuted.
Example C137_ex : let v := View 2 10 0 360 (1 # 4) 5 in proper_view v /\ shape v = (72, 32)%Z /\ tth_max v - tth_min v == inject_Z 32 * tth_pixel_size v /\
  tth_to_pixel v 5 == 12.
Proof. cbv zeta. split; [repeat split; cbn; lra|]. split; [vm_compute; reflexivity|]. split; vm_compute; reflexivity. Qed.

(** * C138: the warped image *)
(** each value is the sum over the detectors of the interpolated image where the direction meets the panel.  Partial: on panels
    for which interpolation works (C94), with images of their shape and without NaN *)
Theorem C138_sum_partial : forall load ztol v parts imgs, proper_view v -> parts <> [] -> given imgs parts ->
  (forall n d img, In (n, (d, img)) parts -> usable load ztol v d) ->
  exists w, warp_image load ztol (Polar v (detectors_of parts) None) imgs false = Ok w /\
  forall i j q, entry (angular_grid v) i j = Some q ->
  exists cs x, Forall2 (fun part c => adds load q (fst (snd part)) (snd (snd part)) c) parts cs /\ entry (w_data w) i j = Some (Some x) /\ x == total cs.
Proof.
  intros load ztol v parts imgs P NE G U. pose proof (C137_size v P) as S0. unfold shape in S0. destruct S0 as (N & M & _).
  destruct (warp_all load ztol v parts imgs false N M NE G U) as (w & E & H). exists w. split; [exact E|]. intros i j q Hq. destruct (H i j q Hq) as (cs & x & F & X & _ & D). exists cs, x. split; [exact F|]. split; [exact D|exact X].
Qed.
Print Assumptions C138_sum_partial.

(** a pixel that is not masked is one of a direction that meets some panel where all pixels closer than one pixel are used; a
    direction that meets some panel where all pixels not farther than one are used is not masked *)
Theorem C138_mask_partial : forall load ztol v parts imgs pad, proper_view v -> parts <> [] -> given imgs parts ->
  (forall n d img, In (n, (d, img)) parts -> usable load ztol v d) ->
  exists w, warp_image load ztol (Polar v (detectors_of parts) None) imgs pad = Ok w /\
  forall i j q, entry (angular_grid v) i j = Some q -> exists b, entry (w_mask w) i j = Some b /\
  (b = false -> exists n d img pt, In (n, (d, img)) parts /\ meets load d q pt /\ all_good near load (d_panel d) pt) /\
  ((exists n d img pt, In (n, (d, img)) parts /\ meets load d q pt /\ all_good nearby load (d_panel d) pt) -> b = false).
Proof.
  intros load ztol v parts imgs pad P NE G U. pose proof (C137_size v P) as S0. unfold shape in S0. destruct S0 as (N & M & _).
  destruct (warp_all load ztol v parts imgs pad N M NE G U) as (w & E & H). exists w. split; [exact E|]. intros i j q Hq. destruct (H i j q Hq) as (cs & x & F & X & Mk & D).
  eexists. split; [exact Mk|].
  assert (Hk : nth_error (concat (angular_grid v)) (i * Z.to_nat (ntth v) + j) = Some q).
  { rewrite grid_flat; [exact Hq|]. rewrite grid_entry in Hq. destruct (nth_error (eta_vec v) i); [|discriminate Hq]. destruct (nth_error (tth_vec v) j) eqn:Ej; [|discriminate Hq]. rewrite <- tth_len. apply nth_error_Some. congruence. }
  split.
  - intros Hb. apply not_true_iff_false in Hb. rewrite forallb_forall in Hb.
    destruct (existsb (fun part => rbit load ztol v (fst (snd part)) (i * Z.to_nat (ntth v) + j)) parts) eqn:Ex.
    + apply existsb_exists in Ex. destruct Ex as ((n & d & img) & Hin & R). cbn [fst snd] in R.
      destruct (rbit_spec load ztol v d _ q (U n d img Hin) Hk) as (R1 & _). destruct (R1 R) as (pt & Mt & Gd). exists n, d, img, pt. auto.
    + exfalso. apply Hb. intros part Hp. apply negb_true_iff. apply not_true_iff_false. intros K. apply not_true_iff_false in Ex. apply Ex. apply existsb_exists. eauto.
  - intros (n & d & img & pt & Hin & Mt & Gd). destruct (rbit_spec load ztol v d _ q (U n d img Hin) Hk) as (_ & R2). specialize (R2 pt Mt Gd).
    apply not_true_iff_false. rewrite forallb_forall. intros K. specialize (K _ Hin). cbn [fst snd] in K. rewrite R2 in K. discriminate K.
Qed.
Print Assumptions C138_mask_partial.

(** for panels without a buffer the mask says exactly which directions meet no panel *)
Theorem C138_mask_plain_partial : forall load ztol v parts imgs pad, proper_view v -> parts <> [] -> given imgs parts ->
  (forall n d img, In (n, (d, img)) parts -> usable load ztol v d /\ p_buffer (d_panel d) = BNone) ->
  exists w, warp_image load ztol (Polar v (detectors_of parts) None) imgs pad = Ok w /\
  forall i j q, entry (angular_grid v) i j = Some q -> exists b, entry (w_mask w) i j = Some b /\
  (b = false <-> exists n d img pt, In (n, (d, img)) parts /\ meets load d q pt).
Proof.
  intros load ztol v parts imgs pad P NE G U. destruct (C138_mask_partial load ztol v parts imgs pad P NE G (fun n d img H => proj1 (U n d img H))) as (w & E & H).
  exists w. split; [exact E|]. intros i j q Hq. destruct (H i j q Hq) as (b & Eb & H1 & H2). exists b. split; [exact Eb|]. split.
  - intros K. destruct (H1 K) as (n & d & img & pt & A & B & _). eauto 6.
  - intros (n & d & img & pt & A & B). apply H2. exists n, d, img, pt. split; [exact A|]. split; [exact B|]. destruct (U n d img A) as (Us & Bn).
    unfold all_good, panel_buffer_as_2d_array. rewrite Bn. eexists. split; [reflexivity|]. intros a c (Ha & Hc) _. unfold mask_value. apply (nth_grid _ (fun _ _ => true)); assumption.
Qed.
Print Assumptions C138_mask_plain_partial.

(** padding puts a NaN exactly where the mask is *)
Theorem C138_pad_partial : forall load ztol v parts imgs, proper_view v -> parts <> [] -> given imgs parts ->
  (forall n d img, In (n, (d, img)) parts -> usable load ztol v d) ->
  exists w w', warp_image load ztol (Polar v (detectors_of parts) None) imgs false = Ok w /\ warp_image load ztol (Polar v (detectors_of parts) None) imgs true = Ok w' /\
  forall i j q, entry (angular_grid v) i j = Some q -> exists b x x', entry (w_mask w) i j = Some b /\ entry (w_mask w') i j = Some b /\
  entry (w_data w) i j = Some (Some x) /\ entry (w_data w') i j = Some x' /\ (b = true -> x' = None) /\ (b = false -> exists y, x' = Some y /\ y == x).
Proof.
  intros load ztol v parts imgs P NE G U. pose proof (C137_size v P) as S0. unfold shape in S0. destruct S0 as (N & M & _).
  destruct (warp_all load ztol v parts imgs false N M NE G U) as (w & E & H). destruct (warp_all load ztol v parts imgs true N M NE G U) as (w' & E' & H').
  exists w, w'. split; [exact E|]. split; [exact E'|]. intros i j q Hq. destruct (H i j q Hq) as (cs & x & F & X & Mk & D). destruct (H' i j q Hq) as (cs' & x' & F' & X' & Mk' & D').
  cbn [andb] in D, D'. do 3 eexists. split; [exact Mk|]. split; [exact Mk'|]. split; [exact D|]. split; [exact D'|]. split; intros ->; [reflexivity|].
  exists x'. split; [reflexivity|]. rewrite X, X'. apply (adds_same_sum load q parts parts); [apply Permutation_refl|exact F'|exact F].
Qed.
Print Assumptions C138_pad_partial.

(** the order of the detectors does not matter *)
Theorem C138_order_partial : forall load ztol v parts parts' imgs, proper_view v -> parts <> [] -> given imgs parts ->
  (forall n d img, In (n, (d, img)) parts -> usable load ztol v d) -> Permutation parts parts' ->
  exists w w', warp_image load ztol (Polar v (detectors_of parts) None) imgs false = Ok w /\ warp_image load ztol (Polar v (detectors_of parts') None) imgs false = Ok w' /\
  forall i j q, entry (angular_grid v) i j = Some q -> exists b x x', entry (w_mask w) i j = Some b /\ entry (w_mask w') i j = Some b /\
  entry (w_data w) i j = Some (Some x) /\ entry (w_data w') i j = Some (Some x') /\ x == x'.
Proof.
  intros load ztol v parts parts' imgs P NE G U Pm. pose proof (C137_size v P) as S0. unfold shape in S0. destruct S0 as (N & M & _).
  assert (IN : forall t, In t parts' -> In t parts) by (intros t Ht; apply (Permutation_in t (Permutation_sym Pm) Ht)).
  destruct (warp_all load ztol v parts imgs false N M NE G U) as (w & E & H). destruct (warp_all load ztol v parts' imgs false N M) as (w' & E' & H').
  { intros K. subst parts'. apply Permutation_sym, Permutation_nil in Pm. congruence. }
  { destruct G as (G1 & G2). split; [exact G1|]. intros n d img Hin. apply (G2 n d img). apply IN. exact Hin. }
  { intros n d img Hin. apply (U n d img). apply IN. exact Hin. }
  exists w, w'. split; [exact E|]. split; [exact E'|]. intros i j q Hq. destruct (H i j q Hq) as (cs & x & F & X & Mk & D). destruct (H' i j q Hq) as (cs' & x' & F' & X' & Mk' & D').
  cbn [andb] in D, D'. do 3 eexists. split; [exact Mk|]. split.
  { rewrite Mk'. f_equal. clear - Pm. induction Pm; cbn [forallb]; [reflexivity|rewrite IHPm; reflexivity|rewrite !andb_assoc; f_equal; apply andb_comm|congruence]. }
  split; [exact D|]. split; [exact D'|]. rewrite X, X'. apply (adds_same_sum load q parts parts' _ _ Pm F F').
Qed.
Print Assumptions C138_order_partial.

(** a view with a cached mapping gives what one without gives, however many images are warped before *)
Theorem C138_cached : forall load ztol v ds p, new_polar load ztol v ds true = Ok p -> forall us, (forall u, In u us -> exists imgs pad, u = Warp imgs pad) ->
  forall imgs pad, warp_image load ztol (fold_left step us p) imgs pad = warp_image load ztol (Polar v ds None) imgs pad.
Proof.
  intros load ztol v ds p E us Hu imgs pad. assert (F : fold_left step us p = p).
  { revert Hu. induction us as [|u us IH]; intros Hu; [reflexivity|]. cbn [fold_left]. destruct (Hu u (or_introl eq_refl)) as (i & pd & ->). cbn [step]. apply IH. intros u' Hu'. apply Hu. right. exact Hu'. }
  rewrite F. unfold new_polar in E. destruct (coordinate_mapping load ztol v ds) as [m|] eqn:Em; [|discriminate E]. cbn [rbind] in E.
  destruct (nan_mask load v ds m) as [k|] eqn:Ek; [|discriminate E]. cbn [rbind] in E. injection E as <-. unfold warp_image. cbn [p_cache p_view p_dets]. rewrite Em. cbn [rbind]. rewrite Ek. reflexivity.
Qed.
Print Assumptions C138_cached.

(** a panel of two rows and columns, seen in one direction at one point of it *)
Definition ex_panel : panel := Panel 2 2 1 1 BNone None.
Definition ex_det (x y : Q) : detector := Detector ex_panel (fun _ _ => Some (x, y)).
Definition ex_view : view := View 0 1 0 1 1 1.
Definition no_file : string -> result (list (list bool)) := fun _ => Err OSError.
Definition ex_img : list (list Q) := [[1; 2]; [3; 4]].
Lemma ex_usable x y : - (1 # 2) <= x <= 1 # 2 -> - (1 # 2) <= y <= 1 # 2 -> usable no_file (1 # 100) ex_view (ex_det x y).
Proof.
  intros X Y. unfold usable. cbn [d_panel ex_det ex_panel p_rows p_cols p_psr p_psc p_buffer]. split; [repeat split; cbn; lia || lra|]. split; [lia|]. split; [lia|]. split; [lra|]. split; [lra|]. split; [lra|].
  split; [discriminate|]. split; [discriminate|]. split; [discriminate|]. intros i j q pt _ (H & _). cbn in H. injection H as <-.
  split; left; vm_compute centre_x; vm_compute centre_y; cbn [fst snd]; [assert (Z : (1 # 2) == centre_x ex_panel 1) by (vm_compute; reflexivity)|assert (Z : - (1 # 2) == centre_y ex_panel 1) by (vm_compute; reflexivity)]; cbn in *; lra.
Qed.
Example C138_ex : let parts := [("a"%string, (ex_det 0 0, ex_img)); ("b"%string, (ex_det (1 # 4) 0, ex_img))] in
  let imgs := [("b"%string, measured ex_img); ("a"%string, measured ex_img)] in
  proper_view ex_view /\ parts <> [] /\ given imgs parts /\ (forall n d img, In (n, (d, img)) parts -> usable no_file (1 # 100) ex_view d) /\
  (exists w x, warp_image no_file (1 # 100) (Polar ex_view (detectors_of parts) None) imgs false = Ok w /\ entry (w_data w) 0 0 = Some (Some x) /\ x == 21 # 4 /\ entry (w_mask w) 0 0 = Some false).
Proof.
  cbv zeta. split; [repeat split; cbn; lra|]. split; [discriminate|]. split.
  { split; [repeat constructor; cbn; intuition discriminate|]. intros n d img [E|[E|[]]]; injection E as <- <- <-; (split; [cbn; auto|]); (split; [reflexivity|]); intros r [<-|[<-|[]]]; reflexivity. }
  split; [intros n d img [E|[E|[]]]; injection E as <- <- <-; apply ex_usable; lra|].
  eexists. eexists. split; [vm_compute; reflexivity|]. split; [cbn; reflexivity|]. split; [vm_compute; reflexivity|]. reflexivity.
Qed.
(** overlapping panels are added, not averaged: images of ones give a two *)
Theorem C138_overlap_refuted : exists parts imgs w x, given imgs parts /\ (forall n d img, In (n, (d, img)) parts -> usable no_file (1 # 100) ex_view d) /\
  (forall n d img r y, In (n, (d, img)) parts -> In r img -> In y r -> y = 1) /\
  warp_image no_file (1 # 100) (Polar ex_view (detectors_of parts) None) imgs false = Ok w /\ entry (w_data w) 0 0 = Some (Some x) /\ x == 2.
Proof.
  exists [("a"%string, (ex_det 0 0, [[1; 1]; [1; 1]])); ("b"%string, (ex_det 0 0, [[1; 1]; [1; 1]]))], [("a"%string, measured [[1; 1]; [1; 1]]); ("b"%string, measured [[1; 1]; [1; 1]])].
  eexists. eexists. split.
  { split; [repeat constructor; cbn; intuition discriminate|]. intros n d img [E|[E|[]]]; injection E as <- <- <-; (split; [cbn; auto|]); (split; [reflexivity|]); intros r [<-|[<-|[]]]; reflexivity. }
  split; [intros n d img [E|[E|[]]]; injection E as <- <- <-; apply ex_usable; lra|].
  split; [intros n d img r y [E|[E|[]]]; injection E as <- <- <-; intros [<-|[<-|[]]] Hy; cbn in Hy; intuition|].
  split; [vm_compute; reflexivity|]. split; [cbn; reflexivity|]. vm_compute. reflexivity.
Qed.
Print Assumptions C138_overlap_refuted.
(** a cached mapping is not renewed when the instrument moves under it, or when the limits are set *)
Theorem C138_stale_refuted : exists p imgs ds w w', new_polar no_file (1 # 100) ex_view [("a"%string, ex_det 0 0)] true = Ok p /\
  warp_image no_file (1 # 100) (step p (Instrument ds)) imgs false = Ok w /\ warp_image no_file (1 # 100) (Polar ex_view ds None) imgs false = Ok w' /\
  (exists x y, entry (w_data w) 0 0 = Some (Some x) /\ entry (w_data w') 0 0 = Some (Some y) /\ ~ x == y) /\
  (exists w'', warp_image no_file (1 # 100) (Polar (after ex_view (TthMax 2)) [("a"%string, ex_det 0 0)] None) imgs false = Ok w'') /\
  warp_image no_file (1 # 100) (step p (Change (TthMax 2))) imgs false = Err ValueError.
Proof.
  eexists. exists [("a"%string, measured ex_img)], [("a"%string, ex_det (1 # 2) (1 # 2))]. eexists. eexists. split; [vm_compute; reflexivity|].
  split; [vm_compute; reflexivity|]. split; [vm_compute; reflexivity|]. split; [do 2 eexists; split; [cbn; reflexivity|]; split; [cbn; reflexivity|]; vm_compute; discriminate|].
  split; [eexists; vm_compute; reflexivity|]. vm_compute. reflexivity.
Qed.
Print Assumptions C138_stale_refuted.

(** * C139: coarser bins of the azimuth *)
Lemma trunc_int q z : q == inject_Z z -> qtrunc q = z.
Proof. intros E. unfold qtrunc. destruct (Qle_bool 0 q); rewrite E; [apply Qfloor_Z|apply Qceiling_Z]. Qed.
Lemma column_slice (pv : list (list (option Q))) j s t : (0 <= s)%Z -> (0 <= t)%Z ->
  column None j (py_slice s t pv) = map (fun r => match entry pv r j with Some x => x | None => None end) (seq (Z.to_nat s) (Nat.min (Z.to_nat t) (length pv) - Z.to_nat s)).
Proof.
  intros Hs Ht. unfold py_slice, slice, slice_start, slice_stop, column. destruct (s <? 0)%Z eqn:E1; [lia|]. destruct (t <? 0)%Z eqn:E2; [lia|]. clear.
  set (a := Z.to_nat s). set (b := Z.to_nat t). clearbody a b.
  revert pv b. induction a as [|a IH]; intros pv b.
  - rewrite !Nat.sub_0_r. cbn [skipn]. revert b. enough (G : forall b k pv', (forall r, nth_error pv r = nth_error pv' (k + r)) -> map (fun r => nth j r None) (firstn b pv) = map (fun r => match entry pv' r j with Some x => x | None => None end) (seq k (Nat.min b (length pv)))) by (intros b; apply (G b 0%nat pv); reflexivity).
    induction pv as [|r pv IH]; intros [|b] k pv' H; [reflexivity..|]. cbn [firstn length Nat.min seq map]. f_equal.
    + pose proof (H 0%nat) as H0. cbn in H0. rewrite Nat.add_0_r in H0. unfold entry. rewrite <- H0. destruct (nth_error r j) eqn:E; [apply nth_error_nth; exact E|apply nth_overflow, nth_error_None; exact E].
    + apply IH. intros r'. rewrite <- (H (S r')) || idtac. replace (S k + r')%nat with (k + S r')%nat by lia. rewrite <- H. reflexivity.
  - destruct pv as [|r pv]; [destruct b; cbn; rewrite ?firstn_nil; reflexivity|]. cbn [skipn length]. destruct b as [|b]; [cbn; reflexivity|].
    cbn [Nat.sub Nat.min]. rewrite IH, <- seq_shift, map_map. reflexivity.
Qed.
Definition hv (pv : list (list (option Q))) (j r : nat) : bool := match entry pv r j with Some (Some _) => true | _ => false end.
Lemma hv_iff pv j r : hv pv j r = true <-> has_value pv r j.
Proof. unfold hv, has_value. destruct (entry pv r j) as [[x|]|]; split; intros H; try discriminate; eauto; destruct H as (y & H); discriminate H. Qed.
Lemma known_rows pv j l : known (map (fun r => match entry pv r j with Some x => x | None => None end) l) = map (fun r => value pv r j) (filter (hv pv j) l).
Proof. induction l as [|r l IH]; [reflexivity|]. cbn [map filter]. unfold hv at 1. destruct (entry pv r j) as [[x|]|] eqn:E; cbn [known map]; rewrite IH; [|reflexivity..]. f_equal. unfold value. rewrite E. reflexivity. Qed.
Lemma half_window r z b : Qabs (inject_Z r + (1 # 2) - inject_Z z) < inject_Z b <-> (z - b <= r < z + b)%Z.
Proof.
  rewrite Qabs_Qlt_condition. split.
  - intros (A & B). assert (X : inject_Z (z - b) < inject_Z (r + 1)) by (unfold Z.sub; rewrite !inject_Z_plus, inject_Z_opp; change (inject_Z 1) with 1; lra).
    assert (Y : inject_Z r < inject_Z (z + b)) by (rewrite inject_Z_plus; lra). rewrite <- Zlt_Qlt in X, Y. lia.
  - intros (A & B). assert (B' : (r + 1 <= z + b)%Z) by lia. rewrite Zle_Qle in A, B'. unfold Z.sub in A. rewrite !inject_Z_plus in *. rewrite inject_Z_opp in A. change (inject_Z 1) with 1 in B'. lra.
Qed.
Lemma nanmean_mean l : (known l = [] -> nanmean l = None) /\ (known l <> [] -> exists m, nanmean l = Some m /\ mean_of (known l) m).
Proof.
  unfold nanmean. cbv zeta. destruct (known l) as [|x k]; (split; [intros H|intros H]); [reflexivity|congruence|discriminate H|]. eexists. split; [reflexivity|]. split; [discriminate|].
  unfold total, qz. field. intros K. assert (Z : inject_Z (Z.of_nat (length (x :: k))) == inject_Z 0) by exact K. rewrite inject_Z_injective in Z. cbn [length] in Z. lia.
Qed.
(** each value of a spectrum is the mean of the values that are there in the rows whose middle is closer than the range to its azimuth.
    Partial: the interval and the range are numbers of rows, and the range is not longer than the interval *)
Theorem C139_bins_partial : forall v pv cols a b interval range, proper_view v ->
  interval == inject_Z a * eta_pixel_size v -> range == inject_Z b * eta_pixel_size v -> (0 < a)%Z -> (0 <= b <= a)%Z -> interval <= eta_max v - eta_min v ->
  exists res, bin_polar_view v pv cols interval range = Ok res /\ Z.of_nat (length res) = (Qfloor ((eta_max v - eta_min v) / interval) - 1)%Z /\
  forall i j, (i < length res)%nat -> (j < cols)%nat -> exists o rs, entry res i j = Some o /\ NoDup rs /\
    (forall r, In r rs <-> has_value pv r j /\ Qabs (middle (eta_min v) (eta_pixel_size v) r - (eta_min v + (inject_Z (Z.of_nat i) + 1) * interval)) < range) /\
    (rs = [] -> o = None) /\ (rs <> [] -> exists m, o = Some m /\ mean_of (map (fun r => value pv r j) rs) m).
Proof.
  intros v pv cols a b interval range (H1 & H2 & H3 & H4) Ea Eb Ha Hb Hi.
  assert (I0 : 0 < interval). { rewrite Ea. change 0 with (inject_Z 0 * 0). rewrite Zlt_Qlt in Ha. change (inject_Z 0) with 0 in *. pose proof (Qmult_lt_r 0 (inject_Z a) _ H4) as (_ & Y). specialize (Y Ha). lra. }
  unfold bin_polar_view. destruct (Qeq_bool interval 0) eqn:E0; [apply Qeq_bool_iff in E0; lra|].
  assert (T : qtrunc ((eta_max v - eta_min v) / interval) = Qfloor ((eta_max v - eta_min v) / interval)).
  { unfold qtrunc. destruct (Qle_bool 0 ((eta_max v - eta_min v) / interval)) eqn:E; [reflexivity|]. exfalso. apply not_true_iff_false in E. apply E. apply Qle_bool_iff. apply Qle_shift_div_l; lra. }
  rewrite T. set (F := Qfloor ((eta_max v - eta_min v) / interval)).
  assert (F1 : (1 <= F)%Z). { unfold F. change 1%Z with (Qfloor (inject_Z 1)). apply Qfloor_resp_le. apply Qle_shift_div_l; [exact I0|]. change (inject_Z 1) with 1. lra. }
  destruct (F - 1 <? 0)%Z eqn:E1; [lia|]. eexists. split; [reflexivity|]. rewrite map_length, zrange_length. split; [lia|].
  intros i j Hi' Hj. unfold entry at 1. rewrite nth_error_map, zr_nth by lia. cbn [option_map]. rewrite nth_error_map.
  rewrite (nth_error_nth' _ 0%nat) by (rewrite seq_length; exact Hj). rewrite seq_nth by exact Hj. cbn [option_map Nat.add]. cbv zeta.
  replace (0 + Z.of_nat i)%Z with (Z.of_nat i) by lia. set (z := ((Z.of_nat i + 1) * a)%Z).
  assert (Ez : (qz (Z.of_nat i) + 1) * interval == inject_Z z * eta_pixel_size v) by (unfold z, qz; rewrite inject_Z_mult, inject_Z_plus, Ea; change (inject_Z 1) with 1; ring).
  assert (S1 : qtrunc (((qz (Z.of_nat i) + 1) * interval - range) / eta_pixel_size v) = (z - b)%Z).
  { apply trunc_int. unfold Z.sub. rewrite inject_Z_plus, inject_Z_opp, Ez, Eb. field. lra. }
  assert (S2 : qtrunc (((qz (Z.of_nat i) + 1) * interval + range) / eta_pixel_size v) = (z + b)%Z).
  { apply trunc_int. rewrite inject_Z_plus, Ez, Eb. field. lra. }
  rewrite S1, S2. assert (Zb : (b <= z)%Z) by (unfold z; nia).
  rewrite column_slice by lia. eexists. set (rs0 := seq (Z.to_nat (z - b)) (Nat.min (Z.to_nat (z + b)) (length pv) - Z.to_nat (z - b))).
  exists (filter (hv pv j) rs0). split; [reflexivity|]. split; [apply NoDup_filter, seq_NoDup|].
  set (l := map (fun r => match entry pv r j with Some x => x | None => None end) rs0). assert (K : known l = map (fun r => value pv r j) (filter (hv pv j) rs0)) by apply known_rows.
  split; [|split].
  - intros r. rewrite filter_In, hv_iff. unfold rs0. rewrite in_seq.
    assert (W : Qabs (middle (eta_min v) (eta_pixel_size v) r - (eta_min v + (inject_Z (Z.of_nat i) + 1) * interval)) < range <-> (z - b <= Z.of_nat r < z + b)%Z).
    { rewrite <- half_window. change (inject_Z (Z.of_nat i)) with (qz (Z.of_nat i)). rewrite Ez, Eb. unfold middle.
      assert (X : eta_min v + (inject_Z (Z.of_nat r) + (1 # 2)) * eta_pixel_size v - (eta_min v + inject_Z z * eta_pixel_size v) == (inject_Z (Z.of_nat r) + (1 # 2) - inject_Z z) * eta_pixel_size v) by ring.
      rewrite X, Qabs_Qmult, (Qabs_pos (eta_pixel_size v)) by lra. apply (Qmult_lt_r _ _ _ H4). }
    rewrite W. split.
    + intros (A & B). split; [exact B|]. lia.
    + intros (B & A). split; [|exact B]. assert (L : (r < length pv)%nat). { destruct B as (x & B). unfold entry in B. apply nth_error_Some. destruct (nth_error pv r); [discriminate|discriminate B]. } lia.
  - intros N. apply (proj1 (nanmean_mean l)). rewrite K, N. reflexivity.
  - intros N. destruct (proj2 (nanmean_mean l)) as (m & Em & Mm); [rewrite K; intros Q0; apply map_eq_nil in Q0; contradiction|]. rewrite K in Mm. eauto.
Qed.
Print Assumptions C139_bins_partial.
Example C139_ex : let v := View 0 10 0 8 1 (1 # 2) in proper_view v /\ 2 == inject_Z 4 * eta_pixel_size v /\ 1 == inject_Z 2 * eta_pixel_size v /\
  exists res, bin_polar_view v (map (fun r => [Some (qz r)]) (zrange 0 16)) 1 2 1 = Ok res /\ length res = 3%nat /\ exists x, entry res 0 0 = Some (Some x) /\ x == 7 # 2.
Proof. cbv zeta. split; [repeat split; cbn; lra|]. split; [vm_compute; reflexivity|]. split; [vm_compute; reflexivity|]. eexists. split; [vm_compute; reflexivity|]. split; [reflexivity|]. eexists. split; [cbn; reflexivity|]. vm_compute. reflexivity. Qed.

(** an interval longer than the range of the view is an error *)
Theorem C139_long : forall v pv cols interval range, proper_view v -> eta_max v - eta_min v < interval -> bin_polar_view v pv cols interval range = Err ValueError.
Proof.
  intros v pv cols interval range (_ & H2 & _) H. unfold bin_polar_view. destruct (Qeq_bool interval 0) eqn:E0; [apply Qeq_bool_iff in E0; lra|].
  assert (T : qtrunc ((eta_max v - eta_min v) / interval) = 0%Z).
  { unfold qtrunc. destruct (Qle_bool 0 ((eta_max v - eta_min v) / interval)) eqn:E.
    - apply Qle_bool_iff in E. assert (L : (eta_max v - eta_min v) / interval < 1) by (apply Qlt_shift_div_r; lra).
      pose proof (Qfloor_le ((eta_max v - eta_min v) / interval)) as A. pose proof (Qlt_floor ((eta_max v - eta_min v) / interval)) as B.
      assert (A' : inject_Z (Qfloor ((eta_max v - eta_min v) / interval)) < inject_Z 1) by (change (inject_Z 1) with 1; lra).
      assert (B' : inject_Z 0 < inject_Z (Qfloor ((eta_max v - eta_min v) / interval) + 1)) by (change (inject_Z 0) with 0; lra). rewrite <- Zlt_Qlt in A', B'. lia.
    - exfalso. apply not_true_iff_false in E. apply E. apply Qle_bool_iff. apply Qle_shift_div_l; lra. }
  rewrite T. reflexivity.
Qed.
Print Assumptions C139_long.
(** otherwise: rows outside the range count, *)
Theorem C139_outside_refuted : exists v pv interval range res x, proper_view v /\ 0 < range <= interval /\ bin_polar_view v pv 1 interval range = Ok res /\ entry res 0 0 = Some (Some x) /\ ~ x == 0 /\
  forall r, has_value pv r 0 -> Qabs (middle (eta_min v) (eta_pixel_size v) r - (eta_min v + interval)) <= range -> value pv r 0 == 0.
Proof.
  exists (View 0 10 0 2 1 (1 # 4)), [[Some 0]; [Some 0]; [Some 1]; [Some 0]; [Some 0]; [Some 0]; [Some 0]; [Some 0]], 1, (3 # 10). eexists. eexists.
  split; [repeat split; cbn; lra|]. split; [lra|]. split; [vm_compute; reflexivity|]. split; [cbn; reflexivity|]. split; [vm_compute; discriminate|].
  intros r (x & Hx) Hr. do 8 (destruct r as [|r]; [try (vm_compute; reflexivity); vm_compute in Hr; exfalso; apply Hr; reflexivity|]). cbn in Hx. destruct r; discriminate Hx.
Qed.
Print Assumptions C139_outside_refuted.
(** a range longer than the interval makes the first spectrum empty, *)
Theorem C139_wide_refuted : exists v pv res, proper_view v /\ bin_polar_view v pv 1 2 3 = Ok res /\ entry res 0 0 = Some None /\
  exists r, has_value pv r 0 /\ Qabs (middle (eta_min v) (eta_pixel_size v) r - (eta_min v + 2)) < 3.
Proof.
  exists (View 0 10 0 8 1 1), (repeat [Some 1] 8). eexists. split; [repeat split; cbn; lra|]. split; [vm_compute; reflexivity|]. split; [reflexivity|].
  exists 2%nat. split; [exists 1; reflexivity|]. vm_compute. reflexivity.
Qed.
Print Assumptions C139_wide_refuted.
(** and the rows at both ends are in no spectrum, though the ranges follow each other without a gap *)
Theorem C139_ends_refuted : exists v pv pv' res res', proper_view v /\ length pv = 8%nat /\ length pv' = 8%nat /\ bin_polar_view v pv 1 2 1 = Ok res /\ bin_polar_view v pv' 1 2 1 = Ok res' /\
  res = res' /\ value pv 0 0 == 1 /\ value pv' 0 0 == 5 /\ value pv 7 0 == 1 /\ value pv' 7 0 == 5.
Proof.
  exists (View 0 10 0 8 1 1), (repeat [Some 1] 8), ([Some 5] :: repeat [Some 1] 6 ++ [[Some 5]])%list. eexists. eexists.
  split; [repeat split; cbn; lra|]. split; [reflexivity|]. split; [reflexivity|]. split; [vm_compute; reflexivity|]. split; [vm_compute; reflexivity|].
  split; [reflexivity|]. repeat split; vm_compute; reflexivity.
Qed.
Print Assumptions C139_ends_refuted.
