(** C121, C122: the eta-omega maps. *)
From Coq Require Import Reals List ZArith Lra Lia Bool QArith Qreals.
From Verif Require Import Prelude Lin TensorModel RotModel TasksModel FibModel FibProofs EomModel EomSpec EomProofs EomMore.
From Verif Require OmegaModel EowModel EowSpec EowProofs.
Import ListNotations.
Local Close Scope Q_scope.
Local Open Scope R_scope.
Local Notation length := List.length.

(** ** C121 *)
Lemma maps_all edges ranges threshold workers nrows vs : forall evss,
  (1 <= workers)%Z -> (2 <= length edges)%nat -> sorted edges = true -> Forall (fun v => full_frames v nrows) vs ->
  length evss = length vs -> Forall (schedule workers nrows (length ranges)) evss ->
  exists ms, map_res (fun ev => polar_maps edges ranges threshold (fst ev) (snd ev)) (combine evss vs) = Ok ms /\
    forall r tthr f b, nth_error ranges r = Some tthr -> (f < nrows)%nat -> (S b < length edges)%nat ->
      map (fun m => m r f b) ms = map (fun v => the_cell edges tthr threshold v f b) vs.
Proof.
  induction vs as [|v t IH]; intros [|ev evss] Hw HL Hs HF Hn HS; try discriminate.
  - exists []. split; [reflexivity|]. reflexivity.
  - inversion HF; subst. inversion HS; subst.
    destruct (polar_lemma edges ranges threshold v nrows Hs H1 ev HL (schedule_in workers nrows (length ranges) ev Hw H3)) as (m & E & HM).
    destruct (IH evss Hw HL Hs H2 ltac:(cbn [length] in Hn; lia) H4) as (ms & E' & HMs).
    exists (m :: ms). cbn [combine map_res fst snd]. rewrite E. cbn [rbind]. rewrite E'. cbn [rbind]. split; [reflexivity|].
    intros r tthr f b Hr Hf Hb. cbn [map]. rewrite (HM r tthr f b Hr Hf Hb). f_equal. apply HMs; auto.
Qed.

(** Every cell of the map of one detector is the sum of the thresholded intensities of exactly the pixels of that ring and bin,
    and NaN if there are none, whatever the number of workers and however they interleave. *)
Theorem C121_one_detector : forall workers edges ranges threshold v nrows evs,
  (1 <= workers)%Z -> (2 <= length edges)%nat -> increasing edges -> full_frames v nrows ->
  schedule workers nrows (length ranges) evs ->
  exists m, polar_maps edges ranges threshold evs v = Ok m /\
  forall r tthr f b, nth_error ranges r = Some tthr -> (f < nrows)%nat -> (S b < length edges)%nat ->
    right_cell edges tthr threshold [v] f b (m r f b).
Proof.
  intros workers edges ranges threshold v nrows evs Hw HL Hi Hv HS.
  destruct (polar_lemma edges ranges threshold v nrows (increasing_sorted _ Hi) Hv evs HL (schedule_in workers nrows (length ranges) evs Hw HS)) as (m & E & HM).
  exists m. split; auto. intros r tthr f b Hr Hf Hb. rewrite (HM r tthr f b Hr Hf Hb).
  pose proof (pack_right edges tthr threshold [v] f b Hb) as P. cbn [map] in P.
  replace (pack_cell [the_cell edges tthr threshold v f b]) with (the_cell edges tthr threshold v f b) in P; [exact P|].
  unfold pack_cell. destruct (the_cell edges tthr threshold v f b); [|reflexivity]. cbn. f_equal. ring.
Qed.
Print Assumptions C121_one_detector.
(** ... and every cell of the map of all detectors is the sum over the pixels of all of them. *)
Theorem C121_all_detectors : forall workers edges ranges threshold vs nrows evss,
  (1 <= workers)%Z -> (2 <= length edges)%nat -> increasing edges -> Forall (fun v => full_frames v nrows) vs ->
  length evss = length vs -> Forall (schedule workers nrows (length ranges)) evss ->
  exists ms, map_res (fun ev => polar_maps edges ranges threshold (fst ev) (snd ev)) (combine evss vs) = Ok ms /\
  forall r tthr f b, nth_error ranges r = Some tthr -> (f < nrows)%nat -> (S b < length edges)%nat ->
    right_cell edges tthr threshold vs f b (pack ms r f b).
Proof.
  intros workers edges ranges threshold vs nrows evss Hw HL Hi HF Hn HS.
  destruct (maps_all edges ranges threshold workers nrows vs evss Hw HL (increasing_sorted _ Hi) HF Hn HS) as (ms & E & HM).
  exists ms. split; auto. intros r tthr f b Hr Hf Hb. unfold pack. rewrite (HM r tthr f b Hr Hf Hb). apply pack_right; auto.
Qed.
Print Assumptions C121_all_detectors.
(** no schedule can be missing: there is one for every number of workers and rows *)
Theorem C121_schedules : forall workers nrows nrings, (1 <= workers)%Z -> exists evs, schedule workers nrows nrings evs.
Proof.
  intros workers nrows nrings Hw. unfold schedule.
  destruct (TasksProofs.distribute_tasks_correct (Z.of_nat nrows) workers) as (tasks & E & _); try lia.
  assert (M : forall ls : list (list (nat * nat)), merged ls (concat ls)).
  { intros ls. assert (K : forall n ls, length (concat ls) = n -> @merged (nat * nat) ls (concat ls)).
    { induction n as [|n IH]; intros l Hl.
      - apply length_zero_iff_nil in Hl. rewrite Hl. constructor. clear - Hl. induction l as [|a t IH]; constructor; cbn in Hl; apply app_eq_nil in Hl; tauto.
      - assert (X : forall l : list (list (nat * nat)), concat l <> [] -> exists l1 x t l2, l = l1 ++ (x :: t) :: l2 /\ concat l1 = [] ).
        { clear. induction l as [|a l IH]; intros H; [elim H; reflexivity|]. destruct a as [|x t].
          - destruct (IH H) as (l1 & x & t & l2 & -> & E). exists ([] :: l1), x, t, l2. split; auto.
          - exists [], x, t, l. split; reflexivity. }
        destruct (X l) as (l1 & x & t & l2 & El & E1); [intros Q; rewrite Q in Hl; discriminate|].
        subst l. rewrite !concat_app in *. cbn [concat] in *. rewrite E1 in *. cbn [app] in *.
        constructor. specialize (IH (l1 ++ t :: l2)). rewrite concat_app in IH. cbn [concat] in IH. rewrite E1 in IH. apply IH. cbn [length app] in *. lia. }
    apply (K (length (concat ls))). reflexivity. }
  destruct (Z.eqb workers 1 || Nat.eqb (length tasks) 1)%bool eqn:B.
  - exists (flat_map (task_events nrings) tasks), tasks. rewrite B. auto.
  - exists (concat (map (task_events nrings) tasks)), tasks. rewrite B. auto.
Qed.
Print Assumptions C121_schedules.

(** The edges are the multiples of the step, starting at the beginning of the period, as many as fit into the circle. *)
Theorem C121_edges : forall delta lo, 0 < delta -> exists n edges,
  eta_edges delta (lo, lo + 2 * PI) = Ok edges /\ INR n * delta <= 360 < (INR n + 1) * delta /\ length edges = S n /\ increasing edges /\
  forall k, (k <= n)%nat -> nth k edges 0 = lo + delta * INR k * (PI / 180).
Proof.
  intros delta lo Hd. pose proof PI_RGT_0 as Hp. destruct (edges_lemma delta lo Hd) as (n & Hn & E). exists n. eexists. split; [exact E|]. split; [exact Hn|].
  assert (HL : length (map (fun k => lo + delta * INR k * (PI / 180)) (seq 0 (S n))) = S n) by (rewrite map_length, seq_length; reflexivity).
  assert (HN : forall k, (k <= n)%nat -> nth k (map (fun k => lo + delta * INR k * (PI / 180)) (seq 0 (S n))) 0 = lo + delta * INR k * (PI / 180)).
  { intros k Hk. rewrite nth_indep with (d' := (fun k => lo + delta * INR k * (PI / 180)) 0%nat) by lia.
    rewrite (map_nth (fun k => lo + delta * INR k * (PI / 180))), seq_nth by lia. reflexivity. }
  split; [exact HL|]. split; [|exact HN]. apply increasing_nth. intros k Hk. rewrite HL in Hk. rewrite !HN by lia. rewrite S_INR.
  assert (0 < delta * (PI / 180)) by (apply Rmult_lt_0_compat; lra). lra.
Qed.
Print Assumptions C121_edges.
(** If the step divides the circle, every angle is in exactly one bin. *)
Theorem C121_one_bin : forall delta lo n, (1 <= n)%nat -> INR n * delta = 360 -> exists edges,
  eta_edges delta (lo, lo + 2 * PI) = Ok edges /\
  forall eta, lo <= eta <= lo + 2 * PI -> exists b, in_bin edges b eta /\ forall b', in_bin edges b' eta -> b' = b.
Proof.
  intros delta lo n Hn E360. assert (Hn1 : 1 <= INR n) by (apply (le_INR 1); auto).
  assert (Hd : 0 < delta) by (apply Rmult_lt_reg_l with (INR n); lra).
  destruct (C121_edges delta lo Hd) as (m & edges & E & Hm & HL & HI & HN). exists edges. split; auto.
  assert (m = n).
  { destruct (Nat.lt_trichotomy m n) as [L|[L|L]]; auto; exfalso.
    - apply (le_INR (S m) n) in L. rewrite S_INR in L. assert ((INR m + 1) * delta <= INR n * delta) by (apply Rmult_le_compat_r; lra). lra.
    - apply (le_INR (S n) m) in L. rewrite S_INR in L. assert ((INR n + 1) * delta <= INR m * delta) by (apply Rmult_le_compat_r; lra). lra. }
  subst m. intros eta He. destruct (bin_exists edges eta) as (b & Hb).
  { lia. }
  { rewrite HL, Nat.sub_succ, Nat.sub_0_r, !HN by lia. cbn [INR]. replace (delta * INR n) with 360 by lra. lra. }
  exists b. split; auto. intros b' Hb'. eapply bin_unique; eauto.
Qed.
Print Assumptions C121_one_bin.
(** Finding: otherwise the angles after the last edge are in no bin and their pixels are left out: with steps of 7 degrees
    everything beyond 357 degrees. *)
Theorem C121_uncovered_refuted : exists edges eta, eta_edges 7 (- PI, - PI + 2 * PI) = Ok edges /\ - PI <= eta <= PI /\ forall b, ~ in_bin edges b eta.
Proof.
  pose proof PI_RGT_0 as Hp. destruct (C121_edges 7 (- PI)) as (n & edges & E & Hn & HL & HI & HN); [lra|].
  exists edges, PI. split; auto. split; [lra|]. intros b (H1 & H2 & H3).
  assert (Hb : nth (S b) edges 0 < PI).
  { rewrite HN by lia. assert (INR (S b) <= INR n) by (apply le_INR; lia).
    assert (L : INR n <= 51). { destruct (Nat.le_gt_cases n 51) as [L|L]; [apply le_INR in L; cbn in L; lra|]. apply (le_INR 52) in L. cbn in L. lra. }
    assert (K : 7 * INR (S b) * (PI / 180) <= 357 * (PI / 180)) by (apply Rmult_le_compat_r; lra). lra. }
  destruct H3 as [H3|[_ H3]]; lra.
Qed.
Print Assumptions C121_uncovered_refuted.
(** The intensities of a ring are all in its row: their sum over the bins is that over the ring's pixels. *)
Theorem C121_conserved : forall workers edges ranges threshold v nrows evs,
  (1 <= workers)%Z -> (2 <= length edges)%nat -> increasing edges -> full_frames v nrows ->
  schedule workers nrows (length ranges) evs ->
  (forall p, In p (v_pix v) -> nth 0 edges 0 <= snd p <= nth (length edges - 1) edges 0) ->
  exists m, polar_maps edges ranges threshold evs v = Ok m /\
  forall r tthr f, nth_error ranges r = Some tthr -> (f < nrows)%nat -> exists ids, NoDup ids /\
    (forall i, In i ids <-> exists p, nth_error (v_pix v) i = Some p /\ in_ring tthr p) /\
    total (map (fun b => match m r f b with Some x => x | None => 0 end) (seq 0 (length edges - 1)))
    = total (map (fun i => level threshold (intensity v f i)) ids).
Proof.
  intros workers edges ranges threshold v nrows evs Hw HL Hi Hv HS Hp.
  destruct (polar_lemma edges ranges threshold v nrows (increasing_sorted _ Hi) Hv evs HL (schedule_in workers nrows (length ranges) evs Hw HS)) as (m & E & HM).
  exists m. split; auto. intros r tthr f Hr Hf. exists (ring_ids tthr (v_pix v)). split; [|split].
  - unfold ring_ids. apply NoDup_filter, seq_NoDup.
  - intros i. unfold ring_ids. rewrite filter_In, in_seq. unfold in_range, in_ring. rewrite andb_true_iff, !rle_iff. split.
    + intros [H1 H2]. exists (nth i (v_pix v) (0, 0)). split; [apply nth_error_nth'; lia|exact H2].
    + intros (p & Ep & H2). split; [split; [lia|]; cbn; apply nth_error_Some; congruence|].
      pose proof (nth_error_nth _ _ (0, 0) Ep) as Q. unfold pix in *. rewrite Q. exact H2.
  - rewrite <- (row_lemma edges tthr threshold v f Hi HL Hp). f_equal. apply map_ext_in. intros b Hb. apply in_seq in Hb.
    rewrite (HM r tthr f b Hr Hf) by lia. reflexivity.
Qed.
Print Assumptions C121_conserved.
(** Finding: a pixel that is NaN spoils not only its own bin but every later bin of the ring, because numpy takes the bins as
    differences of a running sum. *)
Theorem C121_nan_refuted : exists m,
  let v := View [(1, 1 / 2); (1, 3 / 2)] [[None; Some 5]] in
  schedule 1 1 1 [(0%nat, 0%nat)] /\
  polar_maps [0; 1; 2] [(0, 2)] None [(0%nat, 0%nat)] v = Ok m /\ m 0%nat 0%nat 1%nat = None /\
  (forall i, seen [0; 1; 2] (0, 2) 1 v i <-> i = 1%nat) /\ intensity v 0 1 = 5.
Proof.
  set (v := View [(1, 1 / 2); (1, 3 / 2)] [[None; Some 5]]).
  assert (Hids : ring_ids (0, 2) (v_pix v) = [0; 1]%nat).
  { unfold ring_ids, v. cbn [v_pix length seq filter nth]. unfold in_range. cbn [fst snd].
    rewrite (proj2 (rle_iff 0 1)), (proj2 (rle_iff 1 2)) by lra. reflexivity. }
  assert (Hs : sorted [0; 1; 2] = true) by (apply increasing_sorted; cbn; lra).
  unfold polar_maps. cbn [length Nat.ltb Nat.leb map_res].
  rewrite (params_lemma [0; 1; 2] v (0, 2) Hs). unfold the_params. rewrite Hids. cbn [rbind].
  assert (T : forall a b, a < b -> rlt a b = true) by (intros; apply rlt_iff; auto).
  assert (T' : forall a b, b <= a -> rlt a b = false) by (intros a b H; unfold rlt; destruct (Rlt_dec a b); [lra|reflexivity]).
  assert (U : forall a b, a <= b -> rle a b = true) by (intros; apply rle_iff; auto).
  assert (HB : the_bins [0; 1; 2] (0, 2) v = [0; 1]%nat).
  { unfold the_bins, cell_ids. rewrite Hids. unfold binb, before, eta_of, v. cbn.
    repeat (rewrite T by lra). repeat (rewrite T' by lra). repeat (rewrite U by lra). cbn. repeat (rewrite T by lra). repeat (rewrite T' by lra). reflexivity. }
  rewrite HB. eexists. split; [|split; [|split; [|split]]].
  - exists [(0, 1)%Z]. split; reflexivity.
  - cbn [run_writes one_write v_ims nth_error v map r_ids r_etas r_bins take map_res rbind threshold_cell]. unfold take. cbn [map_res nth_error rbind combine].
    unfold hist_weights. rewrite Hs. cbn [rbind]. reflexivity.
  - unfold write. cbn [Nat.eqb andb existsb orb length seq map Nat.sub nth]. unfold running, before, eta_of. cbn.
    repeat (rewrite T by lra). repeat (rewrite U by lra). reflexivity.
  - intros i. split.
    + intros (p & Hp & _ & (_ & H2 & H3)). destruct i as [|[|i]]; [|reflexivity|destruct i; discriminate].
      cbn in Hp. injection Hp as <-. cbn in *. lra.
    + intros ->. exists (1, 3 / 2). split; [reflexivity|]. split; [unfold in_ring; cbn; lra|]. split; [cbn; lia|]. cbn. split; [lra|left; lra].
  - reflexivity.
Qed.
Print Assumptions C121_nan_refuted.
(** two detectors, a threshold, two frames, three workers *)
Example C121_ex :
  let a := View [(1, 1 / 2); (1, 3 / 2); (9, 1 / 2)] [[Some 3; Some 1; Some 7]; [Some 4; Some 6; Some 8]] in
  let b := View [(1, 1 / 2)] [[Some 10]; [Some 20]] in
  Forall (fun v => full_frames v 2) [a; b] /\ increasing [0; 1; 2] /\ exists evss, length evss = 2%nat /\ Forall (schedule 3 2 1) evss.
Proof.
  cbn zeta. split; [|split].
  - repeat constructor; discriminate.
  - cbn. lra.
  - destruct (C121_schedules 3 2 1) as (evs & H); [lia|]. exists [evs; evs]. split; auto.
Qed.

(** ** C122 *)
Import OmegaModel EowModel EowSpec EowProofs.
Local Close Scope R_scope.
Local Open Scope Q_scope.
(** If the frames of an imageseries, in one wedge or several, lie on a grid of equal omega steps within one turn, then there is one
    row for each step from the first frame to the last; it is labelled with the centre of the step and holds the row of the frame
    that covers the step, or NaNs if there is none. *)
Theorem C122_rows : forall (A : Type) o0 delta ns om (rows : list A),
  on_grid o0 delta ns om -> ascending ns -> nth_error ns 0 = Some 0%nat -> 1 # 1000000 < delta ->
  inject_Z (Z.of_nat (S (last ns 0%nat))) * delta <= 360 -> length rows = length om ->
  exists out, omega_map om rows = Ok out /\ length out = S (last ns 0%nat) /\
    forall k, (k < S (last ns 0%nat))%nat -> exists r c, nth_error out k = Some (r, c) /\
      c == o0 + (inject_Z (Z.of_nat k) + (1 # 2)) * delta /\
      (forall f, nth_error ns f = Some k -> r = nth_error rows f) /\ (~ In k ns -> r = None).
Proof. intros A o0 delta ns om rows. exact (map_lemma o0 delta ns om rows). Qed.
Print Assumptions C122_rows.
Example C122_ex : on_grid 10 (1 # 2) [0; 1; 4; 5]%nat [(10, 21 # 2); (21 # 2, 11); (12, 25 # 2); (25 # 2, 13)] /\ ascending [0; 1; 4; 5]%nat.
Proof.
  split; [|cbn; lia]. split; [reflexivity|]. intros f n H. destruct f as [|[|[|[|f]]]]; cbn in H; try (injection H as <-; split; reflexivity). destruct f; discriminate.
Qed.
Lemma four_ws om ws : make_wedges om = Ok ws -> (2 <= length ws)%nat -> (forall w, In w ws -> w_delta w == 1) ->
  exists u, uniqueVectors 1 (map (fun w => [Q2R (w_delta w)]) ws) (Q2R (1 # 1000000)) = Ok u /\ length u = 1%nat.
Proof. intros _ H1 H2. exact (unique_same ws 1 H1 H2). Qed.
(** Finding: if the gap between two wedges is not a whole number of steps, the maps cannot be made (the number of rows found to
    have a frame differs from the number of frames) ... *)
Theorem C122_gap_refuted :
  let om := [(0, 1); (1, 2); (2, 3); (39 # 10, 49 # 10)] in
  (exists ws, make_wedges om = Ok ws /\ length ws = 2%nat) /\ forall A (rows : list A), length rows = 4%nat -> omega_map om rows = Err ValueError.
Proof.
  cbn zeta. set (om := [(0, 1); (1, 2); (2, 3); (39 # 10, 49 # 10)]).
  destruct (make_wedges om) as [ws|] eqn:E; [|vm_compute in E; discriminate].
  assert (E' := E). vm_compute in E'. injection E' as Ews.
  split; [exists ws; split; [reflexivity|rewrite <- Ews; reflexivity]|].
  intros A rows HL. unfold omega_map. rewrite E. cbn [rbind]. unfold omega_rows.
  replace (Nat.leb (length ws) 1) with false by (rewrite <- Ews; reflexivity).
  destruct (four_ws om ws E) as (u & Eu & Lu).
  { rewrite <- Ews. cbn. lia. }
  { rewrite <- Ews. intros w [<-|[<-|[]]]; reflexivity. }
  rewrite Eu. cbn [rbind]. rewrite Lu. cbn [Nat.eqb negb].
  match goal with |- context [Z.ltb ?n 0] => assert (En : n = 5%Z) by (rewrite <- Ews; vm_compute; reflexivity) end.
  rewrite En. cbn [Z.ltb Z.compare rbind fst snd place].
  match goal with |- context [length (filter _ ?m)] => assert (Em : m = [true; true; false; true]) by (rewrite <- Ews; vm_compute; reflexivity) end.
  rewrite Em. cbn [filter length]. rewrite HL. cbn [Nat.eqb].
  destruct rows as [|a [|b rows]]; try discriminate. reflexivity.
Qed.
Print Assumptions C122_gap_refuted.
(** ... or they are made, with a row's omega that is not that of its frame: the first frame here covers 0 to 1 but its row is
    labelled 0.5625. *)
Theorem C122_label_refuted :
  let om := [(0, 1); (1, 2); (5 # 2, 7 # 2); (7 # 2, 9 # 2)] in
  exists out c, omega_map om [0; 1; 2; 3]%nat = Ok out /\ nth_error out 0 = Some (Some 0%nat, c) /\ c == 9 # 16.
Proof.
  cbn zeta. set (om := [(0, 1); (1, 2); (5 # 2, 7 # 2); (7 # 2, 9 # 2)]).
  destruct (make_wedges om) as [ws|] eqn:E; [|vm_compute in E; discriminate].
  assert (E' := E). vm_compute in E'. injection E' as Ews.
  unfold omega_map. rewrite E. cbn [rbind]. unfold omega_rows.
  replace (Nat.leb (length ws) 1) with false by (rewrite <- Ews; reflexivity).
  destruct (four_ws om ws E) as (u & Eu & Lu).
  { rewrite <- Ews. cbn. lia. }
  { rewrite <- Ews. intros w [<-|[<-|[]]]; reflexivity. }
  rewrite Eu. cbn [rbind]. rewrite Lu. cbn [Nat.eqb negb].
  match goal with |- context [Z.ltb ?n 0] => assert (En : n = 5%Z) by (rewrite <- Ews; vm_compute; reflexivity) end.
  rewrite En. cbn [Z.ltb Z.compare rbind fst snd place].
  match goal with |- context [length (filter _ ?m)] => assert (Em : m = [true; true; true; true]) by (rewrite <- Ews; vm_compute; reflexivity) end.
  rewrite Em. cbn [filter length Nat.eqb rbind spread].
  eexists. eexists. split; [reflexivity|]. cbn [Z.to_nat Pos.to_nat Pos.iter_op Nat.add Nat.sub seq map combine nth_error]. split; [reflexivity|].
  rewrite <- Ews. vm_compute. reflexivity.
Qed.
Print Assumptions C122_label_refuted.
