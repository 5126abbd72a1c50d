(** C123-C126: the choice of reflections, the archive, the cleaning and filtering and the seed spots of eta-omega maps. *)
From Coq Require Import Reals List ZArith QArith Permutation Sorted Lra Lia Bool.
From Verif Require Import Prelude Lin TensorModel RotModel FibModel PlaneModel PlaneSpec PlaneProofs EomModel EmsModel EmsSpec EmsProofs EmsMed.
Import ListNotations.
Local Close Scope Q_scope.
Local Open Scope nat_scope.
Local Notation length := List.length.

(** ** C123 *)
(** The ids asked for in the call, or else in the configuration, are used as they are if each is the id of a reflection that is
    not excluded and none occurs twice; otherwise they are refused.  Without a request all reflections are used. *)
Theorem C123_requested : forall active ids config,
  (forall arg, (arg = HList ids /\ ids <> []) \/ ((arg = HNone \/ arg = HList []) /\ config = Some ids) ->
    (NoDup ids -> incl ids active -> choose active arg config = Ok ids) /\
    (~ NoDup ids -> choose active arg config = Err AssertionError) /\
    (NoDup ids -> ~ incl ids active -> choose active arg config = Err RuntimeError)) /\
  choose active HNone None = Ok active.
Proof.
  intros active ids config. split; [|reflexivity]. intros arg Ha.
  assert (E : choose active arg config = if no_dup ids then if forallb (fun k => existsb (Nat.eqb k) active) ids then Ok ids else Err RuntimeError else Err AssertionError).
  { destruct Ha as [[-> N]|[[-> | ->] ->]]; [destruct ids; [congruence|]| |]; reflexivity. }
  rewrite E. split; [|split].
  - intros N I. apply no_dup_iff in N. apply in_active in I. rewrite N, I. reflexivity.
  - intros N. destruct (no_dup ids) eqn:D; [apply no_dup_iff in D; contradiction|reflexivity].
  - intros N I. apply no_dup_iff in N. rewrite N. destruct (forallb _ ids) eqn:D; [apply in_active in D; contradiction|reflexivity].
Qed.
Print Assumptions C123_requested.
(** The map of each chosen id is made from the range of that reflection, in the order of the request. *)
Theorem C123_ranges : forall {B} (active : list nat) (ranges : list B) ids, NoDup active -> length ranges = length active -> incl ids active ->
  exists rs, chosen_ranges active ranges (Some (map NpId ids)) = Ok rs /\
    Forall2 (fun k r => exists i, nth_error active i = Some k /\ nth_error ranges i = Some r) ids rs.
Proof. intros B. exact (@ranges_lemma B). Qed.
Print Assumptions C123_ranges.
(** An id that is not that of an active reflection is refused. *)
Theorem C123_unknown_id : forall {B} (active : list nat) (ranges : list B) ids k, In (NpId k) ids -> ~ In k active ->
  chosen_ranges active ranges (Some ids) = Err RuntimeError.
Proof.
  intros B active ranges ids k Hk Ha. cbn [chosen_ranges].
  assert (K : map_res (fun k => match matches active k with [i] => Ok i | _ => Err RuntimeError end) ids = Err RuntimeError).
  { induction ids as [|x t IH]; [contradiction|]. cbn [map_res]. destruct Hk as [->|Hk].
    - assert (M : matches active (NpId k) = []).
      { cbn [matches]. destruct (filter _ _) as [|i t'] eqn:F; [reflexivity|]. exfalso. assert (I : In i (i :: t')) by (left; auto). rewrite <- F in I.
        apply filter_In in I. destruct I as [I E]. apply in_seq in I. apply Nat.eqb_eq in E. apply Ha. rewrite <- E. apply nth_In. lia. }
      rewrite M. reflexivity.
    - rewrite (IH Hk). destruct (matches active x) as [|i [|]]; reflexivity. }
  rewrite K. reflexivity.
Qed.
Print Assumptions C123_unknown_id.
(** Finding: plain Python integers, which the documentation allows, are always refused. *)
Theorem C123_python_int_refuted : forall {B} (active : list nat) (ranges : list B) k t, chosen_ranges active ranges (Some (PyId k :: t)) = Err RuntimeError.
Proof. reflexivity. Qed.
Print Assumptions C123_python_int_refuted.
(** Finding: the override may be an array by its annotation, but an array of several ids is refused and that of the single id 0
    is ignored. *)
Theorem C123_array_refuted : choose [0; 1; 2] (HArray [1; 2]) None = Err ValueError /\ choose [0; 1; 2] (HArray [0]) None = Ok [0; 1; 2] /\
  choose [0; 1; 2] (HList [1; 2]) None = Ok [1; 2] /\ choose [0; 1; 2] (HList [0]) None = Ok [0].
Proof. repeat split. Qed.
Print Assumptions C123_array_refuted.
Example C123_ex : NoDup [4; 7; 9] /\ incl [9; 4] [4; 7; 9] /\ chosen_ranges [4; 7; 9] [40; 70; 90] (Some (map NpId [9; 4])) = Ok [90; 40].
Proof. repeat split; [repeat constructor; cbn; intuition congruence|intros k; cbn; intuition]. Qed.

(** ** C124 *)
(** Reading back what was written gives the same reflections in the same order with the same exclusions and the same list of
    ids; the reflections are now numbered in the order shown.  (The indices are written in order of two-theta, so that sorting
    them again changes nothing, ties apart.) *)
Theorem C124_saved : forall {H} (s : pd (nat * H)) ids, reachable s ->
  exists a s', save s ids = Ok a /\ load a (seq 0 (length (data s))) = Ok (s', ids) /\ length (data s') = length (data s) /\
    exclusions s' = exclusions s /\
    forall r x, nth_error (data s) r = Some x -> nth_error (data s') r = Some (fst x, (r, snd (snd x))).
Proof.
  intros H s ids R. destruct (load_lemma s ids _ R eq_refl) as (a & s' & ex & Ea & El & Ex & Ex' & _ & _ & _ & _ & D).
  exists a, s'. split; auto. split; auto. split; [rewrite D, map_length, combine_length, seq_length; lia|]. split; [congruence|].
  intros r x Hr. rewrite D, nth_error_map.
  assert (K : forall (l : list (option Q * (nat * H))) k r x, nth_error l r = Some x -> nth_error (combine (seq k (length l)) l) r = Some (k + r, x)).
  { clear. induction l as [|y t IH]; intros k [|r] x E; try discriminate; cbn in *.
    - injection E as ->. rewrite Nat.add_0_r. reflexivity.
    - rewrite (IH (S k) r x E). replace (k + S r) with (S k + r) by lia. reflexivity. }
  rewrite (K _ 0 r x Hr). reflexivity.
Qed.
Print Assumptions C124_saved.
(** If the reflections were given in order of two-theta, every id means the same reflection as before. *)
Theorem C124_ids_partial : forall {H} (s : pd (nat * H)) ids, reachable s -> numbered s -> tsort s = seq 0 (length (data s)) ->
  exists a s', save s ids = Ok a /\ load a (seq 0 (length (data s))) = Ok (s', ids) /\
    forall k, get_by_id s' fst k = get_by_id s fst k.
Proof.
  intros H s ids R N T. destruct (load_same s ids _ R N T eq_refl) as (a & s' & Ea & El & D & E & Ti).
  exists a, s'. split; auto. split; auto. intros k. unfold get_by_id. rewrite E, D, Ti. reflexivity.
Qed.
Print Assumptions C124_ids_partial.
(** Finding: otherwise the ids stored with the maps mean other reflections after reading. *)
Theorem C124_ids_refuted : exists (s : pd (nat * nat)) a s', reachable s /\ numbered s /\ save s [0] = Ok a /\
  load a (seq 0 (length (data s))) = Ok (s', [0]) /\
  get_by_id s fst 0 = Ok (Some 2%Q, (0, 20)) /\ get_by_id s' fst 0 = Ok (Some 1%Q, (0, 10)).
Proof.
  exists (Pd [(Some 1%Q, (1, 10)); (Some 2%Q, (0, 20))] [1; 0] [1; 0] None None 2). eexists; eexists.
  split; [apply (r_new [(Some 2%Q, (0, 20)); (Some 1%Q, (1, 10))] [1; 0] None); [apply perm_swap|reflexivity]|].
  split. { intros [|[|[|r]]] x m E1 E2; cbn in *; try discriminate; injection E1 as <-; injection E2 as <-; reflexivity. }
  split; [reflexivity|]. split; [vm_compute; reflexivity|]. split; reflexivity.
Qed.
Print Assumptions C124_ids_refuted.
(** The maps read from the file are filtered, and so are those made because it is missing; those made on request of a clean run
    are not (finding). *)
Theorem C124_load : forall {M} filt (read generate : result M),
  (forall m, read = Ok m -> load_maps false filt read generate = Ok (filt m)) /\
  (forall m, read = Err OSError \/ read = Err AttributeError -> generate = Ok m -> load_maps false filt read generate = Ok (filt m)) /\
  (forall e, read = Err e -> e <> OSError -> e <> AttributeError -> load_maps false filt read generate = Err e).
Proof.
  intros M filt read generate. split; [intros m ->; reflexivity|]. split; [intros m [-> | ->] ->; reflexivity|].
  intros e -> N1 N2. destruct e; try congruence; reflexivity.
Qed.
Print Assumptions C124_load.
Theorem C124_clean_refuted : exists (filt : nat -> nat) m, filt m <> m /\ load_maps true filt (Err OSError) (Ok m) = Ok m /\ load_maps false filt (Err OSError) (Ok m) = Ok (filt m).
Proof. exists S, 0. repeat split. discriminate. Qed.
Print Assumptions C124_clean_refuted.
Example C124_ex : exists s : pd (nat * nat), reachable s /\ numbered s /\ tsort s = seq 0 (length (data s)) /\ get_by_id s fst 1 = Ok (Some 2%Q, (1, 20)).
Proof.
  exists (Pd [(Some 1%Q, (0, 10)); (Some 2%Q, (1, 20))] [0; 1] [0; 1] None None 2).
  split; [apply (r_new [(Some 1%Q, (0, 10)); (Some 2%Q, (1, 20))] [0; 1] None); [apply Permutation_refl|reflexivity]|].
  split. { intros [|[|[|r]]] x m E1 E2; cbn in *; try discriminate; injection E1 as <-; injection E2 as <-; reflexivity. }
  split; reflexivity.
Qed.

Local Open Scope R_scope.
(** ** C125 *)
(** A cleaned map holds the excess of each value over the median of the map: zero for what is not above it and for the NaNs. *)
Theorem C125_clean : forall m nums d, numbers_of m nums -> median_of nums d ->
  exists m', clean_map m = Ok m' /\
    Forall2 (fun c c' => exists y, c' = Some y /\ match c with Some x => (x <= d -> y = 0) /\ (d < x -> y = x - d) | None => y = 0 end) m m'.
Proof.
  intros m nums d Hn Hd. rewrite (numbers_det _ _ Hn) in Hd. eexists. split; [apply (clean_lemma m d Hd)|].
  clear. induction m as [|c t IH]; cbn [map]; constructor; auto. eexists; split; [reflexivity|]. destruct c as [x|]; [|reflexivity].
  split; intros L; [apply Rmax_right|apply Rmax_left]; lra.
Qed.
Print Assumptions C125_clean.
(** Every map with a number has exactly one median; a map of NaNs is left as it is. *)
Theorem C125_median : forall nums, nums <> [] -> exists d, median_of nums d /\ forall d', median_of nums d' -> d' = d.
Proof.
  intros nums N. destruct (median nums) as [d|] eqn:E; [|apply median_none in E; congruence].
  exists d. split; [apply median_lemma; auto|]. intros d' H. eapply median_unique; eauto. apply median_lemma; auto.
Qed.
Print Assumptions C125_median.
Theorem C125_all_nan : forall m, m <> [] -> (forall c, In c m -> c = None) -> clean_map m = Ok m.
Proof. exact clean_nan. Qed.
Print Assumptions C125_all_nan.
(** Filtering subtracts from every value the median of its column; NaNs stay. *)
Theorem C125_filter : forall n m i j row c col nums, rectangular n m -> nth_error m i = Some row -> nth_error row j = Some c ->
  the_column j m col -> numbers_of col nums ->
  exists row', nth_error (filter_map n m) i = Some row' /\ (c = None -> nth_error row' j = Some None) /\
  (forall x, c = Some x -> exists d, median_of nums d /\ nth_error row' j = Some (Some (x - d))).
Proof.
  intros n m i j row c col nums HR Hi Hj HC HN.
  assert (Lr : length row = n) by (unfold rectangular in HR; rewrite Forall_forall in HR; apply HR; eapply nth_error_In; eauto).
  assert (Ljn : (j < n)%nat) by (rewrite <- Lr; apply nth_error_Some; congruence).
  destruct (filter_cell n m i j row Ljn Hi) as (row' & E1 & E2). exists row'. split; auto.
  pose proof (nth_error_nth row j None Hj) as Ec. unfold cell in *. rewrite Ec in E2. rewrite (column_det _ _ _ HC) in HN. apply numbers_det in HN. unfold nanmedian in E2. rewrite <- HN in E2.
  split. { intros ->. rewrite E2. reflexivity. }
  intros x ->. assert (I : In x nums).
  { rewrite HN. apply numbers_in. unfold column. apply in_map_iff. exists row. split; [apply nth_error_nth; auto|eapply nth_error_In; eauto]. }
  destruct (median nums) as [d|] eqn:Em; [|apply median_none in Em; subst; rewrite Em in I; contradiction].
  exists d. split; [apply median_lemma; auto|exact E2].
Qed.
Print Assumptions C125_filter.
(** After filtering the median of every column is zero, and filtering again changes nothing. *)
Theorem C125_filter_zero : forall n m j col nums, (j < n)%nat -> the_column j (filter_map n m) col -> numbers_of col nums -> nums <> [] -> median_of nums 0.
Proof.
  intros n m j col nums Hj HC HN N. rewrite (column_det _ _ _ HC) in HN. apply numbers_det in HN. subst nums.
  pose proof (median_filtered n m j Hj) as M. unfold nanmedian in M at 1. destruct (nanmedian (column m j)) as [d|]; [apply median_lemma; auto|].
  apply median_none in M. congruence.
Qed.
Print Assumptions C125_filter_zero.
Theorem C125_filter_twice : forall n m, filter_map n (filter_map n m) = filter_map n m.
Proof. exact filter_twice. Qed.
Print Assumptions C125_filter_twice.
(** Nothing is done unless asked for; True means the median alone, a number of pixels the median and then the other filter. *)
Theorem C125_requested : forall n log_filter m,
  filter_requested n log_filter FOff m = m /\ filter_requested n log_filter FMedian m = filter_map n m /\
  forall w, w <> 0 -> filter_requested n log_filter (FLog w) m = log_filter w (filter_map n m).
Proof. intros. split; [reflexivity|]. split; [reflexivity|]. intros w H. unfold filter_requested. destruct (Req_EM_T w 0); [contradiction|reflexivity]. Qed.
Print Assumptions C125_requested.
Example C125_ex : median_of [3; 1; 2; 10] (5 / 2) /\ numbers_of [Some 3; None; Some 1; Some 2; Some 10] [3; 1; 2; 10] /\
  clean_map [Some 3; None; Some 1; Some 2; Some 10] = Ok [Some (1 / 2); Some 0; Some 0; Some 0; Some (15 / 2)].
Proof.
  assert (M : median_of [3; 1; 2; 10] (5 / 2)).
  { exists [1; 2; 3; 10]. split; [etransitivity; [apply perm_swap|]; apply perm_skip, perm_swap|]. split; [repeat constructor; lra|]. split; [discriminate|]. cbn. lra. }
  split; auto. split; [repeat constructor|]. rewrite (clean_lemma _ (5 / 2)); [|exact M]. cbn [map].
  rewrite (Rmax_left (3 - 5 / 2)), (Rmax_right (1 - 5 / 2)), (Rmax_right (2 - 5 / 2)), (Rmax_left (10 - 5 / 2)) by lra.
  replace (3 - 5 / 2) with (1 / 2) by lra. replace (10 - 5 / 2) with (15 / 2) by lra. reflexivity.
Qed.

(** ** C126 *)
(** The angles of the map are the centres of bins of equal width between the edges. *)
Definition uniform (edges centres : list R) (w : R) : Prop :=
  (2 <= length centres)%nat /\ length edges = S (length centres) /\
  (forall k, (k <= length centres)%nat -> nth k edges 0 = nth 0 edges 0 + INR k * w) /\
  (forall k, (k < length centres)%nat -> nth k centres 0 = nth 0 edges 0 + (INR k + 1 / 2) * w).
(** Every peak makes exactly one seed, with the reflection and two-theta of its ring, in order; its angles are those that the
    pixel position has on the grid: a peak at the centre of pixel (i, j) is at the angles of that pixel, and any other at a
    distance from there proportional to its distance in pixels; peaks that are NaN make none. *)
Theorem C126_seeds : forall {H} (omegas etas ome_edges eta_edges : list R) (rings : list (H * R)) coms dw de,
  uniform ome_edges omegas dw -> uniform eta_edges etas de ->
  exists ss, seeds omegas etas ome_edges eta_edges rings coms = Ok ss /\
    ss = flat_map (fun rc => map (fun p => Seed (fst (fst rc)) (snd (fst rc)) (nth 0 etas 0 + snd p * de) (nth 0 omegas 0 + fst p * dw))
                      (flat_map (fun p => match p with Some q => [q] | None => [] end) (snd rc))) (combine rings coms) /\
    forall i j, (i < length omegas)%nat -> (j < length etas)%nat ->
      nth 0 omegas 0 + INR i * dw = nth i omegas 0 /\ nth 0 etas 0 + INR j * de = nth j etas 0.
Proof.
  intros H omegas etas ome_edges eta_edges rings coms dw de (W1 & W2 & W3 & W4) (E1 & E2 & E3 & E4).
  assert (Gw : nth 1 omegas 0 - nth 0 omegas 0 = dw) by (rewrite !W4 by lia; cbn; lra).
  assert (Ge : nth 1 etas 0 - nth 0 etas 0 = de) by (rewrite !E4 by lia; cbn; lra).
  assert (Cw : nth 0 omegas 0 = nth 0 ome_edges 0 + 1 / 2 * dw) by (rewrite (W4 0%nat) by lia; cbn; lra).
  assert (Ce : nth 0 etas 0 = nth 0 eta_edges 0 + 1 / 2 * de) by (rewrite (E4 0%nat) by lia; cbn; lra).
  eexists. split; [|split; [reflexivity|]].
  - destruct omegas as [|w0 [|w1 ws]]; [cbn in W1; lia..|]. destruct etas as [|e0 [|e1 es]]; [cbn in E1; lia..|].
    destruct ome_edges as [|we wes]; [discriminate|]. destruct eta_edges as [|ee ees]; [discriminate|]. cbn [nth] in *.
    cbn [seeds]. f_equal. apply flat_map_ext. intros [r c]. cbn [fst snd]. induction c as [|[[i j]|] t IH]; [reflexivity| |exact IH].
    cbn [flat_map app map]. rewrite IH. rewrite Gw, Ge, Ce, Cw. cbn [fst snd]. f_equal. f_equal; lra.
  - intros i j Hi Hj. rewrite (W4 i Hi), (E4 j Hj), Cw, Ce. split; lra.
Qed.
Print Assumptions C126_seeds.
(** A peak is in the bin of the pixel nearest to it: the angle lies between the edges of pixel i exactly if the position is
    within half a pixel of i. *)
Theorem C126_bin : forall edges centres w i x, uniform edges centres w -> 0 < w -> (i < length centres)%nat ->
  (nth i edges 0 <= nth 0 centres 0 + x * w <= nth (S i) edges 0 <-> INR i - 1 / 2 <= x <= INR i + 1 / 2).
Proof.
  intros edges centres w i x (U1 & U2 & U3 & U4) Hw Hi. rewrite (U3 i), (U3 (S i)), (U4 0%nat) by lia. rewrite S_INR. cbn [INR].
  set (e := nth 0 edges 0). set (k := INR i). split; intros [A B]; split.
  - apply Rmult_le_reg_r with w; auto. lra.
  - apply Rmult_le_reg_r with w; auto. lra.
  - assert (C : (k - 1 / 2) * w <= x * w) by (apply Rmult_le_compat_r; lra). lra.
  - assert (C : x * w <= (k + 1 / 2) * w) by (apply Rmult_le_compat_r; lra). lra.
Qed.
Print Assumptions C126_bin.
Example C126_ex : uniform [0; 2; 4] [1; 3] 2 /\
  seeds [1; 3] [1; 3] [0; 2; 4] [0; 2; 4] [(tt, 1); (tt, 2)] [[None]; [Some (1, 1 / 2)]] = Ok [Seed tt 2 2 3].
Proof.
  split.
  - split; [cbn; lia|]. split; [reflexivity|]. split; intros [|[|[|k]]] Hk; cbn in *; try lia; lra.
  - cbn. do 2 f_equal. f_equal; lra.
Qed.
