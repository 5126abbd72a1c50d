(** C130-C132: fitting grains. *)
From Coq Require Import Reals List ZArith Permutation Lia Lra Bool.
From Verif Require Import Prelude Lin TensorModel RotModel RotSpec RotProofs2 FibModel EomModel EomProofs EomMore EmsProofs CluProofs XfModel XfSpec XfTrig XfMats XfOsc FgrModel FgrSpec FgrProofs FgrMore.
Import ListNotations.
Local Open Scope R_scope.
Local Notation length := List.length.

(** ** C130 *)
(** a finite chi squared is that of the parameters returned, with more than 12 reflections *)
Theorem C130_consistent : forall {P Tol Spots Culled Sim Refit} (pull : Tol * Tol * Tol -> P -> Spots) validate fit chi (sim : P -> Culled -> result Sim) refine
  tth eta ome (refit : option Refit) p q c x,
  fit_grain pull validate fit chi sim refine tth eta ome refit p = (q, Ok (c, Some x)) ->
  (exists culled, chi q culled = Ok x /\ exists p', fit p' culled = (q, Ok tt)) /\
  exists n t1 t2 t3 culled p', validate (pull (t1, t2, t3) p') = Ok (culled, n, c) /\ (12 < n)%nat /\
    nth_error tth (min (length tth) (min (length eta) (length ome)) - 1) = Some t1 /\ nth_error eta (min (length tth) (min (length eta) (length ome)) - 1) = Some t2 /\
    nth_error ome (min (length tth) (min (length eta) (length ome)) - 1) = Some t3.
Proof.
  intros * H. unfold fit_grain in H. destruct (tol_loop _ _ _ _ _ _ _) as [q0 [[c0|c0 x0 k0]|e]] eqn:L; [discriminate| |discriminate].
  apply loop_through in L. destruct L as [(_ & D & _)|(ts & [[t1 t2] t3] & Z & X & p' & n & V & N & F)]; [discriminate|].
  assert (C : c = c0 /\ (exists culled, chi q culled = Ok x /\ exists p', fit p' culled = (q, Ok tt))).
  { destruct refit as [r|]; [|injection H as <- <- <-; split; eauto].
    destruct (do s <- sim q0 k0; refine r k0 s) as [[k1 m]|]; [|discriminate]. destruct (Nat.leb m 12); [injection H as <- <- <-; split; eauto|].
    destruct (fit q0 k1) as [q1 [u|]] eqn:F1; [|discriminate]. destruct (chi q1 k1) as [x1|] eqn:X1; [|discriminate]. injection H as <- <- <-. destruct u. split; eauto. }
  destruct C as [-> C]. split; [exact C|]. exists n, t1, t2, t3, k0, p'. split; [exact V|]. split; [exact N|].
  assert (LZ : length (zip3 tth eta ome) = min (length tth) (min (length eta) (length ome))) by (unfold zip3; rewrite !combine_length; lia).
  assert (E : nth_error (zip3 tth eta ome) (length ts) = Some (t1, t2, t3)) by (rewrite Z, nth_error_app2, Nat.sub_diag; [reflexivity|lia]).
  assert (Lt : length ts = (min (length tth) (min (length eta) (length ome)) - 1)%nat) by (rewrite <- LZ, Z, app_length; cbn; lia).
  rewrite <- Lt. clear - E. revert tth eta ome E. induction (length ts) as [|j IH]; intros [|a tth] [|b eta] [|d ome] E; cbn [zip3 combine nth_error] in *; try discriminate.
  - injection E as <- <- <-. auto.
  - apply IH. exact E.
Qed.
Print Assumptions C130_consistent.
(** an infinite one means that at most 12 reflections were found with the parameters returned *)
Theorem C130_too_few : forall {P Tol Spots Culled Sim Refit} (pull : Tol * Tol * Tol -> P -> Spots) validate fit chi (sim : P -> Culled -> result Sim) refine
  tth eta ome (refit : option Refit) p q c,
  fit_grain pull validate fit chi sim refine tth eta ome refit p = (q, Ok (c, None)) ->
  exists t1 t2 t3 culled n, In t1 tth /\ In t2 eta /\ In t3 ome /\ validate (pull (t1, t2, t3) q) = Ok (culled, n, c) /\ (n <= 12)%nat.
Proof.
  intros * H. unfold fit_grain in H. destruct (tol_loop _ _ _ _ _ _ _) as [q0 [[c0|c0 x0 k0]|e]] eqn:L; [|exfalso|discriminate].
  - injection H as <- <-. apply loop_early in L. destruct L as ([[t1 t2] t3] & k & n & I & V). exists t1, t2, t3, k, n. unfold zip3 in I.
    pose proof (in_combine_r _ _ _ _ I) as I3. apply in_combine_l in I. pose proof (in_combine_r _ _ _ _ I) as I2. apply in_combine_l in I. auto.
  - destruct refit as [r|]; [|discriminate]. destruct (do s <- sim q0 k0; refine r k0 s) as [[k1 m]|]; [|discriminate]. destruct (Nat.leb m 12); [discriminate|].
    destruct (fit q0 k1) as [q1 [u|]]; [|discriminate]. destruct (chi q1 k1); discriminate.
Qed.
Print Assumptions C130_too_few.
(** round by round: with more than 12 reflections the next tolerances start from the parameters fitted, otherwise the fit ends with those there are *)
Theorem C130_rounds : forall {P Tol Spots Culled Sim Refit} (pull : Tol * Tol * Tol -> P -> Spots) validate fit chi (sim : P -> Culled -> result Sim) refine
  t1 t2 t3 tth eta ome (refit : option Refit) p culled n c, validate (pull (t1, t2, t3) p) = Ok (culled, n, c) ->
  ((n <= 12)%nat -> fit_grain pull validate fit chi sim refine (t1 :: tth) (t2 :: eta) (t3 :: ome) refit p = (p, Ok (c, None))) /\
  ((12 < n)%nat -> forall q x, fit p culled = (q, Ok tt) -> chi q culled = Ok x ->
     (tth <> [] -> eta <> [] -> ome <> [] ->
        fit_grain pull validate fit chi sim refine (t1 :: tth) (t2 :: eta) (t3 :: ome) refit p = fit_grain pull validate fit chi sim refine tth eta ome refit q) /\
     (tth = [] \/ eta = [] \/ ome = [] ->
        fit_grain pull validate fit chi sim refine (t1 :: tth) (t2 :: eta) (t3 :: ome) None p = (q, Ok (c, Some x)) /\
        forall r s culled' m, sim q culled = Ok s -> refine r culled s = Ok (culled', m) ->
          ((m <= 12)%nat -> fit_grain pull validate fit chi sim refine (t1 :: tth) (t2 :: eta) (t3 :: ome) (Some r) p = (q, Ok (c, Some x))) /\
          ((12 < m)%nat -> forall q' x', fit q culled' = (q', Ok tt) -> chi q' culled' = Ok x' ->
             fit_grain pull validate fit chi sim refine (t1 :: tth) (t2 :: eta) (t3 :: ome) (Some r) p = (q', Ok (c, Some x'))))).
Proof.
  intros * V. split.
  { intros N. unfold fit_grain, zip3. cbn [combine tol_loop]. rewrite V. apply Nat.leb_le in N. rewrite N. reflexivity. }
  intros N q x F X. apply Nat.leb_gt in N. split.
  - intros A B C. unfold fit_grain, zip3. cbn [combine tol_loop]. rewrite V, N, F, X.
    destruct tth as [|a tth]; [congruence|]. destruct eta as [|b eta]; [congruence|]. destruct ome as [|d ome]; [congruence|]. cbn [combine tol_loop]. reflexivity.
  - intros Z. assert (E : combine (combine tth eta) ome = []) by (destruct Z as [->|[->| ->]]; [reflexivity|destruct tth; reflexivity|destruct (combine tth eta); reflexivity]).
    split; [unfold fit_grain, zip3; cbn [combine tol_loop]; rewrite V, N, F, X, E; reflexivity|].
    intros r s culled' m Es Er. split.
    + intros M. apply Nat.leb_le in M. unfold fit_grain, zip3. cbn [combine tol_loop]. rewrite V, N, F, X, E. cbn [tol_loop]. rewrite Es. cbn [rbind]. rewrite Er, M. reflexivity.
    + intros M q' x' F' X'. apply Nat.leb_gt in M. unfold fit_grain, zip3. cbn [combine tol_loop]. rewrite V, N, F, X, E. cbn [tol_loop]. rewrite Es. cbn [rbind]. rewrite Er, M, F', X'. reflexivity.
Qed.
Print Assumptions C130_rounds.
(** with no tolerance there is no result *)
Theorem C130_no_tolerance : forall {P Tol Spots Culled Sim Refit} (pull : Tol * Tol * Tol -> P -> Spots) validate fit chi (sim : P -> Culled -> result Sim) refine
  tth eta ome (refit : option Refit) p, tth = [] \/ eta = [] \/ ome = [] -> fit_grain pull validate fit chi sim refine tth eta ome refit p = (p, Err LookupError).
Proof.
  intros * H. unfold fit_grain. replace (zip3 tth eta ome) with (@nil (Tol * Tol * Tol)); [reflexivity|].
  unfold zip3. destruct H as [->|[->| ->]]; [reflexivity|destruct tth; reflexivity|destruct (combine tth eta); reflexivity].
Qed.
Print Assumptions C130_no_tolerance.

Lemma choose_none {P} (t : list (Z * P)) : choose_rows t None = Ok t.
Proof. reflexivity. Qed.
Lemma outcome {P} (one : P -> P * result (R * option R)) t ids sched : in_table (length t) ids -> any_schedule (length ids) sched ->
  match (match sched with None => snd (serial one t ids) | Some s => parallel one t ids s end) with
  | Ok fs => Forall2 (good one t) ids fs
  | Err e => exists g, In g ids /\ bad one t g e
  end.
Proof.
  intros IT A. destruct sched as [s|]; [apply parallel_spec; auto|]. destruct (serial_spec one ids t IT) as (t' & r & -> & _ & _ & R). cbn [snd]. destruct r; [apply R|exact R].
Qed.
Lemma all_rows {P} (one : P -> P * result (R * option R)) t : numbered t -> forall l fs, (forall row, In row l -> exists j, nth_error t j = Some row) -> Forall2 (good one t) (map fst l) fs ->
  Forall2 (fun row f => f_id f = fst row /\ fit_of one (snd row) f) l fs.
Proof.
  intros N l. induction l as [|[k p] l IH]; intros fs I F; cbn [map] in F; inversion F as [|g f gs fs' G Fs]; subst; constructor.
  - destruct (I (k, p) (or_introl eq_refl)) as [j E]. pose proof (N _ _ _ E) as ->. destruct G as (i & k' & p' & A & B & C & D).
    assert (L : (j < length t)%nat) by (apply nth_error_Some; congruence). cbn [fst] in A. rewrite row_index_pos in A by exact L. injection A as <-.
    rewrite E in B. injection B as <- <-. split; [exact D|exact C].
  - apply IH; auto. intros. apply I. now right.
Qed.
(** grains numbered by row: every grain gets the result of fitting its own row alone, whatever the schedule, or an error of one of them is raised *)
Theorem C130_each : forall {P} (one : P -> P * result (R * option R)) t sched, numbered t -> any_schedule (length t) sched ->
  match snd (fit_grains one t None sched) with
  | Ok fs => Forall2 (fun row f => f_id f = fst row /\ fit_of one (snd row) f) t fs
  | Err e => exists row, In row t /\ snd (one (snd row)) = Err e
  end.
Proof.
  intros P one t sched N A. destruct (numbered_table t N) as [IT _]. pose proof (outcome one t (map fst t) sched IT ltac:(rewrite map_length; exact A)) as O.
  assert (E : snd (fit_grains one t None sched) = match sched with None => snd (serial one t (map fst t)) | Some s => parallel one t (map fst t) s end).
  { unfold fit_grains. cbn [choose_rows]. destruct sched; [reflexivity|]. destruct (serial one t (map fst t)); reflexivity. }
  rewrite E. destruct (match sched with None => _ | Some s => _ end) as [fs|e].
  - apply (all_rows one t N); [|exact O]. intros row I. apply In_nth_error in I. exact I.
  - destruct O as (g & Hg & i & k & p & _ & Ei & Eo). exists (k, p). split; [eapply nth_error_In; exact Ei|exact Eo].
Qed.
Print Assumptions C130_each.
(** so it succeeds exactly if every grain can be fitted, and all schedules give the same list *)
Theorem C130_schedules : forall {P} (one : P -> P * result (R * option R)) t s1 s2, numbered t -> any_schedule (length t) s1 -> any_schedule (length t) s2 ->
  ((exists fs, snd (fit_grains one t None s1) = Ok fs) <-> forall row, In row t -> exists cx, snd (one (snd row)) = Ok cx) /\
  (forall fs, snd (fit_grains one t None s1) = Ok fs -> snd (fit_grains one t None s2) = Ok fs).
Proof.
  intros P one t s1 s2 N A1 A2. pose proof (C130_each one t s1 N A1) as E1. pose proof (C130_each one t s2 N A2) as E2.
  assert (F : forall fs, Forall2 (fun row f => f_id f = fst row /\ fit_of one (snd row) f) t fs -> forall row, In row t -> exists cx, snd (one (snd row)) = Ok cx).
  { clear. intros fs F. induction F as [|row f l fs [_ H] F IH]; intros r I; [destruct I|]. destruct I as [<-|I]; [|auto]. unfold fit_of in H. rewrite H. eexists. reflexivity. }
  split; [split|].
  - intros [fs E]. rewrite E in E1. eauto.
  - intros H. destruct (snd (fit_grains one t None s1)) as [fs|e]; [eauto|]. destruct E1 as (row & I & B). destruct (H row I) as [cx C]. congruence.
  - intros fs E. rewrite E in E1. destruct (snd (fit_grains one t None s2)) as [fs2|e].
    + f_equal. clear - E1 E2. revert fs2 E2. induction E1 as [|row f l fs [I H] F IH]; intros fs2 E2; inversion E2 as [|? f2 ? fs2' [I2 H2] F2]; subst; [reflexivity|].
      f_equal; [|apply IH; exact F2]. unfold fit_of in *. rewrite H in H2. destruct f, f2. cbn in *. injection H2 as -> -> ->. congruence.
    + destruct E2 as (row & I & B). destruct (F fs E1 row I) as [cx C]. congruence.
Qed.
Print Assumptions C130_schedules.
(** the caller's table: in this process it is overwritten with the fitted parameters, with workers it is not *)
Theorem C130_table : forall {P} (one : P -> P * result (R * option R)) t, numbered t ->
  (forall s, fst (fit_grains one t None (Some s)) = t) /\ (forall ks sched, fst (fit_grains one t (Some ks) sched) = t) /\
  (forall fs, snd (fit_grains one t None None) = Ok fs -> fst (fit_grains one t None None) = map (fun row => (fst row, fst (one (snd row)))) t).
Proof.
  intros P one t N. split; [reflexivity|]. split.
  { intros ks sched. unfold fit_grains. destruct (choose_rows t (Some ks)); [|reflexivity]. destruct sched; [reflexivity|]. destruct (serial _ _ _); reflexivity. }
  intros fs H. destruct (numbered_table t N) as [IT EI]. unfold fit_grains in *. cbn [choose_rows] in *. destruct (serial_spec one (map fst t) t IT) as (t' & r & E & L & Same & R). rewrite E in *. cbn [fst snd] in *. subst r.
  destruct R as [_ R]. apply nth_error_ext. intros j. rewrite nth_error_map. destruct (nth_error t j) as [[k p]|] eqn:Ej.
  - cbn [option_map fst snd]. assert (Lj : (j < length t)%nat) by (apply nth_error_Some; congruence). pose proof (N _ _ _ Ej) as ->.
    apply (R (Z.of_nat j)); auto; [|apply row_index_pos; auto]. rewrite EI. apply in_map. apply in_seq. lia.
  - cbn [option_map]. apply nth_error_None in Ej. apply nth_error_None. lia.
Qed.
Print Assumptions C130_table.
(** choosing grains: the rows are chosen, but then looked up by their numbers again; any single grain but the first cannot be chosen *)
Theorem C130_chosen_refuted : forall {P} (one : P -> P * result (R * option R)) t k, numbered t -> (0 < k < Z.of_nat (length t))%Z ->
  fit_grains one t (Some [k]) None = (t, Err IndexError).
Proof.
  intros P one t k N K. replace k with (Z.of_nat (Z.to_nat k)) by lia. set (j := Z.to_nat k). assert (Lj : (0 < j < length t)%nat) by (unfold j; lia). clearbody j. clear k K.
  unfold fit_grains, choose_rows. cbn [map_res]. rewrite row_index_pos by lia. destruct (nth_error t j) as [[k p]|] eqn:E; [|apply nth_error_None in E; lia].
  cbn [rbind map]. pose proof (N _ _ _ E) as ->. cbn [fst]. unfold serial. cbn [run task length].
  unfold task. cbn [length]. unfold row_index. replace ((0 <=? Z.of_nat j) && (Z.of_nat j <? Z.of_nat 1))%Z with false by (symmetry; apply andb_false_iff; right; apply Z.ltb_ge; lia).
  replace ((- Z.of_nat 1 <=? Z.of_nat j) && (Z.of_nat j <? 0))%Z with false by (symmetry; apply andb_false_iff; right; apply Z.ltb_ge; lia). reflexivity.
Qed.
Print Assumptions C130_chosen_refuted.
(** the first grains can *)
Theorem C130_chosen_partial : forall {P} (one : P -> P * result (R * option R)) t m sched, numbered t -> (m <= length t)%nat -> any_schedule m sched ->
  match snd (fit_grains one t (Some (map Z.of_nat (seq 0 m))) sched) with
  | Ok fs => Forall2 (fun row f => f_id f = fst row /\ fit_of one (snd row) f) (firstn m t) fs
  | Err e => exists row, In row (firstn m t) /\ snd (one (snd row)) = Err e
  end.
Proof.
  intros P one t m sched N Lm A.
  assert (C : choose_rows t (Some (map Z.of_nat (seq 0 m))) = Ok (firstn m t)).
  { cbn [choose_rows]. assert (G : forall n a, (a + n <= length t)%nat -> map_res (fun k => match row_index (length t) k with Some i => match nth_error t i with Some r => Ok r | None => Err IndexError end | None => Err IndexError end) (map Z.of_nat (seq a n)) = Ok (firstn n (skipn a t))).
    { induction n as [|n IH]; intros a La; [reflexivity|]. cbn [seq map map_res]. rewrite row_index_pos by lia. destruct (nth_error t a) as [r|] eqn:E; [|apply nth_error_None in E; lia].
      cbn [rbind]. rewrite IH by lia. cbn [rbind]. f_equal. clear - E. revert t E. induction a as [|a IHa]; intros [|x t] E; cbn [nth_error skipn] in *; try discriminate; [injection E as ->; reflexivity|]. apply IHa. exact E. }
    rewrite (G m 0%nat) by lia. reflexivity. }
  assert (N' : numbered (firstn m t)).
  { intros j k p E. apply (N j k p). assert (Lj : (j < m)%nat) by (assert (j < length (firstn m t))%nat by (apply nth_error_Some; congruence); rewrite firstn_length in *; lia).
    rewrite <- (firstn_skipn m t), nth_error_app1; [exact E|]. rewrite firstn_length. lia. }
  assert (LL : length (firstn m t) = m) by (rewrite firstn_length; lia).
  pose proof (C130_each one (firstn m t) sched N' ltac:(rewrite LL; exact A)) as H.
  replace (snd (fit_grains one t (Some (map Z.of_nat (seq 0 m))) sched)) with (snd (fit_grains one (firstn m t) None sched)); [exact H|].
  unfold fit_grains. rewrite C. cbn [choose_rows]. destruct sched; [reflexivity|]. destruct (serial _ _ _); reflexivity.
Qed.
Print Assumptions C130_chosen_partial.
(** other numbers: the result under a number is that of the row with that index, not of the row with that number *)
Theorem C130_numbers_refuted : forall {P} (one : P -> P * result (R * option R)) p0 p1 q0 q1 cx0 cx1, one p0 = (q0, Ok cx0) -> one p1 = (q1, Ok cx1) ->
  snd (fit_grains one [(1%Z, p0); (0%Z, p1)] None None) = Ok [Fitted 1 (fst cx1) (snd cx1) q1; Fitted 0 (fst cx0) (snd cx0) q0].
Proof.
  intros * E0 E1. unfold fit_grains, choose_rows, serial. cbn [map fst]. cbn [run].
  unfold task at 1. change (row_index (length [(1%Z, p0); (0%Z, p1)]) 1) with (Some 1%nat). cbn [nth_error]. rewrite E1. cbn [rbind set_nth].
  unfold task at 1. change (row_index (length [(1%Z, p0); (0%Z, q1)]) 0) with (Some 0%nat). cbn [nth_error]. rewrite E0. cbn [rbind set_nth]. reflexivity.
Qed.
Print Assumptions C130_numbers_refuted.
(** a number that occurs twice: the schedules differ *)
Theorem C130_twice_refuted : exists (one : nat -> nat * result (R * option R)) t s, any_schedule (length t) (Some s) /\
  exists a b, snd (fit_grains one t None None) = Ok a /\ snd (fit_grains one t None (Some s)) = Ok b /\ map f_params a = [2; 2]%nat /\ map f_params b = [1; 1]%nat.
Proof.
  exists (fun n => (S n, Ok (1, None))), [(0%Z, 0%nat); (0%Z, 7%nat)], [[[0%nat]]; [[1%nat]]]. split; [unfold any_schedule, shares_out; cbn; apply Permutation_refl|].
  do 2 eexists. split; [reflexivity|]. split; [reflexivity|]. split; reflexivity.
Qed.
Print Assumptions C130_twice_refuted.
Example C130_ex : let one := fun n : nat => (S n, @Ok (R * option R) (1, Some 0)) in let t := [(0%Z, 5%nat); (1%Z, 6%nat); (2%Z, 7%nat)] in
  numbered t /\ any_schedule (length t) (Some [[[2%nat]]; [[0%nat]; [1%nat]]]) /\
  snd (fit_grains one t None (Some [[[2%nat]]; [[0%nat]; [1%nat]]])) = Ok [Fitted 0 1 (Some 0) 6%nat; Fitted 1 1 (Some 0) 7%nat; Fitted 2 1 (Some 0) 8%nat].
Proof.
  cbv zeta. split; [|split; [|reflexivity]].
  - intros j k p E. destruct j as [|[|[|j]]]; cbn in E; try (injection E as <- _; reflexivity). destruct j; discriminate.
  - cbn. apply Permutation_sym. apply (Permutation_cons_app [0%nat; 1%nat] [] 2%nat) || apply (perm_trans (perm_skip 0%nat (perm_swap 2%nat 1%nat [])) (perm_swap 2%nat 0%nat [1%nat])).
Qed.

(** ** C131 *)
Lemma is_valid_iff s : is_valid s = true <-> found s.
Proof. unfold is_valid, found. apply Z.leb_le. Qed.
Lemma usable_iff level s : (is_valid s && unsaturated level s)%bool = true <-> found s /\ below_saturation level s.
Proof.
  rewrite andb_true_iff, is_valid_iff. unfold unsaturated, below_saturation. split; intros [A B]; (split; [exact A|]); destruct level as [l|]; auto; apply is_valid_iff in A; rewrite A in *.
  - destruct (sp_max s) as [m|]; [|discriminate]. apply rlt_iff in B. eauto.
  - destruct B as (m & -> & L). now apply rlt_iff.
Qed.
(** the reflections kept, their number and the completeness *)
Theorem C131_valid : forall ps culled n c, determine_valid ps = Ok (culled, n, c) ->
  Forall2 (fun p l => kept (fun s => found s /\ below_saturation (ps_level p) s) (ps_spots p) l) ps culled /\
  exists founds, kept found (flat_map ps_spots ps) founds /\ n = length founds /\ c = INR n / INR (length (flat_map ps_spots ps)) /\ 0 <= c <= 1.
Proof.
  intros ps culled n c H. unfold determine_valid in H. destruct (map_res cull_panel ps) as [k|] eqn:E; [|discriminate]. cbn [rbind] in H.
  assert (T : fold_right (fun p n => (length (ps_spots p) + n)%nat) 0%nat ps = length (flat_map ps_spots ps)) by (clear; induction ps as [|p t IH]; cbn [fold_right flat_map]; [reflexivity|]; rewrite app_length, IH; reflexivity).
  assert (V : fold_right (fun p n => (length (filter is_valid (ps_spots p)) + n)%nat) 0%nat ps = length (filter is_valid (flat_map ps_spots ps))).
  { clear. induction ps as [|p t IH]; cbn [fold_right flat_map]; [reflexivity|]. rewrite filter_app, app_length, IH. reflexivity. }
  rewrite T, V in H. destruct (length (flat_map ps_spots ps)) as [|m] eqn:L; [discriminate|]. injection H as -> <- <-. split.
  - apply map_res_inv in E. clear - E. induction E as [|p l ps ls E F IH]; constructor; auto. unfold cull_panel in E. destruct (ps_overlaps p) as [[|o]|]; try discriminate; injection E as <-; apply kept_filter; intros s; apply usable_iff.
  - exists (filter is_valid (flat_map ps_spots ps)). split; [apply kept_filter; intros; apply is_valid_iff|]. split; [reflexivity|]. split; [reflexivity|].
    assert (Lt : (length (filter is_valid (flat_map ps_spots ps)) <= S m)%nat) by (rewrite <- L; apply filter_le). apply le_INR in Lt. pose proof (pos_INR (length (filter is_valid (flat_map ps_spots ps)))) as P0.
    assert (0 < INR (S m)) by (apply lt_0_INR; lia). split; [apply Rmult_le_pos; [lra|left; now apply Rinv_0_lt_compat]|]. apply (Rmult_le_reg_r (INR (S m))); [lra|]. unfold Rdiv. rewrite Rmult_assoc, Rinv_l by lra. lra.
Qed.
Print Assumptions C131_valid.
(** without overlap tables it fails only if there is no spot at all *)
Theorem C131_fails : forall ps, (forall p, In p ps -> ps_overlaps p = None \/ ps_overlaps p = Some 0%nat) ->
  ((forall p, In p ps -> ps_spots p = []) -> determine_valid ps = Err RuntimeError) /\ ((exists p, In p ps /\ ps_spots p <> []) -> exists r, determine_valid ps = Ok r).
Proof.
  intros ps O. assert (E : exists k, map_res cull_panel ps = Ok k).
  { destruct (map_res_cases cull_panel ps) as [(k & -> & _)|(e & p & _ & I & Ee)]; [eauto|]. exfalso. unfold cull_panel in Ee. destruct (O p I) as [->| ->] in Ee; discriminate. }
  destruct E as [k E]. unfold determine_valid. rewrite E. cbn [rbind]. split.
  - intros H. replace (fold_right (fun p n => (length (ps_spots p) + n)%nat) 0%nat ps) with 0%nat; [reflexivity|]. clear - H. induction ps as [|p t IH]; cbn [fold_right]; [reflexivity|].
    rewrite (H p) by now left. rewrite <- IH; [reflexivity|]. intros; apply H; now right.
  - intros (p & I & N). destruct (fold_right (fun p n => (length (ps_spots p) + n)%nat) 0%nat ps) eqn:F; [exfalso|eauto].
    clear - I N F. induction ps as [|p' t IH]; [destruct I|]. cbn [fold_right] in F. destruct I as [->|I]; [destruct (ps_spots p); [congruence|cbn in F; lia]|]. apply IH; auto. lia.
Qed.
Print Assumptions C131_fails.
(** an overlap file with a table in it: the fit of every grain fails *)
Theorem C131_overlap_refuted : forall ps, (exists p k, In p ps /\ ps_overlaps p = Some (S k)) -> determine_valid ps = Err LookupError.
Proof.
  intros ps (p & k & I & O). unfold determine_valid. destruct (map_res_cases cull_panel ps) as [(l & _ & F)|(e & p' & E & I' & Ee)].
  - exfalso. clear - I O F. induction F as [|x y l l' E F IH]; [destruct I|]. destruct I as [->|I]; [|auto]. unfold cull_panel in E. rewrite O in E. discriminate.
  - rewrite E. cbn [rbind]. unfold cull_panel in Ee. destruct (ps_overlaps p') as [[|?]|]; try discriminate. injection Ee as <-. reflexivity.
Qed.
Print Assumptions C131_overlap_refuted.
(** the limit of 12 looks at all spots found: with 13 saturated ones there is nothing to fit, and the fit raises *)
Theorem C131_saturated_refuted : (exists ps culled n c, determine_valid ps = Ok (culled, n, c) /\ (12 < n)%nat /\ concat culled = []) /\
  forall {H} period (ps : list (@panel H)), (forall p, In p ps -> pa_obs p = []) -> residuals period ps = Err ValueError.
Proof.
  split.
  - exists [PanelSpots (Some 100) (repeat (Spot 0 (Some 200)) 13) None]. do 3 eexists. split; [unfold determine_valid; cbn [map_res rbind cull_panel ps_overlaps]; reflexivity|]. split; [cbn; lia|].
    cbn [ps_level ps_spots repeat]. assert (U : (is_valid (Spot 0 (Some 200)) && unsaturated (Some 100) (Spot 0 (Some 200)))%bool = false).
    { cbn. unfold rlt. destruct (Rlt_dec 200 100); [lra|reflexivity]. }
    cbn [filter]. rewrite !U. reflexivity.
  - intros H period ps N. unfold residuals. replace (filter _ ps) with (@nil (@panel H)); [reflexivity|]. induction ps as [|p t IH]; [reflexivity|]. cbn [filter]. rewrite (N p) by now left. cbn [length Nat.eqb negb]. apply IH. intros; apply N; now right.
Qed.
Print Assumptions C131_saturated_refuted.
(** ** the refined list *)
Lemma circle_distance_unique p a b d d' : circle_distance p a b d -> circle_distance p a b d' -> d = d'.
Proof. intros [[k K] M] [[k' K'] M']. apply Rle_antisym; [rewrite K'; apply M|rewrite K; apply M']. Qed.
Lemma near_iff xt yt ot m c : Rabs (c_ome m - c_ome c) <= 2 * PI -> exists b, near xt yt ot m c = Ok b /\
  (b = true <-> Rabs (c_x m - c_x c) <= xt /\ Rabs (c_y m - c_y c) <= yt /\ exists d, circle_distance (2 * PI) (c_ome m) (c_ome c) d /\ d * (180 / PI) <= ot).
Proof.
  intros A. destruct (diff_lemma _ _ ARad _ two_pi A) as (d & E & D). unfold near. rewrite E. cbn [rbind]. eexists. split; [reflexivity|]. rewrite !andb_true_iff, !rle_iff. split.
  - intros [[X Y] Z]. eauto.
  - intros (X & Y & d' & D' & Z). rewrite (circle_distance_unique _ _ _ _ _ D D'). auto.
Qed.
Lemma keep_near_lemma xt yt ot l : (forall q, In q l -> Rabs (c_ome (fst q) - c_ome (snd q)) <= 2 * PI) -> exists k, keep_near xt yt ot l = Ok k /\
  kept (fun q => Rabs (c_x (fst q) - c_x (snd q)) <= xt /\ Rabs (c_y (fst q) - c_y (snd q)) <= yt /\ exists d, circle_distance (2 * PI) (c_ome (fst q)) (c_ome (snd q)) d /\ d * (180 / PI) <= ot) l k.
Proof.
  induction l as [|[m c] t IH]; intros H; [exists []; split; [reflexivity|constructor]|]. destruct IH as (k & E & K); [intros; apply H; now right|].
  destruct (near_iff xt yt ot m c (H (m, c) (or_introl eq_refl))) as (b & Eb & Hb). cbn [keep_near]. rewrite Eb. cbn [rbind]. rewrite E. cbn [rbind]. eexists. split; [reflexivity|].
  destruct b; [apply kept_yes; auto; cbn [fst snd]; now apply Hb|]. apply kept_no; auto. cbn [fst snd]. intros Z. apply Hb in Z. discriminate.
Qed.
(** exactly the spots within the tolerances stay, in order, for omegas that differ by at most one turn *)
Theorem C131_refined_partial : forall tol_xy tol_ome w0 w1 ps, (forall p q, In p ps -> In q (pp_pairs p) -> Rabs (c_ome (fst q) - c_ome (snd q)) <= 2 * PI) ->
  exists kepts n, refine_panels tol_xy tol_ome (w0, w1) ps = Ok (kepts, n) /\ n = length (concat kepts) /\
  Forall2 (fun p l => kept (within tol_xy tol_ome (pp_col p) (pp_row p) (w1 - w0)) (pp_pairs p) l) ps kepts.
Proof.
  intros * H. unfold refine_panels. cbn [fst snd].
  destruct (map_res_forall2 (fun p => keep_near (tol_xy * pp_col p) (tol_xy * pp_row p) (tol_ome * (w1 - w0)) (pp_pairs p)) (fun p l => kept (within tol_xy tol_ome (pp_col p) (pp_row p) (w1 - w0)) (pp_pairs p) l) ps) as (ks & E & F).
  { intros p I. apply keep_near_lemma. intros. eapply H; eauto. }
  rewrite E. cbn [rbind]. do 2 eexists. split; [reflexivity|]. split; [|exact F]. clear. induction ks as [|k t IH]; [reflexivity|]. cbn [fold_right concat]. rewrite app_length, IH. reflexivity.
Qed.
Print Assumptions C131_refined_partial.
(** a scan towards smaller omegas: nothing stays *)
Theorem C131_backwards_refuted : forall tol_xy tol_ome w0 w1 ps kepts n, 0 < tol_ome -> w1 < w0 ->
  (forall p q, In p ps -> In q (pp_pairs p) -> Rabs (c_ome (fst q) - c_ome (snd q)) <= 2 * PI) -> refine_panels tol_xy tol_ome (w0, w1) ps = Ok (kepts, n) -> n = 0%nat.
Proof.
  intros * T W H E. destruct (C131_refined_partial tol_xy tol_ome w0 w1 ps H) as (k & m & E' & -> & F). rewrite E in E'. injection E' as -> ->.
  assert (Z : concat k = []); [|rewrite Z; reflexivity]. clear - F T W. induction F as [|p l ps ls K F IH]; [reflexivity|]. cbn [concat]. rewrite IH, app_nil_r. clear IH F.
  induction K as [|q l k Q K IH|q l k Q K IH]; auto. exfalso. destruct Q as (_ & _ & d & [[j Dj] _] & L). assert (0 <= d) by (rewrite Dj; apply Rabs_pos). pose proof PI_RGT_0.
  assert (0 <= d * (180 / PI)) by (apply Rmult_le_pos; [lra|apply Rmult_le_pos; [lra|left; now apply Rinv_0_lt_compat]]). nra.
Qed.
Print Assumptions C131_backwards_refuted.
(** the measured positions are compared without undoing the distortion: a spot that the fit meets exactly is dropped where the distortion is more than the tolerance *)
Theorem C131_distortion_refuted : forall (unwarp : R * R -> R * R) x y w tol_xy tol_ome col row w0 w1, tol_xy * col < Rabs (x - fst (unwarp (x, y))) ->
  refine_panels tol_xy tol_ome (w0, w1) [PanelPairs col row [(Xyo x y w, Xyo (fst (unwarp (x, y))) (snd (unwarp (x, y))) w)]] = Ok ([[]], 0%nat).
Proof.
  intros * H. destruct (near_iff (tol_xy * col) (tol_xy * row) (tol_ome * (w1 - w0)) (Xyo x y w) (Xyo (fst (unwarp (x, y))) (snd (unwarp (x, y))) w)) as (b & E & B).
  { cbn [c_ome]. rewrite Rminus_diag_eq, Rabs_R0 by reflexivity. pose proof PI_RGT_0. lra. }
  unfold refine_panels. cbn [map_res pp_col pp_row pp_pairs keep_near fst snd]. rewrite E. cbn [rbind]. destruct b; [|reflexivity].
  exfalso. destruct (proj1 B eq_refl) as (X & _). cbn [c_x] in X. lra.
Qed.
Print Assumptions C131_distortion_refuted.
Example C131_ex : determine_valid [PanelSpots (Some 100) [Spot 3 (Some 50); Spot (-1) None; Spot 4 (Some 150); Spot 5 (Some 60)] None] = Ok ([[Spot 3 (Some 50); Spot 5 (Some 60)]], 3%nat, INR 3 / INR 4) /\
  (exists l, refine_panels 2 1 (0, 1) [PanelPairs 1 1 [(Xyo 0 0 0, Xyo 1 1 0); (Xyo 0 0 0, Xyo 3 0 0)]] = Ok ([l], 1%nat)).
Proof.
  split.
  - unfold determine_valid. cbn [map_res rbind cull_panel ps_overlaps ps_spots ps_level filter is_valid sp_id Z.leb Z.compare andb unsaturated sp_max].
    cbn. unfold rlt. destruct (Rlt_dec 50 100); [|lra]. destruct (Rlt_dec 150 100); [lra|]. destruct (Rlt_dec 60 100); [|lra]. reflexivity.
  - exists [(Xyo 0 0 0, Xyo 1 1 0)]. unfold refine_panels. cbn [map_res pp_col pp_row pp_pairs keep_near fst snd]. unfold near. cbn [c_x c_y c_ome angularDifference period_of rbind]. pose proof PI_RGT_0.
    replace (Rabs (0 - 0)) with 0 by (rewrite Rminus_0_r, Rabs_R0; reflexivity). rewrite Rmin_left by lra. rewrite !Rabs_left by lra. unfold rle.
    destruct (Rle_dec (- (0 - 1)) (2 * 1)); [|lra]. destruct (Rle_dec (0 * (180 / PI)) (1 * (1 - 0))) as [|Z]; [|exfalso; apply Z; lra].
    destruct (Rle_dec (- (0 - 3)) (2 * 1)); [lra|]. reflexivity.
Qed.

(** ** C132 *)
(** with an omega period the nearer of the two solutions is taken, in the period; a reflection without solutions is an error *)
Theorem C132_nearer : forall lo l, ((forall x, In x l -> snd x <> None) ->
    exists ws, match_omegas (Some (lo, lo + 2 * PI)) l = Ok ws /\ Forall2 (fun x w => exists a b, snd x = Some (a, b) /\ lo <= w <= lo + 2 * PI /\ nearer_of (fst x) a b w) l ws) /\
  (forall period, (exists x, In x l /\ snd x = None) -> match_omegas period l = Err RuntimeError).
Proof. intros. split; [apply match_omegas_period|intros; now apply match_omegas_none]. Qed.
Print Assumptions C132_nearer.
(** without one (as in the fit itself), provided that both are within one turn of the measured omega *)
Theorem C132_nearer_partial : forall l, (forall x, In x l -> exists a b, snd x = Some (a, b) /\ Rabs (fst x - a) <= 2 * PI /\ Rabs (fst x - b) <= 2 * PI) ->
  exists ws, match_omegas None l = Ok ws /\ Forall2 (fun x w => exists a b, snd x = Some (a, b) /\ (w = a \/ w = b) /\ nearer_of (fst x) a b w) l ws.
Proof.
  intros l H. unfold match_omegas. rewrite all_solved by (intros x I; destruct (H x I) as (a & b & -> & _); discriminate). apply map_res_forall2. intros x I.
  destruct (H x I) as (a & b & E & A & B). rewrite E. cbn [to_period rbind]. destruct (match_one_lemma _ _ _ A B) as (w & Ew & C & NA & NB). exists w. split; [exact Ew|]. exists a, b. split; [reflexivity|]. split; [exact C|].
  split; [|auto]. destruct C as [->| ->]; [left|right]; apply same_angle_refl.
Qed.
Print Assumptions C132_nearer_partial.

(** otherwise not: reflection (-3, 0, -4) has the omegas -156.9 and 83.1 degrees; measured at 443.1 degrees, in a scan from 90 to 450 degrees, it is given the other one *)
Theorem C132_nearer_refuted : exists p q m, oscill_angles_of_hkls [V3 (-3) 0 (-4)] 0 mI mI (/ 5) None (V3 0 0 (-1)) (V3 1 0 0) = [Solutions p q] /\
  same_angle (2 * PI) (o_ome q) m /\ PI / 2 <= m <= PI / 2 + 2 * PI /\ match_omegas None [(m, Some (o_ome p, o_ome q))] = Ok [o_ome p] /\ ~ same_angle (2 * PI) (o_ome p) m.
Proof.
  assert (G : mv (tensor_of v_inv_default) (mv mI (mv mI (V3 (-3) 0 (-4)))) = V3 (-3) 0 (-4)) by now rewrite tensor_default, !mv_I.
  assert (N5 : norm (V3 (-3) 0 (-4)) = 5) by (unfold norm; lin_unfold; replace (-3 * -3 + 0 * 0 + -4 * -4) with (5 * 5) by ring; apply sqrt_square; lra).
  assert (Ux : unit (V3 0 0 (-1)) /\ unit (V3 1 0 0)) by (unfold unit; lin_unfold; split; ring). destruct Ux as [U U'].
  pose proof epsf_small as ES. set (phi := atan2 (4 / 5) (- (3 / 5))).
  assert (R : exists p q, oscill_angles_of_hkls [V3 (-3) 0 (-4)] 0 mI mI (/ 5) None (V3 0 0 (-1)) (V3 1 0 0) = [Solutions p q] /\ o_ome p = - (PI / 6) - phi /\ o_ome q = PI + PI / 6 - phi).
  { cbn [oscill_angles_of_hkls map]. unfold oscill_angles_of_hkl. rewrite osc_g; [|apply rot_I|rewrite G, N5; lra]. rewrite G, N5, (guarded_big _ (unit_big _ U)), (guarded_big _ (unit_big _ U')), (direction_of_unit _ U), (direction_of_unit _ U').
    unfold direction. rewrite N5. cbv zeta. unfold vscale. cbn [vx vy vz]. rewrite cos_0, sin_0.
    match goal with |- context [Req_EM_T (sqrt ?a) 0] => replace a with 1 by field end. rewrite sqrt_1. destruct (Req_EM_T 1 0); [lra|].
    match goal with |- context [Rlt_dec 1 (Rabs ?a)] => replace a with (- (1 / 2)) by field end. destruct (Rlt_dec 1 (Rabs (- (1 / 2)))) as [Z|_]; [exfalso; rewrite Rabs_left in Z; lra|].
    match goal with |- context [atan2 ?b ?a] => replace (atan2 b a) with phi by (unfold phi; f_equal; field) end.
    assert (A : asin (- (1 / 2)) = - (PI / 6)) by (rewrite <- sin_PI6, <- sin_neg; apply asin_sin; pose proof PI_RGT_0; lra). rewrite A.
    match goal with |- context [if ?c then Solutions _ _ else _] => destruct c end; do 2 eexists; (split; [reflexivity|]); cbn [o_ome]; split; ring. }
  destruct R as (p & q & E & Ep & Eq). pose proof PI_RGT_0 as PP.
  assert (B : 2 * (PI / 3) <= phi <= PI).
  { assert (Hp : (- (3 / 5) <> 0 \/ 4 / 5 <> 0)) by (left; lra). destruct (atan2_polar (- (3 / 5)) (4 / 5) Hp) as [C S0]. fold phi in C, S0.
    replace (- (3 / 5) * - (3 / 5) + 4 / 5 * (4 / 5)) with 1 in C, S0 by field. rewrite sqrt_1 in C, S0. destruct (atan2_range (- (3 / 5)) (4 / 5)) as [L1 L2]. fold phi in L1, L2. split; [|exact L2].
    destruct (Rle_dec 0 phi) as [P0|P0]; [|exfalso; assert (sin phi < 0) by (apply sin_lt_0_var; lra); lra].
    destruct (Rle_dec (2 * (PI / 3)) phi) as [|Z]; auto. exfalso. assert (cos (2 * (PI / 3)) < cos phi) by (apply cos_decreasing_1; lra). rewrite cos_2PI3 in H. lra. }
  exists p, q, (o_ome q + 2 * PI). split; [exact E|]. split; [exists 1%Z; ring|]. rewrite Ep, Eq. split; [lra|]. split.
  - unfold match_omegas. cbn [existsb map_res fst snd to_period rbind orb]. unfold match_one. cbn [angularDifference period_of rbind]. rewrite !(Rabs_left (_ - _)) by lra. rewrite !Rmin_right by lra. unfold rlt.
    match goal with |- context [Rlt_dec ?a ?b] => destruct (Rlt_dec a b) as [Z|_]; [exfalso; lra|reflexivity] end.
  - intros [k K]. assert (Z : 3 * IZR k = 5) by (apply (Rmult_eq_reg_r PI); lra). replace (3 * IZR k) with (IZR (3 * k)) in Z by (rewrite mult_IZR; reflexivity). apply eq_IZR in Z. lia.
Qed.
Print Assumptions C132_nearer_refuted.
(** the residuals: three for every reflection, panel by panel, calculated position less measured position without its distortion, and the distance of the omegas *)
Theorem C132_residuals : forall {H} lo (ps : list (@panel H)), (exists p, In p ps /\ pa_obs p <> []) ->
  (forall p h m, In p ps -> In (h, m) (pa_obs p) -> pa_omes p h <> None /\ lo <= c_ome m <= lo + 2 * PI) -> (forall p h m w, In p ps -> In (h, m) (pa_obs p) -> pa_meets p h w <> None) ->
  exists ls, residuals (Some (lo, lo + 2 * PI)) ps = Ok (concat ls) /\
  Forall2 (fun o l => residual_of (fst o) (fst (snd o)) (snd (snd o)) l) (flat_map (fun p => map (fun o => (p, o)) (pa_obs p)) ps) ls.
Proof. intros H lo ps. exact (residuals_lemma lo ps). Qed.
Print Assumptions C132_residuals.
(** a reflection that does not meet its panel: an error only on the last panel that has reflections; on others chi squared is NaN *)
Theorem C132_misses : forall {H} lo (before after : list (@panel H)) p, (forall p', In p' (before ++ p :: after) -> forall h m, In (h, m) (pa_obs p') -> pa_omes p' h <> None) ->
  (forall p', In p' after -> pa_obs p' = []) -> (exists h m, In (h, m) (pa_obs p) /\ forall w, pa_meets p h w = None) ->
  residuals (Some (lo, lo + 2 * PI)) (before ++ p :: after) = Err RuntimeError.
Proof.
  intros H lo before after p O A (h & m & I & M).
  assert (C : forall p', In p' (before ++ p :: after) -> exists c, panel_calc (Some (lo, lo + 2 * PI)) p' = Ok c /\ Forall2 (fun o q => snd q = pa_meets p' (fst o) (snd (fst q))) (pa_obs p') c).
  { intros p' I'. unfold panel_calc. destruct (match_omegas_period lo (map (fun o => (c_ome (snd o), pa_omes p' (fst o))) (pa_obs p'))) as (ws & E & F).
    { intros x Ix. apply in_map_iff in Ix. destruct Ix as ([h' m'] & <- & Ix). cbn [fst snd]. exact (O p' I' h' m' Ix). }
    rewrite E. cbn [rbind]. eexists. split; [reflexivity|]. apply F2_length in F. rewrite map_length in F. clear - F. revert ws F. induction (pa_obs p') as [|[h m] t IH]; intros [|w ws] F; try discriminate; cbn [combine map]; constructor; [reflexivity|]. apply IH. cbn in F. lia. }
  unfold residuals. rewrite filter_app. cbn [filter]. replace (length (pa_obs p) =? 0)%nat with false by (destruct (pa_obs p); [destruct I|reflexivity]). cbn [negb].
  replace (filter _ after) with (@nil (@panel H)).
  2:{ clear - A. induction after as [|x t IH]; [reflexivity|]. cbn [filter]. rewrite (A x) by now left. cbn. apply IH. intros; apply A; now right. }
  destruct (map_res_cases (panel_calc (Some (lo, lo + 2 * PI))) (filter (fun p0 => negb (length (pa_obs p0) =? 0)%nat) before)) as [(cs & E & _)|(e & p' & _ & I' & Ee)].
  2:{ exfalso. apply filter_In in I'. destruct (C p') as (c & Ec & _); [apply in_or_app; now left|]. congruence. }
  destruct (C p) as (c & Ec & Fc); [apply in_or_app; right; now left|].
  rewrite (map_res_app _ _ [p] cs [c] E); [|cbn [map_res]; rewrite Ec; reflexivity]. cbn [rbind]. rewrite rev_app_distr. cbn [rev app].
  replace (existsb (fun q => is_none (snd q)) c) with true; [reflexivity|]. symmetry. apply existsb_exists. clear - Fc I M. induction Fc as [|o q os qs E F IH]; [destruct I|].
  destruct I as [->|I]; [exists q; split; [now left|]; cbn [fst] in E; rewrite E, M; reflexivity|]. destruct (IH I) as (q' & Iq & Hq). exists q'. split; [now right|exact Hq].
Qed.
Print Assumptions C132_misses.
Theorem C132_misses_refuted : exists ps : list (@panel Datatypes.unit), residuals (Some (0, 0 + 2 * PI)) ps = Ok [None; None; Some 0; Some 0; Some 0; Some 0] /\
  chisq 12 [None; None; Some 0; Some 0; Some 0; Some 0] = None.
Proof.
  assert (Z : match_one 0 0 0 = Ok 0). { unfold match_one. cbn [angularDifference period_of rbind]. unfold rlt. destruct (Rlt_dec _ _); reflexivity. }
  assert (M : mapAngle 0 (Some (0, 0 + 2 * PI)) ARad = Ok 0) by (apply (map_same _ _ _ ARad _ two_pi); pose proof PI_RGT_0; lra).
  assert (D : angularDifference 0 0 ARad = Ok 0). { cbn [angularDifference period_of rbind]. rewrite Rminus_0_r, Rabs_R0. rewrite Rmin_left; [reflexivity|]. pose proof PI_RGT_0. lra. }
  exists [Panel (fun x => x) (fun _ => Some (0, 0)) (fun _ _ => None) [(tt, Xyo 0 0 0)]; Panel (fun x => x) (fun _ => Some (0, 0)) (fun _ _ => Some (0, 0)) [(tt, Xyo 0 0 0)]]. split; [|reflexivity].
  unfold residuals. cbn [filter pa_obs length Nat.eqb negb map_res]. unfold panel_calc, match_omegas. cbn [pa_obs pa_omes map c_ome snd fst existsb orb map_res to_period]. rewrite M. cbn [rbind]. rewrite Z.
  cbn [rbind combine map pa_unwarp pa_meets fst snd c_x c_y c_ome rev app existsb is_none orb concat map_res one_residual]. rewrite D. cbn [rbind c_x c_y concat app]. rewrite !Rminus_0_r. reflexivity.
Qed.
Print Assumptions C132_misses_refuted.
(** chi squared: the sum of squares by the degrees of freedom; with more of these than parameters it is not negative, and zero only if every residual is *)
Theorem C132_chisq_partial : forall n nfit r, length r = (3 * n)%nat -> (nfit + 1 < 3 * n)%nat ->
  exists x, chisq nfit (map Some r) = Some x /\ x * (3 * INR n - INR nfit - 1) = sumsq r /\ 0 <= x /\ (x = 0 <-> Forall (fun y => y = 0) r).
Proof.
  intros n nfit r L N. unfold chisq. rewrite map_length, L. replace (3 * n / 3)%nat with n by (rewrite Nat.mul_comm, Nat.div_mul; lia).
  assert (D : 0 < 3 * INR n - INR nfit - 1). { apply lt_INR in N. rewrite plus_INR, mult_INR in N. cbn [INR] in N. lra. }
  destruct (Req_EM_T (3 * INR n - INR nfit - 1) 0); [lra|]. rewrite osum_sq. eexists. split; [reflexivity|]. pose proof (sumsq_pos r) as S0. set (d := 3 * INR n - INR nfit - 1) in *.
  assert (ID : 0 < / d) by now apply Rinv_0_lt_compat. split; [field; lra|]. unfold Rdiv. rewrite Rmult_1_l. split; [nra|]. rewrite <- sumsq_zero. split; intros Z; [|rewrite Z; ring].
  apply Rmult_integral in Z. destruct Z; lra.
Qed.
Print Assumptions C132_chisq_partial.
(** with four reflections it is the negative of the sum of squares *)
Theorem C132_chisq_refuted : forall r, length r = 12%nat -> Exists (fun y => y <> 0) r -> exists x, chisq 12 (map Some r) = Some x /\ x = - sumsq r /\ x < 0.
Proof.
  intros r L E. unfold chisq. rewrite map_length, L. change (12 / 3)%nat with 4%nat. rewrite osum_sq. destruct (Req_EM_T (3 * INR 4 - INR 12 - 1) 0) as [Z|_]; [cbn [INR] in Z; lra|].
  eexists. split; [reflexivity|]. assert (D : 1 / (3 * INR 4 - INR 12 - 1) = - (1)) by (cbn [INR]; field; lra). rewrite D. split; [ring|]. pose proof (sumsq_pos r) as S0.
  destruct (Req_dec (sumsq r) 0) as [Z|Z]; [|lra]. apply sumsq_zero in Z. exfalso. clear - E Z. induction E as [y l H|y l E IH]; inversion Z; subst; [congruence|auto].
Qed.
Print Assumptions C132_chisq_refuted.
Example C132_ex : (forall x, In x [(0, Some (1, 2))] -> snd x <> @None (R * R)) /\ (exists p, In p [Panel (fun x => x) (fun _ : Datatypes.unit => Some (0, 0)) (fun _ _ => Some (1, 2)) [(tt, Xyo 0 0 0)]] /\ pa_obs p <> []) /\
  (exists x, chisq 12 (map Some (repeat 1 15)) = Some x /\ x = 15 / 2).
Proof.
  split; [intros x [<-|[]]; discriminate|]. split; [eexists; split; [now left|discriminate]|].
  destruct (C132_chisq_partial 5 12 (repeat 1 15) eq_refl ltac:(lia)) as (x & E & S0 & _). exists x. split; [exact E|]. cbn [repeat sumsq fold_right INR] in S0. lra.
Qed.
