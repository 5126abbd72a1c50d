(** C44, C65, C66, C67: PlaneData ordering, exclusions, counts, lookups and merged ranges. *)
From Coq Require Import QArith Permutation.
From Verif Require Import Prelude ProcessModel PlaneModel PlaneSpec PlaneProofs.
Local Close Scope Q_scope.

(** C44, first half: an assigned mask reads back, for every order of the reflections and every history *)
Theorem C44_mask_reads_back : forall {A} (s : pd A) l, reachable s -> length l = length (data s) ->
  exists s' ex, set_exclusions s (EMask l) = Ok s' /\ exclusions s' = Ok ex /\ data s' = data s /\
    mask_is ex (length (data s)) (fun r => nth r l false = true \/ beyond s r).
Proof. exact (@mask_lemma). Qed.
Print Assumptions C44_mask_reads_back.
(** assigned indices and ranges hide exactly those reflections *)
Theorem C44_indices_hide : forall {A} (s : pd A) l, reachable s -> length l <> length (data s) ->
  (forall i, In i l -> (- Z.of_nat (length (data s)) <= i < Z.of_nat (length (data s)))%Z) ->
  exists s' out, set_exclusions s (EIdx l) = Ok s' /\ listed s' = Ok out /\ data s' = data s /\
    exactly (data s) (fun r => ~ names_pos l (length (data s)) r /\ ~ cut_off s r) out.
Proof. exact (@indices_lemma). Qed.
Print Assumptions C44_indices_hide.
Theorem C44_ranges_hide : forall {A} (s : pd A) l, reachable s -> length l <> length (data s) ->
  exists s' out, set_exclusions s (ERanges l) = Ok s' /\ listed s' = Ok out /\ data s' = data s /\
    exactly (data s) (fun r => ~ (exists a b, In (a, b) l /\ in_slice a b (length (data s)) r) /\ ~ cut_off s r) out.
Proof. exact (@ranges_lemma). Qed.
Print Assumptions C44_ranges_hide.
(** second half: the lists agree with the mask when the order is its own inverse (in particular without sorting) and no
    reflection lacks an angle *)
Theorem C44_lists_match_mask_partial : forall {A} (s : pd A), reachable s -> involutive s -> (tmax s = None \/ forall r, ~ no_angle s r) ->
  exists ex out, exclusions s = Ok ex /\ listed s = Ok out /\ exactly (data s) (fun r => nth r ex false = false) out.
Proof. exact (@involutive_lemma). Qed.
Print Assumptions C44_lists_match_mask_partial.
(** exclude() flags exactly the reflections outside the bounds *)
Theorem C44_exclude_flags : forall {A} (s : pd A) d dmin dmax tthmin tthmax, reachable s ->
  exists s' ex, exclude s d dmin dmax tthmin tthmax = Ok s' /\ exclusions s' = Ok ex /\ data s' = data s /\ tmax s' = None /\
    mask_is ex (length (data s)) (fun r => exists x, nth_error (data s) r = Some x /\ outside d dmin dmax tthmin tthmax x).
Proof. exact (@exclude_lemma). Qed.
Print Assumptions C44_exclude_flags.
(** a change of the lattice keeps the same reflections excluded, whatever the old and new orders *)
Theorem C44_exclusions_follow_reflections : forall {A} (s : pd A) raw srt s', reachable s -> tmax s = None -> length raw = length (data s) ->
  ordering srt (length raw) -> recalc s raw srt = Ok s' -> exists ex ex', exclusions s = Ok ex /\ exclusions s' = Ok ex' /\
    forall r r' m, shows s r m -> shows s' r' m -> nth r ex false = nth r' ex' false.
Proof. exact (@recalc_lemma). Qed.
Print Assumptions C44_exclusions_follow_reflections.

(** the witness: three reflections in a cyclic order *)
Definition cyc : result (pd nat) := calc [(Some 3%Q, 0); (Some 1%Q, 1); (Some 2%Q, 2)] [1; 2; 0] None None.
Definition cyc_s : pd nat := match cyc with Ok s => s | Err _ => Pd [] [] [] None None 0 end.
Lemma cyc_reachable : reachable cyc_s.
Proof.
  apply (r_new [(Some 3%Q, 0); (Some 1%Q, 1); (Some 2%Q, 2)] [1; 2; 0] None); [|reflexivity]. unfold ordering. cbn.
  apply Permutation_sym. change [1; 2; 0] with ([1; 2] ++ [0]). apply Permutation_cons_append.
Qed.
(** mask: the first reflection is marked excluded, yet it is listed and the second one is hidden *)
Theorem C44_mask_lists_refuted : exists (s s' : pd nat) ex out, reachable s /\ set_exclusions s (EMask [true; false; false]) = Ok s' /\
  exclusions s' = Ok ex /\ listed s' = Ok out /\ ~ exactly (data s') (fun r => nth r ex false = false) out.
Proof.
  exists cyc_s. eexists; eexists; eexists. split; [exact cyc_reachable|]. repeat (split; [vm_compute; reflexivity|]).
  intros [keep [L [E K]]]. cbn [data] in *. destruct keep as [|a [|b [|c [|? ?]]]]; try discriminate L.
  pose proof (K 0 ltac:(cbn; lia)) as K0. cbn in K0. destruct a; [destruct K0 as [K0 _]; specialize (K0 eq_refl); discriminate|].
  destruct b, c; discriminate E.
Qed.
Print Assumptions C44_mask_lists_refuted.
(** indices: the mask that is read is another one *)
Theorem C44_indices_mask_refuted : exists (s s' : pd nat) ex, reachable s /\ set_exclusions s (EIdx [0%Z]) = Ok s' /\ exclusions s' = Ok ex /\ nth 0 ex false = false.
Proof. exists cyc_s. eexists; eexists. split; [exact cyc_reachable|]. repeat (split; [vm_compute; reflexivity|]). reflexivity. Qed.
Print Assumptions C44_indices_mask_refuted.
(** a reflection without a Bragg angle is not listed once there is a maximum, but the mask does not say so *)
Theorem C44_no_angle_refuted : exists (s : pd nat) ex, reachable s /\ exclusions s = Ok ex /\ nth 0 ex false = false /\ listed s = Ok [].
Proof.
  exists (Pd [(None, 7)] [0] [0] None (Some 1)%Q 0), [false].
  split; [apply (r_new [(None, 7)] [0] (Some 1)%Q); [apply Permutation_refl | reflexivity]|]. repeat split; reflexivity.
Qed.
Print Assumptions C44_no_angle_refuted.
Example C44_ex : exists s' ex, set_exclusions cyc_s (EMask [true; false; false]) = Ok s' /\ exclusions s' = Ok [true; false; false] /\ ex = listed s'.
Proof. eexists; eexists. repeat (split; [vm_compute; reflexivity|]). reflexivity. Qed.
Example C44_ex_idx : (do s' <- set_exclusions cyc_s (EIdx [0; -1]%Z); listed s') = Ok [(Some 2%Q, 2)].
Proof. vm_compute. reflexivity. Qed.
Example C44_ex_ranges : (do s' <- set_exclusions cyc_s (ERanges [(0, 2)]%Z); listed s') = Ok [(Some 3%Q, 0)].
Proof. vm_compute. reflexivity. Qed.
Example C44_ex_exclude : (do s' <- exclude cyc_s (fun k => inject_Z (Z.of_nat k)) (Some 1%Q) None None (Some (5 # 2))%Q; exclusions s') = Ok [false; false; true].
Proof. vm_compute. reflexivity. Qed.
Example C44_ex_involutive : involutive cyc_s -> False.
Proof. intros H. specialize (H 0 1 eq_refl). vm_compute in H. discriminate. Qed.
Example C44_ex_involutive2 : exists s : pd nat, reachable s /\ involutive s /\ tsort s = [1; 0; 2].
Proof.
  eexists (match calc [(Some 2%Q, 0); (Some 1%Q, 1); (Some 3%Q, 2)] [1; 0; 2] None None with Ok s => s | Err _ => cyc_s end).
  split; [|split; [|reflexivity]].
  - apply (r_new [(Some 2%Q, 0); (Some 1%Q, 1); (Some 3%Q, 2)] [1; 0; 2] None); [apply perm_swap | reflexivity].
  - intros [|[|[|r]]] m H; vm_compute in H; try (injection H as <-; reflexivity). destruct r; discriminate.
Qed.

(** C65: the count of reflections *)
Theorem C65_count_after_exclusions_partial : forall {A} (s : pd A) v s', reachable s -> tmax s = None -> set_exclusions s v = Ok s' ->
  exists out, listed s' = Ok out /\ nhkls s' = length out.
Proof. exact (@count_lemma). Qed.
Print Assumptions C65_count_after_exclusions_partial.
Theorem C65_count_after_lattice_change : forall {A} raw srt e m (s : pd A), calc raw srt e m = Ok s -> exists out, listed s = Ok out /\ nhkls s = length out.
Proof. exact (@calc_count_lemma). Qed.
Print Assumptions C65_count_after_lattice_change.
(** assigning the maximum two-theta leaves the count behind: it no longer matches, and raising the maximum makes the list of
    symmetric reflections raise *)
Theorem C65_maximum_refuted : exists (s : pd nat) out, reachable s /\ listed s = Ok out /\ nhkls s <> length out.
Proof.
  exists (set_tmax cyc_s (Some (3 # 2))%Q). eexists. split; [apply r_tmax, cyc_reachable|]. split; [vm_compute; reflexivity | discriminate].
Qed.
Print Assumptions C65_maximum_refuted.
Theorem C65_raised_maximum_refuted : exists s : pd nat, reachable s /\ get_sym s = Err IndexError.
Proof.
  exists (set_tmax (Pd [(Some 1%Q, 0); (Some 2%Q, 1)] [0; 1] [0; 1] None (Some (3 # 2))%Q 1) None). split; [|reflexivity].
  apply r_tmax. apply (r_new [(Some 1%Q, 0); (Some 2%Q, 1)] [0; 1] (Some (3 # 2))%Q); [apply Permutation_refl | reflexivity].
Qed.
Print Assumptions C65_raised_maximum_refuted.
Example C65_ex : exists s', set_exclusions cyc_s (EMask [true; false; false]) = Ok s' /\ nhkls s' = 2.
Proof. eexists; split; vm_compute; reflexivity. Qed.

(** C66: lookup by identifier respects exclusions; true without sorting, false for a swapped order *)
Theorem C66_lookup_by_id_partial : forall {A} (s : pd A) hid r x, reachable s -> tsort s = seq 0 (length (data s)) ->
  NoDup (map (fun y => hid (snd y)) (data s)) -> nth_error (data s) r = Some x ->
  exists ex, exclusions s = Ok ex /\ get_by_id s hid (hid (snd x)) = if nth r ex false then Err RuntimeError else Ok x.
Proof. exact (@by_id_lemma). Qed.
Print Assumptions C66_lookup_by_id_partial.
Theorem C66_lookup_refuted : exists (s s' : pd nat) ex, reachable s /\ set_exclusions s (EMask [true; false]) = Ok s' /\ exclusions s' = Ok ex /\
  nth_error (data s') 0 = Some (Some 1%Q, 1) /\ nth 0 ex false = true /\ get_by_id s' (fun k => k) 1 = Ok (Some 1%Q, 1) /\
  nth_error (data s') 1 = Some (Some 2%Q, 0) /\ nth 1 ex false = false /\ get_by_id s' (fun k => k) 0 = Err RuntimeError.
Proof.
  exists (Pd [(Some 1%Q, 1); (Some 2%Q, 0)] [1; 0] [1; 0] None None 2). eexists; eexists.
  split; [apply (r_new [(Some 2%Q, 0); (Some 1%Q, 1)] [1; 0] None); [apply perm_swap | reflexivity]|].
  repeat (split; [vm_compute; reflexivity|]). vm_compute. reflexivity.
Qed.
Print Assumptions C66_lookup_refuted.
Example C66_ex : exists s s' : pd nat, calc [(Some 1%Q, 4); (Some 2%Q, 7)] [0; 1] None None = Ok s /\ set_exclusions s (EMask [true; false]) = Ok s' /\
  get_by_id s' (fun k => k) 4 = Err RuntimeError /\ get_by_id s' (fun k => k) 7 = Ok (Some 2%Q, 7).
Proof. eexists; eexists. repeat (split; [vm_compute; reflexivity|]). vm_compute. reflexivity. Qed.

(** C67: merged ranges are the maximal runs of overlapping reflections *)
Theorem C67_merged_ranges : forall lo hi cull close n,
  (n = 0 -> merged lo hi cull close n = Err IndexError) /\
  (0 < n -> exists gs, merged lo hi cull close n = Ok gs /\ grouped lo hi cull close n 0 gs).
Proof. exact merged_lemma. Qed.
Print Assumptions C67_merged_ranges.
Theorem C67_merged_every_reflection_once : forall lo hi close n gs, merged lo hi false close n = Ok gs -> concat (map fst gs) = seq 0 n.
Proof. exact merged_indices_lemma. Qed.
Print Assumptions C67_merged_every_reflection_once.
Theorem C67_merged_covers : forall lo hi cull close n gs,
  (forall i, Qle (lo i) (hi i)) -> (forall i, Qle (lo i) (lo (S i))) -> (forall i, Qle (hi i) (hi (S i))) ->
  merged lo hi cull close n = Ok gs ->
  forall x, (exists g, In g gs /\ Qle (fst (snd g)) x /\ Qle x (snd (snd g))) <-> (exists i, i < n /\ Qle (lo i) x /\ Qle x (hi i)).
Proof. exact merged_cover_lemma. Qed.
Print Assumptions C67_merged_covers.
Example C67_ex : merged (fun i => inject_Z (Z.of_nat (i * i))) (fun i => inject_Z (Z.of_nat (i * i + 1))) false (fun _ _ => false) 3
  = Ok [([0; 1], (0, 2)%Q); ([2], (4, 5)%Q)].
Proof. vm_compute. reflexivity. Qed.
