(** C56-C57: lazy loading of frame caches. *)
From Verif Require Import Prelude LazyModel LazySpec LazyProofs.

(** ** C56 *)
(** Any number of threads touching a lazily loaded frame cache: whatever the interleaving, and even if some load
    attempts raise, a thread that gets past the loading sees the complete list, and the list is loaded
    successfully at most once. *)
Theorem C56_lazy_load_safe : forall content loads_ok n sched s,
  lrun content loads_ok (linit n) sched = Some s ->
  (forall w v, nth_error (l_pcs s) w = Some (LDone v) -> v = content) /\ l_good s <= 1.
Proof. exact lazy_safe. Qed.
Print Assumptions C56_lazy_load_safe.

(** No deadlock, even after a failed load; every run is finite; a thread fails only if a load failed. *)
Theorem C56_lazy_load_no_deadlock : forall content loads_ok n sched s,
  lrun content loads_ok (linit n) sched = Some s ->
  forallb l_stopped (l_pcs s) = true \/ exists w s', lstep content loads_ok s w = Some s'.
Proof. exact lazy_no_deadlock. Qed.
Print Assumptions C56_lazy_load_no_deadlock.
Theorem C56_lazy_load_bounded : forall content loads_ok n sched s,
  lrun content loads_ok (linit n) sched = Some s -> length sched <= 7 * n.
Proof. exact lazy_bounded. Qed.
Print Assumptions C56_lazy_load_bounded.
Theorem C56_raises_only_if_a_load_failed : forall content loads_ok n sched s w,
  lrun content loads_ok (linit n) sched = Some s ->
  (forall k, loads_ok k = true) -> nth_error (l_pcs s) w <> Some LRaised.
Proof. exact lazy_raise_needs_failed_load. Qed.
Print Assumptions C56_raises_only_if_a_load_failed.

Example C56_ex :
  (* the first load fails, the second thread retries and succeeds *)
  option_map (fun s => (l_pcs s, l_loads s, l_good s))
    (lrun [4; 5] (fun k => Nat.eqb k 1) (linit 2) [0; 1; 0; 0; 0; 0; 1; 1; 1; 1; 1; 1])
  = Some ([LRaised; LDone [4; 5]], 2, 1).
Proof. vm_compute. reflexivity. Qed.

(** ** C57 *)
(** Opening frame-cache files through the two-entry cache gives what reading the file now would give, for every
    history of writes and loads, as long as rewriting a file with other content changes its (mtime, size). *)
Theorem C57_file_cache_transparent_partial : forall (C : Type) (es : list (fevent C)), stat_identifies es ->
  snd (fc_run fc_init es) = plain_reads (fun _ => None) es /\ length (fc_cache (fst (fc_run fc_init es))) <= 2.
Proof. exact @file_cache_transparent. Qed.
Print Assumptions C57_file_cache_transparent_partial.

Example C57_ex :
  let es := [FWrite 0 10 7; FLoad 0; FWrite 1 10 8; FLoad 1; FWrite 0 11 9; FLoad 0; FLoad 2; FLoad 1] in
  stat_identifies es /\
  snd (fc_run fc_init es) = [None; Some (Ok 7); None; Some (Ok 8); None; Some (Ok 9); Some (Err OSError); Some (Ok 8)].
Proof.
  split; [|vm_compute; reflexivity]. intros p i c1 c2 H1 H2. cbn in H1, H2.
  repeat match goal with H : _ \/ _ |- _ => destruct H as [H|H]; [try discriminate H; injection H as <- <- <-| ] end;
    try contradiction; intuition congruence.
Qed.

(** Otherwise the old content is served (finding; the source documents it for coarse time stamps). *)
Theorem C57_same_stat_refuted : exists es : list (fevent nat),
  snd (fc_run fc_init es) <> plain_reads (fun _ => None) es.
Proof. exists [FWrite 0 10 7; FLoad 0; FWrite 0 10 8; FLoad 0]. vm_compute. discriminate. Qed.
Print Assumptions C57_same_stat_refuted.
