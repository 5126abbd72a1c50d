(** C16-C18, C55: frame caches. *)
From Verif Require Import Prelude ProcessModel ProcessSpec CacheModel CacheSpec CacheProofs.

(** ** C16 *)
(** Rebuilding a frame from the extracted triplets gives the thresholded frame, for every frame that
    fits the index type, every threshold and whatever the output arrays contained. *)
Theorem C16_sparse_round_trip_partial : forall img t out, fits16 img ->
  same_img (rebuild (nr img) (nc img) (prefix (snd (extract_ijv img t out)) (fst (extract_ijv img t out)))) (thresholded img t).
Proof. exact extract_round_trip. Qed.
Print Assumptions C16_sparse_round_trip_partial.

(** The count is the number of pixels above the threshold and never exceeds the array size the callers
    allocate; the rest of the arrays is not touched. *)
Theorem C16_count_fits_buffers : forall img t out,
  fst (extract_ijv img t out) = length (above img t) /\ length (above img t) <= nr img * nc img.
Proof. exact extract_count. Qed.
Print Assumptions C16_count_fits_buffers.
Theorem C16_rest_of_buffer_untouched : forall img t out k,
  fst (extract_ijv img t out) <= k -> snd (extract_ijv img t out) k = out k.
Proof. exact extract_frame. Qed.
Print Assumptions C16_rest_of_buffer_untouched.

(** Without the size restriction the claim is false: row 65536 comes back as row 0. *)
Theorem C16_tall_frame_refuted : forall out, ~ same_img
  (rebuild (nr tall_frame) (nc tall_frame) (prefix (snd (extract_ijv tall_frame 0 out)) (fst (extract_ijv tall_frame 0 out))))
  (thresholded tall_frame 0).
Proof. exact extract_tall. Qed.
Print Assumptions C16_tall_frame_refuted.

Definition ex_frame (k : Z) : image Z := Img 2 2 (fun i j => (k + Z.of_nat i * 10 + Z.of_nat j)%Z).
Example C16_ex : fits16 (ex_frame 3) /\
  (let r := extract_ijv (ex_frame 3) 3 (fun _ => ((9, 9), 9%Z)) in
   (fst r, prefix (snd r) (fst r)) = (3, [((0, 1), 4%Z); ((1, 0), 13%Z); ((1, 1), 14%Z)])).
Proof. split; [unfold fits16, ex_frame; cbn; lia|vm_compute; reflexivity]. Qed.

(** ** C17 *)
(** Whatever the interleaving of the pool's threads, once the writer has finished every frame read back from
    the file is the thresholded source frame. *)
Theorem C17_fch5_frames_read_back : forall frames t bufs data0 idx0 fids0 sched st,
  frun frames t (finit (length frames) bufs data0 idx0 fids0) sched = Some st -> ffinished st = true ->
  forall i img, nth_error frames i = Some img -> fits16 img ->
  same_img (rebuild (nr img) (nc img) (fch5_read st i)) (thresholded img t).
Proof. exact fch5_frames. Qed.
Print Assumptions C17_fch5_frames_read_back.

(** Frames occupy disjoint ranges inside the file, and the file holds exactly the stored pixels. *)
Theorem C17_fch5_layout : forall frames t bufs data0 idx0 fids0 sched st,
  frun frames t (finit (length frames) bufs data0 idx0 fids0) sched = Some st -> ffinished st = true ->
  (forall i j, i < length frames -> j < length frames -> i <> j -> disjoint_ranges (range_in_file st i) (range_in_file st j)) /\
  (forall i, i < length frames -> fst (range_in_file st i) <= snd (range_in_file st i) <= f_total st) /\
  f_total st = total_above frames t.
Proof. exact fch5_ranges. Qed.
Print Assumptions C17_fch5_layout.

(** No thread ever writes outside the preallocated datasets. *)
Theorem C17_fch5_writes_in_bounds : forall frames t bufs data0 idx0 fids0 sched st R C,
  (forall img, In img frames -> nr img = R /\ nc img = C) ->
  frun frames t (finit (length frames) bufs data0 idx0 fids0) sched = Some st ->
  forall w i m s e, nth_error (f_ws st) w = Some (WAlloc i m s e) \/ nth_error (f_ws st) w = Some (WData i m s e) ->
  s <= e <= length frames * (R * C).
Proof. exact fch5_writes_in_bounds. Qed.
Print Assumptions C17_fch5_writes_in_bounds.

(** No deadlock, and no infinite run. *)
Theorem C17_fch5_completes : forall frames t bufs data0 idx0 fids0 sched st,
  bufs <> [] -> frun frames t (finit (length frames) bufs data0 idx0 fids0) sched = Some st ->
  (ffinished st = true \/ exists w st', fstep frames t st w = Some st') /\ length sched <= 6 * length frames.
Proof. exact fch5_completes. Qed.
Print Assumptions C17_fch5_completes.

Definition ex_buf : buffer := fun _ => ((7, 7), 7%Z).
Example C17_ex :
  match frun [ex_frame 3; ex_frame 8] 3 (finit 2 [ex_buf; ex_buf] (fun _ => 0%Z) (fun _ => (5, 5)) (fun _ => 99))
          [0; 1; 1; 0; 0; 1; 1; 0; 0; 0; 1; 1] with
  | Some st => ffinished st = true /\ fch5_read st 0 = [((0, 1), 4%Z); ((1, 0), 13%Z); ((1, 1), 14%Z)] /\
               range_in_file st 0 = (4, 7) /\ range_in_file st 1 = (0, 4)
  | None => False
  end.
Proof. vm_compute. repeat split; reflexivity. Qed.

(** ** C18 *)
Theorem C18_npz_frames_read_back : forall frames t threads bufs sched st,
  nrun frames t (ninit (length frames) threads bufs) sched = Some st -> nfinished st = true ->
  forall i img, nth_error frames i = Some img -> fits16 img ->
  exists ents, npz_read st i = Ok ents /\ same_img (rebuild (nr img) (nc img) ents) (thresholded img t).
Proof. exact npz_frames. Qed.
Print Assumptions C18_npz_frames_read_back.

(** At every moment the buffers in use are distinct, and their numbers are valid. *)
Theorem C18_npz_buffers_not_shared : forall frames t threads bufs sched st,
  nrun frames t (ninit (length frames) threads bufs) sched = Some st ->
  (forall w1 w2 x1 x2 b, nth_error (n_ws st) w1 = Some x1 -> nth_error (n_ws st) w2 = Some x2 ->
     buffer_of x1 = Some b -> buffer_of x2 = Some b -> w1 = w2) /\
  (forall w x b, nth_error (n_ws st) w = Some x -> buffer_of x = Some b -> b < threads).
Proof. exact npz_buffers. Qed.
Print Assumptions C18_npz_buffers_not_shared.

Theorem C18_npz_completes : forall frames t threads bufs sched st,
  0 < threads -> nrun frames t (ninit (length frames) threads bufs) sched = Some st ->
  (nfinished st = true \/ exists w st', nstep frames t st w = Some st') /\ length sched <= 4 * length frames + threads.
Proof. exact npz_completes. Qed.
Print Assumptions C18_npz_completes.

(** The pool has a valid size for a non-empty series; an empty series cannot be written (finding). *)
Theorem C18_npz_empty_series_refuted : forall m n,
  (0 < m -> 0 < n -> exists k, npz_pool m n = Ok k /\ 0 < k <= m) /\ npz_pool m 0 = Err ValueError.
Proof. exact npz_pool_spec. Qed.
Print Assumptions C18_npz_empty_series_refuted.

Definition ex_sched : list nat := [1; 1; 0; 1; 0; 0; 1; 1; 0; 0].
Example C18_ex :
  match nrun [ex_frame 3; ex_frame 8] 3 (ninit 2 2 (fun _ => ex_buf)) ex_sched with
  | Some st => nfinished st = true /\ npz_read st 0 = Ok [((0, 1), 4%Z); ((1, 0), 13%Z); ((1, 1), 14%Z)] /\
               map buffer_of (n_ws st) = [Some 1; Some 0]
  | None => False
  end.
Proof. vm_compute. repeat split; reflexivity. Qed.

(** ** C55 *)
(** Metadata written with a frame cache comes back unchanged (nested dictionaries are dropped), and the frames and
    their number are not affected, provided no metadata key is one of the reserved names. *)
Theorem C55_npz_metadata_round_trip_partial : forall frames t threads bufs sched st meta,
  nrun frames t (ninit (length frames) threads bufs) sched = Some st -> nfinished st = true ->
  (forall k, arch_reserved (length frames) k = true -> process_meta meta k = None) ->
  arch_nframes (npz_archive st (length frames) meta) = Ok (length frames) /\
  (forall i, i < length frames -> arch_frame (npz_archive st (length frames) meta) i = npz_read st i) /\
  (forall k, arch_reserved (length frames) k = false ->
     arch_meta (npz_archive st (length frames) meta) k = Ok (process_meta meta k)).
Proof. exact archive_frames. Qed.
Print Assumptions C55_npz_metadata_round_trip_partial.

(** A metadata key with a reserved name silently replaces image data (finding). *)
Theorem C55_reserved_metadata_refuted : exists st meta,
  nrun [ex_frame 3; ex_frame 8] 3 (ninit 2 2 (fun _ => ex_buf)) ex_sched = Some st /\ nfinished st = true /\
  arch_frame (npz_archive st 2 meta) 0 = Ok [((0, 1), 100%Z); ((1, 0), 100%Z); ((1, 1), 100%Z)] /\
  arch_frame (npz_archive st 2 meta) 0 <> npz_read st 0.
Proof.
  assert (H : match nrun [ex_frame 3; ex_frame 8] 3 (ninit 2 2 (fun _ => ex_buf)) ex_sched with
    | Some st => nfinished st = true /\ npz_read st 0 = Ok [((0, 1), 4%Z); ((1, 0), 13%Z); ((1, 1), 14%Z)] /\
        arch_frame (npz_archive st 2 (fun k => match k with KFrame 0 PData => Some (AArr [100; 100; 100]%Z) | _ => None end)) 0
        = Ok [((0, 1), 100%Z); ((1, 0), 100%Z); ((1, 1), 100%Z)]
    | None => False end) by (vm_compute; repeat split; reflexivity).
  destruct (nrun [ex_frame 3; ex_frame 8] 3 (ninit 2 2 (fun _ => ex_buf)) ex_sched) as [st|]; [|contradiction].
  destruct H as (H1 & H2 & H3). exists st. eexists. split; [reflexivity|]. split; [exact H1|]. split; [exact H3|].
  rewrite H3, H2. discriminate.
Qed.
Print Assumptions C55_reserved_metadata_refuted.
