(** C19, C20, C58, C59: image files, raw files, iteration. *)
From Verif Require Import Prelude FilesModel FilesSpec FilesProofs.
Local Open Scope Z_scope.

(** ** C19 *)
Theorem C19_length : forall empty max_frames max_total files, valid_options empty max_frames files ->
  imagefiles_len empty max_frames max_total files = Ok (Z.of_nat (length (series_frames empty max_frames max_total files))).
Proof. exact files_len. Qed.
Print Assumptions C19_length.

(** A file with nothing left after the empty frames is rejected. *)
Theorem C19_too_many_empty_frames_raises : forall empty max_frames max_total files key, Exists (fun n => n <= empty) files ->
  imagefiles_get empty max_frames max_total files key = Err ValueError /\ imagefiles_len empty max_frames max_total files = Err ValueError.
Proof. exact files_rejected. Qed.
Print Assumptions C19_too_many_empty_frames_raises.

(** When some file contributes several frames, every key is mapped as indexing the list of frames would. *)
Theorem C19_multi_frame_files : forall empty max_frames max_total files key, valid_options empty max_frames files ->
  multi_frame empty max_frames files ->
  imagefiles_get empty max_frames max_total files key = list_lookup (series_frames empty max_frames max_total files) key.
Proof. exact multi_frame_lookup. Qed.
Print Assumptions C19_multi_frame_files.

Example C19_ex : valid_options 1 2 [3; 2; 6] /\ multi_frame 1 2 [3; 2; 6] /\
  series_frames 1 2 4 [3; 2; 6] = [(0%nat, 1); (0%nat, 2); (1%nat, 1); (2%nat, 1)] /\
  imagefiles_get 1 2 4 [3; 2; 6] (-2) = Ok (1%nat, 1) /\ imagefiles_get 1 2 4 [3; 2; 6] 4 = Err LookupError.
Proof.
  split; [unfold valid_options; repeat split; try lia; repeat constructor; lia|].
  split; [exists 0%nat, 3; split; [left; reflexivity|vm_compute; repeat constructor]|]. vm_compute. repeat split; reflexivity.
Qed.

(** When every file contributes one frame the same holds if no leading frames are skipped and the total is not
    limited. *)
Theorem C19_single_frame_files_partial : forall max_frames max_total files key, valid_options 0 max_frames files ->
  ~ multi_frame 0 max_frames files -> (max_total <= 0 \/ Z.of_nat (length files) <= max_total) ->
  imagefiles_get 0 max_frames max_total files key = py_index (series_frames 0 max_frames max_total files) key.
Proof. exact single_frame_lookup. Qed.
Print Assumptions C19_single_frame_files_partial.

Example C19_single_ex : valid_options 0 1 [3; 1] /\ ~ multi_frame 0 1 [3; 1] /\ imagefiles_get 0 1 0 [3; 1] (-1) = Ok (1%nat, 0).
Proof.
  split; [unfold valid_options; repeat split; try lia; repeat constructor; lia|]. split; [|reflexivity].
  intros (f & n & Hin & Hl). cbn in Hin. destruct Hin as [<-|[<-|[]]]; vm_compute in Hl; inversion Hl; lia.
Qed.

(** Findings.  With one usable frame per file after skipping, the skipped frame itself is returned; and
    limiting the total number of frames is ignored by item access. *)
Theorem C19_empty_frames_refuted : exists key,
  valid_options 1 0 [2; 2] /\ imagefiles_get 1 0 0 [2; 2] key = Ok (0%nat, 0) /\
  py_index (series_frames 1 0 0 [2; 2]) key = Ok (0%nat, 1).
Proof. exists 0. split; [unfold valid_options; repeat split; try lia; repeat constructor; lia|]. split; reflexivity. Qed.
Print Assumptions C19_empty_frames_refuted.
Theorem C19_max_total_refuted :
  valid_options 0 0 [1; 1; 1] /\ imagefiles_len 0 0 2 [1; 1; 1] = Ok 2 /\
  imagefiles_get 0 0 2 [1; 1; 1] 2 = Ok (2%nat, 0) /\ imagefiles_get 0 0 2 [1; 1; 1] (-1) = Ok (2%nat, 0) /\
  py_index (series_frames 0 0 2 [1; 1; 1]) (-1) = Ok (1%nat, 0).
Proof. split; [unfold valid_options; repeat split; try lia; repeat constructor; lia|]. repeat split; reflexivity. Qed.
Print Assumptions C19_max_total_refuted.

(** ** C20 *)
(** A raw file is accepted exactly when it is a header followed by a whole number of frames and the header
    is shorter than a frame; the length is that number. *)
Theorem C20_accepted_iff_partial : forall nbytes fb skip, 0 < fb -> 0 <= nbytes -> 0 <= skip ->
  ((exists n, raw_length nbytes fb skip = Ok n) <-> skip < fb /\ exists n, 0 <= n /\ nbytes = skip + n * fb) /\
  (forall n, raw_length nbytes fb skip = Ok n -> 0 <= n /\ nbytes = skip + n * fb).
Proof. exact raw_accept. Qed.
Print Assumptions C20_accepted_iff_partial.

(** A valid file whose header is as long as a frame is rejected (finding). *)
Theorem C20_long_header_refuted : exists nbytes fb skip n, 0 < fb /\ nbytes = skip + n * fb /\ raw_length nbytes fb skip = Err ValueError.
Proof. exists 30, 8, 14, 2. repeat split; lia || reflexivity. Qed.
Print Assumptions C20_long_header_refuted.

(** Byte j of frame i is byte skip + i * framesize + j of the file. *)
Theorem C20_frame_bytes : forall (B : Type) (bytes : list B) fb skip n key, 0 < fb -> 0 <= skip ->
  raw_length (Z.of_nat (length bytes)) fb skip = Ok n -> 0 <= key < n ->
  exists frame, raw_get bytes fb skip key = Ok frame /\ Z.of_nat (length frame) = fb /\
    forall j, 0 <= j < fb -> nth_error frame (Z.to_nat j) = nth_error bytes (Z.to_nat (skip + key * fb + j)).
Proof. exact @raw_get_frame. Qed.
Print Assumptions C20_frame_bytes.

(** Keys outside [0, n) raise (negative keys too: no counting from the end). *)
Theorem C20_keys_outside_raise : forall (B : Type) (bytes : list B) fb skip n key, 0 < fb -> 0 <= skip ->
  raw_length (Z.of_nat (length bytes)) fb skip = Ok n -> key < 0 \/ n <= key -> raw_get bytes fb skip key = Err ValueError.
Proof. exact @raw_get_outside. Qed.
Print Assumptions C20_keys_outside_raise.

Example C20_ex : raw_length 8 3 2 = Ok 2 /\ raw_get [0; 1; 2; 3; 4; 5; 6; 7] 3 2 1 = Ok [5; 6; 7].
Proof. split; reflexivity. Qed.

(** ** C59 *)
(** Threads reading frames through the shared file handle: each gets its own frame, and none blocks forever. *)
Theorem C59_concurrent_raw_reads : forall (B : Type) (bytes : list B) fb skip keys sched s,
  rrun bytes fb skip (rinit keys) sched = Some s ->
  forall w k v, nth_error keys w = Some k -> nth_error (r_pcs s) w = Some (RDone v) -> v = raw_get bytes fb skip k.
Proof. exact @raw_threads. Qed.
Print Assumptions C59_concurrent_raw_reads.
Theorem C59_no_deadlock : forall (B : Type) (bytes : list B) fb skip keys sched s,
  rrun bytes fb skip (rinit keys) sched = Some s ->
  (forall w pc, nth_error (r_pcs s) w = Some pc -> rpc_value pc <> None) \/ exists w s', rstep bytes fb skip s w = Some s'.
Proof. exact @raw_threads_progress. Qed.
Print Assumptions C59_no_deadlock.
Example C59_ex :
  option_map (fun s => r_pcs s) (rrun [0; 1; 2; 3; 4; 5; 6; 7] 3 2 (rinit [1; 0]) [1; 1; 1; 1; 0; 0; 0; 0]%nat)
  = Some [RDone (Ok [5; 6; 7]); RDone (Ok [2; 3; 4])].
Proof. reflexivity. Qed.

(** ** C58 *)
(** Iterating a series whose frames can all be read gives frames 0 .. n-1 in order, once each. *)
Theorem C58_iteration_yields_every_frame : forall (A : Type) (get : Z -> result A) (f : Z -> A) n,
  (forall k, 0 <= k < n -> get k = Ok (f k)) -> iter_series get n = (map f (zrange 0 n), None).
Proof. exact @iter_series_ok. Qed.
Print Assumptions C58_iteration_yields_every_frame.

(** If reading a frame raises anything but IndexError, the iteration raises it after the frames before it. *)
Theorem C58_errors_propagate_partial : forall (A : Type) (get : Z -> result A) (f : Z -> A) n k e,
  0 <= k < n -> (forall j, 0 <= j < k -> get j = Ok (f j)) -> get k = Err e -> e <> IndexError ->
  iter_series get n = (map f (zrange 0 k), Some e).
Proof. exact @iter_series_error. Qed.
Print Assumptions C58_errors_propagate_partial.

(** An IndexError raised inside the frame access silently ends the iteration (finding). *)
Theorem C58_index_error_swallowed_refuted : exists (get : Z -> result Z),
  get 1 = Err IndexError /\ get 2 = Ok 2 /\ iter_series get 3 = ([0], None).
Proof. exists (fun k => if k =? 1 then Err IndexError else Ok k). repeat split; reflexivity. Qed.
Print Assumptions C58_index_error_swallowed_refuted.
Example C58_ex : iter_series (fun k => if k <? 3 then Ok (k * k) else Err OSError) 3 = ([0; 1; 4], None).
Proof. reflexivity. Qed.
