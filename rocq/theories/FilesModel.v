(** Model of the image-file readers: load/imagefiles.py, load/rawimage.py, and of imageseriesiter.py. *)
From Verif Require Import Prelude.
Local Open Scope Z_scope.

(** ** imagefiles.py *)
(** imagefiles.py:235-291, FileInfo: a file with [imgframes] images, [empty] leading frames to skip, at most
    [max_frames] frames (0 = all).  Only the counts matter here. *)
Record finfo := { fi_empty : Z; fi_nframes : Z }.
Definition file_info (empty max_frames imgframes : Z) : result finfo :=
  let maxframes := if max_frames =? 0 then imgframes else max_frames in
  if empty >=? imgframes then Err ValueError
  else Ok {| fi_empty := empty; fi_nframes := Z.min maxframes (imgframes - empty) |}.

(** imagefiles.py:125-152, [_process_files] (shape/dtype/type consistency checks omitted). *)
Fixpoint process_files (empty max_frames : Z) (files : list Z) : result (list finfo) :=
  match files with
  | [] => Ok []
  | n :: r => do i <- file_info empty max_frames n; do l <- process_files empty max_frames r; Ok (i :: l)
  end.
Definition total_frames (l : list finfo) : Z := fold_right (fun i s => fi_nframes i + s) 0 l.
Definition singleframes (l : list finfo) : bool := forallb (fun i => negb (fi_nframes i >? 1)) l.

(** imagefiles.py:32-36 *)
Definition if_len (max_total : Z) (l : list finfo) : Z :=
  if max_total >? 0 then Z.min (total_frames l) max_total else total_frames l.

(** imagefiles.py:167-187, [_file_and_frame]: the loop over the files. *)
Fixpoint find_frame (l : list finfo) (k : Z) (fnum : nat) (dflt : Z) : nat * Z :=
  match l with
  | [] => (fnum, dflt)
  | i :: r => if k <? fi_nframes i then (fnum, k + fi_empty i) else find_frame r (k - fi_nframes i) (S fnum) dflt
  end.
Definition file_and_frame (max_total : Z) (l : list finfo) (key : Z) : result (nat * Z) :=
  let nf := if_len max_total l in
  if (key <? - nf) || (key >=? nf) then Err LookupError
  else let k := if key >=? 0 then key else nf + key in Ok (find_frame l k 0%nat (- nf - 1)).

(** imagefiles.py:38-61, [__getitem__] for an int: which frame of which file is loaded.  With [singleframes]
    [img.data] is frame 0 of the file. *)
Definition if_get (max_total : Z) (l : list finfo) (key : Z) : result (nat * Z) :=
  if singleframes l
  then do f <- py_index (seq 0 (length l)) key; Ok (f, 0)
  else file_and_frame max_total l key.

(** Opening the series and reading one key. *)
Definition imagefiles_get (empty max_frames max_total : Z) (files : list Z) (key : Z) : result (nat * Z) :=
  do l <- process_files empty max_frames files; if_get max_total l key.
Definition imagefiles_len (empty max_frames max_total : Z) (files : list Z) : result Z :=
  do l <- process_files empty max_frames files; Ok (if_len max_total l).

(** ** rawimage.py *)
(** rawimage.py:56-69, [_get_length]. *)
Definition raw_length (nbytes frame_bytes skip : Z) : result Z :=
  if frame_bytes =? 0 then Err ZeroDivisionError
  else if nbytes mod frame_bytes =? skip then Ok ((nbytes - skip) / frame_bytes) else Err ValueError.

(** rawimage.py:114-127, [__getitem__] for an int: the bytes of the frame.  A negative position cannot be sought
    (ValueError); a short read cannot be reshaped (ValueError). *)
Definition raw_get {B} (bytes : list B) (frame_bytes skip key : Z) : result (list B) :=
  let count := key * frame_bytes + skip in
  if count <? 0 then Err ValueError
  else
    let chunk := firstn (Z.to_nat frame_bytes) (skipn (Z.to_nat count) bytes) in
    if Z.of_nat (length chunk) =? frame_bytes then Ok chunk else Err ValueError.

(** Threads sharing the file handle: rawimage.py:122-125. *)
Inductive rpc (B : Type) := RStart (key : Z) | RLocked (key : Z) | RSeeked (key : Z) | RRead (v : result (list B)) | RDone (v : result (list B)).
Arguments RStart {B}. Arguments RLocked {B}. Arguments RSeeked {B}. Arguments RRead {B}. Arguments RDone {B}.
Record rstate (B : Type) := { r_lock : option nat; r_pos : Z; r_pcs : list (rpc B) }.
Arguments r_lock {B}. Arguments r_pos {B}. Arguments r_pcs {B}.
(** Reading [frame_bytes] bytes from the handle's position. *)
Definition read_at {B} (bytes : list B) (frame_bytes pos : Z) : result (list B) :=
  let chunk := firstn (Z.to_nat frame_bytes) (skipn (Z.to_nat pos) bytes) in
  if Z.of_nat (length chunk) =? frame_bytes then Ok chunk else Err ValueError.
Definition rstep {B} (bytes : list B) (frame_bytes skip : Z) (s : rstate B) (w : nat) : option (rstate B) :=
  match nth_error (r_pcs s) w with
  | Some (RStart k) =>
      match r_lock s with
      | Some _ => None
      | None => Some {| r_lock := Some w; r_pos := r_pos s; r_pcs := set_nth w (RLocked k) (r_pcs s) |}
      end
  | Some (RLocked k) =>
      let count := k * frame_bytes + skip in
      if count <? 0 then Some {| r_lock := r_lock s; r_pos := r_pos s; r_pcs := set_nth w (RRead (Err ValueError)) (r_pcs s) |}
      else Some {| r_lock := r_lock s; r_pos := count; r_pcs := set_nth w (RSeeked k) (r_pcs s) |}
  | Some (RSeeked k) =>
      Some {| r_lock := r_lock s; r_pos := r_pos s + frame_bytes;
              r_pcs := set_nth w (RRead (read_at bytes frame_bytes (r_pos s))) (r_pcs s) |}
  | Some (RRead v) => Some {| r_lock := None; r_pos := r_pos s; r_pcs := set_nth w (RDone v) (r_pcs s) |}
  | Some (RDone _) | None => None
  end.
Fixpoint rrun {B} (bytes : list B) (frame_bytes skip : Z) (s : rstate B) (sched : list nat) : option (rstate B) :=
  match sched with
  | [] => Some s
  | w :: r => match rstep bytes frame_bytes skip s w with Some s' => rrun bytes frame_bytes skip s' r | None => None end
  end.
Definition rinit {B} (keys : list Z) : rstate B := {| r_lock := None; r_pos := 0; r_pcs := map RStart keys |}.

(** ** imageseriesiter.py:11-22: iteration over a series of [n] frames; an IndexError from the frame access ends
    the iteration.  The result is the frames produced and the exception that ended it, if any. *)
Fixpoint iterate {A} (get : Z -> result A) (remaining : list Z) : list A * option exn :=
  match remaining with
  | [] => ([], None)
  | k :: r =>
      match get k with
      | Ok a => let '(l, e) := iterate get r in (a :: l, e)
      | Err IndexError => ([], None)
      | Err e => ([], Some e)
      end
  end.
Definition iter_series {A} (get : Z -> result A) (n : Z) : list A * option exn := iterate get (zrange 0 n).
