(** Model of the frame-cache writers and readers:
    hexrd/core/matrixutil.py (extract_ijv), hexrd/core/imageseries/save.py (WriteFrameCache),
    hexrd/core/imageseries/load/framecache.py. *)
From Verif Require Import Prelude ProcessModel.

(** One stored pixel: ((row, col), value).  Rows and columns are kept as uint16. *)
Definition entry : Type := (nat * nat) * Z.
Definition u16 (n : nat) : nat := Z.to_nat (Z.of_nat n mod 65536).

(** A preallocated triple of output arrays (out_i, out_j, out_v). *)
Definition buffer := nat -> entry.
Definition upd {A} (f : nat -> A) (n : nat) (x : A) : nat -> A := fun k => if Nat.eqb k n then x else f k.

(** matrixutil.py:740-751, [extract_ijv]: body of the inner loop; the state is (n, arrays).  Storing an index
    into a uint16 array keeps it modulo 65536. *)
Definition extract_pixel (img : image Z) (threshold : Z) (i : nat) (st : nat * buffer) (j : nat) : nat * buffer :=
  let '(n, out) := st in
  let v := px img i j in
  if (threshold <? v)%Z then (S n, upd out n ((u16 i, u16 j), v)) else (n, out).
Definition extract_ijv (img : image Z) (threshold : Z) (out : buffer) : nat * buffer :=
  fold_left (fun st i => fold_left (extract_pixel img threshold i) (seq 0 (nc img)) st)
            (seq 0 (nr img)) (0, out).

(** The first [count] entries of a buffer: [rows[:count].copy()] etc. *)
Definition prefix (b : buffer) (count : nat) : list entry := map b (seq 0 count).

(** framecache.py:325-329 and 373-379: a frame is rebuilt from its stored entries. *)
Definition rebuild (n m : nat) (ents : list entry) : image Z := toarray (Csr n m ents).

(** ** The fch5 writer, save.py:390-498 *)
(** Where a worker thread stands in [single_array_write_thread]. *)
Inductive wstate :=
| WIdle                                 (* waiting for a task *)
| WExtracted (i count : nat)            (* line 446 done: own buffers filled *)
| WAlloc (i count s e : nat)            (* lines 453-457 done: range [s, e) reserved *)
| WData (i count s e : nat)             (* line 459 done *)
| WIdx (i count s e : nat)              (* line 460 done *)
| WFid (i s e : nat).                   (* line 463 done *)

Record fstate := {
  f_queue : list nat;            (* tasks not yet started, in order *)
  f_ws : list wstate;            (* one entry per thread *)
  f_bufs : list buffer;          (* thread-local buffers *)
  f_pos : nat;                   (* file_position *)
  f_total : nat;                 (* total_size *)
  f_data : nat -> Z;             (* data dataset, by row *)
  f_idx : nat -> nat * nat;      (* indices dataset, by row *)
  f_fids : nat -> nat            (* frame_indices *)
}.

Definition write_range {A} (f : nat -> A) (s e : nat) (src : nat -> A) : nat -> A :=
  fun k => if (Nat.leb s k && Nat.ltb k e)%bool then src (k - s) else f k.

(** One step of thread [w].  Each step is one locked section or one access to a shared object; [None] if
    the thread has nothing to do. *)
Definition fstep (frames : list (image Z)) (threshold : Z) (st : fstate) (w : nat) : option fstate :=
  match nth_error (f_ws st) w, nth_error (f_bufs st) w with
  | Some ws, Some b =>
      match ws with
      | WIdle =>
          match f_queue st with
          | [] => None
          | i :: q =>
              match nth_error frames i with
              | None => None
              | Some img =>
                  let '(count, b') := extract_ijv img threshold b in
                  Some {| f_queue := q; f_ws := set_nth w (WExtracted i count) (f_ws st); f_bufs := set_nth w b' (f_bufs st);
                          f_pos := f_pos st; f_total := f_total st; f_data := f_data st; f_idx := f_idx st; f_fids := f_fids st |}
              end
          end
      | WExtracted i count =>
          let s := f_pos st in
          let e := s + count in
          Some {| f_queue := f_queue st; f_ws := set_nth w (WAlloc i count s e) (f_ws st); f_bufs := f_bufs st;
                  f_pos := e; f_total := f_total st + (e - s); f_data := f_data st; f_idx := f_idx st; f_fids := f_fids st |}
      | WAlloc i count s e =>
          Some {| f_queue := f_queue st; f_ws := set_nth w (WData i count s e) (f_ws st); f_bufs := f_bufs st;
                  f_pos := f_pos st; f_total := f_total st;
                  f_data := write_range (f_data st) s e (fun k => snd (b k)); f_idx := f_idx st; f_fids := f_fids st |}
      | WData i count s e =>
          Some {| f_queue := f_queue st; f_ws := set_nth w (WIdx i count s e) (f_ws st); f_bufs := f_bufs st;
                  f_pos := f_pos st; f_total := f_total st;
                  f_data := f_data st; f_idx := write_range (f_idx st) s e (fun k => fst (b k)); f_fids := f_fids st |}
      | WIdx i count s e =>
          Some {| f_queue := f_queue st; f_ws := set_nth w (WFid i s e) (f_ws st); f_bufs := f_bufs st;
                  f_pos := f_pos st; f_total := f_total st; f_data := f_data st; f_idx := f_idx st;
                  f_fids := upd (f_fids st) (2 * i) s |}
      | WFid i s e =>
          Some {| f_queue := f_queue st; f_ws := set_nth w WIdle (f_ws st); f_bufs := f_bufs st;
                  f_pos := f_pos st; f_total := f_total st; f_data := f_data st; f_idx := f_idx st;
                  f_fids := upd (f_fids st) (2 * i + 1) e |}
      end
  | _, _ => None
  end.

(** save.py:405-487: start of the pool; contents of freshly allocated arrays are arbitrary. *)
Definition finit (n : nat) (bufs : list buffer) (data : nat -> Z) (idx : nat -> nat * nat) (fids : nat -> nat) : fstate :=
  {| f_queue := seq 0 n; f_ws := map (fun _ => WIdle) bufs; f_bufs := bufs; f_pos := 0; f_total := 0;
     f_data := data; f_idx := idx; f_fids := fids |}.

(** A schedule is a list of thread numbers. *)
Fixpoint frun (frames : list (image Z)) (threshold : Z) (st : fstate) (sched : list nat) : option fstate :=
  match sched with
  | [] => Some st
  | w :: t => match fstep frames threshold st w with Some st' => frun frames threshold st' t | None => None end
  end.

Definition is_idle (w : wstate) : bool := match w with WIdle => true | _ => false end.
(** All tasks are done: the executor's [list(...)] returns. *)
Definition ffinished (st : fstate) : bool :=
  match f_queue st with [] => forallb is_idle (f_ws st) | _ => false end.

(** framecache.py:373-379: the entries of frame i in the finished file; the datasets were cut to [total_size]
    rows (save.py:491-492), and h5py clips a slice at the end of the dataset. *)
Definition fch5_read (st : fstate) (i : nat) : list entry :=
  let s := f_fids st (2 * i) in let e := Nat.min (f_fids st (2 * i + 1)) (f_total st) in
  map (fun k => (f_idx st k, f_data st k)) (seq s (e - s)).

(** ** The npz writer, save.py:343-388 *)
Inductive nstate :=
| NStart                           (* thread not initialised *)
| NIdle (b : nat)                  (* owns buffer b *)
| NExtr (b i count : nat)          (* line 367 done *)
| NRow (b i count : nat)           (* line 371 done *)
| NCol (b i count : nat).          (* line 372 done *)

Record npz := {
  n_queue : list nat;
  n_ws : list nstate;
  n_nbuf : nat;                           (* len(buffer_ids) *)
  n_bufs : nat -> buffer;                 (* row/col/val_buffers, by buffer id *)
  n_row : nat -> option (list nat);       (* arrd['i_row'] *)
  n_col : nat -> option (list nat);
  n_data : nat -> option (list Z)
}.

(** One step of thread [w]; the initialiser runs under its lock. *)
Definition nstep (frames : list (image Z)) (threshold : Z) (st : npz) (w : nat) : option npz :=
  match nth_error (n_ws st) w with
  | None => None
  | Some NStart =>
      Some {| n_queue := n_queue st; n_ws := set_nth w (NIdle (n_nbuf st)) (n_ws st); n_nbuf := S (n_nbuf st);
              n_bufs := n_bufs st; n_row := n_row st; n_col := n_col st; n_data := n_data st |}
  | Some (NIdle b) =>
      match n_queue st with
      | [] => None
      | i :: q =>
          match nth_error frames i with
          | None => None
          | Some img =>
              let '(count, b') := extract_ijv img threshold (n_bufs st b) in
              Some {| n_queue := q; n_ws := set_nth w (NExtr b i count) (n_ws st); n_nbuf := n_nbuf st;
                      n_bufs := upd (n_bufs st) b b'; n_row := n_row st; n_col := n_col st; n_data := n_data st |}
          end
      end
  | Some (NExtr b i count) =>
      Some {| n_queue := n_queue st; n_ws := set_nth w (NRow b i count) (n_ws st); n_nbuf := n_nbuf st; n_bufs := n_bufs st;
              n_row := upd (n_row st) i (Some (map (fun e => fst (fst e)) (prefix (n_bufs st b) count)));
              n_col := n_col st; n_data := n_data st |}
  | Some (NRow b i count) =>
      Some {| n_queue := n_queue st; n_ws := set_nth w (NCol b i count) (n_ws st); n_nbuf := n_nbuf st; n_bufs := n_bufs st;
              n_row := n_row st;
              n_col := upd (n_col st) i (Some (map (fun e => snd (fst e)) (prefix (n_bufs st b) count)));
              n_data := n_data st |}
  | Some (NCol b i count) =>
      Some {| n_queue := n_queue st; n_ws := set_nth w (NIdle b) (n_ws st); n_nbuf := n_nbuf st; n_bufs := n_bufs st;
              n_row := n_row st; n_col := n_col st;
              n_data := upd (n_data st) i (Some (map snd (prefix (n_bufs st b) count))) |}
  end.

Definition ninit (n threads : nat) (bufs : nat -> buffer) : npz :=
  {| n_queue := seq 0 n; n_ws := repeat NStart threads; n_nbuf := 0; n_bufs := bufs;
     n_row := fun _ => None; n_col := fun _ => None; n_data := fun _ => None |}.

Fixpoint nrun (frames : list (image Z)) (threshold : Z) (st : npz) (sched : list nat) : option npz :=
  match sched with
  | [] => Some st
  | w :: t => match nstep frames threshold st w with Some st' => nrun frames threshold st' t | None => None end
  end.

Definition n_is_idle (w : nstate) : bool := match w with NIdle _ | NStart => true | _ => false end.
Definition nfinished (st : npz) : bool :=
  match n_queue st with [] => forallb n_is_idle (n_ws st) | _ => false end.

(** framecache.py:325-329: missing keys raise KeyError. *)
Definition npz_read (st : npz) (i : nat) : result (list entry) :=
  match n_row st i, n_col st i, n_data st i with
  | Some r, Some c, Some d => Ok (combine (combine r c) d)
  | _, _, _ => Err KeyError
  end.

(** save.py:348-379: the pool size; [ThreadPoolExecutor(max_workers=0)] raises ValueError. *)
Definition npz_pool (max_workers nframes : nat) : result nat :=
  let num_workers := Nat.min max_workers nframes in
  if Nat.eqb num_workers 0 then Err ValueError else Ok num_workers.

(** ** Metadata in the npz archive *)
(** A key of the archive: the reserved ones and any other string. *)
Inductive fpart := PRow | PCol | PData.
Inductive akey := KShape | KNframes | KDtype | KFrame (i : nat) (p : fpart) | KUser (name : nat).
(** A metadata value: an array (scalars are 0-d arrays) or a nested dictionary. *)
Inductive aval := AArr (l : list Z) | ADict.

(** save.py:283-309, [_process_meta] with [save_omegas=False]: nested dictionaries are dropped. *)
Definition process_meta (meta : akey -> option aval) (k : akey) : option (list Z) :=
  match meta k with Some (AArr l) => Some l | _ => None end.

(** save.py:381-388: the dictionary handed to [np.savez_compressed]; [arrd.update(...)] comes last.
    The shape and the dtype are irrelevant here and modelled as empty arrays. *)
Definition npz_archive (st : npz) (n : nat) (meta : akey -> option aval) (k : akey) : option (list Z) :=
  match process_meta meta k with
  | Some l => Some l
  | None =>
      match k with
      | KShape | KDtype => Some []
      | KNframes => Some [Z.of_nat n]
      | KFrame i PRow => option_map (map Z.of_nat) (n_row st i)
      | KFrame i PCol => option_map (map Z.of_nat) (n_col st i)
      | KFrame i PData => n_data st i
      | KUser _ => None
      end
  end.

(** framecache.py:114-115: [int(arrs["nframes"])]: a one-element array is needed. *)
Definition arch_nframes (a : akey -> option (list Z)) : result nat :=
  match a KNframes with Some [v] => Ok (Z.to_nat v) | Some _ => Err TypeError | None => Err KeyError end.
(** framecache.py:325-329: frame i of an archive. *)
Definition arch_frame (a : akey -> option (list Z)) (i : nat) : result (list entry) :=
  match a (KFrame i PRow), a (KFrame i PCol), a (KFrame i PData) with
  | Some r, Some c, Some d => Ok (combine (combine (map Z.to_nat r) (map Z.to_nat c)) d)
  | _, _, _ => Err KeyError
  end.
(** framecache.py:127-134: the reserved keys, then everything else is metadata. *)
Definition arch_reserved (n : nat) (k : akey) : bool :=
  match k with KShape | KNframes | KDtype => true | KFrame i _ => Nat.ltb i n | KUser _ => false end.
Definition arch_meta (a : akey -> option (list Z)) (k : akey) : result (option (list Z)) :=
  do n <- arch_nframes a;
  Ok (if arch_reserved n k then None else a k).
