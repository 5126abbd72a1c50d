(** Model of hexrd/core/imageseries/stats.py. *)
From Verif Require Import Prelude.

(** [_nframes], stats.py:247-250: number of frames to use.  [nframes] may be any
    int; values <= 0 mean "all". *)
Definition nframes_used (len : nat) (nframes : Z) : nat :=
  if (0 <? nframes)%Z then Nat.min len (Z.to_nat nframes) else len.

(** np.cumsum. *)
Fixpoint cumsum_from (a : Z) (l : list Z) : list Z :=
  match l with [] => [] | x :: t => (a + x)%Z :: cumsum_from (a + x)%Z t end.

(** [_chunk_stops], stats.py:253-267.  [nchunks > n] raises ValueError;
    [n // 0] raises ZeroDivisionError; [np.ones] of a negative length raises
    ValueError. *)
Definition chunk_stops (n nchunks : Z) : result (list Z) :=
  if (nchunks >? n)%Z then Err ValueError
  else if (nchunks =? 0)%Z then Err ZeroDivisionError
  else
    let csize := (n / nchunks)%Z in
    let rem := (n mod nchunks)%Z in
    if (nchunks <? 0)%Z then Err ValueError
    else
      let pieces := map (fun i => (csize + if (i <? rem)%Z then 1 else 0)%Z) (zrange 0 nchunks) in
      match pieces with
      | [] => Err IndexError
      | p0 :: ps => Ok (cumsum_from 0 ((p0 - 1)%Z :: ps))
      end.

(** The frame loop shared by [max_iter], [min_iter], [sum_iter] and
    [average_iter], stats.py:57-77, 89-108, 121-144, 153-175.
    - [A]: frames, [B]: accumulator image, [C]: yielded image;
    - [init]: [ims[0]] or [ims[0].astype(..)]; [op]: [np.maximum(img, f)] or [img += f];
    - [out i img]: what is yielded after frame [i] ([img], [img.copy()] or
      [img / (i + 1)]); [out0 img]: what is yielded when the first stop is 0.
    The generator is modelled by the list of its yields together with the
    exception (if any) that ends it.  In [max_iter]/[min_iter] the yield comes before the
    stop is advanced, in the other two after; since nothing observable happens
    between, both are this loop. *)
Section IterLoop.
  Context {A B C : Type}.
  Variables (init : A -> B) (op : B -> A -> B) (out : nat -> B -> C) (out0 : B -> C).

  (** [for i in range(1, nf)]: [frames] are [ims[i], ims[i+1], ..., ims[nf-1]]. *)
  Fixpoint iter_loop (i nf : nat) (stops : list Z) (s0 : nat) (stop : Z)
           (img : B) (frames : list A) : list C * option exn :=
    match frames with
    | [] => ([], None)
    | f :: rest =>
        let img' := op img f in
        if (stop <=? Z.of_nat i)%Z then
          if Nat.ltb (i + 1) nf then
            match nth_error stops (S s0) with
            | None => ([out i img'], Some IndexError)
            | Some stop' =>
                let (ys, e) := iter_loop (i + 1) nf stops (S s0) stop' img' rest in
                (out i img' :: ys, e)
            end
          else let (ys, e) := iter_loop (i + 1) nf stops s0 stop img' rest in
               (out i img' :: ys, e)
        else iter_loop (i + 1) nf stops s0 stop img' rest
    end.

  (** Whole generator: [ims] is the imageseries as a list of frames. *)
  Definition stat_iter (ims : list A) (nchunk nframes : Z) : list C * option exn :=
    let nf := nframes_used (length ims) nframes in
    match chunk_stops (Z.of_nat nf) nchunk with
    | Err e => ([], Some e)
    | Ok stops =>
        match stops, ims with
        | [], _ => ([], Some IndexError)          (* stops[0] *)
        | _, [] => ([], Some IndexError)          (* ims[0] *)
        | stop :: _, f0 :: rest =>
            let img := init f0 in
            let frames := firstn (nf - 1) rest in
            if (stop =? 0)%Z then
              if Nat.ltb 1 nf then
                match nth_error stops 1 with
                | None => ([], Some IndexError)
                | Some stop' =>
                    let (ys, e) := iter_loop 1 nf stops 1 stop' img frames in
                    (out0 img :: ys, e)
                end
              else let (ys, e) := iter_loop 1 nf stops 0 stop img frames in
                   (out0 img :: ys, e)
            else iter_loop 1 nf stops 0 stop img frames
        end
    end.

  (** One-shot loop: [img = ims[0]; for i in range(1, nf): img = op(img, ims[i])],
      stats.py:48-54, 80-86, 111-118, 147-150, 231-244. *)
  Definition stat_once (ims : list A) (nframes : Z) : result B :=
    let nf := nframes_used (length ims) nframes in
    match ims with
    | [] => Err IndexError
    | f0 :: rest => Ok (fold_left op (firstn (nf - 1) rest) (init f0))
    end.
End IterLoop.

(** Images are flattened lists of pixels. *)
Definition map2 {X Y Z} (f : X -> Y -> Z) (a : list X) (b : list Y) : list Z :=
  map (fun p => f (fst p) (snd p)) (combine a b).

(** ** Row-chunked percentile, stats.py:178-228, 270-325.
    A frame is a list of rows; [prow] computes [np.percentile(.., axis=0)] for one
    row position from that row of every frame (np.percentile along axis 0 acts on each
    pixel separately, hence on each row separately). *)
Section Percentile.
  Context {row orow : Type}.
  Variable prow : list row -> orow.
  Variable zero : orow.                         (* np.zeros *)
  Notation frame := (list row).

  Definition slice {X} (r0 r1 : nat) (l : list X) : list X := firstn (r1 - r0) (skipn r0 l).

  (** transpose-like access: row [r] of each frame in [a]. *)
  Definition percentile_rows (a : list (list row)) (nrows : nat) : list orow :=
    map (fun r => prow (flat_map (fun f => match nth_error f r with Some x => [x] | None => [] end) a))
        (seq 0 nrows).

  (** [percentile], stats.py:178-188 *)
  Definition percentile_once (ims : list frame) (nr nf : nat) : list orow :=
    percentile_rows (map (slice 0 nr) (firstn nf ims)) nr.

  (** [_toarray] with [rows=(r0,r1)], stats.py:270-312; returns the array and the
      (possibly refilled) buffer.  [buffer = None] means no buffer.  The buffer
      holds [length b] frames. *)
  Definition toarray (ims : list frame) (nf r0 r1 : nat) (buffer : option (list frame))
    : list (list row) * option (list frame) :=
    match buffer with
    | None => (map (slice r0 r1) (firstn nf ims), None)
    | Some b =>
        let nbf := length b in
        let b' := if Nat.eqb r0 0 then firstn nbf ims else b in
        (map (slice r0 r1) b' ++ map (slice r0 r1) (skipn nbf (firstn nf ims)), Some b')
    end.

  (** [percentile_iter], stats.py:191-211: loop over the row stops. *)
  Fixpoint percentile_loop (ims : list frame) (nf r0 : nat) (stops : list Z)
           (img : list orow) (buffer : option (list frame)) : list (list orow) :=
    match stops with
    | [] => []
    | s :: rest =>
        let r1 := Z.to_nat (s + 1) in
        let (a, buffer') := toarray ims nf r0 r1 buffer in
        let img' := firstn r0 img ++ percentile_rows a (r1 - r0) ++ skipn r1 img in
        img' :: percentile_loop ims nf r1 rest img' buffer'
    end.

  (** [buf0] is the freshly allocated buffer ([np.empty]: arbitrary contents). *)
  Definition percentile_iter (ims : list frame) (nr : nat) (nchunks nframes : Z)
             (buf0 : option (list frame)) : result (list (list orow)) :=
    let nf := nframes_used (length ims) nframes in
    match chunk_stops (Z.of_nat nr) nchunks with
    | Err e => Err e
    | Ok stops => Ok (percentile_loop ims nf 0 stops (repeat zero nr) buf0)
    end.
End Percentile.

(** ** Aliasing model for [sum_iter] / [average_iter] (stats.py:121-144, 153-175).
    The heap maps locations to images; a yield hands out a location.  [img] lives
    at location 0; [img += f] overwrites it in place; [img.copy()] and
    [img / (i+1)] allocate. *)
Section Heap.
  Context {A B : Type}.
  Variables (init : A -> B) (op : B -> A -> B) (fresh : nat -> B -> B).
  (** [fresh i img] is the content of the newly allocated yield after frame i *)
  Variable first_copies : bool.   (* true: sum_iter yields img.copy() first; false: average_iter yields img *)

  Definition heap := list B.      (* location = position *)

  Record yielded := { y_loc : nat; y_val : B }.  (* location and its content when yielded *)

  Fixpoint heap_loop (i nf : nat) (stops : list Z) (s0 : nat) (stop : Z)
           (h : heap) (frames : list A) : list yielded * heap :=
    match frames, h with
    | [], _ => ([], h)
    | _, [] => ([], h)
    | f :: rest, img :: htl =>
        let img' := op img f in
        let h1 := img' :: htl in
        if (stop <=? Z.of_nat i)%Z then
          let v := fresh i img' in
          let y := {| y_loc := length h1; y_val := v |} in
          let h2 := h1 ++ [v] in
          if Nat.ltb (i + 1) nf then
            match nth_error stops (S s0) with
            | None => ([y], h2)
            | Some stop' =>
                let (ys, hf) := heap_loop (i + 1) nf stops (S s0) stop' h2 rest in (y :: ys, hf)
            end
          else let (ys, hf) := heap_loop (i + 1) nf stops s0 stop h2 rest in (y :: ys, hf)
        else heap_loop (i + 1) nf stops s0 stop h1 rest
    end.

  Definition heap_iter (ims : list A) (nchunk nframes : Z) : list yielded * heap :=
    let nf := nframes_used (length ims) nframes in
    match chunk_stops (Z.of_nat nf) nchunk with
    | Err _ => ([], [])
    | Ok stops =>
        match stops, ims with
        | [], _ => ([], [])
        | _, [] => ([], [])
        | stop :: _, f0 :: rest =>
            let img := init f0 in
            let frames := firstn (nf - 1) rest in
            if (stop =? 0)%Z then
              let y := if first_copies then {| y_loc := 1; y_val := img |}
                       else {| y_loc := 0; y_val := img |} in
              let h := if first_copies then [img; img] else [img] in
              if Nat.ltb 1 nf then
                match nth_error stops 1 with
                | None => ([], h)
                | Some stop' =>
                    let (ys, hf) := heap_loop 1 nf stops 1 stop' h frames in (y :: ys, hf)
                end
              else let (ys, hf) := heap_loop 1 nf stops 0 stop h frames in (y :: ys, hf)
            else heap_loop 1 nf stops 0 stop [img] frames
        end
    end.

  (** Content of a yielded image once the generator has been exhausted. *)
  Definition stable (r : list yielded * heap) : Prop :=
    forall y, In y (fst r) -> nth_error (snd r) (y_loc y) = Some (y_val y).
End Heap.
