(** Model of hexrd/core/imageseries/process.py (ProcessedImageSeries) and of the
    get_region methods it relies on. *)
From Verif Require Import Prelude.
From Coq Require Import String.
Local Notation length := List.length.
Local Open Scope Z_scope.

(** A 2-d numpy array: shape and pixels.  Pixels outside the shape are irrelevant. *)
Record image (A : Type) := Img { nr : nat; nc : nat; px : nat -> nat -> A }.
Arguments Img {A} nr nc px.
Arguments nr {A} i.
Arguments nc {A} i.
Arguments px {A} i.

(** Bounds of a Python slice [a:b] on an axis of length n: negative bounds count from the end, then both are
    clamped to [0, n]. *)
Definition slice_bound (n : nat) (b : Z) : nat :=
  let n' := Z.of_nat n in
  Z.to_nat (Z.min n' (Z.max 0 (if b <? 0 then n' + b else b))).

(** ((r0, r1), (c0, c1)); imageseriesabc.py:6. *)
Definition region : Type := (Z * Z) * (Z * Z).

(** process.py:136-138, [_rectangle]; also load/__init__.py:34-36. *)
Definition rectangle {A} (img : image A) (r : region) : image A :=
  let '((r0, r1), (c0, c1)) := r in
  let a := slice_bound (nr img) r0 in let b := slice_bound (nr img) r1 in
  let c := slice_bound (nc img) c0 in let d := slice_bound (nc img) c1 in
  Img (b - a) (d - c) (fun i j => px img (a + i) (c + j)).

(** numpy views used by [_flip]. *)
Definition rev_rows {A} (img : image A) : image A := Img (nr img) (nc img) (fun i j => px img (nr img - 1 - i) j).
Definition rev_cols {A} (img : image A) : image A := Img (nr img) (nc img) (fun i j => px img i (nc img - 1 - j)).
Definition transpose {A} (img : image A) : image A := Img (nc img) (nr img) (fun i j => px img j i).

Definition in_codes (s : string) (l : list string) : bool := existsb (String.eqb s) l.

(** process.py:140-156, [_flip]. *)
Definition flip {A} (code : string) (img : image A) : image A :=
  if in_codes code ["y"; "v"]%string then rev_cols img
  else if in_codes code ["x"; "h"]%string then rev_rows img
  else if in_codes code ["vh"; "hv"; "r180"]%string then rev_cols (rev_rows img)
  else if in_codes code ["t"; "T"]%string then transpose img
  else if in_codes code ["ccw90"; "r90"]%string then rev_rows (transpose img)
  else if in_codes code ["cw90"; "r270"]%string then rev_cols (transpose img)
  else img.

(** The arithmetic of [img - dark] in the promoted numpy type: exact (signed or float, no overflow), or modulo 2^k for
    an unsigned k-bit type. *)
Inductive arith := Exact | Unsigned (bits : Z).
Definition asub (m : arith) (x y : Z) : Z :=
  match m with Exact => x - y | Unsigned k => (x - y) mod 2 ^ k end.

(** process.py:116-131, [_subtract_dark].  Arrays of different shape raise ValueError (numpy would still broadcast a
    dark with a single row or column; not modelled). *)
Definition subtract_dark (m : arith) (img dark : image Z) : result (image Z) :=
  if Nat.eqb (nr img) (nr dark) && Nat.eqb (nc img) (nc dark)
  then Ok (Img (nr img) (nc img)
             (fun i j => let ret := asub m (px img i j) (px dark i j) in if ret <? 0 then 0 else ret))
  else Err ValueError.

(** process.py:167-173, [np.insert(img, index, 0, axis)] for an int index. *)
Definition insert_pos (n : nat) (index : Z) : result nat :=
  let n' := Z.of_nat n in
  if (index <? - n') || (n' <? index) then Err IndexError
  else Ok (Z.to_nat (if index <? 0 then n' + index else index)).
Definition add_row (img : image Z) (index : Z) : result (image Z) :=
  do p <- insert_pos (nr img) index;
  Ok (Img (S (nr img)) (nc img)
        (fun i j => if Nat.ltb i p then px img i j else if Nat.eqb i p then 0 else px img (i - 1) j)).
Definition add_col (img : image Z) (index : Z) : result (image Z) :=
  do p <- insert_pos (nc img) index;
  Ok (Img (nr img) (S (nc img))
        (fun i j => if Nat.ltb j p then px img i j else if Nat.eqb j p then 0 else px img i (j - 1))).

(** One entry of the operation list.  [OpOther f] stands for "add", "gauss_laplace" and anything registered
    with [addop]: an arbitrary function of the image; [OpUnknown] is a key with no registered function. *)
Inductive op :=
| OpDark (m : arith) (dark : image Z)
| OpFlip (code : string)
| OpRect (r : region)
| OpAddRow (i : Z)
| OpAddCol (i : Z)
| OpOther (f : image Z -> result (image Z))
| OpUnknown.

(** process.py:106-108, [self._opdict[k](img, d)]. *)
Definition apply_op (o : op) (img : image Z) : result (image Z) :=
  match o with
  | OpDark m d => subtract_dark m img d
  | OpFlip c => Ok (flip c img)
  | OpRect r => Ok (rectangle img r)
  | OpAddRow i => add_row img i
  | OpAddCol i => add_col img i
  | OpOther f => f img
  | OpUnknown => Err KeyError
  end.
Fixpoint apply_ops (l : list op) (img : image Z) : result (image Z) :=
  match l with [] => Ok img | o :: t => do img' <- apply_op o img; apply_ops t img' end.

(** A csr frame of the frame-cache reader: shape and stored entries (entries at the same place add up). *)
Record csr := Csr { c_nr : nat; c_nc : nat; c_ent : list ((nat * nat) * Z) }.
Definition toarray (c : csr) : image Z :=
  Img (c_nr c) (c_nc c)
      (fun i j => fold_right (fun e s => if Nat.eqb (fst (fst e)) i && Nat.eqb (snd (fst e)) j then snd e + s else s)
                    0 (c_ent c)).
(** [csr[a:b, c:d]]: entries inside, shifted. *)
Definition csr_slice (c : csr) (r : region) : csr :=
  let '((r0, r1), (c0, c1)) := r in
  let a := slice_bound (c_nr c) r0 in let b := slice_bound (c_nr c) r1 in
  let p := slice_bound (c_nc c) c0 in let q := slice_bound (c_nc c) c1 in
  Csr (b - a) (q - p)
      (map (fun e => ((fst (fst e) - a, snd (fst e) - p)%nat, snd e))
           (filter (fun e => Nat.leb a (fst (fst e)) && Nat.ltb (fst (fst e)) b &&
                             Nat.leb p (snd (fst e)) && Nat.ltb (snd (fst e)) q) (c_ent c))).

(** Frame numbers: a Python int or a numpy integer scalar (which is not an [int] for isinstance). *)
Inductive index := PyInt (z : Z) | NpInt (z : Z).
Definition index_z (i : index) : Z := match i with PyInt z | NpInt z => z end.

(** Imageseries by kind.  [Stored] has the default get_region (array, image files, raw, function ...);
    [Sparse] is the frame-cache reader; [Hdf5_3d] / [Hdf5_2d] the hdf5 reader on a 3-d / 2-d dataset; [Wrapped] is
    ImageSeries(adapter) or OmegaImageSeries(ims), both delegating to the series inside; [Processed] is a
    ProcessedImageSeries over another series. *)
Inductive series :=
| Stored (frames : list (image Z))
| Sparse (frames : list csr)
| Hdf5_3d (frames : list (image Z))
| Hdf5_2d (img : image Z)
| Wrapped (s : series)
| Processed (s : series) (ops : list op) (frame_list : option (list index)).

(** [len(series)]; process.py:73-74, hdf5.py:89-94. *)
Fixpoint s_len (s : series) : nat :=
  match s with
  | Stored l => length l
  | Sparse l => length l
  | Hdf5_3d l => length l
  | Hdf5_2d _ => 1%nat
  | Wrapped s => s_len s
  | Processed s _ None => s_len s
  | Processed _ _ (Some l) => length l
  end.

(** process.py:70-71, [_get_index]. *)
Definition get_index (fl : option (list index)) (k : Z) : result index :=
  match fl with None => Ok (PyInt k) | Some l => py_index l k end.

(** The read [series.get_region(k, r)]: load/__init__.py:34-36, framecache.py:192-196, hdf5.py:82-84 (indexing
    a 2-d dataset by the frame number gives a 1-d row, which two slices cannot index: IndexError),
    baseclass.py:47-48.  ProcessedImageSeries never sets [_adapter], so the inherited method raises AttributeError. *)
Fixpoint s_region (s : series) (k : Z) (r : region) : result (image Z) :=
  match s with
  | Stored l => do img <- py_index l k; Ok (rectangle img r)
  | Sparse l => do c <- py_index l k; Ok (toarray (csr_slice c r))
  | Hdf5_3d l => do img <- py_index l k; Ok (rectangle img r)
  | Hdf5_2d _ => Err IndexError
  | Wrapped s => s_region s k r
  | Processed _ _ _ => Err AttributeError
  end.

(** [series[k]] for a Python int k: process.py:52-114, hdf5.py:65-80, framecache.py [toarray()].
    A numpy integer coming out of the frame list fails [isinstance(key, int)] in [_process_frame] and is then subscripted:
    IndexError. *)
Fixpoint s_get (s : series) (k : Z) : result (image Z) :=
  match s with
  | Stored l => py_index l k
  | Sparse l => do c <- py_index l k; Ok (toarray c)
  | Hdf5_3d l => py_index l k
  | Hdf5_2d img => if k =? 0 then Ok img else Err IndexError
  | Wrapped s => s_get s k
  | Processed s ops fl =>
      do i <- get_index fl k;
      match i with
      | NpInt _ => Err IndexError
      | PyInt idx =>
          match ops with
          | OpRect r :: rest => do img <- s_region s idx r; apply_ops rest img
          | _ => do img <- s_get s idx; apply_ops ops img
          end
      end
  end.

(** [series[k, rows, cols]] on a processed series: the trailing index is applied to the processed frame
    (process.py:110-112); only pairs of slices are modelled. *)
Definition s_get_fancy (s : series) (k : Z) (r : region) : result (image Z) :=
  do img <- s_get s k; Ok (rectangle img r).

(** ** Metadata (process.py:34-41, 175-179, 193-196).  A heap of dictionaries; a dictionary maps keys to values, and the
    omega array is the list of its rows.  Other values are opaque. *)
Inductive mval (O : Type) := MOmega (rows : list O) | MOther (n : Z).
Arguments MOmega {O} rows.
Arguments MOther {O} n.
Definition mdict (O : Type) := list (string * mval O).
Definition mheap (O : Type) := list (mdict O).

Fixpoint dlookup {O} (k : string) (d : mdict O) : option (mval O) :=
  match d with [] => None | (k', v) :: t => if String.eqb k k' then Some v else dlookup k t end.
Fixpoint dset {O} (k : string) (v : mval O) (d : mdict O) : mdict O :=
  match d with
  | [] => [(k, v)]
  | (k', v') :: t => if String.eqb k k' then (k, v) :: t else (k', v') :: dset k v t
  end.

Fixpoint rmap {A B} (f : A -> result B) (l : list A) : result (list B) :=
  match l with [] => Ok [] | x :: t => do y <- f x; do ys <- rmap f t; Ok (y :: ys) end.

(** [omega[frames]]: numpy indexing by a list of integers. *)
Definition take_rows {O} (rows : list O) (frames : list index) : result (list O) :=
  rmap (fun i => py_index rows (index_z i)) frames.

(** process.py:34-41: the constructor on a base series whose metadata is object [loc] of the heap.  Returns the new heap and
    the location of the new series' metadata. *)
Definition new_metadata {O} (h : mheap O) (loc : nat) (fl : option (list index)) : result (mheap O * nat) :=
  let meta := nth loc h [] in
  let new := length h in
  match fl with
  | None => Ok (h ++ [meta], new)
  | Some frames =>
      match dlookup "omega"%string meta with
      | Some (MOmega rows) =>
          do rows' <- take_rows rows frames;
          Ok (h ++ [dset "omega"%string (MOmega rows') meta], new)
      | Some (MOther _) => Err TypeError
      | None => Ok (h ++ [meta], new)
      end
  end.

(** A later assignment [series.metadata[key] = value]. *)
Definition assign_metadata {O} (h : mheap O) (loc : nat) (k : string) (v : mval O) : mheap O :=
  set_nth loc (dset k v (nth loc h [])) h.
