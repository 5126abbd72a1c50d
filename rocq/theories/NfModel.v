(** Model of the near field reconstruction (hedm/grainmap/nfutil.py): the confidence of an orientation at a point, the loop over the
    points in chunks, processes and ranks, and the grain map made from the confidences.  Rationals stand for floating point numbers. *)
From Coq Require Import QArith Qround Qabs Qminmax.
From Verif Require Import Prelude.
Local Open Scope Q_scope.

Definition qlt (a b : Q) : bool := negb (Qle_bool b a).

(** ** one orientation at one point *)

(** a simulated reflection: detector coordinates ([None] is NaN) and omega *)
Record refl := REFL { f_x : option Q; f_y : option Q; f_ome : Q }.
(** the quantization parameters of the experiment (hedm/grainmap/nfutil.py:1336-1346, 1422-1425) *)
Record quant := QUANT { q_base : Q * Q * Q; q_inv : Q * Q * Q; q_clip : Z * Z; q_bsp : Q * Q }.
(** image_stack[z, y, x]: compiled code takes a negative index from the end and does not check the upper bound; reading outside of
    the array (undefined in the code) is IndexError here *)
Definition stack_at (image : list (list (list bool))) (z y x : Z) : result bool :=
  do frame <- py_index image z;
  do row <- py_index frame y;
  py_index row x.
(** hedm/grainmap/nfutil.py:449-486: one pass of the loop, on the pair (in_sensor, matches) *)
Definition quant_step (image : list (list (list bool))) (q : quant) (st : Z * Z) (p : refl) : result (Z * Z) :=
  let '(bx, by_, bz) := q_base q in
  let '(ix, iy, iz) := q_inv q in
  if match f_y p with Some y => qlt (Qabs (y - fst (q_bsp q))) (snd (q_bsp q) / 2) | None => false end then Ok st
  else
    match f_x p with
    | None => Ok st
    | Some x =>
        let xf := Qfloor ((x - bx) * ix) in
        if negb (0 <=? xf)%Z then Ok st
        else if negb (xf <? fst (q_clip q))%Z then Ok st
        else
          match f_y p with
          | None => Ok st
          | Some y =>
              let yf := Qfloor ((y - by_) * iy) in
              if negb (0 <=? yf)%Z then Ok st
              else if negb (yf <? snd (q_clip q))%Z then Ok st
              else
                let zf := Qfloor ((f_ome p - bz) * iz) in
                do b <- stack_at image zf yf xf;
                Ok ((fst st + 1)%Z, if b then (snd st + 1)%Z else snd st)
          end
    end.
(** hedm/grainmap/nfutil.py:426-488 *)
Definition quant_and_clip_confidence (image : list (list (list bool))) (q : quant) (pts : list refl) : result Q :=
  do st <- fold_left (fun acc p => do st <- acc; quant_step image q st p) pts (Ok (0, 0)%Z);
  Ok (if (fst st =? 0)%Z then 0 else inject_Z (snd st) / inject_Z (fst st)).

(** ** the loop over points *)

(** hedm/grainmap/nfutil.py:643-654: [mpi] is (rank, world_size) when there is more than one rank *)
Definition get_offset_size (mpi : option (Z * Z)) (n_coords : Z) : Z * Z :=
  match mpi with
  | None => (0, n_coords)%Z
  | Some (rank, world) =>
      let per := (n_coords / world)%Z in
      let offset := (rank * per)%Z in
      (offset, if (rank =? world - 1)%Z then (n_coords - offset)%Z else per)
  end.
(** range(start, stop, step) *)
Definition py_range (start stop step : Z) : result (list Z) :=
  if (step =? 0)%Z then Err ValueError
  else
    let n := if (0 <? step)%Z then ((stop - start + step - 1) / step)%Z else ((start - stop - step - 1) / (- step))%Z in
    Ok (map (fun k => (start + k * step)%Z) (zrange 0 n)).

Section Loop.
Context {A : Type}.
(** the confidence of grain [g] at point [c]: hedm/grainmap/nfutil.py:896-915 (detector coordinates, then
    quant_and_clip_confidence); the times that are measured are left out *)
Variable conf : Z -> Z -> A.

(** hedm/grainmap/nfutil.py:847-951: the slice that was computed, and one row for each grain *)
Definition grand_loop_inner (n_angles n_coords start : Z) (stop : option Z) : result ((Z * Z) * list (list A)) :=
  let stop := match stop with Some s => Z.min s n_coords | None => n_coords end in
  if (stop - start <? 0)%Z then Err ValueError
  else Ok ((start, stop), map (fun g => map (conf g) (zrange start stop)) (zrange 0 n_angles)).

(** the bound of a slice of a sequence of [n] items *)
Definition slice_pos (n i : Z) : Z := if (i <? 0)%Z then Z.max 0 (i + n) else Z.min i n.
(** confidence[:, a:b] = values: [k] columns of values go into the columns of the slice, a single one is repeated; [None] is a cell of
    numpy.empty that was not written *)
Definition set_columns (size : Z) (m : list (list (option A))) (a b : Z) (k : Z) (values : list (list A)) : result (list (list (option A))) :=
  let lo := slice_pos size a in
  let hi := Z.max lo (slice_pos size b) in
  let put row vals := firstn (Z.to_nat lo) row ++ vals ++ skipn (Z.to_nat hi) row in
  if (k =? hi - lo)%Z then Ok (map (fun rv => put (fst rv) (map Some (snd rv))) (combine m values))
  else if (k =? 1)%Z then Ok (map (fun rv => put (fst rv) (repeat (nth_error (snd rv) 0) (Z.to_nat (hi - lo)))) (combine m values))
  else Err ValueError.
(** hedm/grainmap/nfutil.py:766-771 and 786-791 *)
Definition store (offset size : Z) (m : list (list (option A))) (r : (Z * Z) * list (list A)) : result (list (list (option A))) :=
  let '((a, b), values) := r in set_columns size m (a - offset) (b - offset) (b - a) values.
(** hedm/grainmap/nfutil.py:975-985: the task of a worker *)
Definition multiproc_inner_loop (mpi : option (Z * Z)) (n_grains len_crds chunk_size chunk : Z) : result ((Z * Z) * list (list A)) :=
  let '(offset, size) := get_offset_size mpi len_crds in
  grand_loop_inner n_grains len_crds chunk (Some (Z.min (offset + size) (chunk + chunk_size))).

(** hedm/grainmap/nfutil.py:110-118: ProcessController.finish divides the time taken by the count it was started with *)
Definition finish {B} (count : Z) (x : B) : result B := if (count =? 0)%Z then Err ZeroDivisionError else Ok x.
(** hedm/grainmap/nfutil.py:684-805 up to the gathering of the results: [limit] is the function that ProcessController.limit applies
    to the number of points (lines 136-144; the controller is started with the number of grains and finished, lines 825-843, then with the
    number of points), [order] the order in which imap_unordered hands back the results of the chunks *)
Definition test_orientations (mpi : option (Z * Z)) (n_grains len_crds : Z) (limit : Z -> Z) (chunk_size ncpus : Z) (order : list Z -> list Z)
    : result (list (list (option A))) :=
  do _ <- finish n_grains tt;
  let n_coords := limit len_crds in
  let '(offset, size) := get_offset_size mpi n_coords in
  do chunks <- py_range offset (offset + size) chunk_size;
  let ncpus := Z.min ncpus (Z.of_nat (length chunks)) in
  if (size <? 0)%Z then Err ValueError
  else
    let m0 := repeat (repeat None (Z.to_nat size)) (Z.to_nat n_grains) in
    do m <- (if (1 <? ncpus)%Z then
      fold_left (fun acc chunk => do m <- acc; do r <- multiproc_inner_loop mpi n_grains len_crds chunk_size chunk; store offset size m r)
                (order chunks) (Ok m0)
    else
      fold_left (fun acc chunk_start => do m <- acc;
                   do r <- grand_loop_inner n_grains len_crds chunk_start (Some (Z.min n_coords (chunk_start + chunk_size)));
                   store offset size m r)
                chunks (Ok m0));
    finish n_coords m.
End Loop.

(** ** gathering *)
(** m.T for a matrix of [n] columns *)
Definition columns {A} (m : list (list A)) (n : nat) : list (list A) :=
  map (fun j => flat_map (fun row => match nth_error row j with Some x => [x] | None => [] end) m) (seq 0 n).
Definition blocks_of {A} (k : nat) (n : nat) (l : list A) : list (list A) := map (fun i => firstn k (skipn (i * k) l)) (seq 0 n).
(** hedm/grainmap/nfutil.py:657-678: what rank 0 hands to the controller, from the arrays of all ranks in order.  Buffers that do not
    have the announced length (an error of MPI) are RuntimeError *)
Definition send_counts (n_grains n_coords world : Z) : list Z :=
  let per := (n_coords / world)%Z in
  map (fun r => if (r =? world - 1)%Z then ((n_coords - per * (world - 1)) * n_grains)%Z else (per * n_grains)%Z) (zrange 0 world).
Definition gather_confidence {A} (n_grains n_coords world : Z) (parts : list (list (list A))) : result (list (list A)) :=
  let send := map (fun m => concat (columns m (match m with [] => 0 | row :: _ => length row end)%nat)) parts in
  if negb (forallb (fun p => (Z.of_nat (length (fst p)) =? snd p)%Z) (combine send (send_counts n_grains n_coords world))) then Err RuntimeError
  else Ok (columns (blocks_of (Z.to_nat n_grains) (Z.to_nat n_coords) (concat send)) (Z.to_nat n_grains)).
(** hedm/grainmap/nfutil.py:798-805 on all ranks: what is returned on each rank, and what the controller of rank 0 is handed *)
Fixpoint all_ok {A} (l : list (result A)) : result (list A) :=
  match l with [] => Ok [] | x :: t => do a <- x; do r <- all_ok t; Ok (a :: r) end.
Definition mpi_run {A} (conf : Z -> Z -> A) (world n_grains len_crds : Z) (limit : Z -> Z) (chunk_size ncpus : Z) (order : Z -> list Z -> list Z)
    : result (list (list (list (option A))) * list (list (option A))) :=
  do parts <- all_ok (map (fun rank => test_orientations conf (Some (rank, world)) n_grains len_crds limit chunk_size ncpus (order rank)) (zrange 0 world));
  do whole <- gather_confidence n_grains (limit len_crds) world parts;
  Ok (parts, whole).

(** ** the grain map *)

(** numpy.max and numpy.argmax of a column that is not empty *)
Fixpoint col_best (i : Z) (best : Z) (v : Q) (l : list Q) : Z * Q :=
  match l with
  | [] => (best, v)
  | x :: t => if qlt v x then col_best (i + 1) i x t else col_best (i + 1) best v t
  end.
Definition best_of (l : list Q) : result (Z * Q) := match l with [] => Err ValueError | x :: t => Ok (col_best 1 0 x t) end.
(** the column of a point: its confidences for all the grains *)
Definition column (raw : list (list Q)) (j : nat) : list Q := map (fun row => nth j row 0) raw.
Definition zmax (l : list Z) : result Z := match l with [] => Err ValueError | x :: t => Ok (fold_left Z.max t x) end.
(** hedm/grainmap/nfutil.py:1457-1460: the loop over the grain numbers *)
Definition remap_loop (grain_map : list Z) (id_remap : list Z) (top : Z) : result (list Z) :=
  fold_left (fun acc ii => do copy <- acc; do new <- py_index id_remap ii;
                           Ok (map (fun gc => if (fst gc =? ii)%Z then new else snd gc) (combine grain_map copy)))
            (zrange 0 top) (Ok grain_map).
(** hedm/grainmap/nfutil.py:1438-1463: [raw] has one row for each grain and [n] columns; maps are given as flat lists, the volume they
    are shaped into only has to have the right number of cells *)
Definition process_raw_confidence (raw : list (list Q)) (n : nat) (vol_shape : option (list Z)) (id_remap : option (list Z)) (min_thresh : Q)
    : result (list Z * list Q) :=
  do best <- all_ok (map (fun j => best_of (column raw j)) (seq 0 n));
  do _ <- match vol_shape with
          | None => Ok tt
          | Some s => if (fold_left Z.mul s 1 =? Z.of_nat n)%Z then Ok tt else Err ValueError
          end;
  let confidence_map := map snd best in
  let grain_map := map (fun b => if Qle_bool (snd b) min_thresh then (-1)%Z else fst b) best in
  match id_remap with
  | None => Ok (grain_map, confidence_map)
  | Some ids =>
      do top <- zmax grain_map;
      do g <- remap_loop grain_map ids top;
      Ok (g, confidence_map)
  end.
