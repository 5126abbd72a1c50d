(** Model of the eta-omega maps: numpy.histogram with given edges, the eta edges of make_powder_rings
    (core/instrument/detector.py), _generate_ring_params, _run_histograms and extract_polar_maps
    (core/instrument/hedm_instrument.py), and the packing of the detectors in GenerateEtaOmeMaps
    (hedm/instrument/generate_eta_omega_maps.py).  Real numbers stand for floating point numbers; [None] is a NaN. *)
From Coq Require Import Reals List ZArith.
From Verif Require Import Prelude Lin TensorModel RotModel TasksModel FibModel.
Import ListNotations.
Local Open Scope R_scope.

(** a number of an array, or NaN *)
Definition cell := option R.
Definition oadd (a b : cell) : cell := match a, b with Some x, Some y => Some (x + y) | _, _ => None end.
Definition osub (a b : cell) : cell := match a, b with Some x, Some y => Some (x - y) | _, _ => None end.
Definition osum (l : list cell) : cell := fold_right oadd (Some 0) l.

Definition rlt (a b : R) : bool := if Rlt_dec a b then true else false.

(** ** numpy.histogram(a, bins=edges, weights=w), for edges given as an array *)
(** the check of the edges (numpy, _get_bin_edges): they must not decrease *)
Fixpoint sorted (l : list R) : bool :=
  match l with
  | a :: ((b :: _) as t) => rle a b && sorted t
  | _ => true
  end.
(** numpy, _search_sorted_inclusive: a value counts as before edge k if it is less than it, or at most equal to it for
    the last edge *)
Definition before (edges : list R) (k : nat) (x : R) : bool :=
  let e := nth k edges 0 in if Nat.eqb k (List.length edges - 1) then rle x e else rlt x e.
(** numpy adds up the weights of the sorted values and takes the differences of the running sum at the edges; a NaN
    weight makes every later running sum NaN *)
Definition running (edges : list R) (xs : list (R * cell)) (k : nat) : cell :=
  osum (map snd (filter (fun p => before edges k (fst p)) xs)).
Definition hist_weights (edges : list R) (xs : list (R * cell)) : result (list cell) :=
  if sorted edges
  then Ok (map (fun k => osub (running edges xs (S k)) (running edges xs k)) (seq 0 (List.length edges - 1)))
  else Err ValueError.
(** without weights the values are counted *)
Definition counted (edges : list R) (xs : list R) (k : nat) : Z := Z.of_nat (List.length (filter (before edges k) xs)).
Definition hist_counts (edges : list R) (xs : list R) : result (list Z) :=
  if sorted edges
  then Ok (map (fun k => (counted edges xs (S k) - counted edges xs k)%Z) (seq 0 (List.length edges - 1)))
  else Err ValueError.

(** ** detector.py:1434-1442, the eta edges in radians for bins of [delta] degrees *)
(** Python's int() of a real number: towards zero *)
Definition py_int (x : R) : Z := if Rle_dec 0 x then Int_part x else (- Int_part (- x))%Z.
Definition eta_edges (delta : R) (period : R * R) : result (list R) :=
  if Req_EM_T delta 0 then Err ZeroDivisionError
  else
    let num := (py_int (360 / delta) + 1)%Z in
    if (num <? 0)%Z then Err ValueError
    else map_res (fun k => mapAngle (delta * INR k * (PI / 180) + fst period) (Some period) ARad) (seq 0 (Z.to_nat num)).

(** ** a detector: the two-theta and eta of its pixels (the two arrays, flattened) and its frames (each flattened the
    same way) *)
Definition pix := (R * R)%type.
Definition image := list cell.
Record view := View { v_pix : list pix; v_ims : list image }.

(** hedm_instrument.py:2515-2530, [_generate_ring_params]; the result [None] marks a ring that is not on the detector *)
Record rparams := RParams { r_etas : list R; r_ids : list nat; r_bins : list nat }.
Definition in_range (tthr : R * R) (p : pix) : bool := rle (fst tthr) (fst p) && rle (fst p) (snd tthr).
Definition ring_ids (tthr : R * R) (px : list pix) : list nat :=
  filter (fun i => in_range tthr (nth i px (0, 0))) (seq 0 (List.length px)).
Definition ring_params (edges : list R) (px : list pix) (tthr : R * R) : result (option rparams) :=
  let ids := ring_ids tthr px in
  match ids with
  | [] => Ok None
  | _ =>
      let etas := map (fun i => snd (nth i px (0, 0))) ids in
      do h <- hist_counts edges etas;
      Ok (Some (RParams etas ids (filter (fun b => negb (Z.eqb (nth b h 0%Z) 0)) (seq 0 (List.length h)))))
  end.

(** 2538-2541, the threshold: smaller values become zero; comparisons with a NaN are false *)
Definition threshold_cell (threshold : option R) (c : cell) : cell :=
  match threshold, c with
  | Some t, Some v => if rlt v t then Some 0 else Some v
  | _, _ => c
  end.
(** the fancy index [image[pixel_ids]] *)
Definition take (im : image) (ids : list nat) : result (list cell) :=
  map_res (fun i => match nth_error im i with Some c => Ok c | None => Err IndexError end) ids.

(** the maps of one detector, by ring, row (frame) and column (eta bin).  Simplification: the array is a function of the
    three indices. *)
Definition maps := nat -> nat -> nat -> cell.
Definition nan_maps : maps := fun _ _ _ => None.
(** 2556, [this_map[i_row, bins] = result[bins]] *)
Definition write (m : maps) (ring row : nat) (bins : list nat) (h : list cell) : maps :=
  fun r f b => if Nat.eqb r ring && Nat.eqb f row && existsb (Nat.eqb b) bins then nth b h None else m r f b.
(** 2543-2556 for one frame and one ring *)
Definition one_write (edges : list R) (threshold : option R) (params : list (option rparams)) (ims : list image)
    (m : maps) (ev : nat * nat) : result maps :=
  let '(row, ring) := ev in
  match nth_error ims row with
  | None => Err IndexError
  | Some im =>
      match nth_error params ring with
      | None => Err IndexError
      | Some None => Ok m
      | Some (Some p) =>
          do ws <- take (map (threshold_cell threshold) im) (r_ids p);
          do h <- hist_weights edges (combine (r_etas p) ws);
          Ok (write m ring row (r_bins p) h)
      end
  end.
Fixpoint run_writes (edges : list R) (threshold : option R) (params : list (option rparams)) (ims : list image)
    (evs : list (nat * nat)) (m : maps) : result maps :=
  match evs with
  | [] => Ok m
  | ev :: t => do m' <- one_write edges threshold params ims m ev; run_writes edges threshold params ims t m'
  end.

(** hedm_instrument.py:1167-1199: the rows are dealt out to the workers, each of which visits its rows in order and, for
    each row, the rings in order; the workers' writes interleave in any way *)
Definition task_events (nrings : nat) (task : Z * Z) : list (nat * nat) :=
  flat_map (fun row => map (fun ring => (Z.to_nat row, ring)) (seq 0 nrings)) (zrange (fst task) (snd task)).
(** all the ways to interleave several lists, keeping the order of each *)
Inductive merged {A} : list (list A) -> list A -> Prop :=
| merged_nil : forall ls, Forall (fun l => l = []) ls -> merged ls []
| merged_cons : forall l1 l2 x t out, merged (l1 ++ t :: l2) out -> merged (l1 ++ (x :: t) :: l2) (x :: out).
Definition schedule (workers : Z) (nrows nrings : nat) (evs : list (nat * nat)) : Prop :=
  exists tasks, distribute_tasks (Z.of_nat nrows) workers = Ok tasks /\
  if Z.eqb workers 1 || Nat.eqb (List.length tasks) 1
  then evs = flat_map (task_events nrings) tasks
  else merged (map (task_events nrings) tasks) evs.
(** 1127-1201 for one detector; an instrument with fewer than two edges fails at line 1127 *)
Definition polar_maps (edges : list R) (ranges : list (R * R)) (threshold : option R) (evs : list (nat * nat)) (v : view)
    : result maps :=
  if Nat.ltb (List.length edges) 2 then Err IndexError
  else
    do params <- map_res (ring_params edges (v_pix v)) ranges;
    run_writes edges threshold params (v_ims v) evs nan_maps.

(** ** generate_eta_omega_maps.py:112-126: the sum over the detectors, cell by cell, without the NaNs *)
Definition pack_cell (cs : list cell) : cell :=
  let full := fold_left (fun acc c => match c with Some x => acc + x | None => acc end) cs 0 in
  let mask := map (fun c : cell => match c with Some _ => true | None => false end) cs in
  if Nat.eqb (List.length (filter (fun b => b) mask)) 0 then None else Some full.
Definition pack (ms : list maps) : maps := fun r f b => pack_cell (map (fun m => m r f b) ms).
