(** Model of the scoring of trial orientations, hexrd/hedm/indexer.py (paintGrid), and of Python's [multiprocessing.Pool.map] as it is used there.
    Real numbers stand for floating point numbers; NaN is [None]. *)
From Coq Require Import Reals.
From Verif Require Import Prelude Lin RotModel XfModel UcModel.
Local Open Scope R_scope.
Local Notation length := List.length.

Definition Rltb (a b : R) : bool := if Rlt_dec a b then true else false.
Definition Rleb (a b : R) : bool := if Rle_dec a b then true else false.

(** ** ranges of angles *)
(** indexer.py:969-988 *)
Definition map_angle (angle offset : R) : R := npmod (angle - offset) (2 * PI) + offset.
(** [np.argsort(starts)]; the order of equal starts is not that of numpy's sort *)
Fixpoint insert_range (p : R * R) (l : list (R * R)) : list (R * R) :=
  match l with [] => [p] | q :: t => if Rle_dec (fst p) (fst q) then p :: l else q :: insert_range p t end.
Definition sort_ranges (l : list (R * R)) : list (R * R) := fold_right insert_range [] l.
(** [np.hstack((starts, stops)).ravel()] of two columns *)
Definition ravel (l : list (R * R)) : list R := flat_map (fun p => [fst p; snd p]) l.
(** [np.all(a > b)] with numpy's broadcasting: equal lengths, or one of length one, otherwise ValueError *)
Definition all_greater (a b : list R) : result bool :=
  match a, b with
  | [x], _ => Ok (forallb (fun y => Rltb y x) b)
  | _, [y] => Ok (forallb (fun x => Rltb y x) a)
  | _, _ => if Nat.eqb (length a) (length b) then Ok (forallb (fun p => Rltb (snd p) (fst p)) (combine a b)) else Err ValueError
  end.
(** line 464: [starts[1:] > stops[0:-2]], in the order of the arguments *)
Definition no_overlap (l : list (R * R)) : result bool := all_greater (map fst (skipn 1 l)) (firstn (length l - 2) (map snd l)).
(** indexer.py:390-467; starts and stops of the same length *)
Definition normalize_ranges (ranges : list (R * R)) (offset : R) (ccw : bool) : result (list R) :=
  let ranges := if ccw then map (fun r => (snd r, fst r)) ranges else ranges in
  if negb (forallb (fun r => Rltb (fst r) (snd r)) ranges) then Err ValueError
  else if existsb (fun r => Rltb (fst r + 2 * PI) (snd r + / 10 ^ 8)) ranges then Ok [offset; 2 * PI + offset]
  else
    let ranges := map (fun r => (map_angle (fst r) offset, map_angle (snd r) offset)) ranges in
    let spans := ravel (sort_ranges ranges) in
    match rev spans with
    | stop :: start :: _ =>
        let spans := if Rlt_dec stop start then offset :: stop :: (removelast spans ++ [offset + 2 * PI])%list else spans in
        do ok <- no_overlap ranges;
        if ok then Ok spans else Err ValueError
    | _ => Err IndexError
    end.
(** indexer.py:678-722, the loop of lines 715-720 *)
Fixpoint bisect (fuel : nat) (value : R) (spans : list R) (li ri : nat) : result nat :=
  if (li <? ri)%nat then
    match fuel with
    | O => Err OutOfFuel
    | S f => let mi := ((li + ri) / 2)%nat in
             if Rlt_dec value (nth mi spans 0) then bisect f value spans li mi else bisect f value spans (S mi) ri
    end
  else Ok li.
(** empty spans: IndexError (numba does not check) *)
Definition find_in_range (value : R) (spans : list R) : result Z :=
  match spans with
  | [] => Err IndexError
  | first :: _ =>
      if Rlt_dec value first then Ok (-2)%Z
      else if Rle_dec (last spans 0) value then Ok (-2)%Z
      else do i <- bisect (length spans) value spans 0 (length spans); Ok (Z.of_nat i)
  end.

(** ** hits *)
(** [a > b] with NaN *)
Definition greater (a b : option R) : bool := match a, b with Some x, Some y => Rltb y x | _, _ => false end.
(** one eta-omega map: rows of omega, columns of eta *)
Definition map_at (m : list (list (option R))) (i j : nat) : option R := nth j (nth i m []) None.
(** lines 584-590: the two loops *)
Fixpoint scan (vals : list (option R)) (threshold : option R) : Z :=
  match vals with
  | [] => 0%Z
  | v :: t => if greater v threshold then 1%Z else match v with None => (-1)%Z | Some _ => scan t threshold end
  end.
Definition window (c d n : nat) : list nat := let a := (c - d)%nat in let b := Nat.min (c + d + 1) n in seq a (b - a).
(** indexer.py:522-590; j_max is the number of columns *)
Definition check_dilated (eta ome dpix_eta dpix_ome : nat) (m : list (list (option R))) (j_max : nat) (threshold : option R) : Z :=
  scan (flat_map (fun i => map (map_at m i) (window eta dpix_eta j_max)) (window ome dpix_ome (length m))) threshold.

(** what all reflections share; etaIndices and omeIndices are the identity *)
Record params := Par { p_eta_spans : list R; p_ome_spans : list R; p_eta_edges : list R; p_ome_edges : list R; p_ome_offset : R;
  p_maps : list (list (list (option R))); p_dpix_eta : nat; p_dpix_ome : nat; p_threshold : list (option R) }.
Definition bin (value : R) (edges : list R) : result (option nat) :=
  do i <- find_in_range value edges; Ok (if (i - 1 <? 0)%Z then None else Some (Z.to_nat (i - 1))).
(** indexer.py:725-842: (is_hit, not_filtered); an angle whose tth is a number has an eta *)
Definition angle_is_hit (p : params) (hkl : nat) (ang : oang) : result (Z * Z) :=
  match o_tth ang, o_eta ang with
  | Some _, Some eta =>
      let eta := map_angle eta (- PI) in
      do i <- find_in_range eta (p_eta_spans p);
      if Z.even i then Ok (0, 0)%Z
      else
        let ome := map_angle (o_ome ang) (p_ome_offset p) in
        do i <- find_in_range ome (p_ome_spans p);
        if Z.even i then Ok (0, 0)%Z
        else
          do eta_idx <- bin eta (p_eta_edges p);
          match eta_idx with
          | None => Ok (0, 0)%Z
          | Some e =>
              do ome_idx <- bin ome (p_ome_edges p);
              match ome_idx with
              | None => Ok (0, 0)%Z
              | Some o =>
                  let isHit := check_dilated e o (p_dpix_eta p) (p_dpix_ome p) (nth hkl (p_maps p) []) (length (p_eta_edges p) - 1) (nth hkl (p_threshold p) None) in
                  if (isHit =? -1)%Z then Ok (0, 0)%Z else Ok (isHit, 1%Z)
              end
          end
  | _, _ => Ok (0, 0)%Z
  end.
(** indexer.py:845-966; the rows are the pairs of solutions *)
Fixpoint count_hits (p : params) (ix : list nat) (i curr end_curr : nat) (hits total : Z) (rows : list (oang * oang)) : result R :=
  match rows with
  | [] => Ok (if (total =? 0)%Z then 0 else IZR hits / IZR total)
  | (a, b) :: t =>
      do ce <- (if (end_curr <=? i)%nat then match nth_error ix (S curr + 1) with Some e => Ok (S curr, e) | None => Err IndexError end else Ok (curr, end_curr));
      do h0 <- angle_is_hit p (fst ce) a;
      do h1 <- angle_is_hit p (fst ce) b;
      count_hits p ix (S i) (fst ce) (snd ce) (hits + fst h0 + fst h1) (total + snd h0 + snd h1) t
  end.
Definition filter_and_count_hits (p : params) (ix : list nat) (rows : list (oang * oang)) : result R :=
  match nth_error ix 1 with Some e => count_hits p ix 0 0 e 0 0 rows | None => Err IndexError end.
(** the rows that [oscill_angles_of_hkls] returns: NaN without solution (and, here, in the degenerate case) *)
Definition nan_row : oang := OAng None None 0.
Definition solution_rows (r : oresult) : oang * oang := match r with Solutions a b => (a, b) | _ => (nan_row, nan_row) end.

(** ** paintGrid, indexer.py:111-357 *)
Record maps := Maps { mp_stars : list (list v3) (* the symmetric HKLs of each listed reflection *); mp_data : list (list (list (option R)));
  mp_eta_edges : list R; mp_ome_edges : list R; mp_wavelength : R; mp_bmat : m3 }.
(** [np.mean], [np.median]: NaN if there is one *)
Fixpoint all_values (l : list (option R)) : option (list R) :=
  match l with [] => Some [] | None :: _ => None | Some x :: t => match all_values t with Some r => Some (x :: r) | None => None end end.
Fixpoint insert_value (x : R) (l : list R) : list R := match l with [] => [x] | y :: t => if Rle_dec x y then x :: l else y :: insert_value x t end.
Definition sum (l : list R) : R := fold_right Rplus 0 l.
Definition mean (l : list R) : R := sum l / INR (length l).
Definition median (l : list R) : R :=
  let s := fold_right insert_value [] l in let n := length s in
  (nth ((n - 1) / 2) s 0 + nth (n / 2) s 0) / 2.
Inductive threshold_arg := Auto | Scalar (t : R) | PerHkl (l : list R).
(** lines 230-249 *)
Definition thresholds (t : threshold_arg) (data : list (list (list (option R)))) : result (list (option R)) :=
  match t with
  | Auto => Ok (map (fun m => match all_values (concat m) with Some (v :: l) => Some ((mean (v :: l) + median (v :: l)) / 2) | _ => None end) data)
  | Scalar t => Ok (map (fun _ => Some t) data)
  | PerHkl l => if Nat.eqb (length l) (length data) then Ok (map Some l) else Err RuntimeError
  end.
(** lines 646-649 *)
Definition dilation (tol : R) (edges : list R) : nat := Z.to_nat (rint (tol / Rabs (nth 1 edges 0 - nth 0 edges 0))).
(** [np.add.accumulate([0] + ...)], line 315 *)
Fixpoint partition_from (k : nat) (stars : list (list v3)) : list nat := match stars with [] => [k] | s :: t => k :: partition_from (k + length s) t end.
(** [min] and [max] of the omega edges, [min(omePeriod)] *)
Definition least (l : list R) : R := fold_right Rmin (hd 0 l) l.
Definition greatest (l : list R) : R := fold_right Rmax (hd 0 l) l.
(** the parameters, lines 250-337, and paintgrid_init, lines 470-504; tolerances are not negative *)
Definition paint_params (m : maps) (threshold : threshold_arg) (omegaRange etaRange : option (list (R * R))) (omeTol etaTol : R) (omePeriod : list R) : result params :=
  do thr <- thresholds threshold (mp_data m);
  let ome := match omegaRange with None => [(least (mp_ome_edges m), greatest (mp_ome_edges m))] | Some r => r end in
  let eta := match etaRange with None => [(- PI, PI)] | Some r => r end in
  do eta_spans <- normalize_ranges eta (- PI) false;
  do ome_spans <- normalize_ranges ome (least omePeriod) false;
  Ok (Par eta_spans ome_spans (mp_eta_edges m) (mp_ome_edges m) (least omePeriod) (mp_data m) (dilation etaTol (mp_eta_edges m)) (dilation omeTol (mp_ome_edges m)) thr).
(** paintGridThis, lines 593-675: chi is 0, beam and eta vectors are the defaults (0, 0, -1) and (1, 0, 0) *)
Definition paint_this (m : maps) (p : params) (quat : q4) : result R :=
  filter_and_count_hits p (partition_from 0 (mp_stars m))
    (map solution_rows (oscill_angles_of_hkls (concat (mp_stars m)) 0 (rotMatOfQuat quat) (mp_bmat m) (mp_wavelength m) None (V3 0 0 (-1)) (V3 1 0 0))).

(** ** multiprocessing.Pool.map (CPython 3, Lib/multiprocessing/pool.py: _map_async, _get_tasks, MapResult) *)
Section Pool.
Context {A B : Type}.
Variable f : A -> B.
(** _get_tasks: successive slices, until one is empty *)
Definition chunk (size : nat) (xs : list A) (i : nat) : list A := firstn size (skipn (i * size) xs).
(** MapResult._set: the results of chunk i replace [value[i*size : (i+1)*size]] *)
Definition store (size : nat) (value : list (option B)) (i : nat) (res : list B) : list (option B) :=
  (firstn (i * size) value ++ map Some res ++ skipn ((i + 1) * size) value)%list.
(** the workers finish the chunks in the order [done]; with a chunk size of zero MapResult is ready at once *)
Definition pool_map (size : nat) (xs : list A) (done : list nat) : list (option B) :=
  if Nat.eqb size 0 then repeat None (length xs)
  else fold_left (fun value i => store size value i (map f (chunk size xs i))) done (repeat None (length xs)).
Definition number_of_chunks (size n : nat) : nat := (n / size + if (n mod size =? 0)%nat then 0 else 1)%nat.
End Pool.
(** lines 296-298 *)
Definition paint_chunk (n ncpus : nat) : nat := Nat.min (n / ncpus) 10.
