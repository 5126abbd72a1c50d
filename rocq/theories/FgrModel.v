(** Model of grain fitting: hedm/fitgrains.py and hedm/fitting/grains.py.  Real numbers stand for floating point numbers; [None] is
    a NaN (or, for chi squared, infinity where said so). *)
From Coq Require Import Reals List ZArith.
From Verif Require Import Prelude Lin TensorModel RotModel FibModel EomModel.
Import ListNotations.
Local Open Scope R_scope.
Local Notation length := List.length.

(** ** one grain: fitgrains.py:62-215, [fit_grain_FF_reduced] *)
Section OneGrain.
(** [P]: the twelve parameters; [Spots]: what pull_spots returns; [Culled]: the valid reflections; [Sim]: simulated positions.
    The instrument, the images and the optimiser are parameters of the model *)
Context {P Tol Spots Culled Sim Refit : Type}.
Variable pull : Tol * Tol * Tol -> P -> Spots.
Variable validate : Spots -> result (Culled * nat * R).
(** grains.py:33-139, [fitGrain]: writes into its argument, also when it raises (the objective function does, grains.py:219) *)
Variable fit : P -> Culled -> P * result unit.
Variable chi : P -> Culled -> result R.
Variable sim : P -> Culled -> result Sim.
Variable refine : Refit -> Culled -> Sim -> result (Culled * nat).

(** what the loop 112-167 leaves: an early return (completeness), or the values of its variables *)
Inductive looped := Early (compl : R) | Through (compl chisq : R) (culled : Culled).
(** 112-167, the loop over the tolerances; [last] is what the variables hold after the previous round.  The first component is
    the parameters, which are updated in place, also with an error *)
Fixpoint tol_loop (tols : list (Tol * Tol * Tol)) (last : option (R * R * Culled)) (p : P) : P * result looped :=
  match tols with
  | [] => (p, match last with Some (c, x, k) => Ok (Through c x k) | None => Err LookupError (* names not bound *) end)
  | t :: ts =>
      match validate (pull t p) with
      | Err e => (p, Err e)
      | Ok (culled, n, compl) =>
          if Nat.leb n 12 then (p, Ok (Early compl))
          else match fit p culled with
               | (p', Err e) => (p', Err e)
               | (p', Ok _) => match chi p' culled with
                               | Err e => (p', Err e)
                               | Ok x => tol_loop ts (Some (compl, x, culled)) p'
                               end
               end
      end
  end.
(** python's zip of three lists *)
Definition zip3 {A B C} (a : list A) (b : list B) (c : list C) : list (A * B * C) := combine (combine a b) c.
(** 109-215: the parameters left in the row, and the completeness and chi squared ([None]: infinite) returned *)
Definition fit_grain (tth eta ome : list Tol) (refit : option Refit) (p : P) : P * result (R * option R) :=
  match tol_loop (zip3 tth eta ome) None p with
  | (q, Err e) => (q, Err e)
  | (q, Ok (Early c)) => (q, Ok (c, None))
  | (q, Ok (Through c x culled)) =>
      match refit with
      | None => (q, Ok (c, Some x))
      | Some r =>
          match (do s <- sim q culled; refine r culled s) with
          | Err e => (q, Err e)
          | Ok (culled', n) =>
              if Nat.leb n 12 then (q, Ok (c, Some x))
              else match fit q culled' with
                   | (q', Err e) => (q', Err e)
                   | (q', Ok _) => match chi q' culled' with
                                   | Err e => (q', Err e)
                                   | Ok x' => (q', Ok (c, Some x'))
                                   end
                   end
          end
      end
  end.
End OneGrain.

(** ** all grains: fitgrains.py:374-500, [fit_grains].  Simplifications: cancelling, return_pull_spots_data and the spots files are
    left out *)
Section AllGrains.
Context {P : Type}.
Variable one : P -> P * result (R * option R). (* [fit_grain] with its settings *)
(** the table: the number in the first column and the parameters of a row.  Simplification: the other columns are left out *)
Definition table := list (Z * P).
(** numpy's index of a row *)
Definition row_index (n : nat) (k : Z) : option nat :=
  if ((0 <=? k) && (k <? Z.of_nat n))%Z then Some (Z.to_nat k)
  else if ((- Z.of_nat n <=? k) && (k <? 0))%Z then Some (Z.to_nat (k + Z.of_nat n)) else None.
(** 109-110: the row is looked up by the number of the grain; its parameters are a view of the table, and so are the parameters in
    the tuple returned: the number, the row viewed, completeness and chi squared *)
Record viewed := Viewed { v_id : Z; v_row : nat; v_compl : R; v_chisq : option R }.
Definition task (t : table) (gid : Z) : table * result viewed :=
  match row_index (length t) gid with
  | None => (t, Err IndexError)
  | Some i => match nth_error t i with
              | None => (t, Err IndexError)
              | Some (k, p) => let (q, r) := one p in (set_nth i (k, q) t, do cx <- r; Ok (Viewed gid i (fst cx) (snd cx)))
              end
  end.
(** 452-454: one after the other; the first error ends it *)
Fixpoint run (t : table) (ids : list Z) : table * result (list viewed) :=
  match ids with
  | [] => (t, Ok [])
  | g :: gs => match task t g with
               | (t', Err e) => (t', Err e)
               | (t', Ok r) => let (t'', rs) := run t' gs in (t'', do l <- rs; Ok (r :: l))
               end
  end.
(** what a view shows when it is read *)
Record fitted := Fitted { f_id : Z; f_compl : R; f_chisq : option R; f_params : P }.
Definition read_view (t : table) (v : viewed) : result fitted :=
  match nth_error t (v_row v) with
  | Some (_, p) => Ok (Fitted (v_id v) (v_compl v) (v_chisq v) p)
  | None => Err IndexError
  end.
(** 448-456: the views are read by the caller, after the last fit *)
Definition serial (t : table) (ids : list Z) : table * result (list fitted) :=
  let (t', r) := run t ids in (t', do vs <- r; map_res (read_view t') vs).
(** 457-494: a worker has its own copy of the table, which it keeps from chunk to chunk; a chunk is a list of places in the list of
    grains, and its results are copied to the parent when it is finished *)
Fixpoint worker (t : table) (ids : list Z) (chunks : list (list nat)) : list (nat * result fitted) :=
  match chunks with
  | [] => []
  | c :: cs =>
      let (t', r) := serial t (map (fun j => nth j ids 0%Z) c) in
      match r with
      | Ok fs => combine c (map Ok fs)
      | Err e => map (fun j => (j, Err e)) c
      end ++ worker t' ids cs
  end.
(** [schedule]: the chunks each worker gets.  Simplification: with several errors, the one raised is that of the first place (the
    pool raises the first to arrive) *)
Definition parallel (t : table) (ids : list Z) (schedule : list (list (list nat))) : result (list fitted) :=
  let done := flat_map (worker t ids) schedule in
  map_res (fun j => match find (fun x => Nat.eqb (fst x) j) done with Some (_, r) => r | None => Err LookupError end) (seq 0 (length ids)).
(** 421-422 *)
Definition choose_rows (t : table) (sel : option (list Z)) : result table :=
  match sel with
  | None => Ok t
  | Some ks => map_res (fun k => match row_index (length t) k with
                                 | Some i => match nth_error t i with Some r => Ok r | None => Err IndexError end
                                 | None => Err IndexError
                                 end) ks
  end.
(** [sched]: [None] for the serial branch.  The first component is the caller's table afterwards: the serial branch works on it
    unless rows were chosen (numpy then makes a copy).  Simplification: grains_table is a two-dimensional array *)
Definition fit_grains (t : table) (sel : option (list Z)) (sched : option (list (list (list nat)))) : table * result (list fitted) :=
  match choose_rows t sel with
  | Err e => (t, Err e)
  | Ok rows =>
      let ids := map fst rows in
      match sched with
      | Some s => (t, parallel rows ids s)
      | None => let (t', r) := serial rows ids in (match sel with None => t' | Some _ => t end, r)
      end
  end.
End AllGrains.
Arguments fitted : clear implicits.
Arguments Fitted {P}.

(** ** the valid reflections: fitgrains.py:218-313, [determine_valid_reflections] *)
(** a spot: its reflection id (negative if not found) and its highest intensity *)
Record spot := Spot { sp_id : Z; sp_max : cell }.
Definition is_valid (s : spot) : bool := (0 <=? sp_id s)%Z.
Definition unsaturated (level : option R) (s : spot) : bool :=
  match level with
  | None => true
  | Some l => if is_valid s then match sp_max s with Some m => rlt m l | None => false end else true
  end.
(** a panel: its saturation level, its spots, and the tables of its overlap file ([None]: there is none).  The loop over the tables
    reads the name grain_id, which is not defined in this function *)
Record panel_spots := PanelSpots { ps_level : option R; ps_spots : list spot; ps_overlaps : option nat }.
Definition cull_panel (p : panel_spots) : result (list spot) :=
  match ps_overlaps p with
  | Some (S _) => Err LookupError
  | _ => Ok (filter (fun s => is_valid s && unsaturated (ps_level p) s) (ps_spots p))
  end.
Definition determine_valid (ps : list panel_spots) : result (list (list spot) * nat * R) :=
  do culled <- map_res cull_panel ps;
  let tot := fold_right (fun p n => (length (ps_spots p) + n)%nat) 0%nat ps in
  let valid := fold_right (fun p n => (length (filter is_valid (ps_spots p)) + n)%nat) 0%nat ps in
  match tot with
  | O => Err RuntimeError
  | _ => Ok (culled, valid, INR valid / INR tot)
  end.

(** ** fitgrains.py:316-371, [refine_valid_reflections] *)
(** a spot measured at (x, y, omega) and calculated at (x', y', omega'); angles in radians, the step in degrees.  The measured
    position is compared as it is, without the distortion that [objFuncFitGrain] undoes (349-360) *)
Record xyo := Xyo { c_x : R; c_y : R; c_ome : R }.
Definition near (xtol ytol otol : R) (m c : xyo) : result bool :=
  do d <- angularDifference (c_ome m) (c_ome c) ARad;
  Ok (rle (Rabs (c_x m - c_x c)) xtol && rle (Rabs (c_y m - c_y c)) ytol && rle (d * (180 / PI)) otol).
Record panel_pairs := PanelPairs { pp_col : R; pp_row : R; pp_pairs : list (xyo * xyo) }.
(** [first_ome]: the omega interval of the first frame of the first image series *)
Fixpoint keep_near (xtol ytol otol : R) (l : list (xyo * xyo)) : result (list (xyo * xyo)) :=
  match l with
  | [] => Ok []
  | (m, c) :: t => do b <- near xtol ytol otol m c; do r <- keep_near xtol ytol otol t; Ok (if b : bool then (m, c) :: r else r)
  end.
Definition refine_panels (tol_xy tol_ome : R) (first_ome : R * R) (ps : list panel_pairs) : result (list (list (xyo * xyo)) * nat) :=
  let step := snd first_ome - fst first_ome in
  do kept <- map_res (fun p => keep_near (tol_xy * pp_col p) (tol_xy * pp_row p) (tol_ome * step) (pp_pairs p)) ps;
  Ok (kept, fold_right (fun l n => (length l + n)%nat) 0%nat kept).

(** ** grains.py:384-442, [matchOmegas]: of the two solutions the one nearer to the measured omega *)
(** np.argsort of two differences == 0: the first unless the second is smaller *)
Definition match_one (meas a b : R) : result R :=
  do d0 <- angularDifference meas a ARad;
  do d1 <- angularDifference meas b ARad;
  Ok (if rlt d1 d0 then b else a).
Definition to_period (period : option (R * R)) (x : R) : result R :=
  match period with None => Ok x | Some p => mapAngle x (Some p) ARad end.
(** [sols]: the two omegas of a reflection, [None] if it has none (NaN) *)
Definition match_omegas (period : option (R * R)) (l : list (R * option (R * R))) : result (list R) :=
  if existsb (fun x => match snd x with None => true | Some _ => false end) l then Err RuntimeError
  else map_res (fun x => match snd x with
                         | None => Err RuntimeError
                         | Some (a, b) =>
                             do m <- to_period period (fst x);
                             do a' <- to_period period a;
                             do b' <- to_period period b;
                             match_one m a' b'
                         end) l.

(** ** grains.py:142-381, [objFuncFitGrain] *)
Section Residual.
Context {H : Type}.
(** a panel: its distortion, the omegas of a reflection and where the reflection at an omega meets the panel ([None]: NaN); the
    reflections observed on it with the measured position and omega *)
Record panel := Panel { pa_unwarp : R * R -> R * R; pa_omes : H -> option (R * R); pa_meets : H -> R -> option (R * R); pa_obs : list (H * xyo) }.
Definition panel_calc (period : option (R * R)) (p : panel) : result (list (xyo * R * option (R * R))) :=
  do omes <- match_omegas period (map (fun o => (c_ome (snd o), pa_omes p (fst o))) (pa_obs p));
  Ok (map (fun q => let '((h, m), w) := q in
                    let u := pa_unwarp p (c_x m, c_y m) in (Xyo (fst u) (snd u) (c_ome m), w, pa_meets p h w))
          (combine (pa_obs p) omes)).
Definition is_none {A} (x : option A) : bool := match x with None => true | Some _ => false end.
(** 335-348 and 363-368: the residuals; only the last panel that has reflections is checked for NaNs *)
Definition one_residual (q : xyo * R * option (R * R)) : result (list cell) :=
  let '(m, w, xy) := q in
  do d <- angularDifference w (c_ome m) ARad;
  Ok (match xy with
      | Some (x, y) => [Some (x - c_x m); Some (y - c_y m); Some d]
      | None => [None; None; Some d]
      end).
Definition residuals (period : option (R * R)) (ps : list panel) : result (list cell) :=
  let used := filter (fun p => negb (Nat.eqb (length (pa_obs p)) 0)) ps in
  do calc <- map_res (panel_calc period) used;
  match rev calc with
  | [] => Err ValueError
  | l :: _ =>
      if existsb (fun q => is_none (snd q)) l then Err RuntimeError
      else do r <- map_res one_residual (concat calc); Ok (concat r)
  end.
(** 372-380, return_value_flag = 2; [nfit] parameters *)
Definition osq (c : cell) : cell := match c with Some x => Some (x * x) | None => None end.
Definition chisq (nfit : nat) (r : list cell) : cell :=
  let npts := Nat.div (length r) 3 in
  let denom := 3 * INR npts - INR nfit - 1 in
  let nu := if Req_EM_T denom 0 then 1 else 1 / denom in
  match osum (map osq r) with Some s => Some (nu * s) | None => None end.
End Residual.
