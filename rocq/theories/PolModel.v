(** Model of hexrd/core/projections/polar.py: the polar view of detector images and its binning.
    Exact rationals stand for floating point numbers, [None] is a NaN.  Simplification: all angles are in degrees (the code keeps
    the limits in radians and the pixel sizes in degrees), so that the conversions between the two disappear. *)
From Coq Require Import QArith Qround String.
From Verif Require Import Prelude GridModel DetModel.
Local Open Scope Q_scope.
Local Notation length := List.length.

(** ** the grid *)
(** polar.py:67-81, the fields without the instrument *)
Record view := View { tth_min : Q; tth_max : Q; eta_min : Q; eta_max : Q; tth_pixel_size : Q; eta_pixel_size : Q }.
Definition qlt (a b : Q) : bool := negb (Qle_bool b a).
(** 67-81: the limits are not compared *)
Definition new_view (tth : Q * Q) (eta : Q * Q) (ps : Q * Q) : result view :=
  if qlt 0 (fst ps) && qlt 0 (snd ps) then Ok (View (fst tth) (snd tth) (fst eta) (snd eta) (fst ps) (snd ps)) else Err AssertionError.
(** the setters 119-174; a failed assertion leaves the object as it was *)
Inductive setting := TthMin (x : Q) | TthMax (x : Q) | EtaMin (x : Q) | EtaMax (x : Q) | TthPixel (x : Q) | EtaPixel (x : Q).
Definition set (v : view) (s : setting) : result view :=
  match s with
  | TthMin x => if qlt x (tth_max v) then Ok (View x (tth_max v) (eta_min v) (eta_max v) (tth_pixel_size v) (eta_pixel_size v)) else Err AssertionError
  | TthMax x => if qlt (tth_min v) x then Ok (View (tth_min v) x (eta_min v) (eta_max v) (tth_pixel_size v) (eta_pixel_size v)) else Err AssertionError
  | EtaMin x => if qlt x (eta_max v) then Ok (View (tth_min v) (tth_max v) x (eta_max v) (tth_pixel_size v) (eta_pixel_size v)) else Err AssertionError
  | EtaMax x => if qlt (eta_min v) x then Ok (View (tth_min v) (tth_max v) (eta_min v) x (tth_pixel_size v) (eta_pixel_size v)) else Err AssertionError
  | TthPixel x => if qlt 0 x then Ok (View (tth_min v) (tth_max v) (eta_min v) (eta_max v) x (eta_pixel_size v)) else Err AssertionError
  | EtaPixel x => if qlt 0 x then Ok (View (tth_min v) (tth_max v) (eta_min v) (eta_max v) (tth_pixel_size v) x) else Err AssertionError
  end.
(** what a program that goes on after a failed assertion has *)
Definition after (v : view) (s : setting) : view := match set v s with Ok v' => v' | Err _ => v end.

(** 176-188; Python's round is to the nearest, halves to even *)
Definition ntth (v : view) : Z := qround ((tth_max v - tth_min v) / tth_pixel_size v).
Definition neta (v : view) : Z := qround ((eta_max v - eta_min v) / eta_pixel_size v).
Definition shape (v : view) : Z * Z := (neta v, ntth v).
(** 190-202; numpy.arange of a negative number is empty *)
Definition tth_vec (v : view) : list Q := map (fun k => tth_pixel_size v * qz k + tth_min v + (1 # 2) * tth_pixel_size v) (zrange 0 (ntth v)).
Definition eta_vec (v : view) : list Q := map (fun k => eta_pixel_size v * qz k + eta_min v + (1 # 2) * eta_pixel_size v) (zrange 0 (neta v)).
(** rows of pairs (eta, tth) *)
Definition angular_grid (v : view) : list (list (Q * Q)) := map (fun e => map (fun t => (e, t)) (tth_vec v)) (eta_vec v).
(** numpy.min and numpy.max; an empty array is a ValueError *)
Definition qmin (a b : Q) : Q := if Qle_bool a b then a else b.
Definition qmax (a b : Q) : Q := if Qle_bool a b then b else a.
Definition np_min (l : list Q) : result Q := match l with [] => Err ValueError | a :: t => Ok (fold_left qmin t a) end.
Definition np_max (l : list Q) : result Q := match l with [] => Err ValueError | a :: t => Ok (fold_left qmax t a) end.
(** 204-214 *)
Definition extent (v : view) : result (Q * Q * Q * Q) :=
  let tv := map snd (concat (angular_grid v)) in
  let ev := map fst (concat (angular_grid v)) in
  let heps := (1 # 2) * eta_pixel_size v in
  let htps := (1 # 2) * tth_pixel_size v in
  do t0 <- np_min tv; do t1 <- np_max tv; do e1 <- np_max ev; do e0 <- np_min ev;
  Ok (t0 - htps, t1 + htps, e1 + heps, e0 - heps).
(** 434-438 *)
Definition tth_to_pixel (v : view) (tth : Q) : Q := (tth - tth_min v) / tth_pixel_size v.

(** ** the mapping *)
Definition oimage := list (list (option Q)).
Definition opixel (img : oimage) (i j : Z) : result (option Q) := do r <- py_index img i; py_index r j.
Definition oadd (a b : option Q) : option Q := match a, b with Some x, Some y => Some (x + y) | _, _ => None end.
Definition scale (k : Q) (a : option Q) : option Q := match a with Some x => Some (k * x) | None => None end.
(** a detector: its panel and where the direction (tth, eta) meets it in its own frame, if it does (216-256, a parameter here) *)
Record detector := Detector { d_panel : panel; d_project : Q -> Q -> option (Q * Q) }.

(** detector.py:1171-1218 for one point: the multipliers and the pixels *)
Record weights := Weights { w_cc : Q; w_fc : Q; w_cf : Q; w_ff : Q; w_if : Z; w_jf : Z; w_ic : Z; w_jc : Z }.
Section Warp.
Context (load : string -> result (list (list bool))) (ztol : Q).
Definition interp (p : panel) (xy : Q * Q) : result weights :=
  let (i_frac, j_frac) := cartToPixel p xy in
  do i_floor <- cell_index ztol (row_pixel_vec p) (snd xy);
  do j_floor <- cell_index ztol (col_pixel_vec p) (fst xy);
  let i_ceil := (i_floor + 1)%Z in
  let j_ceil := (j_floor + 1)%Z in
  let j_ceil_sub := qz j_ceil - j_frac in
  let j_floor_sub := j_frac - qz j_floor in
  let i_ceil_sub := qz i_ceil - i_frac in
  let i_floor_sub := i_frac - qz i_floor in
  Ok (Weights (j_ceil_sub * i_ceil_sub) (j_floor_sub * i_ceil_sub) (j_ceil_sub * i_floor_sub) (j_floor_sub * i_floor_sub)
        (fix_index 0 (p_rows p - 1) i_floor) (fix_index 0 (p_cols p - 1) j_floor)
        (fix_index 0 (p_rows p - 1) i_ceil) (fix_index 0 (p_cols p - 1) j_ceil)).
(** detector.py:2115-2120, the value added at one point *)
Definition weigh (img : oimage) (w : weights) : result (option Q) :=
  do a <- opixel img (w_if w) (w_jf w);
  do b <- opixel img (w_if w) (w_jc w);
  do c <- opixel img (w_ic w) (w_jf w);
  do d <- opixel img (w_ic w) (w_jc w);
  Ok (oadd (oadd (oadd (scale (w_cc w) a) (scale (w_fc w) b)) (scale (w_cf w) c)) (scale (w_ff w) d)).
(** detector.py:2095-2120.  Simplification: an index out of range is an IndexError (numba does not check) *)
Fixpoint in_place (img : oimage) (iw : list (nat * weights)) (out : list (option Q)) : result (list (option Q)) :=
  match iw with
  | [] => Ok out
  | (i, w) :: t => do v <- weigh img w;
                   match nth_error out i with
                   | None => Err IndexError
                   | Some o => in_place img t (set_nth i (oadd o v) out)
                   end
  end.
(** polar.py:336-344: the points, and which are on the panel.  A NaN is not: its comparisons are false, and as a pixel it is
    out of range *)
Fixpoint known {A} (l : list (option A)) : list A := match l with [] => [] | Some a :: t => a :: known t | None :: t => known t end.
Fixpoint spread {A} (l : list (option A)) (m : list bool) : list bool :=
  match l, m with
  | [], _ => []
  | None :: t, _ => false :: spread t m
  | Some _ :: t, b :: m' => b :: spread t m'
  | Some _ :: t, [] => false :: spread t []
  end.
Definition on_panel (p : panel) (pts : list (option (Q * Q))) : result (list bool) :=
  do c <- clip_to_panel load p (known pts) true; Ok (spread pts (snd c)).
(** [np.where(mask)[0]] *)
Fixpoint where_from (k : nat) (m : list bool) : list nat :=
  match m with [] => [] | true :: t => k :: where_from (S k) t | false :: t => where_from (S k) t end.
Record panel_map := Map { m_xypts : list (option (Q * Q)); m_on : list nat; m_interp : list weights }.
(** 327-356 for one detector *)
Definition map_panel (v : view) (d : detector) : result panel_map :=
  let pts := map (fun q => d_project d (snd q) (fst q)) (concat (angular_grid v)) in
  do on <- on_panel (d_panel d) pts;
  do ws <- all_ok (map (interp (d_panel d)) (known (pick on pts)));
  Ok (Map pts (where_from 0 on) ws).
(** 302-358; numpy.zeros of a negative number, or stacking arrays of different lengths, is a ValueError *)
Definition coordinate_mapping (v : view) (ds : list (string * detector)) : result (list panel_map) :=
  if ((ntth v <? 0) || (neta v <? 0))%Z then Err ValueError else all_ok (map (fun d => map_panel v (snd d)) ds).
(** 375-395: the pixels that are reached on one panel and whose four pixels are not excluded *)
Definition reached (d : detector) (m : panel_map) : result (list bool) :=
  do buffer <- panel_buffer_as_2d_array load (d_panel d);
  let dummy := map (map (fun b : bool => if b then Some 0 else None)) buffer in
  let start := fold_left (fun o i => set_nth i (Some 0) o) (m_on m) (map (fun _ => None) (m_xypts m)) in
  do out <- in_place dummy (combine (m_on m) (m_interp m)) start;
  Ok (map (fun o : option Q => match o with Some _ => true | None => false end) out).
Fixpoint nan_mask_from (mask : list bool) (dm : list (detector * panel_map)) : result (list bool) :=
  match dm with
  | [] => Ok mask
  | (d, m) :: t => do r <- reached d m; nan_mask_from (map (fun q => if snd q : bool then false else fst q) (combine mask r)) t
  end.
(** 360-397; flat, of the size of the grid *)
Definition nan_mask (v : view) (ds : list (string * detector)) (maps : list panel_map) : result (list bool) :=
  nan_mask_from (repeat true (Z.to_nat (neta v * ntth v))) (combine (map snd ds) maps).
(** ** 399-446: images by the name of the detector; a missing one is a KeyError *)
Definition images := list (string * oimage).
Fixpoint lookup (imgs : images) (n : string) : result oimage :=
  match imgs with [] => Err KeyError | (k, i) :: t => if String.eqb k n then Ok i else lookup t n end.
Fixpoint sum_images (imgs : images) (dm : list (string * panel_map)) (out : list (option Q)) : result (list (option Q)) :=
  match dm with
  | [] => Ok out
  | (n, m) :: t => do img <- lookup imgs n; do o <- in_place img (combine (m_on m) (m_interp m)) out; sum_images imgs t o
  end.
Fixpoint rows {A} (n w : nat) (l : list A) : list (list A) := match n with O => [] | S k => firstn w l :: rows k w (skipn w l) end.
(** numpy's reshape *)
Definition reshape {A} (v : view) (l : list A) : result (list (list A)) :=
  if (Z.of_nat (length l) =? neta v * ntth v)%Z && (0 <=? neta v)%Z && (0 <=? ntth v)%Z
  then Ok (rows (Z.to_nat (neta v)) (Z.to_nat (ntth v)) l) else Err ValueError.
Record warped := Warped { w_data : list (list (option Q)); w_mask : list (list bool) }.
(** the interpolating branch; do_interpolation=False is not modelled *)
Definition warp_from (v : view) (ds : list (string * detector)) (maps : list panel_map) (mask : list bool) (imgs : images) (pad : bool) : result warped :=
  match maps with
  | [] => Err StopIteration
  | m0 :: _ =>
      do s <- sum_images imgs (combine (map fst ds) maps) (map (fun _ => Some 0) (m_xypts m0));
      let s' := if pad then map (fun q => if snd q : bool then None else fst q) (combine s mask) else s in
      do data <- reshape v s'; do mk <- reshape v mask; Ok (Warped data mk)
  end.
(** 83-93: the object, with a mapping made at its construction if asked for; the instrument may change under it *)
Record polar := Polar { p_view : view; p_dets : list (string * detector); p_cache : option (list panel_map * list bool) }.
Definition new_polar (v : view) (ds : list (string * detector)) (cache : bool) : result polar :=
  if cache then do m <- coordinate_mapping v ds; do k <- nan_mask v ds m; Ok (Polar v ds (Some (m, k))) else Ok (Polar v ds None).
(** 261-300 *)
Definition warp_image (p : polar) (imgs : images) (pad : bool) : result warped :=
  match p_cache p with
  | Some (m, k) => warp_from (p_view p) (p_dets p) m k imgs pad
  | None => do m <- coordinate_mapping (p_view p) (p_dets p); do k <- nan_mask (p_view p) (p_dets p) m;
            warp_from (p_view p) (p_dets p) m k imgs pad
  end.
(** a program that uses the object: warps images, sets limits, replaces the instrument *)
Inductive use := Warp (imgs : images) (pad : bool) | Change (s : setting) | Instrument (ds : list (string * detector)).
Definition step (p : polar) (u : use) : polar :=
  match u with
  | Warp _ _ => p
  | Change s => Polar (after (p_view p) s) (p_dets p) (p_cache p)
  | Instrument ds => Polar (p_view p) ds (p_cache p)
  end.
End Warp.

(** ** bin_polar_view, 441-479 *)
(** numpy.nanmean; of nothing it is NaN *)
Definition nanmean (l : list (option Q)) : option Q :=
  let k := known l in match k with [] => None | _ => Some (fold_right Qplus 0 k / qz (Z.of_nat (length k))) end.
(** [pv[start:stop]] *)
Definition py_slice {A} (a b : Z) (l : list A) : list A :=
  let n := Z.of_nat (length l) in slice (slice_start n a) (slice_stop n b) l.
Definition column {A} (d : A) (j : nat) (m : list (list A)) : list A := map (fun r => nth j r d) m.
(** [pv] has at least one row; [cols] is the number of its columns.  A negative number of spectra is a ValueError of numpy.zeros;
    an interval of zero a ZeroDivisionError *)
Definition bin_polar_view (v : view) (pv : list (list (option Q))) (cols : nat) (interval range : Q) : result (list (list (option Q))) :=
  if Qeq_bool interval 0 then Err ZeroDivisionError else
  let nspec := (qtrunc ((eta_max v - eta_min v) / interval) - 1)%Z in
  if (nspec <? 0)%Z then Err ValueError else
  Ok (map (fun i => let start := qtrunc (((qz i + 1) * interval - range) / eta_pixel_size v) in
                    let stop := qtrunc (((qz i + 1) * interval + range) / eta_pixel_size v) in
                    map (fun j => nanmean (column None j (py_slice start stop pv))) (seq 0 cols)) (zrange 0 nspec)).
