(** Model of the simulation of rotation series: hedm/xrdutil/utils.py (_filter_hkls_eta_ome, simulateGVecs, apply_correction_to_wavelength),
    hed/xrdutil/utils.py (_project_on_detector_plane) and core/instrument/detector.py (simulate_rotation_series).
    The reals stand for floats; a row of angles (two-theta, eta, omega) or a position that is NaN is [None]. *)
From Coq Require Import Reals.
From Verif Require Import Prelude XfModel RotModel.
Local Open Scope R_scope.

Definition angs := (R * R * R)%type.
(** one angle, possibly NaN, against one range: validate_angle_ranges.c:20-68 (comparisons with NaN fail) *)
Definition in_range_nan (ccw : bool) (a : option R) (r : R * R) : result bool :=
  match a with
  | Some x => in_range ccw x r
  | None =>
      let '(mn, mx) := r in
      let '(start, stop) := if ccw then (mn, mx) else (mx, mn) in
      do thetaMax <- wrap_angle (stop - start);
      if Rlt_dec (Rabs thetaMax) c_sqrt_epsf then Ok true
      else if (if Rlt_dec (Rabs (thetaMax - two_pi)) c_sqrt_epsf
               then (if ccw then (if Rlt_dec mn mx then true else false) else (if Rlt_dec mx mn then true else false)) else false) then Ok true
      else Ok false
  end.
Definition eta_of (a : option angs) : option R := match a with Some (_, e, _) => Some e | None => None end.
Definition ome_of (a : option angs) : option R := match a with Some (_, _, o) => Some o | None => None end.
Definition logical_or (a b : list bool) : list bool := map (fun p => orb (fst p) (snd p)) (combine a b).
Definition logical_and (a b : list bool) : list bool := map (fun p => andb (fst p) (snd p)) (combine a b).
(** hedm/xrdutil/utils.py:519-524 *)
Fixpoint eta_mask (angles : list (option angs)) (mask : list bool) (eta_range : list (R * R)) : result (list bool) :=
  match eta_range with
  | [] => Ok mask
  | etas :: rest => do m <- map_result (fun a => in_range_nan true (eta_of a) etas) angles; eta_mask angles (logical_or mask m) rest
  end.
(** hedm/xrdutil/utils.py:526-534: [ccw] is not reset *)
Fixpoint ome_mask (angles : list (option angs)) (ccw : bool) (mask : list bool) (ome_range : list (R * R)) : result (list bool) :=
  match ome_range with
  | [] => Ok mask
  | omes :: rest =>
      let ccw := if Rlt_dec (snd omes - fst omes) 0 then false else ccw in
      do m <- map_result (fun a => in_range_nan ccw (ome_of a) omes) angles;
      ome_mask angles ccw (logical_or mask m) rest
  end.
(** x[mask]; the mask must have the length of x *)
Definition select {A} (x : list A) (mask : list bool) : result (list A) :=
  if Nat.eqb (List.length x) (List.length mask) then Ok (map fst (filter snd (combine x mask))) else Err IndexError.
(** hedm/xrdutil/utils.py:505-544 *)
Definition filter_hkls_eta_ome {H} (hkls : list H) (angles : list (option angs)) (eta_range ome_range : list (R * R))
    : result (list (option angs) * list H * list bool) :=
  let zeros := repeat false (List.length angles) in
  do angMask_eta <- eta_mask angles zeros eta_range;
  do angMask_ome <- ome_mask angles true zeros ome_range;
  let angMask := logical_and angMask_eta angMask_ome in
  do allAngs <- select angles angMask;
  do allHKLs <- select (hkls ++ hkls) angMask;
  Ok (allAngs, allHKLs, angMask).

(** ** hedm/xrdutil/utils.py:1024-1069 *)
Inductive axis := AxisX | AxisY | AxisOther.
Record ecorr := ECORR { ec_intercept : R; ec_slope : R; ec_axis : axis }.
Definition rdiv (a b : R) : result R := if Req_EM_T b 0 then Err ZeroDivisionError else Ok (a / b).
Definition apply_correction_to_wavelength (K wavelength : R) (correction : option ecorr) (tvec_s tvec_c : R * R * R) : result R :=
  match correction with
  | None => Ok wavelength
  | Some ec =>
      let pick (v : R * R * R) := let '(x, y, _) := v in match ec_axis ec with AxisY => y | _ => x end in
      let position := pick tvec_c + pick tvec_s - ec_intercept ec in
      let adjustment := position * ec_slope ec / 1000 in
      do e <- rdiv K wavelength;
      rdiv K (e + adjustment)
  end.
(** core/constants.py:307-308; [K] is the product of constants *)
Definition keVToAngstrom (K x : R) : result R := rdiv K x.
(** core/material/crystallography.py:160-182 for numbers and 1068-1076; numpy.isclose(a, b) has the tolerances of [allclose] *)
Definition set_wavelength (K old x : R) : result R :=
  do w <- keVToAngstrom K x;
  Ok (if allclose old w then old else w).

(** ** simulation *)
Section Simulation.
Context {H XY PS G : Type}.
Variable K : R.
(** oscill_angles_of_hkls for a wavelength and a grain: both solutions of every hkl *)
Variable oscill : R -> G -> list H -> list (option angs) * list (option angs).
(** angles_to_gvec, make_sample_rmat, gvec_to_xy and the distortion of _project_on_detector_plane for one row *)
Variable project : G -> angs -> option XY.
(** the panel (clip_to_panel) and its angular pixel sizes *)
Variable inside : XY -> bool.
Variable pixel_size : XY -> PS.
Variable tvec_of : G -> R * R * R.
(** hed/xrdutil/utils.py:66-104: positions of the valid rows, and their mask *)
Definition project_on_detector_plane (g : G) (allAngs : list (option angs)) : list XY * list bool :=
  let tmp := map (fun a => match a with Some x => project g x | None => None end) allAngs in
  (flat_map (fun p => match p with Some x => [x] | None => [] end) tmp, map (fun p => match p with Some _ => true | None => false end) tmp).
(** mapAngle of a column of omegas; NaN becomes 0, which does not change the row being NaN *)
Fixpoint map_omegas (period : R * R) (l : list (option angs)) : result (list (option angs)) :=
  match l with
  | [] => do _ <- mapAngle 0 (Some period) ARad; Ok []
  | a :: t =>
      do b <- match a with Some (x, y, o) => do o' <- mapAngle o (Some period) ARad; Ok (Some (x, y, o')) | None => Ok None end;
      do r <- map_omegas period t; Ok (b :: r)
  end.
(** what is returned for one grain: hkl rows (ids and indices), angles, positions and pixel sizes *)
Record series := SERIES { s_hkls : list H; s_angs : list (option angs); s_xys : list XY; s_sizes : list PS }.
(** core/instrument/detector.py:1647-1716, one grain *)
Definition simulate_grain (full_hkls : list H) (eta_ranges ome_ranges : list (R * R)) (ome_period : R * R) (wavelength : R) (ec : option ecorr) (tvec_s : R * R * R) (g : G)
    : result series :=
  do w <- apply_correction_to_wavelength K wavelength ec tvec_s (tvec_of g);
  let '(o0, o1) := oscill w g full_hkls in
  do f <- filter_hkls_eta_ome full_hkls (o0 ++ o1) eta_ranges ome_ranges;
  let '(allAngs, allHKLs, _) := f in
  do allAngs <- map_omegas ome_period allAngs;
  let '(det_xy, on_plane) := project_on_detector_plane g allAngs in
  let on_panel := map inside det_xy in
  do xys_p <- select det_xy on_panel;
  do allAngs <- select allAngs on_plane;
  do allHKLs <- select allHKLs on_plane;
  do hk <- select allHKLs on_panel;
  do an <- select allAngs on_panel;
  Ok (SERIES hk an xys_p (map pixel_size xys_p)).
(** core/instrument/detector.py:1580-1718.  The plane data: their wavelength, the hkls they give and whether a two-theta is NaN at a
    wavelength; the wavelength they have afterwards is returned as well *)
Definition simulate_rotation_series (pd_wavelength : R) (tth_nan : R -> bool) (hkls : R -> list H) (grains : list G)
    (eta_ranges ome_ranges : list (R * R)) (ome_period : R * R) (tvec_s : R * R * R) (wavelength : option R) (ec : option ecorr)
    : result (list series * R) :=
  do wp <- match wavelength with
           | None => Ok (pd_wavelength, pd_wavelength)
           | Some w => if Req_EM_T pd_wavelength w then Ok (w, pd_wavelength)
                       else do e <- keVToAngstrom K w; do w' <- set_wavelength K pd_wavelength e; Ok (w, w')
           end;
  let '(w, pdw) := wp in
  if tth_nan pdw then Err AssertionError
  else
    do l <- map_result (simulate_grain (hkls pdw) eta_ranges ome_ranges ome_period w ec tvec_s) grains;
    Ok (l, pdw).
(** core/transforms/xfcapi.py:782-786 *)
Definition xfcapi_mapAngle (l : list (option angs)) (period : R * R) : result (list (option angs)) := Err RuntimeError.
(** the first entries of x at the positions where the mask is set: numpy.where and indexing; positions beyond x are an error *)
Definition take_where {A} (x : list A) (mask : list bool) : result (list A) :=
  map_result (fun k => match nth_error x k with Some a => Ok a | None => Err IndexError end)
    (map fst (filter snd (combine (seq 0 (List.length mask)) mask))).
(** hedm/xrdutil/utils.py:574-707 for given wavelength; [sizes] is the call of angularPixelSize with the first sample rotation *)
Variable sizes : option angs -> list XY -> list PS.
Definition simulateGVecs (full_hkls : list H) (eta_range ome_range : list (R * R)) (ome_period : R * R) (wavelength : R) (ec : option ecorr) (tvec_s : R * R * R) (g : G)
    : result series :=
  do w <- apply_correction_to_wavelength K wavelength ec tvec_s (tvec_of g);
  let '(o0, o1) := oscill w g full_hkls in
  do f <- filter_hkls_eta_ome full_hkls (o0 ++ o1) eta_range ome_range;
  let '(allAngs, allHKLs, _) := f in
  match allAngs with
  | [] => Ok (SERIES [] [] [] [])
  | first :: _ =>
      let '(det_xy, _) := project_on_detector_plane g allAngs in
      let on_panel := map inside det_xy in
      do valid_ang <- take_where allAngs on_panel;
      do valid_ang <- xfcapi_mapAngle valid_ang ome_period;
      do valid_hkl <- take_where allHKLs on_panel;
      do valid_xy <- take_where det_xy on_panel;
      Ok (SERIES valid_hkl valid_ang valid_xy (sizes first valid_xy))
  end.
End Simulation.
