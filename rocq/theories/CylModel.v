(** Model of the bent detector: hexrd/hed/xrdutil/utils.py:107-420, hexrd/hedm/xrdutil/utils.py:547-571 and
    hexrd/core/instrument/cylindrical_detector.py.  Real numbers stand for floating point numbers; a row of NaN is [None].
    One row of each array is modelled. *)
From Coq Require Import Reals List String.
From Verif Require Import Prelude Lin RigModel XfModel.
Local Open Scope R_scope.

(** [tVec_s + rmat_s . tVec_c], utils.py:191-193, 256-258, 311-313, 363-365 *)
Definition source (tvec_s : v3) (rmat_s : m3) (tvec_c : v3) : v3 := vadd tvec_s (mv rmat_s tvec_c).
(** utils.py:329-369 *)
Definition warp_to_cylinder (tvec_d : v3) (radius : R) (caxis paxis tvec_s : v3) (rmat_s : m3) (tvec_c : v3) (normalize : bool) (xy : R * R) : v3 :=
  let naxis := cross paxis caxis in
  let (x, y) := xy in
  let th := x / radius in
  let xp := radius * sin th in
  let xn := radius * (1 - cos th) in
  let cart3d := vadd (vadd (vscale xp paxis) (vscale y caxis)) (vscale xn naxis) in
  let res := vadd cart3d (vsub (vsub tvec_d tvec_s) (mv rmat_s tvec_c)) in
  if normalize then vscale (/ norm res) res else res.

(** the centre of the circle, seen from the source: lines 188-193, 249-258, 304-313 *)
Definition centre_from (radius : R) (tvec_d naxis tvec_s : v3) (rmat_s : m3) (tvec_c : v3) : v3 :=
  vsub tvec_d (vadd (vadd (vscale radius naxis) tvec_s) (mv rmat_s tvec_c)).
(** utils.py:156-214.  The square root of a negative number is NaN. *)
Definition unitvec_to_cylinder (caxis paxis : v3) (radius : R) (tvec_d tvec_s : v3) (rmat_s : m3) (tvec_c : v3) (uvw : v3) : option v3 :=
  let n := cross caxis paxis in
  let naxis := vscale (/ norm n) n in
  let delta := centre_from radius tvec_d naxis tvec_s rmat_s tvec_c in
  let t1 := dot uvw delta in
  let t2 := dot uvw caxis in
  let t3 := dot delta caxis in
  let A := 1 - t2 * t2 in
  let B := t1 - t2 * t3 in
  let C := radius * radius - norm delta * norm delta + t3 * t3 in
  if Rlt_dec (Rabs A) (1 / 10 ^ 10) then None
  else if Rlt_dec (B * B + A * C) 0 then None
  else Some (vscale ((B + sqrt (B * B + A * C)) / A) uvw).

(** [ang[np.abs(ang) > 1.0] = np.sign(ang)] then [np.arccos] *)
Definition safe_acos (a : R) : R := acos (if Rlt_dec 1 (Rabs a) then (if Rlt_dec 0 a then 1 else -1) else a).
(** utils.py:217-284: the point, or NaN, and whether it is on the panel.  Comparisons with NaN are False, so NaN counts as on the panel. *)
Definition clip_to_cylinder (tvec_d caxis paxis : v3) (radius size0 angle_extent : R) (tvec_s : v3) (rmat_s : m3) (tvec_c : v3) (uvw : option v3) : option v3 * bool :=
  match uvw with
  | None => (None, true)
  | Some u =>
      let naxis := cross caxis paxis in
      let delta := centre_from radius tvec_d naxis tvec_s rmat_s tvec_c in
      let uvwp := vsub u delta in
      let dp := dot uvwp caxis in
      let uvwpxy := vsub uvwp (vscale dp caxis) in
      let mask1 := if Rlt_dec (size0 * (1 / 2)) (Rabs dp) then true else false in
      let ang := safe_acos (dot uvwpxy naxis / radius) in
      let mask2 := if Rle_dec angle_extent ang then true else false in
      if orb mask1 mask2 then (None, false) else (Some u, true)
  end.
(** utils.py:287-326 *)
Definition dewarp_from_cylinder (tvec_d caxis paxis : v3) (radius : R) (tvec_s : v3) (rmat_s : m3) (tvec_c : v3) (uvw : option v3) : option (R * R) :=
  match uvw with
  | None => None
  | Some u =>
      let n := cross caxis paxis in
      let naxis := vscale (/ norm n) n in
      let delta := centre_from radius tvec_d naxis tvec_s rmat_s tvec_c in
      let uvwp := vsub u delta in
      let uvwpxy := vsub uvwp (vscale (dot uvwp caxis) caxis) in
      let sgn := if Rlt_dec (dot uvwpxy paxis) 0 then -1 else 1 in
      let ang := safe_acos (dot uvwpxy naxis / radius) in
      Some (radius * ang * sgn, dot uvwp caxis)
  end.
(** utils.py:372-420 *)
Definition dvec_to_xy_cylinder (tvec_d caxis paxis : v3) (radius size0 angle_extent : R) (tvec_s : v3) (rmat_s : m3) (tvec_c : v3) (dvec : v3) : option (R * R) * bool :=
  let cvec := unitvec_to_cylinder caxis paxis radius tvec_d tvec_s rmat_s tvec_c dvec in
  let (det, valid) := clip_to_cylinder tvec_d caxis paxis radius size0 angle_extent tvec_s rmat_s tvec_c cvec in
  (dewarp_from_cylinder tvec_d caxis paxis radius tvec_s rmat_s tvec_c det, valid).
(** utils.py:107-153 without distortion; the angles are two-theta, eta and omega *)
Definition project_on_detector_cylinder (chi : R) (tvec_d caxis paxis : v3) (radius size0 angle_extent : R) (beam eta : v3) (tvec_s : v3) (rmat_s : m3) (tvec_c : v3)
  (tth az ome : R) : option (R * R) * bool :=
  dvec_to_xy_cylinder tvec_d caxis paxis radius size0 angle_extent tvec_s rmat_s tvec_c (angles_to_dvec beam eta chi mI tth az ome).

(** hedm/xrdutil/utils.py:547-571 for one direction *)
Definition dvec_to_angs (bvec evec d : v3) : R * R :=
  let exb := cross evec bvec in
  let exb := vscale (/ norm exb) exb in
  let bxexb := cross bvec exb in
  let bxexb := vscale (/ norm bxexb) bxexb in
  let dp0 := dot bvec d in
  let dp := if Rlt_dec 1 (Rabs dp0) then (if Rlt_dec 0 dp0 then 1 else -1) else dp0 in
  let dp' := vsub d (vscale dp bvec) in
  (acos dp, atan2 (dot exb dp') (dot bxexb dp')).

(** ** cylindrical_detector.py *)
(** a panel without distortion *)
Record cyl := Cyl { c_rmat : m3; c_tvec : v3; c_radius : R; c_rows : R; c_cols : R; c_psr : R; c_psc : R; c_bvec : v3; c_evec : v3 }.
(** lines 258-266 *)
Definition caxis (c : cyl) : v3 := mv (c_rmat c) (V3 0 1 0).
Definition paxis (c : cyl) : v3 := mv (c_rmat c) (V3 1 0 0).
(** lines 278-284 and 317-321 *)
Definition height (c : cyl) : R := c_rows c * c_psr c.
Definition angle_extent (c : cyl) : R := c_cols c * c_psc c / c_radius c / 2.
(** lines 36-68 *)
Definition cyl_cart_to_angles (c : cyl) (rmat_s : m3) (tvec_s tvec_c : v3) (normalize : bool) (xy : R * R) : (R * R) * v3 :=
  let dvec := warp_to_cylinder (c_tvec c) (c_radius c) (caxis c) (paxis c) tvec_s rmat_s tvec_c normalize xy in
  (dvec_to_angs (c_bvec c) (c_evec c) dvec, dvec).
(** lines 122-139 *)
Definition cyl_cart_to_dvecs (c : cyl) (rmat_s : m3) (tvec_s tvec_c : v3) (xy : R * R) : v3 :=
  warp_to_cylinder (c_tvec c) (c_radius c) (caxis c) (paxis c) tvec_s rmat_s tvec_c false xy.
(** lines 342-370: pixel_angles of a point *)
Definition cyl_pixel_angle (c : cyl) (origin : v3) (xy : R * R) : R * R :=
  dvec_to_angs (c_bvec c) (c_evec c) (warp_to_cylinder (vsub (c_tvec c) origin) (c_radius c) (caxis c) (paxis c) vzero mI vzero true xy).
(** lines 150-170: the normal of the pixel at x *)
Definition local_normal (c : cyl) (x : R) : v3 :=
  let naxis := cross (paxis c) (caxis c) in
  let th := x / c_radius c in
  vadd (vscale (sin th) (paxis c)) (vscale (- cos th) naxis).
(** The names bound at the top of hexrd/hedm/xrdutil/utils.py (its classes, functions, constants and imports), lines 30-70 and the definitions.
    [xrdutil.utils] in cylindrical_detector.py is this module (line 8). *)
Definition hedm_utils_names : list string :=
  ["Callable"; "Literal"; "Optional"; "Union"; "Any"; "Sequence"; "overload"; "PlaneData"; "DistortionABC"; "numba"; "np"; "NDArray"; "constants";
   "mutil"; "rot"; "gutil"; "_project_on_detector_plane"; "processWavelength"; "xfcapi"; "valWUnit"; "distortion_pkg"; "deprecated";
   "distortion_key"; "d2r"; "piby180"; "r2d"; "epsf"; "ten_epsf"; "sqrt_epsf"; "bHat_l_DFLT"; "eHat_l_DFLT"; "nans_1x2"; "EtaOmeMaps";
   "_zproject"; "zproject_sph_angles"; "make_polar_net"; "validateAngleRanges"; "simulateOmeEtaMaps"; "_fetch_hkls_from_planedata";
   "_filter_hkls_eta_ome"; "_dvec_to_angs"; "simulateGVecs"; "_expand_pixels"; "_compute_max"; "angularPixelSize"; "make_reflection_patches";
   "extract_detector_transformation"; "apply_correction_to_wavelength"]%string.
(** attribute access on that module, whose names at the time are [names] *)
Definition attribute {A} (names : list string) (name : string) (v : A) : result A :=
  if existsb (String.eqb name) names then Ok v else Err AttributeError.
(** lines 70-120; the crystal orientation is not used; an entry is NaN unless it is valid and a number *)
Definition cyl_angles_to_cart (names : list string) (c : cyl) (rmat_s : m3) (tvec_s tvec_c : v3) (tth_eta : list (R * R)) : result (list (option (R * R))) :=
  let chi := acos (m11 rmat_s) in
  let ome := acos (m00 rmat_s) in
  do project <- attribute names "_project_on_detector_cylinder" project_on_detector_cylinder;
  Ok (map (fun t => let (xy, valid) := project chi (c_tvec c) (caxis c) (paxis c) (c_radius c) (height c) (angle_extent c) (c_bvec c) (c_evec c) tvec_s rmat_s tvec_c (fst t) (snd t) ome in
                    if valid then xy else None) tth_eta).
(** lines 286-315 *)
Definition cyl_beam_position (names : list string) (c : cyl) : result (option (R * R)) :=
  do unitvec <- attribute names "_unitvec_to_cylinder" unitvec_to_cylinder;
  let pt := unitvec (caxis c) (paxis c) (c_radius c) (c_tvec c) vzero mI vzero (c_bvec c) in
  do clip <- attribute names "_clip_to_cylindrical_detector" clip_to_cylinder;
  let pt := fst (clip (c_tvec c) (caxis c) (paxis c) (c_radius c) (height c) (angle_extent c) vzero mI vzero pt) in
  do dewarp <- attribute names "_dewarp_from_cylinder" dewarp_from_cylinder;
  Ok (dewarp (c_tvec c) (caxis c) (paxis c) (c_radius c) vzero mI vzero pt).
