(** Model of the unit cell geometry: core/material/crystallography.py (cosineXform, latticeParameters, latticePlanes,
    latticeVectors, rhombohedralParametersFromHexagonal, convert_Miller_direction_to_cartesian) and of the metric part of
    core/material/unitcell.py (calcmatrices, TransSpace, CalcDot, CalcLength, NormVec, CalcAngle, CalcCross).
    Real numbers stand for floating point numbers; NaN is [None].  Arrays of vectors are modelled one column at a time. *)
From Coq Require Import Reals List String.
From Verif Require Import Prelude Lin TensorModel.
Import ListNotations.
Local Open Scope R_scope.

(** crystallography.py:116-158 *)
Definition cosineXform (a b c : R) : R * R :=
  let cosar := (cos b * cos c - cos a) / (sin b * sin c) in
  (cosar, sqrt (1 - cosar * cosar)).

(** the six cell parameters [a, b, c] and [alpha, beta, gamma]; angles in radians *)
Record cell := Cell { c_len : v3; c_ang : v3 }.

(** Python [lparms[i]] *)
Definition parm (l : list R) (i : nat) : result R := match nth_error l i with Some x => Ok x | None => Err IndexError end.

(** crystallography.py:451-511, the cell parameters of a lattice type; indices beyond the list raise IndexError *)
Definition cellparms (l : list R) (tag : string) (radians : bool) : result cell :=
  let aconv := if radians then 1 else PI / 180 in
  let deg90 := PI / 2 in
  let deg120 := 2 * PI / 3 in
  if String.eqb tag "cubic" then
    do p0 <- parm l 0; Ok (Cell (V3 p0 p0 p0) (V3 deg90 deg90 deg90))
  else if (String.eqb tag "hexagonal" || String.eqb tag "trigonal")%bool then
    do p0 <- parm l 0; do p1 <- parm l 1; Ok (Cell (V3 p0 p0 p1) (V3 deg90 deg90 deg120))
  else if String.eqb tag "rhombohedral" then
    do p0 <- parm l 0; do p1 <- parm l 1; Ok (Cell (V3 p0 p0 p0) (V3 (aconv * p1) (aconv * p1) (aconv * p1)))
  else if String.eqb tag "tetragonal" then
    do p0 <- parm l 0; do p1 <- parm l 1; Ok (Cell (V3 p0 p0 p1) (V3 deg90 deg90 deg90))
  else if String.eqb tag "orthorhombic" then
    do p0 <- parm l 0; do p1 <- parm l 1; do p2 <- parm l 2; Ok (Cell (V3 p0 p1 p2) (V3 deg90 deg90 deg90))
  else if String.eqb tag "monoclinic" then
    do p0 <- parm l 0; do p1 <- parm l 1; do p2 <- parm l 2; do p3 <- parm l 3;
    Ok (Cell (V3 p0 p1 p2) (V3 deg90 (aconv * p3) deg90))
  else if String.eqb tag "triclinic" then
    do p0 <- parm l 0; do p1 <- parm l 1; do p2 <- parm l 2; do p3 <- parm l 3; do p4 <- parm l 4; do p5 <- parm l 5;
    Ok (Cell (V3 p0 p1 p2) (V3 (aconv * p3) (aconv * p4) (aconv * p5)))
  else Err ValueError.

(** the result dictionary, crystallography.py:581-591 *)
Record lattice := Lattice { l_F : m3; l_B : m3; l_BR : m3; l_U0 : m3; l_vol : R; l_dparms : cell; l_rparms : cell }.

(** crystallography.py:513-524 and again 559-573: three vectors from lengths and angles, as columns *)
Definition cell_frame (k : cell) : m3 :=
  let '(cosalfar, sinalfar) := cosineXform (vx (c_ang k)) (vy (c_ang k)) (vz (c_ang k)) in
  of_cols (vscale (vx (c_len k)) (V3 1 0 0))
    (vscale (vy (c_len k)) (V3 (cos (vz (c_ang k))) (sin (vz (c_ang k))) 0))
    (vscale (vz (c_len k)) (V3 (cos (vy (c_ang k))) (- cosalfar * sin (vy (c_ang k))) (sinalfar * sin (vy (c_ang k))))).
(** numpy.linalg.inv of a regular matrix *)
Definition minv (a : m3) : m3 := mscale (/ det a) (adj a).
(** crystallography.py:513-591 *)
Definition lattice_of (k : cell) : lattice :=
  let F := cell_frame k in
  let a := col0 F in let b := col1 F in let c := col2 F in
  let V := dot a (cross b c) in
  let astar := vscale (/ V) (cross b c) in
  let bstar := vscale (/ V) (cross c a) in
  let cstar := vscale (/ V) (cross a b) in
  let ar := norm astar in let br := norm bstar in let cr := norm cstar in
  let alfar := acos (dot bstar cstar / br / cr) in
  let betar := acos (dot cstar astar / cr / ar) in
  let gamar := acos (dot astar bstar / ar / br) in
  let B := of_cols astar bstar cstar in
  let rparms := Cell (V3 ar br cr) (V3 alfar betar gamar) in
  let BR := cell_frame rparms in
  Lattice F B BR (mm B (minv BR)) V (Cell (V3 (norm a) (norm b) (norm c)) (c_ang k)) rparms.
(** crystallography.py:341-591 *)
Definition latticeVectors (l : list R) (tag : string) (radians : bool) : result lattice :=
  do k <- cellparms l tag radians; Ok (lattice_of k).

(** crystallography.py:185-207 *)
Definition latticeParameters (lvec : m3) : cell :=
  let a := norm (col0 lvec) in let b := norm (col1 lvec) in let c := norm (col2 lvec) in
  let ahat := vscale (/ a) (col0 lvec) in
  let bhat := vscale (/ b) (col1 lvec) in
  let chat := vscale (/ c) (col2 lvec) in
  let gama := acos (dot ahat bhat) in
  let beta := acos (dot ahat chat) in
  let alfa := acos (dot bhat chat) in
  Cell (V3 a b c) (V3 alfa beta gama).

(** crystallography.py:295-337, one column of hkls; the low and high angles are [None] without strainMag *)
Record plane := Plane { p_normal : v3; p_d : R; p_tth : option R; p_lo : option R; p_hi : option R }.
Definition below_one (x : R) : bool := if Rlt_dec (Rabs x) 1 then true else false.
Definition lattice_plane (L : lattice) (wavelength : R) (strainMag : option R) (hkl : v3) : plane :=
  let G := mv (l_B L) hkl in
  let d := 1 / norm G in
  let sth := wavelength / 2 / d in
  let tth := if below_one sth then Some (2 * asin sth) else None in
  let '(lo, hi) :=
    match strainMag with
    | None => (None, None)
    | Some s =>
        let slo := wavelength / 2 / (d * (1 + s)) in
        let shi := wavelength / 2 / (d * (1 - s)) in
        if (below_one slo && below_one shi)%bool then (Some (2 * asin slo), Some (2 * asin shi)) else (None, None)
    end in
  Plane (unitVector G) d tth lo hi.
(** crystallography.py:208-337: the angles of the lattice are in degrees *)
Definition latticePlanes (hkls : list v3) (l : list R) (ltype : string) (wavelength : R) (strainMag : option R) : result (list plane) :=
  do L <- latticeVectors l ltype false; Ok (map (lattice_plane L wavelength strainMag) hkls).

(** crystallography.py:622-629 *)
Definition rhombohedralParametersFromHexagonal (a_h c_h : R) : R * R :=
  (sqrt (3 * (a_h * a_h) + c_h * c_h) / 3, 2 * asin (3 / (2 * sqrt (3 + (c_h / a_h) * (c_h / a_h))))).
(** crystallography.py:632-664, one direction *)
Definition convert_Miller_direction_to_cartesian (uvw : v3) (a c : R) (normalize : bool) : v3 :=
  let retval := V3 (3 / 2 * vx uvw * a) (sqrt 3 / 2 * a * (2 * vy uvw + vx uvw)) (vz uvw * c) in
  if normalize then unitVector retval else retval.

(** ** unitcell.py *)
(** constants.py:68, sqrt_epsf: the square root of 2^-52 *)
Definition uc_eps : R := / 2 ^ 26.
(** unitcell.py:192 and 210: entries below eps are set to zero *)
Definition chop (x : R) : R := if Rlt_dec (Rabs x) uc_eps then 0 else x.
Definition mmap (f : R -> R) (a : m3) : m3 :=
  M3 (f (m00 a)) (f (m01 a)) (f (m02 a)) (f (m10 a)) (f (m11 a)) (f (m12 a)) (f (m20 a)) (f (m21 a)) (f (m22 a)).
Record ucell := Ucell { u_dmt : m3; u_vol : R; u_rmt : m3; u_dsm : m3; u_rsm : m3 }.
(** unitcell.py:149-226 without the warning and the thermal factors [_aij]; lengths in nm, angles in degrees.
    [- 1 / (a * tan gamma)] is 0 for a right angle, where the floating point tangent is 1.6e16. *)
Definition dsm_raw (a b c ca cb cg sg vol : R) : m3 :=
  M3 a (b * cg) (c * cb)  0 (b * sg) (- c * (cb * cg - ca) / sg)  0 0 (vol / (a * b * sg)).
Definition rsm_raw (a b c ca cb cg sg vol : R) : m3 :=
  M3 (1 / a) 0 0  (if Req_EM_T cg 0 then 0 else - 1 / (a * (sg / cg))) (1 / (b * sg)) 0
     (b * c * (cg * ca - cb) / (vol * sg)) (a * c * (cb * cg - ca) / (vol * sg)) (a * b * sg / vol).
Definition calcmatrices (len angles : v3) : ucell :=
  let a := vx len in let b := vy len in let c := vz len in
  let alpha := vx angles * (PI / 180) in let beta := vy angles * (PI / 180) in let gamma := vz angles * (PI / 180) in
  let ca := cos alpha in let cb := cos beta in let cg := cos gamma in let sg := sin gamma in
  let dmt := M3 (a * a) (a * b * cg) (a * c * cb)  (a * b * cg) (b * b) (b * c * ca)  (a * c * cb) (b * c * ca) (c * c) in
  let vol := sqrt (det dmt) in
  Ucell dmt vol (minv dmt) (mmap chop (dsm_raw a b c ca cb cg sg vol)) (mmap chop (rsm_raw a b c ca cb cg sg vol)).

(** numpy's [np.dot(v, M)] for a vector v *)
Definition vm (v : v3) (M : m3) : v3 := mv (mt M) v.
(** unitcell.py:231-261 *)
Definition TransSpace (u : ucell) (v : v3) (inspace outspace : string) : result v3 :=
  if String.eqb inspace outspace then Ok v
  else if String.eqb inspace "d" then
    if String.eqb outspace "r" then Ok (vm v (u_dmt u))
    else if String.eqb outspace "c" then Ok (mv (u_dsm u) v) else Err ValueError
  else if String.eqb inspace "r" then
    if String.eqb outspace "d" then Ok (vm v (u_rmt u))
    else if String.eqb outspace "c" then Ok (mv (u_rsm u) v) else Err ValueError
  else if String.eqb inspace "c" then
    if String.eqb outspace "r" then Ok (vm v (u_dsm u))
    else if String.eqb outspace "d" then Ok (vm v (u_rsm u)) else Err ValueError
  else Err ValueError.
(** unitcell.py:265-275 *)
Definition CalcDot (uc : ucell) (u v : v3) (space : string) : result R :=
  if String.eqb space "d" then Ok (dot u (mv (u_dmt uc) v))
  else if String.eqb space "r" then Ok (dot u (mv (u_rmt uc) v))
  else if String.eqb space "c" then Ok (dot u v) else Err ValueError.
(** unitcell.py:277-293 and 29-31 *)
Definition CalcLength (uc : ucell) (u : v3) (space : string) : result R :=
  do mat <- (if String.eqb space "d" then Ok (u_dmt uc) else if String.eqb space "r" then Ok (u_rmt uc)
             else if String.eqb space "c" then Ok mI else Err ValueError);
  Ok (sqrt (dot u (mv mat u))).
(** unitcell.py:297-299 *)
Definition NormVec (uc : ucell) (u : v3) (space : string) : result v3 :=
  do ulen <- CalcLength uc u space; Ok (vscale (/ ulen) u).
(** unitcell.py:303-312; numpy.isclose(x, 1.0) is |x - 1| <= 1e-8 + 1e-5 *)
Definition sgn (x : R) : R := if Rlt_dec 0 x then 1 else if Rlt_dec x 0 then -1 else 0.
Definition CalcAngle (uc : ucell) (u v : v3) (space : string) : result R :=
  do ulen <- CalcLength uc u space; do vlen <- CalcLength uc v space; do d <- CalcDot uc u v space;
  let x := d / ulen / vlen in
  let x := if Rle_dec (Rabs (Rabs x - 1)) (/ 10 ^ 8 + / 10 ^ 5) then sgn x else x in
  Ok (acos x).
(** unitcell.py:325-389, for float arguments (integer arguments raise in the in-place product) *)
Definition CalcCross (uc : ucell) (p q : v3) (inspace outspace : string) (vol_divide : bool) : result v3 :=
  let vol := if vol_divide then u_vol uc else 1 in
  let pxq := V3 (vy p * vz q - vz p * vy q) (vz p * vx q - vx p * vz q) (vx p * vy q - vy p * vx q) in
  if String.eqb inspace "d" then
    let pxq := vscale vol pxq in
    if String.eqb outspace "r" then Ok pxq
    else if String.eqb outspace "d" then TransSpace uc pxq "r" "d"
    else if String.eqb outspace "c" then TransSpace uc pxq "r" "c" else Err ValueError
  else if String.eqb inspace "r" then
    let pxq := vscale (/ vol) pxq in
    if String.eqb outspace "r" then TransSpace uc pxq "d" "r"
    else if String.eqb outspace "d" then Ok pxq
    else if String.eqb outspace "c" then TransSpace uc pxq "d" "c" else Err ValueError
  else if String.eqb inspace "c" then
    if String.eqb outspace "r" then TransSpace uc pxq "c" "r"
    else if String.eqb outspace "d" then TransSpace uc pxq "c" "d"
    else if String.eqb outspace "c" then Ok pxq else Err ValueError
  else Err ValueError.
