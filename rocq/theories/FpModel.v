(** Model of getFriedelPair (core/material/crystallography.py:1882-2120).  Real numbers stand for floating point numbers, [None]
    for NaN; the arc tangent and the rotation matrix are those of the Xf and Rot areas. *)
From Coq Require Import Reals List.
From Verif Require Import Prelude Lin TensorModel RotModel XfModel.
Import ListNotations.
Local Open Scope R_scope.

(** the keyword arguments (lines 1991-2007); 'display' only writes to the log.  [convention='fable'], [units='radians'], [chiTilt] *)
Record options := Options { fable : bool; radians : bool; chiTilt : option R }.
(** core/constants.py:73-74 *)
Definition d2r : R := PI / 180.
Definition r2d : R := 180 / PI.

(** lines 2016-2120 for one reflection *)
Definition friedel_one (o : options) (tth0 eta0 ome0 : R) : result (option (R * R)) :=
  let c1 := if radians o then 180 / PI else 1 in
  let c2 := if radians o then 1 else PI / 180 in
  do eta <- mapAngle (c1 * eta0) (Some (-180, 180)) ADeg;
  let eta := if fable o then 90 - eta else eta in
  let eta := d2r * eta in
  let tht := c2 * tth0 / 2 in
  let chi := match chiTilt o with Some c => c2 * c | None => 0 end in
  let cchi := cos chi in let schi := sin chi in
  let ceta := cos eta in let seta := sin eta in
  let ctht := cos tht in let stht := sin tht in
  let nchi := V3 0 cchi schi in
  let gHat0 := vneg (V3 (ceta * ctht) (seta * ctht) stht) in
  let a := cchi * ceta * ctht in
  let b := - cchi * stht in
  let c := stht + schi * seta * ctht in
  let abMag := sqrt (a * a + b * b) in
  if Rlt_dec 0 abMag then
    let phaseAng := atan2 b a in
    let rhs := c / abMag in
    if Rlt_dec 1 (Rabs rhs) then Ok None else
    let rhsAng := asin rhs in
    do ome1 <- mapAngle (rhsAng - phaseAng) (Some (- PI, PI)) ARad;
    do ome2 <- mapAngle (PI - rhsAng - phaseAng) (Some (- PI, PI)) ARad;
    let ome_min := if Rle_dec (Rabs ome1) (Rabs ome2) then ome1 else ome2 in
    let g := mv (rotMatOfExpMap (vscale ome_min nchi)) gHat0 in
    let eta_min := atan2 (vy g) (vx g) in
    do m <- mapAngle (r2d * ome_min) (Some (-180, 180)) ADeg;
    do ome1 <- mapAngle (m + c1 * ome0) (Some (-180, 180)) ADeg;
    do eta1 <- mapAngle (r2d * eta_min) (Some (-180, 180)) ADeg;
    Ok (Some (d2r * ome1, d2r * eta1))
  else Err AssertionError.

(** [x *= np.ones(n)] for a one-dimensional array: numpy cannot enlarge an array in place *)
Definition times_ones (l : list R) (n : nat) : result (list R) :=
  if Nat.eqb (List.length l) n then Ok l
  else if Nat.eqb n 1 then Ok l
  else Err ValueError.
(** lines 1960-1976: the two angles of every reflection *)
Definition tile (tth0 eta0 : list R) : result (list R * list R) :=
  let npts := List.length eta0 in
  if Nat.eqb (List.length tth0) npts then Ok (tth0, eta0)
  else if Nat.eqb (List.length tth0) 1 then do t <- times_ones tth0 npts; Ok (t, eta0)
  else if Nat.eqb npts 1 then do e <- times_ones eta0 (List.length tth0); Ok (tth0, e)
  else Err RuntimeError.
(** lines 1978-1988; the reference angles are given one by one (an array given as one argument becomes a row of an array, which
    is not modelled) *)
Definition tile_ome (ome0 : list R) (npts : nat) : result (list R) :=
  if Nat.eqb (List.length ome0) 0 then Ok (repeat 0 npts)
  else if Nat.eqb (List.length ome0) 1 && Nat.ltb 1 npts then times_ones ome0 npts
  else if Nat.eqb (List.length ome0) npts then Ok ome0
  else Err RuntimeError.
Fixpoint friedel_all (o : options) (l : list (R * R * R)) : result (list (option (R * R))) :=
  match l with
  | [] => Ok []
  | (t, e, w) :: r => do x <- friedel_one o t e w; do y <- friedel_all o r; Ok (x :: y)
  end.
Definition getFriedelPair (o : options) (tth0 eta0 ome0 : list R) : result (list (option (R * R))) :=
  do te <- tile tth0 eta0;
  let (tth, eta) := te in
  do ome <- tile_ome ome0 (List.length tth);
  friedel_all o (combine (combine tth eta) ome).
