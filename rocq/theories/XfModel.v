(** Model of the coordinate transforms: core/transforms/new_capi/*.c, core/transforms/cpp_sublibrary/src/transforms.cpp,
    their wrappers in core/transforms/xfcapi.py, and PlanarDetector (core/instrument/planar_detector.py).
    Real numbers stand for floating point numbers.  NaN (and, where said, an undefined number) is [None]. *)
From Coq Require Import Reals List ZArith.
From Verif Require Import Prelude Lin TensorModel RotModel RigModel.
Import ListNotations.
Local Open Scope R_scope.

(** new_capi/transforms_types.h: DBL_EPSILON and sqrt_epsf *)
Definition c_epsf : R := / 2 ^ 52.
Definition c_sqrt_epsf : R := 15 / 10 ^ 9.
Definition two_pi : R := 2 * PI.

(** C's atan2; the two signs of zero are not distinguished, so atan2(0, x < 0) is pi and atan2(0, 0) is 0 *)
Definition atan2 (y x : R) : R :=
  if Rlt_dec 0 x then atan (y / x)
  else if Rlt_dec x 0 then (if Rle_dec 0 y then atan (y / x) + PI else atan (y / x) - PI)
  else if Rlt_dec 0 y then PI / 2 else if Rlt_dec y 0 then - (PI / 2) else 0.

(** ** validate_angle_ranges.c:1-71 *)
(** lines 30-31 and 53-54, [while (x < 0.0) x += 2.0*M_PI;]: running out of the given number of iterations is an error *)
Fixpoint wrap_up (fuel : nat) (x : R) : result R :=
  if Rlt_dec x 0 then match fuel with O => Err OutOfFuel | S f => wrap_up f (x + two_pi) end else Ok x.
(** lines 32-33 and 55-56, [while (x > 2.0*M_PI) x -= 2.0*M_PI;] *)
Fixpoint wrap_down (fuel : nat) (x : R) : result R :=
  if Rlt_dec two_pi x then match fuel with O => Err OutOfFuel | S f => wrap_down f (x - two_pi) end else Ok x.
(** enough iterations for both loops (in floating point a loop on an infinity or a huge number never ends) *)
Definition wrap_fuel (x : R) : nat := Z.to_nat (up (Rabs x / two_pi)).
Definition wrap_angle (x : R) : result R := do y <- wrap_up (wrap_fuel x) x; wrap_down (wrap_fuel x) y.
(** lines 22-66, one pass of the loop over the ranges: is the angle accepted by this range *)
Definition in_range (ccw : bool) (a : R) (r : R * R) : result bool :=
  let '(mn, mx) := r in
  let '(start, stop) := if ccw then (mn, mx) else (mx, mn) in
  do thetaMax <- wrap_angle (stop - start);
  if Rlt_dec (Rabs thetaMax) c_sqrt_epsf then Ok true
  else if (if Rlt_dec (Rabs (thetaMax - two_pi)) c_sqrt_epsf
           then (if ccw then (if Rlt_dec mn mx then true else false) else (if Rlt_dec mx mn then true else false)) else false) then Ok true
  else
    do theta <- wrap_angle (a - start);
    Ok (if Rle_dec (- c_sqrt_epsf) theta then (if Rle_dec theta (thetaMax + c_sqrt_epsf) then true else false) else false).
(** lines 20-68: the first accepting range ends the search *)
Fixpoint accepted (ccw : bool) (a : R) (rs : list (R * R)) : result bool :=
  match rs with
  | [] => Ok false
  | r :: rs' => do b <- in_range ccw a r; if b then Ok true else accepted ccw a rs'
  end.
Fixpoint map_result {A B} (f : A -> result B) (l : list A) : result (list B) :=
  match l with [] => Ok [] | x :: l' => do y <- f x; do ys <- map_result f l'; Ok (y :: ys) end.
(** validate_angle_ranges.c:77-124 and xfcapi.py:605-636 *)
Definition validate_angle_ranges (angs starts stops : list R) (ccw : bool) : result (list bool) :=
  if Nat.eqb (List.length starts) (List.length stops)
  then map_result (fun a => accepted ccw a (combine starts stops)) angs
  else Err RuntimeError.

(** ** rotation matrices *)
(** make_sample_rmat.c:1-20; transforms.cpp:26-52 has the same entries.  The vectorised sine and cosine are taken to be exact. *)
Definition make_sample_rmat (chi ome : R) : m3 :=
  M3 (cos ome) 0 (sin ome)
     (sin chi * sin ome) (cos chi) (- sin chi * cos ome)
     (- cos chi * sin ome) (sin chi) (cos chi * cos ome).
(** make_detector_rmat.c:1-21 *)
Definition make_detector_rmat (t : v3) : m3 :=
  let c0 := cos (vx t) in let c1 := cos (vy t) in let c2 := cos (vz t) in
  let s0 := sin (vx t) in let s1 := sin (vy t) in let s2 := sin (vz t) in
  M3 (c1 * c2) (s0 * s1 * c2 - c0 * s2) (c0 * s1 * c2 + s0 * s2)
     (c1 * s2) (s0 * s1 * s2 + c0 * c2) (c0 * s1 * s2 - s0 * c2)
     (- s1) (s0 * c1) (c0 * c1).
(** unit_row_vector.c:2-25: the flag says whether the vector could be normalised *)
Definition unit_row_vector (v : v3) : v3 * bool :=
  let nrm := norm v in if Rlt_dec c_epsf nrm then (V3 (vx v / nrm) (vy v / nrm) (vz v / nrm), true) else (v, false).
(** make_beam_rmat.c:1-47, 73-96: both error codes become RuntimeError *)
Definition make_beam_rmat (b e : v3) : result m3 :=
  let '(bHat, ok) := unit_row_vector b in
  if negb ok then Err RuntimeError else
  let y := V3 (vy e * vz b - vy b * vz e) (vz e * vx b - vz b * vx e) (vx e * vy b - vx b * vy e) in
  let '(yHat, ok) := unit_row_vector y in
  if negb ok then Err RuntimeError else
  let xHat := V3 (vy bHat * vz yHat - vy yHat * vz bHat) (vz bHat * vx yHat - vz yHat * vx bHat) (vx bHat * vy yHat - vx yHat * vy bHat) in
  Ok (M3 (vx xHat) (vx yHat) (- vx bHat) (vy xHat) (vy yHat) (- vy bHat) (vz xHat) (vz yHat) (- vz bHat)).
(** transforms.cpp:15-19 *)
Definition make_binary_rmat (a : v3) : m3 := msub (mscale 2 (outer a a)) mI.

(** ** rotate_vecs_about_axis.c:1-54, one vector; an axis of length 0 gives NaN *)
Definition rotate_about_axis (angle : R) (axis v : v3) : option v3 :=
  let c := cos angle in let s := sin angle in
  let nrm := norm axis in
  if Req_EM_T nrm 0 then None else
  let proj := dot axis v in
  let aCrossV := V3 (vy axis * vz v - vz axis * vy v) (vz axis * vx v - vx axis * vz v) (vx axis * vy v - vy axis * vx v) in
  let comp := fun w k x => c * w + (s / nrm) * k + (1 - c) * proj * x / (nrm * nrm) in
  Some (V3 (comp (vx v) (vx aCrossV) (vx axis)) (comp (vy v) (vy aCrossV) (vy axis)) (comp (vz v) (vz aCrossV) (vz axis))).
(** an argument that is either one value (a 0-d angle, a 1-d axis) or an array with one value per row *)
Inductive single_or_rows (A : Type) := Single (x : A) | Rows (l : list A).
Arguments Single {A} x. Arguments Rows {A} l.
(** rotate_vecs_about_axis.c:69-86: an array, even of length one, must have as many rows as there are vectors;
    lines 9-15 with the strides sa and sax: row i, or the single value for every i *)
Definition spread {A} (a : single_or_rows A) (n : nat) : result (list A) :=
  match a with
  | Single x => Ok (repeat x n)
  | Rows l => if Nat.eqb (List.length l) n then Ok l else Err ValueError
  end.
Definition rotate_vecs_about_axis (angles : single_or_rows R) (axes : single_or_rows v3) (vecs : list v3) : result (list (option v3)) :=
  do a <- spread angles (List.length vecs);
  do x <- spread axes (List.length vecs);
  Ok (map (fun p => rotate_about_axis (fst (fst p)) (snd (fst p)) (snd p)) (combine (combine a x) vecs)).

(** ** quat_distance.c:2-36 *)
Definition quat_distance (q1 q2 : q4) (qsym : list q4) : option R :=
  let step := fun q0_max qs =>
    let q2s := Q4 (qw q2 * qw qs - qx q2 * qx qs - qy q2 * qy qs - qz q2 * qz qs)
                  (qx q2 * qw qs + qw q2 * qx qs - qz q2 * qy qs + qy q2 * qz qs)
                  (qy q2 * qw qs + qz q2 * qx qs + qw q2 * qy qs - qx q2 * qz qs)
                  (qz q2 * qw qs - qy q2 * qx qs + qx q2 * qy qs + qw q2 * qz qs) in
    let abs_q0 := Rabs (qw q1 * qw q2s + qx q1 * qx q2s + qy q1 * qy q2s + qz q1 * qz q2s) in
    if Rlt_dec q0_max abs_q0 then abs_q0 else q0_max in
  let q0_max := fold_left step qsym 0 in
  if Rle_dec q0_max 1 then Some (2 * acos q0_max)
  else if Rlt_dec (q0_max - 1) (/ 10 ^ 12) then Some 0 else None.

(** ** oscill_angles_of_HKLs.c *)
(** the norm guard used for the beam, the eta vector and G (lines 18-41): a shorter vector is left as it is *)
Definition guarded_unit (v : v3) : v3 := fst (unit_row_vector v).
(** a symmetric tensor in vector notation applied to a vector, lines 80-82 *)
Record sym6 := Sym6 { s0 : R; s1 : R; s2 : R; s3 : R; s4 : R; s5 : R }.
Definition apply_sym6 (s : sym6) (g : v3) : v3 :=
  V3 (s0 s * vx g + (s5 s * vy g + s4 s * vz g) / sqrt 2)
     (s1 s * vy g + (s5 s * vx g + s3 s * vz g) / sqrt 2)
     (s2 s * vz g + (s4 s * vx g + s3 s * vy g) / sqrt 2).
(** xfcapi.py:445-447 *)
Definition v_inv_default : sym6 := Sym6 1 1 1 0 0 0.
(** one row of a result array; eta and two theta are left uninitialised ([None]) for inconsistent reference vectors *)
Record oang := OAng { o_tth : option R; o_eta : option R; o_ome : R }.
Inductive oresult :=
| Solutions (a b : oang)  (* the two rows *)
| NoSolution              (* both rows NaN *)
| Degenerate.             (* line 101: assert(abMag > 0) fails; without assertions a division by zero *)
(** lines 61-106: the unit G vector in the sample frame, the sine of the Bragg angle *)
Definition osc_gvec (hkl : v3) (rmat_c bmat : m3) (wavelength : R) (v_inv : sym6) : v3 * R :=
  let gHat_c := mv bmat hkl in
  let gHat_s := mv rmat_c gHat_c in
  let tmpVec := apply_sym6 v_inv gHat_s in
  let gHat_c := mv (mt rmat_c) tmpVec in
  let nrm0 := norm gHat_c in
  ((if Rlt_dec c_epsf nrm0 then V3 (vx tmpVec / nrm0) (vy tmpVec / nrm0) (vz tmpVec / nrm0) else gHat_s), / 2 * wavelength * nrm0).
(** lines 119-160: azimuth of the G vector at one omega *)
Definition osc_eta (bHat eHat gHat_s : v3) (chi ome : R) : option R :=
  match make_beam_rmat bHat eHat with
  | Ok rMat_e =>
      let t := mv (make_sample_rmat chi ome) gHat_s in
      let g := mv (mt rMat_e) t in
      Some (atan2 (vy g) (vx g))
  | Err _ => None
  end.
Definition oscill_angles_of_hkl (chi : R) (rmat_c bmat : m3) (wavelength : R) (v_inv : sym6) (beam eta : v3) (hkl : v3) : oresult :=
  let bHat := guarded_unit beam in
  let eHat := guarded_unit eta in
  let crc := if Rlt_dec (Rabs (dot bHat eHat)) (1 - c_sqrt_epsf) then true else false in
  let cchi := cos chi in let schi := sin chi in
  let '(g, sintht) := osc_gvec hkl rmat_c bmat wavelength v_inv in
  let a := vz g * vx bHat + schi * vx g * vy bHat - cchi * vx g * vz bHat in
  let b := vx g * vx bHat - schi * vz g * vy bHat + cchi * vz g * vz bHat in
  let c := - sintht - cchi * vy g * vy bHat - schi * vy g * vz bHat in
  let abMag := sqrt (a * a + b * b) in
  if Req_EM_T abMag 0 then Degenerate else
  let phaseAng := atan2 b a in
  let rhs := c / abMag in
  if Rlt_dec 1 (Rabs rhs) then NoSolution else
  let rhsAng := asin rhs in
  let ome0 := rhsAng - phaseAng in
  let ome1 := PI - rhsAng - phaseAng in
  if crc then
    let tth := 2 * asin sintht in
    Solutions (OAng (Some tth) (osc_eta bHat eHat g chi ome0) ome0) (OAng (Some tth) (osc_eta bHat eHat g chi ome1) ome1)
  else Solutions (OAng None None ome0) (OAng None None ome1).
(** xfcapi.py:350-457 *)
Definition oscill_angles_of_hkls (hkls : list v3) (chi : R) (rmat_c bmat : m3) (wavelength : R) (v_inv : option sym6) (beam eta : v3) : list oresult :=
  let v := match v_inv with None => v_inv_default | Some v => v end in
  map (oscill_angles_of_hkl chi rmat_c bmat wavelength v beam eta) hkls.

(** ** gvec_to_xy.c *)
(** lines 596-629; [None] is the NULL pointer, which stands for the beam (0, 0, 1) *)
Definition normalize_beam (b : v3) : option v3 :=
  let sq := norm2 b in
  if Rlt_dec (c_epsf * c_epsf) sq then
    let rnorm := - (1) / sqrt sq in
    let z := vz b * rnorm in
    if Rlt_dec (Rabs (z - 1)) c_epsf then None else Some (V3 (vx b * rnorm) (vy b * rnorm) z)
  else Some b.
(** lines 24-53, 60-108 *)
Definition diffract (beam : option v3) (v : v3) : v3 :=
  let bm02 := vx v * vz v * 2 in let bm12 := vy v * vz v * 2 in let bm22 := vz v * vz v * 2 - 1 in
  match beam with
  | None => V3 bm02 bm12 bm22
  | Some b =>
      let bm00 := vx v * vx v * 2 - 1 in let bm11 := vy v * vy v * 2 - 1 in let bm01 := vx v * vy v * 2 in
      V3 (bm02 * vz b + bm01 * vy b + bm00 * vx b) (bm12 * vz b + bm11 * vy b + bm01 * vx b) (bm22 * vz b + bm12 * vy b + bm02 * vx b)
  end.
(** a detector point: finite coordinates, NaN, or the result of dividing a non-zero number by zero
    (NaN or infinite coordinates, depending on the sign of the zero) *)
Inductive dpoint := XY (x y : R) | NaNs | Parallel.
(** lines 232-249, 265-285, 546-552: a ray against the plane of the detector *)
Definition project (rmat_d : m3) (tvec_d orig vect : v3) : dpoint :=
  let plane := col2 rmat_d in let xa := col0 rmat_d in let ya := col1 rmat_d in
  let x_base := - dot tvec_d xa + dot xa orig in
  let y_base := - dot tvec_d ya + dot ya orig in
  let num := - dot tvec_d plane + dot plane orig in
  let denom := dot plane vect in
  if Req_EM_T denom 0 then (if Req_EM_T num 0 then NaNs else Parallel) else
  let t := num / denom in
  if Rlt_dec t 0 then XY (x_base - t * dot xa vect) (y_base - t * dot ya vect) else NaNs.
(** lines 451-483: one group of G vectors with one sample matrix *)
Definition gvec_group_single (rmat_d rmat_s rmat_c : m3) (tvec_d tvec_s tvec_c : v3) (beam : option v3) (gs : list v3) : list dpoint :=
  let origin := vadd tvec_s (mv rmat_s tvec_c) in
  let rmat_sc := mm rmat_s rmat_c in
  map (fun g => project rmat_d tvec_d origin (diffract beam (mv rmat_sc g))) gs.
(** lines 489-525: one group with one sample matrix for each G vector *)
Definition gvec_group_array (rmat_d rmat_c : m3) (tvec_d tvec_s tvec_c : v3) (beam : option v3) (gs : list (v3 * m3)) : list dpoint :=
  map (fun p => let '(g, rmat_s) := p in
       project rmat_d tvec_d (vadd tvec_s (mv rmat_s tvec_c)) (diffract beam (mv rmat_s (mv rmat_c g)))) gs.
(** lines 462-483, 494-525: groups of 128, then what is left *)
Fixpoint in_groups {A B} (fuel : nat) (n : nat) (f : list A -> list B) (l : list A) : list B :=
  match fuel with
  | O => []
  | S fuel' => if Nat.leb n (List.length l) then f (firstn n l) ++ in_groups fuel' n f (skipn n l)
               else match l with [] => [] | _ => f l end
  end.
Definition group_size : nat := 128.
(** rmat_s as a 3x3 array or an n x 3 x 3 array; xfcapi.py:179-279.  [vmat_inv] and [bmat] are documented parameters
    that the function does not use; beam_vec None is (0, 0, -1) (constants.py) *)
Inductive sample_rmat := OneRmat (r : m3) | RmatPer (l : list m3).
Definition gvec_to_xy (gvec_c : list v3) (rmat_d : m3) (rmat_s : sample_rmat) (rmat_c : m3) (tvec_d tvec_s tvec_c : v3)
                      (beam_vec : option v3) (vmat_inv bmat : option m3) : result (list dpoint) :=
  let beam := normalize_beam (match beam_vec with Some b => b | None => V3 0 0 (-1) end) in
  match rmat_s with
  | OneRmat r => Ok (in_groups (S (List.length gvec_c)) group_size (gvec_group_single rmat_d r rmat_c tvec_d tvec_s tvec_c beam) gvec_c)
  | RmatPer l =>
      if Nat.eqb (List.length gvec_c) (List.length l)
      then Ok (in_groups (S (List.length gvec_c)) group_size (gvec_group_array rmat_d rmat_c tvec_d tvec_s tvec_c beam) (combine gvec_c l))
      else Err ValueError
  end.

(** ** xy_to_gvec.c:2-84, one point: two theta, eta ([None]: uninitialised matrix) and G in the lab frame ([None]: NaN) *)
Definition xy_to_gvec_one (rmat_d rmat_s : m3) (tvec_d tvec_s tvec_c beam eta : v3) (xy : R * R) : R * option R * option v3 :=
  let rMat_e := make_beam_rmat beam eta in
  let bVec := guarded_unit beam in
  let tVec1 := vsub (vsub tvec_d tvec_s) (mv rmat_s tvec_c) in
  let d := vadd tVec1 (vadd (vscale (fst xy) (col0 rmat_d)) (vscale (snd xy) (col1 rmat_d))) in
  let nrm := norm2 d in
  let dHat := if Rlt_dec c_epsf nrm then V3 (vx d / sqrt nrm) (vy d / sqrt nrm) (vz d / sqrt nrm) else d in
  let tth := acos (dot bVec dHat) in
  let az := match rMat_e with Ok r => let t := mv (mt r) dHat in Some (atan2 (vy t) (vx t)) | Err _ => None end in
  let n_g := cross bVec dHat in
  let nn := norm n_g in
  let g := if Req_EM_T nn 0 then None
           else rotate_about_axis (/ 2 * (PI - tth)) (V3 (vx n_g / nn) (vy n_g / nn) (vz n_g / nn)) dHat in
  (tth, az, g).
(** xfcapi.py:282-347: the beam and eta vectors are columns of rmat_b; output_ref and distortion (see the distortion model)
    are left out *)
Definition xy_to_gvec (xy : list (R * R)) (rmat_d rmat_s : m3) (tvec_d tvec_s tvec_c : v3) (rmat_b : option m3) : list (R * option R * option v3) :=
  let rb := match rmat_b with Some r => r | None => mI end in
  map (xy_to_gvec_one rmat_d rmat_s tvec_d tvec_s tvec_c (vneg (col2 rb)) (col0 rb)) xy.

(** ** transforms.cpp:54-243: the vectorised and the scalar loop have the same body *)
Definition angles_to_vec (to_gvec : bool) (beam eta : v3) (chi : R) (rmat_c : m3) (tth az ome : R) : v3 :=
  let yHat := eigen_normalized (cross eta beam) in
  let bHat := eigen_normalized beam in
  let xHat := cross bHat yHat in
  let r := of_cols xHat yHat (vneg bHat) in
  let p := if to_gvec then V3 (cos (tth * (/ 2)) * cos az) (cos (tth * (/ 2)) * sin az) (sin (tth * (/ 2)))
           else V3 (sin tth * cos az) (sin tth * sin az) (- cos tth) in
  let g := V3 (vx p * m00 r + vy p * m01 r + vz p * m02 r) (vx p * m10 r + vy p * m11 r + vz p * m12 r) (vx p * m20 r + vy p * m21 r + vz p * m22 r) in
  let c2 := cos ome in let s2 := sin ome in let cchi := cos chi in let schi := sin chi in
  let row := fun m0 m1 m2 =>
    (m0 * c2 + m2 * s2) * vx g + (m0 * schi * s2 + m1 * cchi - m2 * schi * c2) * vy g + (- m0 * cchi * s2 + m1 * schi + m2 * cchi * c2) * vz g in
  V3 (row (m00 rmat_c) (m10 rmat_c) (m20 rmat_c)) (row (m01 rmat_c) (m11 rmat_c) (m21 rmat_c)) (row (m02 rmat_c) (m12 rmat_c) (m22 rmat_c)).
Definition angles_to_gvec := angles_to_vec true.
Definition angles_to_dvec := angles_to_vec false.
(** xfcapi.py:151-176 with unit_row_vector.c:28-53: a (3, n) array, given by its columns, is normalised row by row *)
Definition sumsq (l : list R) : R := fold_right (fun x s => x * x + s) 0 l.
Definition row_norm_factor (l : list R) : R := let n := sqrt (sumsq l) in if Rlt_dec c_epsf n then / n else 1.
Definition makeGVector (bmat : m3) (hkl : list v3) : list v3 :=
  let g := map (mv bmat) hkl in
  let f0 := row_norm_factor (map vx g) in let f1 := row_norm_factor (map vy g) in let f2 := row_norm_factor (map vz g) in
  map (fun v => V3 (vx v * f0) (vy v * f1) (vz v * f2)) g.

(** ** core/instrument/planar_detector.py *)
(** the geometry of a panel without distortion *)
Record flat := Flat { f_rmat : m3; f_tvec : v3; f_bvec : v3; f_evec : v3 }.
(** lines 27-54, apply_distortion False *)
Definition cart_to_angles (p : flat) (rmat_s : m3) (tvec_s tvec_c : v3) (xy : list (R * R)) : result (list (R * option R * option v3)) :=
  do rmat_b <- make_beam_rmat (f_bvec p) (f_evec p);
  Ok (xy_to_gvec xy (f_rmat p) rmat_s (f_tvec p) tvec_s tvec_c (Some rmat_b)).
(** lines 56-96: chi and omega are read off the sample matrix *)
Definition angles_to_cart (p : flat) (rmat_s rmat_c : m3) (tvec_s tvec_c : v3) (tth_eta : list (R * R)) : result (list dpoint) :=
  let chi := acos (m11 rmat_s) in
  let ome := acos (m00 rmat_s) in
  let gvec := map (fun t => angles_to_gvec (f_bvec p) (f_evec p) chi mI (fst t) (snd t) ome) tth_eta in
  gvec_to_xy gvec (f_rmat p) (OneRmat rmat_s) rmat_c (f_tvec p) tvec_s tvec_c (Some (f_bvec p)) None None.
(** lines 98-101 *)
Definition cart_to_dvecs (p : flat) (xy : list (R * R)) : list v3 :=
  map (fun c => vadd (mv (f_rmat p) (V3 (fst c) (snd c) 0)) (f_tvec p)) xy.
(** lines 185-195; the normal is the third column of rmat (detector.py:553-555); constants.sqrt_epsf is sqrt of 2^-52 *)
Definition beam_position (p : flat) : option (R * R) :=
  let n := col2 (f_rmat p) in
  let b_dot_n := dot (f_bvec p) n in
  if Rlt_dec (sqrt c_epsf) (Rabs b_dot_n) then
    if Rlt_dec b_dot_n 0 then
      let u := dot n (f_tvec p) / b_dot_n in
      let p2 := mv (mt (f_rmat p)) (vsub (vscale u (f_bvec p)) (f_tvec p)) in
      Some (vx p2, vy p2)
    else None
  else None.
