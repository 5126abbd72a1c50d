(** Model of core/rotations.py: quaternions, misorientation, fundamental region, Laue groups, angle mapping.
    Real numbers stand for floating point numbers; one column at a time. *)
From Coq Require Import Reals List String.
From Verif Require Import Prelude Lin TensorModel.
Import ListNotations.
Local Open Scope R_scope.

(** a quaternion, scalar part first *)
Record q4 := Q4 { qw : R; qx : R; qy : R; qz : R }.
Definition qzero := Q4 0 0 0 0.
Definition qone := Q4 1 0 0 0.
Definition qscale (k : R) (q : q4) := Q4 (k * qw q) (k * qx q) (k * qy q) (k * qz q).
Definition dot4 (p q : q4) : R := qw p * qw q + qx p * qx q + qy p * qy q + qz p * qz q.
Definition norm4 (q : q4) : R := sqrt (dot4 q q).
(** Hamilton's product; scipy's product of rotations (external) *)
Definition hmul (p q : q4) : q4 :=
  Q4 (qw p * qw q - qx p * qx q - qy p * qy q - qz p * qz q)
     (qw p * qx q + qx p * qw q + qy p * qz q - qz p * qy q)
     (qw p * qy q - qx p * qz q + qy p * qw q + qz p * qx q)
     (qw p * qz q + qx p * qy q - qy p * qx q + qz p * qw q).

(** numpy.sign *)
Definition npsign (x : R) : R := if Rlt_dec x 0 then -1 else if Rlt_dec 0 x then 1 else 0.
(** core/matrixutil.py:76-93 on a column of four *)
Definition unitVector4 (q : q4) : q4 :=
  let nrm := norm4 q in
  let nrm := if Rle_dec nrm ten_epsf then 1 else nrm in
  Q4 (qw q / nrm) (qx q / nrm) (qy q / nrm) (qz q / nrm).
(** core/rotations.py:120-138 *)
Definition fixQuat (q : q4) : q4 :=
  let qfix := unitVector4 q in
  if Rlt_dec (qw qfix) 0 then qscale (-1) qfix else qfix.
(** core/rotations.py:141-151 *)
Definition invertQuat (q : q4) : q4 := fixQuat (Q4 (-1 * qw q) (1 * qx q) (1 * qy q) (1 * qz q)).
(** core/rotations.py:105-110: scipy normalises and raises ValueError for a zero norm *)
Definition quat_to_scipy (q : q4) : result q4 :=
  if Req_EM_T (norm4 q) 0 then Err ValueError else Ok (qscale (/ norm4 q) q).
(** core/rotations.py:113-117 *)
Definition scipy_to_quat (q : q4) : q4 := qscale (npsign (qw q)) q.
(** core/rotations.py:254-275 *)
Definition quatProduct (q1 q2 : q4) : result q4 :=
  do rot_1 <- quat_to_scipy q1;
  do rot_2 <- quat_to_scipy q2;
  Ok (scipy_to_quat (hmul rot_2 rot_1)).
(** core/rotations.py:278-358, the two 4x4 operators applied to a quaternion; the sixteen entries are listed
    column by column *)
Definition mat4_apply (e : list R) (p : q4) : q4 :=
  let c i := nth i e 0 in
  Q4 (c 0%nat * qw p + c 4%nat * qx p + c 8%nat * qy p + c 12%nat * qz p)
     (c 1%nat * qw p + c 5%nat * qx p + c 9%nat * qy p + c 13%nat * qz p)
     (c 2%nat * qw p + c 6%nat * qx p + c 10%nat * qy p + c 14%nat * qz p)
     (c 3%nat * qw p + c 7%nat * qx p + c 11%nat * qy p + c 15%nat * qz p).
Definition qprod_right (q : q4) : list R :=
  let q0 := qw q in let q1 := qx q in let q2 := qy q in let q3 := qz q in
  [q0; q1; q2; q3; - q1; q0; - q3; q2; - q2; q3; q0; - q1; - q3; - q2; q1; q0].
Definition qprod_left (q : q4) : list R :=
  let q0 := qw q in let q1 := qx q in let q2 := qy q in let q3 := qz q in
  [q0; q1; q2; q3; - q1; q0; q3; - q2; - q2; - q3; q0; q1; - q3; q2; - q1; q0].
(** core/rotations.py:562-586 *)
Definition rotMatOfQuat (q : q4) : m3 :=
  let a := qw q in let b := qx q in let c := qy q in let d := qz q in
  M3 (a ^ 2 + b ^ 2 - c ^ 2 - d ^ 2) (2 * b * c - 2 * a * d) (2 * a * c + 2 * b * d)
     (2 * a * d + 2 * b * c) (a ^ 2 - b ^ 2 + c ^ 2 - d ^ 2) (2 * c * d - 2 * a * b)
     (2 * b * d - 2 * a * c) (2 * a * b + 2 * c * d) (a ^ 2 - b ^ 2 - c ^ 2 + d ^ 2).

(** scipy Rotation.from_rotvec (external), exact: the quaternion of a rotation vector *)
Definition sp_from_rotvec (v : v3) : q4 :=
  let ang := norm v in
  if Req_EM_T ang 0 then qone
  else let s := sin (ang / 2) / ang in Q4 (cos (ang / 2)) (s * vx v) (s * vy v) (s * vz v).
(** core/rotations.py:361-376 *)
Definition quatOfAngleAxis (angle : R) (axis : v3) : q4 := scipy_to_quat (sp_from_rotvec (vscale angle (unitVector axis))).
(** core/rotations.py:379-412 *)
Definition quatOfExpMap (e : v3) : q4 := scipy_to_quat (sp_from_rotvec e).
(** core/rotations.py:541-548 *)
Definition rotMatOfExpMap (e : v3) : m3 := rotMatOfQuat (sp_from_rotvec e).
Section FromMatrix.
(** scipy Rotation.from_matrix (external) *)
Variable sp_from_matrix : m3 -> q4.
(** core/rotations.py:415-419 *)
Definition quatOfRotMat (r : m3) : q4 := scipy_to_quat (sp_from_matrix r).
End FromMatrix.

(** ** misorientation and fundamental region *)
(** core/rotations.py:89-97 *)
Definition arccosSafe (c : R) : result R :=
  if Rlt_dec (100001 / 100000) (Rabs c) then Err RuntimeError else Ok (acos (Rmin 1 (Rmax (-1) c))).
Fixpoint rmax_list (l : list R) : result R :=
  match l with
  | [] => Err ValueError
  | [x] => Ok x
  | x :: l' => do m <- rmax_list l'; Ok (Rmax x m)
  end.
(** core/rotations.py:197-231: all Gs * (q2 * Gc) * q1^-1, sample index fastest *)
Definition eqv_mis (q1 q2 : q4) (crys samp : list q4) : list q4 :=
  let q1i := qprod_right (invertQuat q1) in
  let q2m := map (fun c => mat4_apply (qprod_right c) q2) crys in
  let q2s := flat_map (fun q => map (fun s => mat4_apply (qprod_left s) q) samp) q2m in
  map (fun q => fixQuat (mat4_apply q1i q)) q2s.
(** core/rotations.py:154-251 for one quaternion q2: the angle and the columns of [mis] *)
Definition misorientation (q1 q2 : q4) (crys samp : list q4) : result (R * list q4) :=
  let e := eqv_mis q1 q2 crys samp in
  do qmax <- rmax_list (map qw e);
  let mis := filter (fun q => if Req_EM_T (qw q) qmax then true else false) e in
  do a <- arccosSafe qmax;
  Ok (2 * a, mis).
(** first index of the largest entry (numpy.argmax), returning the element *)
Fixpoint argmax_q (best : q4) (l : list q4) : q4 :=
  match l with
  | [] => best
  | q :: l' => argmax_q (if Rlt_dec (qw best) (qw q) then q else best) l'
  end.
(** core/rotations.py:1211-1292, one quaternion, no sample symmetry *)
Definition toFundamentalRegion (q : q4) (crys : list q4) : result q4 :=
  match map (fun c => fixQuat (mat4_apply (qprod_right c) q)) crys with
  | [] => Err ValueError
  | x :: l => Ok (argmax_q x l)
  end.

(** ** Laue groups, core/rotations.py:1342-1497: angle and (unnormalised) axis of every element *)
Inductive laue := Ci | C2h | D2h | C4h | D4h | C3i | D3d | C6h | D6h | Th | Oh.
Definition sq3by2 := sqrt 3 / 2.
Definition piby2 := PI / 2.
Definition piby3 := PI / 3.
Definition angle_axis (g : laue) : list (R * v3) :=
  match g with
  | Ci => [(0, V3 1 0 0)]
  | C2h => [(0, V3 1 0 0); (PI, V3 0 1 0)]
  | D2h => [(0, V3 1 0 0); (PI, V3 1 0 0); (PI, V3 0 1 0); (PI, V3 0 0 1)]
  | C4h => [(0, V3 1 0 0); (piby2, V3 0 0 1); (PI, V3 0 0 1); (piby2 * 3, V3 0 0 1)]
  | D4h => [(0, V3 1 0 0); (piby2, V3 0 0 1); (PI, V3 0 0 1); (piby2 * 3, V3 0 0 1);
            (PI, V3 1 0 0); (PI, V3 0 1 0); (PI, V3 1 1 0); (PI, V3 (-1) 1 0)]
  | C3i => [(0, V3 1 0 0); (piby3 * 2, V3 0 0 1); (piby3 * 4, V3 0 0 1)]
  | D3d => [(0, V3 1 0 0); (piby3 * 2, V3 0 0 1); (piby3 * 4, V3 0 0 1);
            (PI, V3 1 0 0); (PI, V3 (- (1/2)) sq3by2 0); (PI, V3 (- (1/2)) (- sq3by2) 0)]
  | C6h => [(0, V3 1 0 0); (piby3, V3 0 0 1); (piby3 * 2, V3 0 0 1); (PI, V3 0 0 1); (piby3 * 4, V3 0 0 1); (piby3 * 5, V3 0 0 1)]
  | D6h => [(0, V3 1 0 0); (piby3, V3 0 0 1); (piby3 * 2, V3 0 0 1); (PI, V3 0 0 1); (piby3 * 4, V3 0 0 1); (piby3 * 5, V3 0 0 1);
            (PI, V3 1 0 0); (PI, V3 (- (1/2)) sq3by2 0); (PI, V3 (- (1/2)) (- sq3by2) 0);
            (PI, V3 sq3by2 (1/2) 0); (PI, V3 0 1 0); (PI, V3 (- sq3by2) (1/2) 0)]
  | Th => [(0, V3 1 0 0); (PI, V3 1 0 0); (PI, V3 0 1 0); (PI, V3 0 0 1);
           (piby3 * 2, V3 1 1 1); (piby3 * 4, V3 1 1 1); (piby3 * 2, V3 (-1) 1 1); (piby3 * 4, V3 (-1) 1 1);
           (piby3 * 2, V3 (-1) (-1) 1); (piby3 * 4, V3 (-1) (-1) 1); (piby3 * 2, V3 1 (-1) 1); (piby3 * 4, V3 1 (-1) 1)]
  | Oh => [(0, V3 1 0 0); (piby2, V3 1 0 0); (PI, V3 1 0 0); (piby2 * 3, V3 1 0 0);
           (piby2, V3 0 1 0); (PI, V3 0 1 0); (piby2 * 3, V3 0 1 0);
           (piby2, V3 0 0 1); (PI, V3 0 0 1); (piby2 * 3, V3 0 0 1);
           (piby3 * 2, V3 1 1 1); (piby3 * 4, V3 1 1 1); (piby3 * 2, V3 (-1) 1 1); (piby3 * 4, V3 (-1) 1 1);
           (piby3 * 2, V3 (-1) (-1) 1); (piby3 * 4, V3 (-1) (-1) 1); (piby3 * 2, V3 1 (-1) 1); (piby3 * 4, V3 1 (-1) 1);
           (PI, V3 1 1 0); (PI, V3 (-1) 1 0); (PI, V3 1 0 1); (PI, V3 0 1 1); (PI, V3 (-1) 0 1); (PI, V3 0 (-1) 1)]
  end.
(** core/rotations.py:1499-1505.  Simplification: the sign chosen by [scipy_to_quat] is left out, because the
    exact cosine of a quarter turn is zero whereas its binary64 value (6.1e-17) is not; a quaternion and its
    negative are the same rotation. *)
Definition quatOfLaueGroup (g : laue) : list q4 := map (fun p => sp_from_rotvec (vscale (fst p) (unitVector (snd p)))) (angle_axis g).
(** core/rotations.py:1383-1497, 1318-1339: the accepted tags, compared in lower case *)
Definition lower_tags : list (string * laue) :=
  [("ci", Ci); ("s2", Ci); ("c2h", C2h); ("d2h", D2h); ("vh", D2h); ("c4h", C4h); ("d4h", D4h); ("c3i", C3i); ("s6", C3i); ("d3d", D3d);
   ("c6h", C6h); ("d6h", D6h); ("th", Th); ("oh", Oh)]%string.

(** ** angles *)
Inductive aunit := ADeg | ARad | AOther (s : string).
(** numpy.mod for a positive divisor *)
Definition npmod (a b : R) : R := a - b * IZR (Int_part (a / b)).
(** core/rotations.py:55, periodDict *)
Definition period_of (u : aunit) : result R :=
  match u with ADeg => Ok 360 | ARad => Ok (2 * PI) | AOther _ => Err RuntimeError end.
Definition allclose (a b : R) : bool := if Rle_dec (Rabs (a - b)) (/ 100000000 + / 100000 * Rabs b) then true else false.
(** core/rotations.py:1108-1140 for one angle; a range is given by its least and greatest entries *)
Definition mapAngle (ang : R) (range : option (R * R)) (u : aunit) : result R :=
  do period <- period_of u;
  do mm <- match range with
           | None => Ok (- period / 2, period / 2)
           | Some (lo, hi) => if allclose (hi - lo) period then Ok (lo, hi) else Err RuntimeError
           end;
  let '(lo, hi) := mm in
  let val := npmod (ang - lo) (hi - lo) + lo in
  Ok (if Req_EM_T val lo then if Rlt_dec lo ang then hi else val else val).
(** core/rotations.py:1166-1174; an unknown unit is a KeyError *)
Definition angularDifference (a b : R) (u : aunit) : result R :=
  match u with
  | AOther _ => Err KeyError
  | _ => do period <- period_of u; let d := Rabs (b - a) in Ok (Rmin d (period - d))
  end.
(** core/rotations.py:1144-1163 *)
Definition angularDifference_orig (a b : R) (u : aunit) : result R :=
  do period <- period_of u; Ok (Rabs (npmod (a - b + 1 / 2 * period) period - 1 / 2 * period)).

(** ** Euler-angle object: units, core/rotations.py:784-885; [make_rmat] is scipy's from_euler *)
Record euler := Euler { eu_angles : v3; eu_units : string }.
Definition lower_known (s : string) : bool := (* units.lower() in periodDict *)
  existsb (fun t => String.eqb s t) ["degrees"; "radians"]%string.
Section EulerObj.
Variable make_rmat : v3 -> m3.
Variable lower : string -> string.
(** 820-825 *)
Definition euler_init (angles : v3) (units : string) : result euler :=
  if lower_known (lower units) then Ok (Euler angles units) else Err RuntimeError.
(** 863-871 *)
Definition euler_set_units (e : euler) (x : string) : result euler :=
  if lower_known x then
    Ok (Euler (if String.eqb (eu_units e) x then eu_angles e
               else vscale (if String.eqb x "degrees" then 180 / PI else PI / 180) (eu_angles e)) x)
  else Err RuntimeError.
(** 873-890 *)
Definition euler_rmat (e : euler) : m3 :=
  make_rmat (if String.eqb (eu_units e) "degrees" then vscale (PI / 180) (eu_angles e) else eu_angles e).
End EulerObj.
