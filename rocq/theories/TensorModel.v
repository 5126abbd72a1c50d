(** Model of core/matrixutil.py: vector forms of symmetric tensors, skew matrices, dyads, block matrices and the
    best-fit rotation.  Real numbers stand for floating point numbers; a single tensor or vector at a time. *)
From Coq Require Import Reals List Arith.
From Verif Require Import Prelude Lin.
Import ListNotations.
Local Open Scope R_scope.

(** a flat array of six numbers *)
Record v6 := V6 { c0 : R; c1 : R; c2 : R; c3 : R; c4 : R; c5 : R }.

(** core/matrixutil.py:41-46, module constants *)
Definition sqr6i := 1 / sqrt 6.
Definition sqr3i := 1 / sqrt 3.
Definition sqr2i := 1 / sqrt 2.
Definition sqr2 := sqrt 2.
Definition sqr3 := sqrt 3.
Definition sqr2b3 := sqrt (2 / 3).

(** core/matrixutil.py:162-178 *)
Definition symmToVecMV (A : m3) (scale : bool) : v6 :=
  let fac := if scale then sqr2 else 1 in
  V6 (m00 A) (m11 A) (m22 A) (fac * m12 A) (fac * m02 A) (fac * m01 A).
(** core/matrixutil.py:181-201 *)
Definition vecMVToSymm (a : v6) (scale : bool) : m3 :=
  let fac := if scale then sqr2 else 1 in
  M3 (c0 a) (c5 a / fac) (c4 a / fac) (c5 a / fac) (c1 a) (c3 a / fac) (c4 a / fac) (c3 a / fac) (c2 a).
(** core/matrixutil.py:563-572; the (6,1) column is kept as six numbers *)
Definition strainTenToVec (t : m3) : v6 := V6 (m00 t) (m11 t) (m22 t) (2 * m12 t) (2 * m02 t) (2 * m01 t).
(** core/matrixutil.py:575-586 *)
Definition strainVecToTen (s : v6) : m3 :=
  M3 (c0 s) (c5 s / 2) (c4 s / 2) (c5 s / 2) (c1 s) (c3 s / 2) (c4 s / 2) (c3 s / 2) (c2 s).
(** core/matrixutil.py:589-598 *)
Definition stressTenToVec (t : m3) : v6 := V6 (m00 t) (m11 t) (m22 t) (m12 t) (m02 t) (m01 t).
(** core/matrixutil.py:601-614 *)
Definition stressVecToTen (s : v6) : m3 := M3 (c0 s) (c5 s) (c4 s) (c5 s) (c1 s) (c3 s) (c4 s) (c3 s) (c2 s).
(** core/matrixutil.py:647-664 *)
Definition vecdsToSymm (s : v6) : m3 :=
  let k := sqr3i * c5 s in
  let t1 := sqr2i * c0 s in
  let t2 := sqr6i * c1 s in
  M3 (t1 - t2 + k) (c2 s * sqr2i) (c3 s * sqr2i)
     (c2 s * sqr2i) (- t1 - t2 + k) (c4 s * sqr2i)
     (c3 s * sqr2i) (c4 s * sqr2i) (sqr2b3 * c1 s + k).
(** core/matrixutil.py:667-672 *)
Definition traceToVecdsS (a : R) := sqr3i * a.
Definition vecdsSToTrace (s : R) := s * sqr3.
(** core/matrixutil.py:675-684 *)
Definition symmToVecds (A : m3) : v6 :=
  V6 (sqr2i * (m00 A - m11 A)) (sqr6i * (2 * m22 A - m00 A - m11 A)) (sqr2 * m10 A) (sqr2 * m20 A) (sqr2 * m21 A) (traceToVecdsS (tr A)).
(** core/matrixutil.py:617-644; the deviatoric strain and the scale [a] are returned with V and Vinv *)
Definition ale3d_eps (s : v6) : m3 :=
  let t1 := sqr2i * c0 s in
  let t2 := sqr6i * c1 s in
  M3 (t1 - t2) (c2 s * sqr2i) (c3 s * sqr2i) (c2 s * sqr2i) (- t1 - t2) (c4 s * sqr2i) (c3 s * sqr2i) (c4 s * sqr2i) (sqr2b3 * c1 s).
Definition ale3dStrainOutToV (s : v6) : m3 * m3 :=
  let a := Rpower (exp (c5 s)) (1 / 3) in
  let epstar := mscale (/ a) (ale3d_eps s) in
  (mscale a (madd mI epstar), mscale (/ a) (msub mI epstar)).

(** core/constants.py:67, ten_epsf, ten times the binary64 machine epsilon *)
Definition ten_epsf : R := 10 / 2 ^ 52.
(** core/matrixutil.py:76-93, one column *)
Definition unitVector (a : v3) : v3 :=
  let nrm := norm a in
  let nrm := if Rle_dec nrm ten_epsf then 1 else nrm in
  V3 (vx a / nrm) (vy a / nrm) (vz a / nrm).
(** core/matrixutil.py:204-229, one column *)
Definition nrmlProjOfVecMV (v : v3) : v6 :=
  let n := unitVector v in
  V6 (vx n ^ 2) (vy n ^ 2) (vz n ^ 2) (sqr2 * vy n * vz n) (sqr2 * vx n * vz n) (sqr2 * vx n * vy n).
(** core/matrixutil.py:335-364, one column *)
Definition skewMatrixOfVector (w : v3) : m3 := M3 0 (- vz w) (vy w) (vz w) 0 (- vx w) (- vy w) (vx w) 0.
(** core/matrixutil.py:367-394, one matrix *)
Definition vectorOfSkewMatrix (W : m3) : v3 := V3 (- m12 W) (m02 W) (- m01 W).
(** core/matrixutil.py:283-332, one matrix *)
Definition skew_part (A : m3) : m3 := mscale (1 / 2) (msub A (mt A)).
Definition symm_part (A : m3) : m3 := mscale (1 / 2) (madd A (mt A)).
(** the shape of the argument after the call: [A.resize] works in place on the caller's array
    (core/matrixutil.py:299, 325, 381); [None] stands for the RuntimeError *)
Definition decomp_shape (shape : list nat) : option (list nat) :=
  match shape with
  | [m; n] => if Nat.eqb m n then Some [1%nat; m; n] else None
  | [p; m; n] => if Nat.eqb m n then Some [p; m; n] else None
  | _ => None
  end.

(** ** Arrays in row-major order as functions of the flat index *)
(** core/matrixutil.py:117-159: the data, row and column arrays handed to the sparse constructor *)
Definition bs_sij {A} (m n : nat) (mat : nat -> nat -> nat -> A) (t : nat) : A :=
  (* element t of matArray.transpose(0, 2, 1).reshape(1, ntot) *)
  mat (t / (n * m))%nat (t mod (n * m) mod m)%nat (t mod (n * m) / m)%nat.
Definition bs_j (m : nat) (t : nat) : nat := (t / m)%nat.   (* reshape of tile(rjmax, (m, 1)).T *)
Definition bs_i (p m n : nat) (t : nat) : nat :=
  (* tile(rm, (1, jmax)) + reshape of tile(m * rl, (mn, 1)).T *)
  (t mod m + m * (t / (m * n)))%nat.
(** the matrix the sparse constructor represents: duplicates are summed *)
Definition blockSparse (p m n : nat) (mat : nat -> nat -> nat -> R) (i j : nat) : R :=
  fold_right Rplus 0 (map (fun t => if Nat.eqb (bs_i p m n t) i && Nat.eqb (bs_j m t) j then bs_sij m n mat t else 0) (seq 0 (p * m * n))).
(** core/matrixutil.py:232-280: entry (n, k, i) of the result; row [i * m1 + k] of the work array is
    vec1[k] * vec2[i], its transpose is reshaped to (n1, m2, m1) and the last two axes are swapped *)
Definition r1work (m1 : nat) (vec1 vec2 : nat -> nat -> R) (row col : nat) : R := vec1 (row mod m1)%nat col * vec2 (row / m1)%nat col.
Definition rankOneMatrix (m1 m2 : nat) (vec1 vec2 : nat -> nat -> R) (n k i : nat) : R :=
  let flat t := r1work m1 vec1 vec2 (t mod (m1 * m2))%nat (t / (m1 * m2))%nat in
  flat (n * (m2 * m1) + (i * m1 + k))%nat.

(** ** Best-fit rotation, core/matrixutil.py:687-732 *)
Section Wahba.
(** numpy.linalg.svd: U, singular values, V transposed *)
Variable svd : m3 -> m3 * v3 * m3.
Fixpoint wahba_B (weights : list R) (v w : list v3) : m3 :=
  match weights, v, w with
  | a :: weights', x :: v', y :: w' => madd (mscale a (outer y x)) (wahba_B weights' v' w')
  | _, _, _ => mzero
  end.
Definition solve_wahba (v w : list v3) (weights : option (list R)) : result m3 :=
  let n := length v in
  if negb (Nat.eqb (length w) n) then Err AssertionError
  else do wt <- match weights with
                | None => Ok (repeat 1 n)
                | Some l => if Nat.eqb (length l) n then Ok l else Err AssertionError
                end;
  let '(Us, _, VsT) := svd (wahba_B wt v w) in
  Ok (mm Us (mm (diag 1 1 (det Us * det VsT)) VsT)).
End Wahba.
