(** Model of orientation fibers: discreteFiber and distanceToFiber (core/rotations.py), nullSpace and uniqueVectors
    (core/matrixutil.py), discretefiber_reduced (hedm/findorientations.py).
    Real numbers stand for floating point numbers. *)
From Coq Require Import Reals List ZArith QArith.
From Verif Require Import Prelude Lin TensorModel RotModel XfModel OrbModel.
Import ListNotations.
Local Close Scope Q_scope.
Local Open Scope R_scope.
Local Notation length := List.length.

(** ** uniqueVectors *)
(** matrixutil.py:441, numpy.argsort of a row: the indices in the order of the values.  Simplification: equal values keep their
    order (numpy's default sort does not promise it); equal values get the same number below. *)
Fixpoint insert_by {A} (le : A -> A -> bool) (x : A) (l : list A) : list A :=
  match l with
  | [] => [x]
  | y :: r => if le x y then x :: l else y :: insert_by le x r
  end.
Definition sort_by {A} (le : A -> A -> bool) (l : list A) : list A := fold_right (insert_by le) [] l.
Definition rle (a b : R) : bool := if Rle_dec a b then true else false.
Definition argsort (row : list R) : list nat :=
  sort_by (fun i j => rle (nth i row 0) (nth j row 0)) (seq 0 (length row)).
(** matrixutil.py:443-445: one more at the first entry and wherever a gap exceeds the tolerance *)
Fixpoint cumsum_gaps (tol : R) (prev : R) (n : nat) (srt : list R) : list nat :=
  match srt with
  | [] => []
  | x :: r => let n' := if Rlt_dec tol (Rabs (x - prev)) then (n + 1)%nat else n in n' :: cumsum_gaps tol x n' r
  end.
Definition rowints (tol : R) (srt : list R) : list nat :=
  match srt with [] => [] | x :: r => 1%nat :: cumsum_gaps tol x 1 r end.
Fixpoint index_of (i : nat) (l : list nat) : nat :=
  match l with [] => 0%nat | x :: r => if Nat.eqb x i then 0%nat else (1 + index_of i r)%nat end.
(** matrixutil.py:440-446, one row of [iv]: rowint[k] is stored at place tmpord[k] *)
Definition iv_row (tol : R) (row : list R) : list nat :=
  let tmpord := argsort row in
  let rowint := rowints tol (map (fun i => nth i row 0) tmpord) in
  map (fun i => nth (index_of i tmpord) rowint 0%nat) (seq 0 (length row)).
(** matrixutil.py:450, numpy.lexsort: stable, the last row is the first key *)
Fixpoint lex_le (a b : list nat) : bool :=
  match a, b with
  | x :: a', y :: b' => if Nat.eqb x y then lex_le a' b' else Nat.leb x y
  | _, _ => true
  end.
Definition key (iv : list (list nat)) (c : nat) : list nat := map (fun r => nth c r 0%nat) iv.
Definition lexsort (iv : list (list nat)) (n : nat) : list nat :=
  sort_by (fun a b => lex_le (rev (key iv a)) (rev (key iv b))) (seq 0 n).
(** matrixutil.py:457-462: a column is kept if it differs from the one before *)
Fixpoint key_eqb (a b : list nat) : bool :=
  match a, b with
  | [], [] => true
  | x :: a', y :: b' => Nat.eqb x y && key_eqb a' b'
  | _, _ => false
  end.
Fixpoint pick (iv : list (list nat)) (prev : nat) (l : list nat) : list nat :=
  match l with
  | [] => []
  | c :: r => (if key_eqb (key iv c) (key iv prev) then [] else [c]) ++ pick iv c r
  end.
(** matrixutil.py:423-462 for an array of at least one row, given by its columns; [d] is the number of rows.  With one column
    [tmpsrt] is squeezed to a scalar, with none [ivInd] is empty: both are IndexErrors. *)
Definition uniqueVectors (d : nat) (v : list (list R)) (tol : R) : result (list (list R)) :=
  match v with
  | [] | [_] => Err IndexError
  | _ =>
    let rows := map (fun k => map (fun c => nth k c 0) v) (seq 0 d) in
    let iv := map (iv_row tol) rows in
    match lexsort iv (length v) with
    | [] => Err IndexError
    | first :: rest => Ok (map (fun c => nth c v []) (first :: pick iv first rest))
    end
  end.

(** ** discreteFiber *)
Fixpoint map_res {A B} (f : A -> result B) (l : list A) : result (list B) :=
  match l with [] => Ok [] | x :: r => do y <- f x; do t <- map_res f r; Ok (y :: t) end.
Section Fiber.
(** matrixutil.py:96-114 on one column: the first of the unit vectors that scipy's svd (external) finds perpendicular to it *)
Variable nullspace : v3 -> v3.
(** rotations.py:1068-1082 for one c and one s (both are reshaped to one column) *)
Definition fiber_axis (c s : v3) : v3 :=
  let ax := vadd s c in
  let anrm := norm ax in
  if Rlt_dec sqrt_epsf anrm then vscale (/ anrm) ax else nullspace c.
(** rotations.py:1084-1093: the quaternions q0 * qh, one per angle.  Simplification: the sign chosen by [scipy_to_quat] in
    quatOfAngleAxis is left out, because the exact cosine of a quarter turn is zero whereas its binary64 value is not. *)
Definition fiber_quats (c s : v3) (ndiv : nat) : list q4 :=
  let ax := fiber_axis c s in
  let q0 := Q4 0 (vx ax) (vy ax) (vz ax) in
  map (fun j => let phi := INR j * (2 * PI / INR ndiv) in
                let qh := sp_from_rotvec (vscale phi (unitVector c)) in
                mat4_apply (qprod_right qh) q0) (seq 0 ndiv).
(** rotations.py:1020-1100; [csym] is the list of symmetry quaternions (quatOfLaueGroup of the tag).  Without divisions the
    angle step is a division by zero; with one division and a symmetry the array is squeezed to one dimension, which has no
    second axis. *)
Definition discreteFiber (c s : v3) (B : m3) (ndiv : nat) (csym : option (list q4)) : result (list q4) :=
  let c := unitVector (mv B c) in
  let s := unitVector s in
  match ndiv with
  | O => Err ZeroDivisionError
  | S n =>
    let qfib := fiber_quats c s ndiv in
    match csym with
    | None => Ok (map fixQuat qfib)
    | Some g => match n with O => Err IndexError | S _ => map_res (fun q => toFundamentalRegion q g) qfib end
    end
  end.

(** hedm/findorientations.py:181-203: the quaternions of one spot, without repeats *)
Definition quat_col (q : q4) : list R := [qw q; qx q; qy q; qz q].
Definition discretefiber_reduced (hkl : v3) (tth eta ome chi : R) (bMat : m3) (csym : list q4) (ndiv : nat)
    (beam_vec eta_vec : v3) (tol : R) : result (list (list R)) :=
  let gVec_s := angles_to_gvec beam_vec eta_vec chi mI tth eta ome in
  do q <- discreteFiber hkl gVec_s bMat ndiv (Some csym);
  uniqueVectors 4 (map quat_col q) tol.
End Fiber.

(** ** distanceToFiber *)
(** rotations.py:962-1017 for one quaternion; c is a column *)
Definition distanceToFiber (c s : v3) (q : q4) (qsym : list q4) (centrosymmetry : bool) (bmatrix : m3) : result R :=
  let c := unitVector (mv bmatrix c) in
  let s := unitVector s in
  let csym := applySym c qsym centrosymmetry false sqrt_epsf in
  let rc := map (mv (rotMatOfQuat q)) csym in
  do sdotrc <- rmax_list (map (dot s) rc);
  arccosSafe sdotrc.
