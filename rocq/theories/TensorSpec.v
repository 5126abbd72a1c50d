(** Vocabulary for the properties of core/matrixutil.py. *)
From Coq Require Import Reals List.
From Verif Require Import Prelude Lin TensorModel.
Local Open Scope R_scope.

(** the inner product of two tensors: the sum over all nine entries *)
Definition frob (A B : m3) : R := m00 A * m00 B + m01 A * m01 B + m02 A * m02 B + m10 A * m10 B + m11 A * m11 B + m12 A * m12 B
  + m20 A * m20 B + m21 A * m21 B + m22 A * m22 B.
Definition dot6 (a b : v6) : R := c0 a * c0 b + c1 a * c1 b + c2 a * c2 b + c3 a * c3 b + c4 a * c4 b + c5 a * c5 b.
(** skew symmetric *)
Definition skew_symmetric (A : m3) := mt A = mscale (-1) A.
(** Wahba's cost: half the weighted sum of squared distances *)
Fixpoint wahba_cost (weights : list R) (v w : list v3) (rot : m3) : R :=
  match weights, v, w with
  | a :: weights', x :: v', y :: w' => / 2 * (a * norm2 (vsub y (mv rot x))) + wahba_cost weights' v' w' rot
  | _, _, _ => 0
  end.
(** a singular value decomposition of B *)
Definition svd_of (B : m3) (d : m3 * v3 * m3) : Prop :=
  let '(U, sv, VT) := d in
  orthogonal U /\ orthogonal VT /\ B = mm U (mm (diag (vx sv) (vy sv) (vz sv)) VT) /\ vy sv <= vx sv /\ vz sv <= vy sv /\ 0 <= vz sv.
Definition unit_weights (v : list v3) (weights : option (list R)) : list R :=
  match weights with None => repeat 1 (length v) | Some l => l end.
