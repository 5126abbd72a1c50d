(** Specification vocabulary for polygon clipping, areas and grids. *)
From Coq Require Import QArith Qround Qabs.
From Verif Require Import Prelude GridModel.
Local Open Scope Q_scope.

(** twice the signed area of the triangle o, a, b: positive when counter-clockwise *)
Definition turn (o a b : point) : Q := (fst a - fst o) * (snd b - snd o) - (snd a - snd o) * (fst b - fst o).
(** p is on or to the left of the directed line from a to b *)
Definition left_of (a b p : point) : Prop := 0 <= turn a b p.
(** the edges of a closed polygon: each vertex with its predecessor, the last vertex preceding the first *)
Definition poly_edges (l : list point) : list (point * point) := combine (last l (0, 0) :: l) l.
(** a counter-clockwise convex polygon: every vertex on or to the left of every edge *)
Definition convex (l : list point) : Prop := forall a b v, In (a, b) (poly_edges l) -> In v l -> left_of a b v.
(** the closed convex hull of a finite set of points: the intersection of the half-planes that contain them all *)
Definition hull (l : list point) (p : point) : Prop :=
  forall al be ga, (forall v, In v l -> 0 <= al * fst v + be * snd v + ga) -> 0 <= al * fst p + be * snd p + ga.
(** the region a counter-clockwise clip polygon keeps *)
Definition inside_all (clip : list point) (p : point) : Prop := forall a b, In (a, b) (poly_edges clip) -> left_of a b p.

(** shoelace formula for the signed area of a closed polygon *)
Definition qsum (l : list Q) : Q := fold_right Qplus 0 l.
Definition shoelace (l : list point) : Q :=
  (1 # 2) * qsum (map (fun ab => fst (fst ab) * snd (snd ab) - snd (fst ab) * fst (snd ab)) (poly_edges l)).

(** number of the node in layer k, row j, column i of a grid with m rows and n columns of cells *)
Definition node (m n k j i : nat) : nat := (k * ((m + 1) * (n + 1)) + j * (n + 1) + i)%nat.
(** the four corners of cell (j, i) of layer k: upper right, upper left, lower left, lower right *)
Definition corners (m n k j i : nat) : list nat := [node m n k j (i + 1); node m n k j i; node m n k (j + 1) i; node m n k (j + 1) (i + 1)].

(** edges e0, e0 + d, ..., e0 + n d *)
Definition regular_edges (e0 d : Q) (n : nat) (l : list Q) : Prop :=
  length l = S n /\ forall k, (k <= n)%nat -> nth k l 0 == e0 + inject_Z (Z.of_nat k) * d.

(** sum of absolute component differences, and closeness of two vectors, up to sign if [pm] *)
Definition dist1 (a b : list Q) : Q := qsum (map (fun xy => Qabs (fst xy - snd xy)) (combine a b)).
Definition close (tol : Q) (pm : bool) (a b : list Q) : Prop := dist1 a b < tol \/ (pm = true /\ dist1 a (map Qopp b) < tol).
