(** Model of core/gridutil.py over exact rationals, and of matrixutil.py's duplicate search. *)
From Coq Require Import QArith Qround Qabs.
From Verif Require Import Prelude.
Local Open Scope Q_scope.

Notation point := (Q * Q)%type.

(** ** Sutherland-Hodgman clipping *)
Record edge := { e_curr : point; e_prev : point }.

(** z component of the cross product of [p - curr] and [prev - curr]: gridutil.py:244-247. *)
Definition cross_z (p : point) (b : edge) : Q :=
  (fst p - fst (e_curr b)) * (snd (e_prev b) - snd (e_curr b)) - (snd p - snd (e_curr b)) * (fst (e_prev b) - fst (e_curr b)).

(** gridutil.py:240-259, [isinside] with the default [ccw=True]. *)
Definition isinside (p : point) (b : edge) : bool :=
  let c := cross_z p b in
  if negb (Qle_bool c 0) then true else if negb (Qle_bool 0 c) then false else true.

(** gridutil.py:207-237, [computeIntersection]; [None] is the empty list returned for parallel lines. *)
Definition intersection (l1 l2 : point * point) : option point :=
  let '((x1, y1), (x2, y2)) := l1 in
  let '((x3, y3), (x4, y4)) := l2 in
  let denom := (x1 - x2) * (y3 - y4) - (y1 - y2) * (x3 - x4) in
  if Qeq_bool denom 0 then None
  else
    let s1 := x1 * y2 - y1 * x2 in
    let s2 := x3 * y4 - y3 * x4 in
    Some ((s1 * (x3 - x4) - s2 * (x1 - x2)) / denom, (s1 * (y3 - y4) - s2 * (y1 - y2)) / denom).

(** An intersection that is empty would leave a ragged list, which fails in the next [np.array]. *)
Definition isect_out (curr prev : point) (b : edge) : result (list point) :=
  match intersection (curr, prev) (e_curr b, e_prev b) with Some x => Ok [x] | None => Err ValueError end.

(** gridutil.py:286-308, the inner loop over the vertices of the input polygon. *)
Fixpoint clip_loop (b : edge) (prev : point) (input : list point) : result (list point) :=
  match input with
  | [] => Ok []
  | curr :: r =>
      do o <- (if isinside curr b
               then do x <- (if negb (isinside prev b) then isect_out curr prev b else Ok []); Ok (x ++ [curr])
               else if isinside prev b then isect_out curr prev b else Ok []);
      do t <- clip_loop b curr r; Ok (o ++ t)
  end.
Definition clip_edge (b : edge) (input : list point) : result (list point) :=
  match input with
  | [] => Ok []
  | _ => clip_loop b (last input (0, 0)) input
  end.

(** gridutil.py:262-310.  [prev_clipVertex] is updated inside the inner loop, so not when the input is empty; the
    model updates it always, which is the same because an empty list stays empty. *)
Fixpoint clip_edges (prev : point) (clip : list point) (subject : list point) : result (list point) :=
  match clip with
  | [] => Ok subject
  | c :: r => do o <- clip_edge {| e_curr := c; e_prev := prev |} subject; clip_edges c r o
  end.
Definition sutherland_hodgman (subject clip : list point) : result (list point) :=
  match clip with
  | [] => Err IndexError
  | _ => clip_edges (last clip (0, 0)) clip subject
  end.

(** ** areas *)
Definition cross2 (o a b : point) : Q := (fst a - fst o) * (snd b - snd o) - (snd a - snd o) * (fst b - fst o).

(** gridutil.py:169-184, [computeArea]: fan of triangles from vertex 0. *)
Fixpoint fan (o prev : point) (l : list point) : Q :=
  match l with
  | [] => 0
  | c :: r => (1 # 2) * cross2 o prev c + fan o c r
  end.
Definition compute_area (poly : list point) : Q :=
  match poly with
  | o :: p :: r => fan o p r
  | _ => 0
  end.

(** gridutil.py:147-166, [compute_areas] for one cell of four vertices. *)
Definition cell_area (p0 p1 p2 p3 : point) : Q := (1 # 2) * (cross2 p0 p1 p2 + cross2 p0 p1 p3).

(** ** connectivity *)
(** gridutil.py:93-104, [_fill_connectivity]: the rows in order. *)
Definition fill_row (m n k j i : nat) : list nat :=
  let extra := (k * (n + 1) * (m + 1))%nat in
  [ (i + j * (n + 1) + 1 + extra)%nat; (i + j * (n + 1) + extra)%nat;
    (i + j + n * (j + 1) + 1 + extra)%nat; (i + j + n * (j + 1) + 2 + extra)%nat ].
Definition fill_layer (m n k : nat) : list (list nat) :=
  flat_map (fun j => map (fun i => fill_row m n k j i) (seq 0 n)) (seq 0 m).
Definition fill_connectivity (m n p : nat) : list (list (list nat)) := map (fill_layer m n) (seq 0 p).

(** gridutil.py:107-129, [cellConnectivity] ([ll] = origin is lower left). *)
Definition cell_connectivity (m n p : nat) (ll : bool) : list (list nat) :=
  let layers := fill_connectivity m n p in
  let con :=
    if Nat.ltb 1 p
    then flat_map (fun layer => map (fun ab => fst ab ++ snd ab)
                                    (combine (nth layer layers []) (nth (layer + 1) layers []))) (seq 0 (p - 1))
    else concat layers in
  if ll then map (@rev nat) con else con.

(** ** cellIndices *)
(** gridutil.py:35-90 for one point; [edges] as a list, [ztol] = sqrt(machine epsilon). *)
Definition cell_index (ztol : Q) (edges : list Q) (x : Q) : result Z :=
  match edges with
  | e0 :: e1 :: _ =>
      let elast := last edges 0 in
      let delta := e1 - e0 in
      if negb (Qle_bool delta 0) then
        let x' := if Qle_bool (elast - ztol) x then x - ztol else x in
        Ok (Qfloor ((x' - e0) / delta))
      else if negb (Qle_bool 0 delta) then
        let x' := if Qle_bool x (elast + ztol) then x + ztol else x in
        Ok (Qceiling ((x' - e0) / delta) - 1)%Z
      else Err RuntimeError
  | _ => Err AssertionError
  end.

(** ** make_tolerance_grid *)
(** gridutil.py:187-204.  [qmin] is Python's [min]; [qtrunc] is int() on a float (towards zero). *)
Definition qmin (a b : Q) : Q := if negb (Qle_bool a b) then b else a.
Definition qtrunc (a : Q) : Z := if Qle_bool 0 a then Qfloor a else Qceiling a.
Definition tolerance_grid (bin window : Q) (subdiv : Z) (adjust one_sided : bool) : result (Z * list Q) :=
  let bin := qmin bin window in
  if Qeq_bool bin 0 then Err ZeroDivisionError else
  let window := if adjust then inject_Z (Qceiling (window / bin)) * bin else window in
  if one_sided then
    let ndiv := Z.abs (qtrunc (window / bin)) in
    Ok ((ndiv * 2)%Z, map (fun i => inject_Z (i - ndiv) * bin) (zrange 0 (2 * ndiv + 1)))
  else
    let ndiv := (subdiv * Qceiling (window / bin))%Z in
    Ok (ndiv, map (fun i => inject_Z i * window / inject_Z ndiv - (1 # 2) * window) (zrange 0 (ndiv + 1))).

(** ** findDuplicateVectors *)
Section Dup.
(** vectors as lists of components; 1-norm distance: matrixutil.py:534-541. *)
Definition vdist (a b : list Q) : Q := fold_right Qplus 0 (map (fun xy => Qabs (fst xy - snd xy)) (combine a b)).
Definition vneg (a : list Q) : list Q := map Qopp a.
Definition dup_close (tol : Q) (pm : bool) (a b : list Q) : bool :=
  let lt x := negb (Qle_bool tol x) in
  if pm then lt (vdist a (vneg b)) || lt (vdist a b) else lt (vdist a b).

(** matrixutil.py:528-548: for one [ii], the [jj] newly found, given the master list so far. *)
Definition dup_row (tol : Q) (pm : bool) (vecs : list (list Q)) (ii : nat) (master : list nat) : list nat :=
  filter (fun jj => negb (existsb (Nat.eqb jj) master) && dup_close tol pm (nth ii vecs []) (nth jj vecs []))
         (seq (ii + 1) (length vecs - (ii + 1))).
Fixpoint dup_loop (tol : Q) (pm : bool) (vecs : list (list Q)) (iis : list nat) (master : list nat) : list (list nat) * list nat :=
  match iis with
  | [] => ([], master)
  | ii :: r =>
      let row := dup_row tol pm vecs ii master in
      let '(rows, ms) := dup_loop tol pm vecs r (master ++ row) in (row :: rows, ms)
  end.
(** matrixutil.py:465-476, [findDuplicateVectors]: the equivalence lists and the kept indices. *)
Definition find_duplicates (tol : Q) (pm : bool) (vecs : list (list Q)) : list (list nat) * list nat :=
  let m := length vecs in
  let '(rows, master) := dup_loop tol pm vecs (seq 0 m) [] in
  let eqv2 := flat_map (fun ir => match snd ir with [] => [] | v => [fst ir :: v] end) (combine (seq 0 m) rows) in
  (eqv2, filter (fun u => negb (existsb (Nat.eqb u) (concat rows))) (seq 0 m)).
End Dup.
