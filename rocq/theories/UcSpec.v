(** Vocabulary for the reflection lists of a unit cell. *)
From Coq Require Import Reals String.
From Verif Require Import Prelude SgModel SgSpec Lin LatModel LatSpec.
Import ListNotations.
Local Open Scope R_scope.

(** The planes h' are the planes h after some operation of the list: the index of a lattice point uvw against h is the
    index of its image against h'. *)
Definition carries (g : imat) (h h' : ivec) : Prop := forall uvw, idot h' (act g uvw) = idot h uvw.
Definition equivalent (ops : list imat) (h h' : ivec) : Prop := exists g, In g ops /\ carries g h h'.

(** What the lattice type says about lengths and angles (in degrees): International Tables A, table 2.1.2.1, hexagonal
    axes for the trigonal system, unique axis b for the monoclinic one. *)
Definition fits (t : lattice_type) (len deg : v3) : Prop :=
  match t with
  | Triclinic => True
  | Monoclinic => vx deg = 90 /\ vz deg = 90
  | Orthorhombic => vx deg = 90 /\ vy deg = 90 /\ vz deg = 90
  | Tetragonal => vx len = vy len /\ vx deg = 90 /\ vy deg = 90 /\ vz deg = 90
  | Trigonal | Hexagonal => vx len = vy len /\ vx deg = 90 /\ vy deg = 90 /\ vz deg = 120
  | Cubic => vx len = vy len /\ vy len = vz len /\ vx deg = 90 /\ vy deg = 90 /\ vz deg = 90
  end.
(** Lattice parameters, in nm and degrees, of a crystal with the given space group *)
Definition cell_of (sgnum : Z) (len deg : v3) : Prop :=
  possible_cell len (radians_of deg) /\ exists t, latticeType sgnum = Ok t /\ fits t len deg.
(** the vector h a* + k b* + l c* of the cell; its length is 1/d *)
Definition direct_vectors (len deg : v3) (L : lattice) : Prop :=
  latticeVectors [vx len; vy len; vz len; vx deg; vy deg; vz deg] "triclinic" false = Ok L.
Definition gvector (L : lattice) (h : ivec) : v3 := mv (l_B L) (V3 (IZR (v0 h)) (IZR (v1 h)) (IZR (v2 h))).
Definition spacing (L : lattice) (h : ivec) (d : R) : Prop := 0 < d /\ d * norm (gvector L h) = 1.
Definition zero_index : ivec := IV 0 0 0.
(** the reflections that a crystal can show down to the spacing dmin *)
Definition observable (L : lattice) (ops : list symop) (dmin : R) (h : ivec) : Prop :=
  h <> zero_index /\ ~ absent ops h /\ exists d, spacing L h d /\ dmin <= d.
Definition index_sum (h : ivec) : Z := (v0 h + v1 h + v2 h)%Z.
(** the operations of the space group in one of its settings, and the equivalence of planes under their rotational parts;
    the Laue classes also put opposite planes together (Friedel's law) *)
Definition operations_in (sgnum setting : Z) (ops : list symop) : Prop :=
  exists pg laue c s, GenerateSGSym sgnum setting = Ok (ops, pg, laue, c, s).
Definition symmetry_equivalent (ops : list symop) (h h' : ivec) : Prop := exists op, In op ops /\ carries (op_r op) h h'.
Definition laue_equivalent (ops : list symop) (h h' : ivec) : Prop :=
  symmetry_equivalent ops h h' \/ symmetry_equivalent ops h (negv h').
Definition index_vector (h : ivec) : v3 := V3 (IZR (v0 h)) (IZR (v1 h)) (IZR (v2 h)).

(** A unit cell object with these lattice parameters and space group: made by the constructor, its dmin perhaps changed
    any number of times since. *)
From Verif Require Import UcModel.
Inductive unitcell_object (len deg : v3) (sgnum setting : Z) : unitcell -> Prop :=
| uo_new : forall fuel dmin uc, new_unitcell fuel len deg sgnum setting dmin = Ok uc -> unitcell_object len deg sgnum setting uc
| uo_dmin : forall fuel dmin uc uc', unitcell_object len deg sgnum setting uc -> set_dmin fuel uc dmin = Ok uc' ->
    unitcell_object len deg sgnum setting uc'.
(** the order of reflections of the same spacing: by largest index, sum of the indices, l, k, h, each increasing *)
Definition tie_order (a b : ivec) : Prop :=
  let big x := Z.max (v0 x) (Z.max (v1 x) (v2 x)) in
  (big a < big b \/ big a = big b /\ (index_sum a < index_sum b \/ index_sum a = index_sum b /\
   (v2 a < v2 b \/ v2 a = v2 b /\ (v1 a < v1 b \/ v1 a = v1 b /\ v0 a <= v0 b))))%Z.
