(** Vocabulary for the symmetric reflections of plane data. *)
From Coq Require Import Reals List String ZArith.
From Verif Require Import Prelude Lin TensorModel RotModel RotSpec LatModel LatSpec SgModel SgSpec UcSpec OrbModel.
Import ListNotations.
Local Open Scope R_scope.

(** the reciprocal vector of the planes h' is that of the planes h, turned by a rotation of the Laue group; in a family the
    planes may also be opposite *)
Definition turned (g : laue) (L : lattice) (h h' : ivec) : Prop :=
  exists r, In r (rots (quatOfLaueGroup g)) /\ gvector L h' = mv r (gvector L h).
Definition family (g : laue) (L : lattice) (h h' : ivec) : Prop := turned g L h h' \/ turned g L h (negv h').
(** lattice parameters (angles in degrees) of a cell with the lattice type of the Laue group, no edge over 2^26 units; L has
    the lattice vectors and reciprocal vectors *)
Definition lattice_with (g : laue) (lparms : list R) (L : lattice) : Prop :=
  exists len ang, parameters_of (PI / 180) (ltypeOfLaueGroup g) lparms len ang /\ possible_cell len ang /\
    latticeVectors lparms (ltypeOfLaueGroup g) false = Ok L /\ vx len <= 2 ^ 26 /\ vy len <= 2 ^ 26 /\ vz len <= 2 ^ 26.
(** the Laue group of a space group, by its tag *)
Definition has_laue (sgnum : Z) (g : laue) : Prop :=
  exists pg tag spg slg, GetPgLg sgnum = Ok (pg, tag, spg, slg) /\ laue_of_tag tag = Some g.
(** the trigonal space groups P312, P3112, P3212, P31m, P31c, P-31m, P-31c, whose twofold axes or mirror normals are not
    along the cell edges *)
Definition sideways : list Z := [149; 151; 153; 157; 159; 162; 163]%Z.
