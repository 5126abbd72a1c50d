(** Vocabulary for the properties of the unit cell geometry. *)
From Coq Require Import Reals List String.
From Verif Require Import Prelude Lin.
Import ListNotations.
Local Open Scope R_scope.

(** t is the angle between the vectors u and v *)
Definition angle_between (u v : v3) (t : R) : Prop := 0 <= t <= PI /\ dot u v = norm u * norm v * cos t.
(** the columns of M are three vectors a, b, c with the given lengths, and alpha is the angle between b and c, beta the
    one between c and a, gamma the one between a and b *)
Definition has_shape (M : m3) (lengths angles : v3) : Prop :=
  norm (col0 M) = vx lengths /\ norm (col1 M) = vy lengths /\ norm (col2 M) = vz lengths /\
  angle_between (col1 M) (col2 M) (vx angles) /\ angle_between (col2 M) (col0 M) (vy angles) /\
  angle_between (col0 M) (col1 M) (vz angles).
(** lengths and angles for which a unit cell exists *)
Definition possible_cell (lengths angles : v3) : Prop :=
  0 < vx lengths /\ 0 < vy lengths /\ 0 < vz lengths /\
  0 < vx angles < PI /\ 0 < vy angles < PI /\ 0 < vz angles < PI /\
  vx angles < vy angles + vz angles /\ vy angles < vx angles + vz angles /\ vz angles < vx angles + vy angles /\
  vx angles + vy angles + vz angles < 2 * PI.
(** the parameter list of each lattice type; [u] is the size of the angle unit in radians *)
Inductive parameters_of (u : R) : string -> list R -> v3 -> v3 -> Prop :=
| p_cubic : forall a r, parameters_of u "cubic" (a :: r) (V3 a a a) (V3 (PI / 2) (PI / 2) (PI / 2))
| p_hexagonal : forall a c r, parameters_of u "hexagonal" (a :: c :: r) (V3 a a c) (V3 (PI / 2) (PI / 2) (2 * PI / 3))
| p_trigonal : forall a c r, parameters_of u "trigonal" (a :: c :: r) (V3 a a c) (V3 (PI / 2) (PI / 2) (2 * PI / 3))
| p_rhombohedral : forall a al r, parameters_of u "rhombohedral" (a :: al :: r) (V3 a a a) (V3 (u * al) (u * al) (u * al))
| p_tetragonal : forall a c r, parameters_of u "tetragonal" (a :: c :: r) (V3 a a c) (V3 (PI / 2) (PI / 2) (PI / 2))
| p_orthorhombic : forall a b c r, parameters_of u "orthorhombic" (a :: b :: c :: r) (V3 a b c) (V3 (PI / 2) (PI / 2) (PI / 2))
| p_monoclinic : forall a b c be r, parameters_of u "monoclinic" (a :: b :: c :: be :: r) (V3 a b c) (V3 (PI / 2) (u * be) (PI / 2))
| p_triclinic : forall a b c al be ga r,
    parameters_of u "triclinic" (a :: b :: c :: al :: be :: ga :: r) (V3 a b c) (V3 (u * al) (u * be) (u * ga)).
Definition lattice_types : list string :=
  ["cubic"; "hexagonal"; "trigonal"; "rhombohedral"; "tetragonal"; "orthorhombic"; "monoclinic"; "triclinic"]%string.
(** size in radians of the unit the caller's angles are in *)
Definition angle_unit (radians : bool) : R := if radians then 1 else PI / 180.

(** t is the diffraction angle two-theta of planes with spacing d (Bragg's law) *)
Definition bragg (wl d t : R) : Prop := 0 < t < PI /\ wl = 2 * d * sin (t / 2).
(** n is the unit normal of the planes hkl of the lattice with vectors F, and d their spacing: the lattice point u a + v b + w c
    is on the plane number h u + k v + l w, counted from the origin *)
Definition plane_spacing (F : m3) (hkl n : v3) (d : R) : Prop :=
  norm2 n = 1 /\ 0 < d /\ forall uvw, dot n (mv F uvw) = d * dot hkl uvw.
(** a number is zero or at least 1.5e-8 *)
Definition not_tiny (x : R) : Prop := x = 0 \/ / 2 ^ 26 <= Rabs x.
Definition entries (P : R -> Prop) (a : m3) : Prop :=
  P (m00 a) /\ P (m01 a) /\ P (m02 a) /\ P (m10 a) /\ P (m11 a) /\ P (m12 a) /\ P (m20 a) /\ P (m21 a) /\ P (m22 a).
Definition radians_of (degrees : v3) : v3 := vscale (PI / 180) degrees.
(** w is the vector whose components in direct space (multiples of a, b, c), reciprocal space (multiples of the reciprocal vectors) or
    Cartesian space are v; F and B hold the vectors a, b, c and the reciprocal vectors as columns *)
Inductive in_space (F B : m3) : string -> v3 -> v3 -> Prop :=
| in_direct : forall v, in_space F B "d" v (mv F v)
| in_reciprocal : forall v, in_space F B "r" v (mv B v)
| in_cartesian : forall v, in_space F B "c" v v.
Definition is_space (s : string) : Prop := s = "d"%string \/ s = "r"%string \/ s = "c"%string.
(** obverse setting: the rhombohedral cell vectors inside the hexagonal cell with vectors F *)
Definition obverse (F : m3) : m3 :=
  of_cols (mv F (V3 (2 / 3) (1 / 3) (1 / 3))) (mv F (V3 (- 1 / 3) (1 / 3) (1 / 3))) (mv F (V3 (- 1 / 3) (- 2 / 3) (1 / 3))).
