(** Vocabulary for the properties of core/rotations.py. *)
From Coq Require Import Reals List.
From Verif Require Import Prelude Lin RotModel.
Local Open Scope R_scope.

Definition unitq (q : q4) : Prop := qw q * qw q + qx q * qx q + qy q * qy q + qz q * qz q = 1.
Definition negq (q : q4) : q4 := Q4 (- qw q) (- qx q) (- qy q) (- qz q).
(** the rotation of x by the angle t about the unit vector n (Rodrigues) *)
Definition rotated (n : v3) (t : R) (x : v3) : v3 :=
  vadd (vadd (vscale (cos t) x) (vscale (sin t) (cross n x))) (vscale ((1 - cos t) * dot n x) n).
(** the angle of a rotation matrix: between 0 and pi, with cosine (trace - 1)/2 *)
Definition angle_of (r : m3) (t : R) : Prop := 0 <= t <= PI /\ cos t = (tr r - 1) / 2.
(** a finite set of rotation matrices that is a group *)
Definition is_group (G : list m3) : Prop :=
  In mI G /\ (forall a, In a G -> rotation a /\ In (mt a) G) /\ (forall a b, In a G -> In b G -> In (mm a b) G).
(** the rotations represented by a list of quaternions *)
Definition rots (l : list q4) : list m3 := map rotMatOfQuat l.
(** t is the smallest angle of R1^T . S . R2 . C over sample symmetries S and crystal symmetries C *)
Definition smallest_angle (r1 r2 : m3) (crys samp : list m3) (t : R) : Prop :=
  (exists c s, In c crys /\ In s samp /\ angle_of (mm (mt r1) (mm s (mm r2 c))) t) /\
  (forall c s u, In c crys -> In s samp -> angle_of (mm (mt r1) (mm s (mm r2 c))) u -> t <= u).
Definition order_of (g : laue) : nat :=
  match g with Ci => 1 | C2h => 2 | D2h => 4 | C4h => 4 | D4h => 8 | C3i => 3 | D3d => 6 | C6h => 6 | D6h => 12 | Th => 12 | Oh => 24 end.
(** one whole turn, in degrees or radians *)
Definition one_turn (u : aunit) (p : R) : Prop := match u with ADeg => p = 360 | ARad => p = 2 * PI | AOther _ => False end.
(** equal up to whole turns *)
Definition same_angle (period a b : R) : Prop := exists k : Z, b = a + IZR k * period.
(** d is the distance of two angles around the circle *)
Definition circle_distance (period a b d : R) : Prop :=
  (exists k : Z, d = Rabs (a - b + IZR k * period)) /\ forall k : Z, d <= Rabs (a - b + IZR k * period).
(** the lattice basis (columns) each group refers to: cubic axes, or hexagonal a1, a2 at 120 degrees and c *)
Definition lattice_basis (g : laue) : m3 :=
  match g with
  | C3i | D3d | C6h | D6h => M3 1 (- (1 / 2)) 0 0 (sqrt 3 / 2) 0 0 0 1
  | _ => mI
  end.
Definition integer_matrix (n : m3) : Prop :=
  exists a b c d e f g h i : Z, n = M3 (IZR a) (IZR b) (IZR c) (IZR d) (IZR e) (IZR f) (IZR g) (IZR h) (IZR i).
(** r maps the lattice spanned by the columns of b to itself *)
Definition preserves_lattice (b r : m3) : Prop := exists n, integer_matrix n /\ mm r b = mm b n.
