(** Vocabulary for the elastic constants. *)
From Coq Require Import Reals.
From Verif Require Import Lin.
Local Open Scope R_scope.

Definition rows6 := nat -> nat -> R.
(** two 6x6 arrays with the same entries *)
Definition same6 (a b : rows6) : Prop := forall i j, (i < 6)%nat -> (j < 6)%nat -> a i j = b i j.
Definition symmetric6 (a : rows6) : Prop := forall i j, (i < 6)%nat -> (j < 6)%nat -> a i j = a j i.
Definition sum6 (f : nat -> R) : R := f 0%nat + f 1%nat + f 2%nat + f 3%nat + f 4%nat + f 5%nat.
(** the six engineering components of a strain tensor, in the order of Voigt: 11, 22, 33, 23, 13, 12 *)
Definition voigt (e : m3) (k : nat) : R :=
  match k with
  | 0%nat => m00 e | 1%nat => m11 e | 2%nat => m22 e | 3%nat => 2 * m12 e | 4%nat => 2 * m02 e | 5%nat => 2 * m01 e | _ => 0
  end.
(** the elastic energy per volume of a material of stiffness c under the strain e *)
Definition elastic_energy (c : rows6) (e : m3) : R := / 2 * sum6 (fun a => sum6 (fun b => c a b * voigt e a * voigt e b)).
(** turning the strain by r does not change the energy: r is a symmetry of the elastic behaviour *)
Definition elastic_symmetry (c : rows6) (r : m3) : Prop :=
  forall e, symmetric e -> elastic_energy c (mm r (mm e (mt r))) = elastic_energy c e.
(** half turns about the axes *)
Definition half_turn_x : m3 := diag 1 (-1) (-1).
Definition half_turn_y : m3 := diag (-1) 1 (-1).
Definition half_turn_z : m3 := diag (-1) (-1) 1.
(** matrix product and unit matrix *)
Definition times6 (a b : rows6) : rows6 := fun i j => sum6 (fun k => a i k * b k j).
Definition unit6 : rows6 := fun i j => if Nat.eqb i j then 1 else 0.
(** b is the inverse of a *)
Definition inverse6 (a b : rows6) : Prop := same6 (times6 a b) unit6 /\ same6 (times6 b a) unit6.
(** what is assumed of numerical inversion: an answer is the inverse *)
Definition inverts (inv : rows6 -> option rows6) : Prop := forall a b, inv a = Some b -> inverse6 a b.
(** the half turn about a direction perpendicular to the a axis of a trigonal crystal, as in the groups 312, 31m and -31m *)
Definition half_turn_210 : m3 := half_turn_y.
