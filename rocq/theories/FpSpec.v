(** Vocabulary for Friedel pairs. *)
From Coq Require Import Reals List.
From Verif Require Import Prelude Lin TensorModel RotModel RotSpec FpModel.
Import ListNotations.
Local Open Scope R_scope.

(** the unit normal, with azimuth eta, of planes that a beam along -z meets at the Bragg angle th *)
Definition normal (th eta : R) : v3 := V3 (cos eta * cos th) (sin eta * cos th) (sin th).
(** planes with unit normal n are in reflecting position *)
Definition reflecting (th : R) (n : v3) : Prop := vz n = sin th.
(** the axis of rotation: along y, inclined by chi about x *)
Definition axis (chi : R) : v3 := V3 0 (cos chi) (sin chi).
(** after a rotation by x the planes opposite to those at (tth, eta) reflect, at the azimuth eta'; no smaller rotation makes them
    reflect *)
Definition friedel_pair (chi tth eta x eta' : R) : Prop :=
  rotated (axis chi) x (vneg (normal (tth / 2) eta)) = normal (tth / 2) eta' /\
  forall y, reflecting (tth / 2) (rotated (axis chi) y (vneg (normal (tth / 2) eta))) -> Rabs x <= Rabs y.
(** size in radians of the unit of the angles given *)
Definition unit_of (o : options) : R := if radians o then 1 else PI / 180.
