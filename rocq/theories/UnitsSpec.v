(** Specification vocabulary for units and hexagonal indices. *)
From Coq Require Import Reals QArith.
From Verif Require Import Prelude UnitsModel.
Local Close Scope Q_scope.
Local Open Scope R_scope.

Inductive kind := Angle | Length | Energy.
Definition kind_of (u : unit_name) : option kind :=
  match u with
  | Degrees | Radians => Some Angle
  | M | Meter | Mm | Nm | Angstrom => Some Length
  | KeV | J => Some Energy
  | Other _ => None
  end.
(** the size of the unit in radians, metres, joules *)
Definition si (u : unit_name) : R :=
  match u with
  | Degrees => PI / 180
  | Mm => / 10 ^ 3
  | Nm => / 10 ^ 9
  | Angstrom => / 10 ^ 10
  | KeV => 160217646 / 10 ^ 24
  | _ => 1
  end.
Definition same_kind (u v : unit_name) : Prop := u = v \/ (exists k, kind_of u = Some k /\ kind_of v = Some k).
Definition energy_wavelength (u v : unit_name) : Prop := (u = KeV /\ v = Angstrom) \/ (u = Angstrom /\ v = KeV).

(** a triple of equal rationals *)
Definition eqQ3 (p q : Q * Q * Q) : Prop :=
  let '(a, b, c) := p in let '(a', b', c') := q in Qeq a a' /\ Qeq b b' /\ Qeq c c'.
Definition Z3 (p : Z * Z * Z) : Q * Q * Q := let '(a, b, c) := p in (inject_Z a, inject_Z b, inject_Z c).
(** obverse setting of a rhombohedral lattice *)
Definition obverse (p : Z * Z * Z) : Prop := let '(H, K, L) := p in ((- H + K + L) mod 3 = 0)%Z.
