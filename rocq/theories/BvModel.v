(** Model of the beam direction and of some helpers of core/instrument/hedm_instrument.py:341-425.  Real numbers stand for floats;
    the signs of zero are not distinguished. *)
From Coq Require Import Reals String List ZArith Lra.
From Verif Require Import Prelude Lin TensorModel XfModel.
Import ListNotations.
Local Open Scope R_scope.
Local Notation length := List.length.

(** np.radians, np.degrees *)
Definition radians (x : R) : R := x * (PI / 180).
Definition degrees (x : R) : R := x * (180 / PI).
(** 341-351 *)
Definition calc_beam_vec (azim pola : R) : v3 :=
  let tht := radians azim in
  let phi := radians pola in
  V3 (- (sin phi * cos tht)) (- cos phi) (- (sin phi * sin tht)).
(** 354-363: unit_vector is unit_row_vector.c *)
Definition calc_angles_from_beam_vec (bvec : v3) : R * R :=
  let nvec := fst (unit_row_vector (V3 (- vx bvec) (- vy bvec) (- vz bvec))) in
  (degrees (atan2 (vz nvec) (vx nvec)), degrees (acos (vy nvec))).

(** np.mod for a positive modulus *)
Definition npmod (a m : R) : R := a - m * IZR (Int_part (a / m)).
(** 379-397: None stands for NaN; [ccw] is not used *)
Fixpoint first_wedge (tau angle : R) (i : nat) (ranges : list (R * R)) : option nat :=
  match ranges with
  | [] => None
  | (amin, amax) :: rest => if Rlt_dec (amin + npmod (angle - amin) tau) amax then Some i else first_wedge tau angle (S i) rest
  end.
Definition angle_in_range (angle : R) (ranges : list (R * R)) (units_lower : string) : option nat :=
  let tau := if String.eqb units_lower "radians" then 2 * PI else 360 in
  first_wedge tau angle 0 ranges.

(** 401-404 *)
Fixpoint averages (l : list R) : list R := match l with a :: ((b :: _) as r) => (a + b) / 2 :: averages r | _ => [] end.
Definition centers_of_edge_vec (edges : list R) : result (list R) :=
  if Nat.ltb (length edges) 2 then Err ValueError else Ok (averages edges).

(** 407-425: np.max of an empty array raises; two-theta of the pixels of each panel *)
Fixpoint np_max (l : list R) : result R :=
  match l with [] => Err ValueError | [x] => Ok x | x :: r => do m <- np_max r; Ok (Rmax x m) end.
Fixpoint max_tth_from (tth_max : R) (panels : list (list R)) : result R :=
  match panels with [] => Ok tth_max | p :: rest => do m <- np_max p; max_tth_from (Rmax m tth_max) rest end.
Definition max_tth (panels : list (list R)) : result R := max_tth_from 0 panels.
