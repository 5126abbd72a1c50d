(** The equation of state of a Material: core/material/material.py:439-560.
    Real numbers stand for floating point numbers; [x ** y] is [Rpower], which is the real power for x > 0. *)
From Coq Require Import Reals List.
From Verif Require Import Prelude Lin LatModel.
Import ListNotations.
Local Open Scope R_scope.

(** the attributes v0 (cubic angstroms), k0, k0p, thermal_expansion, thermal_expansion_dt, dk0dt, dk0pdt *)
Record eos := Eos { e_v0 : R; e_k0 : R; e_k0p : R; e_a0 : R; e_a1 : R; e_dk : R; e_dkp : R }.
(** material.py:439-451 *)
Definition vt (e : eos) (temperature : option R) : R :=
  match temperature with
  | None => e_v0 e
  | Some t => let delT := t - 298 in let delT2 := t ^ 2 - 298 ^ 2 in e_v0 e * exp (e_a0 e * delT + / 2 * e_a1 e * delT2)
  end.
(** material.py:453-462 *)
Definition kt (e : eos) (temperature : option R) : R :=
  match temperature with None => e_k0 e | Some t => e_k0 e + e_dk e * (t - 298) end.
(** material.py:464-473 *)
Definition ktp (e : eos) (temperature : option R) : R :=
  match temperature with None => e_k0p e | Some t => e_k0p e + e_dkp e * (t - 298) end.
(** material.py:490-503 *)
Definition calc_pressure (e : eos) (volume : option R) (temperature : option R) : R :=
  match volume with
  | None => 0
  | Some v =>
      let f := / 2 * (Rpower (vt e temperature / v) (2 / 3) - 1) in
      3 * kt e temperature * f * (1 - 3 / 2 * (4 - ktp e temperature) * f) * Rpower (1 + 2 * f) (5 / 2)
  end.

(** material.py:518-527: the coefficients, highest power first *)
Definition volume_poly (k kp pressure : R) : list R :=
  let alpha := 3 / 4 * (kp - 4) in
  [alpha; 0; 1 - 2 * alpha; 0; alpha - 1; 0; 0; 0; 0; - 2 * pressure / 3 / k].
Section Roots.
(** numpy.roots followed by the selection of the real ones (528-529) *)
Variable roots : list R -> list R.
(** material.py:530-533: [1 / x ** 3], infinite for x = 0, and the mask *)
Definition kept (x : R) : option R :=
  if Req_EM_T x 0 then None
  else let r := 1 / x ^ 3 in
       if Rle_dec 0 r then if Rle_dec r 1 then Some r else None else None.
Fixpoint kept_all (l : list R) : list R :=
  match l with [] => [] | x :: t => match kept x with Some r => r :: kept_all t | None => kept_all t end end.
Definition rmaximum (x : R) (l : list R) : R := fold_left Rmax l x.
(** material.py:505-536 *)
Definition calc_volume (e : eos) (pressure : option R) (temperature : option R) : R :=
  match pressure with
  | None => vt e temperature
  | Some p =>
      match kept_all (roots (volume_poly (kt e temperature) (ktp e temperature) p)) with
      | [] => vt e temperature
      | r :: l => rmaximum r l * vt e temperature
      end
  end.
(** material.py:538-545 *)
Definition calc_lp_factor (e : eos) (pressure temperature : option R) : R :=
  Rpower (calc_volume e pressure temperature / vt e temperature) (1 / 3).
(** material.py:475-488; the lengths in nm, [vol] is that of the unit cell in cubic nm *)
Definition pt_lp_factor (e : eos) (vol : R) : R := Rpower (vol * 1000 / e_v0 e) (1 / 3).
Definition lparms0 (e : eos) (vol : R) (len : v3) : v3 :=
  V3 (vx len / pt_lp_factor e vol) (vy len / pt_lp_factor e vol) (vz len / pt_lp_factor e vol).
(** material.py:547-560; the angles are returned as they are *)
Definition calc_lp_at_PT (e : eos) (len deg : v3) (pressure temperature : option R) : v3 * v3 :=
  let f := calc_lp_factor e pressure temperature in
  let l := lparms0 e (u_vol (calcmatrices len deg)) len in
  (V3 (f * vx l) (f * vy l) (f * vz l), deg).
End Roots.
