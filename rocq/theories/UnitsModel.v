(** Model of unit conversion (core/valunits.py) and of the hexagonal/rhombohedral index conversions
    (core/material/crystallography.py). *)
From Coq Require Import Reals QArith Qround String SpecFloat.
From Verif Require Import Prelude.
Local Close Scope Q_scope.

(** ** units.  Real numbers stand for floating point numbers. *)
(** the unit names of the table; [other] is any other string *)
Inductive unit_name := Degrees | Radians | M | Meter | Mm | Nm | Angstrom | KeV | J | Other (s : string).
Definition unit_eqb (u v : unit_name) : bool :=
  match u, v with
  | Degrees, Degrees | Radians, Radians | M, M | Meter, Meter | Mm, Mm | Nm, Nm | Angstrom, Angstrom | KeV, KeV | J, J => true
  | Other s, Other t => String.eqb s t
  | _, _ => false
  end.
Section U.
Local Open Scope R_scope.
(** core/valunits.py:59-80 *)
Definition cv (u v : unit_name) : option R :=
  match u, v with
  | Degrees, Radians => Some (PI / 180)
  | Radians, Degrees => Some (180 / PI)
  | M, Mm => Some 1000
  | M, Meter => Some 1
  | M, Nm => Some (10 ^ 9)
  | M, Angstrom => Some (10 ^ 10)
  | Meter, Mm => Some 1000
  | Meter, M => Some 1
  | Meter, Nm => Some (10 ^ 9)
  | Meter, Angstrom => Some (10 ^ 10)
  | Mm, M => Some (/ 1000)
  | Mm, Meter => Some (/ 1000)
  | Mm, Nm => Some (10 ^ 6)
  | Mm, Angstrom => Some (10 ^ 7)
  | Angstrom, M => Some (/ 10 ^ 10)
  | Angstrom, Meter => Some (/ 10 ^ 10)
  | Angstrom, Mm => Some (/ 10 ^ 7)
  | Angstrom, Nm => Some (/ 10)
  | KeV, J => Some (160217646 / 10 ^ 24)
  | J, KeV => Some (1 / (160217646 / 10 ^ 24))
  | _, _ => None
  end.
(** core/constants.py:307-308; [hc] is 1e7 * c * h / e from scipy.  Dividing by a Python float zero raises. *)
Definition keV_to_angstrom (hc x : R) : result R := if Req_EM_T x 0 then Err ZeroDivisionError else Ok (hc / x).
(** core/valunits.py:162-206, getVal *)
Definition get_val (hc : R) (value : R) (u v : unit_name) : result R :=
  if unit_eqb u v then Ok value
  else match cv u v with
       | Some k => Ok (k * value)
       | None => match u, v with
                 | KeV, Angstrom | Angstrom, KeV => keV_to_angstrom hc value
                 | _, _ => Err RuntimeError
                 end
       end.
(** core/valunits.py:130-160: the value and unit of the sum and of the difference of two quantities *)
Definition add_q (hc : R) (a : R * unit_name) (b : R * unit_name) : result (R * unit_name) :=
  do y <- get_val hc (fst b) (snd b) (snd a); Ok (fst a + y, snd a).
Definition sub_q (hc : R) (a : R * unit_name) (b : R * unit_name) : result (R * unit_name) :=
  do y <- get_val hc (fst b) (snd b) (snd a); Ok (fst a - y, snd a).
End U.

(** ** hexagonal and rhombohedral indices *)
Section H.
Local Open Scope Z_scope.
(** crystallography.py:580-590 for integer input *)
Definition hex_of_rhomb (p : Z * Z * Z) : Z * Z * Z := let '(h, k, l) := p in (h - k, k - l, h + k + l).
(** crystallography.py:593-604: three times the result; the code divides it by 3.0 *)
Definition rhomb_of_hex3 (p : Z * Z * Z) : Z * Z * Z := let '(H, K, L) := p in (2 * H + K + L, - H + K + L, - H - 2 * K + L).
(** the result over exact rationals *)
Definition rhomb_of_hex (p : Z * Z * Z) : Q * Q * Q :=
  let '(h, k, l) := rhomb_of_hex3 p in (inject_Z h / 3, inject_Z k / 3, inject_Z l / 3)%Q.
(** assignment of a float into an int array truncates towards zero *)
Definition qtrunc (q : Q) : Z := if Qle_bool 0 q then Qfloor q else - Qfloor (- q).
(** crystallography.py:580-590 for the rational result of the previous function *)
Definition hex_of_rhombQ (p : Q * Q * Q) : Z * Z * Z := let '(h, k, l) := p in (qtrunc (h - k), qtrunc (k - l), qtrunc (h + k + l)).

(** the same two functions in IEEE binary64 (round to nearest even), from the standard library's executable specification *)
Definition f64 (z : Z) : spec_float := binary_normalize 53 1024 z 0 false.
Definition fdiv := SFdiv 53 1024.
Definition fsub := SFsub 53 1024.
Definition fadd := SFadd 53 1024.
Definition ftrunc (f : spec_float) : Z :=
  match f with
  | S754_finite s m e => let a := if 0 <=? e then Z.pos m * 2 ^ e else Z.pos m / 2 ^ (- e) in if s then - a else a
  | _ => 0
  end.
Definition rhomb_of_hexF (p : Z * Z * Z) : spec_float * spec_float * spec_float :=
  let '(h, k, l) := rhomb_of_hex3 p in (fdiv (f64 h) (f64 3), fdiv (f64 k) (f64 3), fdiv (f64 l) (f64 3)).
Definition hex_of_rhombF (p : spec_float * spec_float * spec_float) : Z * Z * Z :=
  let '(h, k, l) := p in (ftrunc (fsub h k), ftrunc (fsub k l), ftrunc (fadd (fadd h k) l)).
End H.

(** ** hexagonal directions: three-index Miller and Miller-Bravais *)
(** crystallography.py:686-705, one direction (the code returns the transpose of the documented shape) *)
Definition miller_of_bravais (p : Q * Q * Q) : Q * Q * Q := let '(U, V, W) := p in (2 * U + V, 2 * V + U, W)%Q.
(** crystallography.py:674-675: before the scaling by the smallest remainder, which is not modelled *)
Definition bravais_of_miller (p : Q * Q * Q) : Q * Q * Q := let '(u, v, w) := p in ((2 * u - v) / 3, (2 * v - u) / 3, w)%Q.
(** numpy.mod on exact rationals; [None] is NaN *)
Definition qmod (a b : Q) : option Q := if Qeq_bool b 0 then None else Some (a - b * inject_Z (Qfloor (a / b)))%Q.
Definition small_to_nan (eps : Q) (r : option Q) : option Q :=
  match r with Some x => if Qle_bool eps x || Qle_bool eps (- x) then Some x else None | None => None end.
Definition nanmin (a b : option Q) : option Q :=
  match a, b with
  | Some x, Some y => if Qle_bool x y then Some x else Some y
  | Some x, None => Some x
  | None, y => y
  end.
(** crystallography.py:674-680: the three indices after scaling, for one direction *)
Definition bravais_scaled (eps : Q) (p : Q * Q * Q) : Q * Q * Q :=
  let '(U, V, W) := bravais_of_miller p in
  let lcm := match nanmin (small_to_nan eps (qmod U V)) (small_to_nan eps (qmod U W)) with Some x => x | None => 1%Q end in
  (U / lcm, V / lcm, W / lcm)%Q.
(** crystallography.py:681-683 for [n] directions: the array [1 - sum(retval[:2], axis=1)] has at most two rows, so hstack
    fails for more; its row for a direction is 1 - (U + V + W). *)
Definition bravais_four (eps : Q) (l : list (Q * Q * Q)) : result (list (Q * Q * Q * Q)) :=
  if Nat.leb (length l) 2 then
    Ok (map (fun p => let '(U, V, W) := bravais_scaled eps p in (U, V, 1 - (U + V + W), W)%Q) l)
  else Err ValueError.
