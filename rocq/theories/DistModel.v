(** Model of the detector distortion functions: core/distortion/*.py and
    core/transforms/cpp_sublibrary/src/inverse_distortion.cpp.  Real numbers stand for floating point numbers;
    a point with a NaN or infinite coordinate is [None].  Arrays of points are modelled one point at a time
    (every loop treats the points independently). *)
From Coq Require Import Reals List String.
From Verif Require Import Prelude.
Import ListNotations.
Local Open Scope R_scope.

Definition pt := (R * R)%type.
(** a number decides a branch *)
Definition neg (x : R) : bool := if Rlt_dec x 0 then true else false.
Definition is0 (x : R) : bool := if Req_EM_T x 0 then true else false.

(** ** dexela_2923.py *)
(** lines 32-33 *)
Definition all_zero (p : list R) : bool := forallb is0 p.
(** the pair [params[i : i + 2]] *)
Definition pair_at (p : list R) (i : nat) : pt := (nth i p 0, nth (S i) p 0).
(** lines 67-83; exactly eight parameters (the property setter insists, line 28) *)
Definition dexela_distortion (p : list R) (q : pt) : pt :=
  let '(xi, yi) := q in
  let d := if neg xi then (if neg yi then pair_at p 4 else pair_at p 2) else (if neg yi then pair_at p 6 else pair_at p 0) in
  (xi + fst d, yi + snd d).
(** lines 86-103 *)
Definition dexela_inverse_distortion (p : list R) (q : pt) : pt :=
  let '(xi, yi) := q in
  let d := if neg xi then (if neg yi then pair_at p 4 else pair_at p 2) else (if neg yi then pair_at p 6 else pair_at p 0) in
  (xi - fst d, yi - snd d).

(** ** dexela_2923_quad.py *)
(** lines 62-74; a division by zero gives infinities or NaN *)
Definition quad_distortion (p : list R) (q : pt) : option pt :=
  let p0 := nth 0 p 0 in let p1 := nth 1 p 0 + / 10 ^ 12 in let p2 := nth 2 p 0 in
  let p3 := nth 3 p 0 in let p4 := nth 4 p 0 in let p5 := nth 5 p 0 + / 10 ^ 12 in
  let '(x, y) := q in
  if (is0 p1 || is0 p5 || is0 (1 - (p2 * p4) / (p1 * p5)))%bool then None
  else
    let out0 := (x / p1 - p0 / p1 - (p2 / (p1 * p5) * (y - p3))) / (1 - (p2 * p4) / (p1 * p5)) in
    Some (out0, (y - p3 - p4 * out0) / p5).
(** lines 77-86 *)
Definition quad_inverse_distortion (p : list R) (q : pt) : option pt :=
  let p0 := nth 0 p 0 in let p1 := nth 1 p 0 + / 10 ^ 12 in let p2 := nth 2 p 0 in
  let p3 := nth 3 p 0 in let p4 := nth 4 p 0 in let p5 := nth 5 p 0 + / 10 ^ 12 in
  let '(x, y) := q in Some (p0 + p1 * x + p2 * y, p3 + p4 * x + p5 * y).

(** ** ge_41rt.py *)
(** line 16 *)
Definition RHO_MAX : R := 2048 / 10.
(** [x ** e] for x >= 0 (zero to a negative power, an infinity, is not distinguished) *)
Definition rpow (x e : R) : R := if Req_EM_T x 0 then (if Req_EM_T e 0 then 1 else 0) else Rpower x e.
(** lines 50-77; constants.sqrt_epsf is the square root of 2^-52 *)
Definition ge_distortion (p : list R) (q : pt) : pt :=
  let p0 := nth 0 p 0 in let p1 := nth 1 p 0 in let p2 := nth 2 p 0 in
  let p3 := nth 3 p 0 in let p4 := nth 4 p 0 in let p5 := nth 5 p 0 in
  let rxi := 1 / RHO_MAX in
  let '(xi, yi) := q in
  let ri := sqrt (xi * xi + yi * yi) in
  let ri_inv := if Rlt_dec ri (/ 2 ^ 26) then 0 else 1 / ri in
  let sinni := yi * ri_inv in
  let cosni := xi * ri_inv in
  let cos2ni := cosni * cosni - sinni * sinni in
  let sin2ni := 2 * sinni * cosni in
  let cos4ni := cos2ni * cos2ni - sin2ni * sin2ni in
  let ratio := ri * rxi in
  let ri := (p0 * rpow ratio p3 * cos2ni + p1 * rpow ratio p4 * cos4ni + p2 * rpow ratio p5 + 1) * ri in
  (ri * cosni, ri * sinni).
(** inverse_distortion.cpp:13-38, called with the first three parameters (ge_41rt.py:141-143): NaN at the origin, where the sum
    under the square root is negative, and where the argument of the arc cosine is out of range; infinite where the sum is zero *)
Definition ge_inverse_distortion (p : list R) (q : pt) : option pt :=
  let p0 := nth 0 p 0 in let p1 := nth 1 p 0 in let p2 := nth 2 p 0 in
  let '(x, y) := q in
  let radius := sqrt (x * x + y * y) in
  if is0 radius then None
  else
    let inverted := / radius in
    let cosine := x * inverted in
    let c2 := 2 * (cosine * cosine) - 1 in
    let c4 := 2 * (c2 * c2) - 1 in
    let under := - p0 * c2 - p1 * c4 - p2 in
    if Rle_dec under 0 then None
    else
      let sqrt_p := RHO_MAX / sqrt under in
      let arg := (- 3 / 2 * sqrt 3) * radius / sqrt_p in
      if Rlt_dec arg (-1) then None
      else
        let solution := 2 / sqrt 3 * sqrt_p * cos (acos arg / 3 + PI * 4 / 3) in
        Some (solution * x * inverted, solution * y * inverted).

(** ** the classes *)
Inductive distortion := Identity | Dexela (p : list R) | DexelaQuad (p : list R) | GE (p : list R).
(** __init__.py:40-60 with the constructors: identity.py:17-18, dexela_2923.py:19-20, dexela_2923_quad.py:13-15, ge_41rt.py:113-114,
    and nyi.py, an abstract class, which cannot be instantiated.
    Only the quad class checks the number of parameters. *)
Definition get_mapping (maptype : string) (params : list R) : result distortion :=
  if String.eqb maptype "identity" then Ok Identity
  else if String.eqb maptype "nyi" then Err TypeError
  else if String.eqb maptype "GE_41RT" then Ok (GE params)
  else if String.eqb maptype "Dexela_2923" then Ok (Dexela params)
  else if String.eqb maptype "Dexela_2923_quad" then if Nat.eqb (List.length params) 6 then Ok (DexelaQuad params) else Err AssertionError
  else Err KeyError.
(** the number of parameters each kernel unpacks; with fewer the calls below are not modelled *)
Definition full (d : distortion) : Prop :=
  match d with Identity => True | Dexela p => List.length p = 8%nat | DexelaQuad p => List.length p = 6%nat | GE p => List.length p = 6%nat end.
(** dexela_2923.py:32-33, dexela_2923_quad.py:26-28, ge_41rt.py:125-127 *)
Definition is_trivial (d : distortion) : bool :=
  match d with
  | Identity => true
  | Dexela p => all_zero p
  | DexelaQuad p => all_zero p
  | GE p => (is0 (nth 0 p 0) && is0 (nth 1 p 0) && is0 (nth 2 p 0))%bool
  end.
(** dexela_2923.py:35-41, dexela_2923_quad.py:30-37, ge_41rt.py:129-136, identity.py:20-21 *)
Definition apply (d : distortion) (q : pt) : option pt :=
  if is_trivial d then Some q
  else match d with
       | Identity => Some q
       | Dexela p => Some (dexela_distortion p q)
       | DexelaQuad p => quad_distortion p q
       | GE p => Some (ge_distortion p q)
       end.
(** dexela_2923.py:43-49, dexela_2923_quad.py:39-46, ge_41rt.py:138-146, identity.py:23-24 *)
Definition apply_inverse (d : distortion) (q : pt) : option pt :=
  if is_trivial d then Some q
  else match d with
       | Identity => Some q
       | Dexela p => Some (dexela_inverse_distortion p q)
       | DexelaQuad p => quad_inverse_distortion p q
       | GE p => ge_inverse_distortion p q
       end.
