(** What a hue is: sixths of the way around red, yellow, green, cyan, blue and magenta *)
From Coq Require Import Reals List.
From Verif Require Import Lin.
Local Open Scope R_scope.

(** the pure colour at [f] of the way from corner [k] to the next, with its greatest part 1 and its least 0 *)
Definition wheel (k : nat) (f : R) : v3 :=
  match k with
  | 0%nat => V3 1 f 0        (* red to yellow *)
  | 1%nat => V3 (1 - f) 1 0  (* yellow to green *)
  | 2%nat => V3 0 1 f        (* green to cyan *)
  | 3%nat => V3 0 (1 - f) 1  (* cyan to blue *)
  | 4%nat => V3 f 0 1        (* blue to magenta *)
  | _ => V3 1 0 (1 - f)      (* magenta to red *)
  end.
(** the range of the parts of a colour of lightness [l] and saturation [s] around its lightness *)
Definition chroma (s l : R) : R := s * (2 * Rmin l (1 - l)).
(** a colour with that range and lightness *)
Definition tinted (w : v3) (s l : R) : v3 :=
  let c := chroma s l in V3 (l + c * (vx w - / 2)) (l + c * (vy w - / 2)) (l + c * (vz w - / 2)).
Definition unit_interval (x : R) : Prop := 0 <= x <= 1.
Definition is_colour (v : v3) : Prop := unit_interval (vx v) /\ unit_interval (vy v) /\ unit_interval (vz v).
