(** Vocabulary for grain fitting (C130-C132). *)
From Coq Require Import Reals List ZArith Permutation.
From Verif Require Import Prelude Lin TensorModel RotModel RotSpec EomModel FgrModel.
Import ListNotations.
Local Open Scope R_scope.
Local Notation length := List.length.

(** the second list is the elements of the first that have the property, in their order *)
Inductive kept {A} (Q : A -> Prop) : list A -> list A -> Prop :=
| kept_nil : kept Q [] []
| kept_yes x l k : Q x -> kept Q l k -> kept Q (x :: l) (x :: k)
| kept_no x l k : ~ Q x -> kept Q l k -> kept Q (x :: l) k.
(** every grain of the table is numbered by its row *)
Definition numbered {P} (t : list (Z * P)) : Prop := forall j k p, nth_error t j = Some (k, p) -> k = Z.of_nat j.
(** the workers' chunks hold every place once *)
Definition shares_out (n : nat) (s : list (list (list nat))) : Prop := Permutation (concat (concat s)) (seq 0 n).
(** serial, or by workers that share out all the grains *)
Definition any_schedule (n : nat) (sched : option (list (list (list nat)))) : Prop :=
  match sched with None => True | Some s => shares_out n s end.
(** what fitting the parameters [p] alone gives *)
Definition fit_of {P} (one : P -> P * result (R * option R)) (p : P) (f : fitted P) : Prop := one p = (f_params f, Ok (f_compl f, f_chisq f)).

(** [w] is no farther from [m] around the circle than [c] *)
Definition no_farther (m w c : R) : Prop := exists dw dc, circle_distance (2 * PI) m w dw /\ circle_distance (2 * PI) m c dc /\ dw <= dc.
(** [w] is one of the angles [a] and [b], up to whole turns, and the one that is nearer to [m] *)
Definition nearer_of (m a b w : R) : Prop := (same_angle (2 * PI) a w \/ same_angle (2 * PI) b w) /\ no_farther m w a /\ no_farther m w b.
(** the three residuals of a reflection [h] of panel [p] that was measured at [m] *)
Definition residual_of {H} (p : @panel H) (h : H) (m : xyo) (l : list cell) : Prop :=
  exists a b w x y d, pa_omes p h = Some (a, b) /\ nearer_of (c_ome m) a b w /\ pa_meets p h w = Some (x, y) /\ circle_distance (2 * PI) w (c_ome m) d /\
    l = [Some (x - fst (pa_unwarp p (c_x m, c_y m))); Some (y - snd (pa_unwarp p (c_x m, c_y m))); Some d].
(** the sum of the squares *)
Definition sumsq (l : list R) : R := fold_right (fun x s => x * x + s) 0 l.
(** a spot that was found, and one that was found below the saturation level *)
Definition found (s : spot) : Prop := (0 <= sp_id s)%Z.
Definition below_saturation (level : option R) (s : spot) : Prop := match level with None => True | Some l => exists m, sp_max s = Some m /\ m < l end.
(** measured and calculated positions within the tolerances: pixels, and steps in omega (degrees) *)
Definition within (tol_xy tol_ome col row step : R) (q : xyo * xyo) : Prop :=
  Rabs (c_x (fst q) - c_x (snd q)) <= tol_xy * col /\ Rabs (c_y (fst q) - c_y (snd q)) <= tol_xy * row /\
  exists d, circle_distance (2 * PI) (c_ome (fst q)) (c_ome (snd q)) d /\ d * (180 / PI) <= tol_ome * step.
