(** Peak shapes as in the textbooks, in terms of the full width at half maximum [F]. *)
From Coq Require Import Reals List.
Import ListNotations.
Local Open Scope R_scope.

(** a bell that falls to 2^-(k^2) of its height at k half widths *)
Definition gauss (A x0 F x : R) : R := A * Rpower 2 (- (2 * (x - x0) / F) ^ 2).
(** the Cauchy distribution: 1/(1+k^2) of its height at k half widths *)
Definition lorentz (A x0 F x : R) : R := A / (1 + (2 * (x - x0) / F) ^ 2).
(** [n] parts of the one and [1 - n] of the other *)
Definition mixed (A x0 F n x : R) : R := n * gauss A x0 F x + (1 - n) * lorentz A x0 F x.
(** another width and mixture on each side of the centre *)
Definition two_sided (A x0 Fl Fr nl nr x : R) : R := if Rlt_dec x x0 then mixed A x0 Fl nl x else mixed A x0 Fr nr x.
(** a straight line under it *)
Definition on_line (g : R -> R) (c0 c1 : R) (x : R) : option R := Some (g x + (c0 + c1 * x)).

(** height [A] at [x0] and half of it [Fl / 2] to the left and [Fr / 2] to the right *)
Definition widths (A x0 Fl Fr : R) (g : R -> R) : Prop := g x0 = A /\ g (x0 - Fl / 2) = A / 2 /\ g (x0 + Fr / 2) = A / 2.
(** one maximum, positive everywhere, falling on both sides *)
Definition single_peak (x0 : R) (g : R -> R) : Prop :=
  (forall x, 0 < g x) /\ (forall x y, x < y -> y <= x0 -> g x < g y) /\ (forall x y, x0 <= x -> x < y -> g y < g x).
Definition symmetric (x0 : R) (g : R -> R) : Prop := forall d, g (x0 + d) = g (x0 - d).

(** positions relative to the centre, in axes turned by [theta] *)
Definition along (theta x0 y0 x y : R) : R := (x - x0) * cos theta + (y - y0) * sin theta.
Definition across (theta x0 y0 x y : R) : R := (y - y0) * cos theta - (x - x0) * sin theta.

(** the derivative of a function of parameters in the [i]-th of them *)
Fixpoint put (i : nat) (v : R) (p : list R) : list R :=
  match p, i with [], _ => [] | _ :: t, O => v :: t | a :: t, S j => a :: put j v t end.
Definition partial (f : list R -> R) (p : list R) (i : nat) (d : R) : Prop :=
  derivable_pt_lim (fun v => f (put i v p)) (nth i p 0) d.
(** rows for the parameters, columns for the positions *)
Definition jacobian (f : list R -> R -> R) (p xs : list R) (m : list (list (option R))) : Prop :=
  length m = length p /\
  forall i, (i < length p)%nat -> length (nth i m []) = length xs /\
  forall j, (j < length xs)%nat -> exists d, nth j (nth i m []) None = Some d /\ partial (fun q => f q (nth j xs 0)) p i d.

(** a step down from [A] to 0, of width [w] *)
Definition logistic_step (A x0 w x : R) : R := A / (1 + exp (2 * (x - x0) / w)).
(** Thompson, Cox and Hastings: the width of the sum and the fraction of Lorentzian *)
Definition tch_fifth (g l : R) : R :=
  g ^ 5 + 2.69269 * (g ^ 4 * l) + 2.42843 * (g ^ 3 * l ^ 2) + 4.47163 * (g ^ 2 * l ^ 3) + 0.07842 * (g * l ^ 4) + l ^ 5.
Definition tch_fraction (r : R) : R := 1.36603 * r - 0.47719 * r ^ 2 + 0.11116 * r ^ 3.
(** polynomial backgrounds, lowest power first *)
Fixpoint polynomial (c : list R) (x : R) : R := match c with [] => 0 | a :: t => a + x * polynomial t x end.
Definition total (l : list R) : R := fold_right Rplus 0 l.
