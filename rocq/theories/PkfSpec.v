(** Fitting of peaks *)
From Coq Require Import Reals List.
From Verif Require Import PkModel PkSpec PkSpec2.
Import ListNotations.
Local Open Scope R_scope.

(** differences between a peak on a line and data *)
Definition misfit (k : peak) (c0 c1 : R) (q : R * R) : R := height k (fst q) + (c0 + c1 * fst q) - snd q.
Definition exact (k : peak) (c0 c1 : R) (xs ys : list R) : Prop := Forall (fun q => misfit k c0 c1 q = 0) (combine xs ys).
Definition zeros (r : list (option R)) : Prop := Forall (fun v => v = Some 0) r.
(** the range of positions *)
Definition spanned (xs : list R) (c : R) : Prop := (exists x, In x xs /\ x <= c) /\ (exists x, In x xs /\ c <= x).
(** what a mixed peak may become, from a guess: half to twice the height, within the data, up to four times the width, a proper
    mixture and a background up to twice that of the guess *)
Definition near_guess (A0 F0 b0 : R) (xs : list R) (A x0 F n c0 : R) : Prop :=
  A0 / 2 <= A <= 2 * A0 /\ spanned xs x0 /\ 0 <= F <= 4 * F0 /\ 0 <= n <= 1 /\ 0 <= c0 <= 2 * b0.
(** the same for a two-sided peak *)
Definition near_guess2 (A0 Fl0 Fr0 b0 : R) (xs : list R) (A x0 Fl Fr nl nr c0 : R) : Prop :=
  A0 / 2 <= A <= 2 * A0 /\ spanned xs x0 /\ 0 <= Fl <= 4 * Fl0 /\ 0 <= Fr <= 4 * Fr0 /\ 0 <= nl <= 1 /\ 0 <= nr <= 1 /\ 0 <= c0 <= 2 * b0.
(** every value between its bounds; [None] is no bound *)
Fixpoint within (p : list R) (lb ub : list (option R)) : Prop :=
  match p, lb, ub with
  | [], [], [] => True
  | v :: p', l :: lb', u :: ub' =>
      match l with Some a => a <= v | None => True end /\ match u with Some b => v <= b | None => True end /\ within p' lb' ub'
  | _, _, _ => False
  end.
Fixpoint increasing (xs : list R) : Prop :=
  match xs with [] => True | a :: t => match t with [] => True | b :: _ => a < b end /\ increasing t end.
Definition top (k : peak) : R := match k with PGauss A _ _ => A | PLorentz A _ _ => A | PMixed A _ _ _ => A | PTwoSided A _ _ _ _ _ => A end.
Definition centre (k : peak) : R := match k with PGauss _ c _ => c | PLorentz _ c _ => c | PMixed _ c _ _ => c | PTwoSided _ c _ _ _ _ => c end.
(** widths on the left and on the right *)
Definition left_width (k : peak) : R := match k with PGauss _ _ F => F | PLorentz _ _ F => F | PMixed _ _ F _ => F | PTwoSided _ _ Fl _ _ _ => Fl end.
Definition right_width (k : peak) : R := match k with PGauss _ _ F => F | PLorentz _ _ F => F | PMixed _ _ F _ => F | PTwoSided _ _ _ Fr _ _ => Fr end.
(** heights of the data above a line *)
Definition above (c0 c1 : R) (xs ys : list R) (j : nat) (e : R) : Prop :=
  exists x y, nth_error xs j = Some x /\ nth_error ys j = Some y /\ e = y - (c0 + c1 * x).
(** [j] is the place, among those in [P], where the height is nearest to [h] *)
Definition nearest (c0 c1 : R) (xs ys : list R) (P : nat -> Prop) (h : R) (j : nat) : Prop :=
  P j /\ exists e, above c0 c1 xs ys j e /\ forall j' e', P j' -> above c0 c1 xs ys j' e' -> Rabs (e - h) <= Rabs (e' - h).
