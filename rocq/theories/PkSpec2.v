(** Sums of peaks on a background *)
From Coq Require Import Reals List.
From Verif Require Import PkModel PkSpec.
Import ListNotations.
Local Open Scope R_scope.

Inductive peak :=
| PGauss (A x0 F : R) | PLorentz (A x0 F : R) | PMixed (A x0 F n : R) | PTwoSided (A x0 Fl Fr nl nr : R).
Definition kind (k : peak) : pktype :=
  match k with PGauss _ _ _ => Gaussian | PLorentz _ _ _ => Lorentzian | PMixed _ _ _ _ => Pvoigt | PTwoSided _ _ _ _ _ _ => SplitPvoigt end.
Definition params (k : peak) : list R :=
  match k with
  | PGauss A x0 F => [A; x0; F] | PLorentz A x0 F => [A; x0; F] | PMixed A x0 F n => [A; x0; F; n]
  | PTwoSided A x0 Fl Fr nl nr => [A; x0; Fl; Fr; nl; nr]
  end.
Definition height (k : peak) : R -> R :=
  match k with
  | PGauss A x0 F => gauss A x0 F | PLorentz A x0 F => lorentz A x0 F | PMixed A x0 F n => mixed A x0 F n
  | PTwoSided A x0 Fl Fr nl nr => two_sided A x0 Fl Fr nl nr
  end.
(** no width is zero *)
Definition proper (k : peak) : Prop :=
  match k with
  | PGauss _ _ F => F <> 0 | PLorentz _ _ F => F <> 0 | PMixed _ _ F _ => F <> 0 | PTwoSided _ _ Fl Fr _ _ => Fl <> 0 /\ Fr <> 0
  end.
(** the number of coefficients of a background *)
Definition coefficients (b : bgtype) : nat :=
  match b with NoBg => 0 | ConstantBg => 1 | LinearBg => 2 | QuadraticBg => 3 | CubicBg => 4 end.
