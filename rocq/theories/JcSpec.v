(** What a card says: for each key the value of the last line that has it *)
From Coq Require Import Reals String List.
From Verif Require Import Prelude.
Import ListNotations.
Local Open Scope string_scope.
Local Open Scope list_scope.

Definition last_under (key : string) (lines : list (list string)) : option (list string) :=
  find (fun l => match l with k :: _ => String.eqb k key | [] => false end) (rev lines).
(** the numbers of a cell that a crystal system leaves free: the six parameters from those given *)
Definition cell_by (sym : string) (a b c al be ga : R) : list R :=
  (if String.eqb sym "cubic" then [a; a; a; 90; 90; 90]
   else if String.eqb sym "manual" then [a; a; a; 90; 90; 90]
   else if String.eqb sym "hexagonal" then [a; a; c; 90; 90; 120]
   else if String.eqb sym "trigonal" then [a; a; c; 90; 90; 120]
   else if String.eqb sym "tetragonal" then [a; a; c; 90; 90; 90]
   else if String.eqb sym "orthorhombic" then [a; b; c; 90; 90; 90]
   else if String.eqb sym "monoclinic" then [a; b; c; 90; be; 90]
   else [a; b; c; al; be; ga])%R.
(** determinant of the metric of a cell: the square of its volume *)
Definition gram (a b c ca cb cg : R) : R :=
  (let g11 := a * a in let g22 := b * b in let g33 := c * c in let g12 := a * b * cg in let g13 := a * c * cb in let g23 := b * c * ca in
   g11 * (g22 * g33 - g23 * g23) - g12 * (g12 * g33 - g23 * g13) + g13 * (g12 * g23 - g22 * g13))%R.
