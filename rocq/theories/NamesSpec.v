(** Specification vocabulary for parameter names and calibration picks. *)
From Coq Require Import String.
From Verif Require Import Prelude.
Local Open Scope string_scope.
Local Open Scope list_scope.

(** the new name is the old one, or the old one behind a number and an underscore *)
Definition renamed_from (show : nat -> string) (old new : string) : Prop :=
  new = old \/ exists i, 1 <= i /\ new = String.append (show i) (String.append "_" old).
(** same length and related element by element *)
Definition pointwise {A B} (R : A -> B -> Prop) (l : list A) (m : list B) : Prop := Forall2 R l m.
(** the picks of one reflection, in order *)
Definition picks_of {V} (h : list Z) (rows : list (list Z * V)) : list V :=
  flat_map (fun r : list Z * V => if list_eq_dec Z.eq_dec (fst r) h then [snd r] else []) rows.
