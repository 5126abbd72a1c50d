(** What a package is asked to remember: for every layer and field the value last assigned under the name layer_field, which for the
    diameter of a pinhole may have been assigned as a radius *)
From Coq Require Import String List QArith.
From Verif Require Import Prelude PhyModel.
Import ListNotations.
Local Open Scope string_scope.
Local Open Scope list_scope.

Definition initial (n a : string) : pval :=
  if String.eqb a "name" then PStr n else if String.eqb a "material" then PStr "" else if String.eqb a "formula" then PNone
  else if String.eqb a "geometry" then PStr "" else PNum 0.
(** the value of field [a] of layer [n] after an assignment, if it was [old] before *)
Definition assigned (k : kind) (n a : string) (old : pval) (kv : string * pval) : pval :=
  if String.eqb (fst kv) (n ++ "_" ++ a)%string then snd kv
  else match k, snd kv with
       | HED, PNum r => if andb (String.eqb (fst kv) "pinhole_radius") (String.eqb (n ++ "_" ++ a)%string "pinhole_diameter") then PNum (2 * r) else old
       | _, _ => old
       end.
Definition last_value (k : kind) (n a : string) (history : list (string * pval)) : pval :=
  fold_left (assigned k n a) history (initial n a).
(** assignments, each of which may fail and be caught *)
Definition run (p : package) (history : list (string * pval)) : package := fold_left (fun p kv => fst (set_attr p (fst kv) (snd kv))) history p.
Definition total (l : list Q) : Q := fold_right Qplus 0%Q l.
