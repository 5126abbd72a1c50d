(** Specification vocabulary for C24, C25, C61. *)
From Coq Require Import String.
From Verif Require Import Prelude H5Model.
Local Notation length := List.length.

(** What a stored value reads back as: None entries are dropped, one-element 1-d (and 0-d) arrays become scalars,
    unicode arrays become their printed text. *)
Definition norm_leaf (array_str : list string -> string) (l : leaf) : option leaf :=
  match l with
  | LNone => None
  | LArr [] (z :: _) | LArr [1] (z :: _) => Some (LNum z)
  | LArr [] [] => Some (LArr [1] [])
  | LUArr l => Some (LStr (array_str l))
  | l => Some l
  end.
Fixpoint norm (array_str : list string -> string) (t : tree) : option tree :=
  match t with
  | TLeaf l => option_map TLeaf (norm_leaf array_str l)
  | TDict d =>
      Some (TDict ((fix go (d : list (string * tree)) :=
        match d with
        | [] => []
        | (k, x) :: r => match norm array_str x with Some y => (k, y) :: go r | None => go r end
        end) d))
  end.

(** [shows h id d ids]: dict object [id] of heap [h] is the nested dictionary [d]; it and the dictionaries nested in
    it are the distinct objects [ids]. *)
Inductive shows (h : heap) : nat -> list (string * tree) -> list nat -> Prop :=
| shows_dict id o d ids : nth_error h id = Some o -> shows_entries h o d ids -> ~ In id ids -> shows h id d (id :: ids)
with shows_entries (h : heap) : obj -> list (string * tree) -> list nat -> Prop :=
| shows_nil : shows_entries h [] [] []
| shows_leaf k l o d ids : shows_entries h o d ids -> shows_entries h ((k, HLeaf l) :: o) ((k, TLeaf l) :: d) ids
| shows_ref k id o sub d ids1 ids2 : shows h id sub ids1 -> shows_entries h o d ids2 ->
    (forall i, In i ids1 -> ~ In i ids2) -> shows_entries h ((k, HRef id) :: o) ((k, TDict sub) :: d) (ids1 ++ ids2).

(** Number of entries of all objects. *)
Definition entries (h : heap) : nat := list_sum (map (@length _) h).
(** References point to objects. *)
Definition no_dangling (h : heap) : Prop := forall o k id, In o h -> In (k, HRef id) o -> id < length h.

(** The dictionary with every nested dictionary emptied. *)
Definition hollow (d : list (string * tree)) : list (string * tree) :=
  map (fun kt => (fst kt, match snd kt with TDict _ => TDict [] | t => t end)) d.
