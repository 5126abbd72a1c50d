(** Specification vocabulary for C21-C23, C60. *)
From Coq Require Import String.
From Verif Require Import Prelude ConfigModel.
Local Open Scope string_scope.

(** The value at a path of nested dictionaries. *)
Fixpoint at_path (v : yv) (p : list string) : option yv :=
  match p with
  | [] => Some v
  | k :: r => match v with YDict d => match dget k d with Some x => at_path x r | None => None end | _ => None end
  end.

Definition prefix (p q : list string) : Prop := exists r, q = (p ++ r)%list.
(** Neither key lies inside the other. *)
Definition unrelated (p q : list string) : Prop := ~ prefix p q /\ ~ prefix q p.

Definition is_dict (v : yv) : Prop := exists d, v = YDict d.
(** Every block above the last component of [p] is present. *)
Definition blocks_exist (cfg : yv) (p : list string) : Prop :=
  forall q k r, p = (q ++ k :: r)%list -> exists v, at_path cfg q = Some v /\ is_dict v.

(** Some block above the last component is absent or null, and those above it are present. *)
Definition block_missing (cfg : yv) (p : list string) : Prop :=
  exists q k r, p = (q ++ k :: r)%list /\ r <> [] /\ (exists v, at_path cfg q = Some v /\ is_dict v) /\
    (at_path cfg (q ++ [k]) = None \/ at_path cfg (q ++ [k]) = Some YNone).

(** Python dictionaries have no repeated keys. *)
Inductive wf : yv -> Prop :=
| wf_leaf v : ~ is_dict v -> wf v
| wf_dict d : NoDup (map fst d) -> (forall k v, In (k, v) d -> wf v) -> wf (YDict d).

(** A value that is neither null nor a block. *)
Definition is_leaf (v : yv) : Prop := v <> YNone /\ ~ is_dict v.

(** No non-null leaf of [v] lies strictly above [p]. *)
Definition open_to (v : yv) (p : list string) : Prop :=
  forall q k r, p = (q ++ k :: r)%list -> forall x, at_path v q = Some x -> ~ is_leaf x.

(** [b] has a non-empty block where [a] has a plain value. *)
Definition conflict (a b : yv) : Prop :=
  exists p kv d x, at_path b p = Some (YDict (kv :: d)) /\ at_path a p = Some x /\ is_leaf x.

(** The last value assigned to [key] in a history of assignments. *)
Fixpoint last_assigned (key : string) (l : list (string * yv)) : option yv :=
  match l with
  | [] => None
  | (k, v) :: r => match last_assigned key r with Some w => Some w | None => if String.eqb k key then Some v else None end
  end.
