(** Vocabulary for the redirection of old module names. *)
From Coq Require Import String.
From Verif Require Import Prelude ModModel.
Local Open Scope string_scope.

Definition module_at (s : state) (n : name) (i : nat) : Prop := assoc name_eqb n (sys s) = Some i.
Definition attr (m : module) (k : string) : option nat := assoc String.eqb k (m_dict m).
(** m' is m with more directories to search and more attributes, what was there being as before *)
Definition grown (m m' : module) : Prop :=
  (forall k v, attr m k = Some v -> attr m' k = Some v) /\
  match m_path m with None => m_path m' = None | Some d => exists e, m_path m' = Some (d ++ e)%list end.
(** nothing that was imported is lost or replaced *)
Definition extends (s s' : state) : Prop :=
  (forall n i, module_at s n i -> module_at s' n i) /\ (List.length (heap s) <= List.length (heap s'))%nat /\
  forall i, (i < List.length (heap s))%nat -> grown (obj s i) (obj s' i).

Section Disk.
Variables (mmap : list (name * name)) (files : string -> string -> option module) (root : module).
(** the module that the files give for a new name *)
Inductive on_disk : name -> module -> Prop :=
| od_root : on_disk ["hexrd"] root
| od_sub : forall p c pm dirs m, on_disk p pm -> m_path pm = Some dirs -> find_file files dirs c = Some m -> on_disk (p ++ [c])%list m.
(** neither the name nor a package it is in is an old name *)
Definition new_name (n : name) : Prop := forall p q, n = (p ++ q)%list -> alias mmap p = None.
(** names that can be imported, and the new module they stand for *)
Inductive stands_for : name -> name -> Prop :=
| sf_new : forall n m, new_name n -> on_disk n m -> stands_for n n
| sf_old : forall n t m p pm d, alias mmap n = Some t -> on_disk t m -> stands_for (removelast n) p -> on_disk p pm -> m_path pm = Some d -> stands_for n t.
End Disk.
(** the map never leads from an old name to an old name *)
Definition flat (rows : list row) (mmap : list (name * name)) : Prop :=
  forall n t, alias mmap n = Some t -> (1 < List.length n)%nat /\ new_name mmap t /\ forall c, In c (candidates rows n t) -> new_name mmap c.
(** a program starts with the package hexrd itself, and perhaps some old names bound to their new modules *)
Definition starts (mmap : list (name * name)) (files : string -> string -> option module) (root : module) (s : state) : Prop :=
  (exists i, module_at s ["hexrd"] i) /\ alias mmap ["hexrd"] = None /\
  (forall n i, module_at s n i -> (i < List.length (heap s))%nat) /\
  (forall n i m, new_name mmap n -> on_disk files root n m -> module_at s n i -> grown m (obj s i)) /\
  (forall n t i, alias mmap n = Some t -> module_at s n i -> module_at s t i).
(** the value a name gets from the first of the modules cs that has it *)
Fixpoint first_value (s : state) (k : string) (cs : list name) : option nat :=
  match cs with
  | [] => None
  | c :: t => match assoc name_eqb c (sys s) with
              | Some j => match attr (obj s j) k with Some v => Some v | None => first_value s k t end
              | None => first_value s k t
              end
  end.
