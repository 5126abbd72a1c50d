(** Model of the redirection of old module names: hexrd/module_map.py, hexrd/file_table.tsv, and the way Python's import system uses it.
    A dotted module name is the list of its parts, a path the list of its parts.  What executing a file puts into a module is a parameter of the model; that executing
    it imports further modules is not modelled, nor that importlib binds an imported submodule as an attribute of its package.  Values are natural numbers. *)
From Coq Require Import String Ascii.
From Verif Require Import Prelude.
Local Open Scope string_scope.

Definition name := list string.
Definition name_eqb (a b : name) : bool := if list_eq_dec string_dec a b then true else false.
Definition mem {A} (eqb : A -> A -> bool) (x : A) (l : list A) : bool := existsb (eqb x) l.
Fixpoint assoc {A B} (eqb : A -> A -> bool) (x : A) (l : list (A * B)) : option B :=
  match l with [] => None | (k, v) :: t => if eqb x k then Some v else assoc eqb x t end.

(** ** paths: pathlib's [suffix] and [with_suffix("")] of the last part *)
Fixpoint rfind_dot (s : string) (i : nat) (best : option nat) : option nat :=
  match s with EmptyString => best | String c t => rfind_dot t (S i) (if Ascii.eqb c "." then Some i else best) end.
Definition dot_at (s : string) : option nat :=
  match rfind_dot s 0 None with Some i => if (0 <? i)%nat && (i <? String.length s - 1)%nat then Some i else None | None => None end.
Definition suffix (s : string) : string := match dot_at s with Some i => substring i (String.length s - i) s | None => "" end.
Definition stem (s : string) : string := match dot_at s with Some i => substring 0 i s | None => s end.
Definition path_suffix (p : list string) : string := suffix (last p "").
Definition python_suffix (s : string) : bool := (s =? ".py")%string || (s =? "")%string.
(** module_map.py:12-26 *)
Definition path_to_module (p : list string) : result name :=
  if negb (python_suffix (path_suffix p)) then Err ValueError
  else let p := (removelast p ++ [stem (last p "")])%list in
       Ok (if (last p "" =? "__init__")%string then removelast p else p).

(** ** the table, lines 29-39: a dictionary from old to lists of new paths, in order of first appearance *)
Definition row := (list string * list string)%type.
Fixpoint add_row (m : list (list string * list (list string))) (r : row) : list (list string * list (list string)) :=
  match m with
  | [] => [(fst r, [snd r])]
  | (k, vs) :: t => if name_eqb k (fst r) then (k, (vs ++ [snd r])%list) :: t else (k, vs) :: add_row t r
  end.
Definition file_map (rows : list row) : list (list string * list (list string)) := fold_left add_row rows [].
(** lines 44 and 137 *)
Definition relevant (p : list string) : bool := python_suffix (path_suffix p) && mem String.eqb "hexrd" p.
(** lines 47-52 *)
Definition selected (news : list (list string)) : list string :=
  match find (mem String.eqb "core") news with Some p => p | None => hd [] news end.
(** lines 41-56; [d[k] = v] keeps the place of an existing key *)
Fixpoint set_key {A} (m : list (name * A)) (k : name) (v : A) : list (name * A) :=
  match m with [] => [(k, v)] | (k', v') :: t => if name_eqb k' k then (k, v) :: t else (k', v') :: set_key t k v end.
Fixpoint build_map (fm : list (list string * list (list string))) (acc : list (name * name)) : result (list (name * name)) :=
  match fm with
  | [] => Ok acc
  | (old, news) :: t =>
      if relevant old then do o <- path_to_module old; do n <- path_to_module (selected news); build_map t (set_key acc o n)
      else build_map t acc
  end.
Definition module_map (rows : list row) : result (list (name * name)) := build_map (file_map rows) [].

(** ** loaded modules *)
Record module := Mod { m_path : option (list string) (* __path__ *); m_all : option (list string) (* __all__ *); m_dict : list (string * nat) }.
(** [sys.modules] and the module objects *)
Record state := St { sys : list (name * nat); heap : list module }.
Inductive outcome := Loaded (i : nat) | Fails | NoFuel.
Definition no_module := Mod None None [].
Definition obj (s : state) (i : nat) : module := nth i (heap s) no_module.
Fixpoint update {A} (l : list A) (i : nat) (x : A) : list A :=
  match l, i with [], _ => [] | _ :: t, O => x :: t | h :: t, S j => h :: update t j x end.
Definition set_obj (s : state) (i : nat) (m : module) : state := St (sys s) (update (heap s) i m).
Definition bind_name (s : state) (n : name) (i : nat) : state := St ((n, i) :: sys s) (heap s).

Section Import.
(** the table, the map made from it, and the files: what loading the part [c] found in the directory [d] gives *)
Variables (rows : list row) (mmap : list (name * name)) (files : string -> string -> option module).

(** find_spec, lines 107-122: where the alias finder sends a name *)
Definition alias (n : name) : option name :=
  match assoc name_eqb n mmap with Some t => if name_eqb n t then None else Some t | None => None end.
(** lines 135-156: the other new modules of this and of deeper old names *)
Fixpoint is_prefix (a b : name) : bool :=
  match a, b with [], _ => true | x :: a', y :: b' => (x =? y)%string && is_prefix a' b' | _ :: _, [] => false end.
Definition candidates_of (n target : name) (e : list string * list (list string)) : list name :=
  if relevant (fst e) then
    match path_to_module (fst e) with
    | Ok o => if is_prefix n o then flat_map (fun p => match path_to_module p with Ok c => if name_eqb c target then [] else [c] | Err _ => [] end) (snd e) else []
    | Err _ => []
    end
  else [].
Fixpoint dedup (seen l : list name) : list name :=
  match l with [] => [] | x :: t => if mem name_eqb x seen then dedup seen t else x :: dedup (x :: seen) t end.
Definition candidates (n target : name) : list name := dedup [] (flat_map (candidates_of n target) (file_map rows)).

(** lines 163-193 *)
Definition own_names : list string := ["__name__"; "__file__"; "__package__"; "__path__"; "__loader__"; "__spec__"].
Fixpoint append_new (base extra : list string) : list string :=
  match extra with [] => base | x :: t => append_new (if mem String.eqb x base then base else (base ++ [x])%list) t end.
Fixpoint copy_names (base extra : list (string * nat)) : list (string * nat) :=
  match extra with
  | [] => base
  | (k, v) :: t => copy_names (if mem String.eqb k own_names then base else match assoc String.eqb k base with Some _ => base | None => (base ++ [(k, v)])%list end) t
  end.
Definition merge (base cand : module) : module :=
  Mod (match m_path base, m_path cand with Some b, Some c => Some (append_new b c) | b, _ => b end)
      (match m_all cand with
       | None | Some [] => m_all base
       | Some c => match m_all base with None => Some c | Some b => Some (append_new b c) end
       end)
      (copy_names (m_dict base) (m_dict cand)).

Definition parent (n : name) : name := removelast n.
(** the path based finder: the first directory that has the part *)
Fixpoint find_file (dirs : list string) (c : string) : option module :=
  match dirs with [] => None | d :: t => match files d c with Some m => Some m | None => find_file t c end end.
(** loading a file: a new module object *)
Definition load_file (s : state) (n : name) (dirs : list string) : state * outcome :=
  match find_file dirs (last n "") with
  | Some m => (St ((n, List.length (heap s)) :: sys s) (heap s ++ [m])%list, Loaded (List.length (heap s)))
  | None => (s, Fails)
  end.
(** lines 157-193: a candidate that cannot be imported is skipped *)
Fixpoint merge_all (imp : state -> name -> state * outcome) (s : state) (base : nat) (cands : list name) : state :=
  match cands with
  | [] => s
  | c :: t =>
      let (s, r) := imp s c in
      match r with Loaded j => merge_all imp (set_obj s base (merge (obj s base) (obj s j))) base t | _ => merge_all imp s base t end
  end.
(** lines 124-196 *)
Definition load_module (imp : state -> name -> state * outcome) (s : state) (n target : name) : state * outcome :=
  let (s, r) := imp s target in
  match r with
  | Loaded b => (bind_name (merge_all imp s b (candidates n target)) n b, Loaded b)
  | r => (s, r)
  end.
(** importlib: a name in [sys.modules] is returned; otherwise its parent is imported, must be a package, and the finders are asked, the alias finder (line 201) first *)
Fixpoint import_module (fuel : nat) (s : state) (n : name) : state * outcome :=
  match assoc name_eqb n (sys s) with
  | Some i => (s, Loaded i)
  | None =>
      match fuel with
      | O => (s, NoFuel)
      | S f =>
          if (List.length n <=? 1)%nat then (s, Fails)
          else let (s, r) := import_module f s (parent n) in
               match r with
               | Loaded i =>
                   match assoc name_eqb n (sys s) with
                   | Some j => (s, Loaded j)
                   | None => match m_path (obj s i) with
                             | None => (s, Fails)
                             | Some dirs => match alias n with Some t => load_module (import_module f) s n t | None => load_file s n dirs end
                             end
                   end
               | r => (s, r)
               end
      end
  end.
End Import.

(** the import history of a program *)
Inductive history (rows : list row) (mmap : list (name * name)) (files : string -> string -> option module) (s0 : state) : state -> Prop :=
| h_start : history rows mmap files s0 s0
| h_import : forall s n fuel, history rows mmap files s0 s -> history rows mmap files s0 (fst (import_module rows mmap files fuel s n)).
