(** Model of the configuration access layer: core/config/{config,utils,__init__,root}.py. *)
From Coq Require Import String Ascii QArith.
From Verif Require Import Prelude.
Local Open Scope string_scope.
Local Notation length := List.length.

(** Values of a parsed YAML document.  Dictionaries are association lists in insertion order; keys are strings
    (YAML also allows other keys).  YAML aliases (one object at two places) are not modelled. *)
Inductive yv :=
| YNone | YBool (b : bool) | YInt (z : Z) | YFloat (q : Q) | YStr (s : string)
| YList (l : list yv) | YDict (d : list (string * yv)).

(** dict.get and item assignment. *)
Fixpoint dget (k : string) (d : list (string * yv)) : option yv :=
  match d with
  | [] => None
  | (k', v) :: r => if String.eqb k k' then Some v else dget k r
  end.
Fixpoint dset (k : string) (v : yv) (d : list (string * yv)) : list (string * yv) :=
  match d with
  | [] => [(k, v)]
  | (k', w) :: r => if String.eqb k k' then (k', v) :: r else (k', w) :: dset k v r
  end.

(** Python [==]: numbers compare by value across bool/int/float, dicts ignore order. *)
Definition num_of (v : yv) : option Q :=
  match v with
  | YBool b => Some (if b then 1 else 0)%Q
  | YInt z => Some (inject_Z z)
  | YFloat q => Some q
  | _ => None
  end.
Fixpoint py_eq (a b : yv) {struct a} : bool :=
  match a, b with
  | YNone, YNone => true
  | YStr s, YStr t => String.eqb s t
  | YList l, YList m =>
      (fix go (l m : list yv) : bool :=
         match l, m with
         | [], [] => true
         | x :: l', y :: m' => py_eq x y && go l' m'
         | _, _ => false
         end) l m
  | YDict l, YDict m =>
      Nat.eqb (length l) (length m) &&
      (fix go (l : list (string * yv)) : bool :=
         match l with
         | [] => true
         | (k, v) :: l' => match dget k m with Some w => py_eq v w && go l' | None => false end
         end) l
  | _, _ => match num_of a, num_of b with Some x, Some y => Qeq_bool x y | _, _ => false end
  end.

(** str.split(':') *)
Fixpoint split_colon (s : string) : list string :=
  match s with
  | EmptyString => [""]
  | String c r =>
      if Ascii.eqb c ":"%char then "" :: split_colon r
      else match split_colon r with h :: t => String c h :: t | [] => [String c ""] end
  end.

(** config.py:34-50, [Config.get] on the split key ([default = None]: no default given).  A step into a value
    that is not a dict is an AttributeError ([.get]); the last access [temp[item]] is a TypeError. *)
Fixpoint cfg_get_path (cfg : yv) (path : list string) (default : option yv) : result yv :=
  match path with
  | [] => Err KeyError
  | [item] =>
      match cfg with
      | YDict d =>
          match dget item d with
          | Some v => Ok v
          | None => match default with Some x => Ok x | None => Err RuntimeError end
          end
      | _ => Err TypeError
      end
  | arg :: r =>
      match cfg with
      | YDict d =>
          let temp := match dget arg d with None | Some YNone => YDict [] | Some x => x end in
          cfg_get_path temp r default
      | _ => Err AttributeError
      end
  end.
Definition cfg_get (cfg : yv) (key : string) (default : option yv) : result yv := cfg_get_path cfg (split_colon key) default.

(** config.py:52-62, [Config.set]: the new tree and whether the dirty flag was raised.  The dict made for a
    missing or null block is not stored in its parent. *)
Fixpoint cfg_set_path (cfg : yv) (path : list string) (val : yv) : result (yv * bool) :=
  match path with
  | [] => Err KeyError
  | [item] =>
      match cfg with
      | YDict d =>
          match dget item d with
          | Some w => if py_eq w val then Ok (cfg, false) else Ok (YDict (dset item val d), true)
          | None => Ok (YDict (dset item val d), true)
          end
      | _ => Err AttributeError
      end
  | arg :: r =>
      match cfg with
      | YDict d =>
          match dget arg d with
          | None | Some YNone => do t <- cfg_set_path (YDict []) r val; Ok (cfg, snd t)
          | Some x => do t <- cfg_set_path x r val; Ok (YDict (dset arg (fst t) d), snd t)
          end
      | _ => Err AttributeError
      end
  end.
Definition cfg_set (cfg : yv) (key : string) (val : yv) : result (yv * bool) := cfg_set_path cfg (split_colon key) val.

(** A history of [set] calls on one Config object: tree and dirty flag (exceptions leave the object as is). *)
Fixpoint cfg_sets (st : yv * bool) (l : list (string * yv)) : yv * bool :=
  match l with
  | [] => st
  | (k, v) :: r =>
      cfg_sets (match cfg_set (fst st) k v with Ok (c, b) => (c, orb (snd st) b) | Err _ => st end) r
  end.

(** utils.py:28-47, [merge_dicts] (the deep copy makes the in-place update of [a] invisible to the caller). *)
Fixpoint merge (a b : yv) {struct b} : result yv :=
  match b with
  | YDict items =>
      (fix go (a : yv) (items : list (string * yv)) : result yv :=
         match items with
         | [] => Ok a
         | (k, v) :: r =>
             match a with
             | YDict da =>
                 match v with
                 | YDict _ =>
                     let ak := match dget k da with None | Some YNone => YDict [] | Some x => x end in
                     do sub <- merge ak v; go (YDict (dset k sub da)) r
                 | YNone =>
                     match dget k da with
                     | None | Some YNone => go (YDict (dset k YNone da)) r
                     | Some _ => go a r
                     end
                 | _ => go (YDict (dset k v da)) r
                 end
             | _ => Err AttributeError
             end
         end) a items
  | _ => Err AttributeError
  end.

(** __init__.py:16-40, [open]: the sections from the documents of the file ([prev] = [res[-1]]). *)
Fixpoint merge_docs (prev : yv) (docs : list yv) : result (list yv) :=
  match docs with
  | [] => Ok []
  | d :: r => do m <- merge prev d; do l <- merge_docs m r; Ok (m :: l)
  end.
Definition open_docs (docs : list yv) : result (list yv) :=
  match docs with
  | [] => Ok []
  | d :: r => do l <- merge_docs d r; Ok (d :: l)
  end.

(** __init__.py:43-50, [save]: the documents of the written file (key order and YAML syntax not modelled). *)
Definition save_docs (cfgs : list yv) : list yv :=
  if Nat.ltb 1 (length cfgs) then cfgs else [YList cfgs].

(** root.py:127-162, the [multiprocessing] getter for the value found in the configuration. *)
Definition is_str (s : string) (v : yv) : bool := match v with YStr t => String.eqb t s | _ => false end.
Definition int_of (v : yv) : option Z :=
  match v with YInt z => Some z | YBool b => Some (if b then 1 else 0)%Z | _ => None end.
Definition nprocs (ncpus : Z) (v : yv) : Z :=
  if is_str "all" v then ncpus
  else if is_str "half" v then let t := (ncpus / 2)%Z in if (t =? 0)%Z then 1%Z else t
  else match int_of v with
       | Some m =>
           if (m >=? 0)%Z then (if (m >? ncpus)%Z then ncpus else if (m =? 0)%Z then 1%Z else m)
           else let t := (ncpus + m)%Z in if (t <? 1)%Z then 1%Z else t
       | None => (ncpus - 1)%Z
       end.
Definition multiprocessing_get (ncpus : Z) (cfg : yv) : result Z :=
  do v <- cfg_get cfg "multiprocessing" (Some (YInt (-1))); Ok (nprocs ncpus v).

(** root.py:165-174, the setter. *)
Definition multiprocessing_set (ncpus : Z) (cfg val : yv) : result (yv * bool) :=
  if is_str "half" val || is_str "all" val || py_eq val (YInt (-1)) then cfg_set cfg "multiprocessing" val
  else match int_of val with
       | Some m => if ((0 <=? m) && (m <=? ncpus))%Z then cfg_set cfg "multiprocessing" (YInt m) else Err RuntimeError
       | None => Err RuntimeError
       end.
