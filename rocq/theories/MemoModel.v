(** Model of [memoize] and [_make_hashable], hexrd/core/utils/decorators.py. *)
From Verif Require Import Prelude.
From Coq Require Import String.
Open Scope Z_scope.

(** ** The cache, decorators.py:40-95.
    [A] is the type of whole calls (args and kwargs together), [key] is
    [_make_hashable(list(args) + sorted(kwargs.items()))], which may raise TypeError;
    [func] is the wrapped function; it may raise.  It is assumed not to
    touch the cache itself. *)
Section Cache.
  Context {A K V : Type}.
  Variable K_eq : forall a b : K, {a = b} + {a <> b}.
  Variable key : A -> result K.
  Variable func : A -> result V.

  (** The OrderedDict, leftmost (least recently used) first, and the nonlocals. *)
  Record mstate := { cache : list (K * V); hits : Z; misses : Z; maxsize : Z }.

  Definition mstate0 (m : Z) : mstate := {| cache := []; hits := 0; misses := 0; maxsize := m |}.

  Fixpoint lookup (k : K) (c : list (K * V)) : option V :=
    match c with
    | [] => None
    | (k', v) :: t => if K_eq k k' then Some v else lookup k t
    end.

  Definition remove_key (k : K) (c : list (K * V)) : list (K * V) :=
    filter (fun p => if K_eq k (fst p) then false else true) c.

  (** [while len(cache) > m (resp. >= m): cache.popitem(last=False)], decorators.py:58-60
      and 73-75.  [popitem] on an empty OrderedDict raises KeyError. *)
  Fixpoint evict (too_big : Z -> bool) (c : list (K * V)) : list (K * V) * option exn :=
    if too_big (Z.of_nat (List.length c)) then
      match c with
      | [] => ([], Some KeyError)
      | _ :: t => evict too_big t
      end
    else (c, None).

  (** [wrapped], decorators.py:65-95.  The result of the call and the new state. *)
  Definition call (s : mstate) (a : A) : result V * mstate :=
    match key a with
    | Err e => (Err e, s)
    | Ok k =>
        match lookup k (cache s) with
        | Some v =>                                             (* 88-93 *)
            (Ok v, {| cache := remove_key k (cache s) ++ [(k, v)];
                      hits := hits s + 1; misses := misses s; maxsize := maxsize s |})
        | None =>                                               (* 71-87 *)
            let (c', e) := evict (fun n => maxsize s <=? n) (cache s) in
            let s' := {| cache := c'; hits := hits s; misses := misses s; maxsize := maxsize s |} in
            match e with
            | Some e => (Err e, s')
            | None =>
                match func a with
                | Err e => (Err e, s')
                | Ok v => (Ok v, {| cache := c' ++ [(k, v)]; hits := hits s;
                                    misses := misses s + 1; maxsize := maxsize s |})
                end
            end
        end
    end.

  (** [set_cache_maxsize], decorators.py:53-60. *)
  Definition set_maxsize (s : mstate) (m : Z) : option exn * mstate :=
    let (c', e) := evict (fun n => m <? n) (cache s) in
    (e, {| cache := c'; hits := hits s; misses := misses s; maxsize := m |}).

  Inductive mop := Call (a : A) | SetMax (m : Z).

  Definition mstep (s : mstate) (o : mop) : mstate :=
    match o with Call a => snd (call s a) | SetMax m => snd (set_maxsize s m) end.

  Definition mrun (s : mstate) (h : list mop) : mstate := fold_left mstep h s.
End Cache.
Arguments mstate : clear implicits.
Arguments mop : clear implicits.

(** ** Concurrent calls: [wrapped] takes no lock, so another thread may run
    between any two operations on the shared cache (decorators.py:66-95). *)
Section Threads.
  Context {A K V : Type}.
  Variable K_eq : forall a b : K, {a = b} + {a <> b}.
  Variable key : A -> K.
  Variable func : A -> V.
  Variable maxs : Z.

  Inductive pc :=
  | Check (a : A)            (* about to evaluate [key not in cache] *)
  | Evict (a : A)            (* about to test [len(cache) >= maxsize] *)
  | Compute (a : A)          (* about to call func *)
  | Store (a : A) (v : V)    (* about to do cache[key] = output *)
  | Hit (a : A)              (* about to do cache.move_to_end(key) *)
  | Fetch (a : A)            (* about to do return cache[key] *)
  | Done (a : A) (r : result V).

  (** dict assignment: an existing key keeps its position *)
  Fixpoint assign (k : K) (v : V) (c : list (K * V)) : list (K * V) :=
    match c with
    | [] => [(k, v)]
    | (k', v') :: t => if K_eq k k' then (k', v) :: t else (k', v') :: assign k v t
    end.

  Definition tstep (p : pc) (c : list (K * V)) : pc * list (K * V) :=
    match p with
    | Check a => match lookup K_eq (key a) c with
                 | Some _ => (Hit a, c) | None => (Evict a, c) end
    | Evict a => if maxs <=? Z.of_nat (List.length c)
                 then match c with
                      | [] => (Done a (Err KeyError), c)
                      | _ :: t => (Evict a, t)
                      end
                 else (Compute a, c)
    | Compute a => (Store a (func a), c)
    | Store a v => (Fetch a, assign (key a) v c)
    | Hit a => match lookup K_eq (key a) c with
               | Some v => (Fetch a, remove_key K_eq (key a) c ++ [(key a, v)])
               | None => (Done a (Err KeyError), c)
               end
    | Fetch a => match lookup K_eq (key a) c with
                 | Some v => (Done a (Ok v), c)
                 | None => (Done a (Err KeyError), c)
                 end
    | Done a r => (Done a r, c)
    end.

  (** A schedule is a list of thread numbers. *)
  Definition sched_step (st : list pc * list (K * V)) (i : nat) : list pc * list (K * V) :=
    let (ps, c) := st in
    match nth_error ps i with
    | None => st
    | Some p => let (p', c') := tstep p c in (set_nth i p' ps, c')
    end.

  Definition trun (calls : list A) (schedule : list nat) : list pc * list (K * V) :=
    fold_left sched_step schedule (map Check calls, []).
End Threads.
Arguments pc : clear implicits.

(** ** Keys, decorators.py:66-69 and 104-124.
    Numbers that Python compares equal ([1 == 1.0 == True]) hash equal; a float is
    given here by the integer it equals, or kept as an opaque bit pattern when it is not an
    integer. [PObj i] is any other hashable object compared by identity (e.g. a
    distortion object). *)
Inductive pyval :=
| PNone
| PBool (b : bool)
| PInt (z : Z)
| PFloatInt (z : Z)              (* a float equal to the integer z *)
| PFloatBits (bits : Z)          (* any other float *)
| PStr (s : string)
| PArr (dtype : string) (shape : list Z) (bytes : list Z)
| PList (l : list pyval)
| PTuple (l : list pyval)
| PDict (l : list (string * pyval))
| PObj (id : Z).

Inductive pykey :=
| KNone | KNum (z : Z) | KFloat (bits : Z) | KStr (s : string)
| KObj (id : Z) | KTup (l : list pykey).

(** sorted(kwargs.items()): names are distinct, so only names are compared. *)
Fixpoint insert_item {X} (p : string * X) (l : list (string * X)) : list (string * X) :=
  match l with
  | [] => [p]
  | q :: t => if String.leb (fst p) (fst q) then p :: l else q :: insert_item p t
  end.
Fixpoint sort_items {X} (l : list (string * X)) : list (string * X) :=
  match l with [] => [] | p :: t => insert_item p (sort_items t) end.

Section Keys.
  Variable hash : list Z -> string.   (* xxhash.xxh3_128_hexdigest of the bytes *)

  (** [convert], decorators.py:110-122.  A dict converts as the tuple of its
      sorted (name, value) items, each converted as a tuple. *)
  Fixpoint convert (v : pyval) : pykey :=
    match v with
    | PNone => KNone
    | PBool b => KNum (if b then 1 else 0)
    | PInt z => KNum z
    | PFloatInt z => KNum z
    | PFloatBits b => KFloat b
    | PStr s => KStr s
    | PArr _ shape bytes => KTup [KStr "__type_np.ndarray"; KTup (map KNum shape); KStr (hash bytes)]
    | PList l => KTup (map convert l)
    | PTuple l => KTup (map convert l)
    | PDict l => KTup (map (fun p => KTup [KStr (fst p); snd p])
                           (sort_items (map (fun p => (fst p, convert (snd p))) l)))
    | PObj i => KObj i
    end.

  (** [all_args = list(args) + sorted(kwargs.items()); key = _make_hashable(all_args)] *)
  Definition make_key (args : list pyval) (kwargs : list (string * pyval)) : pykey :=
    KTup (map convert args ++
          map (fun p => KTup [KStr (fst p); convert (snd p)]) (sort_items kwargs)).
End Keys.

(** ** Results that are (or contain) arrays, decorators.py:79-86 and the
    memoised [_pixel_angles] etc., hexrd/core/instrument/planar_detector.py:224-241.
    An array lives at a location with contents and a writeable flag. *)
Inductive output := OArr (loc : nat) | OTup (locs : list nat) | OOther (z : Z).
Record cell := { content : Z; writeable : bool }.
Definition aheap := list cell.

(** in-place write by a caller: ValueError when read-only *)
Definition poke (h : aheap) (loc : nat) (x : Z) : option exn * aheap :=
  match nth_error h loc with
  | None => (Some IndexError, h)
  | Some c => if writeable c then (None, set_nth loc {| content := x; writeable := true |} h)
              else (Some ValueError, h)
  end.

(** what the decorator does to a fresh output: only a bare ndarray is frozen *)
Definition freeze (h : aheap) (o : output) : aheap :=
  match o with
  | OArr l => match nth_error h l with
              | Some c => set_nth l {| content := content c; writeable := false |} h
              | None => h
              end
  | _ => h
  end.

(** ** Argument objects with mutable state: the key uses identity only
    (decorators.py:122 [return x]; distortion classes define neither
    [__eq__] nor [__hash__], hexrd/core/distortion/distortionabc.py:1-18, and calibration
    assigns [detector.distortion.params], lmfit_param_handling.py:392).
    [obj]: identity and current parameters of the distortion object. *)
Section MutableArg.
  Context {P V : Type}.
  Variable angles : P -> V.              (* the real computation for given parameters *)

  Inductive iop := SetParams (id : Z) (p : P) | Pixel (id : Z).

  (** memory of the objects: id -> params *)
  Definition imem := Z -> P.
  Definition iupd (m : imem) (i : Z) (p : P) : imem := fun j => if j =? i then p else m j.

  Definition istep (s : imem * mstate Z V) (o : iop) : (imem * mstate Z V) * option (result V) :=
    let (m, c) := s in
    match o with
    | SetParams i p => ((iupd m i p, c), None)
    | Pixel i => let (r, c') := call Z.eq_dec (fun i => Ok i) (fun i => Ok (angles (m i))) c i in
                 ((m, c'), Some r)
    end.

  Fixpoint irun (s : imem * mstate Z V) (h : list iop) : (imem * mstate Z V) * list (result V) :=
    match h with
    | [] => (s, [])
    | o :: t => let (s', r) := istep s o in
                let (s'', rs) := irun s' t in
                (s'', match r with Some r => r :: rs | None => rs end)
    end.
End MutableArg.
