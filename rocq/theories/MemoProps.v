(** C03, C04, C51, C52, C53: the memoize decorator. *)
From Verif Require Import Prelude MemoModel MemoSpec MemoProofs.
From Coq Require Import String Permutation.
Open Scope Z_scope.

(** ** C03 *)
(** Whatever calls and resizes happened before, a call that returns a value
    returns the value of the function on some call made so far (possibly this one)
    that has the same key. *)
Theorem C03_memo_returns_function_values :
  forall (A K V : Type) (K_eq : forall a b : K, {a = b} + {a <> b})
         (key : A -> result K) (func : A -> result V) m (h : list (mop A)) a k v,
    key a = Ok k -> fst (call K_eq key func (mrun K_eq key func (mstate0 m) h) a) = Ok v ->
    exists b, In (Call b) (h ++ [Call a]) /\ key b = Ok k /\ func b = Ok v.
Proof. exact @memo_value. Qed.
Print Assumptions C03_memo_returns_function_values.

(** So where equal keys mean equal values, memoisation is invisible. *)
Theorem C03_memo_transparent :
  forall (A K V : Type) (K_eq : forall a b : K, {a = b} + {a <> b})
         (key : A -> result K) (func : A -> result V) m (h : list (mop A)) a v,
    (forall b c k, key b = Ok k -> key c = Ok k -> func b = func c) ->
    fst (call K_eq key func (mrun K_eq key func (mstate0 m) h) a) = Ok v -> func a = Ok v.
Proof. exact @memo_correct. Qed.
Print Assumptions C03_memo_transparent.

(** Bounded, one entry per key. *)
Theorem C03_memo_bounded :
  forall (A K V : Type) (K_eq : forall a b : K, {a = b} + {a <> b})
         (key : A -> result K) (func : A -> result V) m (h : list (mop A)),
    let s := mrun K_eq key func (mstate0 m) h in
    Z.of_nat (List.length (cache s)) <= Z.max 0 (maxsize s) /\ NoDup (map fst (cache s)).
Proof. exact @run_size. Qed.
Print Assumptions C03_memo_bounded.

(** Least-recently-used eviction: the cached keys are always the most recently
    used ones ([recency]: distinct keys in order of last use), in that order. *)
Theorem C03_memo_lru :
  forall (A K V : Type) (K_eq : forall a b : K, {a = b} + {a <> b})
         (key : A -> result K) (func : A -> result V) m (h : list (mop A)),
    exists evicted,
      recency K_eq (served K_eq key func (mstate0 m) h)
      = evicted ++ map fst (cache (mrun K_eq key func (mstate0 m) h)).
Proof. exact @run_lru. Qed.
Print Assumptions C03_memo_lru.

(** And with neither exceptions nor resizes exactly the last [m] of them. *)
Theorem C03_memo_keeps_m_most_recent :
  forall (A K V : Type) (K_eq : forall a b : K, {a = b} + {a <> b})
         (key : A -> result K) (func : A -> result V) m (h : list (mop A)),
    1 <= m -> all_calls_ok K_eq key func (mstate0 m) h ->
    Z.of_nat (List.length (cache (mrun K_eq key func (mstate0 m) h)))
    = Z.min m (Z.of_nat (List.length (recency K_eq (served K_eq key func (mstate0 m) h)))).
Proof. exact @run_exact. Qed.
Print Assumptions C03_memo_keeps_m_most_recent.

Theorem C03_memo_counters :
  forall (A K V : Type) (K_eq : forall a b : K, {a = b} + {a <> b})
         (key : A -> result K) (func : A -> result V) m (h : list (mop A)),
    hits (mrun K_eq key func (mstate0 m) h) + misses (mrun K_eq key func (mstate0 m) h)
    = Z.of_nat (List.length (served K_eq key func (mstate0 m) h)).
Proof. exact @run_counts. Qed.
Print Assumptions C03_memo_counters.

Theorem C03_exceptions_not_cached :
  forall (A K V : Type) (K_eq : forall a b : K, {a = b} + {a <> b})
         (key : A -> result K) (func : A -> result V) (s : mstate K V) a e,
    fst (call K_eq key func s a) = Err e ->
    forall k v, In (k, v) (cache (snd (call K_eq key func s a))) -> In (k, v) (cache s).
Proof. exact @exceptions_not_cached. Qed.
Print Assumptions C03_exceptions_not_cached.

(** Finding: maxsize = 0 does not disable the cache, it makes every call raise KeyError. *)
Theorem C03_zero_size_raises :
  forall (A K V : Type) (K_eq : forall a b : K, {a = b} + {a <> b})
         (key : A -> result K) (func : A -> result V) (h : list (mop A)) a k,
    key a = Ok k -> fst (call K_eq key func (mstate0 0) a) = Err KeyError.
Proof. exact @zero_size_raises. Qed.
Print Assumptions C03_zero_size_raises.

Example C03_ex :
  let f := fun x : Z => if x =? 7 then Err ValueError else Ok (x * x) in
  let h := [Call 1; Call 2; Call 1; Call 3; Call 7; Call 1] in
  let s := mrun Z.eq_dec (fun x => Ok x) f (mstate0 2) h in
  cache s = [(3, 9); (1, 1)] /\ served Z.eq_dec (fun x => Ok x) f (mstate0 2) h = [1; 2; 1; 3; 1] /\
  recency Z.eq_dec [1; 2; 1; 3; 1] = [2; 3; 1].
Proof. repeat split. Qed.

Example C03_ex_ok : all_calls_ok Z.eq_dec (fun x => Ok x) (fun x : Z => Ok (x * x)) (mstate0 2)
                      [Call 1; Call 2; Call 1; Call 3] /\
  map fst (cache (mrun Z.eq_dec (fun x => Ok x) (fun x : Z => Ok (x * x)) (mstate0 2)
                      [Call 1; Call 2; Call 1; Call 3])) = [1; 3].
Proof. repeat split. Qed.

(** ** C04 *)
(** Keyword order never matters. *)
Theorem C04_keyword_order_irrelevant :
  forall (hash : list Z -> string) args kw kw', Permutation kw kw' -> NoDup (map fst kw) ->
    make_key hash args kw = make_key hash args kw'.
Proof. exact keyword_order. Qed.
Print Assumptions C04_keyword_order_irrelevant.

(** Restricted to [plain] arguments (no list, dict, bool or float; arrays of one dtype; no string
    equal to the array marker) passed in the same positional/keyword split, and to a
    collision-free hash, equal keys mean equal arguments. *)
Theorem C04_keys_separate_plain_arguments_partial :
  forall (hash : list Z -> string), (forall b b', hash b = hash b' -> b = b') ->
  forall dt args args' kw kw',
    List.length args = List.length args' ->
    forallb (plain dt) args = true -> forallb (plain dt) args' = true ->
    forallb (fun p => plain dt (snd p)) kw = true -> forallb (fun p => plain dt (snd p)) kw' = true ->
    make_key hash args kw = make_key hash args' kw' -> args = args' /\ Permutation kw kw'.
Proof. exact make_key_inj. Qed.
Print Assumptions C04_keys_separate_plain_arguments_partial.

Example C04_ex : forallb (plain "f8") [PArr "f8" [2] [1;2]; PTuple [PInt 3; PNone]; PObj 4] = true.
Proof. reflexivity. Qed.

(** The unrestricted statement is false, whatever the hash function: dtype is ignored, list =
    tuple, positional pair = keyword argument, dict = list of pairs, 1 = True = 1.0. *)
Theorem C04_key_collisions_refuted :
  forall (hash : list Z -> string),
  (forall d1 d2 sh b, make_key hash [PArr d1 sh b] [] = make_key hash [PArr d2 sh b] []) /\
  (forall l, make_key hash [PList l] [] = make_key hash [PTuple l] []) /\
  (forall n v, make_key hash [PTuple [PStr n; v]] [] = make_key hash [] [(n, v)]) /\
  (forall n v, make_key hash [PDict [(n, v)]] [] = make_key hash [PList [PTuple [PStr n; v]]] []) /\
  (make_key hash [PInt 1] [] = make_key hash [PBool true] [] /\
   make_key hash [PInt 1] [] = make_key hash [PFloatInt 1] []).
Proof. exact key_conflations. Qed.
Print Assumptions C04_key_collisions_refuted.

(** ** C51: calls from several threads *)
Theorem C51_concurrent_values_correct :
  forall (A K V : Type) (K_eq : forall a b : K, {a = b} + {a <> b})
         (key : A -> K) (func : A -> V) (maxs : Z) (calls : list A) (schedule : list nat) a v,
    In (Done a (Ok v)) (fst (trun K_eq key func maxs calls schedule)) ->
    exists b, In b calls /\ key b = key a /\ func b = v.
Proof. exact @threads_values. Qed.
Print Assumptions C51_concurrent_values_correct.

(** No schedule raises if the cache can hold one entry per call. *)
Theorem C51_concurrent_no_error_with_room_partial :
  forall (A K V : Type) (K_eq : forall a b : K, {a = b} + {a <> b})
         (key : A -> K) (func : A -> V) (maxs : Z) (calls : list A) (schedule : list nat) a e,
    Z.of_nat (List.length calls) <= maxs ->
    ~ In (Done a (Err e)) (fst (trun K_eq key func maxs calls schedule)).
Proof. exact @threads_room. Qed.
Print Assumptions C51_concurrent_no_error_with_room_partial.

(** With the default size two, three concurrent calls can make one raise KeyError. *)
Theorem C51_concurrent_error_refuted :
  exists (calls : list Z) (schedule : list nat) a,
    In (Done a (Err KeyError)) (fst (trun Z.eq_dec (fun x => x) (fun x => x * x) 2 calls schedule)).
Proof. exact threads_refuted_lemma. Qed.
Print Assumptions C51_concurrent_error_refuted.

Example C51_ex : fst (trun Z.eq_dec (fun x => x) (fun x => x * x) 2 [5; 6]
                        [0;1;0;1;0;1;0;1;0;1]%nat) = [Done 5 (Ok 25); Done 6 (Ok 36)].
Proof. reflexivity. Qed.

(** ** C52: a cached array cannot be changed by its callers *)
Theorem C52_cached_array_protected :
  forall h l c (pokes : list (nat * Z)), nth_error h l = Some c ->
    option_map content
      (nth_error (fold_left (fun h p => snd (poke h (fst p) (snd p))) pokes (freeze h (OArr l))) l)
    = Some (content c).
Proof. exact memo_array_protected. Qed.
Print Assumptions C52_cached_array_protected.

(** Arrays inside a returned tuple (as in the cached pixel angles) are not protected. *)
Theorem C52_cached_tuple_refuted :
  exists h locs l c x, In l locs /\ nth_error h l = Some c /\
    option_map content (nth_error (snd (poke (freeze h (OTup locs)) l x)) l) <> Some (content c).
Proof. exact memo_tuple_unprotected_lemma. Qed.
Print Assumptions C52_cached_tuple_refuted.

Example C52_ex : nth_error [{| content := 5; writeable := true |}] 0 = Some {| content := 5; writeable := true |}
  /\ poke (freeze [{| content := 5; writeable := true |}] (OArr 0)) 0 9
     = (Some ValueError, [{| content := 5; writeable := false |}]).
Proof. split; reflexivity. Qed.

(** ** C53: pixel angles after the parameters of a distortion object are assigned *)
(** Asking for pixel angles, assigning the distortion parameters (as calibration does), and asking again
    returns the angles of the OLD parameters. *)
Theorem C53_stale_pixel_angles_refuted :
  forall (P V : Type) (angles : P -> V) (p q : P), angles p <> angles q ->
  forall mem m i, 1 <= m -> mem i = p ->
  exists r1 r2, snd (irun angles (mem, mstate0 m) [Pixel i; SetParams i q; Pixel i]) = [r1; r2] /\
    r1 = Ok (angles p) /\ r2 = Ok (angles p) /\ r2 <> Ok (angles q).
Proof. exact stale_lemma. Qed.
Print Assumptions C53_stale_pixel_angles_refuted.

(** If parameters are only ever assigned to objects that have not been used yet, every answer is current. *)
Theorem C53_fresh_objects_current_partial :
  forall (P V : Type) (angles : P -> V) (h : list iop) (used : list Z) (mem : imem) (s : mstate Z V),
    no_mutation used h -> 1 <= maxsize s ->
    (forall k v, In (k, v) (cache s) -> In k used /\ v = angles (mem k)) ->
    snd (irun angles (mem, s) h) = map Ok (expected angles mem h).
Proof. exact @fresh_lemma. Qed.
Print Assumptions C53_fresh_objects_current_partial.

Example C53_ex : no_mutation [] [SetParams 1 10; Pixel 1; SetParams 2 20; Pixel 2; Pixel 1] /\
  snd (irun (fun p : Z => p + 1) (fun _ => 0, mstate0 2) [SetParams 1 10; Pixel 1; SetParams 2 20; Pixel 2; Pixel 1])
  = [Ok 11; Ok 21; Ok 11].
Proof. split; [cbn; intuition lia|reflexivity]. Qed.
