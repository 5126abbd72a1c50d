(** Specification vocabulary for C03, C04: what "least recently used" means, without
    reference to the cache. *)
From Verif Require Import Prelude MemoModel.
From Coq Require Import String.

Section Recency.
  Context {K : Type}.
  Variable K_eq : forall a b : K, {a = b} + {a <> b}.

  (** Distinct keys in order of last use, most recent last. *)
  Fixpoint recency_from (acc : list K) (uses : list K) : list K :=
    match uses with
    | [] => acc
    | k :: t => recency_from (remove K_eq k acc ++ [k]) t
    end.
  Definition recency (uses : list K) : list K := recency_from [] uses.
End Recency.

(** Keys of the calls of history [h] that returned a value, in order. *)
Section Served.
  Context {A K V : Type}.
  Variable K_eq : forall a b : K, {a = b} + {a <> b}.
  Variable key : A -> result K.
  Variable func : A -> result V.

  Fixpoint served (s : mstate K V) (h : list (mop A)) : list K :=
    match h with
    | [] => []
    | o :: t =>
        match o with
        | Call a => match fst (call K_eq key func s a), key a with
                    | Ok _, Ok k => [k]
                    | _, _ => []
                    end
        | SetMax _ => []
        end ++ served (mstep K_eq key func s o) t
    end.

  (** every operation of the history is a call, and it returned a value *)
  Fixpoint all_calls_ok (s : mstate K V) (h : list (mop A)) : Prop :=
    match h with
    | [] => True
    | Call a :: t => is_ok (fst (call K_eq key func s a)) = true /\
                     all_calls_ok (mstep K_eq key func s (Call a)) t
    | SetMax _ :: _ => False
    end.
End Served.

(** Arguments whose keys can be told apart: no list, dict, bool or float, arrays
    of the one dtype [dt] and no string equal to the array marker. *)
Fixpoint plain (dt : string) (v : pyval) : bool :=
  match v with
  | PNone => true
  | PInt _ => true
  | PStr s => negb (String.eqb s "__type_np.ndarray")
  | PArr d _ _ => String.eqb d dt
  | PTuple l => forallb (plain dt) l
  | PObj _ => true
  | _ => false
  end.

(** Calls on mutable argument objects. *)
Section Mutation.
  Context {P V : Type}.
  Variable angles : P -> V.

  (** objects are replaced rather than modified: parameters of an id that was
      ever used are never assigned again *)
  Fixpoint no_mutation (used : list Z) (h : list (@iop P)) : Prop :=
    match h with
    | [] => True
    | SetParams i _ :: t => ~ In i used /\ no_mutation used t
    | Pixel i :: t => no_mutation (i :: used) t
    end.

  Fixpoint expected (mem : imem) (h : list (@iop P)) : list V :=
    match h with
    | [] => []
    | SetParams i p :: t => expected (iupd mem i p) t
    | Pixel i :: t => angles (mem i) :: expected mem t
    end.

End Mutation.
