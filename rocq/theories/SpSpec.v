(** Vocabulary for values of parameters *)
From Coq Require Import String QArith List.
From Verif Require Import Prelude SpModel.
Import ListNotations.
Local Open Scope string_scope.
Local Open Scope Q_scope.

(** the text occurs in the name *)
Definition has (pat name : string) : Prop := exists a b, name = (a ++ pat ++ b)%string.
(** the names of a set of parameters are different *)
Definition named_apart (ps : fparams) : Prop := NoDup (map fst ps).
Definition is_param (ps : fparams) (n : string) (p : fprm) : Prop := In (n, p) ps.
(** values a fit may try: tied parameters have the value of their expression, others are within their bounds *)
Definition admissible (ps : fparams) (v : string -> Q) : Prop :=
  forall n p, is_param ps n p ->
    match f_expr p with
    | Some (ESame a) => v n == v a
    | Some (ESum a b) => v n == v a + v b
    | None => (forall m, f_min p = Some m -> m <= v n) /\ (forall m, f_max p = Some m -> v n <= m)
    end.
(** the same parameters but for those with the text in their names, on which [f] says what is new *)
Definition only_changes (pat : string) (f : fprm -> fprm -> Prop) (ps ps' : fparams) : Prop :=
  Forall2 (fun x y => fst y = fst x /\ (has pat (fst x) -> f (snd x) (snd y)) /\ (~ has pat (fst x) -> snd y = snd x)) ps ps'.
Definition same_but_bounds (p q : fprm) : Prop := f_val q = f_val p /\ f_vary q = f_vary p /\ f_expr q = f_expr p.
