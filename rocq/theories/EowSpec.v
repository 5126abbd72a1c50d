(** Vocabulary for the rows of an eta-omega map. *)
From Coq Require Import QArith.
From Verif Require Import Prelude OmegaModel.
Open Scope Q_scope.

(** frame f covers the interval number [nth f ns] of a division of the circle, starting at o0, into intervals of [delta] degrees *)
Definition on_grid (o0 delta : Q) (ns : list nat) (om : omarr) : Prop :=
  length om = length ns /\
  forall f n, nth_error ns f = Some n ->
    fst (om_at om f) == o0 + inject_Z (Z.of_nat n) * delta /\ snd (om_at om f) == o0 + inject_Z (Z.of_nat n + 1) * delta.
(** the intervals come in increasing order, the first one first *)
Fixpoint ascending (ns : list nat) : Prop :=
  match ns with
  | a :: ((b :: _) as t) => (a < b)%nat /\ ascending t
  | _ => True
  end.
