(** Specification vocabulary for C56-C57. *)
From Verif Require Import Prelude LazyModel.

Definition l_stopped (pc : lpc) : bool := match pc with LDone _ | LRaised => true | _ => false end.

(** What a plain read of the current file would return at each event, without any cache. *)
Section Plain.
Context {C : Type}.
Fixpoint plain_reads (disk : nat -> option C) (es : list (fevent C)) : list (option (result C)) :=
  match es with
  | [] => []
  | FWrite p _ c :: r => None :: plain_reads (fun q => if Nat.eqb q p then Some c else disk q) r
  | FLoad p :: r => Some (match disk p with Some c => Ok c | None => Err OSError end) :: plain_reads disk r
  end.

(** Two writes of the same file that leave the same (mtime, size) wrote the same content. *)
Definition stat_identifies (es : list (fevent C)) : Prop :=
  forall p i c1 c2, In (FWrite p i c1) es -> In (FWrite p i c2) es -> c1 = c2.
End Plain.
