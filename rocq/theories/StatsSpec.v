(** Specification vocabulary for C05. *)
From Verif Require Import Prelude.
Open Scope Z_scope.

(** Chunk sizes: consecutive differences (the first chunk is stop_0 + 1). *)
Fixpoint chunk_sizes (prev : Z) (stops : list Z) : list Z :=
  match stops with [] => [] | s :: t => (s - prev) :: chunk_sizes s t end.

