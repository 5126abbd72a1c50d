(** C01: task distribution.  [zrange a b] is Python's [range(a, b)]. *)
From Verif Require Import Prelude TasksModel TasksProofs.
Open Scope Z_scope.

(** Concatenating the task ranges in order gives 0..n-1: every task is assigned
    exactly once, contiguously; ranges are non-empty; there are min(n,w) of
    them; their sizes differ by at most one. *)
Theorem C01_distribute_tasks_partition : forall n w, 0 <= n -> 1 <= w ->
  exists rs, distribute_tasks n w = Ok rs /\
    concat (map (fun r => zrange (fst r) (snd r)) rs) = zrange 0 n /\
    Forall (fun r => fst r < snd r) rs /\
    Z.of_nat (length rs) = Z.min n w /\
    (forall r s, In r rs -> In s rs -> (snd r - fst r) - (snd s - fst s) <= 1).
Proof. exact distribute_tasks_correct. Qed.
Print Assumptions C01_distribute_tasks_partition.

Example C01_ex : 0 <= 10 /\ 1 <= 4 /\
  distribute_tasks 10 4 = Ok [(0,3);(3,6);(6,8);(8,10)].
Proof. repeat split; try lia. Qed.

Theorem C01_zero_workers_raises : forall n, distribute_tasks n 0 = Err ZeroDivisionError.
Proof. exact distribute_tasks_zero. Qed.
Print Assumptions C01_zero_workers_raises.

(** Outside the claim's range: a negative worker count is not rejected and no
    task is assigned. *)
Theorem C01_negative_workers_assign_nothing : forall n w, w < 0 -> distribute_tasks n w = Ok [].
Proof. exact distribute_tasks_negative. Qed.
Print Assumptions C01_negative_workers_assign_nothing.
