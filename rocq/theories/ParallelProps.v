(** C02: GenericMultiprocessing.parallelise_function under every schedule. *)
From Verif Require Import Prelude ParallelModel ParallelProofs.

(** Safety, with no assumption on the function (workers may die): whatever
    interleaving happened, if the call returns then entry i of the result is the value of the
    function on input i, for every i. *)
Theorem C02_results_in_input_order :
  forall (X R : Type) (f : X -> result R) (logok : R -> bool) (var : list X) (nprocs : nat)
         (acts : list action) (s' : pstate X R) res,
    prun f logok var nprocs (pinit nprocs) acts = Some s' -> main s' = Return res ->
    exists rs, res = map Some rs /\ Forall2 (fun x r => f x = Ok r) var rs.
Proof. exact @parallel_safe. Qed.
Print Assumptions C02_results_in_input_order.

(** Every run is finite, whatever the scheduler does. *)
Theorem C02_runs_are_bounded :
  forall (X R : Type) (f : X -> result R) (logok : R -> bool) (var : list X) (nprocs : nat)
         (acts : list action) (s' : pstate X R),
    prun f logok var nprocs (pinit nprocs) acts = Some s' ->
    length acts <= 6 * length var + 2 * nprocs + 4.
Proof. exact @parallel_bounded. Qed.
Print Assumptions C02_runs_are_bounded.

(** If the function never raises and its results can be logged, a run can only
    stop by returning all the results: no deadlock, no lost task. *)
Theorem C02_always_returns_all_results :
  forall (X R : Type) (f : X -> result R) (logok : R -> bool) (var : list X) (nprocs : nat),
    (forall x, In x var -> exists r, f x = Ok r) -> (forall r, logok r = true) -> 1 <= nprocs ->
  forall (acts : list action) (s' : pstate X R),
    prun f logok var nprocs (pinit nprocs) acts = Some s' ->
    (forall a, pstep f logok var nprocs s' a = None) ->
    exists rs, main s' = Return (map Some rs) /\ Forall2 (fun x r => f x = Ok r) var rs.
Proof. exact @parallel_live. Qed.
Print Assumptions C02_always_returns_all_results.

Example C02_ex :
  option_map main (prun (fun x : nat => Ok (x * x)) (fun _ => true) [3; 4] 2 (pinit 2)
    [Main 0; Worker 1; Main 0; Worker 0;  Main 0; Worker 0; Worker 0; Main 0; Worker 1; Worker 1;
     Worker 1; Main 0; Worker 0; Main 0; Main 1; Main 0; Main 0; Main 0])
  = Some (Return [Some 9; Some 16]) /\
  (forall x : nat, In x [3; 4] -> exists r, (Ok (x * x) : result nat) = Ok r).
Proof. split; [vm_compute; reflexivity|]. intros x _. exists (x * x). reflexivity. Qed.

(** Findings.  A worker evaluates [res[2]*100] for a log message after sending the
    result; if that raises, the worker is lost and the call can hang forever. *)
Theorem C02_unloggable_result_deadlock_refuted :
  exists acts s,
    prun (fun x : nat => Ok x) (fun _ => false) [10; 20] 1 (pinit 1) acts = Some s /\
    (forall res, main s <> Return res) /\
    (forall a, pstep (fun x : nat => Ok x) (fun _ => false) [10; 20] 1 s a = None).
Proof. exact parallel_deadlock_lemma. Qed.
Print Assumptions C02_unloggable_result_deadlock_refuted.

(** Positional arguments given to parallelise_function never reach the function. *)
Theorem C02_positional_arguments_refuted :
  exists (func : nat -> list nat -> unit -> result nat) args x,
    worker_function func args tt x <> func x args tt.
Proof. exact parallel_args_dropped_lemma. Qed.
Print Assumptions C02_positional_arguments_refuted.
