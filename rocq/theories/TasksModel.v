(** Model of hexrd/core/utils/concurrent.py. *)
From Verif Require Import Prelude.
Open Scope Z_scope.

(** One pass of the [for i in range(max_workers)] loop, concurrent.py:13-30.
    [acc] is [result]; [iters] counts remaining iterations of the range. *)
Fixpoint dt_loop (iters : nat) (i tpw rem assigned num_tasks : Z)
         (acc : list (Z * Z)) : result (list (Z * Z)) :=
  match iters with
  | O => Ok acc
  | S k =>
      if assigned =? num_tasks then Ok acc                          (* line 14-15: break *)
      else
        let tasks := if negb (rem =? 0) then tpw + 1 else tpw in    (* 17-20 *)
        let rem' := if negb (rem =? 0) then rem - 1 else rem in
        do previous <- (if i =? 0 then Ok 0                         (* 22-25 *)
                        else do l <- py_index acc (-1) ; Ok (snd l)) ;
        dt_loop k (i + 1) tpw rem' (assigned + tasks) num_tasks
                (acc ++ [(previous, previous + tasks)])             (* 27-28 *)
  end.

(** [distribute_tasks], concurrent.py:4-30.  Python [//] and [%] are [Z.div] and
    [Z.modulo] (both floor); dividing by zero raises. *)
Definition distribute_tasks (num_tasks max_workers : Z) : result (list (Z * Z)) :=
  if max_workers =? 0 then Err ZeroDivisionError
  else dt_loop (Z.to_nat max_workers) 0 (num_tasks / max_workers)
               (num_tasks mod max_workers) 0 num_tasks [].
