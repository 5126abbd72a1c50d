(** Model of hexrd/core/utils/multiprocess_generic.py. *)
From Verif Require Import Prelude.

(** Processes share [q_in = Queue(1)] and the unbounded [q_out = Queue()].  One action is
    one queue operation (or one local computation) of one process; a blocked
    operation is a disabled action.  Items of [q_out] may be received in any order (several
    processes feed it).  Process start-up and the final [p.terminate()] of an
    already finished process are not modelled; the log call itself is not, but the expression
    [res[2]*100] it evaluates is ([logok]). *)
Section Parallel.
  Context {X R : Type}.
  Variable f : X -> result R.      (* func(var, **kwargs) as called by the worker *)
  Variable logok : R -> bool.      (* res[2]*100 can be evaluated *)
  Variable var : list X.
  Variable nprocs : nat.           (* cpu_count() *)

  Inductive worker :=
  | Idle                           (* at q_in.get() *)
  | Busy (i : nat) (x : X)         (* evaluating func, then q_out.put *)
  | Log (r : R)                    (* evaluating the log message *)
  | Exited                         (* got (None, None) *)
  | Died.                          (* unhandled exception *)

  Inductive mainpc :=
  | PutTask (i : nat)              (* about to put task i, lines 58-59 *)
  | PutStop (j : nat)              (* about to put sentinel j, line 60 *)
  | Collect (k : nat) (res : list (option R))   (* k results received, lines 63-66 *)
  | Join (res : list (option R))   (* line 69 *)
  | Return (res : list (option R)).             (* line 72 *)

  Record pstate := { main : mainpc; qin : option (option (nat * X)); ws : list worker; qout : list (nat * R) }.

  Definition pinit : pstate :=
    {| main := PutTask 0; qin := None; ws := repeat Idle nprocs; qout := [] |}.

  (** [main_step k]: the main process (k selects which available result [q_out.get] returns),
      multiprocess_generic.py:31-72. *)
  Definition main_step (k : nat) (s : pstate) : option pstate :=
    match main s with
    | PutTask i =>
        match nth_error var i with
        | None => Some {| main := PutStop 0; qin := qin s; ws := ws s; qout := qout s |}
        | Some x =>
            match qin s with
            | Some _ => None                                  (* queue full: blocked *)
            | None => Some {| main := PutTask (S i); qin := Some (Some (i, x)); ws := ws s; qout := qout s |}
            end
        end
    | PutStop j =>
        if Nat.ltb j nprocs then
          match qin s with
          | Some _ => None
          | None => Some {| main := PutStop (S j); qin := Some None; ws := ws s; qout := qout s |}
          end
        else Some {| main := Collect 0 (repeat None (length var)); qin := qin s; ws := ws s; qout := qout s |}
    | Collect c res =>
        if Nat.ltb c (length var) then
          match nth_error (qout s) k with
          | None => None
          | Some (i, r) => Some {| main := Collect (S c) (set_nth i (Some r) res); qin := qin s; ws := ws s;
                                   qout := firstn k (qout s) ++ skipn (S k) (qout s) |}
          end
        else Some {| main := Join res; qin := qin s; ws := ws s; qout := qout s |}
    | Join res =>
        if forallb (fun w => match w with Exited | Died => true | _ => false end) (ws s)
        then Some {| main := Return res; qin := qin s; ws := ws s; qout := qout s |}
        else None
    | Return _ => None
    end.

  (** worker [w] makes its next move, multiprocess_generic.py:20-29. *)
  Definition worker_step (w : nat) (s : pstate) : option pstate :=
    match nth_error (ws s) w with
    | None => None
    | Some Idle =>
        match qin s with
        | None => None                                        (* queue empty: blocked *)
        | Some None => Some {| main := main s; qin := None; ws := set_nth w Exited (ws s); qout := qout s |}
        | Some (Some (i, x)) =>
            Some {| main := main s; qin := None; ws := set_nth w (Busy i x) (ws s); qout := qout s |}
        end
    | Some (Busy i x) =>
        match f x with
        | Ok r => Some {| main := main s; qin := qin s; ws := set_nth w (Log r) (ws s); qout := qout s ++ [(i, r)] |}
        | Err _ => Some {| main := main s; qin := qin s; ws := set_nth w Died (ws s); qout := qout s |}
        end
    | Some (Log r) =>
        Some {| main := main s; qin := qin s; ws := set_nth w (if logok r then Idle else Died) (ws s); qout := qout s |}
    | Some Exited => None
    | Some Died => None
    end.

  Inductive action := Main (k : nat) | Worker (w : nat).

  Definition pstep (s : pstate) (a : action) : option pstate :=
    match a with Main k => main_step k s | Worker w => worker_step w s end.

  (** a run: every action of the schedule must be enabled *)
  Fixpoint prun (s : pstate) (acts : list action) : option pstate :=
    match acts with
    | [] => Some s
    | a :: t => match pstep s a with Some s' => prun s' t | None => None end
    end.
End Parallel.
Arguments worker : clear implicits.
Arguments mainpc : clear implicits.
Arguments pstate : clear implicits.

(** [parallelise_function(var, func, *args, **kwargs)], multiprocess_generic.py:31-52: [pass_args] is
    [func, q_in, q_out] only, so the worker calls [func(var, **kwargs)]
    whatever positional arguments the caller gave. *)
Definition worker_function {X Arg KW R} (func : X -> list Arg -> KW -> result R)
           (args : list Arg) (kwargs : KW) : X -> result R :=
  fun x => func x [] kwargs.
