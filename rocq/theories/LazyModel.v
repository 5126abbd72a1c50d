(** Model of the lazy loading of a frame cache: framecache.py:232-242 (double-checked lock) and
    framecache.py:291-356 (files memoised by path and stat identity). *)
From Verif Require Import Prelude.

(** ** _load_framelist_if_needed under threads, followed by the use of [self._framelist] *)
Inductive lpc :=
| LCheck1            (* line 233: about to test the flag without the lock *)
| LAcquire           (* line 236 *)
| LCheck2            (* line 240, lock held *)
| LLoad              (* line 241, lock held *)
| LSetFlag           (* line 242, lock held *)
| LRelease           (* leaving the with block normally *)
| LFail              (* leaving the with block with the exception of the load *)
| LUse               (* line 245 ff.: reads self._framelist *)
| LDone (v : list nat)
| LRaised.

Record lstate := {
  l_flag : bool;               (* _framelist_was_loaded *)
  l_lock : option nat;         (* the thread holding the lock *)
  l_list : list nat;           (* _framelist, initially [] *)
  l_loads : nat;               (* load attempts so far *)
  l_good : nat;                (* successful loads so far *)
  l_pcs : list lpc
}.

(** One step of thread [w].  [loads_ok k] tells whether load attempt k succeeds; [content] is what it stores. *)
Definition lstep (content : list nat) (loads_ok : nat -> bool) (s : lstate) (w : nat) : option lstate :=
  let go pc := set_nth w pc (l_pcs s) in
  match nth_error (l_pcs s) w with
  | Some LCheck1 =>
      Some {| l_flag := l_flag s; l_lock := l_lock s; l_list := l_list s; l_loads := l_loads s; l_good := l_good s;
              l_pcs := go (if l_flag s then LUse else LAcquire) |}
  | Some LAcquire =>
      match l_lock s with
      | Some _ => None
      | None => Some {| l_flag := l_flag s; l_lock := Some w; l_list := l_list s; l_loads := l_loads s; l_good := l_good s;
                        l_pcs := go LCheck2 |}
      end
  | Some LCheck2 =>
      Some {| l_flag := l_flag s; l_lock := l_lock s; l_list := l_list s; l_loads := l_loads s; l_good := l_good s;
              l_pcs := go (if l_flag s then LRelease else LLoad) |}
  | Some LLoad =>
      if loads_ok (l_loads s)
      then Some {| l_flag := l_flag s; l_lock := l_lock s; l_list := content; l_loads := S (l_loads s); l_good := S (l_good s);
                   l_pcs := go LSetFlag |}
      else Some {| l_flag := l_flag s; l_lock := l_lock s; l_list := l_list s; l_loads := S (l_loads s); l_good := l_good s;
                   l_pcs := go LFail |}
  | Some LSetFlag =>
      Some {| l_flag := true; l_lock := l_lock s; l_list := l_list s; l_loads := l_loads s; l_good := l_good s;
              l_pcs := go LRelease |}
  | Some LRelease =>
      Some {| l_flag := l_flag s; l_lock := None; l_list := l_list s; l_loads := l_loads s; l_good := l_good s;
              l_pcs := go LUse |}
  | Some LFail =>
      Some {| l_flag := l_flag s; l_lock := None; l_list := l_list s; l_loads := l_loads s; l_good := l_good s;
              l_pcs := go LRaised |}
  | Some LUse =>
      Some {| l_flag := l_flag s; l_lock := l_lock s; l_list := l_list s; l_loads := l_loads s; l_good := l_good s;
              l_pcs := go (LDone (l_list s)) |}
  | Some (LDone _) | Some LRaised | None => None
  end.

Fixpoint lrun (content : list nat) (loads_ok : nat -> bool) (s : lstate) (sched : list nat) : option lstate :=
  match sched with
  | [] => Some s
  | w :: r => match lstep content loads_ok s w with Some s' => lrun content loads_ok s' r | None => None end
  end.

Definition linit (threads : nat) : lstate :=
  {| l_flag := false; l_lock := None; l_list := []; l_loads := 0; l_good := 0; l_pcs := repeat LCheck1 threads |}.

(** ** Files memoised by (path, mtime, size): lru_cache(maxsize=2), framecache.py:313-356.
    [id] stands for the pair (mtime_ns, size) of [_stat_identity] (framecache.py:291-306). *)
Section Lru.
Context {C : Type}.
Inductive fevent := FWrite (path id : nat) (c : C) | FLoad (path : nat).
Record fcache := { fc_disk : nat -> option (nat * C); fc_cache : list ((nat * nat) * C) }.

Fixpoint fc_lookup (k : nat * nat) (l : list ((nat * nat) * C)) : option C :=
  match l with
  | [] => None
  | ((p, i), c) :: r => if (Nat.eqb p (fst k) && Nat.eqb i (snd k))%bool then Some c else fc_lookup k r
  end.
Definition fc_remove (k : nat * nat) (l : list ((nat * nat) * C)) : list ((nat * nat) * C) :=
  filter (fun e => negb (Nat.eqb (fst (fst e)) (fst k) && Nat.eqb (snd (fst e)) (snd k))) l.

(** One event; a load of a file that is not there raises OSError (and nothing is cached). *)
Definition fc_step (s : fcache) (e : fevent) : fcache * option (result C) :=
  match e with
  | FWrite p i c => ({| fc_disk := fun q => if Nat.eqb q p then Some (i, c) else fc_disk s q; fc_cache := fc_cache s |}, None)
  | FLoad p =>
      match fc_disk s p with
      | None => (s, Some (Err OSError))
      | Some (i, c) =>
          match fc_lookup (p, i) (fc_cache s) with
          | Some c' => ({| fc_disk := fc_disk s; fc_cache := ((p, i), c') :: fc_remove (p, i) (fc_cache s) |}, Some (Ok c'))
          | None => ({| fc_disk := fc_disk s; fc_cache := firstn 2 (((p, i), c) :: fc_cache s) |}, Some (Ok c))
          end
      end
  end.
Fixpoint fc_run (s : fcache) (es : list fevent) : fcache * list (option (result C)) :=
  match es with
  | [] => (s, [])
  | e :: r => let '(s1, o) := fc_step s e in let '(s2, os) := fc_run s1 r in (s2, o :: os)
  end.
Definition fc_init : fcache := {| fc_disk := fun _ => None; fc_cache := [] |}.
End Lru.
Arguments fevent : clear implicits.
Arguments fcache : clear implicits.
