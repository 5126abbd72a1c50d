(** Specification vocabulary for PlaneData. *)
From Coq Require Import QArith Permutation.
From Verif Require Import Prelude PlaneModel.
Local Close Scope Q_scope.

(** the elements whose flag is set, in order *)
Fixpoint select {X} (keep : list bool) (l : list X) : list X :=
  match keep, l with b :: k, x :: r => if b then x :: select k r else select k r | _, _ => [] end.
(** [out] holds exactly the elements of [l] at the positions satisfying [P], in order *)
Definition exactly {X} (l : list X) (P : nat -> Prop) (out : list X) : Prop :=
  exists keep, length keep = length l /\ out = select keep l /\ forall r, r < length l -> (nth r keep false = true <-> P r).
(** the mask flags exactly the positions satisfying [P] *)
Definition mask_is (ex : list bool) (n : nat) (P : nat -> Prop) : Prop :=
  length ex = n /\ forall r, r < n -> (nth r ex false = true <-> P r).

Section S.
Context {A : Type}.
Notation refl := (option Q * A)%type.
(** two-theta at position [r] beyond the maximum; no Bragg angle at position [r] *)
Definition beyond (s : pd A) (r : nat) : Prop :=
  exists t a m, nth_error (data s) r = Some (Some t, a) /\ tmax s = Some m /\ Qlt m t.
Definition no_angle (s : pd A) (r : nat) : Prop := exists a, nth_error (data s) r = Some (None, a).
(** hidden for its angle: beyond the maximum or, when there is a maximum, without an angle *)
Definition cut_off (s : pd A) (r : nat) : Prop := beyond s r \/ (tmax s <> None /\ no_angle s r).
(** a Python index list names position [r] of a list of length [n] *)
Definition names_pos (l : list Z) (n r : nat) : Prop := In (Z.of_nat r) l \/ In (Z.of_nat r - Z.of_nat n)%Z l.
(** a Python slice [a:b] of a list of length [n] covers position [r] *)
Definition in_slice (a b : Z) (n r : nat) : Prop :=
  let lo i := if (i <? 0)%Z then (i + Z.of_nat n)%Z else i in (lo a <= Z.of_nat r < lo b)%Z.

(** a valid ordering of n reflections *)
Definition ordering (srt : list nat) (n : nat) : Prop := Permutation srt (seq 0 n).
(** the states a caller can reach: built without exclusions, then any sequence of assignments, exclusions and changes of the
    lattice (new two-thetas, any new order) *)
Inductive reachable : pd A -> Prop :=
| r_new : forall raw srt m s, ordering srt (length raw) -> calc raw srt None m = Ok s -> reachable s
| r_excl : forall s v s', reachable s -> set_exclusions s v = Ok s' -> reachable s'
| r_tmax : forall s m, reachable s -> reachable (set_tmax s m)
| r_exclude : forall s d a b c e s', reachable s -> exclude s d a b c e = Ok s' -> reachable s'
| r_recalc : forall s raw srt s', reachable s -> length raw = length (data s) -> ordering srt (length raw) ->
    recalc s raw srt = Ok s' -> reachable s'.
(** position [r] of the current order shows master reflection [m] *)
Definition shows (s : pd A) (r m : nat) : Prop := nth_error (tsort s) r = Some m.
(** below a lower bound or above an upper bound on the spacing [d] or on two-theta *)
Definition outside (d : A -> Q) (dmin dmax tthmin tthmax : option Q) (x : refl) : Prop :=
  (exists q, dmin = Some q /\ Qlt (d (snd x)) q) \/ (exists q, dmax = Some q /\ Qlt q (d (snd x))) \/
  (exists q t, tthmin = Some q /\ fst x = Some t /\ Qlt t q) \/ (exists q t, tthmax = Some q /\ fst x = Some t /\ Qlt q t).
(** exchanging positions twice is the identity *)
Definition involutive (s : pd A) : Prop := forall r m, nth_error (tsort s) r = Some m -> nth_error (tsort s) m = Some r.
End S.

(** merged ranges *)
Section M.
Variables (lo hi : nat -> Q).
(** consecutive reflections i, i+1 overlap *)
Definition overlap (i : nat) : Prop := Qle (lo (S i)) (hi i).
(** the reflections a..b; with culling, without those that are close to their successor in the run *)
Definition run (cull : bool) (close : nat -> nat -> bool) (a b : nat) : list nat :=
  filter (fun i => Nat.eqb i b || negb (cull && close i (S i))) (seq a (S b - a)).
(** the reflections a..n-1 are cut into maximal runs of consecutively overlapping ones; each run carries its indices, the
    lower end of its first range and the upper end of its last one *)
Inductive grouped (cull : bool) (close : nat -> nat -> bool) (n : nat) : nat -> list (list nat * (Q * Q)) -> Prop :=
| g_last : forall a b, a <= b -> S b = n -> (forall i, a <= i < b -> overlap i) -> grouped cull close n a [(run cull close a b, (lo a, hi b))]
| g_cons : forall a b gs, a <= b -> S b < n -> (forall i, a <= i < b -> overlap i) -> ~ overlap b ->
    grouped cull close n (S b) gs -> grouped cull close n a ((run cull close a b, (lo a, hi b)) :: gs).
End M.
