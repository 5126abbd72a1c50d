(** Shared vocabulary: Python exceptions as values, Python [range], list
    helpers.  Nothing here is specific to hexrd. *)
From Coq Require Export List ZArith Lia Bool Arith.
From Coq Require Export ZifyBool ZifyNat.
Export ListNotations.
Ltac Zify.zify_post_hook ::= Z.div_mod_to_equations.

(** Python exception classes raised by the modelled code. *)
Inductive exn : Set :=
| ZeroDivisionError | ValueError | RuntimeError | KeyError | IndexError
| TypeError | AttributeError | AssertionError | LookupError
| NotImplementedError | OSError | StopIteration | OmegaSeriesError | OutOfFuel.

(** Outcome of a Python call: a value or an exception. *)
Inductive result (A : Type) : Type :=
| Ok (a : A)
| Err (e : exn).
Arguments Ok {A} a.
Arguments Err {A} e.

Definition rbind {A B} (x : result A) (f : A -> result B) : result B :=
  match x with Ok a => f a | Err e => Err e end.
Notation "'do' x <- e1 ; e2" := (rbind e1 (fun x => e2))
  (at level 200, x name, e1 at level 100, e2 at level 200, right associativity).

Definition is_ok {A} (x : result A) : bool :=
  match x with Ok _ => true | Err _ => false end.

(** Python [range(a, b)]. *)
Definition zrange (a b : Z) : list Z :=
  map (fun i => (a + Z.of_nat i)%Z) (seq 0 (Z.to_nat (b - a))).

(** Python sequence access [l[i]] for an int index (negative counts from the
    end; out of range raises IndexError). *)
Definition py_index {A} (l : list A) (i : Z) : result A :=
  let n := Z.of_nat (length l) in
  let j := if (i <? 0)%Z then (n + i)%Z else i in
  if (j <? 0)%Z then Err IndexError
  else match nth_error l (Z.to_nat j) with
       | Some x => Ok x
       | None => Err IndexError
       end.

(** Update position [i] of a list (no effect out of range). *)
Fixpoint set_nth {A} (i : nat) (x : A) (l : list A) : list A :=
  match i, l with
  | _, [] => []
  | O, _ :: t => x :: t
  | S i, y :: t => y :: set_nth i x t
  end.

Lemma set_nth_length {A} i (x : A) l : length (set_nth i x l) = length l.
Proof. revert i; induction l as [|y t IH]; intros [|i]; cbn; auto. Qed.

Lemma set_nth_eq {A} i (x : A) l : i < length l -> nth_error (set_nth i x l) i = Some x.
Proof. revert i; induction l as [|y t IH]; intros [|i] H; cbn in *; try lia; auto.
  apply IH; lia. Qed.

Lemma set_nth_ne {A} i j (x : A) l : i <> j -> nth_error (set_nth i x l) j = nth_error l j.
Proof. revert i j; induction l as [|y t IH]; intros [|i] [|j] H; cbn; auto; try lia. Qed.

Lemma zrange_nil a b : (b <= a)%Z -> zrange a b = [].
Proof. intros H; unfold zrange. replace (Z.to_nat (b - a)) with 0 by lia. reflexivity. Qed.

Lemma zrange_length a b : length (zrange a b) = Z.to_nat (b - a).
Proof. unfold zrange; rewrite map_length, seq_length; reflexivity. Qed.

Lemma in_zrange a b x : In x (zrange a b) <-> (a <= x < b)%Z.
Proof.
  unfold zrange; rewrite in_map_iff; split.
  - intros (i & Hi & Hin). apply in_seq in Hin. lia.
  - intros H. exists (Z.to_nat (x - a)). split; [lia|]. apply in_seq. lia.
Qed.

Lemma zrange_app a b c : (a <= b <= c)%Z -> zrange a b ++ zrange b c = zrange a c.
Proof.
  intros H. unfold zrange.
  replace (Z.to_nat (c - a)) with (Z.to_nat (b - a) + Z.to_nat (c - b)) by lia.
  rewrite seq_app, map_app. f_equal. cbn [Nat.add].
  generalize (Z.to_nat (c - b)) as k; intros k.
  assert (G : forall m s, map (fun i => (b + Z.of_nat i)%Z) (seq s k)
              = map (fun i => (b - Z.of_nat m + Z.of_nat i)%Z) (seq (m + s) k)).
  { intros m; induction k as [|k IH]; intros s; cbn; [reflexivity|].
    f_equal; [lia|]. rewrite IH. f_equal. f_equal. lia. }
  rewrite (G (Z.to_nat (b - a)) 0). replace (Z.to_nat (b - a) + 0) with (Z.to_nat (b - a)) by lia.
  apply map_ext; intros i; lia.
Qed.

Lemma zrange_nodup a b : NoDup (zrange a b).
Proof.
  unfold zrange. generalize (Z.to_nat (b - a)) as k.
  assert (G : forall k s, NoDup (map (fun i => (a + Z.of_nat i)%Z) (seq s k))).
  { induction k as [|k IH]; intros s; cbn; constructor; auto.
    rewrite in_map_iff. intros (i & E & Hi). apply in_seq in Hi. lia. }
  intros k; apply G.
Qed.

Lemma NoDup_app_snoc {A} (l : list A) x : NoDup l -> ~ In x l -> NoDup (l ++ [x]).
Proof.
  induction l as [|y l IH]; cbn; intros Hn Hx; [constructor; [auto|constructor]|].
  inversion Hn; subst. constructor.
  - rewrite in_app_iff. cbn. intuition congruence.
  - apply IH; auto.
Qed.

Lemma NoDup_app_r {A} (l1 l2 : list A) : NoDup (l1 ++ l2) -> NoDup l2.
Proof. induction l1 as [|x l1 IH]; cbn; auto. intros H; inversion H; auto. Qed.

Lemma NoDup_app_l {A} (l1 l2 : list A) : NoDup (l1 ++ l2) -> NoDup l1.
Proof.
  induction l1 as [|x l1 IH]; cbn; intros H; constructor; inversion H; subst; auto.
  rewrite in_app_iff in *. tauto.
Qed.

Lemma NoDup_remove_list {A} (dec : forall a b : A, {a = b} + {a <> b}) x l : NoDup l -> NoDup (remove dec x l).
Proof.
  induction l as [|y l IH]; cbn; intros Hn; auto. inversion Hn; subst. destruct (dec x y); auto.
  constructor; auto. intros Hin. apply in_remove in Hin. tauto.
Qed.

Lemma remove_app' {A} (dec : forall a b : A, {a = b} + {a <> b}) x l1 l2 :
  remove dec x (l1 ++ l2) = remove dec x l1 ++ remove dec x l2.
Proof. induction l1 as [|y l1 IH]; cbn; auto. destruct (dec x y); cbn; congruence. Qed.

Lemma remove_length_in {A} (dec : forall a b : A, {a = b} + {a <> b}) x l :
  In x l -> NoDup l -> S (length (remove dec x l)) = length l.
Proof.
  induction l as [|y l IH]; intros Hin Hn; [contradiction|].
  inversion Hn; subst. cbn. destruct (dec x y).
  - subst. rewrite notin_remove by auto. reflexivity.
  - cbn. f_equal. apply IH; auto. destruct Hin; congruence.
Qed.

(** counting elements *)
Definition cnt {A} (p : A -> bool) (l : list A) : nat := length (filter p l).

Lemma cnt_set_nth {A} (p : A -> bool) l w a b : nth_error l w = Some a ->
  cnt p (set_nth w b l) + Nat.b2n (p a) = cnt p l + Nat.b2n (p b).
Proof.
  revert w; induction l as [|x l IH]; intros [|w] H; cbn in *; try discriminate.
  - injection H as ->. unfold cnt. cbn. destruct (p a), (p b); cbn; lia.
  - specialize (IH w H). unfold cnt in *. cbn. destruct (p x); cbn; lia.
Qed.

Lemma cnt_remove_nth {A} (p : A -> bool) l k a : nth_error l k = Some a ->
  cnt p (firstn k l ++ skipn (S k) l) + Nat.b2n (p a) = cnt p l.
Proof.
  revert k; induction l as [|x l IH]; intros [|k] H; try discriminate H.
  - cbn in H. injection H as ->. unfold cnt. cbn. destruct (p a); cbn; lia.
  - specialize (IH k H). unfold cnt in *. cbn [firstn skipn app filter]. destruct (p x); cbn [length]; cbn [skipn] in IH; lia.
Qed.

Lemma cnt_app {A} (p : A -> bool) l1 l2 : cnt p (l1 ++ l2) = cnt p l1 + cnt p l2.
Proof. unfold cnt. rewrite filter_app, app_length. reflexivity. Qed.

Lemma cnt_le {A} (p : A -> bool) l : cnt p l <= length l.
Proof. unfold cnt. induction l as [|x l IH]; cbn; [lia|]. destruct (p x); cbn; lia. Qed.

Lemma cnt_pos {A} (p : A -> bool) l : 0 < cnt p l -> exists x, In x l /\ p x = true.
Proof.
  unfold cnt. induction l as [|x l IH]; cbn; [lia|]. destruct (p x) eqn:E; [eauto|].
  intros H. destruct (IH H) as (y & H1 & H2). eauto.
Qed.

Lemma cnt_lt {A} (p : A -> bool) l : cnt p l < length l -> exists x, In x l /\ p x = false.
Proof.
  unfold cnt. induction l as [|x l IH]; cbn; [lia|]. destruct (p x) eqn:E; [|eauto].
  cbn. intros H. destruct IH as (y & H1 & H2); [lia|eauto].
Qed.

Lemma cnt_in {A} (p : A -> bool) l x : In x l -> p x = true -> 0 < cnt p l.
Proof.
  unfold cnt. induction l as [|y l IH]; cbn; [contradiction|]. intros [->|H] Hp; [rewrite Hp; cbn; lia|].
  specialize (IH H Hp). destruct (p y); cbn; lia.
Qed.
