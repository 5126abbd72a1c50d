(** Inverses of 6x6 arrays, and the unit of the stored stiffness. *)
From Coq Require Import Reals List Arith Bool Lra Lia Psatz.
From Verif Require Import Prelude Lin RotModel RotSpec StfModel StfSpec StfProofs StfGroups StfMain StfFit.
Import ListNotations.
Local Open Scope R_scope.

Lemma times_assoc : forall a b c i j, times6 a (times6 b c) i j = times6 (times6 a b) c i j.
Proof. intros. unfold times6, sum6. ring. Qed.
Lemma times_same : forall a b c d, same6 a b -> same6 c d -> same6 (times6 a c) (times6 b d).
Proof. intros a b c d H K i j I J. unfold times6, sum6. rewrite !(H i) by lia. rewrite !(fun k => K k j) by lia. reflexivity. Qed.
Lemma times_unit_r : forall a, same6 (times6 a unit6) a.
Proof. intros a i j I J. unfold times6, sum6, unit6. six j; cbn [Nat.eqb]; ring. Qed.
Lemma times_unit_l : forall a, same6 (times6 unit6 a) a.
Proof. intros a i j I J. unfold times6, sum6, unit6. six i; cbn [Nat.eqb]; ring. Qed.
Lemma same_refl : forall a, same6 a a. Proof. now intros a i j. Qed.
Lemma same_sym : forall a b, same6 a b -> same6 b a. Proof. intros a b H i j I J. symmetry. now apply H. Qed.
Lemma same_trans : forall a b c, same6 a b -> same6 b c -> same6 a c. Proof. intros a b c H K i j I J. now rewrite H, K. Qed.
Lemma inverse_unique : forall a b c, inverse6 a b -> inverse6 a c -> same6 b c.
Proof.
  intros a b c [_ B] [C _]. apply same_trans with (times6 b unit6); [apply same_sym, times_unit_r|].
  apply same_trans with (times6 b (times6 a c)); [apply times_same; [apply same_refl|now apply same_sym]|].
  apply same_trans with (times6 (times6 b a) c); [intros i j _ _; apply times_assoc|].
  apply same_trans with (times6 unit6 c); [apply times_same; [assumption|apply same_refl]|apply times_unit_l].
Qed.
Lemma inverse_swap : forall a b, inverse6 a b -> inverse6 b a. Proof. now intros a b []. Qed.
Lemma inverse_same : forall a a' b, same6 a a' -> inverse6 a b -> inverse6 a' b.
Proof.
  intros a a' b H [P Q]. split.
  - apply same_trans with (times6 a b); [apply times_same; [now apply same_sym|apply same_refl]|assumption].
  - apply same_trans with (times6 b a); [apply times_same; [apply same_refl|now apply same_sym]|assumption].
Qed.
Section Stored.
Variable inv : rows6 -> option rows6.
Hypothesis Hinv : inverts inv.
Lemma compliance_roundtrip : forall v s s' b, set_compliance inv v s = (s', None) -> get_compliance inv s' = Ok b -> same6 b v.
Proof.
  intros v s s' b S G. unfold set_compliance in S. destruct (inv v) as [w|] eqn:E; [|discriminate]. injection S as <-.
  unfold get_compliance in G. destruct (inv (fun i j => w i j * 1000 / 1000)) as [b'|] eqn:E'; [|discriminate]. injection G as <-.
  apply Hinv in E, E'. apply (inverse_unique w).
  - apply (inverse_same (fun i j => w i j * 1000 / 1000)); [|assumption]. intros i j _ _. field.
  - now apply inverse_swap.
Qed.
Lemma thousand : forall g v s c, MakeStiffnessMatrix inv g v s = (Some c, None) -> List.length v = count g /\ same6 c (fun i j => 1000 * built g v i j).
Proof.
  intros g v s c H. unfold MakeStiffnessMatrix in H. destruct (build_C g v) as [m|e] eqn:B; [|discriminate]. apply build_ok in B as [L ->]. split; [assumption|].
  destruct (inv (built g v)) as [b|] eqn:E; [|discriminate]. unfold set_compliance in H. destruct (inv b) as [d|] eqn:E'; [|discriminate]. injection H as <-.
  apply Hinv in E, E'. pose proof (inverse_unique b d (built g v) E' (inverse_swap _ _ E)) as U. intros i j I J. rewrite (U i j I J). ring.
Qed.
Lemma required_scale : forall g v k, List.length v = count g -> required_C g (fun i j => k * built g v i j) = map (Rmult k) v.
Proof. intros g v k L. transitivity (map (Rmult k) (required_C g (built g v))); [|now rewrite built_required]. unfold required_C. rewrite map_map. reflexivity. Qed.
Lemma reciprocal : forall s b, get_compliance inv (Some s) = Ok b -> same6 (times6 s b) (fun i j => 1000 * unit6 i j).
Proof.
  intros s b G. unfold get_compliance in G. destruct (inv (fun i j => s i j / 1000)) as [b'|] eqn:E; [|discriminate]. injection G as <-.
  apply Hinv in E as [E _]. intros i j I J. rewrite <- (E i j I J). unfold times6, sum6. field.
Qed.
End Stored.

(** an inversion that answers for multiples of the unit matrix *)
Fixpoint all_eq (l : list (R * R)) : bool := match l with [] => true | (x, y) :: l' => if Req_EM_T x y then all_eq l' else false end.
Definition idx : list (nat * nat) := flat_map (fun i => map (fun j => (i, j)) (seq 0 6)) (seq 0 6).
Definition diag_inv (a : rows6) : option rows6 :=
  let k := a 0%nat 0%nat in
  if Req_EM_T k 0 then None
  else if all_eq (map (fun p => (a (fst p) (snd p), k * unit6 (fst p) (snd p))) idx) then Some (fun i j => / k * unit6 i j) else None.
Lemma all_eq_spec : forall l, all_eq l = true <-> forall p, In p l -> fst p = snd p.
Proof.
  induction l as [|[x y] l IH]; cbn [all_eq]; [now split; [intros _ p []|]|]. destruct (Req_EM_T x y) as [E|E].
  - rewrite IH. split; intros H p.
    + intros [<- | P]; [exact E|now apply H].
    + intros P. apply H. now right.
  - split; [discriminate|]. intros H. exfalso. apply E. exact (H (x, y) (or_introl eq_refl)).
Qed.
Lemma idx_in : forall i j, (i < 6)%nat -> (j < 6)%nat -> In (i, j) idx.
Proof. intros i j I J. unfold idx. apply in_flat_map. exists i. split; [apply in_seq; lia|]. apply in_map, in_seq. lia. Qed.
Lemma diag_spec : forall a k, k <> 0 -> same6 a (fun i j => k * unit6 i j) -> diag_inv a = Some (fun i j => / k * unit6 i j).
Proof.
  intros a k K H. assert (A : a 0%nat 0%nat = k) by (rewrite H by lia; unfold unit6; cbn [Nat.eqb]; ring). unfold diag_inv. rewrite A. destruct (Req_EM_T k 0); [contradiction|].
  replace (all_eq _) with true; [reflexivity|]. symmetry. apply all_eq_spec. intros p P. apply in_map_iff in P as ([i j] & <- & P). cbn [fst snd]. unfold idx in P.
  apply in_flat_map in P as (i' & I & P). apply in_map_iff in P as (j' & [= <- <-] & J). apply in_seq in I, J. apply H; lia.
Qed.
Lemma diag_inverts : inverts diag_inv.
Proof.
  intros a b H. unfold diag_inv in H. destruct (Req_EM_T (a 0%nat 0%nat) 0) as [|K]; [discriminate|]. set (k := a 0%nat 0%nat) in *.
  destruct (all_eq _) eqn:E; [|discriminate]. injection H as <-. rewrite all_eq_spec in E.
  assert (S : same6 a (fun i j => k * unit6 i j)).
  { intros i j I J. apply (E (a i j, k * unit6 i j)). apply in_map_iff. exists (i, j). split; [reflexivity|now apply idx_in]. }
  split.
  - apply same_trans with (times6 (fun i j => k * unit6 i j) (fun i j => / k * unit6 i j)); [apply times_same; [assumption|apply same_refl]|].
    intros i j I J. unfold times6, sum6, unit6. clear -K I J. clearbody k. six i; six j; cbn [Nat.eqb]; field; assumption.
  - apply same_trans with (times6 (fun i j => / k * unit6 i j) (fun i j => k * unit6 i j)); [apply times_same; [apply same_refl|assumption]|].
    intros i j I J. unfold times6, sum6, unit6. clear -K I J. clearbody k. six i; six j; cbn [Nat.eqb]; field; assumption.
Qed.
Lemma unit_cubic : same6 (built Oh [1; 0; 1]) unit6.
Proof. intros i j I J. six i; six j; eval_mat; lra. Qed.
Lemma make_unit : exists c, MakeStiffnessMatrix diag_inv Oh [1; 0; 1] None = (Some c, None).
Proof.
  assert (U : same6 (built Oh [1; 0; 1]) (fun i j => 1 * unit6 i j)) by (apply same_trans with unit6; [apply unit_cubic|intros i j _ _; ring]).
  unfold MakeStiffnessMatrix. rewrite (proj2 (build_ok Oh [1; 0; 1] _) (conj eq_refl eq_refl)), (diag_spec _ 1); [|lra|assumption].
  unfold set_compliance. rewrite (diag_spec _ (/ 1)); [|lra|intros i j _ _; reflexivity]. eexists. reflexivity.
Qed.
