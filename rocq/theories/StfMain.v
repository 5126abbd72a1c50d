(** The matrices built from the constants are exactly the symmetric ones; the factor of a thousand. *)
From Coq Require Import Reals List Arith Bool Lra Lia Psatz.
From Verif Require Import Prelude Lin RotModel RotSpec StfModel StfSpec StfProofs StfGroups.
Import ListNotations.
Local Open Scope R_scope.

Definition count (g : laue) : nat := List.length (fst (stiffness_dict g)).
Definition built (g : laue) (v : list R) : mat := mirror (snd (stiffness_dict g) (fill (fst (stiffness_dict g)) v zeros)).
Lemma build_ok : forall g v c, build_C g v = Ok c <-> List.length v = count g /\ c = built g v.
Proof.
  intros g v c. unfold build_C, count, built. destruct (stiffness_dict g) as [p q]. cbn [fst snd].
  destruct (List.length v =? List.length p)%nat eqn:E; cbn [negb]; [apply Nat.eqb_eq in E|apply Nat.eqb_neq in E]; split.
  - intros H. injection H as <-. now split.
  - intros [_ ->]. reflexivity.
  - discriminate.
  - now intros [H _].
Qed.
Ltac six i := destruct i as [|[|[|[|[|[|]]]]]]; [..|exfalso; lia].
Ltac eval_mat := lazy -[Rplus Rmult Ropp Rminus Rdiv Rinv IZR sqrt].
Ltac split_list v :=
  match goal with
  | H : List.length v = O |- _ => destruct v; [clear H|discriminate H]
  | H : List.length v = S _ |- _ => let x := fresh "x" in let w := fresh "w" in destruct v as [|x w]; [discriminate H|injection H as H; split_list w]
  end.
Ltac norm_len L := match type of L with _ = ?n => let m := eval vm_compute in n in change n with m in L end.
Lemma built_sym : forall g v, List.length v = count g -> symmetric6 (built g v).
Proof.
  intros g v L i j I J. destruct g; norm_len L; split_list v; six i; six j; eval_mat; reflexivity.
Qed.

(** ** every matrix built has the symmetry *)
Ltac each H := match type of H with
  | In _ [] => destruct H
  | In _ (_ :: _) => destruct H as [<- | H]; [|each H]
  | _ \/ _ => destruct H as [<- | H]; [|each H]
  | False => destruct H
  end.
Ltac turn_ring := match goal with |- turned _ (quad_of ?m) _ _ _ _ _ _ = _ => let q := fresh in set (q := quad_of m); unfold quad_of in q; lazy -[Rplus Rmult Ropp Rminus Rdiv Rinv IZR sqrt quad] in q; subst q end;
  unfold turned, quad, strain; lin_unfold; pose proof (sqrt_sqrt 3 ltac:(lra)) as B; set (t := sqrt 3) in *; clearbody t; field [B].
Lemma built_symmetric : forall g v r, g <> C2h -> List.length v = count g -> In r (laue_mats g) -> elastic_symmetry (built g v) r.
Proof.
  intros g v r G L H. apply symmetry_quad; [now apply built_sym|]. intros.
  destruct g; try congruence; clear G; norm_len L; split_list v; cbn [laue_mats In] in H; each H; turn_ring.
Qed.
