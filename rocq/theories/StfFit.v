(** Every elastically symmetric matrix is built from its own constants; the factor of a thousand. *)
From Coq Require Import Reals List Arith Bool Lra Lia Psatz.
From Verif Require Import Prelude Lin RotModel RotSpec StfModel StfSpec StfProofs StfGroups StfMain.
Import ListNotations.
Local Open Scope R_scope.

Lemma built_required : forall g v, List.length v = count g -> required_C g (built g v) = v.
Proof. intros g v L. destruct g; norm_len L; split_list v; eval_mat; reflexivity. Qed.
Lemma required_len : forall g c, List.length (required_C g c) = count g.
Proof. intros. unfold required_C, count. apply map_length. Qed.
Lemma required_same : forall g c d, same6 c d -> required_C g c = required_C g d.
Proof. intros g c d H. unfold required_C. apply map_ext_in. intros p P. apply H; destruct g; vm_compute in P; repeat (destruct P as [<- | P]; [cbn [fst snd]; lia|]); destruct P. Qed.
Lemma use_sym : forall c r, symmetric6 c -> elastic_symmetry c r -> forall a b d e f g, turned r (quad_of c) a b d e f g = quad_of c a b d e f g.
Proof. intros c r S H. now apply symmetry_quad. Qed.
Ltac entry S := eval_mat; try reflexivity;
  match goal with
  | |- ?x = ?y => solve [lra]
  end.
Ltac entries c S :=
  let i := fresh "i" in let j := fresh "j" in intros i j Hi Hj;
  assert (forall p q, (p < 6)%nat -> (q < 6)%nat -> c p q = c q p) by exact S;
  six i; six j;
  match goal with |- _ = c ?p ?q => let b := eval vm_compute in (Nat.ltb q p) in match b with true => rewrite (S p q) by lia | false => idtac end end;
  eval_mat; lra.
Ltac gen L S := let E := fresh "E" in pose proof (fun H => L _ _ _ _ _ _ _ _ _ _ _ _ _ _ _ _ _ _ _ _ _ (use_sym _ _ S H)) as E; unfold quad_of in E.
Definition fits (g : laue) (c : mat) : Prop := same6 (built g (required_C g c)) c.
Lemma fits_D6h : forall c, fits D6h c = fits C6h c.
Proof. intros. unfold fits, built, required_C. change (stiffness_dict D6h) with (stiffness_dict C6h). reflexivity. Qed.
Lemma fits_Oh : forall c, fits Oh c = fits Th c.
Proof. intros. unfold fits, built, required_C. change (stiffness_dict Oh) with (stiffness_dict Th). reflexivity. Qed.
Section Fit.
Variable c : mat.
Hypothesis Hs : symmetric6 c.
Lemma fit_Ci : fits Ci c. Proof. entries c Hs. Qed.
Lemma fit_about_c : elastic_symmetry c half_turn_z -> fits C2h c.
Proof. intros Z. pose proof (gen_z _ _ _ _ _ _ _ _ _ _ _ _ _ _ _ _ _ _ _ _ _ (use_sym c _ Hs Z)) as E. decompose [and] E. entries c Hs. Qed.
Lemma fit_D2h : elastic_symmetry c half_turn_x -> elastic_symmetry c half_turn_z -> fits D2h c.
Proof. intros X Z. pose proof (gen_z _ _ _ _ _ _ _ _ _ _ _ _ _ _ _ _ _ _ _ _ _ (use_sym c _ Hs Z)) as E. pose proof (gen_x _ _ _ _ _ _ _ _ _ _ _ _ _ _ _ _ _ _ _ _ _ (use_sym c _ Hs X)) as E'. decompose [and] E. decompose [and] E'. entries c Hs. Qed.
Lemma fit_C4h : elastic_symmetry c half_turn_z -> elastic_symmetry c quarter_z -> fits C4h c.
Proof. intros Z Q. pose proof (gen_z _ _ _ _ _ _ _ _ _ _ _ _ _ _ _ _ _ _ _ _ _ (use_sym c _ Hs Z)) as E. pose proof (gen_4 _ _ _ _ _ _ _ _ _ _ _ _ _ _ _ _ _ _ _ _ _ (use_sym c _ Hs Q) E) as E'. decompose [and] E. decompose [and] E'. entries c Hs. Qed.
Lemma fit_D4h : elastic_symmetry c half_turn_x -> elastic_symmetry c half_turn_z -> elastic_symmetry c quarter_z -> fits D4h c.
Proof. intros X Z Q. pose proof (gen_z _ _ _ _ _ _ _ _ _ _ _ _ _ _ _ _ _ _ _ _ _ (use_sym c _ Hs Z)) as E. pose proof (gen_4 _ _ _ _ _ _ _ _ _ _ _ _ _ _ _ _ _ _ _ _ _ (use_sym c _ Hs Q) E) as E'. pose proof (gen_x _ _ _ _ _ _ _ _ _ _ _ _ _ _ _ _ _ _ _ _ _ (use_sym c _ Hs X)) as E''. decompose [and] E. decompose [and] E'. decompose [and] E''. entries c Hs. Qed.
Lemma fit_C3i : elastic_symmetry c third_z -> fits C3i c.
Proof. intros T. pose proof (gen_3 _ _ _ _ _ _ _ _ _ _ _ _ _ _ _ _ _ _ _ _ _ (use_sym c _ Hs T)) as E. decompose [and] E. entries c Hs. Qed.
Lemma fit_D3d : elastic_symmetry c half_turn_x -> elastic_symmetry c third_z -> fits D3d c.
Proof. intros X T. pose proof (gen_3 _ _ _ _ _ _ _ _ _ _ _ _ _ _ _ _ _ _ _ _ _ (use_sym c _ Hs T)) as E. pose proof (gen_x _ _ _ _ _ _ _ _ _ _ _ _ _ _ _ _ _ _ _ _ _ (use_sym c _ Hs X)) as E'. decompose [and] E. decompose [and] E'. entries c Hs. Qed.
Lemma fit_C6h : elastic_symmetry c half_turn_z -> elastic_symmetry c third_z -> fits C6h c.
Proof. intros X T. pose proof (gen_3 _ _ _ _ _ _ _ _ _ _ _ _ _ _ _ _ _ _ _ _ _ (use_sym c _ Hs T)) as E. pose proof (gen_z _ _ _ _ _ _ _ _ _ _ _ _ _ _ _ _ _ _ _ _ _ (use_sym c _ Hs X)) as E'. decompose [and] E. decompose [and] E'. entries c Hs. Qed.
Lemma fit_Th : elastic_symmetry c half_turn_x -> elastic_symmetry c half_turn_z -> elastic_symmetry c third_111 -> fits Th c.
Proof. intros X Z T. pose proof (gen_111 _ _ _ _ _ _ _ _ _ _ _ _ _ _ _ _ _ _ _ _ _ (use_sym c _ Hs T)) as E. pose proof (gen_z _ _ _ _ _ _ _ _ _ _ _ _ _ _ _ _ _ _ _ _ _ (use_sym c _ Hs Z)) as E'. pose proof (gen_x _ _ _ _ _ _ _ _ _ _ _ _ _ _ _ _ _ _ _ _ _ (use_sym c _ Hs X)) as E''. decompose [and] E. decompose [and] E'. decompose [and] E''. entries c Hs. Qed.
End Fit.
Ltac there := match goal with |- ?x = ?x \/ _ => left; exact eq_refl | |- _ \/ _ => right; there end.
Lemma all_fit : forall g c, g <> C2h -> symmetric6 c -> (forall r, In r (laue_mats g) -> elastic_symmetry c r) -> fits g c.
Proof.
  intros g c G S H.
  destruct g; [apply fit_Ci|congruence|apply fit_D2h|apply fit_C4h|apply fit_D4h|apply fit_C3i|apply fit_D3d|apply fit_C6h|rewrite fits_D6h; apply fit_C6h|apply fit_Th|rewrite fits_Oh; apply fit_Th];
  try exact S; apply H; cbn [laue_mats]; unfold half_turn_x, half_turn_z, quarter_z, third_z, third_111, diag; cbn [In]; there.
Qed.
