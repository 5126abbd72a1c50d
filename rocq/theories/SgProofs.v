(** Lemmas about the space-group model: the generation loops in general, and
    the checks that are evaluated for each of the 230 groups. *)
From Coq Require Import String Ascii.
From Verif Require Import Prelude SgTables SgModel SgSpec.
Local Open Scope Z_scope.

(** ** Decidable equality *)
Lemma iv_eqb_eq a b : iv_eqb a b = true <-> a = b.
Proof.
  destruct a as [a0 a1 a2], b as [b0 b1 b2]; unfold iv_eqb; cbn.
  rewrite !andb_true_iff, !Z.eqb_eq; split; [intros [[-> ->] ->]; auto | now intros [= -> -> ->]].
Qed.
Lemma im_eqb_eq a b : im_eqb a b = true <-> a = b.
Proof.
  destruct a as [a0 a1 a2], b as [b0 b1 b2]; unfold im_eqb; cbn.
  rewrite !andb_true_iff, !iv_eqb_eq; split; [intros [[-> ->] ->]; auto | now intros [= -> -> ->]].
Qed.
Lemma op_eqb_eq a b : op_eqb a b = true <-> a = b.
Proof.
  destruct a as [a0 a1], b as [b0 b1]; unfold op_eqb; cbn.
  rewrite andb_true_iff, im_eqb_eq, iv_eqb_eq; split; [intros [-> ->]; auto | now intros [= -> ->]].
Qed.
Lemma iv_eqb_refl a : iv_eqb a a = true. Proof. now apply iv_eqb_eq. Qed.
Lemma im_eqb_refl a : im_eqb a a = true. Proof. now apply im_eqb_eq. Qed.
Lemma op_eqb_refl a : op_eqb a a = true. Proof. now apply op_eqb_eq. Qed.

(** ** Model operations are the specification's *)
Lemma imm_matmul a b : imm a b = matmul a b. Proof. reflexivity. Qed.
Lemma ivm_row v m : ivm v m = row_act v m. Proof. reflexivity. Qed.
Lemma imv_act m v : imv m v = act m v. Proof. reflexivity. Qed.
Lemma op_dot_compose a b : op_dot a b = compose a b. Proof. reflexivity. Qed.
Lemma imneg_neg m : imneg m = negm m. Proof. reflexivity. Qed.

Lemma div24 x y : (24 | x - y) <-> x mod 24 = y mod 24.
Proof.
  split.
  - intros [k H]. replace x with (y + k * 24) by lia. apply Z.mod_add; lia.
  - intros H. exists (x / 24 - y / 24). pose proof (Z.div_mod x 24). pose proof (Z.div_mod y 24). lia.
Qed.

Lemma same_op_frac a b : same_op a b <-> op_frac a = op_frac b.
Proof.
  unfold same_op, op_frac. rewrite !div24.
  split; [intros (-> & -> & -> & ->); auto | now intros [= -> -> -> ->]].
Qed.
Lemma op_frac_idem a : op_frac (op_frac a) = op_frac a.
Proof. unfold op_frac; cbn. now rewrite !Z.mod_mod by lia. Qed.

(** ** Boolean membership *)
Section Member.
  Context {A : Type} (eqb : A -> A -> bool) (Heq : forall a b, eqb a b = true <-> a = b).
  Definition memb (x : A) (l : list A) : bool := existsb (eqb x) l.
  Lemma memb_in x l : memb x l = true <-> In x l.
  Proof.
    unfold memb. rewrite existsb_exists. split.
    - intros (y & Hy & E). apply Heq in E. now subst.
    - intros H. exists x. split; auto. now apply Heq.
  Qed.
  Fixpoint nodupb (l : list A) : bool :=
    match l with [] => true | x :: t => negb (memb x t) && nodupb t end.
  Lemma nodupb_NoDup l : nodupb l = true -> NoDup l.
  Proof.
    induction l as [|x t IH]; cbn; [constructor|].
    rewrite andb_true_iff, negb_true_iff. intros [H1 H2]. constructor; auto.
    intros Hin. apply memb_in in Hin. congruence.
  Qed.
  Lemma isnew_spec x l : isnew eqb x l = true <-> ~ In x l.
  Proof.
    unfold isnew. rewrite negb_true_iff. rewrite <- memb_in. unfold memb.
    destruct (existsb _ l); split; try congruence; tauto.
  Qed.
End Member.

(** ** The generation loop, for any product and any starting list *)
Section LoopFacts.
  Context {A : Type} (mul : A -> A -> A) (eqb : A -> A -> bool) (cap : nat).

  Lemma inner_inv (P : A -> Prop) : (forall a b, P a -> P b -> P (mul a b)) ->
    forall fuel l g1 k1 k2 l' k', P g1 -> Forall P l ->
    inner mul eqb cap fuel l g1 k1 k2 = Ok (l', k') -> Forall P l'.
  Proof.
    intros HP. induction fuel as [|f IH]; intros l g1 k1 k2 l' k' H1 Hl; cbn [inner]; [discriminate|].
    destruct (nth_error l k2) as [g2|] eqn:E; [|now intros [= <- _]].
    assert (P g2) by (rewrite Forall_forall in Hl; eapply Hl, nth_error_In, E).
    assert (Forall P (l ++ [mul g1 g2])) by (apply Forall_app; auto).
    destruct (isnew eqb _ l); [destruct (_ <=? _)%nat|]; eapply IH; eauto.
  Qed.

  Lemma outer_inv (P : A -> Prop) : (forall a b, P a -> P b -> P (mul a b)) ->
    forall fuel l k1 l', Forall P l -> outer mul eqb cap fuel l k1 = Ok l' -> Forall P l'.
  Proof.
    intros HP. induction fuel as [|f IH]; intros l k1 l' Hl; cbn [outer]; [discriminate|].
    destruct (nth_error l k1) as [g1|] eqn:E; [|now intros [= <-]].
    assert (P g1) by (rewrite Forall_forall in Hl; eapply Hl, nth_error_In, E).
    destruct (inner _ _ _ _ _ _ _ _) as [[l1 k']|] eqn:E1; [|discriminate].
    apply IH. eapply inner_inv; eauto.
  Qed.

  Lemma inner_incl fuel : forall l g1 k1 k2 l' k',
    inner mul eqb cap fuel l g1 k1 k2 = Ok (l', k') -> incl l l'.
  Proof.
    induction fuel as [|f IH]; intros l g1 k1 k2 l' k'; cbn [inner]; [discriminate|].
    destruct (nth_error l k2) as [g2|]; [|intros [= <- _]; apply incl_refl].
    destruct (isnew eqb _ l); [destruct (_ <=? _)%nat|]; intros H; apply IH in H; auto;
      eapply incl_tran; [|eassumption | |eassumption]; intros x Hx; apply in_or_app; auto.
  Qed.

  Lemma outer_incl fuel : forall l k1 l', outer mul eqb cap fuel l k1 = Ok l' -> incl l l'.
  Proof.
    induction fuel as [|f IH]; intros l k1 l'; cbn [outer]; [discriminate|].
    destruct (nth_error l k1) as [g1|]; [|intros [= <-]; apply incl_refl].
    destruct (inner _ _ _ _ _ _ _ _) as [[l1 k']|] eqn:E1; [|discriminate].
    intros H. apply IH in H. apply inner_incl in E1. eapply incl_tran; eassumption.
  Qed.
End LoopFacts.

(** ** Composition modulo the lattice *)
Lemma matmul_assoc a b c : matmul (matmul a b) c = matmul a (matmul b c).
Proof.
  destruct a as [[a00 a01 a02] [a10 a11 a12] [a20 a21 a22]], b as [[b00 b01 b02] [b10 b11 b12] [b20 b21 b22]],
    c as [[c00 c01 c02] [c10 c11 c12] [c20 c21 c22]].
  unfold matmul, row_act; cbn [r0 r1 r2 v0 v1 v2]. f_equal; f_equal; ring.
Qed.
Lemma compose_assoc a b c : compose (compose a b) c = compose a (compose b c).
Proof.
  destruct a as [a [ta0 ta1 ta2]], b as [b [tb0 tb1 tb2]], c as [c [tc0 tc1 tc2]].
  unfold compose; cbn [op_r op_t]. f_equal; [apply matmul_assoc|].
  destruct a as [[a00 a01 a02] [a10 a11 a12] [a20 a21 a22]], b as [[b00 b01 b02] [b10 b11 b12] [b20 b21 b22]].
  unfold matmul, row_act, idot; cbn [r0 r1 r2 v0 v1 v2]. f_equal; ring.
Qed.
Lemma same_op_refl a : same_op a a.
Proof. now apply same_op_frac. Qed.
Lemma same_op_sym a b : same_op a b -> same_op b a.
Proof. rewrite !same_op_frac. auto. Qed.
Lemma same_op_trans a b c : same_op a b -> same_op b c -> same_op a c.
Proof. rewrite !same_op_frac. congruence. Qed.

Lemma div_dot v x y : (24 | v0 x - v0 y) -> (24 | v1 x - v1 y) -> (24 | v2 x - v2 y) ->
  (24 | idot v x - idot v y).
Proof.
  intros [p Hp] [q Hq] [r Hr]. exists (v0 v * p + v1 v * q + v2 v * r). unfold idot.
  replace (v0 x) with (v0 y + p * 24) by lia. replace (v1 x) with (v1 y + q * 24) by lia.
  replace (v2 x) with (v2 y + r * 24) by lia. ring.
Qed.
Lemma same_op_compose a a' b b' : same_op a a' -> same_op b b' -> same_op (compose a b) (compose a' b').
Proof.
  intros (Ha & Ha0 & Ha1 & Ha2) (Hb & Hb0 & Hb1 & Hb2). unfold same_op, compose; cbn [op_r op_t v0 v1 v2].
  rewrite Ha, Hb. split; [reflexivity|].
  assert (D : forall v x y, (24 | x - y) ->
    (24 | idot v (op_t b) + x - (idot v (op_t b') + y))).
  { intros v x y H. pose proof (div_dot v _ _ Hb0 Hb1 Hb2) as H'.
    replace (idot v (op_t b) + x - (idot v (op_t b') + y))
      with ((idot v (op_t b) - idot v (op_t b')) + (x - y)) by ring.
    now apply Z.divide_add_r. }
  auto.
Qed.

(** A list that absorbs the generators on the right absorbs their products. *)
Lemma absorbs gens ops :
  (forall a g, In a ops -> In g gens -> exists c, In c ops /\ same_op c (compose a g)) ->
  forall x, product_of gens x ->
  forall a, In a ops -> exists c, In c ops /\ same_op c (compose a x).
Proof.
  intros H x Hx. induction Hx as [g Hg | p q r Hp IHp Hq IHq Hr]; intros a Ha; [now apply H|].
  destruct (IHp a Ha) as (c1 & I1 & S1). destruct (IHq c1 I1) as (c2 & I2 & S2).
  exists c2. split; auto. eapply same_op_trans; [exact S2|].
  eapply same_op_trans; [apply same_op_compose; [exact S1|apply same_op_refl]|].
  rewrite compose_assoc. apply same_op_compose; [apply same_op_refl|now apply same_op_sym].
Qed.

(** ** Checks evaluated on one list of operations *)
Definition check_sg (gens ops : list symop) : bool :=
  memb op_eqb identity_op ops
  && forallb (fun a => forallb (fun b => memb op_eqb (op_frac (op_dot a b)) ops) gens) ops
  && forallb (fun a => existsb (fun b => op_eqb (op_frac (op_dot a b)) identity_op
                                         && op_eqb (op_frac (op_dot b a)) identity_op) ops) ops
  && forallb (fun a => op_eqb (op_frac a) a) ops
  && nodupb op_eqb ops.

Lemma check_sg_ok gens ops : Forall (product_of gens) ops -> check_sg gens ops = true -> space_group ops.
Proof.
  unfold check_sg. intros Hp. rewrite !andb_true_iff. intros ((((H1 & H2) & H3) & H4) & H5).
  apply (memb_in _ op_eqb_eq) in H1. apply (nodupb_NoDup _ op_eqb_eq) in H5.
  rewrite forallb_forall in H2, H3, H4.
  assert (R : forall a, In a ops -> op_frac a = a) by (intros a Ha; now apply op_eqb_eq, H4).
  constructor; auto.
  - intros a b Ha Hb. rewrite Forall_forall in Hp. refine (absorbs gens ops _ b (Hp b Hb) a Ha).
    clear a b Ha Hb. intros a b Ha Hb.
    specialize (H2 a Ha). rewrite forallb_forall in H2. specialize (H2 b Hb).
    apply (memb_in _ op_eqb_eq) in H2. eexists; split; [exact H2|].
    apply same_op_frac. now rewrite op_frac_idem.
  - intros a Ha. specialize (H3 a Ha). apply existsb_exists in H3. destruct H3 as (b & Hb & E).
    apply andb_true_iff in E. destruct E as [E1 E2]. apply op_eqb_eq in E1, E2.
    exists b. rewrite !same_op_frac. auto.
  - intros i j a b Hi Hj Hs. apply same_op_frac in Hs.
    rewrite !R in Hs by (eapply nth_error_In; eassumption). subst b.
    apply (proj1 (NoDup_nth_error ops) H5); [apply nth_error_Some; congruence | congruence].
Qed.

(** The operations made from a generator string are products of its generators. *)
Lemma generated sgnum setting gs gc sg pg laue c s :
  GeneratorString sgnum = Ok gs -> MakeGenerators gs setting = Ok gc ->
  GenerateSGSym sgnum setting = Ok (sg, pg, laue, c, s) ->
  Forall (product_of (fst gc)) sg /\ incl (fst gc) sg.
Proof.
  intros E1 E2. unfold GenerateSGSym. rewrite E1. cbn [rbind]. rewrite E2. cbn [rbind].
  destruct (outer _ _ _ _ _ _) as [l|] eqn:E; [|discriminate]. cbn [rbind].
  destruct (GeneratePGSym_Laue _) as [la|]; [|discriminate]. cbn [rbind].
  intros H. assert (l = sg) by congruence. subst l. split.
  - refine (outer_inv _ _ _ (product_of (fst gc)) _ _ _ _ _ _ E).
    + intros a b Ha Hb. eapply po_mul; [exact Ha|exact Hb|].
      apply same_op_frac. now rewrite op_frac_idem.
    + apply Forall_forall. intros x Hx. now constructor.
  - eapply outer_incl, E.
Qed.

Definition check_mg (l : list imat) : bool :=
  memb im_eqb one l
  && forallb (fun a => forallb (fun b => memb im_eqb (imm a b) l) l) l
  && forallb (fun a => existsb (fun b => im_eqb (imm a b) one && im_eqb (imm b a) one) l) l
  && nodupb im_eqb l.

Lemma check_mg_ok l : check_mg l = true -> matrix_group l.
Proof.
  unfold check_mg. rewrite !andb_true_iff. intros (((H1 & H2) & H3) & H4).
  apply (memb_in _ im_eqb_eq) in H1. apply (nodupb_NoDup _ im_eqb_eq) in H4.
  rewrite forallb_forall in H2, H3. constructor; auto.
  - intros a b Ha Hb. specialize (H2 a Ha). rewrite forallb_forall in H2. specialize (H2 b Hb).
    now apply (memb_in _ im_eqb_eq) in H2.
  - intros a Ha. specialize (H3 a Ha). apply existsb_exists in H3. destruct H3 as (b & Hb & E).
    apply andb_true_iff in E. destruct E as [E1 E2]. apply im_eqb_eq in E1, E2. eauto.
Qed.

Definition subsetb (l1 l2 : list imat) : bool := forallb (fun x => memb im_eqb x l2) l1.
Lemma subsetb_incl l1 l2 : subsetb l1 l2 = true -> incl l1 l2.
Proof. unfold subsetb. rewrite forallb_forall. intros H x Hx. now apply (memb_in _ im_eqb_eq), H. Qed.
Definition op_subsetb (l1 l2 : list symop) : bool := forallb (fun x => memb op_eqb x l2) l1.
Lemma op_subsetb_incl l1 l2 : op_subsetb l1 l2 = true -> incl l1 l2.
Proof. unfold op_subsetb. rewrite forallb_forall. intros H x Hx. now apply (memb_in _ op_eqb_eq), H. Qed.

Fixpoint nat_list_eqb (a b : list nat) : bool :=
  match a, b with
  | [], [] => true
  | x :: a, y :: b => Nat.eqb x y && nat_list_eqb a b
  | _, _ => false
  end.
Lemma nat_list_eqb_eq a b : nat_list_eqb a b = true -> a = b.
Proof.
  revert b; induction a as [|x a IH]; intros [|y b]; cbn; try discriminate; auto.
  rewrite andb_true_iff. intros [E1 E2]. apply Nat.eqb_eq in E1. f_equal; auto.
Qed.
Definition classb (symbol : string) (l : list imat) : bool :=
  existsb (fun e => String.eqb symbol (fst e) && nat_list_eqb (census l) (snd e)) class_census.
Lemma classb_ok s l : classb s l = true -> has_class s l.
Proof.
  unfold classb, has_class. intros H. apply existsb_exists in H. destruct H as ([s' c] & Hin & E).
  cbn [fst snd] in E. apply andb_true_iff in E. destruct E as [E1 E2].
  apply String.eqb_eq in E1. apply nat_list_eqb_eq in E2. now rewrite E1, E2.
Qed.

(** everything that is checked for one space group and setting *)
Definition check_one (sgnum setting : Z) : bool :=
  match (do gs <- GeneratorString sgnum; MakeGenerators gs setting),
        GenerateSGSym sgnum setting, GetPgLg sgnum with
  | Ok gc, Ok (sg, pg, laue, c, s), Ok (pgn, lgn, _, _) =>
      check_sg (fst gc) sg
      && op_eqb (hd identity_op sg) identity_op
      && check_mg pg && check_mg laue
      && subsetb pg (map op_r sg) && subsetb (map op_r sg) pg
      && subsetb laue (pg ++ map imneg pg) && subsetb (pg ++ map imneg pg) laue
      && Bool.eqb c (memb im_eqb (negm one) pg)
      && classb pgn pg && classb lgn laue
  | _, _, _ => false
  end.

Lemma setting_norm sgnum setting :
  GenerateSGSym sgnum setting = GenerateSGSym sgnum (if setting =? 0 then 0 else 1).
Proof. unfold GenerateSGSym, MakeGenerators. destruct (setting =? 0) eqn:E; reflexivity. Qed.

Lemma zrange_all (P : Z -> bool) a b :
  forallb P (zrange a b) = true -> forall x, a <= x < b -> P x = true.
Proof. intros H x Hx. rewrite forallb_forall in H. apply H, in_zrange, Hx. Qed.

Lemma check_all : forallb (fun n => check_one n 0 && check_one n 1) (zrange 1 231) = true.
Proof. vm_compute. reflexivity. Qed.
