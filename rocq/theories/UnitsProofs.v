From Coq Require Import Reals QArith Qround String SpecFloat Lra Field.
From Verif Require Import Prelude UnitsModel UnitsSpec.
Local Close Scope Q_scope.
Local Open Scope R_scope.

Lemma unit_eqb_eq : forall u v, unit_eqb u v = true <-> u = v.
Proof.
  intros u v; destruct u, v; cbn; try (split; [discriminate | discriminate]); try (split; reflexivity).
  rewrite String.eqb_eq. split; [intros ->; reflexivity | intros H; injection H as ->; reflexivity].
Qed.
Lemma si_pos : forall u, 0 < si u.
Proof. pose proof PI_RGT_0. intros []; cbn [si]; try lra; apply Rinv_0_lt_compat; lra. Qed.
Theorem meaning_lemma : forall hc x y u v, get_val hc x u v = Ok y ->
  (same_kind u v /\ y * si v = x * si u) \/ (energy_wavelength u v /\ x <> 0 /\ x * y = hc).
Proof.
  pose proof PI_RGT_0 as HP.
  intros hc x y u v H. unfold get_val in H. destruct (unit_eqb u v) eqn:E.
  - apply unit_eqb_eq in E. subst v. injection H as ->. left. split; [left; reflexivity | reflexivity].
  - destruct u, v; cbn [cv] in H; try discriminate H;
    try (injection H as <-; left; split; [right; eexists; split; reflexivity | cbn [si]; field; try lra]);
    (right; unfold keV_to_angstrom in H; destruct (Req_EM_T x 0) as [Z|Z]; [discriminate H|]; injection H as <-;
     split; [unfold energy_wavelength; tauto | split; [exact Z | field; exact Z]]).
Qed.
Theorem convertible_lemma : forall hc x u v, same_kind u v -> u <> Nm \/ v = Nm -> exists y, get_val hc x u v = Ok y.
Proof.
  intros hc x u v S N. unfold get_val. destruct (unit_eqb u v) eqn:E; [eexists; reflexivity|].
  destruct S as [S|[k [A B]]]; [apply unit_eqb_eq in S; congruence|].
  destruct u, v; try discriminate A; try discriminate B; try discriminate E; try (injection A as <-; discriminate B); cbn [cv]; try (eexists; reflexivity);
  destruct N; congruence.
Qed.
Lemma mult_cancel : forall a b c, 0 < c -> a * c = b * c -> a = b.
Proof. intros a b c H E. apply Rmult_eq_reg_r with c; lra. Qed.
Theorem round_trip_lemma : forall hc x y z u v, get_val hc x u v = Ok y -> get_val hc y v u = Ok z -> z = x.
Proof.
  intros hc x y z u v H1 H2. destruct (meaning_lemma _ _ _ _ _ H1) as [[S1 E1]|[W1 [N1 E1]]]; destruct (meaning_lemma _ _ _ _ _ H2) as [[S2 E2]|[W2 [N2 E2]]].
  - apply (mult_cancel _ _ (si u) (si_pos u)). lra.
  - exfalso. destruct S1 as [->|[k [A B]]]; [destruct W2 as [[? ?]|[? ?]]; congruence|].
    destruct W2 as [[-> ->]|[-> ->]]; cbn in A, B; congruence.
  - exfalso. destruct S2 as [->|[k [A B]]]; [destruct W1 as [[? ?]|[? ?]]; congruence|].
    destruct W1 as [[-> ->]|[-> ->]]; cbn in A, B; congruence.
  - apply Rmult_eq_reg_l with y; [|exact N2]. rewrite E2, Rmult_comm. symmetry; exact E1.
Qed.
Theorem compose_lemma : forall hc x y z z' u v w, get_val hc x u v = Ok y -> get_val hc y v w = Ok z -> get_val hc x u w = Ok z' -> z = z'.
Proof.
  intros hc x y z z' u v w H1 H2 H3. pose proof H1 as G1; pose proof H2 as G2; pose proof H3 as G3.
  apply meaning_lemma in H1, H2, H3.
  destruct H1 as [[S1 E1]|[W1 [N1 E1]]]; destruct H2 as [[S2 E2]|[W2 [N2 E2]]]; destruct H3 as [[S3 E3]|[W3 [N3 E3]]].
  - apply (mult_cancel _ _ (si w) (si_pos w)). lra.
  - exfalso. assert (K : same_kind u w).
    { destruct S1 as [->|[k [A B]]]; [exact S2|]. destruct S2 as [->|[k2 [A2 B2]]]; [right; eauto|]. right; exists k; split; [exact A | congruence]. }
    destruct K as [->|[k [A B]]]; [destruct W3 as [[? ?]|[? ?]]; congruence|]. destruct W3 as [[-> ->]|[-> ->]]; cbn in A, B; congruence.
  - exfalso. destruct W2 as [[-> ->]|[-> ->]].
    + destruct S3 as [->|[k [A B]]]; destruct S1 as [S1|[k1 [A1 B1]]]; try discriminate S1; try (subst u; cbn in *; congruence); cbn in *; congruence.
    + destruct S3 as [->|[k [A B]]]; destruct S1 as [S1|[k1 [A1 B1]]]; try discriminate S1; try (subst u; cbn in *; congruence); cbn in *; congruence.
  - destruct W2 as [[-> ->]|[-> ->]]; destruct W3 as [[-> W3]|[-> W3]]; try discriminate W3.
    + cbn in G1. unfold get_val in G1. cbn in G1. injection G1 as ->. rewrite G2 in G3. injection G3 as <-. reflexivity.
    + unfold get_val in G1. cbn in G1. injection G1 as ->. rewrite G2 in G3. injection G3 as <-. reflexivity.
  - destruct W1 as [[-> ->]|[-> ->]].
    + exfalso. destruct S2 as [<-|[k [A B]]]; destruct S3 as [S3|[k3 [A3 B3]]]; try discriminate S3; try (subst w; cbn in *; congruence); cbn in *; congruence.
    + exfalso. destruct S2 as [<-|[k [A B]]]; destruct S3 as [S3|[k3 [A3 B3]]]; try discriminate S3; try (subst w; cbn in *; congruence); cbn in *; congruence.
  - destruct W1 as [[-> ->]|[-> ->]]; destruct W3 as [[W3 ->]|[W3 ->]]; try discriminate W3.
    + unfold get_val in G2. cbn in G2. injection G2 as <-. rewrite G1 in G3. injection G3 as <-. reflexivity.
    + unfold get_val in G2. cbn in G2. injection G2 as <-. rewrite G1 in G3. injection G3 as <-. reflexivity.
  - assert (w = u) by (destruct W1 as [[-> ->]|[-> ->]]; destruct W2 as [[W2 ->]|[W2 ->]]; try discriminate W2; reflexivity). subst w.
    rewrite (round_trip_lemma _ _ _ _ _ _ G1 G2). unfold get_val in G3. rewrite (proj2 (unit_eqb_eq u u) eq_refl) in G3. injection G3 as <-. reflexivity.
  - exfalso. assert (w = u) by (destruct W1 as [[-> ->]|[-> ->]]; destruct W2 as [[W2 ->]|[W2 ->]]; try discriminate W2; reflexivity). subst w.
    destruct W3 as [[-> C]|[-> C]]; discriminate C.
Qed.
(** the sum expressed in any unit is the sum of the SI values *)
Theorem add_lemma : forall hc a b y, same_kind (snd b) (snd a) ->
  (add_q hc a b = Ok y -> snd y = snd a /\ fst y * si (snd y) = fst a * si (snd a) + fst b * si (snd b)) /\
  (sub_q hc a b = Ok y -> snd y = snd a /\ fst y * si (snd y) = fst a * si (snd a) - fst b * si (snd b)).
Proof.
  intros hc [x u] [x' u'] y S. unfold add_q, sub_q. cbn [fst snd] in *. destruct (get_val hc x' u' u) as [z|] eqn:E; cbn [rbind]; [|split; discriminate].
  apply meaning_lemma in E. destruct E as [[_ E]|[W _]].
  - split; intros H; injection H as <-; cbn [fst snd]; split; auto; lra.
  - exfalso. destruct S as [->|[k [A B]]]; [destruct W as [[? ?]|[? ?]]; congruence|]. destruct W as [[-> ->]|[-> ->]]; cbn in A, B; congruence.
Qed.

(** ** indices *)
Local Open Scope Z_scope.
Theorem hex_round_lemma : forall p, eqQ3 (rhomb_of_hex (hex_of_rhomb p)) (Z3 p).
Proof.
  intros [[h k] l]. cbn [hex_of_rhomb rhomb_of_hex rhomb_of_hex3 Z3 eqQ3].
  repeat split; unfold Qeq, Qdiv, Qmult, Qinv; cbn [inject_Z Qnum Qden]; lia.
Qed.
Theorem hex_obverse_lemma : forall p, (exists q, eqQ3 (rhomb_of_hex p) (Z3 q)) <-> obverse p.
Proof.
  intros [[H K] L]. unfold obverse. cbn [rhomb_of_hex rhomb_of_hex3]. split.
  - intros [[[h k] l] [_ [E _]]]. cbn [Z3] in E. unfold Qeq, Qdiv, Qmult, Qinv in E. cbn [inject_Z Qnum Qden] in E. lia.
  - intros O. exists ((2 * H + K + L) / 3, (- H + K + L) / 3, (- H - 2 * K + L) / 3). cbn [Z3 eqQ3].
    repeat split; unfold Qeq, Qdiv, Qmult, Qinv; cbn [inject_Z Qnum Qden]; lia.
Qed.
Lemma qtrunc_int : forall q z, Qeq q (inject_Z z) -> qtrunc q = z.
Proof.
  intros q z E. unfold qtrunc. destruct (Qle_bool 0 q).
  - rewrite E. apply Qfloor_Z.
  - assert (E' : Qeq (- q) (inject_Z (- z))) by (rewrite E; unfold Qeq; cbn; lia). rewrite E', Qfloor_Z. lia.
Qed.
Theorem hex_converse_lemma : forall p, hex_of_rhombQ (rhomb_of_hex p) = p.
Proof.
  intros [[H K] L]. cbn [rhomb_of_hex rhomb_of_hex3 hex_of_rhombQ]. f_equal; [f_equal|]; apply qtrunc_int;
  unfold Qeq, Qdiv, Qmult, Qinv, Qminus, Qplus, Qopp; cbn [inject_Z Qnum Qden]; lia.
Qed.
Theorem bravais_lemma : forall p, eqQ3 (miller_of_bravais (bravais_of_miller p)) p /\ eqQ3 (bravais_of_miller (miller_of_bravais p)) p.
Proof. intros [[u v] w]. cbn [miller_of_bravais bravais_of_miller eqQ3]. repeat split; field. Qed.
