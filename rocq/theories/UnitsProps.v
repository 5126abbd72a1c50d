(** C45, C46, C68: units, hexagonal/rhombohedral indices and directions. *)
From Coq Require Import Reals QArith String SpecFloat Lra.
From Verif Require Import Prelude UnitsModel UnitsSpec UnitsProofs.
Local Close Scope Q_scope.

(** C45 *)
Theorem C45_rhombohedral_round_trip : forall p, eqQ3 (rhomb_of_hex (hex_of_rhomb p)) (Z3 p).
Proof. exact hex_round_lemma. Qed.
Print Assumptions C45_rhombohedral_round_trip.
Theorem C45_integer_iff_obverse : forall p, (exists q, eqQ3 (rhomb_of_hex p) (Z3 q)) <-> obverse p.
Proof. exact hex_obverse_lemma. Qed.
Print Assumptions C45_integer_iff_obverse.
(** in exact arithmetic the converse always holds *)
Theorem C45_hexagonal_round_trip : forall p, hex_of_rhombQ (rhomb_of_hex p) = p.
Proof. exact hex_converse_lemma. Qed.
Print Assumptions C45_hexagonal_round_trip.
(** in binary64 it fails for a reflection that is not obverse: 1 comes back as 0 *)
Theorem C45_float_not_obverse_refuted : exists p, ~ obverse p /\ hex_of_rhombF (rhomb_of_hexF p) <> p.
Proof. exists (1, 1, 190)%Z. split; [cbn; discriminate | vm_compute; discriminate]. Qed.
Print Assumptions C45_float_not_obverse_refuted.
Example C45_ex : hex_of_rhombF (rhomb_of_hexF (1, 1, 190)%Z) = (0, 1, 190)%Z /\ hex_of_rhombF (rhomb_of_hexF (1, 0, 1)%Z) = (1, 0, 1)%Z /\ obverse (1, 0, 1)%Z.
Proof. vm_compute. repeat split; reflexivity. Qed.

(** C46 *)
(** what a successful conversion means: the same SI value, or energy times wavelength equal to hc *)
Theorem C46_conversion_meaning : forall hc x y u v, get_val hc x u v = Ok y ->
  (same_kind u v /\ y * si v = x * si u)%R \/ (energy_wavelength u v /\ x <> 0%R /\ (x * y)%R = hc).
Proof. exact meaning_lemma. Qed.
Print Assumptions C46_conversion_meaning.
Theorem C46_round_trip : forall hc x y z u v, get_val hc x u v = Ok y -> get_val hc y v u = Ok z -> z = x.
Proof. exact round_trip_lemma. Qed.
Print Assumptions C46_round_trip.
Theorem C46_composition : forall hc x y z z' u v w, get_val hc x u v = Ok y -> get_val hc y v w = Ok z -> get_val hc x u w = Ok z' -> z = z'.
Proof. exact compose_lemma. Qed.
Print Assumptions C46_composition.
Theorem C46_sum_unit_independent : forall hc a b y, same_kind (snd b) (snd a) ->
  (add_q hc a b = Ok y -> snd y = snd a /\ fst y * si (snd y) = fst a * si (snd a) + fst b * si (snd b))%R /\
  (sub_q hc a b = Ok y -> snd y = snd a /\ fst y * si (snd y) = fst a * si (snd a) - fst b * si (snd b))%R.
Proof. exact add_lemma. Qed.
Print Assumptions C46_sum_unit_independent.
Theorem C46_convertible_partial : forall hc x u v, same_kind u v -> u <> Nm \/ v = Nm -> exists y, get_val hc x u v = Ok y.
Proof. exact convertible_lemma. Qed.
Print Assumptions C46_convertible_partial.
(** no length given in nanometres can be converted to another unit of length *)
Theorem C46_nanometre_refuted : forall hc x v, v <> Nm -> get_val hc x Nm v = Err RuntimeError.
Proof. intros hc x [] H; try reflexivity. congruence. Qed.
Print Assumptions C46_nanometre_refuted.
Example C46_ex : get_val 1 2 Mm M = Ok (/ 1000 * 2)%R /\ get_val 1 2 (Other "s") M = Err RuntimeError /\ same_kind Nm M.
Proof. repeat split. right. exists Length. split; reflexivity. Qed.

(** C68 *)
Theorem C68_direction_indices_inverse : forall p, eqQ3 (miller_of_bravais (bravais_of_miller p)) p /\ eqQ3 (bravais_of_miller (miller_of_bravais p)) p.
Proof. exact bravais_lemma. Qed.
Print Assumptions C68_direction_indices_inverse.
(** the scaling step can reverse the direction: [0 -3 0] becomes [-1 2 0], whose three-index form is [0 3 0] *)
Theorem C68_direction_reversed_refuted : exists p, eqQ3 (bravais_scaled (1 # 4503599627370496) p) (-(1), 2, 0)%Q /\
  eqQ3 (miller_of_bravais (bravais_scaled (1 # 4503599627370496) p)) (0, 3, 0)%Q /\ eqQ3 p (0, -(3), 0)%Q.
Proof. exists (0, -(3), 0)%Q. vm_compute. repeat split; reflexivity. Qed.
Print Assumptions C68_direction_reversed_refuted.
(** the redundant index is not minus the sum of the first two, and more than two directions raise *)
Theorem C68_redundant_index_refuted : exists p U V t W, bravais_four (1 # 4503599627370496) [p] = Ok [(U, V, t, W)] /\ ~ Qeq t (- (U + V)).
Proof. exists (1, 0, 0)%Q, (2 # 3)%Q, (-(1) # 3)%Q, (6 # 9)%Q, 0%Q. split; [vm_compute; reflexivity | vm_compute; discriminate]. Qed.
Print Assumptions C68_redundant_index_refuted.
Theorem C68_many_directions_refuted : forall eps a b c l, bravais_four eps (a :: b :: c :: l) = Err ValueError.
Proof. reflexivity. Qed.
Print Assumptions C68_many_directions_refuted.
Example C68_ex : bravais_of_miller (1, 1, 0)%Q = (1 # 3, 1 # 3, 0)%Q.
Proof. reflexivity. Qed.
