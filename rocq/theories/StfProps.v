(** C105, C106: the matrix of elastic constants. *)
From Coq Require Import Reals List Arith Bool Lra Lia Psatz.
From Verif Require Import Prelude Lin RotModel RotSpec StfModel StfSpec StfProofs StfGroups StfMain StfFit StfInv.
Import ListNotations.
Local Open Scope R_scope.

(** ** C105: the matrices that can be entered are those with the symmetry of the crystal *)
(** Every matrix built from a list of constants is symmetric, and no rotation of the Laue group changes the elastic energy (monoclinic crystals excepted). *)
Theorem C105_has_symmetry : forall g v c, g <> C2h -> build_C g v = Ok c ->
  symmetric6 c /\ forall r, In r (rots (quatOfLaueGroup g)) -> elastic_symmetry c r.
Proof.
  intros g v c G H. apply build_ok in H as [L ->]. split; [now apply built_sym|]. intros r R. rewrite laue_mats_ok in R. now apply built_symmetric.
Qed.
Print Assumptions C105_has_symmetry.
(** Conversely every matrix with that symmetry is built, from exactly one list of constants: the one [Required_C] reads off it. *)
Theorem C105_complete : forall g c, g <> C2h -> symmetric6 c -> (forall r, In r (rots (quatOfLaueGroup g)) -> elastic_symmetry c r) ->
  (exists c', build_C g (required_C g c) = Ok c' /\ same6 c' c) /\
  (forall v c', build_C g v = Ok c' -> same6 c' c -> v = required_C g c).
Proof.
  intros g c G S H. rewrite laue_mats_ok in H. split.
  - exists (built g (required_C g c)). split; [apply build_ok; split; [apply required_len|reflexivity]|]. now apply all_fit.
  - intros v c' B E. apply build_ok in B as [L ->]. rewrite <- (required_same g _ _ E). symmetry. now apply built_required.
Qed.
Print Assumptions C105_complete.
(** The number of constants asked for; any other number is refused. *)
Definition constants (g : laue) : nat :=
  match g with Ci => 21 | C2h => 13 | D2h => 9 | C4h => 7 | D4h => 6 | C3i => 7 | D3d => 6 | C6h => 5 | D6h => 5 | Th => 3 | Oh => 3 end.
Theorem C105_number : forall g v, (exists c, build_C g v = Ok c) <-> List.length v = constants g.
Proof.
  intros g v. assert (E : constants g = count g) by (destruct g; reflexivity). rewrite E. split.
  - intros (c & H). now apply build_ok in H.
  - intros L. exists (built g v). now apply build_ok.
Qed.
Print Assumptions C105_number.
(** In a monoclinic crystal the twofold axis of the Laue group is the second one, but the matrices built are those of a
    twofold axis along the third: some of them do not have the symmetry, and some with the symmetry cannot be entered. *)
Definition mono_ex : list R := [5; 1; 1; 1; 5; 1; 1; 5; 1; 3; 1; 3; 3].
Theorem C105_monoclinic_refuted :
  (exists v c r, build_C C2h v = Ok c /\ In r (rots (quatOfLaueGroup C2h)) /\ ~ elastic_symmetry c r) /\
  (exists c, symmetric6 c /\ (forall r, In r (rots (quatOfLaueGroup C2h)) -> elastic_symmetry c r) /\ forall v c', build_C C2h v = Ok c' -> ~ same6 c' c).
Proof.
  split.
  - exists mono_ex, (built C2h mono_ex), half_turn_y. split; [now apply build_ok|]. split.
    + rewrite laue_mats_ok. cbn [laue_mats In]. unfold half_turn_y, diag. right. now left.
    + intros H. specialize (H (strain 1 0 0 0 0 1) (strain_sym _ _ _ _ _ _)). revert H. unfold elastic_energy, sum6, half_turn_y. lin_unfold. unfold strain, voigt.
      cbn [m00 m01 m02 m10 m11 m12 m20 m21 m22]. eval_mat. lra.
  - set (c := fun i j : nat => if ((i =? 0) && (j =? 4) || (i =? 4) && (j =? 0))%nat%bool then 1 else 0). exists c.
    assert (S : symmetric6 c) by (intros i j I J; six i; six j; reflexivity). split; [assumption|]. split.
    + intros r R. rewrite laue_mats_ok in R. cbn [laue_mats In] in R. apply symmetry_quad; [assumption|]. intros. each R; turn_ring.
    + intros v c' B E. apply build_ok in B as [L ->]. specialize (E 0%nat 4%nat ltac:(lia) ltac:(lia)). norm_len L. split_list v. revert E. eval_mat. lra.
Qed.
Print Assumptions C105_monoclinic_refuted.
(** What does hold for monoclinic crystals: the same statement with the third axis in place of the second. *)
Theorem C105_monoclinic_about_c_partial :
  (forall v c, build_C C2h v = Ok c -> symmetric6 c /\ elastic_symmetry c half_turn_z) /\
  (forall c, symmetric6 c -> elastic_symmetry c half_turn_z -> exists c', build_C C2h (required_C C2h c) = Ok c' /\ same6 c' c).
Proof.
  split.
  - intros v c B. apply build_ok in B as [L ->]. split; [now apply built_sym|]. apply symmetry_quad; [now apply built_sym|]. intros. norm_len L. split_list v. unfold half_turn_z. turn_ring.
  - intros c S H. exists (built C2h (required_C C2h c)). split; [apply build_ok; split; [apply required_len|reflexivity]|]. now apply fit_about_c.
Qed.
Print Assumptions C105_monoclinic_about_c_partial.
(** Trigonal crystals of the groups 312, 31m and -31m have their twofold axes perpendicular to a; the matrices built for them do not. *)
Theorem C105_trigonal_312_refuted : exists v c, build_C D3d v = Ok c /\ ~ elastic_symmetry c half_turn_210.
Proof.
  exists [5; 1; 1; 1; 5; 3], (built D3d [5; 1; 1; 1; 5; 3]). split; [now apply build_ok|].
  intros H. specialize (H (strain 1 0 0 1 0 0) (strain_sym _ _ _ _ _ _)). revert H. unfold elastic_energy, sum6, half_turn_210, half_turn_y. lin_unfold. unfold strain, voigt.
  cbn [m00 m01 m02 m10 m11 m12 m20 m21 m22]. eval_mat. lra.
Qed.
Print Assumptions C105_trigonal_312_refuted.

(** ** C106: storing the constants *)
(** The stiffness stored is a thousand times the matrix entered, and so are the constants read back. *)
Theorem C106_thousandfold : forall inv g v s c m, inverts inv -> MakeStiffnessMatrix inv g v s = (Some c, None) -> build_C g v = Ok m ->
  same6 c (fun i j => 1000 * m i j) /\ required_C g c = map (Rmult 1000) v.
Proof.
  intros inv g v s c m I H B. apply build_ok in B as [L ->]. destruct (thousand inv I g v s c H) as [_ E]. split; [assumption|].
  rewrite (required_same g _ _ E). now apply required_scale.
Qed.
Print Assumptions C106_thousandfold.
Theorem C106_constants_refuted : exists inv g v s c, inverts inv /\ MakeStiffnessMatrix inv g v s = (Some c, None) /\ required_C g c <> v.
Proof.
  destruct make_unit as (c & H). exists diag_inv, Oh, [1; 0; 1], None, c. split; [apply diag_inverts|]. split; [assumption|].
  destruct (C106_thousandfold diag_inv Oh [1; 0; 1] None c (built Oh [1; 0; 1]) diag_inverts H) as [_ E]; [now apply build_ok|].
  rewrite E. cbn [map]. intros F. injection F as F _ _. lra.
Qed.
Print Assumptions C106_constants_refuted.
(** A compliance assigned is the compliance read back, and the product of stiffness (GPa) and compliance (per TPa) is a thousand. *)
Theorem C106_compliance : forall inv, inverts inv ->
  (forall v s s' b, set_compliance inv v s = (s', None) -> get_compliance inv s' = Ok b -> same6 b v) /\
  (forall s b, get_compliance inv (Some s) = Ok b -> same6 (times6 s b) (fun i j => 1000 * unit6 i j)).
Proof. intros inv I. split; [apply (compliance_roundtrip inv I)|apply (reciprocal inv I)]. Qed.
Print Assumptions C106_compliance.
(** A wrong number of constants leaves the cell as it was; a singular matrix raises after the stiffness has been replaced. *)
Theorem C106_refused : forall inv g v s s' e, MakeStiffnessMatrix inv g v s = (s', Some e) ->
  (e = OSError /\ List.length v <> constants g /\ s' = s) \/ (e = ValueError /\ List.length v = constants g /\ exists m, build_C g v = Ok m /\ s' = Some m).
Proof.
  intros inv g v s s' e H. pose proof (C105_number g v) as N. unfold MakeStiffnessMatrix in H. destruct (build_C g v) as [m|x] eqn:B.
  - right. assert (L : List.length v = constants g) by (apply N; now exists m).
    destruct (inv m) as [b|]; [unfold set_compliance in H; destruct (inv b)|]; try discriminate; injection H as <- <-; (split; [reflexivity|split; [assumption|now exists m]]).
  - left. injection H as <- <-. assert (L : List.length v <> constants g) by (intros L; apply N in L as (c & L); discriminate).
    assert (E : x = OSError); [|now subst].
    unfold build_C in B. destruct (stiffness_dict g). destruct (negb _); congruence.
Qed.
Print Assumptions C106_refused.

(** ** the hypotheses are met *)
Example C105_ex : exists c, build_C D3d [5; 1; 2; 1; 6; 3] = Ok c /\ c 4%nat 5%nat = 1 /\ c 5%nat 5%nat = 2.
Proof. exists (built D3d [5; 1; 2; 1; 6; 3]). split; [now apply build_ok|]. split; eval_mat; lra. Qed.
Example C106_ex : inverts diag_inv /\ exists c, MakeStiffnessMatrix diag_inv Oh [1; 0; 1] None = (Some c, None).
Proof. split; [apply diag_inverts|apply make_unit]. Qed.
