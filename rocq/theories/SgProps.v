(** Space groups: the symmetry operations, point and Laue groups hexrd makes for
    each of the 230 space groups, and the reflections it removes. *)
From Coq Require Import String Ascii Reals.
From Verif Require Import Prelude SgTables SgModel SgSpec SgRSpec SgProofs SgAbs SgFact SgMore.
Local Open Scope Z_scope.

Lemma checked sgnum setting : 1 <= sgnum <= 230 ->
  check_one sgnum (if setting =? 0 then 0 else 1) = true.
Proof.
  intros H. pose proof (zrange_all _ _ _ check_all sgnum ltac:(lia)) as K.
  cbv beta in K. apply andb_true_iff in K. destruct (setting =? 0); tauto.
Qed.

Lemma facts sgnum setting : 1 <= sgnum <= 230 ->
  exists gs gens cs sg pg laue c s pgn lgn a b,
    GeneratorString sgnum = Ok gs /\ MakeGenerators gs setting = Ok (gens, cs) /\
    GenerateSGSym sgnum setting = Ok (sg, pg, laue, c, s) /\
    GetPgLg sgnum = Ok (pgn, lgn, a, b) /\
    space_group sg /\ hd_error sg = Some identity_op /\
    Forall (product_of gens) sg /\ incl gens sg /\
    matrix_group pg /\ matrix_group laue /\
    (forall r, In r pg <-> In r (map op_r sg)) /\
    (forall r, In r laue <-> In r pg \/ In r (map negm pg)) /\
    (c = true <-> In (negm one) pg) /\
    has_class pgn pg /\ has_class lgn laue.
Proof.
  intros H. pose proof (checked sgnum setting H) as K. rewrite setting_norm.
  assert (N : forall gs, MakeGenerators gs setting = MakeGenerators gs (if setting =? 0 then 0 else 1))
    by (intros; unfold MakeGenerators; destruct (setting =? 0) eqn:E; reflexivity).
  set (st := if setting =? 0 then 0 else 1) in *. clearbody st.
  unfold check_one in K.
  destruct (GeneratorString sgnum) as [gs|] eqn:Eg; cbn [rbind] in K; [|discriminate].
  destruct (MakeGenerators gs st) as [[gens cs]|] eqn:Em; [|discriminate].
  destruct (GenerateSGSym sgnum st) as [[[[[sg pg] laue] c] s]|] eqn:Es; [|discriminate].
  destruct (GetPgLg sgnum) as [[[[pgn lgn] a] b]|] eqn:Ep; [|discriminate].
  rewrite !andb_true_iff in K.
  destruct K as ((((((((((K1 & K2) & K3) & K4) & K5) & K6) & K7) & K8) & K9) & K10) & K11).
  destruct (generated _ _ _ _ _ _ _ _ _ Eg Em Es) as [G1 G2]. cbn [fst] in *.
  exists gs, gens, cs, sg, pg, laue, c, s, pgn, lgn, a, b.
  assert (SG : space_group sg) by (eapply check_sg_ok; eauto).
  apply subsetb_incl in K5, K6, K7, K8.
  split; [reflexivity|]. split; [rewrite N; exact Em|]. split; [reflexivity|]. split; [reflexivity|].
  split; [exact SG|]. split.
  { apply op_eqb_eq in K2. destruct sg as [|o sg]; cbn [hd] in K2; [destruct (sg_one _ SG)|].
    cbn [hd_error]. now rewrite K2. }
  split; [exact G1|]. split; [exact G2|].
  split; [now apply check_mg_ok|]. split; [now apply check_mg_ok|].
  split; [intros r; split; auto|]. split.
  { intros r. split.
    - intros Hr. specialize (K7 _ Hr). apply in_app_iff in K7. exact K7.
    - intros Hr. apply K8. apply in_app_iff. exact Hr. }
  split.
  { apply eqb_prop in K9. rewrite K9. apply (memb_in _ im_eqb_eq). }
  split; now apply classb_ok.
Qed.

(** ** C85 Space-group operations *)

Theorem C85_space_group_operations : forall sgnum setting, 1 <= sgnum <= 230 ->
  exists gs gens cs sg pg laue c s,
    GeneratorString sgnum = Ok gs /\ MakeGenerators gs setting = Ok (gens, cs) /\
    GenerateSGSym sgnum setting = Ok (sg, pg, laue, c, s) /\
    space_group sg /\ hd_error sg = Some identity_op /\
    (forall op, In op gens -> In op sg) /\ (forall op, In op sg -> product_of gens op).
Proof.
  intros sgnum setting H.
  destruct (facts sgnum setting H) as (gs & gens & cs & sg & pg & laue & c & s & pgn & lgn & a & b &
    E1 & E2 & E3 & E4 & F1 & F2 & F3 & F4 & _).
  exists gs, gens, cs, sg, pg, laue, c, s. rewrite Forall_forall in F3. intuition auto.
Qed.

Lemma more_facts sgnum sg0 pg0 laue0 c0 s0 sg1 pg1 laue1 c1 s1 :
  1 <= sgnum <= 230 ->
  GenerateSGSym sgnum 0 = Ok (sg0, pg0, laue0, c0, s0) ->
  GenerateSGSym sgnum 1 = Ok (sg1, pg1, laue1, c1, s1) ->
  exists letter s,
    (do s <- py_index pstr_spacegroup (sgnum - 1); strip_head s) = Ok letter /\
    (forall a, In a sg0 -> exists b, In b sg1 /\ moved s a b) /\
    (forall b, In b sg1 -> exists a, In a sg0 /\ moved (negv s) b a) /\
    (~ In sgnum two_origins -> sg1 = sg0) /\
    (In (negm one) pg1 -> In inversion_op sg1) /\
    (In sgnum two_origins -> In (negm one) pg0 /\ ~ In inversion_op sg0) /\
    (forall t, In (translation t) sg0 <-> In t (centring_translations letter)) /\
    (forall t, In (translation t) sg1 <-> In t (centring_translations letter)) /\
    (s0 = true <-> forall r, In r pg0 -> In (OP r (IV 0 0 0)) sg0) /\
    s0 = s1 /\ (s0 = true -> forall r, In r pg1 -> In (OP r (IV 0 0 0)) sg1).
Proof.
  intros H E0 E1. pose proof (zrange_all _ _ _ check_more_all sgnum ltac:(lia)) as K.
  unfold check_more in K. rewrite E0, E1 in K.
  destruct (do s <- py_index pstr_spacegroup (sgnum - 1); strip_head s) as [letter|]; [|discriminate].
  cbv zeta in K. set (s := if in_list sgnum two_origins then _ else _) in K. clearbody s.
  rewrite !andb_true_iff in K.
  destruct K as ((((((((((K1 & K2) & K3) & K4) & K5) & K6) & K7) & K8) & K9) & K10) & K11).
  exists letter, s.
  unfold ops_subset in K1, K2. rewrite forallb_forall in K1, K2.
  assert (Two : in_list sgnum two_origins = true <-> In sgnum two_origins).
  { unfold in_list. rewrite existsb_exists. split.
    - intros (x & Hx & E). apply Z.eqb_eq in E. now subst.
    - intros Hx. exists sgnum. split; auto. apply Z.eqb_refl. }
  assert (Tr : forall ops t, In t (map op_t (filter (fun o => im_eqb (op_r o) one) ops)) <-> In (translation t) ops).
  { intros ops t. rewrite in_map_iff. split.
    - intros (o & <- & Ho). apply filter_In in Ho as [Ho E]. apply im_eqb_eq in E.
      destruct o as [r t]. cbn [op_r op_t] in *. subst r. exact Ho.
    - intros Ho. exists (translation t). split; [reflexivity|]. apply filter_In. split; [exact Ho|].
      apply im_eqb_eq. reflexivity. }
  assert (Ivin : forall t l, iv_in t l = true <-> In t l).
  { intros t l. unfold iv_in. rewrite existsb_exists. split.
    - intros (x & Hx & E). apply iv_eqb_eq in E. now subst.
    - intros Hx. exists t. split; auto. apply iv_eqb_refl. }
  rewrite forallb_forall in K7, K8.
  repeat split.
  - intros a Ha. exists (shifted s a). split.
    + apply (memb_in _ op_eqb_eq), K1, in_map, Ha.
    + unfold moved, shifted. apply op_frac_same.
  - intros a Ha. exists (shifted (negv s) a). split.
    + apply (memb_in _ op_eqb_eq), K2, in_map, Ha.
    + unfold moved, shifted. apply op_frac_same.
  - intros N. destruct (in_list sgnum two_origins) eqn:E; [exfalso; apply N, Two; reflexivity|].
    cbn [orb] in K4. apply andb_true_iff in K4. destruct K4 as [K4 L]. apply Nat.eqb_eq in L.
    clear - K4 L. revert sg1 K4 L. induction sg0 as [|x l IH]; intros [|y l'] K L; cbn in *; try discriminate; auto.
    apply andb_true_iff in K. destruct K as [K1 K2]. apply op_eqb_eq in K1. subst y. f_equal. apply IH; auto.
  - intros Hi. apply orb_true_iff in K5. destruct K5 as [K5|K5].
    + apply negb_true_iff in K5. apply (memb_in _ im_eqb_eq) in Hi. rewrite Hi in K5. discriminate.
    + now apply (memb_in _ op_eqb_eq) in K5.
  - apply Two in H0. rewrite H0 in K6. cbn [negb orb] in K6. apply andb_true_iff in K6. destruct K6 as [K6 _].
    now apply (memb_in _ im_eqb_eq) in K6.
  - apply Two in H0. rewrite H0 in K6. cbn [negb orb] in K6. apply andb_true_iff in K6. destruct K6 as [_ K6].
    intros Hi. apply (memb_in _ op_eqb_eq) in Hi. rewrite Hi in K6. discriminate.
  - intros Ht. apply Ivin, K7, in_app_iff. left. now apply Tr.
  - intros Ht. specialize (K8 t Ht). apply andb_true_iff in K8. destruct K8 as [K8 _]. now apply Tr, Ivin.
  - intros Ht. apply Ivin, K7, in_app_iff. right. now apply Tr.
  - intros Ht. specialize (K8 t Ht). apply andb_true_iff in K8. destruct K8 as [_ K8]. now apply Tr, Ivin.
  - intros -> r Hr. apply eqb_prop in K9. symmetry in K9. rewrite forallb_forall in K9.
    specialize (K9 r Hr). now apply (memb_in _ op_eqb_eq) in K9.
  - intros Hr. apply eqb_prop in K9. rewrite K9. apply forallb_forall. intros r Hi.
    apply (memb_in _ op_eqb_eq). auto.
  - now apply eqb_prop.
  - intros -> r Hr. cbn [negb orb] in K11. rewrite forallb_forall in K11. specialize (K11 r Hr).
    now apply (memb_in _ op_eqb_eq) in K11.
Qed.

Lemma setting_one sgnum setting : setting <> 0 -> GenerateSGSym sgnum setting = GenerateSGSym sgnum 1.
Proof. intros H. rewrite setting_norm. destruct (Z.eqb_spec setting 0); [contradiction|reflexivity]. Qed.

(** The pure translations among the operations are those of the centring letter. *)
Theorem C85_centring : forall sgnum setting sg pg laue c s, 1 <= sgnum <= 230 ->
  GenerateSGSym sgnum setting = Ok (sg, pg, laue, c, s) ->
  exists symbol letter,
    py_index pstr_spacegroup (sgnum - 1) = Ok symbol /\ strip_head symbol = Ok letter /\
    forall t, In (translation t) sg <-> In t (centring_translations letter).
Proof.
  intros sgnum setting sg pg laue c s H E.
  destruct (facts sgnum 0 H) as (gs0 & gens0 & cs0 & sg0 & pg0 & laue0 & c0 & s0 & pgn0 & lgn0 & a0 & b0 &
    _ & _ & E0 & _).
  destruct (facts sgnum 1 H) as (gs1 & gens1 & cs1 & sg1 & pg1 & laue1 & c1 & s1 & pgn1 & lgn1 & a1 & b1 &
    _ & _ & E1 & _).
  destruct (more_facts _ _ _ _ _ _ _ _ _ _ _ H E0 E1) as (letter & sh & L & _ & _ & _ & _ & _ & T0 & T1 & _).
  destruct (py_index pstr_spacegroup (sgnum - 1)) as [symbol|] eqn:Es; cbn [rbind] in L; [|discriminate].
  exists symbol, letter. split; [reflexivity|]. split; [exact L|].
  destruct (Z.eq_dec setting 0) as [->|N].
  - rewrite E0 in E. injection E as <- _ _ _ _. exact T0.
  - rewrite setting_one in E by auto. rewrite E1 in E. injection E as <- _ _ _ _. exact T1.
Qed.

(** The alternate setting describes the same group from another origin, which is
    a centre of inversion whenever there is one. *)
Theorem C85_second_origin : forall sgnum setting sg0 pg0 laue0 c0 s0 sg1 pg1 laue1 c1 s1,
  1 <= sgnum <= 230 -> setting <> 0 ->
  GenerateSGSym sgnum 0 = Ok (sg0, pg0, laue0, c0, s0) ->
  GenerateSGSym sgnum setting = Ok (sg1, pg1, laue1, c1, s1) ->
  (exists shift,
      (forall a, In a sg0 -> exists b, In b sg1 /\ moved shift a b) /\
      (forall b, In b sg1 -> exists a, In a sg0 /\ moved (negv shift) b a)) /\
  (In (negm one) pg1 -> In inversion_op sg1) /\
  (In sgnum two_origins -> In inversion_op sg1 /\ ~ In inversion_op sg0) /\
  (~ In sgnum two_origins -> sg1 = sg0).
Proof.
  intros sgnum setting sg0 pg0 laue0 c0 s0 sg1 pg1 laue1 c1 s1 H N E0 E1.
  rewrite setting_one in E1 by auto.
  destruct (more_facts _ _ _ _ _ _ _ _ _ _ _ H E0 E1) as
    (letter & sh & L & M1 & M2 & M3 & M4 & M5 & _).
  split; [exists sh; auto|]. split; [auto|]. split; [|auto].
  intros I. destruct (M5 I) as [I1 I2]. split; [|exact I2].
  apply M4.
  destruct (facts sgnum 0 H) as (gs & gens & cs & sg & pg & laue & c & s & pgn & lgn & a & b &
    _ & _ & E0' & _ & _ & _ & _ & _ & _ & _ & P0 & _).
  rewrite E0 in E0'. injection E0' as <- <- <- <- <-.
  destruct (facts sgnum 1 H) as (gs' & gens' & cs' & sg' & pg' & laue' & c' & s' & pgn' & lgn' & a' & b' &
    _ & _ & E1' & _ & _ & _ & _ & _ & _ & _ & P1 & _).
  rewrite E1 in E1'. injection E1' as <- <- <- <- <-.
  apply P0 in I1. apply in_map_iff in I1. destruct I1 as (o & Eo & Ho).
  destruct (M1 o Ho) as (o' & Ho' & Em). apply P1, in_map_iff. exists o'. split; [|exact Ho'].
  destruct Em as [Em _]. rewrite Em. unfold compose, translation. cbn [op_r]. rewrite Eo. reflexivity.
Qed.

(** Mirror-image pairs such as P41 and P43 are not confused. *)
Theorem C85_handedness : forall sgnum order pitch setting sg pg laue c s,
  In (sgnum, (order, pitch)) enantiomorphic_screws ->
  GenerateSGSym sgnum setting = Ok (sg, pg, laue, c, s) ->
  (exists op, In op sg /\ op_r op = rotation_about_c order) /\
  forall op, In op sg -> op_r op = rotation_about_c order -> v2 (op_t op) * order = 24 * pitch.
Proof.
  intros sgnum order pitch setting sg pg laue c s H E.
  pose proof check_hand_all as K. rewrite forallb_forall in K. specialize (K _ H).
  unfold check_hand in K. cbn [fst snd] in K.
  destruct (GenerateSGSym sgnum 0) as [[[[[sg0 pg0] laue0] c0] s0]|] eqn:E0; [|discriminate].
  destruct (GenerateSGSym sgnum 1) as [[[[[sg1 pg1] laue1] c1] s1]|] eqn:E1; [|discriminate].
  rewrite !andb_true_iff in K. destruct K as (((K1 & K2) & K3) & K4).
  rewrite forallb_forall in K1, K2. apply existsb_exists in K3, K4.
  assert (A : forall l, (forall o, In o l -> negb (im_eqb (op_r o) (rotation_about_c order)) || (v2 (op_t o) * order =? 24 * pitch) = true) ->
    (exists o, In o l /\ im_eqb (op_r o) (rotation_about_c order) = true) ->
    (exists op, In op l /\ op_r op = rotation_about_c order) /\
    forall op, In op l -> op_r op = rotation_about_c order -> v2 (op_t op) * order = 24 * pitch).
  { intros l A1 (o & Ho & Eo). apply im_eqb_eq in Eo. split; [exists o; auto|]. intros op Hop Eop.
    specialize (A1 op Hop). apply im_eqb_eq in Eop. rewrite Eop in A1. cbn [negb orb] in A1. now apply Z.eqb_eq. }
  destruct (Z.eq_dec setting 0) as [->|N].
  - rewrite E0 in E. injection E as <- _ _ _ _. apply A; assumption.
  - rewrite setting_one, E1 in E by auto. injection E as <- _ _ _ _. apply A; assumption.
Qed.

(** Numbers that are not space groups: Python's negative indices and seven
    further strings at the end of the table are accepted, the rest is an error. *)
Theorem C85_range_refuted :
  (exists r, GenerateSGSym 0 0 = Ok r) /\ (exists r, GenerateSGSym (-1) 0 = Ok r) /\
  (exists r, GenerateSGSym 231 0 = Ok r) /\
  (forall sgnum setting, 237 < sgnum \/ sgnum < -236 -> GenerateSGSym sgnum setting = Err IndexError).
Proof.
  split; [|split; [|split]].
  - eexists. vm_compute. reflexivity.
  - eexists. vm_compute. reflexivity.
  - eexists. vm_compute. reflexivity.
  - intros sgnum setting H. unfold GenerateSGSym, GeneratorString, py_index.
    assert (L : Z.of_nat (List.length SYM_GL) = 237) by (vm_compute; reflexivity).
    rewrite L. destruct (Z.ltb_spec (sgnum - 1) 0) as [A|A].
    + destruct (Z.ltb_spec (237 + (sgnum - 1)) 0); [reflexivity|lia].
    + destruct (Z.ltb_spec (sgnum - 1) 0); [lia|].
      destruct (nth_error SYM_GL (Z.to_nat (sgnum - 1))) eqn:E; [|reflexivity].
      apply nth_error_Some_length in E || (assert (K : nth_error SYM_GL (Z.to_nat (sgnum - 1)) <> None) by congruence;
        apply nth_error_Some in K; lia).
Qed.

(** diamond: 192 operations, two origins *)
Example C85_example : exists sg pg laue c s,
  GenerateSGSym 227 0 = Ok (sg, pg, laue, c, s) /\ List.length sg = 192%nat /\ In 227 two_origins /\
  py_index pstr_spacegroup 226 = Ok " F d 3 m   "%string.
Proof. do 5 eexists. split; [vm_compute; reflexivity|]. vm_compute. auto 40. Qed.

(** ** C86 Point and Laue groups *)

Theorem C86_point_and_laue_groups : forall sgnum setting sg pg laue c s,
  1 <= sgnum <= 230 -> GenerateSGSym sgnum setting = Ok (sg, pg, laue, c, s) ->
  matrix_group pg /\ matrix_group laue /\
  (forall r, In r pg <-> exists op, In op sg /\ op_r op = r) /\
  (forall r, In r laue <-> In r pg \/ exists q, In q pg /\ r = negm q) /\
  (c = true <-> In (negm one) pg) /\
  exists pgname lauename a b, GetPgLg sgnum = Ok (pgname, lauename, a, b) /\
    has_class pgname pg /\ has_class lauename laue.
Proof.
  intros sgnum setting sg pg laue c s H E.
  destruct (facts sgnum setting H) as (gs & gens & cs & sg' & pg' & laue' & c' & s' & pgn & lgn & a & b &
    _ & _ & E' & E4 & _ & _ & _ & _ & F1 & F2 & F3 & F4 & F5 & F6 & F7).
  rewrite E in E'. injection E' as <- <- <- <- <-.
  split; [exact F1|]. split; [exact F2|]. split; [|split; [|split; [exact F5|]]].
  - intros r. rewrite F3, in_map_iff. split; intros (o & ? & ?); exists o; auto.
  - intros r. rewrite F4, in_map_iff. split; (intros [?|(o & ? & ?)]; [left; auto|right; exists o; auto]).
  - exists pgn, lgn, a, b. auto.
Qed.

(** The symmorphic flag: at the tabulated origin every rotation part occurs
    without a translation.  Not shown: that no other origin does this for the
    groups where the flag is false. *)
Theorem C86_symmorphic_partial : forall sgnum setting sg0 pg0 laue0 c0 s0 sg pg laue c s,
  1 <= sgnum <= 230 ->
  GenerateSGSym sgnum 0 = Ok (sg0, pg0, laue0, c0, s0) ->
  GenerateSGSym sgnum setting = Ok (sg, pg, laue, c, s) ->
  (s = true <-> forall r, In r pg0 -> In (OP r (IV 0 0 0)) sg0) /\
  (s = true -> forall r, In r pg -> In (OP r (IV 0 0 0)) sg).
Proof.
  intros sgnum setting sg0 pg0 laue0 c0 s0 sg pg laue c s H E0 E.
  destruct (facts sgnum 1 H) as (gs' & gens' & cs' & sg1 & pg1 & laue1 & c1 & s1 & pgn' & lgn' & a' & b' &
    _ & _ & E1 & _).
  destruct (more_facts _ _ _ _ _ _ _ _ _ _ _ H E0 E1) as
    (letter & sh & _ & _ & _ & _ & _ & _ & _ & _ & S0 & S1 & S2).
  destruct (Z.eq_dec setting 0) as [->|N].
  - rewrite E0 in E. injection E as <- <- <- <- <-. split; [exact S0|apply S0].
  - rewrite setting_one in E by auto. rewrite E1 in E. injection E as <- <- <- <- <-.
    subst s1. split; [exact S0|exact S2].
Qed.

Example C86_example : exists sg pg laue,
  GenerateSGSym 216 0 = Ok (sg, pg, laue, false, true) /\ List.length sg = 96%nat /\
  List.length pg = 24%nat /\ List.length laue = 48%nat /\
  GetPgLg 216 = Ok ("td", "oh", "td", "oh")%string.
Proof. do 3 eexists. split; [vm_compute; reflexivity|]. vm_compute. auto. Qed.

(** ** C87 Point groups made from a Schoenflies symbol *)

Definition bad_symbols : list string := ["d4"; "d2d"; "d3"; "c3v"]%string.

Lemma pgsym_all : forallb (fun e =>
    let n := fst (e : string * list nat) in
    existsb (String.eqb n) bad_symbols ||
    match GeneratePGSYM n with Ok l => check_mg l && classb n l | Err _ => false end) class_census = true.
Proof. vm_compute. reflexivity. Qed.

Theorem C87_named_point_groups_partial : forall symbol,
  In symbol (map fst class_census) -> ~ In symbol ["d4"; "d2d"; "d3"; "c3v"]%string ->
  exists l, GeneratePGSYM symbol = Ok l /\ matrix_group l /\ has_class symbol l.
Proof.
  intros symbol H N. pose proof pgsym_all as K. rewrite forallb_forall in K.
  apply in_map_iff in H. destruct H as (e & <- & He). specialize (K e He). cbv zeta in K.
  apply orb_true_iff in K. destruct K as [K|K].
  - apply existsb_exists in K. destruct K as (x & Hx & E). apply String.eqb_eq in E. subst x. contradiction.
  - destruct (GeneratePGSYM (fst e)) as [l|]; [|discriminate]. apply andb_true_iff in K. destruct K as [K1 K2].
    exists l. split; [reflexivity|]. split; [now apply check_mg_ok|now apply classb_ok].
Qed.

(** For four symbols the loop stops before the group is complete. *)
Theorem C87_named_point_groups_refuted : forall symbol,
  In symbol ["d4"; "d2d"; "d3"; "c3v"]%string ->
  exists l, GeneratePGSYM symbol = Ok l /\ ~ has_class symbol l /\
    exists a b, In a l /\ In b l /\ ~ In (matmul a b) l.
Proof.
  assert (D : forall l, existsb (fun a => existsb (fun b => negb (memb im_eqb (imm a b) l)) l) l = true ->
              exists a b, In a l /\ In b l /\ ~ In (matmul a b) l).
  { intros l K. apply existsb_exists in K. destruct K as (a & Ha & K). apply existsb_exists in K.
    destruct K as (b & Hb & K). exists a, b. repeat split; auto. intros Hi.
    apply (memb_in _ im_eqb_eq) in Hi. rewrite <- imm_matmul in Hi. rewrite Hi in K. discriminate. }
  intros symbol [<-|[<-|[<-|[<-|[]]]]]; (eexists; split; [vm_compute; reflexivity|]; split;
    [intros K; unfold has_class in K; vm_compute in K;
     repeat (destruct K as [K|K]; [discriminate K|]); exact K|apply D; vm_compute; reflexivity]).
Qed.

(** the colouring supergroup of quartz's and of other trigonal groups is affected *)
Theorem C87_supergroups_refuted : forall sgnum,
  (143 <= sgnum <= 146 \/ 156 <= sgnum <= 161) ->
  exists pg lg supergroup a l, GetPgLg sgnum = Ok (pg, lg, supergroup, a) /\
    GeneratePGSYM supergroup = Ok l /\ ~ matrix_group l.
Proof.
  assert (N : forall l, GeneratePGSYM "c3v" = Ok l -> ~ matrix_group l).
  { intros l E M. destruct (C87_named_point_groups_refuted "c3v") as (l' & E' & _ & a & b & Ha & Hb & Hn);
      [cbn; tauto|]. rewrite E in E'. injection E' as <-. apply Hn, (mg_mul _ M); auto. }
  intros sgnum H.
  assert (C : sgnum = 143 \/ sgnum = 144 \/ sgnum = 145 \/ sgnum = 146 \/ sgnum = 156 \/ sgnum = 157 \/
              sgnum = 158 \/ sgnum = 159 \/ sgnum = 160 \/ sgnum = 161) by lia.
  repeat (destruct C as [->|C]); try subst sgnum;
    (do 5 eexists; split; [vm_compute; reflexivity|]; split; [vm_compute; reflexivity|];
     apply N; vm_compute; reflexivity).
Qed.

Example C87_example : exists l, GeneratePGSYM "oh" = Ok l /\ List.length l = 48%nat.
Proof. eexists. split; vm_compute; reflexivity. Qed.

(** ** C88 Reflections removed *)

(** moving the origin does not change which reflections are absent *)
Lemma moved_absent shift l l' g : (forall a, In a l -> exists b, In b l' /\ moved shift a b) ->
  absent l g -> absent l' g.
Proof.
  intros H (a & Ha & Hf & Hn). destruct (H a Ha) as (b & Hb & M). exists b. split; auto.
  assert (Er : op_r b = op_r a).
  { destruct M as [Er _]. rewrite Er. unfold compose, translation. cbn [op_r].
    destruct (op_r a) as [[a00 a01 a02] [a10 a11 a12] [a20 a21 a22]].
    unfold matmul, row_act, one. cbn [r0 r1 r2 v0 v1 v2]. f_equal; f_equal; ring. }
  rewrite Er. split; [exact Hf|]. intros Kd. apply Hn. clear Er.
  destruct M as (_ & D0 & D1 & D2). pose proof (div_dot g _ _ D0 D1 D2) as D. clear D0 D1 D2.
  assert (E : idot g (op_t (compose (translation shift) (compose a (translation (negv shift)))))
              = idot g (op_t a) + idot g shift - idot (row_act g (op_r a)) shift).
  { destruct a as [[[a00 a01 a02] [a10 a11 a12] [a20 a21 a22]] [t0 t1 t2]], shift as [s0 s1 s2], g as [g0 g1 g2].
    unfold compose, translation, negv, row_act, one, idot. cbn [op_r op_t r0 r1 r2 v0 v1 v2]. ring. }
  rewrite E, Hf in D. replace (idot g (op_t a)) with (idot g (op_t b) - (idot g (op_t b) - (idot g (op_t a) + idot g shift - idot g shift))) by ring.
  now apply Z.divide_sub_r.
Qed.

Lemma absent_settings sgnum ops : 1 <= sgnum <= 230 -> operations_of sgnum ops ->
  exists ops0 pg laue c s, GenerateSGSym sgnum 0 = Ok (ops0, pg, laue, c, s) /\
    forall g, absent ops g <-> absent ops0 g.
Proof.
  intros H (setting & pg & laue & c & s & E).
  destruct (facts sgnum 0 H) as (gs & gens & cs & sg & pg' & laue' & c' & s' & pgn & lgn & a & b &
    _ & _ & E0 & _).
  exists sg, pg', laue', c', s'. split; [exact E0|].
  destruct (Z.eq_dec setting 0) as [->|N].
  - rewrite E in E0. injection E0 as <- _ _ _ _. reflexivity.
  - destruct (C85_second_origin _ _ _ _ _ _ _ _ _ _ _ _ H N E0 E) as ((sh & M1 & M2) & _).
    intros g. split; eapply moved_absent; eassumption.
Qed.

Lemma checked_abs sgnum : 1 <= sgnum <= 230 -> check_abs (negb (sgnum =? 205)) sgnum = true.
Proof. intros H. apply (zrange_all _ _ _ check_abs_all sgnum). lia. Qed.

Theorem C88_allowed_reflections_partial : forall sgnum ops, 1 <= sgnum <= 230 -> sgnum <> 205 ->
  operations_of sgnum ops ->
  forall hkls, exists kept, Allowed_HKLs sgnum hkls = Ok kept /\
    forall g, In g kept <-> In g hkls /\ ~ absent ops g.
Proof.
  intros sgnum ops H N Hops hkls.
  pose proof (checked_abs sgnum H) as K. destruct (Z.eqb_spec sgnum 205); [contradiction|]. cbn [negb] in K.
  destruct (check_abs_ok _ _ K) as (ms & E & A).
  destruct (absent_settings sgnum ops H Hops) as (ops0 & pg & laue & c & s & E0 & AS).
  specialize (A _ _ _ _ _ E0). setoid_rewrite AS. rewrite E. eexists. split; [reflexivity|]. intros g. rewrite filter_In.
  destruct (A g) as [A1 A2]. specialize (A2 eq_refl). destruct (some_holds ms g); cbn [negb].
  - split; [intros [_ D]; discriminate|intros [_ D]; exfalso; apply D; auto].
  - split; [intros [D _]; split; auto; intros Hab; discriminate (A1 Hab)|intros [D _]; auto].
Qed.

(** rows keep their order and multiplicity *)
Theorem C88_order : forall sgnum, 1 <= sgnum <= 230 ->
  exists keep, forall hkls, Allowed_HKLs sgnum hkls = Ok (filter keep hkls).
Proof.
  intros sgnum H. destruct (check_abs_ok _ _ (checked_abs sgnum H)) as (ms & E & _). eexists. exact E.
Qed.

(** no absent reflection survives, for any of the 230 groups *)
Theorem C88_absent_removed : forall sgnum ops, 1 <= sgnum <= 230 -> operations_of sgnum ops ->
  forall hkls, exists kept, Allowed_HKLs sgnum hkls = Ok kept /\
    forall g, In g kept -> In g hkls /\ ~ absent ops g.
Proof.
  intros sgnum ops H Hops hkls.
  destruct (check_abs_ok _ _ (checked_abs sgnum H)) as (ms & E & A).
  destruct (absent_settings sgnum ops H Hops) as (ops0 & pg & laue & c & s & E0 & AS).
  specialize (A _ _ _ _ _ E0). setoid_rewrite AS. rewrite E. eexists. split; [reflexivity|]. intros g. rewrite filter_In. intros [D1 D2].
  split; auto. intros Hab. rewrite (proj1 (A g) Hab) in D2. discriminate.
Qed.

Lemma pyrite_extra g : some_holds [CL Fh e3 2; CL Fk e1 2] g = true <->
  (v0 g = 0 /\ Z.Odd (v2 g)) \/ (v1 g = 0 /\ Z.Odd (v0 g)).
Proof.
  destruct g as [g0 g1 g2]. unfold some_holds, holds, in_flat, idot.
  cbn [existsb forallb cf cc cm eqs Fh Fk e1 e2 e3 v0 v1 v2].
  rewrite <- !Z.odd_spec, !Zmod_odd.
  replace (0 * g0 + 0 * g1 + 1 * g2) with g2 by ring.
  replace (1 * g0 + 0 * g1 + 0 * g2) with g0 by ring.
  replace (0 * g0 + 1 * g1 + 0 * g2) with g1 by ring.
  destruct (Z.odd g0), (Z.odd g2); cbn [Z.eqb negb]; lia.
Qed.

(** Pa-3 (pyrite): reflections 0kl with k even, l odd and h0l with l even, h odd
    are present but removed. *)
Theorem C88_pyrite_refuted : forall ops, operations_of 205 ops ->
  ~ absent ops (IV 0 2 1) /\ Allowed_HKLs 205 [IV 0 2 1; IV 1 0 2; IV 2 1 0; IV 1 0 2] = Ok [IV 2 1 0] /\
  forall hkls, exists kept, Allowed_HKLs 205 hkls = Ok kept /\
    forall g, In g kept <-> In g hkls /\ ~ absent ops g
       /\ ~ (v0 g = 0 /\ Z.Odd (v2 g)) /\ ~ (v1 g = 0 /\ Z.Odd (v0 g)).
Proof.
  intros ops Hops.
  destruct (GenerateSGSym 205 0) as [[[[[sg pg] laue] c] s]|] eqn:Eg; [|vm_compute in Eg; discriminate].
  destruct (absent_settings 205 ops ltac:(lia) Hops) as (ops0 & pg' & laue' & c' & s' & E0 & AS).
  rewrite Eg in E0. injection E0 as <- <- <- <- <-. setoid_rewrite AS. clear ops Hops AS.
  destruct (op_clauses sg) as [cs|] eqn:Ec.
  2:{ exfalso. assert (K : match GenerateSGSym 205 0 with Ok (sg, _, _, _, _) => op_clauses sg | Err _ => None end <> None)
        by (vm_compute; discriminate). rewrite Eg in K. contradiction. }
  destruct (op_clauses_ok _ _ Ec) as [Hcs Habs].
  destruct (mask_clauses 205) as [ms|] eqn:Em; [|vm_compute in Em; discriminate].
  pose proof (fun l => Allowed_HKLs_clauses 205 ms l Em) as Hal.
  set (extra := [CL Fh e3 2; CL Fk e1 2]).
  assert (C : forallb known ms = true /\ forallb (covered ms) (cs ++ extra) = true
              /\ forallb (covered (cs ++ extra)) ms = true /\ some_holds cs (IV 0 2 1) = false).
  { assert (K : match GenerateSGSym 205 0, mask_clauses 205 with
                | Ok (sg, _, _, _, _), Some ms =>
                    match op_clauses sg with
                    | Some cs => forallb known ms && forallb (covered ms) (cs ++ extra)
                                 && forallb (covered (cs ++ extra)) ms && negb (some_holds cs (IV 0 2 1))
                    | None => false
                    end
                | _, _ => false end = true) by (vm_compute; reflexivity).
    rewrite Eg, Em, Ec in K. rewrite !andb_true_iff, negb_true_iff in K. tauto. }
  destruct C as (C1 & C2 & C3 & C4).
  split; [|split].
  - intros K. apply Habs in K. congruence.
  - vm_compute. reflexivity.
  - intros hkls. rewrite Hal. eexists. split; [reflexivity|]. intros g. rewrite filter_In, negb_true_iff.
    assert (M : some_holds ms g = true <->
                absent sg g \/ (v0 g = 0 /\ Z.Odd (v2 g)) \/ (v1 g = 0 /\ Z.Odd (v0 g))).
    { assert (X : some_holds extra g = true <-> (v0 g = 0 /\ Z.Odd (v2 g)) \/ (v1 g = 0 /\ Z.Odd (v0 g))).
      { apply pyrite_extra. }
      rewrite <- Habs, <- X.
      assert (Hex : Forall (fun c => In (cf c) flats) (cs ++ extra)).
      { apply Forall_app. split; auto. unfold extra, flats. repeat constructor; cbn; tauto. }
      assert (Y : some_holds ms g = true <-> some_holds (cs ++ extra) g = true).
      { split; intros D; [eapply all_covered; [apply known_ok; exact C1|exact C3|exact D]
                         |eapply all_covered; [exact Hex|exact C2|exact D]]. }
      rewrite Y, some_holds_app. apply orb_true_iff. }
    split.
    + intros [D1 D2]. split; auto. split; [|split]; intros D; (assert (some_holds ms g = true) by (apply M; tauto)); congruence.
    + intros (D1 & D2 & D3 & D4). split; auto. destruct (some_holds ms g); auto.
      destruct (proj1 M eq_refl) as [D|[D|D]]; contradiction.
Qed.

Example C88_example : exists ops, operations_of 227 ops /\
  Allowed_HKLs 227 [IV 1 1 1; IV 2 0 0; IV 2 2 0; IV 2 2 2; IV 4 0 0; IV 4 2 0]
    = Ok [IV 1 1 1; IV 2 2 0; IV 2 2 2; IV 4 0 0].
Proof.
  eexists. split; [exists 0; do 4 eexists; vm_compute; reflexivity|]. vm_compute. reflexivity.
Qed.

(** ** C89 Removed reflections are those that no atom can produce *)

Lemma operations_space_group sgnum ops : 1 <= sgnum <= 230 -> operations_of sgnum ops -> space_group ops.
Proof.
  intros H (setting & pg & laue & c & s & E).
  destruct (facts sgnum setting H) as (gs & gens & cs & sg & pg' & laue' & c' & s' & pgn & lgn & a & b &
    _ & _ & E0 & _ & F & _).
  rewrite E in E0. injection E0 as <- _ _ _ _. exact F.
Qed.

Theorem C89_extinction : forall sgnum ops, 1 <= sgnum <= 230 -> operations_of sgnum ops ->
  forall g, absent ops g <-> extinguished ops g.
Proof.
  intros sgnum ops H Hops g. pose proof (operations_space_group _ _ H Hops) as SG. split.
  - now apply absent_extinguished.
  - apply extinguished_absent, (sg_one _ SG).
Qed.

Theorem C89_allowed_are_observable_partial : forall sgnum ops, 1 <= sgnum <= 230 -> sgnum <> 205 ->
  operations_of sgnum ops ->
  forall hkls, exists kept, Allowed_HKLs sgnum hkls = Ok kept /\
    forall g, In g kept <-> In g hkls /\ ~ extinguished ops g.
Proof.
  intros sgnum ops H N Hops hkls.
  destruct (C88_allowed_reflections_partial sgnum ops H N Hops hkls) as (kept & E & K).
  exists kept. split; auto. intros g. rewrite K, (C89_extinction sgnum ops H Hops g). reflexivity.
Qed.

(** A whole structure: atoms at given positions with given scattering factors. *)
Theorem C89_structure_factor_of_removed : forall sgnum ops, 1 <= sgnum <= 230 -> operations_of sgnum ops ->
  forall g, absent ops g ->
  forall atoms : list (R * (R * R * R)),
    (rsum (fun a => fst a * sf_re ops g (fst (fst (snd a))) (snd (fst (snd a))) (snd (snd a))) atoms = 0 /\
     rsum (fun a => fst a * sf_im ops g (fst (fst (snd a))) (snd (fst (snd a))) (snd (snd a))) atoms = 0)%R.
Proof.
  intros sgnum ops H Hops g Hab atoms.
  pose proof (proj1 (C89_extinction sgnum ops H Hops g) Hab) as X.
  induction atoms as [|[f [[x y] z]] atoms [IH1 IH2]]; cbn [rsum fst snd]; [auto|].
  destruct (X x y z) as [X1 X2]. rewrite IH1, IH2, X1, X2. split; ring.
Qed.

Example C89_example : exists ops, operations_of 227 ops /\ extinguished ops (IV 2 0 0)
  /\ ~ extinguished ops (IV 2 2 2).
Proof.
  destruct (GenerateSGSym 227 0) as [[[[[sg pg] laue] c] s]|] eqn:Eg; [|vm_compute in Eg; discriminate].
  assert (O : operations_of 227 sg) by (exists 0, pg, laue, c, s; exact Eg).
  exists sg. split; auto.
  destruct (C89_allowed_are_observable_partial 227 sg ltac:(lia) ltac:(lia) O [IV 2 0 0; IV 2 2 2])
    as (kept & E & K).
  vm_compute in E. injection E as <-.
  split.
  - destruct (absent_dec sg (IV 2 0 0)) as [A|A].
    + apply (C89_extinction 227 sg ltac:(lia) O), A.
    + exfalso. assert (I : In (IV 2 0 0) [IV 2 2 2]).
      { apply K. split; [now left|]. intros X. apply A, (C89_extinction 227 sg ltac:(lia) O), X. }
      destruct I as [I|[]]. discriminate I.
  - apply K. now left.
Qed.

Print Assumptions C85_space_group_operations.
Print Assumptions C85_centring.
Print Assumptions C85_second_origin.
Print Assumptions C85_handedness.
Print Assumptions C85_range_refuted.
Print Assumptions C86_point_and_laue_groups.
Print Assumptions C86_symmorphic_partial.
Print Assumptions C87_named_point_groups_partial.
Print Assumptions C87_named_point_groups_refuted.
Print Assumptions C87_supergroups_refuted.
Print Assumptions C88_allowed_reflections_partial.
Print Assumptions C88_order.
Print Assumptions C88_absent_removed.
Print Assumptions C88_pyrite_refuted.
Print Assumptions C89_extinction.
Print Assumptions C89_allowed_are_observable_partial.
Print Assumptions C89_structure_factor_of_removed.
