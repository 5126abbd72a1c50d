From Coq Require Import Reals List String Lra Lia.
From Verif Require Import Prelude Lin TensorModel TensorSpec TensorProofs RotModel RotSpec RotProofs RotProofs2 RigModel RigSpec.
Import ListNotations.
Local Open Scope R_scope.

(** ** the two ways of making a rotation matrix agree *)
Lemma angleaxis_action : forall t n x, mv (angleaxis_matrix t n) x = rotated n t x.
Proof. intros. unfold angleaxis_matrix, rotated. lin_unfold. f_equal; ring. Qed.
Lemma m3_by_action : forall a b, (forall x, mv a x = mv b x) -> a = b.
Proof.
  intros [a00 a01 a02 a10 a11 a12 a20 a21 a22] [b00 b01 b02 b10 b11 b12 b20 b21 b22] H.
  pose proof (H e0) as H0. pose proof (H e1) as H1. pose proof (H e2) as H2. clear H. revert H0 H1 H2. lin_unfold. intros H0 H1 H2.
  injection H0 as A0 A1 A2. injection H1 as B0 B1 B2. injection H2 as C0 C1 C2. f_equal; lra.
Qed.
Lemma expmap_same : forall e, make_rmat_of_expmap e = rotMatOfExpMap e.
Proof.
  intros e. destruct (exp_map_lemma e) as [Z N]. unfold make_rmat_of_expmap, eigen_normalized. destruct (Req_EM_T (norm2 e) 0) as [E|E].
  - assert (Hn : norm e = 0) by (unfold norm; rewrite E; apply sqrt_0). assert (e = vzero) by (now apply norm_zero_iff). rewrite Z by assumption. subst e. rewrite Hn.
    unfold angleaxis_matrix. rewrite cos_0, sin_0. lin_unfold. f_equal; ring.
  - assert (NZ : e <> vzero). { intros ->. apply E. unfold norm2, dot, vzero. cbn. ring. }
    destruct (unit_dir e NZ) as (n & N1 & N2 & En). assert (P : norm e <> 0). { intros K. apply NZ. now apply norm_zero_iff. }
    assert (D : vscale (/ norm e) e = n). { rewrite En at 2. rewrite vscale_vscale. rewrite Rinv_l by assumption. apply vscale_1. }
    rewrite D. apply m3_by_action. intros x. rewrite angleaxis_action. symmetry. now apply N.
Qed.
Lemma rmat_rotation : forall p, rotation (p_rmat p).
Proof. intros. unfold p_rmat. rewrite expmap_same. apply exp_map_rotation. Qed.
(** angle times axis is the rotation vector again, except for tiny angles *)
Lemma tilt_exact : forall rotvec r, rotMatOfExpMap (rotvec r) = r -> (rotvec r = vzero \/ ten_epsf < norm (rotvec r)) -> exact_tilt rotvec r.
Proof.
  intros rv r E [Z|B]; unfold exact_tilt, rmat_to_tilt; rewrite expmap_same.
  - rewrite Z in *. replace (vscale (norm vzero) (unitVector vzero)) with vzero; [assumption|]. assert (N : norm vzero = 0) by (now apply norm_zero_iff). rewrite N. destruct (unitVector vzero). lin_unfold. f_equal; ring.
  - destruct (unit_vector_norm (rv r) B) as [_ U]. now rewrite <- U.
Qed.

(** ** linear algebra *)
Lemma mv_vadd : forall a u v, mv a (vadd u v) = vadd (mv a u) (mv a v). Proof. lin. Qed.
Lemma mv_mm : forall a b v, mv (mm a b) v = mv a (mv b v). Proof. lin. Qed.
Lemma mt_mm : forall a b, mt (mm a b) = mm (mt b) (mt a). Proof. lin. Qed.
Lemma vsum_moved : forall d c s (f : panel -> v3) l, vsum (map (fun p => vadd (vadd (mv d (vsub (f p) c)) c) s) l) =
  vadd (mv d (vsub (vsum (map f l)) (vscale (INR (List.length l)) c))) (vscale (INR (List.length l)) (vadd c s)).
Proof.
  intros d c s f l. induction l as [|p l IH].
  - cbn. lin_unfold. f_equal; ring.
  - cbn [map vsum fold_right]. fold (vsum (map (fun p => vadd (vadd (mv d (vsub (f p) c)) c) s) l)). fold (vsum (map f l)). rewrite IH. cbn [List.length]. rewrite S_INR.
    generalize (INR (List.length l)) (vsum (map f l)) (f p). intros n [a b e] [a' b' e']. lin_unfold. f_equal; ring.
Qed.
Lemma vmean_moved : forall d c s (f : panel -> v3) l, l <> [] -> vmean (map (fun p => vadd (vadd (mv d (vsub (f p) c)) c) s) l) =
  vadd (vadd (mv d (vsub (vmean (map f l)) c)) c) s.
Proof.
  intros d c s f l N. unfold vmean. rewrite vsum_moved, !map_length. assert (P : INR (List.length l) <> 0). { destruct l; [contradiction|]. cbn [List.length]. rewrite S_INR. pose proof (pos_INR (List.length l)). lra. }
  revert P. generalize (INR (List.length l)) (vsum (map f l)). intros n v P. destruct v, c, s, d. lin_unfold. f_equal; field; assumption.
Qed.

Section Motion.
Variable rotvec : m3 -> v3.
Variable to_rmat : v3 -> m3.
Hypothesis to_rot : forall v, rotation (to_rmat v).
Notation R0 cp := (rotMatOfExpMap (c_tilt cp)).
Definition uD (q : gparams) (cp : cparams) : m3 := if vary_tilt q then mm (to_rmat (g_tilt q)) (mt (R0 cp)) else mI.
Definition us (q : gparams) (cp : cparams) : v3 := if vary_tvec q then vsub (g_tvec q) (c_trans cp) else vzero.
Definition moved (c : v3) (q : gparams) (cp : cparams) (p : panel) : panel :=
  let t1 := if vary_tilt q then vadd (mv (mm (to_rmat (g_tilt q)) (mt (R0 cp))) (vsub (p_tvec p) c)) c else p_tvec p in
  Panel (p_group p) (if vary_tilt q then rmat_to_tilt rotvec (mm (mm (to_rmat (g_tilt q)) (mt (R0 cp))) (p_rmat p)) else p_tilt p)
    (if vary_tvec q then vadd t1 (vsub (g_tvec q) (c_trans cp)) else t1).
Definition newcp (q : gparams) (cp : cparams) : cparams :=
  CP (if vary_tilt q then rmat_to_tilt rotvec (to_rmat (g_tilt q)) else c_tilt cp) (if vary_tvec q then g_tvec q else c_trans cp).
Definition sel_by_group (sel : panel -> bool) := forall p p', p_group p = p_group p' -> sel p = sel p'.
Lemma uc_spec : forall sel c q ps cp, sel_by_group sel ->
  update_constrained rotvec to_rmat sel c q (ps, cp) = (map (fun p => if sel p then moved c q cp p else p) ps, newcp q cp).
Proof.
  intros sel c q ps cp S. unfold update_constrained, newcp, moved. destruct (vary_tilt q), (vary_tvec q); cbn [c_tilt c_trans p_tvec p_group].
  - rewrite map_map. f_equal. apply map_ext. intros p. destruct (sel p) eqn:E.
    + rewrite (S _ p) by reflexivity. rewrite E. reflexivity.
    + now rewrite E.
  - reflexivity.
  - f_equal.
  - f_equal; [|now destruct cp]. rewrite <- (map_id ps) at 1. apply map_ext. intros [g t v]. cbn. now destruct (sel _).
Qed.
Lemma uD_rot : forall q cp, rotation (uD q cp).
Proof.
  intros. unfold uD. destruct (vary_tilt q); [apply rot_mm; [apply to_rot|apply rot_mt, exp_map_rotation]|].
  pose proof (exp_map_rotation vzero) as H. now rewrite (proj1 (exp_map_lemma vzero) eq_refl) in H.
Qed.
Lemma moved_rmat : forall c q cp p, (vary_tilt q = true -> exact_tilt rotvec (mm (mm (to_rmat (g_tilt q)) (mt (R0 cp))) (p_rmat p))) ->
  p_rmat (moved c q cp p) = mm (uD q cp) (p_rmat p).
Proof.
  intros c q cp p H. unfold p_rmat at 1, moved, uD. cbn [p_tilt]. destruct (vary_tilt q); [exact (H eq_refl)|]. now rewrite mm_I_l.
Qed.
Lemma moved_tvec : forall c q cp p, p_tvec (moved c q cp p) = vadd (vadd (mv (uD q cp) (vsub (p_tvec p) c)) c) (us q cp).
Proof.
  intros c q cp p. unfold moved, uD, us. cbn [p_tvec]. destruct (vary_tilt q), (vary_tvec q); try reflexivity; destruct (p_tvec p), c; try (destruct (g_tvec q), (c_trans cp)); lin_unfold; try (f_equal; ring).
  all: generalize (mt (R0 cp)) (to_rmat (g_tilt q)); intros; f_equal; ring.
Qed.
Lemma moved_lab : forall c q cp p x, (vary_tilt q = true -> exact_tilt rotvec (mm (mm (to_rmat (g_tilt q)) (mt (R0 cp))) (p_rmat p))) ->
  lab (moved c q cp p) x = vadd (mv (uD q cp) (lab p x)) (vadd (vsub c (mv (uD q cp) c)) (us q cp)).
Proof.
  intros c q cp p x H. unfold lab. rewrite (moved_rmat c q cp p H), moved_tvec, mv_mm. generalize (uD q cp) (mv (p_rmat p) x) (p_tvec p) (us q cp).
  intros [] [] [] []. destruct c. lin_unfold. f_equal; ring.
Qed.

(** ** system *)
Lemma all_sel : sel_by_group (fun _ => true). Proof. now intros ? ? ?. Qed.
Lemma Forall2_map_self : forall (A : Type) (P : A -> A -> Prop) f l, (forall x, In x l -> P x (f x)) -> Forall2 P l (map f l).
Proof. intros A P f l H. induction l; cbn; constructor; [apply H; now left|apply IHl; intros; apply H; now right]. Qed.
Lemma system_rigid : forall rc q ps cp ps' cp', exact_for rotvec to_rmat q cp ps ->
  update_system rotvec to_rmat rc q (ps, cp) = Ok (ps', cp') -> moved_rigidly (fun _ => True) ps ps'.
Proof.
  intros rc q ps cp ps' cp' X H. unfold update_system in H. cbn [fst] in H. destruct (system_center rc ps) as [c|]; [|discriminate]. cbn [rbind] in H.
  rewrite (uc_spec _ c q ps cp all_sel) in H. injection H as <- <-. exists (uD q cp), (vadd (vsub c (mv (uD q cp) c)) (us q cp)). split; [apply uD_rot|].
  apply Forall2_map_self. intros p Hp. split; [reflexivity|]. intros _ x. apply moved_lab. intros V. now apply X.
Qed.
Lemma system_center_ok : forall rc ps, rc <> GroupMean -> exists c, system_center rc ps = Ok c.
Proof. intros [] ps H; cbn; eauto. congruence. Qed.

(** ** groups *)
Lemma in_group_sel : forall g, sel_by_group (in_group g). Proof. intros g p p' E. unfold in_group. now rewrite E. Qed.
Lemma in_group_iff : forall g p, in_group g p = true <-> p_group p = Some g.
Proof. intros g p. unfold in_group. destruct (p_group p) as [h|]; [|split; discriminate]. rewrite String.eqb_eq. split; congruence. Qed.
Lemma add_groups_spec : forall ps gs, NoDup gs -> NoDup (add_groups gs ps) /\ forall g, In g (add_groups gs ps) <-> In g gs \/ exists p, In p ps /\ p_group p = Some g.
Proof.
  induction ps as [|p ps IH]; intros gs N; cbn [add_groups].
  - split; [assumption|]. intros g. split; [tauto|]. intros [H|(p & [] & _)]. assumption.
  - assert (Rest : forall gs', NoDup gs' -> (forall g, In g gs' <-> In g gs \/ p_group p = Some g) -> NoDup (add_groups gs' ps) /\ forall g, In g (add_groups gs' ps) <-> In g gs \/ exists p', In p' (p :: ps) /\ p_group p' = Some g).
    { intros gs' N' E'. destruct (IH gs' N') as [A B]. split; [assumption|]. intros g. rewrite B, E'. split.
      - intros [[H|H]|(p' & H & K)]; [tauto|right; exists p; cbn; tauto|right; exists p'; cbn; tauto].
      - intros [H|(p' & [->|H] & K)]; [tauto|tauto|]. right. eauto. }
    destruct (p_group p) as [g|] eqn:G; [|apply Rest; [assumption|intros; split; [tauto|intros [|]; [assumption|discriminate]]]].
    destruct (existsb (String.eqb g) gs) eqn:X; apply Rest.
    + assumption.
    + intros h. split; [tauto|]. intros [H|H]; [assumption|]. injection H as <-. apply existsb_exists in X as (k & K & L). apply String.eqb_eq in L. now subst.
    + apply NoDup_rev in N. rewrite <- (rev_involutive (gs ++ [g])). apply NoDup_rev. rewrite rev_app_distr. cbn. constructor; [|assumption].
      rewrite <- in_rev. intros H. assert (existsb (String.eqb g) gs = true); [|congruence]. apply existsb_exists. exists g. split; [assumption|apply String.eqb_refl].
    + intros h. rewrite in_app_iff. cbn. split; [intros [H|[->|[]]]; tauto|intros [H|H]; [tauto|]; injection H as ->; tauto].
Qed.
Lemma groups_spec : forall ps, NoDup (detector_groups ps) /\ forall g, In g (detector_groups ps) <-> exists p, In p ps /\ p_group p = Some g.
Proof. intros ps. destruct (add_groups_spec ps [] (NoDup_nil _)) as [A B]. split; [assumption|]. intros g. rewrite B. cbn. tauto. Qed.
Lemma Forall2_impl : forall (A B : Type) (P Q : A -> B -> Prop) l l', (forall a b, In a l -> P a b -> Q a b) -> Forall2 P l l' -> Forall2 Q l l'.
Proof. intros A B P Q l l' H F. induction F; constructor; [apply H; cbn; auto|]. apply IHF. intros; apply H; cbn; auto. Qed.
Lemma Forall2_trans : forall (A : Type) (P Q S : A -> A -> Prop) l l' l'', (forall a b c, In a l -> P a b -> Q b c -> S a c) -> Forall2 P l l' -> Forall2 Q l' l'' -> Forall2 S l l''.
Proof. intros A P Q S l l' l'' H F. revert l''. induction F; intros l'' G; inversion G; subst; constructor; [eapply H; cbn; eauto|]. apply IHF; auto. intros; eapply H; cbn; eauto. Qed.
Lemma Forall2_Forall2 : forall (A B : Type) (P Q : A -> B -> Prop) l l', Forall2 P l l' -> Forall2 Q l l' -> Forall2 (fun a b => P a b /\ Q a b) l l'.
Proof. intros A B P Q l l' F. induction F; intros G; inversion G; subst; constructor; auto. Qed.
Lemma filter_same : forall g ps ps', Forall2 (fun p p' => p_group p' = p_group p /\ (p_group p = Some g -> p' = p)) ps ps' -> filter (in_group g) ps' = filter (in_group g) ps.
Proof.
  intros g ps ps' F. induction F as [|p p' ps ps' [G E] F IH]; [reflexivity|]. cbn [filter]. rewrite (in_group_sel g p' p G). destruct (in_group g p) eqn:I; [|assumption].
  apply in_group_iff in I. rewrite (E I). now rewrite IH.
Qed.
Lemma fold_groups : forall rc params gs ps cps ps' cps', NoDup gs -> fold_left (update_one_group rotvec to_rmat rc params) gs (ps, cps) = (ps', cps') ->
  exists c, (rc = GroupMean -> forall g, In g gs -> c g = vmean (map p_tvec (filter (in_group g) ps))) /\
  Forall2 (fun p p' => p_group p' = p_group p /\ forall g, (p_group p = Some g -> In g gs -> p' = moved (c g) (params g) (cps g) p) /\
                       ((forall g, p_group p = Some g -> ~ In g gs) -> p' = p)) ps ps' /\
  (forall g, In g gs -> cps' g = newcp (params g) (cps g)) /\ (forall g, ~ In g gs -> cps' g = cps g).
Proof.
  intros rc params. induction gs as [|g gs IH]; intros ps cps ps' cps' N H.
  - cbn in H. injection H as <- <-. exists (fun _ => vzero). split; [intros _ g []|]. split; [|split; [intros g []|reflexivity]].
    rewrite <- (map_id ps) at 2. apply Forall2_map_self. intros p _. split; [reflexivity|]. intros g. split; [intros _ []|reflexivity].
  - inversion N; subst. cbn [fold_left] in H. unfold update_one_group at 2 in H. rewrite (uc_spec _ _ _ ps (cps g) (in_group_sel g)) in H.
    set (c0 := group_center rc ps g) in *. set (ps1 := map _ ps) in H.
    assert (F1 : Forall2 (fun p p' => p_group p' = p_group p /\ (p_group p = Some g -> p' = moved c0 (params g) (cps g) p) /\ (p_group p <> Some g -> p' = p)) ps ps1).
    { apply Forall2_map_self. intros p _. destruct (in_group g p) eqn:I.
      - apply in_group_iff in I. split; [reflexivity|]. split; [reflexivity|congruence].
      - split; [reflexivity|]. split; [|reflexivity]. intros K. apply in_group_iff in K. congruence. }
    destruct (IH ps1 _ ps' cps' H3 H) as (c & C & F & A & B). clear IH H.
    exists (fun h => if String.eqb h g then c0 else c h). split; [|split; [|split]].
    + intros -> h [<-|Hh].
      * rewrite String.eqb_refl. reflexivity.
      * destruct (String.eqb_spec h g) as [->|K]; [contradiction|]. rewrite (C eq_refl h Hh). f_equal. f_equal. apply (filter_same h ps ps1).
        eapply Forall2_impl; [|exact F1]. intros p p' _ (G1 & _ & G3). split; [assumption|]. intros E. apply G3. congruence.
    + eapply Forall2_trans; [|exact F1|exact F]. intros p p1 p2 _ (G1 & G2 & G3) (E1 & E2). split; [congruence|]. intros h. split.
      * intros Ph [<-|Hh].
        -- rewrite String.eqb_refl. destruct (E2 g) as [_ E3]. rewrite E3; [now apply G2|]. intros k Hk. rewrite G1, Ph in Hk. injection Hk as <-. assumption.
        -- destruct (String.eqb_spec h g) as [->|K]; [contradiction|]. assert (p1 = p) by (apply G3; congruence). subst p1. destruct (E2 h) as [E3 _].
           rewrite E3 by assumption. destruct (String.eqb_spec h g); [contradiction|reflexivity].
      * intros Nin. destruct (E2 g) as [_ E3]. rewrite E3. { apply G3. intros K. apply (Nin g K). now left. } intros k Hk. rewrite G1 in Hk. intros I. apply (Nin k Hk). now right.
    + intros h [<-|Hh]; [rewrite B by assumption; now rewrite String.eqb_refl|]. rewrite A by assumption. destruct (String.eqb_spec h g) as [->|K]; [contradiction|reflexivity].
    + intros h Hh. cbn in Hh. rewrite B by tauto. destruct (String.eqb_spec h g) as [->|K]; [tauto|reflexivity].
Qed.
Lemma groups_lemma : forall rc params ps cps ps' cps', update_groups rotvec to_rmat rc params (ps, cps) = (ps', cps') ->
  exists c, (rc = GroupMean -> forall g, (exists p, In p ps /\ p_group p = Some g) -> c g = vmean (map p_tvec (filter (in_group g) ps))) /\
  Forall2 (fun p p' => p_group p' = p_group p /\ match p_group p with Some g => p' = moved (c g) (params g) (cps g) p | None => p' = p end) ps ps' /\
  (forall g, (exists p, In p ps /\ p_group p = Some g) -> cps' g = newcp (params g) (cps g)) /\ (forall g, ~ (exists p, In p ps /\ p_group p = Some g) -> cps' g = cps g).
Proof.
  intros rc params ps cps ps' cps' H. unfold update_groups in H. cbn [fst] in H. destruct (groups_spec ps) as [N I].
  destruct (fold_groups rc params _ ps cps ps' cps' N H) as (c & C & F & A & B). exists c. split; [intros K g G; apply C; [assumption|now apply I]|].
  split; [|split; [intros g G; apply A; now apply I|intros g G; apply B; now rewrite I]].
  eapply Forall2_impl; [|exact F]. intros p p' Hp (G1 & G2). split; [assumption|]. destruct (p_group p) as [g|] eqn:G.
  - apply G2; [reflexivity|]. apply I. exists p. split; assumption.
  - apply (G2 ""%string). intros; discriminate.
Qed.
Lemma groups_rigid : forall rc params ps cps ps' cps', (forall g, exact_for rotvec to_rmat (params g) (cps g) (filter (in_group g) ps)) ->
  update_groups rotvec to_rmat rc params (ps, cps) = (ps', cps') ->
  (forall g, moved_rigidly (fun p => p_group p = Some g) ps ps') /\ Forall2 (fun p p' => p_group p = None -> p' = p) ps ps'.
Proof.
  intros rc params ps cps ps' cps' X H. destruct (groups_lemma _ _ _ _ _ _ H) as (c & _ & F & _ & _). split.
  - intros g. exists (uD (params g) (cps g)), (vadd (vsub (c g) (mv (uD (params g) (cps g)) (c g))) (us (params g) (cps g))). split; [apply uD_rot|].
    eapply Forall2_impl; [|exact F]. intros p p' Hp (G1 & G2). split; [assumption|]. intros G x. rewrite G in G2. subst p'. apply moved_lab. intros V. apply X; [assumption|].
    apply filter_In. split; [assumption|]. now apply in_group_iff.
  - eapply Forall2_impl; [|exact F]. intros p p' Hp (G1 & G2) G. now rewrite G in G2.
Qed.
(** nothing changes when the parameters still have the values applied last *)
Lemma moved_zero : forall c q cp p, (vary_tilt q = true -> exact_tilt rotvec (p_rmat p)) -> to_rmat (g_tilt q) = R0 cp -> g_tvec q = c_trans cp -> pose (moved c q cp p) = pose p.
Proof.
  intros c q cp p X E1 E2. assert (O : mm (R0 cp) (mt (R0 cp)) = mI) by (apply orth_both, (exp_map_rotation (c_tilt cp))).
  assert (D : uD q cp = mI) by (unfold uD; rewrite E1, O; now destruct (vary_tilt q)).
  unfold pose. rewrite moved_rmat, moved_tvec, D, mm_I_l.
  - f_equal. unfold us. rewrite E2. destruct (vary_tvec q), (p_tvec p), c; try destruct (c_trans cp); lin_unfold; f_equal; ring.
  - intros V. rewrite E1, O, mm_I_l. now apply X.
Qed.
Lemma system_zero : forall rc q ps cp, rc <> GroupMean -> (forall p, In p ps -> exact_tilt rotvec (p_rmat p)) -> to_rmat (g_tilt q) = R0 cp -> g_tvec q = c_trans cp ->
  exists ps' cp', update_system rotvec to_rmat rc q (ps, cp) = Ok (ps', cp') /\ map pose ps' = map pose ps.
Proof.
  intros rc q ps cp N X E1 E2. unfold update_system. cbn [fst]. destruct (system_center_ok rc ps N) as [c ->]. cbn [rbind]. rewrite (uc_spec _ c q ps cp all_sel).
  eexists. eexists. split; [reflexivity|]. rewrite map_map. apply map_ext_in. intros p Hp. now apply moved_zero; [intros _; apply X| |].
Qed.
Lemma groups_zero : forall rc params ps cps ps' cps', (forall p, In p ps -> exact_tilt rotvec (p_rmat p)) -> (forall g, to_rmat (g_tilt (params g)) = R0 (cps g)) ->
  (forall g, g_tvec (params g) = c_trans (cps g)) -> update_groups rotvec to_rmat rc params (ps, cps) = (ps', cps') -> map pose ps' = map pose ps.
Proof.
  intros rc params ps cps ps' cps' X E1 E2 H. destruct (groups_lemma _ _ _ _ _ _ H) as (c & _ & F & _ & _). clear H.
  assert (F' : Forall2 (fun p p' => pose p' = pose p) ps ps').
  { eapply Forall2_impl; [|exact F]. intros p p' Hp (G1 & G2). destruct (p_group p) as [g|]; [|now subst]. subst p'. apply moved_zero; auto. }
  clear F. induction F'; [reflexivity|]. cbn [map]. f_equal; [assumption|]. apply IHF'. intros; apply X; now right.
Qed.

(** ** the last evaluation wins *)
Definition tracked (sel : panel -> bool) (c0 : v3) (ps0 : list panel) (cp0 : cparams) (d : m3) (s : v3) (ps : list panel) (cp : cparams) : Prop :=
  rotation d /\ R0 cp = mm d (R0 cp0) /\ c_trans cp = vadd (c_trans cp0) s /\
  Forall2 (fun p0 p => p_group p = p_group p0 /\ (sel p0 = true -> p_rmat p = mm d (p_rmat p0) /\ p_tvec p = vadd (vadd (mv d (vsub (p_tvec p0) c0)) c0) s)) ps0 ps.
Lemma tracked_init : forall sel c0 ps0 cp0, tracked sel c0 ps0 cp0 mI vzero ps0 cp0.
Proof.
  intros. split; [apply rot_I|]. split; [now rewrite mm_I_l|]. split. { destruct (c_trans cp0). lin_unfold. f_equal; ring. }
  rewrite <- (map_id ps0) at 2. apply Forall2_map_self. intros p _. split; [reflexivity|]. intros _. split; [now rewrite mm_I_l|]. destruct (p_tvec p), c0. lin_unfold. f_equal; ring.
Qed.
Lemma tracked_mean : forall sel ps0 cp0 d s ps cp c0, sel_by_group sel -> c0 = vmean (map p_tvec (filter sel ps0)) -> filter sel ps0 <> [] -> tracked sel c0 ps0 cp0 d s ps cp ->
  vmean (map p_tvec (filter sel ps)) = vadd c0 s.
Proof.
  intros sel ps0 cp0 d s ps cp c0 S C N (_ & _ & _ & F).
  assert (E : map p_tvec (filter sel ps) = map (fun p => vadd (vadd (mv d (vsub (p_tvec p) c0)) c0) s) (filter sel ps0)).
  { clear N C. induction F as [|p0 p l l' [G T] F IH]; [reflexivity|]. cbn [filter]. rewrite (S p p0 G). destruct (sel p0) eqn:E; [|assumption]. cbn [map]. rewrite IH. f_equal. now apply T. }
  rewrite E, vmean_moved by assumption. rewrite <- C. destruct c0, s, d. lin_unfold. f_equal; ring.
Qed.
Definition nextD (q : gparams) (cp0 : cparams) (d : m3) : m3 := if vary_tilt q then mm (to_rmat (g_tilt q)) (mt (R0 cp0)) else d.
Definition nextS (q : gparams) (cp0 : cparams) (s : v3) : v3 := if vary_tvec q then vsub (g_tvec q) (c_trans cp0) else s.
Lemma tracked_step : forall sel c0 ps0 cp0 d s ps cp q ps' , sel_by_group sel -> tracked sel c0 ps0 cp0 d s ps cp ->
  (vary_tilt q = true -> exact_tilt rotvec (to_rmat (g_tilt q)) /\ forall p, In p ps0 -> sel p = true -> exact_tilt rotvec (mm (mm (to_rmat (g_tilt q)) (mt (R0 cp0))) (p_rmat p))) ->
  Forall2 (fun p p' => p_group p' = p_group p /\ (sel p = true -> p' = moved (vadd c0 s) q cp p)) ps ps' ->
  tracked sel c0 ps0 cp0 (nextD q cp0 d) (nextS q cp0 s) ps' (newcp q cp).
Proof.
  intros sel c0 ps0 cp0 d s ps cp q ps' S (Rd & E1 & E2 & F) X F'.
  assert (UD : mm (uD q cp) d = nextD q cp0 d).
  { unfold uD, nextD. destruct (vary_tilt q); [|now rewrite mm_I_l]. rewrite E1, mt_mm, <- mm_assoc, <- mm_assoc.
    replace (mm (mt d) d) with mI by (symmetry; exact (proj1 Rd)). now rewrite mm_I_r. }
  split; [|split; [|split]].
  - unfold nextD. destruct (vary_tilt q); [|assumption]. apply rot_mm; [apply to_rot|apply rot_mt, exp_map_rotation].
  - unfold nextD, newcp. cbn [c_tilt]. destruct (vary_tilt q) eqn:V; [|assumption]. rewrite <- expmap_same. destruct (X eq_refl) as [X1 _]. unfold exact_tilt in X1. rewrite X1.
    rewrite <- mm_assoc. replace (mm (mt (R0 cp0)) (R0 cp0)) with mI by (symmetry; exact (proj1 (exp_map_rotation (c_tilt cp0)))). now rewrite mm_I_r.
  - unfold nextS, newcp. cbn [c_trans]. destruct (vary_tvec q); [|assumption]. destruct (g_tvec q), (c_trans cp0). lin_unfold. f_equal; ring.
  - eapply Forall2_trans; [|exact F|exact F']. intros p0 p p' Hp (G1 & G2) (H1 & H2). split; [congruence|]. intros K. destruct (G2 K) as [T1 T2].
    assert (K' : sel p = true) by (rewrite <- K; now apply S). rewrite (H2 K'). rewrite moved_rmat, moved_tvec.
    + rewrite T1, T2, mm_assoc, UD. split; [reflexivity|].
      assert (US : vadd s (us q cp) = nextS q cp0 s). { unfold us, nextS. rewrite E2. destruct (vary_tvec q), s; try destruct (g_tvec q), (c_trans cp0); lin_unfold; f_equal; ring. }
      rewrite <- US, <- UD, mv_mm. generalize (mv d (vsub (p_tvec p0) c0)) (uD q cp) (us q cp). intros [] [] []. destruct c0, s. lin_unfold. f_equal; ring.
    + intros V. destruct (X V) as [_ X2]. specialize (X2 p0 Hp K). rewrite T1, mm_assoc. unfold uD, nextD in UD. rewrite V in UD. now rewrite UD.
Qed.
Lemma poses_tracked : forall c0 ps0 cp0 d s ps cp ps' cp', tracked (fun _ => true) c0 ps0 cp0 d s ps cp -> tracked (fun _ => true) c0 ps0 cp0 d s ps' cp' -> map pose ps = map pose ps'.
Proof.
  intros c0 ps0 cp0 d s ps cp ps' cp' (_ & _ & _ & F) (_ & _ & _ & F'). revert ps' F'. induction F as [|p0 p l l' [G T] F IH]; intros ps' F'; inversion F' as [|? ? ? ? [G' T'] F'']; subst; [reflexivity|].
  cbn [map]. f_equal; [|now apply IH]. unfold pose. destruct (T eq_refl) as [-> ->]. now destruct (T' eq_refl) as [-> ->].
Qed.
Lemma filter_all : forall (A : Type) (l : list A), filter (fun _ => true) l = l. Proof. induction l; cbn; congruence. Qed.
Lemma system_step : forall ps0 cp0 q d s ps cp, let c0 := vmean (map p_tvec ps0) in exact_for rotvec to_rmat q cp0 ps0 -> tracked (fun _ => true) c0 ps0 cp0 d s ps cp ->
  exists ps' cp', update_system rotvec to_rmat InstrumentMean q (ps, cp) = Ok (ps', cp') /\ tracked (fun _ => true) c0 ps0 cp0 (nextD q cp0 d) (nextS q cp0 s) ps' cp'.
Proof.
  intros ps0 cp0 q d s ps cp c0 X T. unfold update_system. cbn [fst system_center rbind]. rewrite (uc_spec _ _ q ps cp all_sel). eexists. eexists. split; [reflexivity|].
  apply (tracked_step _ c0 ps0 cp0 d s ps cp q _ all_sel T).
  - intros V. destruct (X V) as [X1 X2]. auto.
  - apply Forall2_map_self. intros p Hp. split; [reflexivity|]. intros _. assert (M : vmean (map p_tvec ps) = vadd c0 s); [|now rewrite M]. destruct ps0 as [|p0 l].
    + destruct T as (_ & _ & _ & F). inversion F; subst. destruct Hp.
    + pose proof (tracked_mean _ (p0 :: l) cp0 d s ps cp c0 all_sel) as TM. rewrite !filter_all in TM. apply TM; [reflexivity|discriminate|assumption].
Qed.
Lemma system_history : forall h ps0 cp0 d s ps cp, let c0 := vmean (map p_tvec ps0) in Forall (fun q => exact_for rotvec to_rmat q cp0 ps0) h -> tracked (fun _ => true) c0 ps0 cp0 d s ps cp ->
  exists ps' cp' d' s', all_system rotvec to_rmat InstrumentMean h (ps, cp) = Ok (ps', cp') /\ tracked (fun _ => true) c0 ps0 cp0 d' s' ps' cp' /\
  (Forall (fun q => vary_tilt q = false) h -> d' = d) /\ (Forall (fun q => vary_tvec q = false) h -> s' = s).
Proof.
  induction h as [|q h IH]; intros ps0 cp0 d s ps cp c0 X T.
  - exists ps, cp, d, s. repeat split; auto; apply T.
  - inversion X; subst. destruct (system_step ps0 cp0 q d s ps cp H1 T) as (ps1 & cp1 & E & T1). destruct (IH ps0 cp0 _ _ ps1 cp1 H2 T1) as (ps' & cp' & d' & s' & E' & T' & A & B).
    exists ps', cp', d', s'. split; [unfold all_system in *; cbn [fold_left rbind]; now rewrite E|]. split; [assumption|]. split; intros F; inversion F as [|? ? F1 F2]; subst.
    + rewrite A by assumption. unfold nextD. now rewrite F1.
    + rewrite B by assumption. unfold nextS. now rewrite F1.
Qed.
Lemma bool_forall : forall (A : Type) (f : A -> bool) l b, (forall x, In x l -> f x = true -> b = true) -> b = false -> Forall (fun x => f x = false) l.
Proof. intros A f l b H ->. apply Forall_forall. intros x Hx. destruct (f x) eqn:E; [|reflexivity]. now rewrite <- (H x Hx E). Qed.
Lemma system_last_wins : forall h q ps0 cp0, Forall (fun q => exact_for rotvec to_rmat q cp0 ps0) (h ++ [q]) ->
  (forall x, In x h -> vary_tilt x = true -> vary_tilt q = true) -> (forall x, In x h -> vary_tvec x = true -> vary_tvec q = true) ->
  exists ps cp ps' cp', all_system rotvec to_rmat InstrumentMean (h ++ [q]) (ps0, cp0) = Ok (ps, cp) /\ update_system rotvec to_rmat InstrumentMean q (ps0, cp0) = Ok (ps', cp') /\
  map pose ps = map pose ps'.
Proof.
  intros h q ps0 cp0 X V1 V2. apply Forall_app in X as [X1 X2]. inversion X2; subst.
  destruct (system_history h ps0 cp0 mI vzero ps0 cp0 X1 (tracked_init _ _ _ _)) as (ps & cp & d & s & E & T & A & B).
  destruct (system_step ps0 cp0 q d s ps cp H1 T) as (ps1 & cp1 & E1 & T1).
  destruct (system_step ps0 cp0 q mI vzero ps0 cp0 H1 (tracked_init _ _ _ _)) as (ps2 & cp2 & E2 & T2).
  exists ps1, cp1, ps2, cp2. split; [unfold all_system in *; rewrite fold_left_app, E; exact E1|]. split; [assumption|].
  replace (nextD q cp0 d) with (nextD q cp0 mI) in T1. 2:{ unfold nextD. destruct (vary_tilt q) eqn:V; [reflexivity|]. symmetry. apply A. now apply (bool_forall _ vary_tilt h false). }
  replace (nextS q cp0 s) with (nextS q cp0 vzero) in T1. 2:{ unfold nextS. destruct (vary_tvec q) eqn:V; [reflexivity|]. symmetry. apply B. now apply (bool_forall _ vary_tvec h false). }
  exact (poses_tracked _ _ _ _ _ _ _ _ _ T1 T2).
Qed.
(** groups about their own mean centre *)
Definition gtracked (ps0 : list panel) (cps0 : string -> cparams) (d : string -> m3) (s : string -> v3) (ps : list panel) (cps : string -> cparams) : Prop :=
  (forall g, (exists p, In p ps0 /\ p_group p = Some g) -> tracked (in_group g) (vmean (map p_tvec (filter (in_group g) ps0))) ps0 (cps0 g) (d g) (s g) ps (cps g)) /\
  Forall2 (fun p0 p => p_group p = p_group p0 /\ (p_group p0 = None -> p = p0)) ps0 ps.
Lemma same_groups : forall ps0 ps, Forall2 (fun p0 p => p_group p = p_group p0 /\ (p_group p0 = None -> p = p0)) ps0 ps ->
  forall g, (exists p, In p ps /\ p_group p = Some g) <-> (exists p, In p ps0 /\ p_group p = Some g).
Proof.
  intros ps0 ps F g. induction F as [|p0 p l l' [G _] F IH]; [split; intros (p & [] & _)|]. split; intros (x & [<-|Hx] & K).
  - exists p0. split; [now left|congruence].
  - destruct (proj1 IH (ex_intro _ x (conj Hx K))) as (y & Hy & L). exists y. split; [now right|assumption].
  - exists p. split; [now left|congruence].
  - destruct (proj2 IH (ex_intro _ x (conj Hx K))) as (y & Hy & L). exists y. split; [now right|assumption].
Qed.
Definition gexact (q : string -> gparams) (cps0 : string -> cparams) (ps0 : list panel) : Prop := forall g, exact_for rotvec to_rmat (q g) (cps0 g) (filter (in_group g) ps0).
Lemma group_step : forall ps0 cps0 q d s ps cps ps' cps', gexact q cps0 ps0 -> gtracked ps0 cps0 d s ps cps -> update_groups rotvec to_rmat GroupMean q (ps, cps) = (ps', cps') ->
  gtracked ps0 cps0 (fun g => nextD (q g) (cps0 g) (d g)) (fun g => nextS (q g) (cps0 g) (s g)) ps' cps'.
Proof.
  intros ps0 cps0 q d s ps cps ps' cps' X (T & F0) H. destruct (groups_lemma _ _ _ _ _ _ H) as (c & C & F & A & B). split.
  - intros g G. assert (G' : exists p, In p ps /\ p_group p = Some g) by (now apply (same_groups ps0 ps F0)). rewrite A by assumption. specialize (T g G). cbv beta.
    apply (tracked_step _ _ ps0 (cps0 g) (d g) (s g) ps (cps g) (q g) ps' (in_group_sel g) T).
    + intros V. destruct (X g V) as [X1 X2]. split; [assumption|]. intros p Hp I. apply X2. now apply filter_In.
    + eapply Forall2_impl; [|exact F]. intros p p' Hp (E1 & E2). split; [assumption|]. intros I. apply in_group_iff in I. rewrite I in E2. subst p'. f_equal.
      rewrite (C eq_refl g G'). apply (tracked_mean _ ps0 (cps0 g) (d g) (s g) ps (cps g) _ (in_group_sel g)); [reflexivity| |assumption].
      destruct G as (p0 & I0 & K). intros N. assert (In p0 (filter (in_group g) ps0)) by (apply filter_In; split; [assumption|now apply in_group_iff]). rewrite N in H0. destruct H0.
  - eapply Forall2_trans; [|exact F0|exact F]. intros p0 p p' _ (E1 & E2) (E3 & E4). split; [congruence|]. intros N. rewrite E1, N in E4. rewrite E4. auto.
Qed.
Lemma gtracked_init : forall ps0 cps0, gtracked ps0 cps0 (fun _ => mI) (fun _ => vzero) ps0 cps0.
Proof. intros. split; [intros; apply tracked_init|]. rewrite <- (map_id ps0) at 2. apply Forall2_map_self. auto. Qed.
Lemma group_history : forall h ps0 cps0 d s ps cps, Forall (fun q => gexact q cps0 ps0) h -> gtracked ps0 cps0 d s ps cps ->
  exists d' s', gtracked ps0 cps0 d' s' (fst (all_groups rotvec to_rmat GroupMean h (ps, cps))) (snd (all_groups rotvec to_rmat GroupMean h (ps, cps))) /\
  forall g, (Forall (fun q => vary_tilt (q g) = false) h -> d' g = d g) /\ (Forall (fun q => vary_tvec (q g) = false) h -> s' g = s g).
Proof.
  induction h as [|q h IH]; intros ps0 cps0 d s ps cps X T; [exists d, s; auto|]. inversion X; subst. unfold all_groups. cbn [fold_left].
  destruct (update_groups rotvec to_rmat GroupMean q (ps, cps)) as [ps1 cps1] eqn:E. pose proof (group_step _ _ _ _ _ _ _ _ _ H1 T E) as T1.
  destruct (IH ps0 cps0 _ _ ps1 cps1 H2 T1) as (d' & s' & T' & A). exists d', s'. split; [exact T'|]. intros g. destruct (A g) as [A1 A2]. split; intros F; inversion F as [|? ? F1 F2]; subst.
  - rewrite A1 by assumption. unfold nextD. now rewrite F1.
  - rewrite A2 by assumption. unfold nextS. now rewrite F1.
Qed.
Definition target (ps0 : list panel) (d : string -> m3) (s : string -> v3) (p0 : panel) : m3 * v3 :=
  match p_group p0 with
  | None => pose p0
  | Some g => let c0 := vmean (map p_tvec (filter (in_group g) ps0)) in (mm (d g) (p_rmat p0), vadd (vadd (mv (d g) (vsub (p_tvec p0) c0)) c0) (s g))
  end.
Lemma gtracked_poses : forall ps0 cps0 d s ps cps, gtracked ps0 cps0 d s ps cps -> map pose ps = map (target ps0 d s) ps0.
Proof.
  intros ps0 cps0 d s ps cps (T & F).
  assert (K : forall g, (exists p, In p ps0 /\ p_group p = Some g) -> Forall2 (fun p0 p => p_group p0 = Some g -> pose p = target ps0 d s p0) ps0 ps).
  { intros g G. destruct (T g G) as (_ & _ & _ & F'). eapply Forall2_impl; [|exact F']. intros p0 p _ (_ & H) E. unfold pose, target. rewrite E. destruct H as [H1 H2]; [now apply in_group_iff|]. cbv zeta. now rewrite H1, H2. }
  assert (N : Forall2 (fun p0 p => p_group p0 = None -> pose p = target ps0 d s p0) ps0 ps). { eapply Forall2_impl; [|exact F]. intros p0 p _ (_ & H) E. unfold target. rewrite E. now rewrite H. }
  clear T F cps0 cps. revert K N. generalize (target ps0 d s) as f. intros f K N. induction N as [|p0 p l0 l N1 N IH]; [reflexivity|]. cbn [map]. f_equal.
  - destruct (p_group p0) as [g|] eqn:E; [|now apply N1]. assert (K' := K g (ex_intro _ p0 (conj (or_introl eq_refl) E))). inversion K'; subst. auto.
  - apply IH. intros g (x & Hx & L). assert (K' := K g (ex_intro _ x (conj (or_intror Hx) L))). now inversion K'.
Qed.
Lemma target_ext : forall ps0 d d' s s', (forall g, d g = d' g) -> (forall g, s g = s' g) -> map (target ps0 d s) ps0 = map (target ps0 d' s') ps0.
Proof. intros ps0 d d' s s' A B. apply map_ext. intros p. unfold target. destruct (p_group p); [|reflexivity]. now rewrite A, B. Qed.
Lemma groups_last_wins : forall h q ps0 cps0, Forall (fun q => forall g, exact_for rotvec to_rmat (q g) (cps0 g) (filter (in_group g) ps0)) (h ++ [q]) ->
  (forall g x, In x h -> vary_tilt (x g) = true -> vary_tilt (q g) = true) -> (forall g x, In x h -> vary_tvec (x g) = true -> vary_tvec (q g) = true) ->
  map pose (fst (all_groups rotvec to_rmat GroupMean (h ++ [q]) (ps0, cps0))) = map pose (fst (update_groups rotvec to_rmat GroupMean q (ps0, cps0))).
Proof.
  intros h q ps0 cps0 X V1 V2. apply Forall_app in X as [X1 X2]. inversion X2; subst.
  destruct (group_history h ps0 cps0 _ _ ps0 cps0 X1 (gtracked_init ps0 cps0)) as (d & s & T & A). unfold all_groups in *. rewrite fold_left_app. cbn [fold_left].
  destruct (fold_left _ h (ps0, cps0)) as [ps cps]. cbn [fst snd] in T.
  destruct (update_groups rotvec to_rmat GroupMean q (ps, cps)) as [ps1 cps1] eqn:E1. destruct (update_groups rotvec to_rmat GroupMean q (ps0, cps0)) as [ps2 cps2] eqn:E2. cbn [fst].
  pose proof (group_step _ _ _ _ _ _ _ _ _ H1 T E1) as T1. pose proof (group_step _ _ _ _ _ _ _ _ _ H1 (gtracked_init ps0 cps0) E2) as T2.
  rewrite (gtracked_poses _ _ _ _ _ _ T1), (gtracked_poses _ _ _ _ _ _ T2). apply target_ext; intros g; destruct (A g) as [A1 A2].
  - unfold nextD. destruct (vary_tilt (q g)) eqn:V; [reflexivity|]. apply A1. apply (bool_forall _ (fun q => vary_tilt (q g)) h (vary_tilt (q g))); [intros x Hx; now apply V1|assumption].
  - unfold nextS. destruct (vary_tvec (q g)) eqn:V; [reflexivity|]. apply A2. apply (bool_forall _ (fun q => vary_tvec (q g)) h (vary_tvec (q g))); [intros x Hx; now apply V2|assumption].
Qed.
End Motion.
(** distances *)
Lemma rigid_distance : forall d s u w, rotation d -> norm (vsub (vadd (mv d u) s) (vadd (mv d w) s)) = norm (vsub u w).
Proof.
  intros d s u w H. assert (E : vsub (vadd (mv d u) s) (vadd (mv d w) s) = mv d (vsub u w)) by (destruct d, s, u, w; lin_unfold; f_equal; ring). rewrite E. unfold norm, norm2. now rewrite (orth_dot d _ _ (proj1 H)).
Qed.
Lemma rigid_distances : forall sel ps ps', moved_rigidly sel ps ps' -> forall p p' r r' x y, In (p, p') (combine ps ps') -> In (r, r') (combine ps ps') -> sel p -> sel r ->
  norm (vsub (lab p' x) (lab r' y)) = norm (vsub (lab p x) (lab r y)) /\ mm (mt (p_rmat p')) (p_rmat r') = mm (mt (p_rmat p)) (p_rmat r).
Proof.
  intros sel ps ps' (d & s & D & F) p p' r r' x y Hp Hr Sp Sr.
  assert (A : forall a a', In (a, a') (combine ps ps') -> sel a -> forall x, lab a' x = vadd (mv d (lab a x)) s).
  { clear -F. induction F as [|a a' l l' [_ H] F IH]; [intros ? ? []|]. cbn [combine In]. intros b b' [E|Hb]; [injection E as <- <-; exact H|now apply IH]. }
  assert (B : forall a a', In (a, a') (combine ps ps') -> sel a -> p_rmat a' = mm d (p_rmat a)).
  { intros a a' H S. pose proof (A a a' H S) as L. apply m3_by_action. intros z. pose proof (L z) as Lz. pose proof (L vzero) as L0. unfold lab in Lz, L0. rewrite mv_mm.
    revert Lz L0. generalize (p_rmat a') (p_rmat a) (p_tvec a') (p_tvec a). intros ra' ra [] []. destruct ra', ra, d, s, z. lin_unfold. intros L1 L2. injection L1 as -> -> -> || injection L1 as a1 a2 a3. injection L2 as b1 b2 b3. f_equal; lra. }
  split.
  - rewrite (A p p' Hp Sp), (A r r' Hr Sr). now apply rigid_distance.
  - rewrite (B p p' Hp Sp), (B r r' Hr Sr). rewrite mt_mm, <- mm_assoc, (mm_assoc (mt d)). replace (mm (mt d) d) with mI by (symmetry; exact (proj1 D)). now rewrite mm_I_l.
Qed.
(** ** path dependence about other centres *)
Definition quarter : v3 := V3 0 0 (PI / 2).
Lemma quarter_e0 : mv (rotMatOfExpMap quarter) e0 = e1.
Proof.
  rewrite (proj2 (exp_map_lemma quarter) e2 (PI / 2)).
  - unfold rotated. rewrite cos_PI2, sin_PI2. lin_unfold. f_equal; ring.
  - unfold norm, norm2, dot, e2. cbn. replace (0 * 0 + 0 * 0 + 1 * 1) with 1 by ring. apply sqrt_1.
  - unfold quarter. lin_unfold. f_equal; ring.
Qed.
Definition q_shift (k : R) : gparams := GP vzero (vscale k e0) true true.
Definition q_turn : gparams := GP quarter vzero true true.
Definition p_at (g : option string) : panel := Panel g vzero vzero.
Lemma exp_zero : rotMatOfExpMap vzero = mI. Proof. exact (proj1 (exp_map_lemma vzero) eq_refl). Qed.
Lemma mt_I : mt mI = mI. Proof. lin. Qed.
Lemma newcp_shift : forall rotvec k, exact_tilt rotvec mI -> rotMatOfExpMap (c_tilt (newcp rotvec rotMatOfExpMap (q_shift k) (CP vzero vzero))) = mI.
Proof. intros rv k X. unfold newcp, q_shift. cbn [vary_tilt g_tilt c_tilt]. rewrite exp_zero. rewrite <- expmap_same. exact X. Qed.
Lemma moved_shift : forall rotvec k g c, p_tvec (moved rotvec rotMatOfExpMap c (q_shift k) (CP vzero vzero) (p_at g)) = vscale k e0.
Proof. intros. rewrite moved_tvec. unfold uD, us, q_shift. cbn [vary_tilt vary_tvec g_tilt g_tvec c_tilt c_trans p_at p_tvec]. rewrite exp_zero, mt_I, mm_I_l. destruct c. lin_unfold. f_equal; ring. Qed.
Lemma origin_path : forall rotvec, exact_tilt rotvec mI -> exists ps ps' cp cp',
  all_system rotvec rotMatOfExpMap Origin [q_shift 1; q_turn] ([p_at None], CP vzero vzero) = Ok (ps, cp) /\
  update_system rotvec rotMatOfExpMap Origin q_turn ([p_at None], CP vzero vzero) = Ok (ps', cp') /\ map p_tvec ps = [vsub e1 e0] /\ map p_tvec ps' = [vzero].
Proof.
  intros rv X. unfold all_system. cbn [fold_left rbind]. unfold update_system. cbn [fst system_center rbind]. rewrite !(uc_spec _ _ _ _ _ _ _ all_sel). cbn [fst rbind map].
  rewrite ?(uc_spec _ _ _ _ _ _ _ all_sel). do 4 eexists. split; [reflexivity|]. split; [reflexivity|]. cbn [map]. rewrite !(moved_tvec _ _ _ q_turn), moved_shift. split.
  - unfold uD, us, q_turn. cbn [vary_tilt vary_tvec g_tilt g_tvec]. rewrite newcp_shift, mt_I, mm_I_r by assumption. cbn [newcp q_shift c_trans vary_tvec g_tvec]. f_equal.
    assert (E : vsub (vscale 1 e0) vzero = e0) by (lin_unfold; f_equal; ring). rewrite E, quarter_e0. lin_unfold. f_equal; ring.
  - unfold uD, us, q_turn. cbn [vary_tilt vary_tvec g_tilt g_tvec c_tilt c_trans p_at p_tvec]. rewrite exp_zero, mt_I, mm_I_r. f_equal. generalize (rotMatOfExpMap quarter). intros []. lin_unfold. f_equal; ring.
Qed.
Lemma one_group : forall rotvec to_rmat params pa pb cps, p_group pa = Some "a"%string -> p_group pb = None ->
  exists cps', update_groups rotvec to_rmat InstrumentMean params ([pa; pb], cps) = ([moved rotvec to_rmat (vmean [p_tvec pa; p_tvec pb]) (params "a"%string) (cps "a"%string) pa; pb], cps') /\
  cps' "a"%string = newcp rotvec to_rmat (params "a"%string) (cps "a"%string).
Proof.
  intros rv tr params pa pb cps A B. unfold update_groups. cbn [fst]. assert (G : detector_groups [pa; pb] = ["a"%string]) by (unfold detector_groups; cbn [add_groups]; rewrite A, B; reflexivity).
  rewrite G. cbn [fold_left]. unfold update_one_group. rewrite (uc_spec _ _ _ _ _ _ _ (in_group_sel _)). eexists. split.
  - cbn [map group_center]. assert (IA : in_group "a" pa = true) by (now apply in_group_iff). assert (IB : in_group "a" pb = false) by (unfold in_group; now rewrite B). rewrite IA, IB. reflexivity.
  - cbv beta. reflexivity.
Qed.
Lemma group_path : forall rotvec, exact_tilt rotvec mI ->
  map p_tvec (fst (all_groups rotvec rotMatOfExpMap InstrumentMean [fun _ => q_shift 2; fun _ => q_turn] ([p_at (Some "a"%string); p_at None], fun _ => CP vzero vzero))) = [vsub e1 e0; vzero] /\
  map p_tvec (fst (update_groups rotvec rotMatOfExpMap InstrumentMean (fun _ => q_turn) ([p_at (Some "a"%string); p_at None], fun _ => CP vzero vzero))) = [vzero; vzero].
Proof.
  intros rv X. unfold all_groups. cbn [fold_left].
  destruct (one_group rv rotMatOfExpMap (fun _ => q_shift 2) (p_at (Some "a"%string)) (p_at None) (fun _ => CP vzero vzero) eq_refl eq_refl) as (cps1 & E1 & C1). rewrite E1.
  set (pa := moved _ _ _ _ _ _). assert (Pa : p_tvec pa = vscale 2 e0) by (unfold pa; apply moved_shift).
  destruct (one_group rv rotMatOfExpMap (fun _ => q_turn) pa (p_at None) cps1 eq_refl eq_refl) as (cps2 & E2 & C2). rewrite E2.
  destruct (one_group rv rotMatOfExpMap (fun _ => q_turn) (p_at (Some "a"%string)) (p_at None) (fun _ => CP vzero vzero) eq_refl eq_refl) as (cps3 & E3 & C3). rewrite E3.
  cbn [fst map]. rewrite !(moved_tvec _ _ _ q_turn), Pa, C1. split.
  - unfold uD, us, q_turn. cbn [vary_tilt vary_tvec g_tilt g_tvec]. rewrite newcp_shift, mt_I, mm_I_r by assumption. cbn [newcp q_shift c_trans vary_tvec g_tvec p_at p_tvec].
    assert (M : vmean [vscale 2 e0; vzero] = e0). { unfold vmean, vsum. cbn [List.length fold_right]. replace (INR 2) with 2 by (cbn; ring). lin_unfold. f_equal; field. } rewrite M.
    assert (E : vsub (vscale 2 e0) e0 = e0) by (lin_unfold; f_equal; ring). rewrite E, quarter_e0. f_equal. lin_unfold. f_equal; ring.
  - unfold uD, us, q_turn. cbn [vary_tilt vary_tvec g_tilt g_tvec c_tilt c_trans p_at p_tvec]. rewrite exp_zero, mt_I, mm_I_r. f_equal.
    assert (M : vmean [vzero; vzero] = vzero). { unfold vmean, vsum. cbn [List.length fold_right]. generalize (/ INR 2). intros. lin_unfold. f_equal; ring. } rewrite M.
    generalize (rotMatOfExpMap quarter). intros []. lin_unfold. f_equal; ring.
Qed.
Lemma norm_scale : forall k v, norm (vscale k v) = Rabs k * norm v.
Proof. intros k v. unfold norm. replace (norm2 (vscale k v)) with (Rsqr k * norm2 v) by (destruct v; unfold Rsqr; lin_unfold; ring). rewrite sqrt_mult_alt by apply Rle_0_sqr. now rewrite sqrt_Rsqr_abs. Qed.
(** every rotation is the matrix of some exponential map of length at most pi *)
Lemma expmap_onto : forall r, rotation r -> exists e, norm e <= PI /\ rotMatOfExpMap e = r.
Proof.
  intros r H. destruct (rotation_has_quat r H) as (q0 & U0 & E0).
  assert (Q : exists q, unitq q /\ rotMatOfQuat q = r /\ 0 <= qw q).
  { destruct (Rle_dec 0 (qw q0)); [exists q0; auto|]. exists (negq q0). split; [now apply neg_unit|]. split; [now rewrite rot_neg|]. unfold negq. cbn. lra. }
  destruct Q as (q & U & E & W). clear q0 U0 E0.
  assert (W1 : qw q <= 1). { unfold unitq in U. nra. }
  set (v := V3 (qx q) (qy q) (qz q)). assert (NV : norm2 v = 1 - qw q * qw q). { unfold norm2, dot, v, unitq in *. cbn. lra. }
  destruct (Req_EM_T (norm2 v) 0) as [Z|Z].
  - exists vzero. split. { rewrite (proj2 (norm_zero_iff vzero) eq_refl). pose proof PI_RGT_0. lra. } rewrite exp_zero, <- E. rewrite NV in Z.
    assert (qw q = 1) by nra. assert (V : v = vzero). { apply norm_zero_iff. unfold norm. rewrite NV, H0. replace (1 - 1 * 1) with 0 by ring. apply sqrt_0. }
    unfold v in V. injection V as A B C. unfold rotMatOfQuat. rewrite H0, A, B, C. lin_unfold. f_equal; ring.
  - assert (NZ : v <> vzero). { intros K. apply Z. rewrite K. unfold norm2, dot, vzero. cbn. ring. }
    destruct (unit_dir v NZ) as (n & N1 & N2 & En). set (t := 2 * acos (qw q)). exists (vscale t n).
    assert (C : cos (t / 2) = qw q). { unfold t. replace (2 * acos (qw q) / 2) with (acos (qw q)) by field. apply cos_acos. lra. }
    assert (S : sin (t / 2) = norm v). { unfold t. replace (2 * acos (qw q) / 2) with (acos (qw q)) by field. rewrite sin_acos by lra. unfold norm. f_equal. rewrite NV. unfold Rsqr. ring. }
    assert (AB : 0 <= acos (qw q) <= PI / 2). { split; [apply acos_bound|]. destruct (Rle_dec (acos (qw q)) (PI / 2)) as [|K]; [assumption|]. exfalso. pose proof (acos_bound (qw q)). assert (cos (acos (qw q)) < 0) by (apply cos_lt_0; lra). rewrite cos_acos in H1 by lra. lra. }
    split.
    + rewrite norm_scale, N1. unfold t. rewrite Rabs_right by lra. lra.
    + apply m3_by_action. intros x. rewrite (proj2 (exp_map_lemma (vscale t n)) n t N1 eq_refl). rewrite <- rodrigues_quat by assumption. rewrite C, S.
      rewrite <- E. f_equal. f_equal. unfold v in En. injection En as A B D. fold v in A, B, D. destruct q as [w a b c]. cbn [qw qx qy qz] in *. now rewrite <- A, <- B, <- D.
Qed.
