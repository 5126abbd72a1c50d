(** Material objects: histories. *)
From Coq Require Import QArith Qabs Permutation String.
From Verif Require Import Prelude ProcessModel PlaneModel PlaneSpec PlaneProofs MatModel MatSpec MatProofs.
Local Close Scope Q_scope.
Local Notation length := List.length.

Ltac fields := cbn [with_plane with_cell with_lp m_lp m_sg m_type m_charge m_info m_U m_dmin m_energy m_set m_file m_plane m_cell
  p_laue p_lp p_wl p_hkls p_pd p_sf p_old c_lp c_sg c_type c_charge c_info c_U c_dmin c_set c_volt fst snd] in *.
Lemma reset_same : forall sg lp lp', (1 <= sg <= 230)%Z -> fits_system sg lp -> reset_lparms sg lp = Ok lp' -> lp' = lp.
Proof.
  intros sg lp lp' B (a & b & c & al & be & ga & -> & H1 & H2 & H3 & H4 & H5) H. unfold reset_lparms in H. destruct (latticeType sg) as [t|] eqn:E; [|discriminate]. cbn [rbind] in H.
  apply latticeType_ranges in E; [|assumption].
  destruct E as [E|[E|[E|[E|[E|[E|E]]]]]]; destruct E as [-> R]; cbn in H; injection H as <-; try reflexivity.
  - destruct H1 as [-> ->]; [lia|reflexivity].
  - destruct H2 as (-> & -> & ->); [lia|reflexivity].
  - destruct H2 as (-> & -> & ->); [lia|]. now rewrite H3 by lia.
  - destruct H4 as (-> & -> & ->); [lia|]. now rewrite H3 by lia.
  - destruct H4 as (-> & -> & ->); [lia|]. now rewrite H3 by lia.
  - destruct H5 as (-> & -> & -> & ->); [lia|]. now rewrite H3 by lia.
Qed.
Lemma isclose_nearly : forall a b, isclose a b = true <-> nearly a b.
Proof. intros a b. unfold isclose, nearly. apply Qle_bool_iff. Qed.
Lemma nearly_refl : forall a, nearly a a.
Proof.
  intros a. unfold nearly. assert (E : (Qabs (a - a) == 0)%Q) by (assert (Z : (a - a == 0)%Q) by ring; rewrite Z; reflexivity). rewrite E.
  assert (P := Qabs_nonneg a). assert (H : (0 <= (1 # 100000) * Qabs a)%Q) by (apply Qmult_le_0_compat; [discriminate|assumption]).
  apply Qle_trans with (0 + 0)%Q; [discriminate|]. apply Qplus_le_compat; [discriminate|assumption].
Qed.

Section M.
Variable W : world.
Hypothesis HS : sane W.

(** the part of the state that rebuilding the reflections relies on *)
Definition core (m : mat) : Prop := cell_agrees m /\ planes_lattice W m /\ good (m_plane m) /\ at_angles W (m_plane m).
Definition listed_now (m : mat) : Prop := Permutation (map snd (data (p_pd (m_plane m)))) (w_refl W (m_lp m) (m_sg m) (m_set m) (m_dmin m) (m_dmin m)).
Definition sf_fresh (m : mat) : Prop := p_old (m_plane m) = None /\ (p_sf (m_plane m) = None \/ p_sf (m_plane m) = Some (w_sf W (m_cell m) (data (p_pd (m_plane m))))).
Definition full (m : mat) : Prop := core m /\ listed_now m /\ energy_agrees W m /\ sf_fresh m.

Lemma newPdata_ok : forall m m', good (m_plane m) -> at_angles W (m_plane m) -> newPdata W m = (m', None) ->
  m' = with_plane m (m_plane m') /\ p_laue (m_plane m') = p_laue (m_plane m) /\ p_lp (m_plane m') = p_lp (m_plane m) /\ p_wl (m_plane m') = p_wl (m_plane m) /\
  tmax (p_pd (m_plane m')) = tmax (p_pd (m_plane m)) /\ good (m_plane m') /\ at_angles W (m_plane m') /\
  Permutation (map snd (data (p_pd (m_plane m')))) (w_refl W (c_lp (m_cell m)) (c_sg (m_cell m)) (c_set (m_cell m)) (c_dmin (m_cell m)) (m_dmin m)).
Proof.
  intros m m' G A H. unfold newPdata in H. set (hkls := w_refl W _ _ _ _ _) in *. destruct (hkls_match hkls (hkls_of (p_pd (m_plane m)))) eqn:EM.
  - injection H as <-. repeat (split; [try reflexivity; try assumption|]); try assumption; [now destruct m|]. apply Permutation_sym. now apply hkls_match_iff.
  - destruct (plane_calc W _) as [q [e|]] eqn:EC; [discriminate|]. apply plane_calc_ok in EC as (P1 & P2 & P3 & P4 & P5 & P6 & P7 & P8 & P9 & P10); [|assumption|fields; discriminate]. fields. cbn [tmax] in P8.
    destruct (exclusions (p_pd (m_plane m))) as [ex|]; [|discriminate].
    set (mask := if forallb _ _ then _ else _) in *. unfold on_plane in H. destruct (assign_mask q mask) as [q' e] eqn:EA. fields. injection H as <- ->. fields.
    apply assign_mask_ok in EA as (Q1 & Q2 & Q3 & Q4 & Q5 & Q6 & Q7 & Q8 & Q9); [|assumption]. split; [reflexivity|]. split; [congruence|]. split; [congruence|]. split; [congruence|].
    split; [congruence|]. split; [assumption|]. split.
    + unfold at_angles. rewrite Q1, Q2, Q3, Q7. exact P10.
    + rewrite Q7. rewrite <- P4. now apply good_perm.
Qed.
Lemma hkls_changed_ok : forall m m', core m -> c_volt (m_cell m) = (fst (m_energy m) * (1000#1))%Q -> hkls_changed W m = (m', None) ->
  core m' /\ listed_now m' /\ sf_fresh m' /\ m_energy m' = m_energy m /\ m_cell m' = m_cell m /\ p_wl (m_plane m') = p_wl (m_plane m).
Proof.
  intros m m' (CA & (PL1 & PL2) & G & A) V H. unfold hkls_changed, andthen in H. destruct (newPdata W m) as [m1 [e|]] eqn:E; fields; [discriminate|].
  apply newPdata_ok in E as (R1 & R2 & R3 & R4 & R5 & R6 & R7 & R8); [|assumption|assumption]. unfold invalidate in H. injection H as <-. rewrite R1. fields.
  destruct CA as ((B1 & B2) & Fs & C1 & C2 & C3 & C4 & C5 & C6 & C7 & C8). unfold core, listed_now, sf_fresh, cell_agrees, planes_lattice. fields.
  unfold at_angles in *. fields. rewrite R2, R3 in *. repeat match goal with |- _ /\ _ => split end; try assumption; try reflexivity; [|now left].
  rewrite C1, C2, C7, C8 in R8. exact R8.
Qed.
Lemma newUnitcell_core : forall m m', good (m_plane m) -> newUnitcell W m = (m', None) ->
  core m' /\ same_rest m m' /\ c_volt (m_cell m') = (fst (m_energy m') * (1000#1))%Q /\ p_wl (m_plane m') = p_wl (m_plane m) /\ p_hkls (m_plane m') = p_hkls (m_plane m).
Proof.
  intros m m' G H. apply newUnitcell_ok in H as (H1 & H2 & H3 & H4 & H5 & H6 & H7 & H8 & H9 & H10 & H11); [|assumption|assumption]. unfold core. tauto.
Qed.
(** after a successful rebuild everything but the wavelength agrees, whatever the state was *)
Lemma rebuild_ok : forall m m', good (m_plane m) -> andthen (newUnitcell W m) (hkls_changed W) = (m', None) ->
  core m' /\ listed_now m' /\ sf_fresh m' /\ m_energy m' = m_energy m /\ c_volt (m_cell m') = (fst (m_energy m') * (1000#1))%Q /\ p_wl (m_plane m') = p_wl (m_plane m).
Proof.
  intros m m' G H. unfold andthen in H. destruct (newUnitcell W m) as [m1 [e|]] eqn:E; fields; [discriminate|].
  apply newUnitcell_core in E as (C & SR & V & Wl & _); [|assumption]. apply hkls_changed_ok in H as (C' & L & Sf & En & Ce & Wl'); [|assumption|assumption].
  repeat (split; [assumption|]). split; [rewrite En; apply SR|]. split; [now rewrite Ce, En|congruence].
Qed.
Lemma set_wavelength_ok : forall p e p', good p -> at_angles W p -> set_wavelength W p e = (p', None) ->
  snd e <> NotWavelength /\ nearly (p_wl p') (w_wavelength W e) /\ p_laue p' = p_laue p /\ p_lp p' = p_lp p /\ p_hkls p' = p_hkls p /\ p_sf p' = p_sf p /\ p_old p' = p_old p /\
  stored (p_pd p') = stored (p_pd p) /\ tmax (p_pd p') = tmax (p_pd p) /\ good p' /\ at_angles W p'.
Proof.
  intros p e p' G A H. unfold set_wavelength, wavelength_of in H. destruct (snd e) eqn:Es; try discriminate;
    (split; [discriminate|]); (destruct (isclose (p_wl p) (w_wavelength W e)) eqn:EI;
    [injection H as <-; apply isclose_nearly in EI; now repeat (split; [assumption || reflexivity|])|]);
    (destruct G as (Wf & L & F); apply plane_calc_ok in H as (P1 & P2 & P3 & P4 & P5 & P6 & P7 & P8 & P9 & P10); [|assumption|fields; intros x X; rewrite L; now apply Wf]);
    fields; rewrite P3; (split; [apply nearly_refl|]); now repeat (split; [assumption|]).
Qed.

Lemma constructed_full : forall m, constructed W m -> full m.
Proof.
  intros m (sg & lp & dmin & e & ty & ch & info & U & st & file & H). unfold new_material in H.
  destruct (reset_lparms sg lp) as [lp'|] eqn:ER; [|discriminate]. cbn [rbind] in H. unfold new_cell in H. fields.
  destruct (Z.leb 1 sg && Z.leb sg 230) eqn:EB; [|discriminate]. apply andb_prop in EB as [B1 B2]. apply Z.leb_le in B1, B2.
  set (c := Cell lp' sg ty ch info U dmin (fst e * (1000 # 1))%Q st) in *. destruct (w_build W c); [discriminate|]. cbn [rbind] in H.
  destruct (reduced c lp') as [r|] eqn:Er; [|discriminate]. unfold reduced in Er. cbn [c_sg c rbind] in Er, H. destruct (reset_fits _ _ _ _ (conj B1 B2) ER Er) as [Fs Fp].
  destruct (wavelength_of W e) as [w|] eqn:EW; [|discriminate]. cbn [rbind] in H.
  assert (EW' : snd e <> NotWavelength /\ w = w_wavelength W e) by (unfold wavelength_of in EW; destruct (snd e); now (split; [|try injection EW as <-])). clear EW. destruct EW' as [NW ->].
  destruct (plane_calc W _) as [q [x|]] eqn:EC; [discriminate|]. apply plane_calc_ok in EC as (P1 & P2 & P3 & P4 & P5 & P6 & P7 & P8 & P9 & P10); [|assumption|fields; discriminate]. fields.
  destruct (assign_mask q _) as [q' [x|]] eqn:EA; [discriminate|]. injection H as <-. apply assign_mask_ok in EA as (Q1 & Q2 & Q3 & Q4 & Q5 & Q6 & Q7 & Q8 & Q9); [|assumption].
  unfold full, core, cell_agrees, planes_lattice, listed_now, energy_agrees, sf_fresh. fields. subst c. fields.
  rewrite Q1, Q2, Q3, Q5, Q6, Q7, P1, P2, P3, P5, P6. repeat match goal with |- _ /\ _ => split end; try assumption; try reflexivity; [| |apply nearly_refl|now left].
  - unfold at_angles. rewrite Q1, Q2, Q3, Q7. exact P10.
  - rewrite <- P4. now apply good_perm.
Qed.
Lemma atoms_ok : forall m ty info U ch m1, andthen (andthen (andthen (set_atomtype m ty) (fun m => set_atominfo m info)) (fun m => set_U m U)) (fun m => set_charge W m ch) = (m1, None) ->
  m1 = Mat (m_sg m) (m_lp m) (m_dmin m) (m_energy m) ty ch info U (m_set m) (m_file m) (m_cell m) (m_plane m).
Proof.
  intros m ty info U ch m1 H. unfold andthen, set_atomtype, set_atominfo, set_U, set_charge in H. fields.
  destruct (forallb _ info); fields; [|discriminate]. destruct (negb _); fields; [discriminate|]. destruct (w_charge W ty ch); fields; [discriminate|]. now injection H as <-.
Qed.
Lemma step_full : forall m o m', full m -> rebuilding o -> step W m o = (m', None) -> full m'.
Proof.
  intros m o m' ((CA & PL & G & A) & L & (EV & EN & EW) & SF1 & SF2) R H. destruct o; cbn [rebuilding] in R; try contradiction; cbn [step] in H.
  - unfold set_sgnum in H. apply rebuild_ok in H as (C & L' & Sf & En & V & Wl); [|assumption]. fields. unfold full, energy_agrees. rewrite V, Wl, En. tauto.
  - unfold set_latticeParameters in H. destruct (do f <- _; _) as [l|]; [|discriminate]. apply rebuild_ok in H as (C & L' & Sf & En & V & Wl); [|assumption]. fields. unfold full, energy_agrees. rewrite V, Wl, En. tauto.
  - unfold set_dmin in H. destruct (Qeq_bool (m_dmin m) v); [injection H as <-; unfold full, core, energy_agrees, sf_fresh; tauto|].
    apply hkls_changed_ok in H as (C & L' & Sf & En & Ce & Wl); [| |assumption]; [|]; fields.
    + unfold full, energy_agrees. rewrite Ce, En, Wl. fields. tauto.
    + unfold core, cell_agrees, planes_lattice in *. fields. tauto.
  - unfold set_beamEnergy, andthen, on_plane in H. fields. destruct (set_wavelength W (m_plane m) e) as [p' [x|]] eqn:E; fields; [discriminate|].
    apply set_wavelength_ok in E as (E1 & E2 & E3 & E4 & E5 & E6 & E7 & E8 & E9 & E10 & E11); [|assumption|assumption].
    apply hkls_changed_ok in H as (C & L' & Sf & En & Ce & Wl); [| |reflexivity]; [|]; fields.
    + unfold full, energy_agrees. rewrite Ce, En, Wl. fields. tauto.
    + unfold core, cell_agrees, planes_lattice in *. fields. rewrite E3, E4. tauto.
  - unfold set_atomdata in H. destruct (negb _); [discriminate|]. destruct (negb _); [discriminate|]. destruct (negb _); [discriminate|].
    destruct (andthen (andthen (andthen (set_atomtype m ty) _) _) _) as [m1 [x|]] eqn:E; [discriminate|]. apply atoms_ok in E. subst m1.
    unfold andthen in H. fields. destruct (newUnitcell W _) as [m2 [x|]] eqn:E; fields; [discriminate|]. injection H as <-.
    assert (Elp : m_lp m2 = m_lp m).
    { unfold newUnitcell, andthen, newUnitcell0 in E. fields. destruct (reset_lparms (m_sg m) (m_lp m)) as [lp|] eqn:ER; fields; [|discriminate].
      destruct CA as (B & Fs & _). apply reset_same in ER; [|assumption|assumption]. subst lp. destruct (new_cell W _) as [c|]; fields; [|discriminate].
      unfold set_laue_and_lparms in E. fields. destruct (reduced c (m_lp m)); [|discriminate]. unfold on_plane in E. injection E as <- _. reflexivity. }
    apply newUnitcell_core in E as ((CA' & PL' & G' & A') & SR & V & Wl & Hk); [|assumption]. fields. destruct SR as (S1 & S2 & S3 & S4 & S5 & S6 & S7 & S8 & S9). fields.
    unfold full, core, listed_now, energy_agrees, sf_fresh, invalidate. fields. repeat match goal with |- _ /\ _ => split end; try assumption; try reflexivity; try (now left).
    + rewrite Elp, S1, S2, S8. transitivity (p_hkls (m_plane m2)); [now apply good_perm|]. rewrite Hk. transitivity (map snd (data (p_pd (m_plane m)))); [apply Permutation_sym; now apply good_perm|exact L].
    + now rewrite S3.
    + now rewrite Wl, S3.
  - unfold set_plane_exclusions in H. destruct (set_exclusions _ _) as [d|] eqn:E; [|discriminate]. injection H as <-. destruct G as (Wf & Lh & F).
    destruct (set_excl_wf _ _ _ Wf E) as (W' & Dd & Es & _ & Et). unfold full, core, listed_now, energy_agrees, sf_fresh, planes_lattice, at_angles, good, cell_agrees in *. fields. rewrite Dd, Es. tauto.
  - unfold set_plane_tThMax in H. injection H as <-. unfold full, core, listed_now, energy_agrees, sf_fresh, planes_lattice, at_angles, good, cell_agrees in *. fields. tauto.
  - unfold read_sf in H. destruct (p_sf (m_plane m)) as [v|] eqn:ES; fields; destruct (do ex <- _; _); try discriminate; injection H as <-;
      unfold full, core, listed_now, energy_agrees, sf_fresh, planes_lattice, at_angles, good, cell_agrees in *; fields; rewrite ?ES, ?SF1; tauto.
Qed.
Lemma history_full : forall m m', full m -> history W rebuilding m m' -> full m'.
Proof. intros m m' F H. induction H as [|m m1 o m2 H IH R E]; [assumption|]. exact (step_full m1 o m2 (IH F) R E). Qed.

(** what every history keeps, also one with failures *)
Lemma good_calc : forall p p' e, good p -> plane_calc W p = (p', e) -> good p'.
Proof.
  intros p p' [e|] G H; [apply plane_calc_err in H; now subst|]. destruct G as (Wf & L & F). apply plane_calc_ok in H; [tauto|assumption|]. intros x X. rewrite L. now apply Wf.
Qed.
Lemma good_newUnitcell : forall m m' e, good (m_plane m) -> newUnitcell W m = (m', e) -> good (m_plane m').
Proof.
  intros m m' e G H. unfold newUnitcell, andthen, newUnitcell0 in H. destruct (reset_lparms (m_sg m) (m_lp m)) as [lp|]; [|injection H as <- _; exact G].
  destruct (new_cell W _) as [c|]; fields; [|injection H as <- _; exact G]. unfold set_laue_and_lparms in H. fields. destruct (reduced c lp) as [r|]; [|injection H as <- _; exact G].
  unfold on_plane in H. destruct (plane_calc W _) as [q x] eqn:E. injection H as <- _. fields. apply good_calc in E; [exact E|exact G].
Qed.
Lemma good_changed : forall m m' e, good (m_plane m) -> hkls_changed W m = (m', e) -> good (m_plane m').
Proof.
  intros m m' e G H. unfold hkls_changed, andthen in H. destruct (newPdata W m) as [m1 x] eqn:E. fields.
  assert (G1 : good (m_plane m1)).
  { unfold newPdata in E. destruct (hkls_match _ _); [injection E as <- _; exact G|]. destruct (plane_calc W _) as [q [y|]] eqn:EC; [injection E as <- _; exact G|].
    apply plane_calc_ok in EC; [|assumption|fields; discriminate]. assert (Gq : good q) by tauto. destruct (exclusions _); [|injection E as <- _; exact Gq].
    unfold on_plane in E. destruct (assign_mask q _) as [q' y] eqn:EA. injection E as <- _. fields. destruct y; [unfold assign_mask in EA; destruct (set_exclusions _ _); [discriminate|injection EA as <- _; exact Gq]|].
    apply assign_mask_ok in EA; [tauto|assumption]. }
  destruct x; [injection H as <- _; exact G1|]. unfold invalidate in H. injection H as <- _. exact G1.
Qed.
Lemma good_andthen : forall r f m' e, good (m_plane (fst r)) -> (forall m m' e, good (m_plane m) -> f m = (m', e) -> good (m_plane m')) -> andthen r f = (m', e) -> good (m_plane m').
Proof. intros [m [x|]] f m' e G Hf H; unfold andthen in H; fields; [injection H as <- _; exact G|]. eapply Hf; eauto. Qed.
Lemma step_good : forall m o m' e, good (m_plane m) -> step W m o = (m', e) -> good (m_plane m').
Proof.
  intros m o m' e G H. assert (NU : forall m, good (m_plane m) -> good (m_plane (fst (newUnitcell W m)))).
  { intros n Gn. destruct (newUnitcell W n) as [n' x] eqn:E. eapply good_newUnitcell; eauto. }
  destruct o; cbn [step] in H.
  - unfold set_sgnum in H. eapply good_andthen; [| |exact H]; [apply NU; exact G|exact good_changed].
  - unfold set_latticeParameters in H. destruct (do f <- _; _) as [l|]; [|injection H as <- _; exact G]. eapply good_andthen; [| |exact H]; [apply NU; exact G|exact good_changed].
  - unfold set_dmin in H. destruct (Qeq_bool _ _); [injection H as <- _; exact G|]. eapply good_changed; [|exact H]. exact G.
  - unfold set_beamEnergy in H. eapply good_andthen; [| |exact H]; [|exact good_changed]. unfold on_plane. fields. unfold set_wavelength. destruct (wavelength_of W e0); fields; [|exact G].
    destruct (isclose _ _); fields; [exact G|]. destruct (plane_calc W _) as [q x] eqn:E. fields. apply good_calc in E; exact E || exact G.
  - unfold set_atomdata in H. destruct (negb _); [injection H as <- _; exact G|]. destruct (negb _); [injection H as <- _; exact G|]. destruct (negb _); [injection H as <- _; exact G|].
    eapply good_andthen; [| |exact H]; [|intros n n' x Gn E; unfold invalidate in E; injection E as <- _; exact Gn].
    destruct (andthen (andthen (andthen (andthen (set_atomtype m ty) _) _) _) (newUnitcell W)) as [n x] eqn:E. fields.
    eapply good_andthen; [| |exact E]; [|exact good_newUnitcell]. clear E H.
    destruct (andthen (andthen (andthen (set_atomtype m ty) _) _) _) as [k y] eqn:E. fields. unfold andthen, set_atomtype, set_atominfo, set_U, set_charge in E. fields.
    destruct (forallb _ info); fields; [|injection E as <- _; exact G]. destruct (negb _); fields; [injection E as <- _; exact G|]. destruct (w_charge W ty ch); fields; injection E as <- _; exact G.
  - unfold set_sgsetting in H. destruct (_ || _); injection H as <- _; exact G.
  - injection H as <- _. exact G.
  - unfold set_charge in H. destruct (negb _); [injection H as <- _; exact G|]. destruct (w_charge W _ _); injection H as <- _; exact G.
  - unfold set_atominfo in H. destruct (forallb _ _); injection H as <- _; exact G.
  - injection H as <- _. exact G.
  - unfold set_plane_exclusions in H. destruct (set_exclusions _ _) as [d|] eqn:E; injection H as <- _; [|exact G]. destruct G as (Wf & Lh & F).
    destruct (set_excl_wf _ _ _ Wf E) as (W' & Dd & Es & _ & Et). unfold good in *. fields. rewrite Dd, Es. tauto.
  - injection H as <- _. exact G.
  - unfold read_sf in H. destruct (p_sf (m_plane m)); injection H as <- _; exact G.
  - unfold set_plane_lparms, on_plane in H. destruct (plane_calc W _) as [q x] eqn:E. injection H as <- _. fields. apply good_calc in E; exact E || exact G.
  - unfold set_plane_wavelength, on_plane, set_wavelength in H. destruct (wavelength_of W e0); fields; [|injection H as <- _; exact G].
    destruct (isclose _ _); fields; [injection H as <- _; exact G|]. destruct (plane_calc W _) as [q x] eqn:E. injection H as <- _. fields. apply good_calc in E; exact E || exact G.
Qed.
Lemma any_good : forall m m', good (m_plane m) -> any_history W m m' -> good (m_plane m').
Proof. intros m m' G H. induction H as [|m m1 o m2 e H IH E]; [assumption|]. exact (step_good m1 o m2 e (IH G) E). Qed.
End M.
