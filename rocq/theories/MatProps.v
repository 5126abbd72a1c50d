(** C109-C111: a material, its unit cell and its plane data. *)
From Coq Require Import QArith Permutation String.
From Verif Require Import Prelude ProcessModel PlaneModel PlaneSpec PlaneProofs MatModel MatSpec MatProofs MatMain MatExcl.
Local Close Scope Q_scope.
Local Notation length := List.length.

(** C109: after any sequence of successful assignments through the material (space group number, lattice parameters, dmin, beam energy,
    all atom data together), settings of exclusions and of the two-theta limit, and reads, the unit cell and the plane data are those of
    the attributes of the material. *)
Theorem C109_consistent : forall W m0 m, sane W -> constructed W m0 -> history W rebuilding m0 m ->
  cell_agrees m /\ planes_agree W m /\ energy_agrees W m.
Proof.
  intros W m0 m HS C H. apply (history_full W HS) in H as ((CA & (P1 & P2) & G & A) & L & EN & SF); [|now apply constructed_full]. split; [assumption|]. split; [|assumption].
  unfold planes_agree. repeat (split; [assumption|]). exact A.
Qed.
(** C109: whatever happened before - failed assignments, assignments of single atom attributes, assignments to the plane data - a
    successful assignment of the space group number or of the lattice parameters makes unit cell and plane data agree again. *)
Theorem C109_recovers : forall W m0 m m' o, sane W -> constructed W m0 -> any_history W m0 m ->
  (exists v, o = SetSgnum v) \/ (exists v, o = SetLattice v) -> step W m o = (m', None) -> cell_agrees m' /\ planes_agree W m'.
Proof.
  intros W m0 m m' o HS C H O E. assert (G : good (m_plane m)).
  { apply (any_good W HS m0); [|assumption]. apply (constructed_full W HS) in C. apply C. }
  assert (R : exists n, m_plane n = m_plane m /\ andthen (newUnitcell W n) (hkls_changed W) = (m', None)).
  { destruct O as [[v ->]|[v ->]]; cbn [step] in E.
    - unfold set_sgnum in E. eexists; split; [|exact E]. reflexivity.
    - unfold set_latticeParameters in E. destruct (do f <- _; _) as [l|]; [|discriminate]. eexists; split; [|exact E]. reflexivity. }
  destruct R as (n & En & R). rewrite <- En in G. apply rebuild_ok in R as ((CA & (P1 & P2) & G' & A) & L & _); [|assumption|assumption]. split; [assumption|].
  unfold planes_agree. repeat (split; [assumption|]). exact A.
Qed.
(** C109 fails for the assignment of a single atom attribute or of the space group setting: the material has the new value, the unit
    cell and the plane data remain as they were. *)
Theorem C109_single_refuted : forall W m o m', step W m o = (m', None) ->
  (forall v, o = SetU v -> m_U m' = v /\ m_cell m' = m_cell m /\ m_plane m' = m_plane m) /\
  (forall v, o = SetCharge v -> m_charge m' = v /\ m_cell m' = m_cell m /\ m_plane m' = m_plane m) /\
  (forall v, o = SetInfo v -> m_info m' = v /\ m_cell m' = m_cell m /\ m_plane m' = m_plane m) /\
  (forall v, o = SetType v -> m_type m' = v /\ m_cell m' = m_cell m /\ m_plane m' = m_plane m) /\
  (forall v, o = SetSetting v -> m_set m' = v /\ m_cell m' = m_cell m /\ m_plane m' = m_plane m).
Proof.
  intros W m o m' H. repeat split; intros; subst o; cbn [step] in H; try (injection H as <-; reflexivity);
    unfold set_charge, set_atominfo, set_sgsetting in H; repeat match type of H with context [if ?b then _ else _] => destruct b; try discriminate end;
    try (destruct (w_charge W (m_type m) v); [discriminate|]); injection H as <-; reflexivity.
Qed.
(** C109 fails after a failed assignment: a space group number above 230 is refused with RuntimeError, but the material keeps it and its
    unit cell has another one. *)
Theorem C109_failed_refuted : forall W m v, (230 < v)%Z -> exists m',
  step W m (SetSgnum v) = (m', Some RuntimeError) /\ m_sg m' = v /\ m_cell m' = m_cell m.
Proof.
  intros W m v H. exists (Mat v (m_lp m) (m_dmin m) (m_energy m) (m_type m) (m_charge m) (m_info m) (m_U m) (m_set m) (m_file m) (m_cell m) (m_plane m)).
  split; [|now split]. cbn [step]. unfold set_sgnum, newUnitcell, newUnitcell0, reset_lparms, latticeType. cbn [m_sg].
  repeat match goal with |- context [Z.leb v ?k] => destruct (Z.leb_spec v k); [lia|] end. reflexivity.
Qed.

(** C110: when an assignment through the material changes the list of reflections (none listed twice, no two-theta limit set), a
    reflection listed before keeps its state and the new ones are excluded. *)
Theorem C110_exclusions : forall W m0 m o m', sane W -> constructed W m0 -> history W rebuilding m0 m -> rebuilding o ->
  (forall v, o <> Exclude v) -> (forall v, o <> SetTmax v) -> step W m o = (m', None) ->
  tmax (p_pd (m_plane m)) = None -> NoDup (listing (p_pd (m_plane m))) -> NoDup (listing (p_pd (m_plane m'))) ->
  exclusions_follow (m_file m) (p_pd (m_plane m)) (p_pd (m_plane m')).
Proof.
  intros W m0 m o m' HS C H R NE NT E T ND ND'. eapply step_follow; try eassumption. apply (history_full W HS) in H; [assumption|now apply constructed_full].
Qed.
(** C110: an assignment of a mask to the exclusions of the plane data excludes the reflections at the positions of the mask. *)
Theorem C110_assigned : forall W m0 m l m', sane W -> constructed W m0 -> history W rebuilding m0 m -> step W m (Exclude (EMask l)) = (m', None) ->
  tmax (p_pd (m_plane m)) = None -> NoDup (listing (p_pd (m_plane m))) -> length l = length (listing (p_pd (m_plane m))) ->
  listing (p_pd (m_plane m')) = listing (p_pd (m_plane m)) /\
  forall r h, nth_error (listing (p_pd (m_plane m))) r = Some h -> (excluded (p_pd (m_plane m')) h <-> nth r l false = true).
Proof.
  intros W m0 m l m' HS C H E T ND Ll. apply (exclude_follow W); try assumption. apply (history_full W HS) in H; [apply H|now apply constructed_full].
Qed.
(** C110: a new material excludes all reflections but those of its file or, without a file, but the first five. *)
Theorem C110_initial : forall W sg lp dmin e ty ch info U st file m, sane W -> new_material W sg lp dmin e ty ch info U st file = Ok m ->
  NoDup (listing (p_pd (m_plane m))) -> forall r h, nth_error (listing (p_pd (m_plane m))) r = Some h ->
  (excluded (p_pd (m_plane m)) h <-> match file with Some f => ~ In h f | None => 5 <= r end).
Proof.
  intros W sg lp dmin e ty ch info U st file m HS H ND r h N. unfold new_material in H.
  destruct (reset_lparms sg lp) as [lp'|]; [|discriminate]. cbn [rbind] in H. destruct (new_cell W _) as [c|]; [|discriminate]. cbn [rbind] in H.
  destruct (reduced c lp') as [q|]; [|discriminate]. cbn [rbind] in H. destruct (wavelength_of W e) as [w|]; [|discriminate]. cbn [rbind] in H.
  destruct (plane_calc W _) as [p [x|]] eqn:EC; [discriminate|]. apply plane_calc_ok in EC as (P1 & P2 & P3 & P4 & P5 & P6 & P7 & P8 & P9 & P10); [|assumption|fields; discriminate].
  destruct (assign_mask p _) as [p' [x|]] eqn:EA; [discriminate|]. injection H as <-. fields. pose proof EA as EA'.
  apply assign_mask_ok in EA' as (Q1 & Q2 & Q3 & Q4 & Q5 & Q6 & Q7 & Q8 & Q9); [|assumption]. unfold listing in *. rewrite Q7 in *.
  assert (Ll : length (default_mask file (hkls_of (p_pd p))) = length (data (p_pd p))) by (rewrite default_length; unfold hkls_of; apply map_length).
  rewrite (set_mask_excluded p _ p' P9 P8 ND Ll EA r h N). now apply default_nth.
Qed.

Lemma keep_mask_kept : forall {B} ex (l : list B), length ex = length l -> kept ex l (keep_mask ex l).
Proof.
  intros B. induction ex as [|b ex IH]; intros [|x l] H; try discriminate; [constructor|]. unfold keep_mask. cbn [combine filter fst]. injection H as H. destruct b; cbn [negb map snd]; constructor; now apply IH.
Qed.
(** C111: the structure factors read from the plane data are those of the present unit cell for the reflections that are not excluded,
    in their present order, after any sequence of successful assignments through the material. *)
Theorem C111_structure_factors : forall W m0 m, sane W -> (forall c l, length (w_sf W c l) = length l) -> constructed W m0 -> history W rebuilding m0 m ->
  exists ex v, exclusions (p_pd (m_plane m)) = Ok ex /\ snd (read_sf W m) = Ok v /\ kept ex (w_sf W (m_cell m) (data (p_pd (m_plane m)))) v /\ cell_agrees m.
Proof.
  intros W m0 m HS HL C H. apply (history_full W HS) in H; [|now apply constructed_full]. destruct (read_fresh W m H) as (ex & E & V); [unfold listing; now rewrite HL, map_length|].
  exists ex, (keep_mask ex (w_sf W (m_cell m) (data (p_pd (m_plane m))))). split; [assumption|]. split; [assumption|]. split; [|apply H]. apply keep_mask_kept. rewrite HL.
  destruct H as ((_ & _ & G & _) & _). destruct (exclusions_spec _ (proj1 G)) as (ex' & E' & Le & _). congruence.
Qed.

(** ** a concrete program *)
(** fewer than eight reflections; the program sorts lists of two *)
Definition wd : world := {|
  w_build := fun _ => None;
  w_refl := fun lp sg st d1 d2 => if Qle_bool (3#2) d2 then [(1, 0, 0)%Z; (0, 0, 1)%Z]
    else [(1, 0, 0)%Z; (0, 0, 1)%Z; (1, 1, 0)%Z; (1, 0, 1)%Z; (2, 0, 0)%Z; (0, 0, 2)%Z; (2, 1, 1)%Z];
  w_laue := fun sg => Z.to_nat sg;
  w_tth := fun laue lp wl h => let '(a, b, c) := h in
    let x := nth 0 lp 1%Q in let z := nth 1 lp x in
    Some (wl * (inject_Z (a * a + b * b) / (x * x) + inject_Z (c * c) / (z * z)))%Q;
  w_calc := fun _ _ => None;
  w_order := fun l => match l with [Some a; Some b] => if Qle_bool a b then [0; 1] else [1; 0] | _ => seq 0 (length l) end;
  w_wavelength := fun e => match snd e with KeV => Qred ((12#1) / fst e) | OtherEnergy => Qred ((12000#1) / fst e) | _ => fst e end;
  w_charge := fun _ _ => None;
  w_sf := fun c l => map (fun p => let '(a, b, k) := snd p in (inject_Z (a + 10 * k) + nth 0 (nth 0 (c_U c) []) 0%Q)%Q) l
|}.
Lemma wd_sane : sane wd.
Proof.
  intros l. unfold wd, w_order, ordering. destruct l as [|[a|] [|[b|] [|c l]]]; try reflexivity. cbn [length seq]. destruct (Qle_bool a b); [reflexivity|]. apply perm_swap.
Qed.
(** a tetragonal material of 2 by 4 angstroms *)
Definition tetragonal (d : Q) (e : energy) : result mat :=
  new_material wd 123 [(2#1)%Q; (2#1)%Q; (4#1)%Q; (90#1)%Q; (90#1)%Q; (90#1)%Q] d e [26%Z] ["0"%string] [[0%Q; 0%Q; 0%Q; 1%Q]] [[0%Q]] 0 None.
Definition run (r : result mat) (l : list op) : result mat :=
  fold_left (fun r o => do m <- r; match step wd m o with (m', None) => Ok m' | (_, Some e) => Err e end) l r.
Lemma run_history : forall l m m' P, run (Ok m) l = Ok m' -> Forall P l -> history wd P m m'.
Proof.
  intros l. induction l as [|o l IH] using rev_ind; intros m m' P H F; cbn in H; [injection H as <-; constructor|].
  unfold run in H. rewrite fold_left_app in H. cbn [fold_left] in H. fold (run (Ok m) l) in H. destruct (run (Ok m) l) as [m1|] eqn:E; [|discriminate]. cbn [rbind] in H.
  apply Forall_app in F as [F1 F2]. inversion F2; subst. destruct (step wd m1 o) as [m2 [x|]] eqn:S'; [discriminate|]. injection H as <-. econstructor; [apply IH; eassumption|eassumption|assumption].
Qed.
(** C109: lattice parameters, dmin, energy and atoms assigned in turn *)
Example C109_ex : exists m0 m, constructed wd m0 /\ history wd rebuilding m0 m /\ m0 <> m /\ m_lp m = [(5#1)%Q; (5#1)%Q; (3#1)%Q; (90#1)%Q; (90#1)%Q; (90#1)%Q] /\
  listing (p_pd (m_plane m)) = [(1, 0, 0)%Z; (0, 0, 1)%Z; (1, 1, 0)%Z; (1, 0, 1)%Z; (2, 0, 0)%Z; (0, 0, 2)%Z; (2, 1, 1)%Z] /\ c_U (m_cell m) = [[1%Q]].
Proof.
  destruct (tetragonal (2#1) ((12#1)%Q, KeV)) as [m0|] eqn:E0; [|now vm_compute in E0].
  destruct (run (Ok m0) [SetLattice [(5#1)%Q; (3#1)%Q]; SetDmin 1%Q; SetEnergy ((24#1)%Q, KeV); SetAtomdata [28%Z] [[0%Q; 0%Q; 0%Q; 1%Q]] [[1%Q]] ["0"%string]]) as [m|] eqn:E1;
    [|vm_compute in E0; injection E0 as <-; now vm_compute in E1].
  exists m0, m. split; [unfold constructed; do 10 eexists; exact E0|]. split; [eapply run_history; [exact E1|]; repeat constructor|].
  vm_compute in E0. injection E0 as <-. vm_compute in E1. injection E1 as <-. split; [discriminate|]. now repeat split.
Qed.
(** C109 fails for U *)
Theorem C109_stale_refuted : exists W m0 m, sane W /\ constructed W m0 /\ history W (fun _ => True) m0 m /\ ~ cell_agrees m.
Proof.
  destruct (tetragonal (2#1) ((12#1)%Q, KeV)) as [m0|] eqn:E0; [|now vm_compute in E0].
  destruct (run (Ok m0) [SetU [[1%Q]]]) as [m|] eqn:E1; [|now vm_compute in E1].
  exists wd, m0, m. split; [exact wd_sane|]. split; [unfold constructed; do 10 eexists; exact E0|]. split; [eapply run_history; [exact E1|]; repeat constructor|].
  vm_compute in E0. injection E0 as <-. vm_compute in E1. injection E1 as <-. intros (_ & _ & _ & _ & _ & _ & _ & C & _). discriminate C.
Qed.
(** C109 fails for the accelerating voltage of the unit cell: the same beam energy gives another voltage in another unit. *)
Theorem C109_voltage_refuted : exists W m1 m2, sane W /\ constructed W m1 /\ constructed W m2 /\
  w_wavelength W (m_energy m1) = w_wavelength W (m_energy m2) /\ m_plane m1 = m_plane m2 /\
  c_volt (m_cell m1) = (12000#1)%Q /\ c_volt (m_cell m2) = (12000000#1)%Q.
Proof.
  destruct (tetragonal (2#1) ((12#1)%Q, KeV)) as [m1|] eqn:E1; [|now vm_compute in E1].
  destruct (tetragonal (2#1) ((12000#1)%Q, OtherEnergy)) as [m2|] eqn:E2; [|now vm_compute in E2].
  exists wd, m1, m2. split; [exact wd_sane|]. split; [unfold constructed; do 10 eexists; exact E1|]. split; [unfold constructed; do 10 eexists; exact E2|].
  vm_compute in E1, E2. injection E1 as <-. injection E2 as <-. repeat split; vm_compute; reflexivity.
Qed.
(** C110: five new reflections come in, one of the two old ones being excluded; going back the mask is that of before *)
Example C110_ex : exists m0 m1 m2, constructed wd m0 /\ history wd rebuilding m0 m1 /\ step wd m1 (SetDmin 1%Q) = (m2, None) /\
  tmax (p_pd (m_plane m1)) = None /\ NoDup (listing (p_pd (m_plane m1))) /\ NoDup (listing (p_pd (m_plane m2))) /\
  exclusions (p_pd (m_plane m1)) = Ok [true; false] /\ exclusions (p_pd (m_plane m2)) = Ok [false; true; true; true; true; true; true].
Proof.
  destruct (tetragonal (2#1) ((12#1)%Q, KeV)) as [m0|] eqn:E0; [|now vm_compute in E0].
  destruct (run (Ok m0) [Exclude (EMask [true; false])]) as [m1|] eqn:E1; [|vm_compute in E0; injection E0 as <-; now vm_compute in E1].
  exists m0, m1. eexists. split; [unfold constructed; do 10 eexists; exact E0|]. split; [eapply run_history; [exact E1|]; repeat constructor|].
  vm_compute in E0. injection E0 as <-. vm_compute in E1. injection E1 as <-. split; [vm_compute; reflexivity|].
  split; [reflexivity|]. split; [vm_compute; repeat constructor; cbn; intuition discriminate|]. split; [vm_compute; repeat constructor; cbn; intuition discriminate|]. now split.
Qed.
(** C110 fails with a two-theta limit: a reflection nobody excluded, hidden by the limit while the list changes, stays excluded when the
    limit is lifted. *)
Theorem C110_limit_refuted : exists W m0 m1 m3 h q, sane W /\ constructed W m0 /\ step W m0 (SetTmax (Some q)) = (m1, None) /\
  history W (fun o => o = SetDmin 1%Q \/ o = SetTmax None) m1 m3 /\ tmax (p_pd (m_plane m3)) = None /\
  In h (listing (p_pd (m_plane m0))) /\ In h (listing (p_pd (m_plane m3))) /\ ~ excluded (p_pd (m_plane m0)) h /\ excluded (p_pd (m_plane m3)) h.
Proof.
  destruct (tetragonal (2#1) ((12#1)%Q, KeV)) as [m0|] eqn:E0; [|now vm_compute in E0].
  destruct (run (Ok m0) [SetTmax (Some (1#10)%Q)]) as [m1|] eqn:E1; [|vm_compute in E0; injection E0 as <-; now vm_compute in E1].
  destruct (run (Ok m1) [SetDmin 1%Q; SetTmax None]) as [m3|] eqn:E3; [|vm_compute in E0; injection E0 as <-; vm_compute in E1; injection E1 as <-; now vm_compute in E3].
  exists wd, m0, m1, m3, (1, 0, 0)%Z, (1#10)%Q. split; [exact wd_sane|]. split; [unfold constructed; do 10 eexists; exact E0|]. split; [cbn [run fold_left rbind] in E1; destruct (step wd m0 _) as [x [y|]]; [discriminate|now injection E1 as <-]|].
  split; [eapply run_history; [exact E3|]; repeat constructor; tauto|].
  vm_compute in E0. injection E0 as <-. vm_compute in E1. injection E1 as <-. vm_compute in E3. injection E3 as <-.
  split; [reflexivity|]. split; [cbn; tauto|]. split; [cbn; tauto|]. split.
  - intros (ex & r & E & N & X). vm_compute in E. injection E as <-. destruct r as [|[|[|r]]]; cbn in X; discriminate.
  - exists [true; false; true; true; true; true; true], 0. repeat split.
Qed.
(** C111: reading twice around an assignment of lattice parameters that reverses the order *)
Example C111_ex : exists m0 m, constructed wd m0 /\ history wd rebuilding m0 m /\ m_cell m0 <> m_cell m /\
  snd (read_sf wd m0) = Ok [(10#1)%Q; 1%Q] /\ snd (read_sf wd m) = Ok [1%Q; (10#1)%Q].
Proof.
  destruct (tetragonal (2#1) ((12#1)%Q, KeV)) as [m0|] eqn:E0; [|now vm_compute in E0].
  destruct (run (Ok m0) [ReadSF; SetLattice [(5#1)%Q; (3#1)%Q]]) as [m|] eqn:E1; [|vm_compute in E0; injection E0 as <-; now vm_compute in E1].
  exists m0, m. split; [unfold constructed; do 10 eexists; exact E0|]. split; [eapply run_history; [exact E1|]; repeat constructor|].
  vm_compute in E0. injection E0 as <-. vm_compute in E1. injection E1 as <-. split; [discriminate|]. split; vm_compute; reflexivity.
Qed.
(** C111 fails after assignments to the plane data itself, which reorder the reflections and keep the values read before, and after
    assignments of single atom attributes. *)
Theorem C111_stale_refuted :
  (exists W m0 m v, sane W /\ (forall c l, length (w_sf W c l) = length l) /\ constructed W m0 /\ history W (fun o => o = ReadSF \/ o = PlaneLattice v) m0 m /\ m_cell m = m_cell m0 /\
     exclusions (p_pd (m_plane m)) = Ok [false; false] /\ exists r, snd (read_sf W m) = Ok r /\ r <> w_sf W (m_cell m) (data (p_pd (m_plane m)))) /\
  (exists W m0 m v, sane W /\ (forall c l, length (w_sf W c l) = length l) /\ constructed W m0 /\ step W m0 (SetU v) = (m, None) /\ m_U m <> m_U m0 /\ snd (read_sf W m) = snd (read_sf W m0)).
Proof.
  assert (Hl : forall c l, length (w_sf wd c l) = length l) by (intros; apply map_length).
  destruct (tetragonal (2#1) ((12#1)%Q, KeV)) as [m0|] eqn:E0; [|now vm_compute in E0]. split.
  - destruct (run (Ok m0) [ReadSF; PlaneLattice [(5#1)%Q; (3#1)%Q]]) as [m|] eqn:E1; [|vm_compute in E0; injection E0 as <-; now vm_compute in E1].
    exists wd, m0, m, [(5#1)%Q; (3#1)%Q]. split; [exact wd_sane|]. split; [exact Hl|]. split; [unfold constructed; do 10 eexists; exact E0|].
    split; [eapply run_history; [exact E1|]; repeat constructor; tauto|]. vm_compute in E0. injection E0 as <-. vm_compute in E1. injection E1 as <-.
    split; [reflexivity|]. split; [vm_compute; reflexivity|]. eexists. split; [vm_compute; reflexivity|]. vm_compute. discriminate.
  - exists wd, m0, (fst (step wd m0 (SetU [[1%Q]]))), [[1%Q]]. split; [exact wd_sane|]. split; [exact Hl|]. split; [unfold constructed; do 10 eexists; exact E0|].
    split; [reflexivity|]. vm_compute in E0. injection E0 as <-. split; [discriminate|reflexivity].
Qed.
Print Assumptions C109_consistent.
Print Assumptions C109_recovers.
Print Assumptions C109_single_refuted.
Print Assumptions C109_failed_refuted.
Print Assumptions C109_stale_refuted.
Print Assumptions C109_voltage_refuted.
Print Assumptions C109_ex.
Print Assumptions C110_exclusions.
Print Assumptions C110_assigned.
Print Assumptions C110_initial.
Print Assumptions C110_limit_refuted.
Print Assumptions C110_ex.
Print Assumptions C111_structure_factors.
Print Assumptions C111_stale_refuted.
Print Assumptions C111_ex.
