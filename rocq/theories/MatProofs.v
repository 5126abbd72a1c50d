(** Material objects: what the operations keep. *)
From Coq Require Import QArith Qabs Permutation String.
From Verif Require Import Prelude ProcessModel PlaneModel PlaneSpec PlaneProofs MatModel MatSpec.
Local Close Scope Q_scope.
Local Notation length := List.length.

Lemma fancy_map : forall {B C} (f : B -> C) l idx r, fancy l idx = Ok r -> fancy (map f l) idx = Ok (map f r).
Proof.
  intros B C f l. induction idx as [|i idx IH]; intros r H; cbn [fancy] in *; [now injection H as <-|].
  destruct (nth_error l i) as [x|] eqn:E; [|discriminate]. rewrite nth_error_map, E. cbn [option_map].
  destruct (fancy l idx) as [t|] eqn:F; cbn [rbind] in *; [|discriminate]. injection H as <-. now rewrite (IH t).
Qed.
Lemma fancy_nth : forall {B} (l : list B) idx r, fancy l idx = Ok r -> forall i, nth_error r i = match nth_error idx i with Some k => nth_error l k | None => None end.
Proof.
  intros B l. induction idx as [|k idx IH]; intros r H i; cbn [fancy] in *; [injection H as <-; now destruct i|].
  destruct (nth_error l k) as [x|] eqn:E; [|discriminate]. destruct (fancy l idx) as [t|] eqn:F; cbn [rbind] in *; [|discriminate].
  injection H as <-. destruct i as [|i]; cbn [nth_error]; [now rewrite E|]. now apply IH.
Qed.
Lemma fancy_perm : forall {B} (l : list B) idx r, ordering idx (length l) -> fancy l idx = Ok r -> Permutation r l.
Proof.
  intros B l idx r O H. destruct l as [|d l].
  - cbn in O. apply Permutation_nil in O || apply Permutation_sym, Permutation_nil in O. subst idx. injection H as <-. constructor.
  - set (L := d :: l) in *. clearbody L. rewrite (fancy_ok L d) in H by (intros i I; destruct (ordering_facts _ _ O) as (_ & _ & F); now apply F). injection H as <-.
    unfold ordering in O. apply Permutation_trans with (map (fun i => nth i L d) (seq 0 (length L))); [now apply Permutation_map|]. clear. match goal with |- Permutation ?a ?b => assert (E : a = b); [|now rewrite E] end.
    apply nth_ext with (d := d) (d' := d); [rewrite map_length; now rewrite seq_length|]. intros n Ln. rewrite map_length, seq_length in Ln.
    rewrite nth_map_d with (d := 0) by (now rewrite seq_length). now rewrite seq_nth.
Qed.

(** ** the plane data *)
Definition good (p : plane) : Prop :=
  wf (p_pd p) /\ length (p_hkls p) = length (data (p_pd p)) /\ fancy (p_hkls p) (tsort (p_pd p)) = Ok (map snd (data (p_pd p))).
Definition at_angles (W : world) (p : plane) : Prop := forall t h, In (t, h) (data (p_pd p)) -> t = w_tth W (p_laue p) (p_lp p) (p_wl p) h.
Lemma good_perm : forall p, good p -> Permutation (map snd (data (p_pd p))) (p_hkls p).
Proof. intros p ((O & _ & _) & L & F). apply fancy_perm with (idx := tsort (p_pd p)); [now rewrite L|assumption]. Qed.

Section P.
Variable W : world.
Hypothesis HS : sane W.
Lemma plane_calc_err : forall p p' e, plane_calc W p = (p', Some e) -> p' = p.
Proof.
  intros p p' e H. unfold plane_calc in H. destruct (w_calc W (p_laue p) (p_lp p)); [now injection H as <-|].
  destruct (calc _ _ _ _); [discriminate|]. now injection H as <-.
Qed.
Lemma plane_calc_ok : forall p p', (forall e, stored (p_pd p) = Some e -> length e = length (p_hkls p)) -> plane_calc W p = (p', None) ->
  p_laue p' = p_laue p /\ p_lp p' = p_lp p /\ p_wl p' = p_wl p /\ p_hkls p' = p_hkls p /\ p_sf p' = p_sf p /\ p_old p' = p_old p /\
  stored (p_pd p') = stored (p_pd p) /\ tmax (p_pd p') = tmax (p_pd p) /\ good p' /\ at_angles W p'.
Proof.
  intros p p' Le H. unfold plane_calc in H. destruct (w_calc W (p_laue p) (p_lp p)); [discriminate|].
  set (raw := map (fun h => (w_tth W (p_laue p) (p_lp p) (p_wl p) h, h)) (p_hkls p)) in *.
  destruct (calc raw _ _ _) as [d|] eqn:E; [|discriminate]. injection H as <-. cbn [p_laue p_lp p_wl p_hkls p_sf p_old p_pd].
  assert (Lr : length raw = length (p_hkls p)) by apply map_length.
  assert (O : ordering (w_order W (map fst raw)) (length raw)) by (rewrite <- (map_length fst raw); apply HS).
  apply calc_wf in E as (Wf & Ld & Es & Est & Et & F); [|assumption|intros x X; rewrite Lr; now apply Le].
  repeat (split; [reflexivity|]). split; [assumption|]. split; [assumption|]. split.
  - unfold good. cbn [p_pd p_hkls]. split; [assumption|]. split; [now rewrite Ld|]. rewrite Es. apply (fancy_map snd) in F. unfold raw in F at 1. rewrite map_map, map_id in F. exact F.
  - unfold at_angles. cbn [p_pd p_laue p_lp p_wl]. intros t h I. apply fancy_perm in F; [|assumption]. apply (Permutation_in _ F) in I. apply in_map_iff in I as (x & X & _). now injection X as <- <-.
Qed.

(** ** building the unit cell *)
Lemma latticeType_ranges : forall sg t, (1 <= sg <= 230)%Z -> latticeType sg = Ok t ->
  (t = Triclinic /\ (1 <= sg <= 2)%Z) \/ (t = Monoclinic /\ (3 <= sg <= 15)%Z) \/ (t = Orthorhombic /\ (16 <= sg <= 74)%Z) \/
  (t = Tetragonal /\ (75 <= sg <= 142)%Z) \/ (t = Trigonal /\ (143 <= sg <= 167)%Z) \/ (t = Hexagonal /\ (168 <= sg <= 194)%Z) \/ (t = Cubic /\ (195 <= sg <= 230)%Z).
Proof.
  intros sg t B H. unfold latticeType in H.
  repeat match type of H with (if ?c then _ else _) = _ => destruct c eqn:?; [injection H as <-|] end; try discriminate;
    repeat match goal with h : (_ <=? _)%Z = true |- _ => apply Z.leb_le in h | h : (_ <=? _)%Z = false |- _ => apply Z.leb_gt in h end; intuition lia.
Qed.
Lemma fancy_some : forall {B} (l : list B) idx r, fancy l idx = Ok r -> length r = length idx.
Proof. intros. eapply fancy_length; eassumption. Qed.
Lemma reset_fits : forall sg lp lp' r, (1 <= sg <= 230)%Z -> reset_lparms sg lp = Ok lp' -> (do t <- latticeType sg; fancy lp' (required t)) = Ok r ->
  fits_system sg lp' /\ free_parameters sg lp' r.
Proof.
  intros sg lp lp' r B H G. unfold reset_lparms in H. destruct (latticeType sg) as [t|] eqn:E; [|discriminate]. cbn [rbind] in *.
  destruct (fancy lp (required t)) as [q|] eqn:F; [|discriminate]. cbn [rbind] in H. apply fancy_some in F.
  apply latticeType_ranges in E; [|assumption].
  repeat match goal with h : _ \/ _ |- _ => destruct h as [h|h] | h : _ /\ _ |- _ => destruct h end; subst t; cbn [required length] in F;
    repeat (destruct q as [|? q]; [discriminate F|]); try discriminate F; try (destruct q; [|discriminate F]);
    cbn in H; injection H as <-; cbn in G; injection G as <-; (split; [unfold fits_system|unfold free_parameters]; do 6 eexists; (split; [reflexivity|]); intuition (try lia; try reflexivity)).
Qed.
Definition same_rest (m m' : mat) : Prop :=
  m_sg m' = m_sg m /\ m_dmin m' = m_dmin m /\ m_energy m' = m_energy m /\ m_type m' = m_type m /\ m_charge m' = m_charge m /\
  m_info m' = m_info m /\ m_U m' = m_U m /\ m_set m' = m_set m /\ m_file m' = m_file m.
Definition planes_lattice (m : mat) : Prop := p_laue (m_plane m) = w_laue W (m_sg m) /\ free_parameters (m_sg m) (m_lp m) (p_lp (m_plane m)).
Lemma newUnitcell_ok : forall m m', good (m_plane m) -> newUnitcell W m = (m', None) ->
  same_rest m m' /\ cell_agrees m' /\ c_volt (m_cell m') = (fst (m_energy m') * (1000#1))%Q /\ planes_lattice m' /\
  p_wl (m_plane m') = p_wl (m_plane m) /\ p_hkls (m_plane m') = p_hkls (m_plane m) /\ p_sf (m_plane m') = p_sf (m_plane m) /\
  stored (p_pd (m_plane m')) = stored (p_pd (m_plane m)) /\ tmax (p_pd (m_plane m')) = tmax (p_pd (m_plane m)) /\
  good (m_plane m') /\ at_angles W (m_plane m').
Proof.
  intros m m' G H. unfold newUnitcell, andthen, newUnitcell0 in H. destruct (reset_lparms (m_sg m) (m_lp m)) as [lp|] eqn:ER; [|discriminate].
  unfold new_cell in H. cbn [with_lp m_lp m_sg m_type m_charge m_info m_U m_dmin m_energy m_set m_plane m_cell] in H.
  destruct (Z.leb 1 (m_sg m) && Z.leb (m_sg m) 230) eqn:EB; [|discriminate]. apply andb_prop in EB as [B1 B2]. apply Z.leb_le in B1, B2.
  set (c := Cell lp (m_sg m) (m_type m) (m_charge m) (m_info m) (m_U m) (m_dmin m) (fst (m_energy m) * (1000 # 1))%Q (m_set m)) in *.
  destruct (w_build W c); [discriminate|]. cbn [fst snd] in H. unfold set_laue_and_lparms in H.
  cbn [with_plane with_cell with_lp m_lp m_sg m_type m_charge m_info m_U m_dmin m_energy m_set m_file m_plane m_cell p_laue p_lp p_wl p_hkls p_pd p_sf p_old] in H.
  destruct (reduced c lp) as [r|] eqn:Er; [|discriminate]. unfold reduced in Er. cbn [c_sg c] in Er.
  destruct (reset_fits _ _ _ _ (conj B1 B2) ER Er) as [Fs Fp].
  unfold on_plane in H. destruct (plane_calc W _) as [p' e] eqn:EC. cbn [fst snd] in H. injection H as <- ->.
  cbn [with_plane with_cell with_lp m_lp m_sg m_type m_charge m_info m_U m_dmin m_energy m_set m_file m_plane m_cell].
  destruct G as (Wf & L & F). apply plane_calc_ok in EC as (P1 & P2 & P3 & P4 & P5 & P6 & P7 & P8 & P9 & P10); [|cbn [p_pd p_hkls]; intros x X; rewrite L; now apply Wf].
  cbn [p_laue p_lp p_wl p_hkls p_pd p_sf p_old c_sg c] in *. unfold same_rest, cell_agrees, planes_lattice.
  cbn [with_plane with_cell with_lp m_lp m_sg m_type m_charge m_info m_U m_dmin m_energy m_set m_file m_plane m_cell c c_lp c_sg c_type c_charge c_info c_U c_dmin c_set c_volt].
  rewrite P1, P2. repeat match goal with |- _ /\ _ => split end; try reflexivity; try assumption.
Qed.

(** ** refreshing the reflections *)
Lemma count_in : forall h l, 0 < count h l <-> In h l.
Proof.
  intros h. induction l as [|x l IH]; cbn [count In]; [lia|]. assert (E : hkl_eqb h x = true <-> x = h).
  { destruct h as [[h1 h2] h3], x as [[x1 x2] x3]. unfold hkl_eqb. rewrite !andb_true_iff, !Z.eqb_eq. split; [now intros [[-> ->] ->]|now intros [= -> -> ->]]. }
  destruct (hkl_eqb h x); [split; [intros _; left; now apply E|lia]|]. rewrite Nat.add_0_l, IH. split; [now right|]. intros [C|C]; [apply E in C; discriminate|assumption].
Qed.
Lemma hkl_eqb_eq : forall a b, hkl_eqb a b = true <-> a = b.
Proof.
  intros [[h1 h2] h3] [[x1 x2] x3]. unfold hkl_eqb. rewrite !andb_true_iff, !Z.eqb_eq. split; [now intros [[-> ->] ->]|now intros [= -> -> ->]].
Qed.
Lemma hkl_dec : forall a b : hkl, {a = b} + {a <> b}.
Proof. intros a b. destruct (hkl_eqb a b) eqn:E; [left; now apply hkl_eqb_eq|right; intros C; apply hkl_eqb_eq in C; congruence]. Qed.
Lemma count_occ_is : forall h l, count h l = count_occ hkl_dec l h.
Proof.
  intros h. induction l as [|x l IH]; cbn [count count_occ]; [reflexivity|]. rewrite IH. destruct (hkl_dec x h) as [->|N].
  - now rewrite (proj2 (hkl_eqb_eq h h) eq_refl).
  - destruct (hkl_eqb h x) eqn:E; [apply hkl_eqb_eq in E; congruence|reflexivity].
Qed.
Lemma hkls_match_iff : forall a b, hkls_match a b = true <-> Permutation a b.
Proof.
  intros a b. unfold hkls_match. rewrite andb_true_iff, forallb_forall, Nat.eqb_eq. split.
  - intros [_ H]. apply (Permutation_count_occ hkl_dec). intros h. rewrite <- !count_occ_is.
    destruct (in_dec hkl_dec h (a ++ b)) as [I|I]; [now apply Nat.eqb_eq, H|].
    assert (~ In h a /\ ~ In h b) as [Na Nb] by (split; intros C; apply I, in_app_iff; tauto).
    assert (Z : forall l, ~ In h l -> count h l = 0) by (intros l N; destruct (count h l) eqn:E; [reflexivity|]; exfalso; apply N, count_in; lia). now rewrite !Z.
  - intros P. split; [now apply Permutation_length|]. intros h _. apply Nat.eqb_eq. rewrite !count_occ_is. now apply Permutation_count_occ.
Qed.
Lemma assign_mask_ok : forall p l p', good p -> assign_mask p l = (p', None) ->
  p_laue p' = p_laue p /\ p_lp p' = p_lp p /\ p_wl p' = p_wl p /\ p_hkls p' = p_hkls p /\ p_sf p' = p_sf p /\ p_old p' = p_old p /\
  data (p_pd p') = data (p_pd p) /\ tmax (p_pd p') = tmax (p_pd p) /\ good p'.
Proof.
  intros p l p' (Wf & L & F) H. unfold assign_mask in H. destruct (set_exclusions (p_pd p) (EMask l)) as [d|] eqn:E; [|discriminate]. injection H as <-.
  destruct (set_excl_wf _ _ _ Wf E) as (W' & Ed & Es & _ & Et). cbn [p_laue p_lp p_wl p_hkls p_sf p_old p_pd]. repeat (split; [reflexivity || assumption|]).
  unfold good. cbn [p_pd p_hkls]. rewrite Ed, Es. now split.
Qed.
End P.

Section Q.
Variable W : world.
Hypothesis HS : sane W.
Local Hint Resolve HS : core.

(** ** masks by reflection *)
Lemma excluded_master : forall p h, good p -> tmax (p_pd p) = None -> NoDup (p_hkls p) ->
  (excluded (p_pd p) h <-> exists k, nth_error (p_hkls p) k = Some h /\ is_stored (p_pd p) k = true).
Proof.
  intros p h (Wf & L & F) T ND. destruct (exclusions_spec _ Wf) as (ex & E & Le & S). rewrite T in S.
  assert (FN := fancy_nth _ _ _ F). split.
  - intros (ex' & r & E' & N & X). rewrite E in E'. injection E' as <-. pose proof (FN r) as Fr. rewrite N in Fr. destruct (nth_error (tsort (p_pd p)) r) as [k|] eqn:K; [|discriminate].
    exists k. split; [now symmetry|]. rewrite nth_error_map in N. destruct (nth_error (data (p_pd p)) r) as [x|] eqn:D; [|discriminate].
    specialize (S r x k D K). rewrite orb_false_r in S. now rewrite <- S.
  - intros (k & K & X). destruct Wf as (O & Wf2). destruct (ordering_facts _ _ O) as (_ & _ & I). assert (Kl : k < length (data (p_pd p))) by (rewrite <- L; apply nth_error_Some; congruence).
    apply I in Kl. apply In_nth_error in Kl as (r & R). exists ex, r. split; [assumption|]. pose proof (FN r) as Fr. rewrite R, K in Fr. split; [assumption|].
    rewrite nth_error_map in Fr. destruct (nth_error (data (p_pd p)) r) as [x|] eqn:D; [|discriminate]. now rewrite (S r x k D R), orb_false_r.
Qed.
Lemma excluded_pos : forall d h ex r, NoDup (map snd (data d)) -> exclusions d = Ok ex -> nth_error (map snd (data d)) r = Some h -> (excluded d h <-> nth r ex false = true).
Proof.
  intros d h ex r ND E N. split; [|intros X; now exists ex, r]. intros (ex' & r' & E' & N' & X). rewrite E in E'. injection E' as <-.
  assert (r' = r) as <-; [|assumption]. apply (NoDup_nth_error (map snd (data d))); [assumption|apply nth_error_Some; congruence|congruence].
Qed.
Lemma set_mask_excluded : forall p l p', good p -> tmax (p_pd p) = None -> NoDup (map snd (data (p_pd p))) -> length l = length (data (p_pd p)) -> assign_mask p l = (p', None) ->
  forall r h, nth_error (map snd (data (p_pd p))) r = Some h -> (excluded (p_pd p') h <-> nth r l false = true).
Proof.
  intros p l p' (Wf & L & F) T ND Ll H r h N. unfold assign_mask in H. destruct (mask_set _ l Wf Ll) as (d & Ed & Sd). rewrite Ed in H. injection H as <-. cbn [p_pd].
  destruct (set_excl_wf _ _ _ Wf Ed) as (W' & Dd & Es & _ & Et). destruct (exclusions_spec _ W') as (ex & E & Le & S).
  rewrite (excluded_pos d h ex r); [|now rewrite Dd|assumption|now rewrite Dd]. rewrite nth_error_map in N. destruct (nth_error (data (p_pd p)) r) as [x|] eqn:D; [|discriminate].
  assert (Rl : r < length (data (p_pd p))) by (apply nth_error_Some; congruence). destruct (wf_tsort_some _ Wf r Rl) as (k & K & _).
  rewrite (S r x k); [|now rewrite Dd|unfold shows; now rewrite Es]. rewrite Et, T, orb_false_r, (Sd r k K). reflexivity.
Qed.
Lemma index_of_some : forall h l k, index_of h l = Some k -> nth_error l k = Some h.
Proof.
  intros h. induction l as [|x l IH]; intros k H; cbn [index_of] in H; [discriminate|]. destruct (hkl_eqb h x) eqn:E; [injection H as <-; apply hkl_eqb_eq in E; now subst|].
  destruct (index_of h l) as [n|]; [|discriminate]. injection H as <-. cbn [nth_error]. now apply IH.
Qed.
Lemma index_of_none : forall h l, index_of h l = None -> ~ In h l.
Proof.
  intros h. induction l as [|x l IH]; intros H; cbn [index_of] in H; [easy|]. destruct (hkl_eqb h x) eqn:E; [discriminate|].
  destruct (index_of h l) as [n|]; [discriminate|]. intros [C|C]; [symmetry in C; apply hkl_eqb_eq in C; congruence|now apply IH].
Qed.
Lemma carry_length : forall all new i old ex, length (carry all new i old ex) = length new.
Proof. intros all. induction new as [|h t IH]; intros i old ex; cbn [carry length]; [reflexivity|]. now rewrite IH. Qed.
Lemma carry_nth : forall all new i old ex r h, NoDup all -> (forall k, nth_error new k = nth_error all (i + k)) -> nth_error new r = Some h ->
  nth r (carry all new i old ex) false = match index_of h old with Some k => nth k ex true | None => true end.
Proof.
  intros all. induction new as [|x t IH]; intros i old ex r h ND HN N; [now destruct r|]. destruct r as [|r]; cbn [carry nth].
  - cbn [nth_error] in N. injection N as ->. destruct (index_of h all) as [j|] eqn:J.
    + apply index_of_some in J. specialize (HN 0). cbn [nth_error] in HN. rewrite Nat.add_0_r in HN.
      assert (j = i) as -> by (apply (NoDup_nth_error all); [assumption|apply nth_error_Some; congruence|congruence]). rewrite Nat.eqb_refl. now destruct (index_of h old).
    + apply index_of_none in J. exfalso. apply J. specialize (HN 0). cbn [nth_error] in HN. symmetry in HN. eapply nth_error_In; eassumption.
  - apply IH; [assumption| |exact N]. intros k. specialize (HN (S k)). cbn [nth_error] in HN. rewrite HN. f_equal. lia.
Qed.
End Q.
