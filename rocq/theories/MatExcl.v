(** Material objects: how exclusions follow the reflections. *)
From Coq Require Import QArith Permutation String.
From Verif Require Import Prelude ProcessModel PlaneModel PlaneSpec PlaneProofs MatModel MatSpec MatProofs MatMain.
Local Close Scope Q_scope.
Local Notation length := List.length.

Section E.
Variable W : world.
Hypothesis HS : sane W.

Definition same_exclusions (d d' : pd hkl) : Prop := Permutation (listing d) (listing d') /\ forall h, excluded d' h <-> excluded d h.
Lemma same_excl : forall p p', good p -> good p' -> tmax (p_pd p) = None -> tmax (p_pd p') = None -> NoDup (listing (p_pd p)) ->
  p_hkls p' = p_hkls p -> stored (p_pd p') = stored (p_pd p) -> same_exclusions (p_pd p) (p_pd p').
Proof.
  intros p p' G G' T T' ND Hh Hs. unfold listing in *. assert (P := good_perm _ G). assert (P' := good_perm _ G'). rewrite Hh in P'. split.
  - unfold listing. etransitivity; [exact P|]. symmetry. exact P'.
  - intros h. assert (N : NoDup (p_hkls p)) by (exact (Permutation_NoDup P ND)). rewrite (excluded_master p' h), (excluded_master p h); try assumption; [|rewrite Hh; exact N].
    unfold is_stored. now rewrite Hh, Hs.
Qed.
Lemma follow_trans : forall f d d1 d', same_exclusions d d1 -> exclusions_follow f d1 d' -> exclusions_follow f d d'.
Proof.
  intros f d d1 d' [P E] (H1 & H2 & H3). assert (I : forall h, In h (listing d) <-> In h (listing d1)) by (intros h; split; apply Permutation_in; [assumption|now apply Permutation_sym]).
  assert (PP : Permutation (listing d) (listing d') <-> Permutation (listing d1) (listing d')) by (split; intros Q; [etransitivity; [symmetry; exact P|exact Q]|etransitivity; [exact P|exact Q]]). split; [|split].
  - intros Q h. rewrite (H1 (proj1 PP Q)). apply E.
  - intros Q (h & A & B & C) h' I'. assert (X : exists h, In h (listing d1) /\ In h (listing d') /\ ~ excluded d1 h) by (exists h; now rewrite <- I, E).
    rewrite (H2 (fun Z => Q (proj2 PP Z)) X h' I'). now rewrite <- I, E.
  - intros Q A r h N. apply H3; [intros Z; now apply Q, PP| |assumption]. intros h' B C. apply E. apply A; [now apply I|assumption].
Qed.
Lemma default_nth : forall file l r h, nth_error l r = Some h -> (nth r (default_mask file l) false = true <-> match file with Some f => ~ In h f | None => 5 <= r end).
Proof.
  intros [f|] l r h N; unfold default_mask.
  - rewrite (nth_error_nth _ r false (x := negb (existsb (hkl_eqb h) f))); [|now rewrite nth_error_map, N]. rewrite negb_true_iff. split.
    + intros X I. assert (Y : existsb (hkl_eqb h) f = true) by (apply existsb_exists; exists h; split; [assumption|now apply hkl_eqb_eq]). congruence.
    + intros X. destruct (existsb (hkl_eqb h) f) eqn:Y; [|reflexivity]. apply existsb_exists in Y as (x & I & Y). apply hkl_eqb_eq in Y. subst x. contradiction.
  - assert (R : r < length l) by (apply nth_error_Some; congruence). rewrite (nth_error_nth _ r false (x := Nat.leb 5 r)); [apply Nat.leb_le|].
    rewrite nth_error_map, (nth_error_nth' _ 0) by (now rewrite seq_length). now rewrite seq_nth.
Qed.
Lemma default_length : forall file l, length (default_mask file l) = length l.
Proof. intros [f|] l; unfold default_mask; rewrite map_length; [reflexivity|apply seq_length]. Qed.

Lemma newPdata_follow : forall m m', good (m_plane m) -> at_angles W (m_plane m) -> tmax (p_pd (m_plane m)) = None -> NoDup (listing (p_pd (m_plane m))) ->
  newPdata W m = (m', None) -> NoDup (listing (p_pd (m_plane m'))) -> exclusions_follow (m_file m) (p_pd (m_plane m)) (p_pd (m_plane m')).
Proof.
  intros m m' G A T ND H ND'. unfold newPdata in H. set (hkls := w_refl W _ _ _ _ _) in *. destruct (hkls_match hkls (hkls_of (p_pd (m_plane m)))) eqn:EM.
  - injection H as <-. split; [|split]; [reflexivity|intros X; now contradiction X|intros X; now contradiction X].
  - assert (NP : ~ Permutation hkls (listing (p_pd (m_plane m)))) by (intros X; apply hkls_match_iff in X; change (listing (p_pd (m_plane m))) with (hkls_of (p_pd (m_plane m))) in X; congruence).
    destruct (plane_calc W _) as [q [e|]] eqn:EC; [discriminate|]. apply plane_calc_ok in EC as (P1 & P2 & P3 & P4 & P5 & P6 & P7 & P8 & P9 & P10); [|assumption|fields; discriminate]. fields. cbn [tmax] in P8.
    destruct (exclusions_spec _ (proj1 G)) as (ex & Ex & Le & _). rewrite Ex in H. set (mask := carry _ _ _ _ _) in *.
    unfold on_plane in H. destruct (assign_mask q _) as [q' e] eqn:EA. fields. injection H as <- ->. fields.
    pose proof EA as EA'. apply assign_mask_ok in EA' as (Q1 & Q2 & Q3 & Q4 & Q5 & Q6 & Q7 & Q8 & Q9); [|assumption].
    unfold listing in ND'. rewrite Q7 in ND'. fold (hkls_of (p_pd q)) in ND'.
    assert (LQ : listing (p_pd q') = hkls_of (p_pd q)) by (unfold listing, hkls_of; now rewrite Q7).
    assert (NP' : ~ Permutation (listing (p_pd (m_plane m))) (listing (p_pd q'))).
    { intros X. apply NP. symmetry. etransitivity; [exact X|]. rewrite LQ, <- P4. now apply good_perm. }
    assert (LM : length mask = length (data (p_pd q))) by (unfold mask; rewrite carry_length; unfold hkls_of; apply map_length).
    assert (MN : forall r h, nth_error (listing (p_pd q')) r = Some h -> (nth r mask false = true <-> (In h (listing (p_pd (m_plane m))) -> excluded (p_pd (m_plane m)) h))).
    { intros r h N. rewrite LQ in N. unfold mask. rewrite (carry_nth (hkls_of (p_pd q)) (hkls_of (p_pd q)) 0 _ _ r h ND' (fun k => eq_refl) N). destruct (index_of h (hkls_of (p_pd (m_plane m)))) as [k|] eqn:K.
      - apply index_of_some in K. rewrite (excluded_pos _ h ex k ND Ex K). assert (Kl : k < length ex) by (rewrite Le; rewrite <- (map_length snd); apply nth_error_Some; fold (hkls_of (p_pd (m_plane m))); congruence).
        rewrite (nth_indep ex true false Kl). split; [tauto|]. intros X. apply X. eapply nth_error_In; exact K.
      - apply index_of_none in K. split; [intros _ I; contradiction|reflexivity]. }
    assert (Le' : length (default_mask (m_file m) (hkls_of (p_pd q))) = length (data (p_pd q))) by (rewrite default_length; unfold hkls_of; apply map_length).
    split; [intros X; contradiction|]. destruct (forallb (fun b => b) mask) eqn:FB; (split; [intros _ C|intros _ C]).
    + exfalso. destruct C as (h & I1 & I2 & C). apply C. apply In_nth_error in I2 as (r & N). apply (MN r h N); [|assumption]. rewrite forallb_forall in FB. apply FB. apply nth_In. rewrite LM.
      rewrite LQ in N. rewrite <- (map_length snd). apply nth_error_Some. fold (hkls_of (p_pd q)). congruence.
    + intros r h N. rewrite LQ in N. rewrite (set_mask_excluded q _ q' P9 (eq_trans P8 T) ND' Le' EA r h N). now apply default_nth.
    + intros h I. apply In_nth_error in I as (r & N). rewrite <- (MN r h N). rewrite LQ in N. now rewrite (set_mask_excluded q _ q' P9 (eq_trans P8 T) ND' LM EA r h N).
    + exfalso. assert (X : forallb (fun b => b) mask = true); [|congruence]. apply forallb_forall. intros b B. apply In_nth with (d := false) in B as (r & R & <-). rewrite LM in R.
      rewrite <- (map_length snd) in R. fold (hkls_of (p_pd q)) in R. destruct (nth_error (hkls_of (p_pd q)) r) as [h|] eqn:N; [|apply nth_error_None in N; lia].
      rewrite <- LQ in N. apply (MN r h N). intros I. apply C; [assumption|]. eapply nth_error_In; exact N.
Qed.
Lemma changed_follow : forall m m', good (m_plane m) -> at_angles W (m_plane m) -> tmax (p_pd (m_plane m)) = None -> NoDup (listing (p_pd (m_plane m))) ->
  hkls_changed W m = (m', None) -> NoDup (listing (p_pd (m_plane m'))) -> exclusions_follow (m_file m) (p_pd (m_plane m)) (p_pd (m_plane m')).
Proof.
  intros m m' G A T ND H ND'. unfold hkls_changed, andthen in H. destruct (newPdata W m) as [m1 [e|]] eqn:E; fields; [discriminate|]. unfold invalidate in H. injection H as <-. fields.
  now apply newPdata_follow.
Qed.
Lemma rebuild_follow : forall m m', good (m_plane m) -> tmax (p_pd (m_plane m)) = None -> NoDup (listing (p_pd (m_plane m))) ->
  andthen (newUnitcell W m) (hkls_changed W) = (m', None) -> NoDup (listing (p_pd (m_plane m'))) -> exclusions_follow (m_file m) (p_pd (m_plane m)) (p_pd (m_plane m')).
Proof.
  intros m m' G T ND H ND'. unfold andthen in H. destruct (newUnitcell W m) as [m1 [e|]] eqn:E; fields; [discriminate|].
  apply newUnitcell_ok in E as (H1 & H2 & H3 & H4 & H5 & H6 & H7 & H8 & H9 & H10 & H11); [|assumption|assumption].
  assert (Sx : same_exclusions (p_pd (m_plane m)) (p_pd (m_plane m1))) by (apply same_excl; try assumption; congruence).
  apply follow_trans with (d1 := p_pd (m_plane m1)); [assumption|]. assert (F : m_file m1 = m_file m) by apply H1. rewrite <- F.
  apply changed_follow; try assumption; [congruence|]. eapply Permutation_NoDup; [apply Sx|assumption].
Qed.
Lemma step_follow : forall m o m', full W m -> rebuilding o -> (forall v, o <> Exclude v) -> (forall v, o <> SetTmax v) ->
  tmax (p_pd (m_plane m)) = None -> NoDup (listing (p_pd (m_plane m))) -> step W m o = (m', None) -> NoDup (listing (p_pd (m_plane m'))) ->
  exclusions_follow (m_file m) (p_pd (m_plane m)) (p_pd (m_plane m')).
Proof.
  intros m o m' ((CA & PL & G & A) & L & EN & SF) R NE NT T ND H ND'.
  assert (Same : forall d f, exclusions_follow f d d) by (intros d f; split; [|split]; [reflexivity|intros X; now contradiction X|intros X; now contradiction X]).
  destruct o; cbn [rebuilding] in R; try contradiction; cbn [step] in H.
  - unfold set_sgnum in H. apply rebuild_follow in H; assumption.
  - unfold set_latticeParameters in H. destruct (do f <- _; _) as [l|]; [|discriminate]. apply rebuild_follow in H; assumption.
  - unfold set_dmin in H. destruct (Qeq_bool (m_dmin m) v); [injection H as <-; apply Same|]. apply changed_follow in H; assumption.
  - unfold set_beamEnergy, andthen, on_plane in H. fields. destruct (set_wavelength W (m_plane m) e) as [p' [x|]] eqn:E; fields; [discriminate|].
    apply set_wavelength_ok in E as (E1 & E2 & E3 & E4 & E5 & E6 & E7 & E8 & E9 & E10 & E11); [|assumption|assumption|assumption].
    assert (Sx : same_exclusions (p_pd (m_plane m)) (p_pd p')) by (apply same_excl; try assumption; congruence).
    apply follow_trans with (d1 := p_pd p'); [assumption|]. apply changed_follow in H; fields; try assumption; [congruence|]. eapply Permutation_NoDup; [apply Sx|assumption].
  - unfold set_atomdata in H. destruct (negb _); [discriminate|]. destruct (negb _); [discriminate|]. destruct (negb _); [discriminate|].
    destruct (andthen (andthen (andthen (set_atomtype m ty) _) _) _) as [m1 [x|]] eqn:E; [discriminate|]. apply atoms_ok in E. subst m1.
    unfold andthen in H. fields. destruct (newUnitcell W _) as [m2 [x|]] eqn:E; fields; [discriminate|]. injection H as <-. fields.
    apply newUnitcell_ok in E as (H1 & H2 & H3 & H4 & H5 & H6 & H7 & H8 & H9 & H10 & H11); [|assumption|assumption]. fields.
    apply follow_trans with (d1 := p_pd (m_plane m2)); [|apply Same]. apply same_excl; try assumption; congruence.
  - now contradiction (NE v).
  - now contradiction (NT v).
  - unfold read_sf in H. destruct (p_sf (m_plane m)) as [v|] eqn:ES; fields; destruct (do ex <- _; _); try discriminate; injection H as <-; apply Same.
Qed.
(** an assignment of a mask by the user *)
Lemma exclude_follow : forall m l m', good (m_plane m) -> tmax (p_pd (m_plane m)) = None -> NoDup (listing (p_pd (m_plane m))) -> length l = length (listing (p_pd (m_plane m))) ->
  step W m (Exclude (EMask l)) = (m', None) -> listing (p_pd (m_plane m')) = listing (p_pd (m_plane m)) /\
  forall r h, nth_error (listing (p_pd (m_plane m))) r = Some h -> (excluded (p_pd (m_plane m')) h <-> nth r l false = true).
Proof.
  intros m l m' G T ND Ll H. cbn [step] in H. unfold set_plane_exclusions in H. destruct (set_exclusions (p_pd (m_plane m)) (EMask l)) as [d|] eqn:E; [|discriminate]. injection H as <-. fields.
  destruct (set_excl_wf _ _ _ (proj1 G) E) as (W' & Dd & Es & _ & Et). split; [unfold listing; now rewrite Dd|]. intros r h N.
  unfold listing in Ll. rewrite map_length in Ll.
  apply (set_mask_excluded (m_plane m) l (Plane (p_laue (m_plane m)) (p_lp (m_plane m)) (p_wl (m_plane m)) (p_hkls (m_plane m)) d (p_sf (m_plane m)) (p_old (m_plane m)))); try assumption.
  unfold assign_mask. now rewrite E.
Qed.
(** structure factors *)
Lemma read_fresh : forall m, full W m -> length (w_sf W (m_cell m) (data (p_pd (m_plane m)))) = length (listing (p_pd (m_plane m))) ->
  exists ex, exclusions (p_pd (m_plane m)) = Ok ex /\ snd (read_sf W m) = Ok (keep_mask ex (w_sf W (m_cell m) (data (p_pd (m_plane m))))).
Proof.
  intros m ((CA & PL & G & A) & L & EN & SF1 & SF2) Ll. destruct (exclusions_spec _ (proj1 G)) as (ex & Ex & Le & _). exists ex. split; [assumption|]. unfold listing in Ll. rewrite map_length in Ll.
  unfold read_sf. destruct SF2 as [-> | ->]; rewrite ?SF1; fields; rewrite Ex; cbn [rbind]; now rewrite Ll, Le, Nat.eqb_refl.
Qed.
End E.
