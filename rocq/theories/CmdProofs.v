(** Proofs about the commands and grain data *)
From Coq Require Import String List ZArith Reals Lra Psatz Lia.
From Verif Require Import Prelude Lin TensorModel RotModel RotSpec RotProofs RotProofs2 XfModel WrModel WrProps CmdModel CmdSpec.
Import ListNotations.
Local Open Scope list_scope.
Local Notation length := List.length.

Section Files.
Context {Row : Type}.
Variable index : config -> result (list Row).
Variable fit : config -> list Row -> result (list Row).
Variable start_row : nat -> Row -> Row.
Notation disk := (@disk Row).

Lemma after_app (d : disk) a b : after d (a ++ b) = after (after d a) b.
Proof. apply fold_left_app. Qed.
Definition touches (p : string) (e : @event Row) : Prop := match e with Opened q => q = p | Added q _ => q = p end.
Lemma untouched (l : list event) : forall (d : disk) p, (forall e, In e l -> ~ touches p e) -> after d l p = d p.
Proof.
  induction l as [|e l IH]; intros d p H; [reflexivity|]. change (after (happens d e) l p = d p). rewrite IH by (intros x Hx; apply H; now right).
  specialize (H e (or_introl eq_refl)). destruct e as [q|q r]; cbn in *; unfold set_file; (destruct (String.eqb_spec p q); [exfalso; apply H; auto|reflexivity]).
Qed.
Lemma write_touches p rows q e : In e (@write_file Row p rows) -> touches q e -> q = p.
Proof. intros [<-|H] T; [now cbn in T|]. apply in_map_iff in H. destruct H as (r & <- & _). now cbn in T. Qed.
Lemma written p rows : forall (d : disk), after d (write_file p rows) p = Some rows.
Proof.
  intros d. unfold write_file. change (after (set_file d p []) (map (Added p) rows) p = Some rows).
  assert (G : forall rows done (e : disk), e p = Some done -> after e (map (Added p) rows) p = Some (done ++ rows)).
  { clear rows d. induction rows as [|r rows IH]; intros done e E; [now rewrite app_nil_r|]. change (after (happens e (Added p r)) (map (Added p) rows) p = Some (done ++ r :: rows)).
    rewrite (IH (done ++ [r])); [now rewrite <- app_assoc|]. cbn. unfold set_file. now rewrite String.eqb_refl, E. }
  apply (G rows []). unfold set_file. now rewrite String.eqb_refl.
Qed.
Lemma written_other p q rows (d : disk) : q <> p -> after d (write_file p rows) q = d q.
Proof. intros H. apply untouched. intros e He T. apply H. eapply write_touches; eassumption. Qed.
Lemma firstn_untouched (d : disk) l p k : (forall e, In e l -> ~ touches p e) -> after d (firstn k l) p = d p.
Proof. intros H. apply untouched. intros e He. apply H. rewrite <- (firstn_skipn k l). apply in_or_app. now left. Qed.

Lemma loop_keeps : forall cfgs qbar (d : disk) p, d p <> None -> forall e, In e (fst (fit_loop fit start_row false false qbar cfgs d)) -> ~ touches p e.
Proof.
  induction cfgs as [|c rest IH]; intros qbar d p Hp e He T; [contradiction|]. cbn [fit_loop] in He. cbn [orb andb negb] in He.
  destruct (exists_file d (grains_file c)) eqn:Ex; cbn [andb negb] in He; [contradiction|].
  assert (N : p <> grains_file c). { intros ->. unfold exists_file in Ex. destruct (d (grains_file c)); [discriminate|now apply Hp]. }
  assert (go : forall ev t, (forall x, In x ev -> ~ touches p x) -> In e (fst (match after d ev t with
      | None => (ev, Raised "RuntimeError")
      | Some rows => match fit c rows with Err _ => (ev, Raised "error of the analysis")
         | Ok res => let '(more, o) := fit_loop fit start_row false false qbar rest (after d (ev ++ write_file (grains_file c) res)) in ((ev ++ write_file (grains_file c) res) ++ more, o) end end)) -> False).
  { intros ev t Hev Hin. destruct (after d ev t) as [rows|]; [|exact (Hev e Hin T)]. destruct (fit c rows) as [res|]; [|exact (Hev e Hin T)].
    destruct (fit_loop fit start_row false false qbar rest (after d (ev ++ write_file (grains_file c) res))) as [more o] eqn:E. cbn [fst] in Hin.
    assert (HE : forall x, In x (ev ++ write_file (grains_file c) res) -> ~ touches p x).
    { intros x Hx Tx. apply in_app_or in Hx. destruct Hx as [Hx|Hx]; [exact (Hev x Hx Tx)|]. apply N. eapply write_touches; eassumption. }
    apply in_app_or in Hin. destruct Hin as [Hin|Hin]; [exact (HE e Hin T)|].
    refine (IH qbar (after d (ev ++ write_file (grains_file c) res)) p _ e _ T); [now rewrite untouched|]. now rewrite E. }
  cbn [orb andb negb] in He. destruct (current_estimate d c) as [s|]; cbn [orb andb negb] in He.
  - exact (go [] s (fun x H => match H with end) He).
  - destruct qbar as [qs|]; [|destruct He as [<-|[]]; cbn in T; now apply N].
    refine (go (write_file (grains_file c) (start_rows start_row qs)) (grains_file c) _ He). intros x Hx Tx. apply N. eapply write_touches; eassumption.
Qed.
Lemma execute_keeps cfgs (d : disk) p : d p <> None -> forall e, In e (fst (fit_execute index fit start_row false false cfgs d)) -> ~ touches p e.
Proof.
  intros Hp e He. unfold fit_execute in He. destruct cfgs as [|c rest]; [contradiction|].
  destruct (orb _ _); [|now apply (loop_keeps _ _ _ _ Hp _ He)]. destruct (d (quats_file c)); [now apply (loop_keeps _ _ _ _ Hp _ He)|].
  destruct (index c); [now apply (loop_keeps _ _ _ _ Hp _ He)|contradiction].
Qed.

Lemma numbered qs : numbered_by start_row qs (start_rows start_row qs).
Proof.
  unfold numbered_by, start_rows. split; [rewrite map_length, combine_length, seq_length; lia|].
  assert (G : forall k qs i q, nth_error qs i = Some q -> nth_error (map (fun p => start_row (fst p) (snd p)) (combine (seq k (length qs)) qs)) i = Some (start_row (k + i) q)).
  { clear qs. intros k qs. revert k. induction qs as [|x qs IH]; intros k i q H; [now destruct i|]. destruct i as [|i]; cbn in *.
    - injection H as ->. now rewrite Nat.add_0_r.
    - rewrite (IH (S k) i q H). f_equal. f_equal. lia. }
  intros i q H. exact (G 0%nat qs i q H).
Qed.

(** the source of each analysis of a run that ends *)
Definition source (clean : bool) (d0 : disk) (qbar : option (list Row)) (c : config) (rows : list Row) : Prop :=
  match clean, current_estimate d0 c with
  | false, Some e => d0 e = Some rows
  | _, _ => exists qs, qbar = Some qs /\ rows = start_rows start_row qs
  end.
Lemma loop_sources clean force (d0 : disk) qbar : forall cfgs (d : disk),
  NoDup (map grains_file cfgs) -> (forall c e, In c cfgs -> estimate c = Some e -> d e = d0 e /\ ~ In e (map grains_file cfgs)) ->
  snd (fit_loop fit start_row clean force qbar cfgs d) = Finished ->
  forall c, In c cfgs -> exists rows res, source clean d0 qbar c rows /\ fit c rows = Ok res /\ after d (fst (fit_loop fit start_row clean force qbar cfgs d)) (grains_file c) = Some res.
Proof.
  assert (Rest : forall cfgs (d : disk) p, ~ In p (map grains_file cfgs) -> forall e, In e (fst (fit_loop fit start_row clean force qbar cfgs d)) -> ~ touches p e).
  { induction cfgs as [|c rest IH]; intros d p Hp e He T; [contradiction|]. cbn [map In] in Hp. assert (N : p <> grains_file c) by (intros ->; tauto). assert (Hr : ~ In p (map grains_file rest)) by tauto.
    cbn [fit_loop] in He. destruct (andb _ _); [contradiction|].
    assert (go : forall ev t, (forall x, In x ev -> ~ touches p x) -> In e (fst (match after d ev t with
      | None => (ev, Raised "RuntimeError")
      | Some rows => match fit c rows with Err _ => (ev, Raised "error of the analysis")
         | Ok res => let '(more, o) := fit_loop fit start_row clean force qbar rest (after d (ev ++ write_file (grains_file c) res)) in ((ev ++ write_file (grains_file c) res) ++ more, o) end end)) -> False).
    { intros ev t Hev Hin. destruct (after d ev t) as [rows|]; [|exact (Hev e Hin T)]. destruct (fit c rows) as [res|]; [|exact (Hev e Hin T)].
      destruct (fit_loop fit start_row clean force qbar rest (after d (ev ++ write_file (grains_file c) res))) as [more o] eqn:E. cbn [fst] in Hin.
      apply in_app_or in Hin. destruct Hin as [Hin|Hin]; [|refine (IH _ p Hr e _ T); rewrite E; exact Hin].
      apply in_app_or in Hin. destruct Hin as [Hin|Hin]; [exact (Hev e Hin T)|]. apply N. eapply write_touches; eassumption. }
    assert (W : forall rows x, In x (write_file (grains_file c) rows) -> ~ touches p x) by (intros rows x Hx Tx; apply N; eapply write_touches; eassumption).
    destruct (orb clean _).
    - destruct qbar as [qs|]; [exact (go _ _ (W _) He)|]. destruct He as [<-|[]]. cbn in T. now apply N.
    - destruct (current_estimate d c); [destruct (orb force _)|]; exact (go [] _ (fun x H => match H with end) He). }
  induction cfgs as [|c rest IH]; intros d ND HE Fin c' Hc'; [contradiction|]. cbn [map] in ND. inversion ND as [|? ? Hnot ND']; subst.
  assert (go : forall ev t rows, (forall x, In x ev -> touches (grains_file c) x) \/ ev = [] -> after d ev t = Some rows -> source clean d0 qbar c rows ->
     fit_loop fit start_row clean force qbar (c :: rest) d = (match after d ev t with
      | None => (ev, Raised "RuntimeError")
      | Some rows => match fit c rows with Err _ => (ev, Raised "error of the analysis")
         | Ok res => let '(more, o) := fit_loop fit start_row clean force qbar rest (after d (ev ++ write_file (grains_file c) res)) in ((ev ++ write_file (grains_file c) res) ++ more, o) end end) ->
     exists rows res, source clean d0 qbar c' rows /\ fit c' rows = Ok res /\ after d (fst (fit_loop fit start_row clean force qbar (c :: rest) d)) (grains_file c') = Some res).
  { intros ev t rows Hev Ht Hs Eq. rewrite Eq in *. rewrite Ht in *. destruct (fit c rows) as [res|] eqn:Ef; [|discriminate Fin].
    set (d1 := after d (ev ++ write_file (grains_file c) res)) in *.
    destruct (fit_loop fit start_row clean force qbar rest d1) as [more o] eqn:El. cbn [fst snd] in *. subst o.
    destruct Hc' as [<-|Hc'].
    - exists rows, res. split; [exact Hs|]. split; [exact Ef|]. rewrite after_app. fold d1. rewrite untouched.
      + unfold d1. rewrite after_app. apply written.
      + intros x Hx. apply (Rest rest d1 _ Hnot). now rewrite El.
    - assert (I : exists rows res, source clean d0 qbar c' rows /\ fit c' rows = Ok res /\ after d1 (fst (fit_loop fit start_row clean force qbar rest d1)) (grains_file c') = Some res).
      { apply IH; [exact ND'| |now rewrite El|exact Hc']. intros c2 e2 H2 E2. destruct (HE c2 e2 (or_intror H2) E2) as [A B]. cbn [map In] in B. split; [|tauto]. rewrite <- A. unfold d1. apply untouched.
        intros x Hx Tx. apply in_app_or in Hx. destruct Hx as [Hx|Hx].
        - destruct Hev as [Hev|Hev]; [|subst ev; contradiction]. specialize (Hev x Hx). apply B. left. destruct x; cbn in *; congruence.
        - apply B. left. symmetry. eapply write_touches; eassumption. }
      destruct I as (r2 & s2 & A & B & C). exists r2, s2. split; [exact A|]. split; [exact B|]. rewrite after_app. fold d1. rewrite El in C. exact C. }
  assert (CE : current_estimate d c = current_estimate d0 c).
  { unfold current_estimate. destruct (estimate c) as [s|] eqn:Es; [|reflexivity]. destruct (HE c s (or_introl eq_refl) Es) as [A _]. unfold exists_file. now rewrite A. }
  assert (CS : forall s, current_estimate d c = Some s -> estimate c = Some s).
  { intros s. unfold current_estimate. destruct (estimate c) as [s'|]; [|discriminate]. destruct (exists_file d s'); [congruence|discriminate]. }
  clear Rest. pose proof Fin as Fin'. cbn [fit_loop] in Fin'. 
  destruct (exists_file d (grains_file c)) eqn:Ex; destruct clean eqn:Ecl; destruct force eqn:Efo; cbn [andb orb negb] in Fin'; try discriminate Fin';
  destruct (current_estimate d c) as [s|] eqn:Es; cbn [andb orb negb] in Fin';
  try (destruct qbar as [qs|] eqn:Eq; [|discriminate Fin']; refine (go (write_file (grains_file c) (start_rows start_row qs)) (grains_file c) (start_rows start_row qs) (or_introl _) _ _ _);
    [intros x [<-|Hx]; [reflexivity|apply in_map_iff in Hx; destruct Hx as (r & <- & _); reflexivity] | apply written | unfold source; rewrite <- ?CE; exists qs; auto | cbn [fit_loop]; rewrite Ex, Es; reflexivity]);
  try (destruct (HE c s (or_introl eq_refl) (CS s eq_refl)) as [A B]; change (after d []) with d in Fin'; destruct (d s) as [rows|] eqn:Ed; [|discriminate Fin'];
    refine (go [] s rows (or_intror eq_refl) Ed _ _); [unfold source; rewrite <- CE; congruence | cbn [fit_loop]; rewrite Ex, Es; reflexivity]).
Qed.

(** a run that can be done is done *)
Lemma loop_finishes clean force qbar : forall cfgs (d : disk),
  NoDup (map grains_file cfgs) -> (force || clean = true \/ forall c, In c cfgs -> d (grains_file c) = None) ->
  (forall c e, In c cfgs -> estimate c = Some e -> ~ In e (map grains_file cfgs)) ->
  (forall c rows, In c cfgs -> exists res, fit c rows = Ok res) ->
  ((forall c, In c cfgs -> clean = false /\ current_estimate d c <> None) \/ qbar <> None) ->
  snd (fit_loop fit start_row clean force qbar cfgs d) = Finished.
Proof.
  induction cfgs as [|c rest IH]; intros d ND HX HE HF HQ; [reflexivity|]. cbn [map] in ND. inversion ND as [|? ? Hnot ND']; subst.
  assert (go : forall ev t, (forall x, In x ev -> touches (grains_file c) x) -> after d ev t <> None ->
     snd (match after d ev t with
      | None => (ev, Raised "RuntimeError")
      | Some rows => match fit c rows with Err _ => (ev, Raised "error of the analysis")
         | Ok res => let '(more, o) := fit_loop fit start_row clean force qbar rest (after d (ev ++ write_file (grains_file c) res)) in ((ev ++ write_file (grains_file c) res) ++ more, o) end end) = Finished).
  { intros ev t Hev Ht. destruct (after d ev t) as [rows|]; [|congruence]. destruct (HF c rows (or_introl eq_refl)) as (res & ->).
    assert (U : forall p, p <> grains_file c -> after d (ev ++ write_file (grains_file c) res) p = d p).
    { intros p Np. apply untouched. intros x Hx Tx. apply in_app_or in Hx. destruct Hx as [Hx|Hx]; [|apply Np; eapply write_touches; eassumption]. specialize (Hev x Hx). apply Np. destruct x; cbn in *; congruence. }
    assert (I : snd (fit_loop fit start_row clean force qbar rest (after d (ev ++ write_file (grains_file c) res))) = Finished).
    { apply IH; [exact ND'| | | |].
      - destruct HX as [HX|HX]; [now left|right]. intros c2 H2. rewrite U; [apply HX; now right|]. intros E. apply Hnot. rewrite <- E. now apply in_map.
      - intros c2 e2 H2 E2. pose proof (HE c2 e2 (or_intror H2) E2) as B. cbn [map In] in B. tauto.
      - intros c2 rows2 H2. apply HF. now right.
      - destruct HQ as [HQ|HQ]; [left|now right]. intros c2 H2. destruct (HQ c2 (or_intror H2)) as [Q1 Q2]. split; [exact Q1|]. revert Q2. unfold current_estimate. destruct (estimate c2) as [s|] eqn:Es; [|tauto]. unfold exists_file. rewrite U; [tauto|]. intros ->. apply (HE c2 _ (or_intror H2) Es). now left. }
    destruct (fit_loop fit start_row clean force qbar rest _) as [more o]. exact I. }
  cbn [fit_loop]. destruct (andb _ _) eqn:A.
  { apply andb_prop in A. destruct A as [A1 A2]. destruct HX as [HX|HX]; [now rewrite HX in A2|]. unfold exists_file in A1. rewrite (HX c (or_introl eq_refl)) in A1. discriminate. }
  destruct (orb clean _) eqn:B.
  - destruct qbar as [qs|].
    + apply go; [|now rewrite written]. intros x [<-|Hx]; [reflexivity|apply in_map_iff in Hx; destruct Hx as (r & <- & _); reflexivity].
    + destruct HQ as [HQ|HQ]; [|congruence]. destruct (HQ c (or_introl eq_refl)) as [E1 E2]. exfalso. rewrite E1 in B. destruct (current_estimate d c); [|congruence]. cbn in B. destruct force, (exists_file d (grains_file c)); discriminate.
  - apply orb_false_iff in B. destruct B as [B1 B2]. destruct (current_estimate d c) as [s|] eqn:Es.
    + assert (X : d s <> None). { revert Es. unfold current_estimate. destruct (estimate c) as [s'|]; [|discriminate]. unfold exists_file. destruct (d s') eqn:E; [|discriminate]. intros Es. injection Es as <-. congruence. }
      replace (orb force (negb (exists_file d (grains_file c)))) with true. { apply go; [contradiction|exact X]. }
      destruct force, (exists_file d (grains_file c)); try reflexivity. rewrite B1 in A. discriminate.
    + exfalso. rewrite B1 in A. destruct force, (exists_file d (grains_file c)); discriminate.
Qed.
End Files.

(** ** grain data *)
Local Open Scope R_scope.
Lemma as_int_IZR z : as_int (IZR z) = z.
Proof.
  assert (I : forall k, Int_part (IZR k) = k). { intros k. pose proof (base_Int_part (IZR k)) as [A B]. set (m := Int_part (IZR k)) in *. assert ((m <= k)%Z) by now apply le_IZR. assert ((k - 1 < m)%Z) by (apply lt_IZR; rewrite minus_IZR; lra). lia. }
  unfold as_int. destruct (Rle_dec 0 (IZR z)); [apply I|]. rewrite <- opp_IZR, I. lia.
Qed.
Lemma masked_filter {A} (f : A -> bool) (l : list A) : masked (map f l) l = filter f l.
Proof. induction l as [|x l IH]; [reflexivity|]. cbn. rewrite IH. now destruct (f x). Qed.

Section Zip.
(** the columns seen row by row *)
Definition rec7 := (Z * R * R * list R * list R * list R * list R)%type.
Fixpoint zip7 (a : list Z) (b c : list R) (d e f g : list (list R)) : list rec7 :=
  match a, b, c, d, e, f, g with
  | x :: a, y :: b, z :: c, u :: d, v :: e, w :: f, t :: g => (x, y, z, u, v, w, t) :: zip7 a b c d e f g
  | _, _, _, _, _, _, _ => []
  end.
Definition zip (gd : grain_data) := zip7 (gd_id gd) (gd_comp gd) (gd_chisq gd) (gd_expmap gd) (gd_centroid gd) (gd_inv gd) (gd_ln gd).
Lemma all_zip gd : aligned gd -> all_grains gd = map Some (zip gd).
Proof.
  destruct gd as [a b c d e f g]. unfold aligned, all_grains, zip, grain_at. cbn [gd_id gd_comp gd_chisq gd_expmap gd_centroid gd_inv gd_ln].
  revert b c d e f g. induction a as [|x a IH]; intros b c d e f g (B & C & D & E & F & G); [reflexivity|].
  destruct b, c, d, e, f, g; try discriminate. cbn [length seq map zip7 nth_error]. f_equal. rewrite <- seq_shift, map_map. cbn [nth_error]. apply IH. cbn [length] in *. lia.
Qed.
Lemma zip7_mask : forall m a b c d e f g, length m = length a -> length b = length a -> length c = length a -> length d = length a -> length e = length a -> length f = length a -> length g = length a ->
  zip7 (masked m a) (masked m b) (masked m c) (masked m d) (masked m e) (masked m f) (masked m g) = masked m (zip7 a b c d e f g).
Proof.
  induction m as [|k m IH]; intros a b c d e f g A B C D E F G; [reflexivity|].
  destruct a, b, c, d, e, f, g; try discriminate. cbn [length] in *. cbn [masked zip7]. destruct k; cbn [zip7]; rewrite IH by lia; reflexivity.
Qed.
Lemma masked_length {A B} : forall m (a : list A) (b : list B), length a = length b -> length (masked m a) = length (masked m b).
Proof. induction m as [|k m IH]; intros [|x a] [|y b] H; try reflexivity; try discriminate. cbn in *. destruct k; cbn; auto. Qed.
Lemma zip7_cols : forall a b c d e f g, length b = length a -> length c = length a -> length d = length a -> length e = length a -> length f = length a -> length g = length a ->
  b = map (fun r : rec7 => snd (fst (fst (fst (fst (fst r)))))) (zip7 a b c d e f g) /\ c = map (fun r : rec7 => snd (fst (fst (fst (fst r))))) (zip7 a b c d e f g).
Proof.
  induction a as [|x a IH]; intros b c d e f g B C D E F G; destruct b, c, d, e, f, g; try discriminate; [split; reflexivity|]. cbn [length] in *. cbn [zip7 map fst snd].
  destruct (IH b c d e f g) as [P Q]; try lia. split; f_equal; assumption.
Qed.
End Zip.
Definition comp_of (r : rec7) : R := snd (fst (fst (fst (fst (fst r))))).
Definition chisq_of (r : rec7) : R := snd (fst (fst (fst (fst r)))).
Lemma select_lemma gd lo hi : aligned gd -> aligned (select gd lo hi) /\
  zip (select gd lo hi) = filter (fun r => andb (leb_R lo (comp_of r)) (match hi with Some m => leb_R (chisq_of r) m | None => true end)) (zip gd).
Proof.
  intros Al. destruct gd as [a b c d e f g]. destruct Al as (B & C & D & E & F & G). cbn [gd_id gd_comp gd_chisq gd_expmap gd_centroid gd_inv gd_ln] in *.
  destruct (zip7_cols a b c d e f g B C D E F G) as [P Q]. unfold select. cbn [gd_id gd_comp gd_chisq gd_expmap gd_centroid gd_inv gd_ln].
  set (sel := match hi with Some m => map (fun p => (fst p && snd p)%bool) (combine (map (fun x => leb_R lo x) b) (map (fun x => leb_R x m) c)) | None => map (fun x => leb_R lo x) b end).
  assert (S1 : sel = map (fun r => andb (leb_R lo (comp_of r)) (match hi with Some m => leb_R (chisq_of r) m | None => true end)) (zip7 a b c d e f g)).
  { unfold sel. clear sel. set (l := zip7 a b c d e f g) in *. clearbody l. clear -P Q. subst b c. destruct hi as [m|].
    - induction l as [|x l IH]; [reflexivity|]. cbn [map combine fst snd]. f_equal. exact IH.
    - rewrite map_map. apply map_ext. intros x. now rewrite andb_true_r. }
  split.
  - unfold aligned. cbn [gd_id gd_comp gd_chisq gd_expmap gd_centroid gd_inv gd_ln]. repeat split; now apply masked_length.
  - unfold zip. cbn [gd_id gd_comp gd_chisq gd_expmap gd_centroid gd_inv gd_ln]. rewrite zip7_mask; auto.
    + rewrite S1. apply masked_filter.
    + rewrite S1, map_length. clear -B C D E F G. revert b c d e f g B C D E F G. induction a as [|x a IH]; intros b c d e f g B C D E F G; [reflexivity|]. destruct b, c, d, e, f, g; try discriminate. cbn [length zip7] in *. f_equal. apply IH; lia.
Qed.

Lemma from_rows (logm minv : m3 -> m3) (l : list grain) (rows : list (list R)) : (forall g, In g l -> length (g_params g) = 12%nat) ->
  Forall2 (fun g row => exists u, stretch_inverse (g_params g) u /\ row = grain_numbers g (logm (minv u))) l rows ->
  grains_of (from_array rows) = l /\ aligned (from_array rows).
Proof.
  intros L F. split.
  - unfold grains_of, from_array. cbn [gd_id gd_comp gd_chisq gd_expmap gd_centroid gd_inv gd_ln]. rewrite map_length.
    induction F as [|g row l rows (u & U & ->) F IH]; [reflexivity|]. cbn [length seq map]. f_equal.
    + destruct g as [i c x gp]. pose proof (L _ (or_introl eq_refl)) as Lg. cbn [g_params] in Lg. unfold grain_numbers, columns_of. cbn [g_id g_comp g_chisq g_params map nth app]. rewrite as_int_IZR.
      do 12 (destruct gp as [|? gp]; [discriminate|]). destruct gp; [|discriminate]. reflexivity.
    + rewrite <- seq_shift, map_map. cbn [nth columns_of map]. apply IH. intros g' H'. apply L. now right.
  - unfold aligned, from_array, columns_of. cbn [gd_id gd_comp gd_chisq gd_expmap gd_centroid gd_inv gd_ln]. now rewrite !map_length.
Qed.

(** ** the rotation vector of a quaternion *)
Lemma expmap_lemma q : unitq q -> (c_epsf < norm (V3 (qx q) (qy q) (qz q)) \/ V3 (qx q) (qy q) (qz q) = vzero /\ qw q = 1) ->
  sp_from_rotvec (expmap_of_quat q) = q /\ norm (expmap_of_quat q) = 2 * acos (qw q).
Proof.
  destruct q as [a b c d]. intros U H. unfold unitq in U. cbn [qw qx qy qz] in *. unfold expmap_of_quat. cbn [qw qx qy qz].
  assert (E0 : 0 < c_epsf) by (unfold c_epsf; apply Rinv_0_lt_compat, pow_lt; lra).
  assert (A1 : -1 <= a <= 1) by (split; nra). pose proof (acos_bound a) as [B1 B2].
  destruct H as [H|[H ->]].
  - unfold unit_row_vector. set (v := V3 b c d) in *. set (n := norm v) in *. destruct (Rlt_dec c_epsf n) as [_|N]; [|contradiction]. cbn [fst].
    assert (N0 : 0 < n) by lra. assert (NN : n * n = b * b + c * c + d * d). { unfold n, norm. rewrite sqrt_sqrt; [subst v; lin_unfold; ring|subst v; lin_unfold; nra]. }
    assert (Un : norm2 (V3 (vx v / n) (vy v / n) (vz v / n)) = 1). { subst v. lin_unfold. cbn [vx vy vz]. replace (b / n * (b / n) + c / n * (c / n) + d / n * (d / n)) with ((b * b + c * c + d * d) / (n * n)) by (field; lra). rewrite <- NN. field. lra. }
    split.
    + rewrite rotvec_quat by exact Un. replace (2 * acos a / 2) with (acos a) by field. rewrite cos_acos by exact A1.
      assert (Sn : sin (acos a) = n). { rewrite sin_acos by exact A1. replace (1 - Rsqr a) with (Rsqr n) by (unfold Rsqr; lra). apply sqrt_Rsqr. lra. }
      rewrite Sn. subst v. cbn [vx vy vz]. f_equal; field; lra.
    + unfold norm. replace (norm2 (vscale (2 * acos a) (V3 (vx v / n) (vy v / n) (vz v / n)))) with (Rsqr (2 * acos a) * norm2 (V3 (vx v / n) (vy v / n) (vz v / n))) by (lin_unfold; unfold Rsqr; ring).
      rewrite Un, Rmult_1_r. apply sqrt_Rsqr. lra.
  - injection H as -> -> ->. assert (Z0 : norm (V3 0 0 0) = 0). { unfold norm. replace (norm2 (V3 0 0 0)) with 0 by (lin_unfold; ring). apply sqrt_0. }
    unfold unit_row_vector. rewrite Z0. destruct (Rlt_dec c_epsf 0); [lra|]. cbn [fst]. rewrite acos_1. replace (vscale (2 * 0) (V3 0 0 0)) with (V3 0 0 0) by (lin_unfold; f_equal; ring).
    split; [|rewrite Z0; ring]. unfold sp_from_rotvec. rewrite Z0. destruct (Req_EM_T 0 0); [reflexivity|contradiction].
Qed.
