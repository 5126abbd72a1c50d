(** Lemmas: valid reflections, omegas, residuals. *)
From Coq Require Import Reals List ZArith Permutation Lia Lra Bool.
From Verif Require Import Prelude Lin TensorModel RotModel RotSpec RotProofs2 FibModel EomModel EomProofs EomMore EmsProofs CluProofs FgrModel FgrSpec FgrProofs.
Import ListNotations.
Local Open Scope R_scope.
Local Notation length := List.length.

Lemma rlt_iff a b : rlt a b = true <-> a < b.
Proof. unfold rlt. destruct (Rlt_dec a b); split; intros; auto; try discriminate; contradiction. Qed.
Lemma kept_filter {A} (Q : A -> Prop) (f : A -> bool) l : (forall x, f x = true <-> Q x) -> kept Q l (filter f l).
Proof.
  intros H. induction l as [|x t IH]; [constructor|]. cbn [filter]. destruct (f x) eqn:E; constructor; auto; [now apply H|].
  intros Qx. apply H in Qx. congruence.
Qed.
Lemma filter_le {A} (f : A -> bool) l : (length (filter f l) <= length l)%nat.
Proof. induction l as [|x t IH]; cbn; [lia|]. destruct (f x); cbn; lia. Qed.

(** ** one grain *)
Section OneGrain.
Context {P Tol Spots Culled Sim Refit : Type}.
Variable pull : Tol * Tol * Tol -> P -> Spots.
Variable validate : Spots -> result (Culled * nat * R).
Variable fit : P -> Culled -> P * result unit.
Variable chi : P -> Culled -> result R.
Variable sim : P -> Culled -> result Sim.
Variable refine : Refit -> Culled -> Sim -> result (Culled * nat).
Notation loop := (tol_loop pull validate fit chi).
Lemma loop_early tols : forall last p q c, loop tols last p = (q, Ok (Early c)) ->
  exists t culled n, In t tols /\ validate (pull t q) = Ok (culled, n, c) /\ (n <= 12)%nat.
Proof.
  induction tols as [|t ts IH]; intros last p q c H; cbn [tol_loop] in H; [destruct last as [[[? ?] ?]|]; discriminate|].
  destruct (validate (pull t p)) as [[[culled n] c']|] eqn:V; [|discriminate]. destruct (Nat.leb n 12) eqn:L.
  - injection H as <- <-. apply Nat.leb_le in L. exists t, culled, n. split; [now left|auto].
  - destruct (fit p culled) as [p' [u|e]]; [|discriminate]. destruct (chi p' culled) as [x|e]; [|discriminate].
    destruct (IH _ _ _ _ H) as (t' & k & m & I & E). exists t', k, m. split; [now right|exact E].
Qed.
Lemma loop_through tols : forall last p q c x culled, loop tols last p = (q, Ok (Through c x culled)) ->
  (tols = [] /\ last = Some (c, x, culled) /\ q = p) \/
  (exists ts t, tols = ts ++ [t] /\ chi q culled = Ok x /\ exists p' n, validate (pull t p') = Ok (culled, n, c) /\ (12 < n)%nat /\ fit p' culled = (q, Ok tt)).
Proof.
  induction tols as [|t ts IH]; intros last p q c x culled H; cbn [tol_loop] in H.
  - destruct last as [[[c' x'] k]|]; [|discriminate]. injection H as <- <- <- <-. left. auto.
  - destruct (validate (pull t p)) as [[[k n] c']|] eqn:V; [|discriminate]. destruct (Nat.leb n 12) eqn:L; [discriminate|].
    apply Nat.leb_gt in L. destruct (fit p k) as [p' [u|e]] eqn:F; [|discriminate]. destruct (chi p' k) as [x'|e] eqn:X; [|discriminate]. right.
    destruct (IH _ _ _ _ _ _ H) as [(-> & E & ->)|(ts' & t' & -> & R)].
    + injection E as <- <- <-. exists [], t. split; [reflexivity|]. split; [exact X|]. exists p, n. destruct u. auto.
    + exists (t :: ts'), t'. split; [reflexivity|exact R].
Qed.
End OneGrain.

(** ** omegas *)
Lemma two_pi : period_of ARad = Ok (2 * PI).
Proof. reflexivity. Qed.
Lemma circle_distance_turns m c c' d : same_angle (2 * PI) c c' -> circle_distance (2 * PI) m c' d -> circle_distance (2 * PI) m c d.
Proof.
  intros [j ->] [[k K] M]. split.
  - exists (k - j)%Z. rewrite K. f_equal. rewrite minus_IZR. ring.
  - intros i. eapply Rle_trans; [apply (M (i + j)%Z)|]. right. f_equal. rewrite plus_IZR. ring.
Qed.
Lemma circle_distance_turns_l m m' c d : same_angle (2 * PI) m m' -> circle_distance (2 * PI) m' c d -> circle_distance (2 * PI) m c d.
Proof.
  intros [j ->] [[k K] M]. split.
  - exists (k + j)%Z. rewrite K. f_equal. rewrite plus_IZR. ring.
  - intros i. eapply Rle_trans; [apply (M (i - j)%Z)|]. right. f_equal. rewrite minus_IZR. ring.
Qed.
Lemma same_angle_refl a : same_angle (2 * PI) a a.
Proof. exists 0%Z. ring. Qed.
Lemma match_one_lemma m a b : Rabs (m - a) <= 2 * PI -> Rabs (m - b) <= 2 * PI -> exists w, match_one m a b = Ok w /\ (w = a \/ w = b) /\ no_farther m w a /\ no_farther m w b.
Proof.
  intros A B. destruct (diff_lemma m a ARad _ two_pi A) as (da & Ea & Da). destruct (diff_lemma m b ARad _ two_pi B) as (db & Eb & Db).
  unfold match_one. rewrite Ea. cbn [rbind]. rewrite Eb. cbn [rbind]. unfold rlt. destruct (Rlt_dec db da) as [L|L].
  - exists b. split; [reflexivity|]. split; [now right|]. split; [exists db, da|exists db, db]; repeat split; try apply Da; try apply Db; lra.
  - exists a. split; [reflexivity|]. split; [now left|]. split; [exists da, da|exists da, db]; repeat split; try apply Da; try apply Db; lra.
Qed.
Lemma match_period_lemma lo m a b : exists m' a' b' w, mapAngle m (Some (lo, lo + 2 * PI)) ARad = Ok m' /\ mapAngle a (Some (lo, lo + 2 * PI)) ARad = Ok a' /\
  mapAngle b (Some (lo, lo + 2 * PI)) ARad = Ok b' /\ match_one m' a' b' = Ok w /\ lo <= w <= lo + 2 * PI /\ nearer_of m a b w.
Proof.
  assert (W : lo + 2 * PI - lo = 2 * PI) by ring.
  destruct (map_angle_lemma m lo _ ARad _ two_pi W) as (m' & Em & Bm & Sm & _). destruct (map_angle_lemma a lo _ ARad _ two_pi W) as (a' & Ea & Ba & Sa & _).
  destruct (map_angle_lemma b lo _ ARad _ two_pi W) as (b' & Eb & Bb & Sb & _).
  destruct (match_one_lemma m' a' b') as (w & Ew & Cw & NA & NB). { apply Rabs_le. lra. } { apply Rabs_le. lra. }
  exists m', a', b', w. repeat (split; [assumption|]). split; [destruct Cw; subst; lra|].
  split; [destruct Cw; subst; [now left|now right]|]. split.
  - destruct NA as (dw & dc & D1 & D2 & L). exists dw, dc. split; [exact (circle_distance_turns_l _ _ _ _ Sm D1)|]. split; [|exact L]. eapply circle_distance_turns; [exact Sa|]. exact (circle_distance_turns_l _ _ _ _ Sm D2).
  - destruct NB as (dw & dc & D1 & D2 & L). exists dw, dc. split; [exact (circle_distance_turns_l _ _ _ _ Sm D1)|]. split; [|exact L]. eapply circle_distance_turns; [exact Sb|]. exact (circle_distance_turns_l _ _ _ _ Sm D2).
Qed.
Lemma all_solved (l : list (R * option (R * R))) : (forall x, In x l -> snd x <> None) -> existsb (fun x => match snd x with None => true | Some _ => false end) l = false.
Proof.
  intros H. destruct (existsb _ l) eqn:E; auto. apply existsb_exists in E. destruct E as (x & I & Hx). specialize (H x I). destruct (snd x); [discriminate|congruence].
Qed.
Lemma match_omegas_period lo l : (forall x, In x l -> snd x <> None) ->
  exists ws, match_omegas (Some (lo, lo + 2 * PI)) l = Ok ws /\ Forall2 (fun x w => exists a b, snd x = Some (a, b) /\ lo <= w <= lo + 2 * PI /\ nearer_of (fst x) a b w) l ws.
Proof.
  intros H. unfold match_omegas. rewrite (all_solved l H). apply map_res_forall2. intros x I. specialize (H x I). destruct (snd x) as [[a b]|] eqn:E; [|congruence].
  destruct (match_period_lemma lo (fst x) a b) as (m' & a' & b' & w & Em & Ea & Eb & Ew & B & N). cbn [to_period]. rewrite Em. cbn [rbind]. rewrite Ea. cbn [rbind]. rewrite Eb. cbn [rbind].
  exists w. split; [exact Ew|]. exists a, b. auto.
Qed.
Lemma match_omegas_none period l : (exists x, In x l /\ snd x = None) -> match_omegas period l = Err RuntimeError.
Proof.
  intros (x & I & E). unfold match_omegas. replace (existsb _ l) with true; auto. symmetry. apply existsb_exists. exists x. rewrite E. auto.
Qed.

(** ** residuals *)
Lemma circle_distance_sym p a b d : circle_distance p a b d -> circle_distance p b a d.
Proof.
  intros [[k K] M]. split.
  - exists (- k)%Z. rewrite K, opp_IZR. rewrite <- Rabs_Ropp. f_equal. ring.
  - intros j. eapply Rle_trans; [apply (M (- j)%Z)|]. right. rewrite opp_IZR. rewrite <- Rabs_Ropp. f_equal. ring.
Qed.
Section Res.
Context {H : Type}.
Implicit Types p : @panel H.
Definition in_turn (lo : R) (m : xyo) : Prop := lo <= c_ome m <= lo + 2 * PI.
Lemma panel_calc_lemma lo p : (forall h m, In (h, m) (pa_obs p) -> pa_omes p h <> None /\ in_turn lo m) -> (forall h m w, In (h, m) (pa_obs p) -> pa_meets p h w <> None) ->
  exists calc, panel_calc (Some (lo, lo + 2 * PI)) p = Ok calc /\ (forall q, In q calc -> snd q <> None) /\
  exists ls, map_res one_residual calc = Ok ls /\ Forall2 (fun o l => residual_of p (fst o) (snd o) l) (pa_obs p) ls.
Proof.
  intros A B. unfold panel_calc.
  destruct (match_omegas_period lo (map (fun o => (c_ome (snd o), pa_omes p (fst o))) (pa_obs p))) as (ws & E & F).
  { intros x I. apply in_map_iff in I. destruct I as ([h m] & <- & I). cbn [fst snd]. apply (A h m I). }
  rewrite E. cbn [rbind]. eexists. split; [reflexivity|]. clear E. revert ws F A B. generalize (pa_obs p). induction l as [|[h m] t IH]; intros ws F A B.
  - inversion F; subst. split; [intros ? []|]. exists []. split; [reflexivity|constructor].
  - cbn [map] in F. inversion F as [|x w ? ws' Fx Fs]; subst. cbn [fst snd] in Fx. destruct Fx as (a & b & Eo & Bw & N).
    destruct (IH ws' Fs) as (I1 & ls & I2 & I3); [intros; apply A; now right|intros; eapply B; right; eauto|].
    destruct (pa_meets p h w) as [[x y]|] eqn:M; [|exfalso; apply (B h m w (or_introl eq_refl) M)].
    destruct (A h m (or_introl eq_refl)) as [_ T]. destruct (diff_lemma w (c_ome m) ARad _ two_pi) as (d & Ed & Dd). { apply Rabs_le. unfold in_turn in T. lra. }
    split.
    + cbn [combine map]. intros q [<-|I]; [cbn [snd]; rewrite M; discriminate|]. apply I1. exact I.
    + cbn [combine map map_res one_residual]. cbn [c_ome]. rewrite Ed. cbn [rbind]. rewrite M, I2. cbn [rbind c_x c_y]. eexists. split; [reflexivity|]. constructor; [|exact I3].
      exists a, b, w, x, y, d. cbn [fst snd]. auto.
Qed.
Lemma map_res_app {A B} (f : A -> result B) l k x y : map_res f l = Ok x -> map_res f k = Ok y -> map_res f (l ++ k) = Ok (x ++ y).
Proof.
  revert x. induction l as [|a t IH]; intros x E F; cbn [map_res app] in *; [injection E as <-; exact F|].
  destruct (f a); [|discriminate]. cbn [rbind] in *. destruct (map_res f t); [|discriminate]. cbn [rbind] in *. injection E as <-. rewrite (IH _ eq_refl F). reflexivity.
Qed.
Lemma residuals_lemma lo ps : (exists p, In p ps /\ pa_obs p <> []) ->
  (forall p h m, In p ps -> In (h, m) (pa_obs p) -> pa_omes p h <> None /\ in_turn lo m) -> (forall p h m w, In p ps -> In (h, m) (pa_obs p) -> pa_meets p h w <> None) ->
  exists ls, residuals (Some (lo, lo + 2 * PI)) ps = Ok (concat ls) /\
  Forall2 (fun o l => residual_of (fst o) (fst (snd o)) (snd (snd o)) l) (flat_map (fun p => map (fun o => (p, o)) (pa_obs p)) ps) ls.
Proof.
  intros (p0 & I0 & N0) A B. unfold residuals. set (used := filter _ ps).
  assert (U : forall p, In p used -> In p ps) by (intros p I; apply filter_In in I; tauto).
  assert (U0 : used <> []).
  { intros Z. assert (I : In p0 used); [|rewrite Z in I; destruct I]. apply filter_In. split; auto. destruct (pa_obs p0); [congruence|reflexivity]. }
  assert (X : exists calc, map_res (panel_calc (Some (lo, lo + 2 * PI))) used = Ok calc /\ length calc = length used /\ (forall c q, In c calc -> In q c -> snd q <> None) /\
    exists ls, map_res one_residual (concat calc) = Ok ls /\ Forall2 (fun o l => residual_of (fst o) (fst (snd o)) (snd (snd o)) l) (flat_map (fun p => map (fun o => (p, o)) (pa_obs p)) used) ls).
  { clear U0. clearbody used. induction used as [|p t IH]; [exists []; split; [reflexivity|split; [reflexivity|split; [intros ? ? []|exists []; split; [reflexivity|constructor]]]]|].
    destruct (panel_calc_lemma lo p) as (c & Ec & Nc & l1 & E1 & F1). { intros; eapply A; eauto; apply U; now left. } { intros; eapply B; eauto; apply U; now left. }
    destruct IH as (cs & Ecs & Lcs & Ncs & l2 & E2 & F2); [intros; apply U; now right|].
    exists (c :: cs). cbn [map_res]. rewrite Ec. cbn [rbind]. rewrite Ecs. cbn [rbind length concat flat_map]. split; [reflexivity|]. split; [lia|]. split.
    - intros c' q [<-|I]; [apply Nc|]. apply Ncs. exact I.
    - exists (l1 ++ l2). split; [apply map_res_app; auto|]. apply Forall2_app; [|exact F2]. clear - F1. induction F1; cbn [map]; constructor; auto. }
  destruct X as (calc & -> & L & N & ls & E & F). cbn [rbind]. destruct (rev calc) as [|l r] eqn:R.
  { exfalso. apply U0. apply (f_equal (@List.length _)) in R. rewrite rev_length in R. destruct used; auto. cbn in *. lia. }
  assert (Il : In l calc) by (apply in_rev; rewrite R; now left). replace (existsb _ l) with false.
  2:{ symmetry. destruct (existsb _ l) eqn:Z; auto. apply existsb_exists in Z. destruct Z as (q & Iq & Hq). specialize (N l q Il Iq). destruct (snd q); [discriminate|congruence]. }
  rewrite E. cbn [rbind]. exists ls. split; [reflexivity|].
  replace (flat_map (fun p => map (fun o => (p, o)) (pa_obs p)) ps) with (flat_map (fun p => map (fun o => (p, o)) (pa_obs p)) used); [exact F|].
  clear. unfold used. induction ps as [|p t IH]; [reflexivity|]. cbn [filter flat_map]. destruct (pa_obs p) eqn:O; cbn [length Nat.eqb negb]; [exact IH|]. cbn [flat_map]. rewrite O, IH. reflexivity.
Qed.
End Res.

(** chi squared *)
Lemma osum_sq l : osum (map osq (map (@Some R) l)) = Some (sumsq l).
Proof. induction l as [|x t IH]; [reflexivity|]. cbn [map osq]. unfold osum in *. cbn [fold_right]. rewrite IH. reflexivity. Qed.
Lemma sumsq_pos l : 0 <= sumsq l.
Proof. induction l as [|x t IH]; cbn [sumsq fold_right]; [lra|]. unfold sumsq in IH. nra. Qed.
Lemma sumsq_zero l : sumsq l = 0 <-> Forall (fun x => x = 0) l.
Proof.
  induction l as [|x t IH]; split; intros H; [constructor|reflexivity| |]; cbn [sumsq fold_right] in *; fold (sumsq t) in *; pose proof (sumsq_pos t) as S0.
  - assert (x * x = 0) by nra. constructor; [nra|]. apply IH. nra.
  - inversion H as [|? ? Hx Ht]; subst. apply IH in Ht. rewrite Ht. ring.
Qed.
