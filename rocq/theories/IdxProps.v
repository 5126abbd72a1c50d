(** Theorems about the scoring of trial orientations (paintGrid). *)
From Coq Require Import Reals Lra Permutation Sorted.
From Verif Require Import Prelude Lin RotModel RotProofs2 XfModel UcModel IdxModel IdxSpec IdxProofs IdxMore IdxScore.
Local Open Scope R_scope.
Local Notation length := List.length.

(** ** C100: the ranges of angles *)
(** an angle is accepted exactly if it is in one of the ranges, whatever the turn *)
Theorem C100_membership : forall ranges offset spans, normalize_ranges ranges offset false = Ok spans -> clear_cut ranges -> separate ranges ->
  forall angle, exists m, find_in_range (map_angle angle offset) spans = Ok m /\ (Z.odd m = true <-> in_arcs ranges angle).
Proof. exact normalize_ok. Qed.
(** one or two ranges are always taken *)
Theorem C100_one_or_two : forall ranges offset, (length ranges = 1 \/ length ranges = 2)%nat -> (forall r, In r ranges -> fst r < snd r) -> exists spans, normalize_ranges ranges offset false = Ok spans.
Proof. exact one_or_two. Qed.
(** four or more ranges never are, unless one of them is the full circle *)
Theorem C100_four_refuted : forall ranges offset, (4 <= length ranges)%nat -> (forall r, In r ranges -> fst r < snd r /\ snd r - fst r <= 2 * PI - / 10 ^ 8) -> normalize_ranges ranges offset false = Err ValueError.
Proof. exact four_ranges. Qed.
Lemma pi_3 : 3 < PI. Proof. pose proof PI2_3_2. lra. Qed.
Ltac turn := rewrite map_angle_id by (pose proof pi_3; cbn [fst snd]; lra).
Lemma tiny : / 10 ^ 8 < 1 / 2. Proof. apply Rle_lt_trans with (/ 10); [|lra]. apply Rinv_le_contravar; [lra|]. replace 10 with (10 ^ 1) at 1 by ring. apply Rle_pow; [lra|lia]. Qed.
Lemma gap : forall r q a, fst r < snd r -> snd r <= fst q -> fst q < snd q -> snd q <= fst r + 6 -> ~ (in_arc r a /\ in_arc q a).
Proof.
  intros r q a A B C D [[k K] [n N]]. pose proof pi_3. assert (E : 2 * PI * IZR (n - k) = (a + 2 * PI * IZR n) - (a + 2 * PI * IZR k)) by (rewrite minus_IZR; ring). destruct (IZR_bounds (n - k)) as [Q|[Q|[Q|Q]]].
  - assert (IZR (n - k) <= -1) by (apply IZR_le; lia). assert (2 * PI * IZR (n - k) <= 2 * PI * -1) by (apply Rmult_le_compat_l; lra). lra.
  - rewrite Q in E. lra.
  - rewrite Q in E. lra.
  - assert (2 <= IZR (n - k)) by (apply IZR_le; lia). assert (2 * PI * 2 <= 2 * PI * IZR (n - k)) by (apply Rmult_le_compat_l; lra). lra.
Qed.
Lemma apart_sym : forall r q a, ~ (in_arc r a /\ in_arc q a) -> ~ (in_arc q a /\ in_arc r a). Proof. tauto. Qed.
(** three separate ranges are refused when they do not come in ascending order *)
Theorem C100_three_refuted : exists ranges, clear_cut ranges /\ separate ranges /\ normalize_ranges ranges 0 false = Err ValueError /\ exists spans, normalize_ranges (rev ranges) 0 false = Ok spans.
Proof.
  pose proof pi_3 as P3. pose proof tiny as TY. exists [(4, 5); (2, 3); (0, 1)]. split; [|split; [|split]].
  - intros r [<-|[<-|[<-|[]]]]; cbn [fst snd]; split; lra.
  - constructor; [repeat constructor; intros a; apply apart_sym, gap; cbn [fst snd]; lra|]. constructor; [repeat constructor; intros a; apply apart_sym, gap; cbn [fst snd]; lra|]. constructor; [constructor|constructor].
  - destruct (normalize_shape [(4, 5); (2, 3); (0, 1)] 0) as [(s & E & r & I & X)|(_ & s & E)]; [intros r [<-|[<-|[<-|[]]]]; cbn [fst snd]; lra|discriminate|exfalso; destruct I as [<-|[<-|[<-|[]]]]; cbn [fst snd] in X; lra|]. rewrite E.
    unfold no_overlap. cbn [map skipn length Nat.sub firstn all_greater nrm fst snd]. do 3 turn. cbn [forallb]. replace (Rltb 5 2) with false; [reflexivity|]. unfold Rltb. destruct (Rlt_dec 5 2); [lra|reflexivity].
  - cbn [rev app]. destruct (normalize_shape [(0, 1); (2, 3); (4, 5)] 0) as [(s & E & _)|(_ & s & E)]; [intros r [<-|[<-|[<-|[]]]]; cbn [fst snd]; lra|discriminate|eauto|]. exists s. rewrite E.
    unfold no_overlap. cbn [map skipn length Nat.sub firstn all_greater nrm fst snd]. do 3 turn. cbn [forallb]. unfold Rltb. destruct (Rlt_dec 1 2); [|lra]. destruct (Rlt_dec 1 4); [reflexivity|lra].
Qed.
(** two overlapping ranges are taken, and angles inside them are refused *)
Theorem C100_overlap_refuted : exists ranges spans angle m, clear_cut ranges /\ normalize_ranges ranges 0 false = Ok spans /\ in_arcs ranges angle /\ find_in_range (map_angle angle 0) spans = Ok m /\ Z.odd m = false.
Proof.
  pose proof pi_3 as P3. pose proof tiny as TY. exists [(0, 3); (1, 2)], [0; 3; 1; 2], (5 / 2), (-2)%Z. split; [|split; [|split; [|split]]].
  - intros r [<-|[<-|[]]]; cbn [fst snd]; split; lra.
  - unfold normalize_ranges. cbv zeta iota. rewrite forallb_lt by (intros r [<-|[<-|[]]]; cbn [fst snd]; lra). cbn [negb existsb fst snd]. unfold Rltb. destruct (Rlt_dec (0 + 2 * PI) (3 + / 10 ^ 8)); [lra|]. destruct (Rlt_dec (1 + 2 * PI) (2 + / 10 ^ 8)); [lra|]. cbn [orb map fst snd]. do 4 turn.
    unfold sort_ranges. cbn [fold_right insert_range fst snd]. destruct (Rle_dec 0 1); [|lra]. cbn [ravel flat_map app rev fst snd]. destruct (Rlt_dec 2 1); [lra|]. reflexivity.
  - exists (0, 3). split; [now left|]. exists 0%Z. cbn [fst snd]. lra.
  - turn. cbn [find_in_range last]. destruct (Rlt_dec (5 / 2) 0); [lra|]. destruct (Rle_dec 2 (5 / 2)); [reflexivity|lra].
  - reflexivity.
Qed.
(** ** C101: one predicted spot *)
Definition eta_ranges_of (arg : option (list (R * R))) : list (R * R) := match arg with Some r => r | None => [(- PI, PI)] end.
(** without a range: from the first to the last edge of the maps *)
Definition ome_ranges_of (arg : option (list (R * R))) (edges : list R) : list (R * R) := match arg with Some r => r | None => [(nth 0 edges 0, nth (length edges - 1) edges 0)] end.
Lemma least_hd : forall l, ascending l -> l <> [] -> least l = nth 0 l 0.
Proof.
  intros [|x l] A NE; [now elim NE|]. unfold least. cbn [hd nth]. assert (B : forall y, In y (x :: l) -> x <= y). { intros y Y. destruct (In_nth _ _ 0 Y) as (k & K & <-). apply (A 0%nat k). lia. }
  revert B. generalize (x :: l). clear. intros l. induction l as [|y l IH]; intros B; cbn [fold_right]; [reflexivity|]. rewrite IH by (intros z Z; apply B; now right). specialize (B y (or_introl eq_refl)). unfold Rmin. destruct (Rle_dec y x); lra.
Qed.
Lemma greatest_last : forall l, ascending l -> l <> [] -> greatest l = nth (length l - 1) l 0.
Proof.
  intros l A NE. set (b := nth (length l - 1) l 0). assert (LB : length l <> 0%nat) by (destruct l; [now elim NE|discriminate]).
  assert (UB : forall y, In y l -> y <= b). { intros y Y. destruct (In_nth _ _ 0 Y) as (k & K & <-). apply A. lia. }
  assert (IB : In b l) by (apply nth_In; lia). unfold greatest. assert (H0 : hd 0 l <= b) by (apply UB; destruct l; [now elim NE|now left]). generalize dependent (hd 0 l). intros d. clearbody b. clear A NE LB. revert IB UB d.
  assert (G : forall l d, d <= b -> (forall y, In y l -> y <= b) -> fold_right Rmax d l <= b). { clear. induction l as [|y l IH]; intros d D U; cbn [fold_right]; [assumption|]. apply Rmax_lub; [apply U; now left|apply IH; [assumption|intros; apply U; now right]]. }
  induction l as [|y l IH]; intros IB UB d D; [destruct IB|]. cbn [fold_right]. assert (GL : fold_right Rmax d l <= b) by (apply G; [assumption|intros; apply UB; now right]). destruct IB as [->|IB].
  - apply Rmax_left. exact GL. - rewrite IH by (try assumption; intros; apply UB; now right). apply Rmax_right. apply UB. now left.
Qed.
Lemma params_ok : forall m thr omeR etaR omeTol etaTol period p, paint_params m thr omeR etaR omeTol etaTol period = Ok p -> ascending (mp_ome_edges m) -> mp_ome_edges m <> [] ->
  exists t, thresholds thr (mp_data m) = Ok t /\ p = Par (p_eta_spans p) (p_ome_spans p) (mp_eta_edges m) (mp_ome_edges m) (least period) (mp_data m) (dilation etaTol (mp_eta_edges m)) (dilation omeTol (mp_ome_edges m)) t /\
  normalize_ranges (eta_ranges_of etaR) (- PI) false = Ok (p_eta_spans p) /\ normalize_ranges (ome_ranges_of omeR (mp_ome_edges m)) (least period) false = Ok (p_ome_spans p).
Proof.
  intros m thr omeR etaR omeTol etaTol period p H A NE. unfold paint_params in H. cbv zeta in H. destruct (thresholds thr (mp_data m)) as [t|]; cbn [rbind] in H; [|discriminate].
  rewrite (least_hd _ A NE), (greatest_last _ A NE) in H. fold (eta_ranges_of etaR) (ome_ranges_of omeR (mp_ome_edges m)) in H.
  destruct (normalize_ranges (eta_ranges_of etaR) (- PI) false) as [se|]; cbn [rbind] in H; [|discriminate]. destruct (normalize_ranges (ome_ranges_of omeR (mp_ome_edges m)) (least period) false) as [so|]; cbn [rbind] in H; [|discriminate]. injection H as <-. exists t. now repeat split.
Qed.
(** the pixels that a prediction for map [hkl] may use, and what they show *)
Definition around (m : maps) (t : list (option R)) (deta dome hkl e o : nat) (s : sight) : Prop :=
  let data := nth hkl (mp_data m) [] in shows (near o e dome deta (length data) (length (mp_eta_edges m) - 1)) (fun i j => nth j (nth i data []) None) (nth hkl t None) s.
Lemma verdict_core : forall m thr omeR etaR omeTol etaTol period p, paint_params m thr omeR etaR omeTol etaTol period = Ok p ->
  ascending (mp_eta_edges m) -> mp_eta_edges m <> [] -> ascending (mp_ome_edges m) -> mp_ome_edges m <> [] ->
  clear_cut (eta_ranges_of etaR) -> separate (eta_ranges_of etaR) -> clear_cut (ome_ranges_of omeR (mp_ome_edges m)) -> separate (ome_ranges_of omeR (mp_ome_edges m)) ->
  exists t, thresholds thr (mp_data m) = Ok t /\
  forall hkl ang, exists v, angle_is_hit p hkl ang = Ok v /\
    verdict (eta_ranges_of etaR) (ome_ranges_of omeR (mp_ome_edges m)) (mp_eta_edges m) (mp_ome_edges m) (least period)
      (around m t (dilation etaTol (mp_eta_edges m)) (dilation omeTol (mp_ome_edges m)) hkl) (o_tth ang) (o_eta ang) (o_ome ang) v.
Proof.
  intros m thr omeR etaR omeTol etaTol period p H AE NE AO NO CE SE CO SO. destruct (params_ok _ _ _ _ _ _ _ _ H AO NO) as (t & T & E & N1 & N2). exists t. split; [exact T|]. intros hkl ang.
  pose proof (hit_ok p (eta_ranges_of etaR) (ome_ranges_of omeR (mp_ome_edges m)) hkl ang) as K. rewrite E in K. unfold sees in K. cbn [p_eta_spans p_ome_spans p_eta_edges p_ome_edges p_ome_offset p_maps p_dpix_eta p_dpix_ome p_threshold] in K. rewrite E. apply K; try assumption.
  - intros a. exact (normalize_ok _ _ _ N1 CE SE a). - intros a. exact (normalize_ok _ _ _ N2 CO SO a).
Qed.
Lemma least_ok : forall l, l <> [] -> smallest l (least l).
Proof.
  intros l NE. unfold least. assert (G : forall l d, (In (fold_right Rmin d l) l \/ fold_right Rmin d l = d) /\ fold_right Rmin d l <= d /\ forall y, In y l -> fold_right Rmin d l <= y).
  { clear. induction l as [|y l IH]; intros d; cbn [fold_right]; [split; [now right|split; [lra|intros ? []]]|]. destruct (IH d) as (A & B & C). split; [|split].
    - unfold Rmin. destruct (Rle_dec y (fold_right (fun x y0 => if Rle_dec x y0 then x else y0) d l)); [left; now left|]. destruct A as [A|A]; [left; now right|now right].
    - eapply Rle_trans; [apply Rmin_r|exact B].
    - intros z [<-|Z]; [apply Rmin_l|eapply Rle_trans; [apply Rmin_r|now apply C]]. }
  destruct (G l (hd 0 l)) as (A & _ & C). split; [|exact C]. destruct A as [A|A]; [assumption|]. rewrite A. destruct l; [now elim NE|now left].
Qed.
Lemma rint_near : forall x, Rabs (IZR (rint x) - x) <= / 2.
Proof.
  intros x. unfold rint. pose proof (base_Int_part x) as [A B]. cbv zeta. destruct (Rlt_dec _ _); [apply Rabs_le; lra|]. destruct (Rlt_dec _ _); [rewrite plus_IZR; apply Rabs_le; lra|]. destruct (Z.even _); [apply Rabs_le; lra|rewrite plus_IZR; apply Rabs_le; lra].
Qed.
Lemma dilation_ok : forall tol edges, 0 <= tol -> nth 0 edges 0 <> nth 1 edges 0 -> steps tol edges (dilation tol edges).
Proof.
  intros tol edges T N. unfold steps, dilation. set (x := tol / Rabs (nth 1 edges 0 - nth 0 edges 0)). assert (X : 0 <= x) by (apply Rmult_le_pos; [assumption|left; apply Rinv_0_lt_compat; apply Rabs_pos_lt; lra]).
  pose proof (rint_near x) as R1. assert (P : (0 <= rint x)%Z). { apply Rabs_le_inv in R1 || (apply Rabs_def2 in R1 || idtac). destruct (Z.le_gt_cases 0 (rint x)) as [C|C]; [assumption|]. exfalso. assert (IZR (rint x) <= -1) by (apply IZR_le; lia). pose proof (rint_near x) as R2. unfold Rabs in R2. destruct (Rcase_abs _); lra. }
  rewrite INR_IZR_INZ, Z2Nat.id by assumption. apply rint_near.
Qed.
(** every prediction gets the verdict that the ranges, the edges and the window call for *)
Theorem C101_verdict : forall m thr omeR etaR omeTol etaTol period p, paint_params m thr omeR etaR omeTol etaTol period = Ok p ->
  ascending (mp_eta_edges m) -> nth 0 (mp_eta_edges m) 0 <> nth 1 (mp_eta_edges m) 0 -> ascending (mp_ome_edges m) -> nth 0 (mp_ome_edges m) 0 <> nth 1 (mp_ome_edges m) 0 -> 0 <= omeTol -> 0 <= etaTol -> period <> [] ->
  clear_cut (eta_ranges_of etaR) -> separate (eta_ranges_of etaR) -> clear_cut (ome_ranges_of omeR (mp_ome_edges m)) -> separate (ome_ranges_of omeR (mp_ome_edges m)) ->
  exists t deta dome start, thresholds thr (mp_data m) = Ok t /\ steps etaTol (mp_eta_edges m) deta /\ steps omeTol (mp_ome_edges m) dome /\ smallest period start /\
  forall hkl ang, exists v, angle_is_hit p hkl ang = Ok v /\
    verdict (eta_ranges_of etaR) (ome_ranges_of omeR (mp_ome_edges m)) (mp_eta_edges m) (mp_ome_edges m) start (around m t deta dome hkl) (o_tth ang) (o_eta ang) (o_ome ang) v.
Proof.
  intros m thr omeR etaR omeTol etaTol period p H AE NE AO NO T1 T2 NP CE SE CO SO. destruct (verdict_core _ _ _ _ _ _ _ _ H AE ltac:(intros C; rewrite C in NE; now elim NE) AO ltac:(intros C; rewrite C in NO; now elim NO) CE SE CO SO) as (t & T & V).
  exists t, (dilation etaTol (mp_eta_edges m)), (dilation omeTol (mp_ome_edges m)), (least period). split; [exact T|]. split; [now apply dilation_ok|]. split; [now apply dilation_ok|]. split; [now apply least_ok|exact V].
Qed.
(** the verdict is determined by these *)
Theorem C101_unique : forall m t deta dome hkl etaR omeR period tth eta ome v w, ascending (mp_eta_edges m) -> ascending (mp_ome_edges m) ->
  verdict etaR omeR (mp_eta_edges m) (mp_ome_edges m) period (around m t deta dome hkl) tth eta ome v -> verdict etaR omeR (mp_eta_edges m) (mp_ome_edges m) period (around m t deta dome hkl) tth eta ome w -> v = w.
Proof. intros m t deta dome hkl etaR omeR period tth eta ome v w AE AO. apply verdict_unique; [assumption|assumption|]. intros e o s s'. unfold around. apply shows_unique. Qed.
(** ** C102: the window *)
(** where no pixel of the window is NaN: a hit exactly if one of them is bright *)
Theorem C102_window : forall e o deta dome m cols t, (forall i j, near o e dome deta (length m) cols i j -> nth j (nth i m []) None <> None) ->
  (check_dilated e o deta dome m cols t = 1%Z <-> exists i j, near o e dome deta (length m) cols i j /\ bright t (nth j (nth i m []) None)) /\
  (check_dilated e o deta dome m cols t = 1%Z \/ check_dilated e o deta dome m cols t = 0%Z).
Proof.
  intros e o deta dome m cols t H. destruct (dilated_shows e o deta dome m cols t) as (s & E & SH). rewrite E. destruct s; cbn [shows code] in *.
  - split; [|now left]. split; [intros _|reflexivity]. destruct SH as (i & j & (N & _) & B). exists i, j. now split.
  - split; [|now right]. split; [discriminate|]. intros (i & j & N & B). now elim (proj1 (SH i j N)).
  - exfalso. destruct SH as (i & j & (N & _) & B). exact (H i j N B).
Qed.
(** with NaN the answer depends on the order: a NaN before the first bright pixel hides it, one after it does not *)
Theorem C102_nan : forall e o deta dome m cols t, exists s, check_dilated e o deta dome m cols t = match s with Hit => 1 | Miss => 0 | Unknown => -1 end%Z /\ shows (near o e dome deta (length m) cols) (fun i j => nth j (nth i m []) None) t s.
Proof. exact dilated_shows. Qed.
(** the window is cut at the end of the eta axis: a bright pixel just across eta = pi is not seen, though it is within the tolerance *)
Theorem C102_seam_refuted : exists row t, (forall j, nth j row None = Some 0 \/ nth j row None = Some 1 \/ (4 <= j)%nat) /\ bright t (nth 0 row None) /\ check_dilated 3 0 1 0 [row] 4 t = 0%Z.
Proof.
  exists [Some 1; Some 0; Some 0; Some 0], (Some (/ 2)). split; [|split].
  - intros [|[|[|[|j]]]]; cbn [nth]; auto. right. right. lia.
  - exists (/ 2), 1. split; [reflexivity|]. split; [reflexivity|lra].
  - unfold check_dilated, window. cbn [length Nat.sub Nat.add Nat.min seq flat_map map app]. unfold map_at. cbn [nth scan greater]. unfold Rltb. destruct (Rlt_dec (/ 2) 0); [lra|]. reflexivity.
Qed.
(** ** C103: the score of an orientation *)
(** the two solutions for every symmetric reflection of every family *)
Definition predictions (m : maps) (quat : q4) : list (list (oang * oang)) :=
  map (fun star => map solution_rows (oscill_angles_of_hkls star 0 (rotMatOfQuat quat) (mp_bmat m) (mp_wavelength m) None (V3 0 0 (-1)) (V3 1 0 0))) (mp_stars m).
Lemma score_core : forall m thr omeR etaR omeTol etaTol period p quat, paint_params m thr omeR etaR omeTol etaTol period = Ok p ->
  ascending (mp_eta_edges m) -> mp_eta_edges m <> [] -> ascending (mp_ome_edges m) -> mp_ome_edges m <> [] ->
  clear_cut (eta_ranges_of etaR) -> separate (eta_ranges_of etaR) -> clear_cut (ome_ranges_of omeR (mp_ome_edges m)) -> separate (ome_ranges_of omeR (mp_ome_edges m)) ->
  mp_stars m <> [] -> (forall star, In star (mp_stars m) -> star <> []) ->
  exists t verdicts, thresholds thr (mp_data m) = Ok t /\
    Forall2 (fun (na : nat * oang) v => verdict (eta_ranges_of etaR) (ome_ranges_of omeR (mp_ome_edges m)) (mp_eta_edges m) (mp_ome_edges m) (least period)
      (around m t (dilation etaTol (mp_eta_edges m)) (dilation omeTol (mp_ome_edges m)) (fst na)) (o_tth (snd na)) (o_eta (snd na)) (o_ome (snd na)) v) (numbered 0 (predictions m quat)) verdicts /\
    paint_this m p quat = Ok (ratio verdicts) /\ 0 <= ratio verdicts <= 1.
Proof.
  intros m thr omeR etaR omeTol etaTol period p quat H AE NE AO NO CE SE CO SO S0 SN. destruct (verdict_core _ _ _ _ _ _ _ _ H AE NE AO NO CE SE CO SO) as (t & T & V). exists t.
  assert (X : forall l : list (nat * oang), exists vs, Forall2 (judged p) l vs /\ Forall2 (fun (na : nat * oang) v => verdict (eta_ranges_of etaR) (ome_ranges_of omeR (mp_ome_edges m)) (mp_eta_edges m) (mp_ome_edges m) (least period)
      (around m t (dilation etaTol (mp_eta_edges m)) (dilation omeTol (mp_ome_edges m)) (fst na)) (o_tth (snd na)) (o_eta (snd na)) (o_ome (snd na)) v) l vs).
  { induction l as [|[n a] l (vs & F1 & F2)]; [exists []; split; constructor|]. destruct (V n a) as (v & E & W). exists (v :: vs). split; constructor; assumption. }
  destruct (X (numbered 0 (predictions m quat))) as (vs & F1 & F2). exists vs. split; [exact T|]. split; [exact F2|]. split.
  - unfold paint_this. replace (map solution_rows (oscill_angles_of_hkls (concat (mp_stars m)) 0 (rotMatOfQuat quat) (mp_bmat m) (mp_wavelength m) None (V3 0 0 (-1)) (V3 1 0 0))) with (concat (predictions m quat)).
    + apply score_ok; [|assumption|assumption|assumption]. unfold predictions. clear. induction (mp_stars m) as [|s l IH]; [constructor|]. cbn [map]. constructor; [unfold oscill_angles_of_hkls; now rewrite !map_length|exact IH].
    + unfold predictions, oscill_angles_of_hkls. clear. cbv zeta. induction (mp_stars m) as [|s l IH]; [reflexivity|]. cbn [map concat]. rewrite !map_app, IH. reflexivity.
  - apply ratio_bounds. clear - F2. induction F2 as [|x v l vs W F IH]; [intros ? []|]. intros y [<-|Y]; [exact (verdict_range _ _ _ _ _ _ _ _ _ _ W)|now apply IH].
Qed.
(** hits over counted predictions, each family looked up in its own map *)
Theorem C103_score : forall m thr omeR etaR omeTol etaTol period p quat, paint_params m thr omeR etaR omeTol etaTol period = Ok p ->
  ascending (mp_eta_edges m) -> nth 0 (mp_eta_edges m) 0 <> nth 1 (mp_eta_edges m) 0 -> ascending (mp_ome_edges m) -> nth 0 (mp_ome_edges m) 0 <> nth 1 (mp_ome_edges m) 0 -> 0 <= omeTol -> 0 <= etaTol -> period <> [] ->
  clear_cut (eta_ranges_of etaR) -> separate (eta_ranges_of etaR) -> clear_cut (ome_ranges_of omeR (mp_ome_edges m)) -> separate (ome_ranges_of omeR (mp_ome_edges m)) ->
  mp_stars m <> [] -> (forall star, In star (mp_stars m) -> star <> []) ->
  exists t deta dome start verdicts, thresholds thr (mp_data m) = Ok t /\ steps etaTol (mp_eta_edges m) deta /\ steps omeTol (mp_ome_edges m) dome /\ smallest period start /\
    Forall2 (fun (na : nat * oang) v => verdict (eta_ranges_of etaR) (ome_ranges_of omeR (mp_ome_edges m)) (mp_eta_edges m) (mp_ome_edges m) start
      (around m t deta dome (fst na)) (o_tth (snd na)) (o_eta (snd na)) (o_ome (snd na)) v) (numbered 0 (predictions m quat)) verdicts /\
    paint_this m p quat = Ok (ratio verdicts) /\ 0 <= ratio verdicts <= 1.
Proof.
  intros m thr omeR etaR omeTol etaTol period p quat H AE NE AO NO T1 T2 NP CE SE CO SO S0 SN. destruct (score_core _ _ _ _ _ _ _ _ quat H AE ltac:(intros C; rewrite C in NE; now elim NE) AO ltac:(intros C; rewrite C in NO; now elim NO) CE SE CO SO S0 SN) as (t & vs & T & F & P).
  exists t, (dilation etaTol (mp_eta_edges m)), (dilation omeTol (mp_ome_edges m)), (least period), vs. split; [exact T|]. split; [now apply dilation_ok|]. split; [now apply dilation_ok|]. split; [now apply least_ok|]. split; [exact F|exact P].
Qed.
(** the thresholds: the number given for all maps, the numbers given, or the middle between mean and median of each map *)
Lemma all_values_ok : forall l r, all_values l = Some r <-> l = map Some r.
Proof.
  induction l as [|[x|] l IH]; intros r; cbn [all_values].
  - split; [intros H; now injection H as <-|intros H; destruct r; [reflexivity|discriminate]].
  - destruct (all_values l) as [l'|]; split; intros H.
    + injection H as <-. cbn [map]. f_equal. now apply IH.
    + destruct r as [|y r]; [discriminate|]. injection H as -> H. apply IH in H. now injection H as ->.
    + discriminate.
    + destruct r as [|y r]; [discriminate|]. injection H as _ H. apply IH in H. discriminate.
  - split; [discriminate|]. intros H. destruct r; discriminate.
Qed.
Lemma insert_value_perm : forall x l, Permutation (x :: l) (insert_value x l).
Proof. intros x l. induction l as [|y l IH]; cbn [insert_value]; [apply Permutation_refl|]. destruct (Rle_dec x y); [apply Permutation_refl|]. eapply Permutation_trans; [apply perm_swap|]. now constructor. Qed.
Lemma insert_value_sorted : forall x l, StronglySorted Rle l -> StronglySorted Rle (insert_value x l).
Proof.
  intros x l H. induction H as [|y l H IH F]; cbn [insert_value]; [repeat constructor|]. destruct (Rle_dec x y) as [C|C].
  - constructor; [constructor; assumption|]. constructor; [exact C|]. rewrite Forall_forall in *. intros z Z. specialize (F z Z). lra.
  - constructor; [assumption|]. rewrite Forall_forall in *. intros z Z. apply (Permutation_in z (Permutation_sym (insert_value_perm x l))) in Z. destruct Z as [<-|Z]; [lra|now apply F].
Qed.
Theorem C103_thresholds : forall thr data, match thr with
  | Scalar t => exists l, thresholds thr data = Ok l /\ length l = length data /\ forall i, (i < length data)%nat -> nth i l None = Some t
  | PerHkl ts => (length ts = length data -> exists l, thresholds thr data = Ok l /\ length l = length data /\ forall i, (i < length data)%nat -> nth i l None = Some (nth i ts 0)) /\ (length ts <> length data -> thresholds thr data = Err RuntimeError)
  | Auto => exists l, thresholds thr data = Ok l /\ length l = length data /\ forall i values, (i < length data)%nat -> concat (nth i data []) = map Some values -> values <> [] ->
      exists a b, is_mean values a /\ is_median values b /\ nth i l None = Some ((a + b) / 2)
  end.
Proof.
  intros [|t|ts] data; cbn [thresholds].
  - eexists. split; [reflexivity|]. split; [apply map_length|]. intros i values I E NV. exists (mean values), (median values). split; [|split].
    + unfold is_mean, mean, Rdiv, sum. rewrite Rmult_assoc, Rinv_l; [ring|]. apply not_0_INR. destruct values; [now elim NV|discriminate].
    + unfold median. cbv zeta. assert (G : Permutation values (fold_right insert_value [] values) /\ StronglySorted Rle (fold_right insert_value [] values)). { clear. induction values as [|x l [P S1]]; [split; constructor|]. cbn [fold_right]. split; [eapply Permutation_trans; [apply perm_skip; exact P|apply insert_value_perm]|now apply insert_value_sorted]. }
      destruct G as [P S1]. exists (fold_right insert_value [] values). split; [exact P|]. split; [now apply sorted_ascending|]. now rewrite (Permutation_length P).
    + set (g := fun m : list (list (option R)) => match all_values (concat m) with Some (v :: l) => Some ((mean (v :: l) + median (v :: l)) / 2) | _ => None end). change (@None R) with (g []) at 1. rewrite map_nth. unfold g. apply all_values_ok in E. rewrite E. destruct values; [now elim NV|reflexivity].
  - eexists. split; [reflexivity|]. split; [apply map_length|]. intros i I. rewrite (nth_indep _ None (Some t)) by (rewrite map_length; assumption). exact (map_nth (fun _ => Some t) data [] i).
  - split; intros H.
    + apply Nat.eqb_eq in H as H'. rewrite H'. eexists. split; [reflexivity|]. split; [now rewrite map_length|]. intros i I. rewrite (nth_indep _ None (Some 0)) by (rewrite map_length; lia). apply map_nth.
    + apply Nat.eqb_neq in H. now rewrite H.
Qed.
(** without a threshold argument, one NaN pixel in the map of a family means that the family never hits *)
Theorem C103_default_threshold_refuted : forall data hkl t, thresholds Auto data = Ok t -> In None (concat (nth hkl data [])) -> forall e o deta dome cols, check_dilated e o deta dome (nth hkl data []) cols (nth hkl t None) <> 1%Z.
Proof.
  intros data hkl t T N e o deta dome cols. assert (E : nth hkl t None = None).
  { cbn [thresholds] in T. injection T as <-. assert (A : all_values (concat (nth hkl data [])) = None) by (revert N; generalize (concat (nth hkl data [])); clear; induction l as [|[x|] l IH]; intros H; [destruct H|destruct H as [H|H]; [discriminate|cbn [all_values]; now rewrite IH]|reflexivity]).
    set (g := fun m : list (list (option R)) => match all_values (concat m) with Some (v :: l) => Some ((mean (v :: l) + median (v :: l)) / 2) | _ => None end). fold g. change (@None R) with (g []). rewrite map_nth. unfold g. now rewrite A. }
  rewrite E. destruct (dilated_shows e o deta dome (nth hkl data []) cols None) as (s & C & SH). rewrite C. destruct s; try discriminate. destruct SH as (i & j & _ & (a & b & X & _)). discriminate.
Qed.
(** a higher threshold never gives a higher score, if the maps have no NaN *)
Definition no_nan (m : maps) : Prop := forall hkl i j, (i < length (nth hkl (mp_data m) []))%nat -> (j < length (mp_eta_edges m) - 1)%nat -> nth j (nth i (nth hkl (mp_data m) []) []) None <> None.
Lemma mono_verdict : forall m t u deta dome hkl etaR omeR period tth eta ome v w, no_nan m -> ascending (mp_eta_edges m) -> ascending (mp_ome_edges m) -> t <= u ->
  verdict etaR omeR (mp_eta_edges m) (mp_ome_edges m) period (around m (map (fun _ => Some t) (mp_data m)) deta dome hkl) tth eta ome v ->
  verdict etaR omeR (mp_eta_edges m) (mp_ome_edges m) period (around m (map (fun _ => Some u) (mp_data m)) deta dome hkl) tth eta ome w -> snd v = snd w /\ (fst w <= fst v)%Z.
Proof.
  intros m t u deta dome hkl etaR omeR period tth eta ome v w NN AE AO TU V W. unfold verdict in *. cbv zeta in *. destruct V as [(e & o & s & VI & SE & ->)|[NV ->]], W as [(e' & o' & s' & VI' & SE' & ->)|[NW ->]]; [|now elim (NW e o)|now elim (NV e' o')|cbn; lia].
  destruct VI as (_ & x & X & _ & _ & F). destruct VI' as (_ & x' & X' & _ & _ & F'). assert (x = x') by congruence. subst x'. apply falls_ok in F, F'. destruct F as [F1 F2], F' as [F1' F2'].
  rewrite (in_bin_unique _ _ _ _ AE F1' F1), (in_bin_unique _ _ _ _ AO F2' F2) in SE'.
  assert (NB : forall i j, near o e dome deta (length (nth hkl (mp_data m) [])) (length (mp_eta_edges m) - 1) i j -> nth j (nth i (nth hkl (mp_data m) []) []) None <> None). { intros i j (A & B & _). now apply NN. }
  unfold around in *. cbv zeta in *. destruct s.
  - destruct s'; cbn [points fst snd]; try lia. exfalso. destruct SE' as (i & j & (N & _) & C). exact (NB i j N C).
  - destruct s'; cbn [points fst snd]; try lia; exfalso; [|destruct SE' as (i & j & (N & _) & C); exact (NB i j N C)]. destruct SE' as (i & j & (N & _) & (a & b & Y1 & Y2 & Y3)). apply (proj1 (SE i j N)). exists t, b. split; [|split; [exact Y2|]].
    + assert (Q : (hkl < length (mp_data m))%nat) by (destruct (Nat.lt_ge_cases hkl (length (mp_data m))) as [Q|Q]; [assumption|]; rewrite nth_overflow in Y1 by (rewrite map_length; lia); discriminate). rewrite (nth_indep _ None (Some t)) by (rewrite map_length; lia). exact (map_nth (fun _ => Some t) (mp_data m) [] hkl).
    + assert (Q : (hkl < length (mp_data m))%nat) by (destruct (Nat.lt_ge_cases hkl (length (mp_data m))) as [Q|Q]; [assumption|]; rewrite nth_overflow in Y1 by (rewrite map_length; lia); discriminate). rewrite (nth_indep _ None (Some u)) in Y1 by (rewrite map_length; lia). rewrite (map_nth (fun _ => Some u) (mp_data m) [] hkl) in Y1. injection Y1 as <-. lra.
  - exfalso. destruct SE as (i & j & (N & _) & C). exact (NB i j N C).
Qed.
Theorem C103_threshold : forall m t u omeR etaR omeTol etaTol period p q quat, paint_params m (Scalar t) omeR etaR omeTol etaTol period = Ok p -> paint_params m (Scalar u) omeR etaR omeTol etaTol period = Ok q ->
  ascending (mp_eta_edges m) -> mp_eta_edges m <> [] -> ascending (mp_ome_edges m) -> mp_ome_edges m <> [] ->
  clear_cut (eta_ranges_of etaR) -> separate (eta_ranges_of etaR) -> clear_cut (ome_ranges_of omeR (mp_ome_edges m)) -> separate (ome_ranges_of omeR (mp_ome_edges m)) ->
  mp_stars m <> [] -> (forall star, In star (mp_stars m) -> star <> []) -> no_nan m -> t <= u ->
  exists a b, paint_this m p quat = Ok a /\ paint_this m q quat = Ok b /\ b <= a.
Proof.
  intros m t u omeR etaR omeTol etaTol period p q quat HP HQ AE NE AO NO CE SE CO SO S0 SN NN TU.
  destruct (score_core _ _ _ _ _ _ _ _ quat HP AE NE AO NO CE SE CO SO S0 SN) as (t1 & v1 & T1 & F1 & E1 & B1). destruct (score_core _ _ _ _ _ _ _ _ quat HQ AE NE AO NO CE SE CO SO S0 SN) as (t2 & v2 & T2 & F2 & E2 & B2).
  exists (ratio v1), (ratio v2). split; [exact E1|]. split; [exact E2|]. cbn [thresholds] in T1, T2. injection T1 as <-. injection T2 as <-. clear E1 E2.
  assert (S1 : fold_right (fun v s => (snd v + s)%Z) 0%Z v2 = fold_right (fun v s => (snd v + s)%Z) 0%Z v1 /\ (fold_right (fun v s => (fst v + s)%Z) 0%Z v2 <= fold_right (fun v s => (fst v + s)%Z) 0%Z v1)%Z /\ (0 <= fold_right (fun v s => (snd v + s)%Z) 0%Z v1)%Z).
  { clear B1 B2. revert v2 F2. induction F1 as [|x v l vs W F IH]; intros v2 F2; inversion F2 as [|? w ? ws W' F']; subst; cbn [fold_right]; [lia|]. destruct (IH ws F') as (A & B & C). destruct (mono_verdict _ _ _ _ _ _ _ _ _ _ _ _ _ _ NN AE AO TU W W') as [D E]. pose proof (verdict_range _ _ _ _ _ _ _ _ _ _ W) as G. rewrite A, <- D. split; [reflexivity|]. split; [lia|]. destruct G as [-> | [-> | ->]]; cbn [snd]; lia. }
  destruct S1 as (A & B & C). unfold ratio. cbv zeta. rewrite A. destruct (Z.eqb_spec (fold_right (fun v s => (snd v + s)%Z) 0%Z v1) 0) as [Z|Z]; [lra|]. apply Rmult_le_compat_r; [left; apply Rinv_0_lt_compat; apply IZR_lt; lia|apply IZR_le; lia].
Qed.
(** ** C104: many processes *)
(** whatever the order in which the chunks are finished, the scores come in the order of the orientations *)
Theorem C104_any_order : forall {A B} (f : A -> B) size xs done, (0 < size)%nat -> (forall i, In i done <-> (i < number_of_chunks size (length xs))%nat) -> pool_map f size xs done = map (fun x => Some (f x)) xs.
Proof. intros A B. exact pool_ok. Qed.
(** enough orientations: the serial answer *)
Theorem C104_paint_partial : forall {A B} (f : A -> B) ncpus xs done, (0 < ncpus <= length xs)%nat -> Permutation done (seq 0 (number_of_chunks (paint_chunk (length xs) ncpus) (length xs))) -> pool_map f (paint_chunk (length xs) ncpus) xs done = map (fun x => Some (f x)) xs.
Proof.
  intros A B f ncpus xs done H P. apply C104_any_order.
  - unfold paint_chunk. assert (0 < length xs / ncpus)%nat by (apply Nat.div_str_pos; lia). lia.
  - intros i. split; intros I; [apply (Permutation_in _ P) in I; apply in_seq in I; lia|apply (Permutation_in _ (Permutation_sym P)); apply in_seq; lia].
Qed.
(** fewer orientations than processes: no scores at all *)
Theorem C104_few_refuted : forall {A B} (f : A -> B) ncpus xs done, (length xs < ncpus)%nat -> pool_map f (paint_chunk (length xs) ncpus) xs done = map (fun _ => None) xs.
Proof.
  intros A B f ncpus xs done H. unfold paint_chunk. rewrite Nat.div_small by assumption. cbn [Nat.min pool_map]. unfold pool_map. cbn [Nat.eqb]. clear H. induction xs as [|x xs IH]; [reflexivity|]. cbn [length repeat map]. now rewrite IH.
Qed.

(** *** cases that meet the hypotheses *)
Example ranges_example : clear_cut [(- 1, 1); (3, 5)] /\ separate [(- 1, 1); (3, 5)] /\ (exists spans, normalize_ranges [(- 1, 1); (3, 5)] 0 false = Ok spans) /\ in_arcs [(- 1, 1); (3, 5)] (4 + 2 * PI) /\ ~ in_arcs [(- 1, 1); (3, 5)] 2.
Proof.
  pose proof pi_3 as P3. pose proof tiny as TY. split; [intros r [<-|[<-|[]]]; cbn [fst snd]; split; lra|]. split; [constructor; [repeat constructor; intros a; apply gap; cbn [fst snd]; lra|constructor; constructor]|].
  split; [apply C100_one_or_two; [now right|intros r [<-|[<-|[]]]; cbn [fst snd]; lra]|]. split; [exists (3, 5); split; [right; now left|exists (-1)%Z; cbn [fst snd]; lra]|].
  intros (r & I & K). assert (Q : in_arc (1, 3) 2) by (exists 0%Z; cbn [fst snd]; lra). destruct I as [<-|[<-|[]]]; [apply (gap (- 1, 1) (1, 3) 2); [cbn [fst snd]; lra ..|now split]|apply (gap (1, 3) (3, 5) 2); [cbn [fst snd]; lra ..|now split]].
Qed.
Definition a_maps : maps := Maps [[V3 1 0 0; V3 (-1) 0 0]; [V3 0 1 0]] [[[Some 1; Some 0]; [Some 2; Some 3]]; [[Some 0; Some 0]; [Some 5; Some 1]]] [- 3; 0; 3] [0; 1; 2] (1 / 2) mI.
Example score_example : exists p, paint_params a_maps (Scalar 1) (Some [(0, 1)]) None 0 0 [0; 2 * PI] = Ok p /\ ascending (mp_eta_edges a_maps) /\ ascending (mp_ome_edges a_maps) /\ nth 0 (mp_eta_edges a_maps) 0 <> nth 1 (mp_eta_edges a_maps) 0 /\ nth 0 (mp_ome_edges a_maps) 0 <> nth 1 (mp_ome_edges a_maps) 0 /\ clear_cut (eta_ranges_of None) /\ separate (eta_ranges_of None) /\
  clear_cut (ome_ranges_of (Some [(0, 1)]) (mp_ome_edges a_maps)) /\ separate (ome_ranges_of (Some [(0, 1)]) (mp_ome_edges a_maps)) /\ (forall star, In star (mp_stars a_maps) -> star <> []) /\ no_nan a_maps.
Proof.
  pose proof pi_3 as P3. pose proof tiny as TY. destruct (C100_one_or_two [(0, 1)] (least [0; 2 * PI])) as [so SO]; [now left|intros r [<-|[]]; cbn [fst snd]; lra|]. destruct (C100_one_or_two [(- PI, PI)] (- PI)) as [se SE]; [now left|intros r [<-|[]]; cbn [fst snd]; lra|].
  eexists. split; [unfold paint_params; cbn [thresholds rbind]; rewrite SE; cbn [rbind]; rewrite SO; cbn [rbind]; reflexivity|].
  assert (AS : forall a b c, a <= b -> b <= c -> ascending [a; b; c]). { intros a b c H1 H2 i j K. cbn [length] in K. destruct i as [|[|[|i]]], j as [|[|[|j]]]; cbn [nth]; lra || lia. }
  split; [apply AS; lra|]. split; [apply AS; lra|]. split; [cbn; lra|]. split; [cbn; lra|]. split; [intros r [<-|[]]; cbn [fst snd]; split; [lra|left; lra]|]. split; [repeat constructor|]. split; [intros r [<-|[]]; cbn [fst snd]; split; lra|]. split; [repeat constructor|].
  split; [intros star [<-|[<-|[]]]; discriminate|]. intros hkl i j. cbn [a_maps mp_data mp_eta_edges length Nat.sub]. destruct hkl as [|[|hkl]]; cbn [nth length]; intros A B; [| |destruct hkl; cbn in A; lia]; destruct i as [|[|i]]; try lia; destruct j as [|[|j]]; try lia; discriminate.
Qed.
Example pool_example : pool_map (fun n => n + 1)%nat 2 [1; 2; 3; 4; 5]%nat [2; 0; 1]%nat = [Some 2; Some 3; Some 4; Some 5; Some 6]%nat. Proof. reflexivity. Qed.

Print Assumptions C100_membership.
Print Assumptions C100_one_or_two.
Print Assumptions C100_four_refuted.
Print Assumptions C100_three_refuted.
Print Assumptions C100_overlap_refuted.
Print Assumptions C101_verdict.
Print Assumptions C101_unique.
Print Assumptions C102_window.
Print Assumptions C102_nan.
Print Assumptions C102_seam_refuted.
Print Assumptions C103_score.
Print Assumptions C103_thresholds.
Print Assumptions C103_default_threshold_refuted.
Print Assumptions C103_threshold.
Print Assumptions C104_any_order.
Print Assumptions C104_paint_partial.
Print Assumptions C104_few_refuted.
