(** Lemmas for C138 *)
From Coq Require Import QArith Qround Qabs Lqa Qfield String Permutation.
From Verif Require Import Prelude GridModel GridSpec GridProofs DetModel DetSpec DetProofs DetMore PolModel PolSpec PolProofs.
Local Open Scope Q_scope.
Local Notation length := List.length.

(** ** adding in place *)
Lemma in_place_spec img : forall iw out, NoDup (map fst iw) ->
  (forall i w, In (i, w) iw -> (i < length out)%nat /\ exists v, weigh img w = Ok v) ->
  exists out', in_place img iw out = Ok out' /\ length out' = length out /\
  (forall i w v o, In (i, w) iw -> weigh img w = Ok v -> nth_error out i = Some o -> nth_error out' i = Some (oadd o v)) /\
  (forall i, ~ In i (map fst iw) -> nth_error out' i = nth_error out i).
Proof.
  induction iw as [|[i w] iw IH]; intros out ND H; cbn [in_place].
  - exists out. repeat split; auto. intros ? ? ? ? [].
  - destruct (H i w (or_introl eq_refl)) as (Hi & v & Hv). rewrite Hv. cbn [rbind].
    destruct (nth_error out i) as [o|] eqn:Eo; [|apply nth_error_None in Eo; lia].
    cbn [map fst] in ND. inversion ND as [|? ? N1 N2]; subst.
    destruct (IH (set_nth i (oadd o v) out) N2) as (out' & E & L & P1 & P2).
    { intros i' w' Hin. rewrite set_nth_length. apply H. right. exact Hin. }
    exists out'. split; [exact E|]. rewrite set_nth_length in L. split; [exact L|]. split.
    + intros i' w' v' o' [Q|Q] Ev Eo'.
      * injection Q as <- <-. rewrite Hv in Ev. injection Ev as <-. rewrite Eo in Eo'. injection Eo' as <-. rewrite P2 by exact N1. apply set_nth_eq. exact Hi.
      * apply (P1 i' w' v' o' Q Ev). rewrite set_nth_ne; [exact Eo'|]. intros ->. apply N1. apply in_map_iff. exists (i', w'). auto.
    + intros i' Hn. cbn [map fst In] in Hn. rewrite P2 by (intros K; apply Hn; right; exact K). apply set_nth_ne. intros K; apply Hn; left; congruence.
Qed.

(** ** the points on a panel *)
Lemma clip_fn load p : (exists on, forall xy, clip_to_panel load p xy true = Ok (pick (map on xy) xy, map on xy)) \/ (exists e, forall xy, clip_to_panel load p xy true = Err e).
Proof.
  unfold clip_to_panel. destruct (p_buffer p) as [|bx by_|m|n]; cbn [rbind]; try (left; eexists; intros; reflexivity).
  destruct (panel_buffer_from_str load n p) as [m|e]; cbn [rbind]; [left|right]; eexists; intros; reflexivity.
Qed.
Definition on_opt {A} (on : A -> bool) (o : option A) : bool := match o with Some a => on a | None => false end.
Lemma spread_known {A} (on : A -> bool) l : spread l (map on (known l)) = map (on_opt on) l.
Proof. induction l as [|[a|] l IH]; cbn; [reflexivity| |]; rewrite ?IH; reflexivity. Qed.
Lemma where_fst k m : forall i, In i (where_from k m) <-> (k <= i)%nat /\ nth (i - k) m false = true.
Proof.
  revert k. induction m as [|b m IH]; intros k i; cbn [where_from].
  - split; [intros []|intros [_ H]]. destruct (i - k)%nat; discriminate H.
  - destruct b; cbn [In]; rewrite IH.
    + split.
      * intros [<-|[H1 H2]]; [rewrite Nat.sub_diag; auto|]. split; [lia|]. replace (i - k)%nat with (S (i - S k)) by lia. exact H2.
      * intros [H1 H2]. destruct (Nat.eq_dec k i) as [->|N]; [left; reflexivity|right]. split; [lia|]. replace (i - k)%nat with (S (i - S k)) in H2 by lia. exact H2.
    + split; intros [H1 H2].
      * split; [lia|]. replace (i - k)%nat with (S (i - S k)) by lia. exact H2.
      * destruct (Nat.eq_dec k i) as [->|N]; [rewrite Nat.sub_diag in H2; discriminate H2|]. split; [lia|]. replace (i - k)%nat with (S (i - S k)) in H2 by lia. exact H2.
Qed.
Lemma where_nodup k m : NoDup (where_from k m).
Proof. revert k. induction m as [|[] m IH]; intros k; cbn; [constructor| |apply IH]. constructor; [rewrite where_fst; lia|apply IH]. Qed.
(** pairing the positions with results computed for the points there *)
Lemma where_combine {A B} (on : A -> bool) (f : A -> result B) l : forall k ws, all_ok (map f (known (pick (map (on_opt on) l) l))) = Ok ws ->
  length ws = length (where_from k (map (on_opt on) l)) /\
  (forall i w, In (i, w) (combine (where_from k (map (on_opt on) l)) ws) <-> exists a, (k <= i)%nat /\ nth_error l (i - k) = Some (Some a) /\ on a = true /\ f a = Ok w).
Proof.
  induction l as [|o l IH]; intros k ws H.
  - cbn in H. injection H as <-. split; [reflexivity|]. intros i w. split; [intros []|]. intros (a & _ & E & _). destruct (i - k)%nat; discriminate E.
  - assert (STEP : forall i, (exists a, (S k <= i)%nat /\ nth_error l (i - S k) = Some (Some a) /\ on a = true) -> (k <= i)%nat /\ (i - k)%nat = S (i - S k)) by (intros i (a & Ha & _); lia).
    destruct o as [a|].
    + cbn [map on_opt pick known] in H |- *. destruct (on a) eqn:Oa.
      * cbn [known map all_ok] in H. destruct (f a) as [b|] eqn:Fa; [|discriminate H]. cbn [rbind] in H.
        destruct (all_ok (map f (known (pick (map (on_opt on) l) l)))) as [ws'|] eqn:E; [|discriminate H]. cbn [rbind] in H. injection H as <-.
        destruct (IH (S k) ws' eq_refl) as (L & P). cbn [where_from combine length]. split; [lia|]. intros i w. cbn [In]. rewrite P. split.
        -- intros [Q|(a' & q1 & q2 & q3 & q4)].
           ++ injection Q as <- <-. exists a. rewrite Nat.sub_diag. auto.
           ++ exists a'. split; [lia|]. replace (i - k)%nat with (S (i - S k)) by lia. auto.
        -- intros (a' & q1 & q2 & q3 & q4). destruct (Nat.eq_dec k i) as [->|N].
           ++ left. rewrite Nat.sub_diag in q2. injection q2 as <-. congruence.
           ++ right. exists a'. split; [lia|]. replace (i - k)%nat with (S (i - S k)) in q2 by lia. auto.
      * destruct (IH (S k) ws H) as (L & P). cbn [where_from]. split; [exact L|]. intros i w. rewrite P. split.
        -- intros (a' & q1 & q2 & q3 & q4). exists a'. split; [lia|]. replace (i - k)%nat with (S (i - S k)) by lia. auto.
        -- intros (a' & q1 & q2 & q3 & q4). destruct (Nat.eq_dec k i) as [->|N]; [rewrite Nat.sub_diag in q2; injection q2 as <-; congruence|].
           exists a'. split; [lia|]. replace (i - k)%nat with (S (i - S k)) in q2 by lia. auto.
    + cbn [map on_opt pick known] in H |- *. destruct (IH (S k) ws H) as (L & P). cbn [where_from]. split; [exact L|]. intros i w. rewrite P. split.
      * intros (a' & q1 & q2 & q3 & q4). exists a'. split; [lia|]. replace (i - k)%nat with (S (i - S k)) by lia. auto.
      * intros (a' & q1 & q2 & q3 & q4). destruct (Nat.eq_dec k i) as [->|N]; [rewrite Nat.sub_diag in q2; discriminate q2|].
        exists a'. split; [lia|]. replace (i - k)%nat with (S (i - S k)) in q2 by lia. auto.
Qed.

(** ** interpolation at one point *)
Lemma opixel_in (img : oimage) rows cols i j : table_shape img rows cols -> (0 <= i < rows)%Z -> (0 <= j < cols)%Z ->
  opixel img i j = Ok (nth (Z.to_nat j) (nth (Z.to_nat i) img []) None).
Proof.
  intros [L W] I J. unfold opixel. rewrite (py_index_in _ img i []) by lia. cbn [rbind]. apply py_index_in. rewrite W; [exact J|]. apply nth_In. lia.
Qed.
Lemma shape_map {A B} (f : A -> B) t rows cols : table_shape t rows cols -> table_shape (map (map f) t) rows cols.
Proof. intros [L W]. split; [rewrite map_length; exact L|]. intros r Hr. apply in_map_iff in Hr. destruct Hr as (r' & <- & Hr). rewrite map_length. auto. Qed.
Lemma nth_map2 {A B} (f : A -> B) (t : list (list A)) rows cols i j d d' : table_shape t rows cols -> (0 <= i < rows)%Z -> (0 <= j < cols)%Z ->
  nth (Z.to_nat j) (nth (Z.to_nat i) (map (map f) t) []) d' = f (nth (Z.to_nat j) (nth (Z.to_nat i) t []) d).
Proof.
  intros [L W] I J. rewrite (nth_indep (map (map f) t) [] (map f [])) by (rewrite map_length; lia). rewrite (map_nth (map f) t []).
  set (r := nth (Z.to_nat i) t []). assert (R : Z.of_nat (length r) = cols) by (apply W; apply nth_In; lia).
  rewrite (nth_indep (map f r) d' (f d)) by (rewrite map_length; lia). apply map_nth.
Qed.
Lemma col_cell2 ztol p pt : sound p -> (2 <= p_cols p)%Z -> 0 < ztol -> 2 * ztol < p_psc p -> within_border p 0 0 pt -> off_last_strip ztol p pt ->
  exists f, cell_index ztol (col_pixel_vec p) (fst pt) = Ok f /\ inject_Z f * p_psc p <= fst pt - centre_x p 0 /\ fst pt - centre_x p 0 <= (inject_Z f + 1) * p_psc p.
Proof.
  intros G R2 Hz Zr [Wx _] [Ox _]. pose proof G as [G1 [G2 [R C]]]. apply Qabs_Qle_condition in Wx.
  assert (HiC : fst pt < centre_x p 0 + (inject_Z (Z.of_nat (Z.to_nat (p_cols p - 1))) + 1) * p_psc p).
  { rewrite ofnat_sub1 by lia. unfold centre_x. change (inject_Z 0) with 0.
    assert (E : p_psc p * (0 - (inject_Z (p_cols p) - 1) / 2) + (inject_Z (p_cols p) - 1 + 1) * p_psc p == inject_Z (p_cols p) * p_psc p / 2 + p_psc p / 2) by field.
    rewrite E. assert (0 < p_psc p / 2) by (apply Qlt_shift_div_l; lra). lra. }
  rewrite (last_x p G2) in Ox.
  destruct (cell_inc_general ztol _ _ _ _ (fst pt) (col_edges p G2) ltac:(lia) Hz Zr HiC Ox) as [h [Eh [H1 [H2 _]]]].
  exists h. split; [exact Eh|]. split; [exact H1 | lra].
Qed.
Lemma interp_ok ztol p pt : sound p -> (2 <= p_rows p)%Z -> (2 <= p_cols p)%Z -> 0 < ztol -> 2 * ztol < p_psr p -> 2 * ztol < p_psc p ->
  within_border p 0 0 pt -> off_last_strip ztol p pt ->
  exists w f h, interp ztol p pt = Ok w /\
  w_if w = nearest_index (p_rows p) f /\ w_ic w = nearest_index (p_rows p) (f + 1) /\ w_jf w = nearest_index (p_cols p) h /\ w_jc w = nearest_index (p_cols p) (h + 1) /\
  inject_Z f <= fst (cartToPixel p pt) /\ fst (cartToPixel p pt) <= inject_Z f + 1 /\ inject_Z h <= snd (cartToPixel p pt) /\ snd (cartToPixel p pt) <= inject_Z h + 1 /\
  forall img, bilinear_at ztol p img pt =
    (do a <- pixel img (w_if w) (w_jf w); do b <- pixel img (w_if w) (w_jc w); do c <- pixel img (w_ic w) (w_jf w); do d <- pixel img (w_ic w) (w_jc w);
     Ok (w_cc w * a + w_fc w * b + w_cf w * c + w_ff w * d)).
Proof.
  intros G R2 C2 Hz Zr Zc W O. pose proof G as (G1 & G2 & R & C).
  destruct (row_cell ztol p pt G R2 Hz Zr W O) as (f & Ef & F1 & F2). destruct (col_cell2 ztol p pt G C2 Hz Zc W O) as (h & Eh & H1 & H2).
  pose proof (row_dist p pt 0 R) as Dr. pose proof (col_dist p pt 0 C) as Dc.
  unfold interp, bilinear_at. destruct (cartToPixel p pt) as [u w0]. cbn [fst snd] in *. change (qz 0) with 0 in Dr, Dc. rewrite Ef, Eh. cbn [rbind].
  eexists. exists f, h. split; [reflexivity|]. cbn [w_if w_ic w_jf w_jc w_cc w_fc w_cf w_ff]. rewrite !fix_index_nearest by assumption.
  do 4 (split; [reflexivity|]).
  split; [apply (Qmult_le_r _ _ (p_psr p) R); lra|]. split; [apply (Qmult_le_r _ _ (p_psr p) R); lra|]. split; [apply (Qmult_le_r _ _ (p_psc p) C); lra|].
  split; [apply (Qmult_le_r _ _ (p_psc p) C); lra|]. reflexivity.
Qed.

Lemma mask_shape_iff b rows cols : mask_shape b rows cols = true <-> table_shape b rows cols.
Proof. unfold mask_shape, table_shape. rewrite andb_true_iff, forallb_forall, Z.eqb_eq. split; intros (H1 & H2); (split; [exact H1|]); intros r Hr; specialize (H2 r Hr); apply Z.eqb_eq; assumption. Qed.

Lemma map_nth_some {A B} (f : A -> B) l k b : nth_error (map f l) k = Some b <-> exists a, nth_error l k = Some a /\ f a = b.
Proof. rewrite nth_error_map. destruct (nth_error l k) as [a|]; cbn; split; [intros H; injection H as <-; eauto|intros (a' & H & <-); injection H as <-; reflexivity|discriminate|intros (a' & H & _); discriminate H]. Qed.
Lemma known_in {A} (l : list (option A)) a : In a (known l) <-> In (Some a) l.
Proof. induction l as [|[b|] l IH]; cbn; [tauto| |]; rewrite IH; split; intros H; [destruct H as [<-|H]; auto|destruct H as [H|H]; [injection H as <-; auto|auto]|auto|destruct H as [H|H]; [discriminate H|exact H]]. Qed.

Lemma fold_set_nth idx : forall (o : list (option Q)) k, (forall i, In i idx -> (i < length o)%nat) ->
  length (fold_left (fun o i => set_nth i (Some 0) o) idx o) = length o /\
  (In k idx -> nth_error (fold_left (fun o i => set_nth i (Some 0) o) idx o) k = Some (Some 0)) /\
  (~ In k idx -> nth_error (fold_left (fun o i => set_nth i (Some 0) o) idx o) k = nth_error o k).
Proof.
  induction idx as [|i idx IH]; intros o k H; cbn [fold_left]; [split; [reflexivity|split; [intros []|reflexivity]]|].
  destruct (IH (set_nth i (Some 0) o) k) as (L & P1 & P2); [intros; rewrite set_nth_length; apply H; right; assumption|]. rewrite set_nth_length in L.
  split; [exact L|]. destruct (in_dec Nat.eq_dec k idx) as [J|J].
  - split; [auto|]. intros N. exfalso. apply N. right. exact J.
  - rewrite (P2 J). split.
    + intros [<-|K]; [|contradiction]. apply set_nth_eq. apply H. left. reflexivity.
    + intros N. apply set_nth_ne. intros ->. apply N. left. reflexivity.
Qed.

(** ** the pixels around a point *)
Lemma scaled_lt1 a d y : 0 < d -> a * d == y -> (Qabs y < d <-> Qabs a < 1).
Proof.
  intros D E. rewrite <- E, Qabs_Qmult, (Qabs_pos d) by lra. pose proof (Qmult_lt_r (Qabs a) 1 d D) as (A & B). assert (X : 1 * d == d) by ring. split; intros K; [apply A; lra|specialize (B K); lra].
Qed.
Lemma scaled_le1 a d y : 0 < d -> a * d == y -> (Qabs y <= d <-> Qabs a <= 1).
Proof.
  intros D E. rewrite <- E, Qabs_Qmult, (Qabs_pos d) by lra. pose proof (Qmult_le_r (Qabs a) 1 d D) as (A & B). assert (X : 1 * d == d) by ring. split; intros K; [apply A; lra|specialize (B K); lra].
Qed.
Lemma near_lines p a c pt : sound p -> (near p a c pt <-> Qabs (snd (cartToPixel p pt) - inject_Z c) < 1 /\ Qabs (fst (cartToPixel p pt) - inject_Z a) < 1).
Proof.
  intros (G1 & G2 & R & C). unfold near. rewrite (scaled_lt1 _ _ _ C (col_dist p pt c C)).
  rewrite <- (Qabs_opp (snd pt - centre_y p a)). rewrite (scaled_lt1 _ _ _ R (row_dist p pt a R)). tauto.
Qed.
Lemma nearby_lines p a c pt : sound p -> (nearby p a c pt <-> Qabs (snd (cartToPixel p pt) - inject_Z c) <= 1 /\ Qabs (fst (cartToPixel p pt) - inject_Z a) <= 1).
Proof.
  intros (G1 & G2 & R & C). unfold nearby. rewrite (scaled_le1 _ _ _ C (col_dist p pt c C)).
  rewrite <- (Qabs_opp (snd pt - centre_y p a)). rewrite (scaled_le1 _ _ _ R (row_dist p pt a R)). tauto.
Qed.
Lemma near1 u f a : inject_Z f <= u -> u <= inject_Z f + 1 -> Qabs (u - inject_Z a) < 1 -> a = f \/ a = (f + 1)%Z.
Proof.
  intros H1 H2 H3. apply Qabs_Qlt_condition in H3.
  assert (A1 : inject_Z (f - 1) < inject_Z a) by (unfold Z.sub; rewrite inject_Z_plus; change (inject_Z (-(1))) with (-(1)); lra).
  assert (A2 : inject_Z a < inject_Z (f + 2)) by (rewrite inject_Z_plus; change (inject_Z 2) with 2; lra).
  rewrite <- Zlt_Qlt in A1, A2. lia.
Qed.
Lemma nearby1 n u f : (1 <= n)%Z -> - (1 # 2) <= u -> u <= inject_Z n - (1 # 2) -> inject_Z f <= u -> u <= inject_Z f + 1 ->
  Qabs (u - inject_Z (nearest_index n f)) <= 1 /\ Qabs (u - inject_Z (nearest_index n (f + 1))) <= 1.
Proof.
  intros Hn U1 U2 H1 H2.
  assert (F1 : (-1 <= f)%Z).
  { destruct (Z_lt_le_dec f (-1)) as [K|K]; [|exact K]. assert (K' : (f + 1 <= -1)%Z) by lia. rewrite Zle_Qle, inject_Z_plus in K'. change (inject_Z 1) with 1 in K'. change (inject_Z (-1)) with (-(1)) in K'. lra. }
  assert (F2 : (f < n)%Z) by (rewrite Zlt_Qlt; lra).
  assert (E1 : nearest_index n f = f \/ (f = -1 /\ nearest_index n f = 0)%Z) by (unfold nearest_index; lia).
  assert (E2 : nearest_index n (f + 1) = (f + 1)%Z \/ (f = n - 1 /\ nearest_index n (f + 1) = n - 1)%Z) by (unfold nearest_index; lia).
  split.
  - destruct E1 as [->|(-> & ->)]; apply Qabs_Qle_condition; [lra|]. change (inject_Z (-1)) with (-(1)) in *. change (inject_Z 0) with 0. lra.
  - destruct E2 as [->|(-> & ->)]; apply Qabs_Qle_condition; [rewrite inject_Z_plus; change (inject_Z 1) with 1; lra|].
    unfold Z.sub in *. rewrite inject_Z_plus in *. change (inject_Z (-(1))) with (-(1)) in *. lra.
Qed.
Lemma border_coords p pt : sound p -> within_border p 0 0 pt ->
  - (1 # 2) <= fst (cartToPixel p pt) /\ fst (cartToPixel p pt) <= inject_Z (p_rows p) - (1 # 2) /\ - (1 # 2) <= snd (cartToPixel p pt) /\ snd (cartToPixel p pt) <= inject_Z (p_cols p) - (1 # 2).
Proof.
  intros (G1 & G2 & R & C) (W1 & W2). apply Qabs_Qle_condition in W1, W2.
  pose proof (row_dist p pt 0 R) as D1. pose proof (col_dist p pt 0 C) as D2. unfold centre_x in D2. unfold centre_y in D1. unfold qz in *. change (inject_Z 0) with 0 in *.
  assert (E1 : p_psr p * ((inject_Z (p_rows p) - 1) / 2 - 0) == inject_Z (p_rows p) * p_psr p / 2 - p_psr p / 2) by field.
  assert (E2 : p_psc p * (0 - (inject_Z (p_cols p) - 1) / 2) == - (inject_Z (p_cols p) * p_psc p / 2) + p_psc p / 2) by field.
  assert (H1 : p_psr p / 2 == (1 # 2) * p_psr p) by field. assert (H2 : p_psc p / 2 == (1 # 2) * p_psc p) by field.
  assert (H3 : inject_Z (p_rows p) * p_psr p / 2 == (1 # 2) * (inject_Z (p_rows p) * p_psr p)) by field.
  assert (H4 : inject_Z (p_cols p) * p_psc p / 2 == (1 # 2) * (inject_Z (p_cols p) * p_psc p)) by field.
  rewrite E1, H1, H3 in D1. rewrite E2, H2, H4 in D2. rewrite H4 in W1. rewrite H3 in W2.
  split; [|split; [|split]].
  - apply (Qmult_le_r _ _ _ R). lra.
  - apply (Qmult_le_r _ _ _ R). assert (X : (inject_Z (p_rows p) - (1 # 2)) * p_psr p == inject_Z (p_rows p) * p_psr p - (1 # 2) * p_psr p) by ring. lra.
  - apply (Qmult_le_r _ _ _ C). lra.
  - apply (Qmult_le_r _ _ _ C). assert (X : (inject_Z (p_cols p) - (1 # 2)) * p_psc p == inject_Z (p_cols p) * p_psc p - (1 # 2) * p_psc p) by ring. lra.
Qed.

Section OneDetector.
Context (load : string -> result (list (list bool))) (ztol : Q) (v : view) (d : detector).
Context (U : usable load ztol v d).
Local Notation p := (d_panel d).
Let grid := concat (angular_grid v).
Let pts := map (fun q => d_project d (snd q) (fst q)) grid.

Lemma usable_clip : exists on, (forall xy, clip_to_panel load p xy true = Ok (pick (map on xy) xy, map on xy)) /\
  (forall q pt, meets load d q pt <-> d_project d (snd q) (fst q) = Some pt /\ on pt = true).
Proof.
  destruct U as (G & R2 & C2 & Hz & Zr & Zc & NB & NM & NN & Off).
  destruct (clip_fn load p) as [(on & H)|(e & H)].
  - exists on. split; [exact H|]. intros q pt. unfold meets. rewrite H. cbn [map pick]. split; intros (A & B); split; auto.
    + destruct (on pt); [reflexivity|discriminate B].
    + rewrite B. reflexivity.
  - exfalso. specialize (H []). unfold clip_to_panel in H. destruct (p_buffer p) as [|bx by_|m|n] eqn:E; cbn [rbind] in H; try discriminate H.
    destruct (NN n eq_refl) as (m & Em). rewrite Em in H. discriminate H.
Qed.
Lemma meets_sensor q pt : In q grid -> meets load d q pt -> within_border p 0 0 pt /\ off_last_strip ztol p pt.
Proof.
  destruct U as (G & R2 & C2 & Hz & Zr & Zc & NB & NM & NN & Off). intros Hq M. split.
  - destruct M as (_ & M). apply (clip_on_sensor load p [pt] [pt] [true] pt G NB M). left. reflexivity.
  - unfold grid in Hq. apply In_nth_error in Hq. destruct Hq as (k & Hk). assert (L : (k < length (concat (angular_grid v)))%nat) by (apply nth_error_Some; rewrite Hk; discriminate).
    destruct (flat_index v k L) as (i & j & Hi & Hj & ->). rewrite grid_flat in Hk by exact Hj. exact (Off i j q pt Hk M).
Qed.
Lemma panel_lemma : exists on ws, map_panel load ztol v d = Ok (Map pts (where_from 0 (map (on_opt on) pts)) ws) /\
  length ws = length (where_from 0 (map (on_opt on) pts)) /\
  (forall i w, In (i, w) (combine (where_from 0 (map (on_opt on) pts)) ws) <-> exists a, nth_error pts i = Some (Some a) /\ on a = true /\ interp ztol p a = Ok w) /\
  (forall q pt, meets load d q pt <-> d_project d (snd q) (fst q) = Some pt /\ on pt = true).
Proof.
  destruct usable_clip as (on & Hc & Hm). destruct U as (G & R2 & C2 & Hz & Zr & Zc & NB & NM & NN & Off).
  assert (W : exists ws, all_ok (map (interp ztol p) (known (pick (map (on_opt on) pts) pts))) = Ok ws).
  { apply all_ok_exists. intros x Hx. apply in_map_iff in Hx. destruct Hx as (pt & <- & Hx). rewrite known_in in Hx. apply pick_map_in in Hx. destruct Hx as (Hx & Ho). cbn [on_opt] in Ho.
    unfold pts in Hx. apply in_map_iff in Hx. destruct Hx as (q & Eq & Hq). destruct (meets_sensor q pt Hq) as (S1 & S2); [apply Hm; auto|].
    destruct (interp_ok ztol p pt G R2 C2 Hz Zr Zc S1 S2) as (w & _ & _ & E & _). eauto. }
  destruct W as (ws & W). exists on, ws.
  destruct (where_combine on (interp ztol p) pts 0 ws W) as (L & P).
  split; [|split; [exact L|split; [|exact Hm]]].
  - unfold map_panel. fold grid. fold pts. unfold on_panel. rewrite Hc. cbn [rbind snd]. rewrite spread_known. rewrite W. reflexivity.
  - intros i w. rewrite P. split; intros (a & H); exists a; rewrite ?Nat.sub_0_r in *; intuition lia.
Qed.

Lemma sum_lemma img : table_shape img (p_rows p) (p_cols p) -> exists m, map_panel load ztol v d = Ok m /\ m_xypts m = pts /\
  forall out, length out = length grid -> exists out', in_place (measured img) (combine (m_on m) (m_interp m)) out = Ok out' /\ length out' = length out /\
  forall k q o, nth_error grid k = Some q -> nth_error out k = Some (Some o) ->
  exists c o', adds load q d img c /\ nth_error out' k = Some (Some o') /\ o' == o + c.
Proof.
  intros Sh. destruct panel_lemma as (on & ws & E & L & P & Hm). pose proof U as (G & R2 & C2 & Hz & Zr & Zc & NB & NM & NN & Off).
  eexists. split; [exact E|]. split; [reflexivity|]. cbn [m_on m_interp]. intros out Lo.
  pose proof G as (G1 & G2 & _ & _).
  assert (WV : forall q a w, In q grid -> meets load d q a -> interp ztol p a = Ok w -> exists c, weigh (measured img) w = Ok (Some c) /\ forall i j t s, between p i j t s a -> c == blend p img i j t s).
  { intros q a w Hq M Ew. destruct (meets_sensor q a Hq M) as (S1 & S2).
    destruct (interp_ok ztol p a G R2 C2 Hz Zr Zc S1 S2) as (w' & f & h & Ew' & I1 & I2 & J1 & J2 & _ & _ & _ & _ & B). rewrite Ew in Ew'. injection Ew' as <-.
    destruct (bilinear_at_value ztol p img a G R2 C2 Hz Zr Zc Sh S1 S2) as (c & Ec & Hc). rewrite B in Ec.
    assert (PX : forall x y, (0 <= x < p_rows p)%Z -> (0 <= y < p_cols p)%Z -> pixel img x y = Ok (image_value img x y) /\ opixel (measured img) x y = Ok (Some (image_value img x y))).
    { intros x y Hx Hy. split; [apply (pixel_in img (p_rows p) (p_cols p)); assumption|]. unfold measured. rewrite (opixel_in _ (p_rows p) (p_cols p)) by (try apply shape_map; assumption).
      rewrite (nth_map2 Some img (p_rows p) (p_cols p) x y 0 None) by assumption. reflexivity. }
    pose proof (nearest_range (p_rows p) f G1). pose proof (nearest_range (p_rows p) (f + 1) G1). pose proof (nearest_range (p_cols p) h G2). pose proof (nearest_range (p_cols p) (h + 1) G2).
    rewrite I1, I2, J1, J2 in Ec. rewrite !(fun x y Hx Hy => proj1 (PX x y Hx Hy)) in Ec by assumption. cbn [rbind] in Ec. injection Ec as Ec.
    exists c. split; [|exact Hc]. unfold weigh. rewrite I1, I2, J1, J2. rewrite !(fun x y Hx Hy => proj2 (PX x y Hx Hy)) by assumption. cbn [rbind scale oadd]. rewrite Ec. reflexivity. }
  assert (Lp : length pts = length grid) by (unfold pts; apply map_length).
  assert (INQ : forall i a, nth_error pts i = Some (Some a) -> on a = true -> exists q, nth_error grid i = Some q /\ meets load d q a).
  { intros i a Hi Ho. unfold pts in Hi. apply map_nth_some in Hi. destruct Hi as (q & Hq & Ep). exists q. split; [exact Hq|]. apply Hm. auto. }
  assert (FST : map fst (combine (where_from 0 (map (on_opt on) pts)) ws) = where_from 0 (map (on_opt on) pts)).
  { clear - L. revert ws L. induction (where_from 0 (map (on_opt on) pts)) as [|i l IH]; intros [|w ws] L; try discriminate L; [reflexivity|]. cbn. f_equal. apply IH. injection L as L. exact L. }
  destruct (in_place_spec (measured img) (combine (where_from 0 (map (on_opt on) pts)) ws) out) as (out' & Eo & Lo' & P1 & P2).
  { rewrite FST. apply where_nodup. }
  { intros i w Hi. apply P in Hi. destruct Hi as (a & A1 & A2 & A3). split.
    - rewrite Lo, <- Lp. apply nth_error_Some. rewrite A1. discriminate.
    - destruct (INQ i a A1 A2) as (q & Hq & M). destruct (WV q a w (nth_error_In _ _ Hq) M A3) as (c & Ec & _). eauto. }
  exists out'. split; [exact Eo|]. split; [exact Lo'|]. intros k q o Hq Ho.
  assert (Ek : nth_error pts k = Some (d_project d (snd q) (fst q))) by (unfold pts; apply map_nth_some; eauto).
  destruct (d_project d (snd q) (fst q)) as [pt|] eqn:Ep; [destruct (on pt) eqn:On|].
  - assert (M : meets load d q pt) by (apply Hm; auto).
    assert (Hin : In k (where_from 0 (map (on_opt on) pts))).
    { apply where_fst. split; [lia|]. rewrite Nat.sub_0_r. apply (nth_error_nth _ _ false). apply map_nth_some. exists (Some pt). split; [exact Ek|exact On]. }
    rewrite <- FST in Hin. apply in_map_iff in Hin. destruct Hin as ((k' & w) & <- & Hin). cbn [fst] in *.
    pose proof Hin as Hin'. apply P in Hin'. destruct Hin' as (a & A1 & A2 & A3). rewrite Ek in A1. injection A1 as <-.
    destruct (WV q pt w (nth_error_In _ _ Hq) M A3) as (c & Ec & Hc). exists c, (o + c). split; [|split; [apply (P1 k' w (Some c) (Some o) Hin Ec Ho)|reflexivity]].
    left. exists pt. split; [exact M|]. split; [apply between_exists; exact G|exact Hc].
  - exists 0, o. split; [|split; [|ring]].
    + right. split; [|reflexivity]. intros (pt' & M). apply Hm in M. destruct M as (M1 & M2). congruence.
    + rewrite P2; [exact Ho|]. rewrite FST, where_fst, Nat.sub_0_r. intros (_ & K). rewrite (nth_error_nth _ _ false (proj2 (map_nth_some (on_opt on) pts k (on_opt on (Some pt))) (ex_intro _ (Some pt) (conj Ek eq_refl)))) in K. cbn [on_opt] in K. congruence.
  - exists 0, o. split; [|split; [|ring]].
    + right. split; [|reflexivity]. intros (pt' & M). apply Hm in M. destruct M as (M1 & M2). congruence.
    + rewrite P2; [exact Ho|]. rewrite FST, where_fst, Nat.sub_0_r. intros (_ & K). rewrite (nth_error_nth _ _ false (proj2 (map_nth_some (on_opt on) pts k (on_opt on None)) (ex_intro _ None (conj Ek eq_refl)))) in K. discriminate K.
Qed.
Lemma buffer_ok : exists b, panel_buffer_as_2d_array load p = Ok b /\ table_shape b (p_rows p) (p_cols p).
Proof.
  destruct U as ((G1 & G2 & _) & R2 & C2 & Hz & Zr & Zc & NB & NM & NN & Off). unfold panel_buffer_as_2d_array.
  destruct (p_buffer p) as [|bx by_|m|n] eqn:E.
  - eexists. split; [reflexivity|]. apply (grid_shape _ (fun _ _ => true)); lia.
  - eexists. split; [reflexivity|]. cbv zeta. match goal with |- table_shape (map (fun i => map (@?f i) _) _) _ _ => apply (grid_shape _ f) end; lia.
  - eexists. split; [reflexivity|]. apply NM. reflexivity.
  - destruct (NN n eq_refl) as (m & Em). exists m. split; [exact Em|]. unfold panel_buffer_from_str in Em. destruct (load n) as [b|]; [|discriminate Em]. cbn [rbind] in Em.
    destruct (mask_shape b (p_rows p) (p_cols p)) eqn:M; [injection Em as <-; apply mask_shape_iff; exact M|].
    destruct (p_roi p) as [[[r0 r1] [c0 c1]]|]; [|discriminate Em]. cbv zeta in Em.
    destruct (mask_shape (map (slice c0 c1) (slice r0 r1 b)) (p_rows p) (p_cols p)) eqn:M'; [injection Em as <-; apply mask_shape_iff; exact M'|discriminate Em].
Qed.
Lemma reach_lemma : exists m r, map_panel load ztol v d = Ok m /\ reached load d m = Ok r /\ length r = length grid /\
  forall k q, nth_error grid k = Some q -> exists b, nth_error r k = Some b /\
    (b = true -> exists pt, meets load d q pt /\ all_good near load p pt) /\ (forall pt, meets load d q pt -> all_good nearby load p pt -> b = true).
Proof.
  destruct panel_lemma as (on & ws & E & L & P & Hm). pose proof U as (G & R2 & C2 & Hz & Zr & Zc & NB & NM & NN & Off).
  destruct buffer_ok as (buf & Eb & Sb).
  eexists. unfold reached. rewrite Eb. cbn [rbind].
  set (dummy := map (map (fun b : bool => if b then Some 0 else None)) buf).
  pose proof G as (G1 & G2 & _ & _).
  set (good := fun f h => mask_value buf (nearest_index (p_rows p) f) (nearest_index (p_cols p) h)).
  assert (WV : forall q a w, In q grid -> meets load d q a -> interp ztol p a = Ok w -> exists c, weigh dummy w = Ok c /\
            (c <> None -> all_good near load p a) /\ (all_good nearby load p a -> exists x, c = Some x)).
  { intros q a w Hq M Ew. destruct (meets_sensor q a Hq M) as (S1 & S2).
    destruct (interp_ok ztol p a G R2 C2 Hz Zr Zc S1 S2) as (w' & f & h & Ew' & I1 & I2 & J1 & J2 & F1 & F2 & H1 & H2 & _). rewrite Ew in Ew'. injection Ew' as <-.
    assert (PX : forall x y, (0 <= x < p_rows p)%Z -> (0 <= y < p_cols p)%Z -> opixel dummy x y = Ok (if mask_value buf x y then Some 0 else None)).
    { intros x y Hx Hy. unfold dummy. rewrite (opixel_in _ (p_rows p) (p_cols p)) by (try apply shape_map; assumption).
      rewrite (nth_map2 (fun b : bool => if b then Some 0 else None) buf (p_rows p) (p_cols p) x y false None) by assumption. reflexivity. }
    pose proof (nearest_range (p_rows p) f G1) as N1. pose proof (nearest_range (p_rows p) (f + 1) G1) as N2. pose proof (nearest_range (p_cols p) h G2) as N3. pose proof (nearest_range (p_cols p) (h + 1) G2) as N4.
    unfold weigh. rewrite I1, I2, J1, J2. rewrite !PX by assumption. cbn [rbind].
    eexists. split; [reflexivity|]. split.
    - intros Hc. exists buf. split; [exact Eb|]. intros a0 c0 (A & C) Hn. apply near_lines in Hn; [|exact G]. destruct Hn as (Hn1 & Hn2).
      apply (near1 _ h c0 H1 H2) in Hn1. apply (near1 _ f a0 F1 F2) in Hn2.
      assert (Na : nearest_index (p_rows p) a0 = a0) by (unfold nearest_index; lia). assert (Nc : nearest_index (p_cols p) c0 = c0) by (unfold nearest_index; lia).
      revert Hc. destruct Hn1 as [->| ->], Hn2 as [->| ->]; rewrite Na, Nc;
        match goal with |- _ -> ?x = true => destruct x; [reflexivity|] end;
        repeat match goal with |- context [if ?x then Some 0 else None] => destruct x end; cbn; intros K; contradiction K; reflexivity.
    - intros (b' & Eb' & Hg). rewrite Eb in Eb'. injection Eb' as <-.
      destruct (border_coords p a G S1) as (B1 & B2 & B3 & B4).
      destruct (nearby1 _ _ f G1 B1 B2 F1 F2) as (X1 & X2). destruct (nearby1 _ _ h G2 B3 B4 H1 H2) as (Y1 & Y2).
      rewrite !Hg; try (split; assumption); try (apply nearby_lines; [exact G|]; split; assumption). cbn. eauto. }
  assert (Lp : length pts = length grid) by (unfold pts; apply map_length).
  assert (INQ : forall i a, nth_error pts i = Some (Some a) -> on a = true -> exists q, nth_error grid i = Some q /\ meets load d q a).
  { intros i a Hi Ho. unfold pts in Hi. apply map_nth_some in Hi. destruct Hi as (q & Hq & Ep). exists q. split; [exact Hq|]. apply Hm. auto. }
  assert (FST : map fst (combine (where_from 0 (map (on_opt on) pts)) ws) = where_from 0 (map (on_opt on) pts)).
  { clear - L. revert ws L. induction (where_from 0 (map (on_opt on) pts)) as [|i l IH]; intros [|w ws] L; try discriminate L; [reflexivity|]. cbn. f_equal. apply IH. injection L as L. exact L. }
  assert (WI : forall i, In i (where_from 0 (map (on_opt on) pts)) <-> exists a, nth_error pts i = Some (Some a) /\ on a = true).
  { intros i. rewrite where_fst, Nat.sub_0_r. split.
    - intros (_ & K). destruct (nth_error pts i) as [o|] eqn:Ei.
      + rewrite (nth_error_nth _ _ false (proj2 (map_nth_some (on_opt on) pts i _) (ex_intro _ o (conj Ei eq_refl)))) in K. destruct o as [a|]; [eauto|discriminate K].
      + rewrite nth_overflow in K; [discriminate K|]. rewrite map_length. apply nth_error_None. exact Ei.
    - intros (a & Ei & Ha). split; [lia|]. apply (nth_error_nth _ _ false). apply map_nth_some. exists (Some a). auto. }
  assert (WL : forall i, In i (where_from 0 (map (on_opt on) pts)) -> (i < length (map (fun _ : option (Q * Q) => @None Q) pts))%nat).
  { intros i Hi. apply WI in Hi. destruct Hi as (a & Ei & _). rewrite map_length. apply nth_error_Some. rewrite Ei. discriminate. }
  set (start := fold_left (fun o i => set_nth i (Some 0) o) (where_from 0 (map (on_opt on) pts)) (map (fun _ => None) pts)).
  assert (ST : length start = length grid) by (unfold start; rewrite (proj1 (fold_set_nth _ _ 0 WL)), map_length; exact Lp).
  destruct (in_place_spec dummy (combine (where_from 0 (map (on_opt on) pts)) ws) start) as (out' & Eo & Lo' & P1 & P2).
  { rewrite FST. apply where_nodup. }
  { intros i w Hi. apply P in Hi. destruct Hi as (a & A1 & A2 & A3). split.
    - rewrite ST, <- Lp. apply nth_error_Some. rewrite A1. discriminate.
    - destruct (INQ i a A1 A2) as (q & Hq & M). destruct (WV q a w (nth_error_In _ _ Hq) M A3) as (c & Ec & _). eauto. }
  eexists. split; [exact E|]. cbn [m_on m_interp m_xypts]. fold start. rewrite Eo. cbn [rbind]. split; [reflexivity|].
  split; [rewrite map_length, Lo'; exact ST|]. intros k q Hq.
  assert (Ek : nth_error pts k = Some (d_project d (snd q) (fst q))) by (unfold pts; apply map_nth_some; eauto).
  destruct (fold_set_nth _ _ k WL) as (_ & FS1 & FS2). fold start in FS1, FS2.
  destruct (in_dec Nat.eq_dec k (where_from 0 (map (on_opt on) pts))) as [Hin|Hin].
  - pose proof Hin as Hin2. rewrite <- FST in Hin. apply in_map_iff in Hin. destruct Hin as ((k' & w) & Ek' & Hin). cbn [fst] in Ek'. subst k'.
    pose proof Hin as Hin'. apply P in Hin'. destruct Hin' as (a & A1 & A2 & A3). rewrite Ek in A1. injection A1 as A1.
    assert (M : meets load d q a) by (apply Hm; auto).
    destruct (WV q a w (nth_error_In _ _ Hq) M A3) as (c & Ec & V1 & V2).
    pose proof (P1 k w c (Some 0) Hin Ec (FS1 Hin2)) as Ek2.
    eexists. split; [apply map_nth_some; eexists; split; [exact Ek2|reflexivity]|]. destruct c as [c|]; cbn [oadd].
    + split; [|reflexivity]. intros _. exists a. split; [exact M|]. apply V1. discriminate.
    + split; [discriminate|]. intros pt Mp Hg. apply Hm in Mp. destruct Mp as (Mp & _). rewrite A1 in Mp. injection Mp as <-. destruct (V2 Hg) as (x & Hx). discriminate Hx.
  - exists false. split.
    + apply map_nth_some. exists None. split; [|reflexivity]. rewrite P2 by (rewrite FST; exact Hin). rewrite (FS2 Hin). apply map_nth_some. eauto.
    + split; [discriminate|]. intros pt M _. exfalso. apply Hin. apply WI. apply Hm in M. destruct M as (M1 & M2). exists pt. rewrite Ek, M1. auto.
Qed.
End OneDetector.

(** ** all detectors *)
Lemma lookup_in imgs n img : NoDup (map fst imgs) -> In (n, img) imgs -> lookup imgs n = Ok img.
Proof.
  induction imgs as [|[k i] t IH]; intros ND H; [destruct H|]. cbn [map fst] in ND. inversion ND as [|? ? N1 N2]; subst. cbn [lookup].
  destruct (String.eqb_spec k n) as [->|N].
  - destruct H as [E|H]; [injection E as ->; reflexivity|]. exfalso. apply N1. apply in_map_iff. exists (n, img). auto.
  - destruct H as [E|H]; [injection E as -> ->; congruence|]. apply IH; assumption.
Qed.
Section Detectors.
Context (load : string -> result (list (list bool))) (ztol : Q) (v : view).
Let grid := concat (angular_grid v).
Lemma sum_all imgs parts : NoDup (map fst imgs) ->
  (forall n d img, In (n, (d, img)) parts -> In (n, measured img) imgs /\ table_shape img (p_rows (d_panel d)) (p_cols (d_panel d)) /\ usable load ztol v d) ->
  forall out, length out = length grid ->
  exists maps out', all_ok (map (fun d => map_panel load ztol v (snd d)) (detectors_of parts)) = Ok maps /\
  sum_images imgs (combine (map fst (detectors_of parts)) maps) out = Ok out' /\ length out' = length out /\ length maps = length parts /\
  (forall m, In m maps -> length (m_xypts m) = length grid) /\
  forall k q o, nth_error grid k = Some q -> nth_error out k = Some (Some o) ->
  exists cs x, Forall2 (fun part c => adds load q (fst (snd part)) (snd (snd part)) c) parts cs /\ nth_error out' k = Some (Some x) /\ x == o + total cs.
Proof.
  intros ND. induction parts as [|[n [d img]] parts IH]; intros H out Lo.
  - exists [], out. cbn. do 4 (split; [reflexivity|]). split; [intros m []|]. intros k q o _ Ho. exists [], o. split; [constructor|]. split; [exact Ho|]. cbn. ring.
  - destruct (H n d img (or_introl eq_refl)) as (I1 & S1 & U1).
    destruct (sum_lemma load ztol v d U1 img S1) as (m & Em & Ex & P). destruct (P out Lo) as (out1 & E1 & L1 & P1).
    destruct (IH (fun n d img Hin => H n d img (or_intror Hin)) out1 (eq_trans L1 Lo)) as (maps & out2 & E2 & E3 & L2 & L3 & X & P2).
    exists (m :: maps), out2. unfold detectors_of in *. cbn [map fst snd all_ok combine sum_images length]. rewrite Em, E2. cbn [rbind]. split; [reflexivity|].
    rewrite (lookup_in imgs n (measured img) ND I1). cbn [rbind]. rewrite E1. cbn [rbind]. split; [exact E3|]. split; [congruence|]. split; [congruence|].
    split; [intros m' [<-|Hm]; [rewrite Ex, map_length; reflexivity|apply X; exact Hm]|].
    intros k q o Hq Ho. destruct (P1 k q o Hq Ho) as (c & o' & A & Ho' & Eo). destruct (P2 k q o' Hq Ho') as (cs & x & Fa & Hx & Ex').
    exists (c :: cs), x. split; [constructor; assumption|]. split; [exact Hx|]. cbn [total fold_right]. unfold total in Ex'. rewrite Ex', Eo. ring.
Qed.
Definition rbit (d : detector) (k : nat) : bool :=
  match map_panel load ztol v d with Ok m => match reached load d m with Ok r => nth k r false | Err _ => false end | Err _ => false end.
Lemma rbit_spec d k q : usable load ztol v d -> nth_error grid k = Some q ->
  (rbit d k = true -> exists pt, meets load d q pt /\ all_good near load (d_panel d) pt) /\ (forall pt, meets load d q pt -> all_good nearby load (d_panel d) pt -> rbit d k = true).
Proof.
  intros U Hq. destruct (reach_lemma load ztol v d U) as (m & r & E1 & E2 & L & P). unfold rbit. rewrite E1, E2.
  destruct (P k q Hq) as (b & Hb & P1 & P2). rewrite (nth_error_nth _ _ false Hb). auto.
Qed.
Lemma combine_nth {A B} (l : list A) (r : list B) k a b : nth_error l k = Some a -> nth_error r k = Some b -> nth_error (combine l r) k = Some (a, b).
Proof. revert r k. induction l as [|x l IH]; intros [|y r] [|k] H1 H2; try discriminate; cbn in *; [congruence|apply IH; assumption]. Qed.
Lemma mask_all (parts : list (string * (detector * list (list Q)))) : (forall n d img, In (n, (d, img)) parts -> usable load ztol v d) ->
  forall maps mask, all_ok (map (fun d => map_panel load ztol v (snd d)) (detectors_of parts)) = Ok maps -> length mask = length grid ->
  exists mask', nan_mask_from load mask (combine (map snd (detectors_of parts)) maps) = Ok mask' /\ length mask' = length mask /\
  forall k b, nth_error mask k = Some b -> nth_error mask' k = Some (b && forallb (fun part => negb (rbit (fst (snd part)) k)) parts).
Proof.
  induction parts as [|[n [d img]] parts IH]; intros H maps mask E Lm.
  - exists mask. cbn. split; [reflexivity|]. split; [reflexivity|]. intros k b Hb. rewrite andb_true_r. exact Hb.
  - unfold detectors_of in *. cbn [map fst snd all_ok] in E |- *. pose proof (H n d img (or_introl eq_refl)) as U.
    destruct (reach_lemma load ztol v d U) as (m & r & E1 & E2 & L & P). rewrite E1 in E. cbn [rbind] in E.
    destruct (all_ok (map (fun d => map_panel load ztol v (snd d)) (map (fun q => (fst q, fst (snd q))) parts))) as [maps'|] eqn:E'; [|discriminate E]. cbn [rbind] in E. injection E as <-.
    cbn [combine nan_mask_from]. rewrite E2. cbn [rbind].
    set (mask1 := map (fun q => if snd q : bool then false else fst q) (combine mask r)).
    assert (L1 : length mask1 = length grid) by (unfold mask1; rewrite map_length, combine_length, Lm, L; apply Nat.min_id).
    destruct (IH (fun n d img Hin => H n d img (or_intror Hin)) maps' mask1 eq_refl L1) as (mask2 & E3 & L2 & P2).
    exists mask2. split; [exact E3|]. split; [congruence|]. intros k b Hb.
    destruct (nth_error r k) as [c|] eqn:Hc; [|apply nth_error_None in Hc; assert (k < length mask)%nat by (apply nth_error_Some; rewrite Hb; discriminate); assert (L' : length mask = length r) by (rewrite Lm; symmetry; exact L); lia].
    rewrite (P2 k (if c then false else b)).
    + cbn [forallb fst snd]. assert (R : rbit d k = c) by (unfold rbit; rewrite E1, E2; apply (nth_error_nth _ _ false Hc)). rewrite R. destruct c; cbn [negb]; [rewrite !andb_false_r; reflexivity|reflexivity].
    + unfold mask1. rewrite nth_error_map, (combine_nth _ _ _ _ _ Hb Hc). reflexivity.
Qed.
Lemma reshape_ok {A} (l : list A) : (0 <= neta v)%Z -> (0 <= ntth v)%Z -> length l = length grid ->
  exists m, reshape v l = Ok m /\ (forall i j, (i < Z.to_nat (neta v))%nat -> (j < Z.to_nat (ntth v))%nat -> entry m i j = nth_error l (i * Z.to_nat (ntth v) + j)).
Proof.
  intros H1 H2 L. unfold grid in L. rewrite grid_len in L. unfold reshape.
  replace (Z.of_nat (length l) =? neta v * ntth v)%Z with true by (symmetry; apply Z.eqb_eq; rewrite L, Nat2Z.inj_mul, !Z2Nat.id by assumption; reflexivity).
  rewrite (proj2 (Z.leb_le _ _) H1), (proj2 (Z.leb_le _ _) H2). cbn [andb]. eexists. split; [reflexivity|]. intros i j Hi Hj. apply rows_entry; assumption.
Qed.
Lemma warp_all parts imgs pad : (0 <= neta v)%Z -> (0 <= ntth v)%Z -> parts <> [] -> given imgs parts -> (forall n d img, In (n, (d, img)) parts -> usable load ztol v d) ->
  exists w, warp_image load ztol (Polar v (detectors_of parts) None) imgs pad = Ok w /\
  forall i j q, entry (angular_grid v) i j = Some q ->
  exists cs x, Forall2 (fun part c => adds load q (fst (snd part)) (snd (snd part)) c) parts cs /\ x == total cs /\
    let b := forallb (fun part => negb (rbit (fst (snd part)) (i * Z.to_nat (ntth v) + j))) parts in
    entry (w_mask w) i j = Some b /\ entry (w_data w) i j = Some (if pad && b then None else Some x).
Proof.
  intros H1 H2 NE (ND & G) U.
  destruct (sum_all imgs parts ND) with (out := map (fun _ : Q * Q => Some 0) grid) as (maps & out & E1 & E2 & L & Lm & X & P).
  { intros n d img Hin. destruct (G n d img Hin). split; [assumption|]. split; [assumption|]. exact (U n d img Hin). }
  { apply map_length. }
  destruct (mask_all parts U maps (repeat true (Z.to_nat (neta v * ntth v))) E1) as (mask & E3 & L3 & P3).
  { rewrite repeat_length. unfold grid. rewrite grid_len. apply Z2Nat.inj_mul; assumption. }
  rewrite map_length in L. rewrite repeat_length in L3.
  assert (L3' : length mask = length grid) by (rewrite L3; unfold grid; rewrite grid_len; apply Z2Nat.inj_mul; assumption).
  unfold warp_image, coordinate_mapping, nan_mask. cbn [p_cache p_view p_dets].
  replace ((ntth v <? 0) || (neta v <? 0))%Z with false by (symmetry; apply orb_false_iff; rewrite !Z.ltb_ge; auto).
  rewrite E1. cbn [rbind]. rewrite E3. cbn [rbind]. unfold warp_from.
  destruct maps as [|m0 maps]; [destruct parts; [congruence|discriminate Lm]|].
  assert (S0 : map (fun _ : option (Q * Q) => Some 0) (m_xypts m0) = map (fun _ : Q * Q => Some 0) grid).
  { assert (Y : length (m_xypts m0) = length grid) by (apply X; left; reflexivity). revert Y. generalize (m_xypts m0). intros l. clear. revert l. induction grid as [|a g IH]; intros [|b l] Y; try discriminate Y; [reflexivity|]. cbn. f_equal. apply IH. injection Y as Y. exact Y. }
  rewrite S0, E2. cbn [rbind].
  set (s' := if pad then map (fun q => if snd q : bool then None else fst q) (combine out mask) else out).
  assert (Ls : length s' = length grid) by (unfold s'; destruct pad; [rewrite map_length, combine_length, L, L3'; apply Nat.min_id|exact L]).
  destruct (reshape_ok s' H1 H2 Ls) as (data & E4 & P4). destruct (reshape_ok mask H1 H2 L3') as (mk & E5 & P5). rewrite E4, E5. cbn [rbind].
  eexists. split; [reflexivity|]. cbn [w_mask w_data]. intros i j q Hq.
  assert (IJ : (i < Z.to_nat (neta v))%nat /\ (j < Z.to_nat (ntth v))%nat).
  { rewrite grid_entry in Hq. destruct (nth_error (eta_vec v) i) eqn:Ei; [|discriminate Hq]. destruct (nth_error (tth_vec v) j) eqn:Ej; [|discriminate Hq].
    rewrite <- eta_len, <- tth_len. split; apply nth_error_Some; congruence. }
  destruct IJ as (Hi & Hj). pose proof Hq as Hk. rewrite <- grid_flat in Hk by exact Hj. fold grid in Hk. set (k := (i * Z.to_nat (ntth v) + j)%nat) in *.
  destruct (P k q 0 Hk) as (cs & x & Fa & Hx & Ex); [apply map_nth_some; eauto|].
  exists cs, x. split; [exact Fa|]. split; [rewrite Ex; ring|]. cbv zeta.
  assert (Kl : (k < Z.to_nat (neta v * ntth v))%nat) by (rewrite <- L3, L3'; apply nth_error_Some; rewrite Hk; discriminate).
  assert (Hm : nth_error mask k = Some (forallb (fun part => negb (rbit (fst (snd part)) k)) parts)).
  { rewrite (P3 k true); [reflexivity|]. rewrite (nth_error_nth' _ true); [|rewrite repeat_length; exact Kl]. f_equal. rewrite nth_repeat. reflexivity. }
  rewrite P5, P4 by assumption. fold k. split; [exact Hm|]. unfold s'. destruct pad; cbn [andb]; [|exact Hx].
  rewrite nth_error_map, (combine_nth _ _ _ _ _ Hx Hm). cbn [option_map fst snd]. reflexivity.
Qed.
End Detectors.

(** ** the order of the detectors *)
Lemma adds_unique load q d img c c' : adds load q d img c -> adds load q d img c' -> c == c'.
Proof.
  intros [(pt & M & (i & j & t & s & B) & H)|(N & Z)] [(pt' & M' & _ & H')|(N' & Z')].
  - destruct M as (M1 & M2), M' as (M1' & M2'). rewrite M1 in M1'. injection M1' as <-. rewrite (H _ _ _ _ B), (H' _ _ _ _ B). reflexivity.
  - exfalso. apply N'. eauto.
  - exfalso. apply N. eauto.
  - rewrite Z, Z'. reflexivity.
Qed.
Lemma total_perm l l' : Permutation l l' -> total l == total l'.
Proof. induction 1; unfold total in *; cbn [fold_right]; [reflexivity|rewrite IHPermutation; reflexivity|ring|etransitivity; eassumption]. Qed.
Lemma total_ext l l' : Forall2 Qeq l l' -> total l == total l'.
Proof. induction 1; unfold total in *; cbn [fold_right]; [reflexivity|]. rewrite H, IHForall2. reflexivity. Qed.
Lemma adds_same_sum load q (parts parts' : list (string * (detector * list (list Q)))) cs cs' : Permutation parts parts' ->
  Forall2 (fun part c => adds load q (fst (snd part)) (snd (snd part)) c) parts cs -> Forall2 (fun part c => adds load q (fst (snd part)) (snd (snd part)) c) parts' cs' -> total cs == total cs'.
Proof.
  intros P F1 F2. destruct (Permutation_Forall2 P F1) as (cs1 & P1 & F3). rewrite (total_perm _ _ P1). apply total_ext.
  clear - F2 F3. revert cs1 F3. induction F2; intros cs1 F3; inversion F3; subst; constructor; [eapply adds_unique; eassumption|auto].
Qed.
