(** Lemmas for C16-C18. *)
From Verif Require Import Prelude ProcessModel ProcessSpec CacheModel CacheSpec.
From Coq Require Import Permutation.

Definition ent_of (img : image Z) (ij : nat * nat) : entry :=
  ((u16 (fst ij), u16 (snd ij)), px img (fst ij) (snd ij)).
Definition entries (img : image Z) (t : Z) : list entry := map (ent_of img) (above img t).

Definition step_px (img : image Z) (t : Z) (st : nat * buffer) (ij : nat * nat) : nat * buffer :=
  extract_pixel img t (fst ij) st (snd ij).

Lemma fold_prod img t (rows cols : list nat) st :
  fold_left (fun st i => fold_left (extract_pixel img t i) cols st) rows st =
  fold_left (step_px img t) (list_prod rows cols) st.
Proof.
  revert st; induction rows as [|i rows IH]; intros st; cbn [fold_left list_prod]; auto.
  rewrite fold_left_app, IH. f_equal. clear. revert st.
  induction cols as [|j cols IH]; intros st; cbn [fold_left map]; auto.
Qed.

Lemma fold_px img t l : forall n out,
  let sel := map (ent_of img) (filter (fun ij => (t <? px img (fst ij) (snd ij))%Z) l) in
  let r := fold_left (step_px img t) l (n, out) in
  fst r = n + length sel /\
  forall k, snd r k = if (Nat.leb n k && Nat.ltb k (n + length sel))%bool then nth (k - n) sel (out k) else out k.
Proof.
  induction l as [|[i j] l IH]; intros n out; cbv zeta.
  - cbn [fold_left filter map length fst snd]. split; [lia|]. intros k.
    destruct (Nat.leb_spec n k), (Nat.ltb_spec k (n + 0)); cbn [andb]; auto; lia.
  - cbn [fold_left filter fst snd]. change (step_px img t (n, out) (i, j)) with
      (if (t <? px img i j)%Z then (S n, upd out n ((u16 i, u16 j), px img i j)) else (n, out)).
    destruct (t <? px img i j)%Z eqn:E.
    + cbn [map length]. pose proof (IH (S n) (upd out n ((u16 i, u16 j), px img i j))) as HH. cbv zeta in HH. destruct HH as [H1 H2]. split; [etransitivity; [exact H1|]; lia|].
      intros k. etransitivity; [exact (H2 k)|]. unfold upd.
      set (sel := map (ent_of img) (filter (fun ij => (t <? px img (fst ij) (snd ij))%Z) l)) in *.
      destruct (Nat.leb_spec (S n) k), (Nat.ltb_spec k (S n + length sel)), (Nat.leb_spec n k),
        (Nat.ltb_spec k (n + S (length sel))); cbn [andb]; try lia; destruct (Nat.eqb_spec k n); try lia; auto.
      * replace (k - n) with (S (k - S n)) by lia. cbn [nth]. reflexivity.
      * subst. replace (n - n) with 0 by lia. reflexivity.
    + apply IH.
Qed.

Lemma extract_spec img t out :
  fst (extract_ijv img t out) = length (above img t) /\
  (forall k, snd (extract_ijv img t out) k = nth k (entries img t) (out k)).
Proof.
  unfold extract_ijv. rewrite fold_prod. destruct (fold_px img t (pixels img) 0 out) as [H1 H2]. cbv zeta in H1, H2.
  fold (above img t) in H1, H2. fold (entries img t) in H1, H2. split.
  - unfold pixels in H1. rewrite H1. unfold entries. rewrite map_length. reflexivity.
  - intros k. unfold pixels in H2. rewrite H2. replace (k - 0) with k by lia. cbn [Nat.add].
    destruct (Nat.leb_spec 0 k), (Nat.ltb_spec k (length (entries img t))); cbn [andb]; auto; try lia.
    symmetry. apply nth_overflow. lia.
Qed.

Lemma entries_length img t : length (entries img t) = length (above img t).
Proof. apply map_length. Qed.

Lemma map_nth_seq {A} (l : list A) (f : nat -> A) (d : nat -> A) :
  (forall k, k < length l -> f k = nth k l (d k)) -> map f (seq 0 (length l)) = l.
Proof.
  revert f d; induction l as [|x l IH]; intros f d H; cbn; auto.
  f_equal; [apply (H 0); cbn; lia|]. rewrite <- seq_shift, map_map. apply (IH _ (fun k => d (S k))).
  intros k Hk. apply (H (S k)); cbn; lia.
Qed.

Lemma prefix_eq img t (b : buffer) :
  (forall k, k < length (above img t) -> exists d, b k = nth k (entries img t) d) ->
  prefix b (length (above img t)) = entries img t.
Proof.
  intros H. unfold prefix. rewrite <- (entries_length img t). apply (map_nth_seq _ _ b). intros k Hk.
  rewrite entries_length in Hk. destruct (H k Hk) as [d ->]. apply nth_indep. rewrite entries_length. auto.
Qed.

Lemma extract_prefix img t out :
  prefix (snd (extract_ijv img t out)) (fst (extract_ijv img t out)) = entries img t.
Proof.
  destruct (extract_spec img t out) as [H1 H2]. rewrite H1. apply prefix_eq. intros k Hk. exists (out k). apply H2.
Qed.

Lemma extract_frame img t out k : fst (extract_ijv img t out) <= k -> snd (extract_ijv img t out) k = out k.
Proof.
  destruct (extract_spec img t out) as [H1 H2]. rewrite H1, H2. intros Hk. apply nth_overflow. rewrite entries_length. auto.
Qed.

Lemma above_length img t : length (above img t) <= nr img * nc img.
Proof.
  unfold above, pixels. etransitivity; [apply (cnt_le (fun ij => (t <? px img (fst ij) (snd ij))%Z))|].
  rewrite prod_length, !seq_length. lia.
Qed.

Lemma u16_id n : (Z.of_nat n < 65536)%Z -> u16 n = n.
Proof. intros H. unfold u16. rewrite Z.mod_small by lia. lia. Qed.

Definition esum (i j : nat) (l : list entry) : Z :=
  fold_right (fun e s => if (Nat.eqb (fst (fst e)) i && Nat.eqb (snd (fst e)) j)%bool then (snd e + s)%Z else s) 0%Z l.

Lemma NoDup_list_prod {A B} (l : list A) (m : list B) : NoDup l -> NoDup m -> NoDup (list_prod l m).
Proof.
  intros Hl Hm. induction Hl as [|x l Hx Hl IH]; cbn; [constructor|].
  assert (N : NoDup (map (fun y => (x, y)) m)).
  { clear -Hm. induction Hm as [|y m Hy Hm IH]; cbn; constructor; auto. rewrite in_map_iff. intros (z & E & Hz). congruence. }
  assert (D : forall p, In p (map (fun y => (x, y)) m) -> ~ In p (list_prod l m)).
  { intros p Hp Hq. apply in_map_iff in Hp as (y & <- & _). apply in_prod_iff in Hq. tauto. }
  revert N D. generalize (map (fun y => (x, y)) m) as k. induction k as [|p k IHk]; intros N D; cbn; auto.
  inversion N; subst. constructor.
  - rewrite in_app_iff. intros [H|H]; [auto|]. apply (D p); cbn; auto.
  - apply IHk; auto. intros q Hq. apply D. right; auto.
Qed.

Definition pair_dec (p q : nat * nat) : {p = q} + {p <> q}.
Proof. decide equality; apply Nat.eq_dec. Defined.

Lemma esum_unique i j (f : nat * nat -> Z) l : NoDup l ->
  esum i j (map (fun p => (p, f p)) l) = if in_dec pair_dec (i, j) l then f (i, j) else 0%Z.
Proof.
  induction 1 as [|[a b] l Hx Hl IH]; cbn [map esum fold_right]; auto. fold (esum i j (map (fun p => (p, f p)) l)).
  rewrite IH. cbn [fst snd].
  destruct (Nat.eqb_spec a i), (Nat.eqb_spec b j); cbn [andb]; subst;
    repeat destruct (in_dec _ _ _); cbn in *; try lia; try tauto; exfalso; intuition congruence.
Qed.

Lemma in_pixels img i j : In (i, j) (pixels img) <-> i < nr img /\ j < nc img.
Proof. unfold pixels. rewrite in_prod_iff, !in_seq. lia. Qed.

Lemma in_above img t i j : In (i, j) (above img t) <-> i < nr img /\ j < nc img /\ (t < px img i j)%Z.
Proof. unfold above. rewrite filter_In, in_pixels. cbn [fst snd]. rewrite Z.ltb_lt. tauto. Qed.

Lemma entries_fit img t : fits16 img -> entries img t = map (fun p => (p, px img (fst p) (snd p))) (above img t).
Proof.
  intros [H1 H2]. unfold entries. apply map_ext_in. intros [i j] Hin. apply in_above in Hin as (Hi & Hj & _).
  unfold ent_of. cbn [fst snd]. rewrite !u16_id by lia. reflexivity.
Qed.

Lemma rebuild_entries img t : fits16 img -> same_img (rebuild (nr img) (nc img) (entries img t)) (thresholded img t).
Proof.
  intros Hf. unfold rebuild, toarray, thresholded. split; [reflexivity|split; [reflexivity|]].
  cbn [nr nc px c_nr c_nc c_ent]. intros i j Hi Hj. fold (esum i j (entries img t)).
  rewrite entries_fit by auto. rewrite (esum_unique i j (fun p => px img (fst p) (snd p))).
  2:{ unfold above. apply NoDup_filter, NoDup_list_prod; apply seq_NoDup. }
  cbn [fst snd]. destruct (in_dec _ _ _) as [H|H]; rewrite in_above in H; destruct (Z.leb_spec (px img i j) t); auto; lia.
Qed.

(** Refutation: a frame with more than 65536 rows. *)
Lemma u16_wrap : u16 (Z.to_nat 65536) = 0.
Proof. unfold u16. rewrite Z2Nat.id by lia. reflexivity. Qed.
Lemma u16_0 : u16 0 = 0.
Proof. reflexivity. Qed.

Lemma rebuild_large (img : image Z) : nr img = Z.to_nat 65537 -> nc img = 1 ->
  (forall i j, px img i j = if (Z.of_nat i =? 65536)%Z then 1%Z else 0%Z) ->
  ~ same_img (rebuild (nr img) (nc img) (entries img 0%Z)) (thresholded img 0%Z).
Proof.
  intros Hr Hc Hp (_ & _ & H). specialize (H 0 0). unfold rebuild, toarray, thresholded in H. cbn [nr nc px c_nr c_nc c_ent] in H.
  fold (esum 0 0 (entries img 0%Z)) in H.
  assert (E : esum 0 0 (entries img 0) = 0%Z).
  { rewrite H by (rewrite ?Hr, ?Hc; lia). rewrite Hp. reflexivity. }
  assert (Hin : In ((0, 0), 1%Z) (entries img 0%Z)).
  { unfold entries. apply in_map_iff. exists (Z.to_nat 65536, 0). split.
    - unfold ent_of. cbn [fst snd]. rewrite Hp. rewrite Z2Nat.id by lia. rewrite Z.eqb_refl.
      rewrite u16_wrap, u16_0. reflexivity.
    - apply in_above. rewrite Hr, Hc, Hp. rewrite Z2Nat.id by lia. rewrite Z.eqb_refl. split; [|split]; lia. }
  assert (Hpos : forall e, In e (entries img 0%Z) -> (0 < snd e)%Z).
  { intros e He. unfold entries in He. apply in_map_iff in He as ([i j] & <- & He). apply in_above in He. unfold ent_of. cbn [fst snd]. lia. }
  assert (G : forall l, (forall e, In e l -> (0 < snd e)%Z) -> (0 <= esum 0 0 l)%Z /\ (In ((0,0),1%Z) l -> (0 < esum 0 0 l)%Z)).
  { clear. induction l as [|e l IH]; intros Hp; cbn [esum fold_right]; [split; [lia|intros []]|].
    fold (esum 0 0 l). destruct IH as [IH1 IH2]; [intros; apply Hp; right; auto|].
    pose proof (Hp e (or_introl eq_refl)) as He. split.
    - destruct (_ && _)%bool; lia.
    - intros [->|Hi]; [cbn [fst snd Nat.eqb andb]; lia|]. specialize (IH2 Hi). destruct (_ && _)%bool; lia. }
  destruct (G _ Hpos) as [_ G2]. specialize (G2 Hin). lia.
Qed.

(** ** fch5 writer *)
Section Fch5.
Variables (frames : list (image Z)) (t : Z).
Let n := length frames.
Definition fr (l : list (image Z)) (i : nat) : image Z := nth i l (Img 0 0 (fun _ _ => 0%Z)).
Let ents i := entries (fr frames i) t.
Let c i := length (ents i).
Let de : entry := ((0, 0), 0%Z).

Fixpoint chain (al : list (nat * nat)) (p0 p : nat) : Prop :=
  match al with
  | [] => p0 = p
  | (i, s) :: r => s = p0 /\ chain r (p0 + c i) p
  end.

Lemma chain_le al : forall p0 p, chain al p0 p -> p0 <= p.
Proof. induction al as [|[i s] al IH]; cbn; intros p0 p H; [lia|]. destruct H as [_ H]. apply IH in H. lia. Qed.

Lemma chain_in al : forall p0 p i s, chain al p0 p -> In (i, s) al -> p0 <= s /\ s + c i <= p.
Proof.
  induction al as [|[j u] al IH]; cbn; intros p0 p i s H Hin; [contradiction|].
  destruct H as [-> H]. destruct Hin as [E|Hin].
  - injection E as -> ->. apply chain_le in H. lia.
  - apply (IH _ _ _ _ H) in Hin. lia.
Qed.

Lemma chain_disjoint al : forall p0 p i s j u, chain al p0 p -> NoDup (map fst al) ->
  In (i, s) al -> In (j, u) al -> (i = j /\ s = u) \/ (i <> j /\ (s + c i <= u \/ u + c j <= s)).
Proof.
  induction al as [|[k v] al IH]; cbn [chain map fst In]; intros p0 p i s j u H Hn H1 H2; [contradiction|].
  destruct H as [-> H]. inversion Hn as [|x l Hx Hn' E]; subst. clear Hn.
  assert (A : forall a b, In (a, b) al -> a <> k /\ p0 + c k <= b).
  { intros a b Hab. split; [intros ->; apply Hx; apply (in_map fst) in Hab; exact Hab|]. apply (chain_in _ _ _ _ _ H) in Hab. lia. }
  destruct H1 as [E1|H1], H2 as [E2|H2].
  - left. split; congruence.
  - injection E1 as -> ->. right. apply A in H2. split; [intros ->; tauto|left; tauto].
  - injection E2 as -> ->. right. apply A in H1. split; [tauto|right; tauto].
  - eapply IH; eauto.
Qed.

Lemma chain_snoc al : forall p0 p i, chain al p0 p -> chain (al ++ [(i, p)]) p0 (p + c i).
Proof.
  induction al as [|[j u] al IH]; cbn [chain app]; intros p0 p i H; [subst; auto|]. destruct H as [-> H]. split; auto.
Qed.

Lemma chain_sum al : forall p0 p, chain al p0 p -> p = p0 + fold_right (fun i s => c i + s) 0 (map fst al).
Proof.
  induction al as [|[j u] al IH]; cbn [chain map fold_right fst]; intros p0 p H; [lia|]. destruct H as [_ H]. apply IH in H. lia.
Qed.

Definition bufok (b : buffer) (i : nat) : Prop := forall k, k < c i -> b k = nth k (ents i) de.
Definition dataok (st : fstate) (i s : nat) : Prop := forall k, k < c i -> f_data st (s + k) = snd (nth k (ents i) de).
Definition idxok (st : fstate) (i s : nat) : Prop := forall k, k < c i -> f_idx st (s + k) = fst (nth k (ents i) de).

Definition held (w : wstate) : option nat :=
  match w with
  | WIdle => None
  | WExtracted i _ | WAlloc i _ _ _ | WData i _ _ _ | WIdx i _ _ _ | WFid i _ _ => Some i
  end.

Definition wok (al : list (nat * nat)) (st : fstate) (b : buffer) (w : wstate) : Prop :=
  match w with
  | WIdle => True
  | WExtracted i k => k = c i /\ bufok b i /\ ~ In i (map fst al)
  | WAlloc i k s e => k = c i /\ bufok b i /\ In (i, s) al /\ e = s + c i
  | WData i k s e => k = c i /\ bufok b i /\ In (i, s) al /\ e = s + c i /\ dataok st i s
  | WIdx i k s e => In (i, s) al /\ e = s + c i /\ dataok st i s /\ idxok st i s
  | WFid i s e => In (i, s) al /\ e = s + c i /\ dataok st i s /\ idxok st i s /\ f_fids st (2 * i) = s
  end.

Definition done (al : list (nat * nat)) (st : fstate) (i : nat) : Prop :=
  exists s, In (i, s) al /\ dataok st i s /\ idxok st i s /\ f_fids st (2 * i) = s /\ f_fids st (2 * i + 1) = s + c i.

Record finv (st : fstate) (al : list (nat * nat)) (k : nat) : Prop := {
  v_len : length (f_bufs st) = length (f_ws st);
  v_k : k <= n;
  v_q : f_queue st = seq k (n - k);
  v_chain : chain al 0 (f_pos st);
  v_total : f_total st = f_pos st;
  v_nodup : NoDup (map fst al);
  v_al : forall i, In i (map fst al) -> i < k;
  v_held : forall w ws i, nth_error (f_ws st) w = Some ws -> held ws = Some i -> i < k;
  v_dist : forall w1 w2 x1 x2 i, nth_error (f_ws st) w1 = Some x1 -> nth_error (f_ws st) w2 = Some x2 ->
             held x1 = Some i -> held x2 = Some i -> w1 = w2;
  v_w : forall w ws b, nth_error (f_ws st) w = Some ws -> nth_error (f_bufs st) w = Some b -> wok al st b ws;
  v_done : forall i, i < k -> (exists w ws, nth_error (f_ws st) w = Some ws /\ held ws = Some i) \/ done al st i
}.

(** What a step may do to what the others rely on. *)
Record evolves (al : list (nat * nat)) (st st' : fstate) : Prop := {
  e_data : forall i s, In (i, s) al -> dataok st i s -> dataok st' i s;
  e_idx : forall i s, In (i, s) al -> idxok st i s -> idxok st' i s;
  e_f1 : forall i s, In (i, s) al -> f_fids st (2 * i) = s -> f_fids st' (2 * i) = s;
  e_f2 : forall i s, In (i, s) al -> f_fids st (2 * i + 1) = s + c i -> f_fids st' (2 * i + 1) = s + c i
}.

Lemma wok_mono al al' st st' b w : evolves al st st' -> (forall x, In x al -> In x al') ->
  (forall i k, w = WExtracted i k -> ~ In i (map fst al')) -> wok al st b w -> wok al' st' b w.
Proof.
  intros [E1 E2 E3 E4] Hs Hx. destruct w; cbn [wok]; intros H; decompose [and] H; repeat split; eauto.
Qed.

Lemma done_mono al al' st st' i : evolves al st st' -> (forall x, In x al -> In x al') -> done al st i -> done al' st' i.
Proof. intros [E1 E2 E3 E4] Hs (s & H1 & H2 & H3 & H4 & H5). exists s. auto 10. Qed.

(** The common part of every step: worker [w] moves from [x] to [x']. *)
Lemma step_inv st st' al al' k k' w x x' b b' :
  finv st al k ->
  nth_error (f_ws st) w = Some x -> nth_error (f_bufs st) w = Some b ->
  f_ws st' = set_nth w x' (f_ws st) -> f_bufs st' = set_nth w b' (f_bufs st) ->
  k <= k' -> k' <= n -> f_queue st' = seq k' (n - k') ->
  chain al' 0 (f_pos st') -> f_total st' = f_pos st' -> NoDup (map fst al') ->
  (forall i, In i (map fst al') -> i < k') ->
  (forall y, In y al -> In y al') ->
  evolves al st st' ->
  (held x' = None \/ held x' = held x \/ held x' = Some k /\ k < k') ->
  (forall w2 i m, w2 <> w -> nth_error (f_ws st) w2 = Some (WExtracted i m) -> ~ In i (map fst al')) ->
  wok al' st' b' x' ->
  (forall i, i < k' -> i < k \/ held x' = Some i) ->
  (forall i, held x = Some i -> held x' = Some i \/ done al' st' i) ->
  finv st' al' k'.
Proof.
  intros I Hx Hb Ews Eb Hk Hk' Hq Hc Ht Hn Hal Hsub Hev Hh Hex Hwok Hcov Hdone.
  assert (Lw : w < length (f_ws st)) by (apply nth_error_Some; congruence).
  assert (Lb : w < length (f_bufs st)) by (apply nth_error_Some; congruence).
  constructor; auto.
  - rewrite Ews, Eb, !set_nth_length. apply I.
  - intros w2 ws i H1 H2. rewrite Ews in H1. destruct (Nat.eq_dec w w2) as [<-|Hne].
    + rewrite set_nth_eq in H1 by auto. injection H1 as <-. destruct Hh as [Hh|[Hh|[Hh ?]]]; rewrite H2 in Hh; [discriminate| |].
      * symmetry in Hh. pose proof (v_held _ _ _ I _ _ _ Hx Hh). lia.
      * injection Hh as ->. lia.
    + rewrite set_nth_ne in H1 by auto. pose proof (v_held _ _ _ I _ _ _ H1 H2). lia.
  - assert (A : forall w2 y i, w2 <> w -> nth_error (f_ws st) w2 = Some y -> held y = Some i -> held x' = Some i -> False).
    { intros w2 y i Hne Hy1 Hy2 Hx'. destruct Hh as [Hh|[Hh|[Hh ?]]].
      - congruence.
      - apply Hne. eapply (v_dist _ _ _ I); eauto. congruence.
      - pose proof (v_held _ _ _ I _ _ _ Hy1 Hy2). rewrite Hx' in Hh. injection Hh as ->. lia. }
    intros w1 w2 x1 x2 i H1 H2 H3 H4. rewrite Ews in H1, H2.
    destruct (Nat.eq_dec w w1) as [<-|Hne1], (Nat.eq_dec w w2) as [<-|Hne2]; auto.
    + rewrite set_nth_eq in H1 by auto. rewrite set_nth_ne in H2 by auto. injection H1 as <-. exfalso; eapply (A w2); eauto.
    + rewrite set_nth_eq in H2 by auto. rewrite set_nth_ne in H1 by auto. injection H2 as <-. exfalso; eapply (A w1); eauto.
    + rewrite set_nth_ne in H1 by auto. rewrite set_nth_ne in H2 by auto. eapply (v_dist _ _ _ I); eauto.
  - intros w2 ws b2 H1 H2. rewrite Ews in H1. rewrite Eb in H2. destruct (Nat.eq_dec w w2) as [<-|Hne].
    + rewrite set_nth_eq in H1 by auto. rewrite set_nth_eq in H2 by auto. congruence.
    + rewrite set_nth_ne in H1 by auto. rewrite set_nth_ne in H2 by auto. eapply wok_mono; eauto; [|eapply (v_w _ _ _ I); eauto].
      intros i m ->. eapply Hex; eauto.
  - intros i Hi. destruct (Hcov i Hi) as [Hi'|Hi'].
    + destruct (v_done _ _ _ I i Hi') as [(w2 & y & H1 & H2)|Hd].
      * destruct (Nat.eq_dec w w2) as [<-|Hne].
        -- assert (y = x) by congruence. subst y. destruct (Hdone i H2) as [H|H]; [left|right; auto].
           exists w, x'. rewrite Ews, set_nth_eq by auto. auto.
        -- left. exists w2, y. rewrite Ews, set_nth_ne by auto. auto.
      * right. eapply done_mono; eauto.
    + left. exists w, x'. rewrite Ews, set_nth_eq by auto. auto.
Qed.

Lemma set_nth_same {A} (l : list A) i x : nth_error l i = Some x -> set_nth i x l = l.
Proof. revert i; induction l as [|y l IH]; intros [|i] H; cbn in *; try congruence. f_equal; auto. Qed.

Lemma evolves_same al st st' : f_data st' = f_data st -> f_idx st' = f_idx st -> f_fids st' = f_fids st -> evolves al st st'.
Proof. intros H1 H2 H3. split; intros i s _; unfold dataok, idxok; rewrite ?H1, ?H2, ?H3; auto. Qed.

Lemma write_range_in {A} (f : nat -> A) s e src k : s + k < e -> write_range f s e src (s + k) = src k.
Proof.
  intros H. unfold write_range. destruct (Nat.leb_spec s (s + k)), (Nat.ltb_spec (s + k) e); cbn [andb]; try lia.
  f_equal. lia.
Qed.
Lemma write_range_out {A} (f : nat -> A) s e src k : k < s \/ e <= k -> write_range f s e src k = f k.
Proof. intros H. unfold write_range. destruct (Nat.leb_spec s k), (Nat.ltb_spec k e); cbn [andb]; auto; lia. Qed.

Lemma fstep_inv st st' w al k : finv st al k -> fstep frames t st w = Some st' -> exists al' k', finv st' al' k'.
Proof.
  intros I H. unfold fstep in H.
  destruct (nth_error (f_ws st) w) as [x|] eqn:Ex; [|discriminate].
  destruct (nth_error (f_bufs st) w) as [b|] eqn:Eb; [|discriminate].
  pose proof (v_w _ _ _ I _ _ _ Ex Eb) as Hw.
  pose proof (v_al _ _ _ I) as Hal. pose proof (v_nodup _ _ _ I) as Hnd. pose proof (v_chain _ _ _ I) as Hch.
  assert (Hexn : forall w2 i m, w2 <> w -> nth_error (f_ws st) w2 = Some (WExtracted i m) -> ~ In i (map fst al)).
  { intros w2 i m _ Hw2. assert (Lb : w2 < length (f_bufs st)) by (rewrite (v_len _ _ _ I); apply nth_error_Some; congruence).
    destruct (nth_error (f_bufs st) w2) as [b2|] eqn:Eb2; [|apply nth_error_None in Eb2; lia].
    pose proof (v_w _ _ _ I _ _ _ Hw2 Eb2) as Hx. apply Hx. }
  destruct x as [|i m|i m s e|i m s e|i m s e|i s e]; cbn [wok] in Hw.
  - (* take a task *)
    rewrite (v_q _ _ _ I) in H. destruct (n - k) as [|d] eqn:Ed; [discriminate|]. cbn [seq] in H.
    destruct (nth_error frames k) as [img|] eqn:Ei; [|discriminate].
    destruct (extract_ijv img t b) as [cc b'] eqn:Ext. injection H as <-.
    assert (Hfr : fr frames k = img) by (unfold fr; apply nth_error_nth; auto).
    pose proof (extract_spec img t b) as [S1 S2]. rewrite Ext in S1, S2. cbn [fst snd] in S1, S2.
    pose proof (v_k _ _ _ I).
    exists al, (S k). eapply step_inv with (w := w) (x := WIdle) (x' := WExtracted k cc) (b' := b') (k := k); eauto; cbn [f_queue f_ws f_bufs f_pos f_total f_data f_idx f_fids held]; auto.
    + lia.
    + f_equal. lia.
    + apply (v_total _ _ _ I).
    + intros i Hi. apply Hal in Hi. lia.
    + apply evolves_same; reflexivity.
    + split; [unfold c, ents; rewrite Hfr, entries_length; auto|]. split.
      * intros j Hj. rewrite S2. unfold ents. rewrite Hfr. apply nth_indep. unfold c, ents in Hj. rewrite Hfr in Hj. auto.
      * intros Hin. apply Hal in Hin. lia.
    + intros i Hi. destruct (Nat.eq_dec i k); [right; congruence|left; lia].
    + discriminate.
  - (* allocate *)
    injection H as <-. destruct Hw as (-> & Hbuf & Hni).
    assert (Hik : i < k) by (eapply (v_held _ _ _ I); eauto; reflexivity).
    exists (al ++ [(i, f_pos st)]), k.
    assert (Hni2 : forall j, In j (map fst (al ++ [(i, f_pos st)])) -> In j (map fst al) \/ j = i).
    { intros j. rewrite map_app, in_app_iff. cbn. intuition. }
    eapply step_inv with (w := w) (x := WExtracted i (c i)) (x' := WAlloc i (c i) (f_pos st) (f_pos st + c i)) (k := k) (b' := b); eauto using (v_k _ _ _ I); cbn [f_queue f_ws f_bufs f_pos f_total f_data f_idx f_fids held]; auto using (v_k _ _ _ I), (v_q _ _ _ I), (v_total _ _ _ I).
    + rewrite set_nth_same by auto. reflexivity.
    + apply chain_snoc; auto.
    + rewrite (v_total _ _ _ I). lia.
    + rewrite map_app. apply NoDup_app_snoc; auto.
    + intros j Hj. apply Hni2 in Hj as [Hj| ->]; auto.
    + intros y Hy. apply in_or_app; auto.
    + apply evolves_same; reflexivity.
    + intros w2 j m Hne Hw2 Hin. apply Hni2 in Hin as [Hin| ->]; [eapply Hexn; eauto|].
      apply Hne. eapply (v_dist _ _ _ I); eauto; reflexivity.
    + split; [auto|split; [auto|split; [apply in_or_app; right; left; auto|auto]]].
  - (* write data *)
    injection H as <-. destruct Hw as (-> & Hbuf & Hin & ->). exists al, k.
    eapply step_inv with (w := w) (x := WAlloc i (c i) s (s + c i)) (x' := WData i (c i) s (s + c i)) (k := k) (b' := b); eauto using (v_k _ _ _ I); cbn [f_queue f_ws f_bufs f_pos f_total f_data f_idx f_fids held]; auto using (v_k _ _ _ I), (v_q _ _ _ I), (v_total _ _ _ I).
    + rewrite set_nth_same by auto. reflexivity.
    + split; cbn; auto. intros j u Hju Hok q Hq. cbn.
      destruct (chain_disjoint _ _ _ _ _ _ _ Hch Hnd Hin Hju) as [[<- <-]|[_ Hd]].
      * rewrite write_range_in by lia. rewrite Hbuf; auto.
      * rewrite write_range_out by lia. apply Hok; auto.
    + repeat split; auto. intros q Hq. cbn. rewrite write_range_in by lia. rewrite Hbuf; auto.
  - (* write indices *)
    injection H as <-. destruct Hw as (-> & Hbuf & Hin & -> & Hd0). exists al, k.
    eapply step_inv with (w := w) (x := WData i (c i) s (s + c i)) (x' := WIdx i (c i) s (s + c i)) (k := k) (b' := b); eauto using (v_k _ _ _ I); cbn [f_queue f_ws f_bufs f_pos f_total f_data f_idx f_fids held]; auto using (v_k _ _ _ I), (v_q _ _ _ I), (v_total _ _ _ I).
    + rewrite set_nth_same by auto. reflexivity.
    + split; cbn; auto. intros j u Hju Hok q Hq. cbn.
      destruct (chain_disjoint _ _ _ _ _ _ _ Hch Hnd Hin Hju) as [[<- <-]|[_ Hd]].
      * rewrite write_range_in by lia. rewrite Hbuf; auto.
      * rewrite write_range_out by lia. apply Hok; auto.
    + repeat split; auto. intros q Hq. cbn. rewrite write_range_in by lia. rewrite Hbuf; auto.
  - (* first frame id *)
    injection H as <-. destruct Hw as (Hin & -> & Hd1 & Hd2). exists al, k.
    eapply step_inv with (w := w) (x := WIdx i m s (s + c i)) (x' := WFid i s (s + c i)) (k := k) (b' := b); eauto using (v_k _ _ _ I); cbn [f_queue f_ws f_bufs f_pos f_total f_data f_idx f_fids held]; auto using (v_k _ _ _ I), (v_q _ _ _ I), (v_total _ _ _ I).
    + rewrite set_nth_same by auto. reflexivity.
    + split; cbn [f_data f_idx f_fids]; auto; intros j u Hju Hok; unfold upd; match goal with |- context [Nat.eqb ?a ?b] => destruct (Nat.eqb_spec a b) as [Ej|] end; auto.
      * assert (j = i) by lia. subst j. destruct (chain_disjoint _ _ _ _ _ _ _ Hch Hnd Hin Hju) as [[_ ?]|[? _]]; auto; contradiction.
      * exfalso. lia.
    + repeat split; auto. cbn [f_fids]. unfold upd. rewrite Nat.eqb_refl. auto.
  - (* second frame id *)
    injection H as <-. destruct Hw as (Hin & -> & Hd1 & Hd2 & Hf). exists al, k.
    assert (Hev : evolves al st {| f_queue := f_queue st; f_ws := set_nth w WIdle (f_ws st); f_bufs := f_bufs st;
       f_pos := f_pos st; f_total := f_total st; f_data := f_data st; f_idx := f_idx st;
       f_fids := upd (f_fids st) (2 * i + 1) (s + c i) |}).
    { split; cbn [f_data f_idx f_fids]; auto; intros j u Hju Hok; unfold upd; match goal with |- context [Nat.eqb ?a ?b] => destruct (Nat.eqb_spec a b) as [Ej|] end; auto.
      - exfalso. lia.
      - assert (j = i) by lia. subst j. destruct (chain_disjoint _ _ _ _ _ _ _ Hch Hnd Hin Hju) as [[_ ?]|[? _]]; [lia|contradiction]. }
    eapply step_inv with (w := w) (x := WFid i s (s + c i)) (x' := WIdle) (k := k) (b' := b); eauto using (v_k _ _ _ I); cbn [f_queue f_ws f_bufs f_pos f_total f_data f_idx f_fids held]; auto using (v_k _ _ _ I), (v_q _ _ _ I), (v_total _ _ _ I).
    + rewrite set_nth_same by auto. reflexivity.
    + cbn [wok]. constructor.
    + intros j Hj. injection Hj as <-. right. exists s. repeat split; auto.
      * apply (e_f1 _ _ _ Hev); auto.
      * cbn [f_fids]. unfold upd. rewrite Nat.eqb_refl. auto.
Qed.

Lemma finit_inv bufs d x f : finv (finit n bufs d x f) [] 0.
Proof.
  assert (A : forall w ws, nth_error (map (fun _ : buffer => WIdle) bufs) w = Some ws -> ws = WIdle).
  { intros w ws H. rewrite nth_error_map in H. destruct (nth_error bufs w); cbn in H; congruence. }
  constructor; cbn [finit f_queue f_ws f_bufs f_pos f_total chain map fst In]; auto.
  - rewrite map_length. reflexivity.
  - lia.
  - f_equal. lia.
  - constructor.
  - intros i [].
  - intros w ws i H. apply A in H. subst. discriminate.
  - intros w1 w2 x1 x2 i H. apply A in H. subst. discriminate.
  - intros w ws b H. apply A in H. subst. constructor.
  - lia.
Qed.

Lemma frun_inv sched : forall st st' al k, finv st al k -> frun frames t st sched = Some st' -> exists al' k', finv st' al' k'.
Proof.
  induction sched as [|w sched IH]; cbn [frun]; intros st st' al k I H.
  - injection H as <-. eauto.
  - destruct (fstep frames t st w) as [st1|] eqn:E; [|discriminate].
    destruct (fstep_inv _ _ _ _ _ I E) as (al1 & k1 & I1). eauto.
Qed.

Lemma finished_done st al k : finv st al k -> ffinished st = true -> k = n /\ forall i, i < n -> done al st i.
Proof.
  intros I H. unfold ffinished in H. rewrite (v_q _ _ _ I) in H. destruct (n - k) as [|d] eqn:Ed; [|discriminate]. cbn [seq] in H.
  pose proof (v_k _ _ _ I). assert (k = n) by lia. split; auto. intros i Hi.
  destruct (v_done _ _ _ I i) as [(w & ws & G1 & G2)|Hd]; auto; [lia|].
  exfalso. rewrite forallb_forall in H. specialize (H ws (nth_error_In _ _ G1)). destruct ws; cbn in *; discriminate.
Qed.

Lemma seq_map_shift {A} (f : nat -> A) s m : map f (seq s m) = map (fun k => f (s + k)) (seq 0 m).
Proof.
  revert s f. induction m as [|m IH]; intros s f; cbn [seq map]; auto. f_equal; [f_equal; lia|].
  rewrite (IH (S s)), (IH 1). apply map_ext. intros k. f_equal. lia.
Qed.

Lemma done_read st al k i : finv st al k -> done al st i -> fch5_read st i = ents i.
Proof.
  intros I (s & H1 & H2 & H3 & H4 & H5). unfold fch5_read. rewrite H4, H5.
  pose proof (chain_in _ _ _ _ _ (v_chain _ _ _ I) H1) as [_ Hle]. rewrite (v_total _ _ _ I), Nat.min_l by lia.
  replace (s + c i - s) with (c i) by lia. rewrite seq_map_shift.
  apply (map_nth_seq (ents i) _ (fun _ => de)). intros q Hq. fold (c i) in Hq.
  rewrite H2, H3 by auto. destruct (nth q (ents i) de); reflexivity.
Qed.

Lemma done_disjoint st al k i j : finv st al k -> done al st i -> done al st j -> i <> j ->
  disjoint_ranges (range_in_file st i) (range_in_file st j).
Proof.
  intros I (s & H1 & _ & _ & H4 & H5) (u & G1 & _ & _ & G4 & G5) Hne q. unfold range_in_file. cbn [fst snd].
  rewrite H4, H5, G4, G5.
  destruct (chain_disjoint _ _ _ _ _ _ _ (v_chain _ _ _ I) (v_nodup _ _ _ I) H1 G1) as [[? _]|[_ ?]]; [congruence|lia].
Qed.

Lemma done_in_file st al k i : finv st al k -> done al st i ->
  f_fids st (2 * i) <= f_fids st (2 * i + 1) <= f_total st.
Proof.
  intros I (s & H1 & _ & _ & H4 & H5). pose proof (chain_in _ _ _ _ _ (v_chain _ _ _ I) H1) as [_ Hle].
  rewrite (v_total _ _ _ I). lia.
Qed.

Lemma sum_perm (f : nat -> nat) l1 l2 : Permutation l1 l2 ->
  fold_right (fun i s => f i + s) 0 l1 = fold_right (fun i s => f i + s) 0 l2.
Proof. induction 1; cbn; lia. Qed.

Lemma total_seq (l : list (image Z)) : total_above l t =
  fold_right (fun i s => length (entries (fr l i) t) + s) 0 (seq 0 (length l)).
Proof.
  induction l as [|img l IH]; cbn [total_above fold_right length seq]; auto. fold (total_above l t). rewrite IH.
  f_equal; [cbn; rewrite entries_length; auto|]. rewrite <- seq_shift.
  generalize (seq 0 (length l)) as q. clear. induction q as [|x q IH]; cbn [map fold_right]; auto; rewrite IH; reflexivity.
Qed.

Lemma finished_total st al k : finv st al k -> ffinished st = true -> f_total st = total_above frames t.
Proof.
  intros I H. destruct (finished_done _ _ _ I H) as [-> Hd]. rewrite (v_total _ _ _ I).
  rewrite (chain_sum _ _ _ (v_chain _ _ _ I)). rewrite total_seq. cbn [Nat.add]. apply (sum_perm c).
  apply NoDup_Permutation; [apply I|apply seq_NoDup|]. intros i. rewrite in_seq. split.
  - intros Hi. apply (v_al _ _ _ I) in Hi. fold n. lia.
  - intros Hi. destruct (Hd i) as (s & Hs & _); [fold n in Hi; lia|]. apply (in_map fst) in Hs. exact Hs.
Qed.

Lemma pos_bound st al k R C : (forall img, In img frames -> nr img = R /\ nc img = C) -> finv st al k ->
  f_pos st <= k * (R * C).
Proof.
  intros Hs I. rewrite (chain_sum _ _ _ (v_chain _ _ _ I)). cbn [Nat.add].
  assert (A : length (map fst al) <= k).
  { rewrite <- (seq_length k 0). apply NoDup_incl_length; [apply I|]. intros i Hi. apply (v_al _ _ _ I) in Hi. apply in_seq. lia. }
  assert (B : forall i, In i (map fst al) -> c i <= R * C).
  { intros i Hi. apply (v_al _ _ _ I) in Hi. pose proof (v_k _ _ _ I). unfold c, ents. rewrite entries_length.
    destruct (Hs (fr frames i)) as [H1 H2]; [apply nth_In; fold n; lia|]. rewrite <- H1, <- H2. apply above_length. }
  etransitivity; [|apply Nat.mul_le_mono_r; exact A]. revert B. clear. generalize (map fst al) as l.
  induction l as [|x l IH]; intros B; cbn [fold_right length]; [lia|].
  pose proof (B x (or_introl eq_refl)). specialize (IH (fun i Hi => B i (or_intror Hi))). lia.
Qed.

Lemma worker_in_bounds st al k R C w ws s e : (forall img, In img frames -> nr img = R /\ nc img = C) -> finv st al k ->
  nth_error (f_ws st) w = Some ws -> (exists i m, ws = WAlloc i m s e \/ ws = WData i m s e) ->
  s <= e <= n * (R * C).
Proof.
  intros Hs I Hw (i & m & Hx).
  assert (Lb : w < length (f_bufs st)) by (rewrite (v_len _ _ _ I); apply nth_error_Some; congruence).
  destruct (nth_error (f_bufs st) w) as [b|] eqn:Eb; [|apply nth_error_None in Eb; lia].
  pose proof (v_w _ _ _ I _ _ _ Hw Eb) as Hok. pose proof (pos_bound _ _ _ _ _ Hs I) as Hp. pose proof (v_k _ _ _ I) as Hk.
  assert (k * (R * C) <= n * (R * C)) by (apply Nat.mul_le_mono_r; auto).
  assert (A : In (i, s) al /\ e = s + c i) by (destruct Hx as [-> | ->]; cbn [wok] in Hok; tauto).
  destruct A as [A ->]. apply (chain_in _ _ _ _ _ (v_chain _ _ _ I)) in A. lia.
Qed.

(** Progress and termination. *)
Definition wwork (w : wstate) : nat :=
  match w with WIdle => 0 | WExtracted _ _ => 5 | WAlloc _ _ _ _ => 4 | WData _ _ _ _ => 3 | WIdx _ _ _ _ => 2 | WFid _ _ _ => 1 end.
Definition fwork (st : fstate) : nat := 6 * length (f_queue st) + list_sum (map wwork (f_ws st)).

Lemma sum_set_nth (l : list wstate) w x x' : nth_error l w = Some x ->
  list_sum (map wwork (set_nth w x' l)) + wwork x = list_sum (map wwork l) + wwork x'.
Proof.
  unfold list_sum. revert w; induction l as [|y l IH]; intros [|w] H; cbn [map fold_right set_nth nth_error] in *; try discriminate.
  - injection H as ->. lia.
  - apply IH in H. lia.
Qed.

Lemma fstep_work st st' w : fstep frames t st w = Some st' -> S (fwork st') = fwork st.
Proof.
  unfold fstep. destruct (nth_error (f_ws st) w) as [x|] eqn:Ex; [|discriminate].
  destruct (nth_error (f_bufs st) w) as [b|] eqn:Eb; [|discriminate].
  unfold fwork. destruct x.
  1: destruct (f_queue st) as [|q qs] eqn:Eq; [discriminate|]; destruct (nth_error frames q); [|discriminate];
     destruct (extract_ijv _ _ _) as [cc b'].
  all: intros H; injection H as <-; cbn [f_queue f_ws].
  all: match goal with |- context [set_nth _ ?x' _] => pose proof (sum_set_nth _ _ _ x' Ex) as Hs end; cbn [wwork length] in *; lia.
Qed.

Lemma frun_work sched : forall st st', frun frames t st sched = Some st' -> length sched + fwork st' = fwork st.
Proof.
  induction sched as [|w sched IH]; cbn [frun length]; intros st st' H; [injection H as <-; lia|].
  destruct (fstep frames t st w) as [st1|] eqn:E; [|discriminate]. apply fstep_work in E. apply IH in H. lia.
Qed.

Lemma fwork_init bufs d x f : fwork (finit n bufs d x f) = 6 * n.
Proof.
  unfold fwork, finit. cbn [f_queue f_ws]. rewrite seq_length.
  assert (A : list_sum (map wwork (map (fun _ : buffer => WIdle) bufs)) = 0) by (induction bufs; cbn in *; auto). lia.
Qed.

Lemma fwork_finished st : ffinished st = true -> fwork st = 0.
Proof.
  unfold ffinished, fwork. destruct (f_queue st); [|discriminate]. cbn [length]. generalize (f_ws st) as l.
  induction l as [|x l IH]; cbn; auto. destruct x; cbn; try discriminate. exact IH.
Qed.

Lemma fprogress st al k : finv st al k -> f_ws st <> [] -> ffinished st = false ->
  exists w st', fstep frames t st w = Some st'.
Proof.
  intros I Hne Hf. destruct (forallb is_idle (f_ws st)) eqn:Ei.
  - destruct (f_ws st) as [|x l] eqn:El; [contradiction|]. exists 0.
    assert (x = WIdle) by (cbn in Ei; destruct x; cbn in Ei; try discriminate; auto). subst x.
    unfold ffinished in Hf. rewrite El, Ei in Hf. rewrite (v_q _ _ _ I) in Hf.
    unfold fstep. rewrite El. cbn [nth_error].
    pose proof (v_len _ _ _ I) as Hl. rewrite El in Hl. destruct (f_bufs st) as [|b bs]; [discriminate|]. cbn [nth_error].
    rewrite (v_q _ _ _ I). destruct (n - k) as [|d] eqn:Ed; [discriminate|]. cbn [seq].
    destruct (nth_error frames k) as [img|] eqn:E; [|apply nth_error_None in E; fold n in E; lia].
    destruct (extract_ijv img t b). eauto.
  - assert (A : exists x, In x (f_ws st) /\ is_idle x = false).
    { clear -Ei. revert Ei. generalize (f_ws st) as l. induction l as [|x l IH]; cbn; [discriminate|].
      destruct (is_idle x) eqn:E; cbn; intros H; [destruct (IH H) as (y & ? & ?); eauto|eauto]. }
    destruct A as (x & Hx & Hi). apply In_nth_error in Hx as [w Hw]. exists w. unfold fstep. rewrite Hw.
    assert (Lb : w < length (f_bufs st)) by (rewrite (v_len _ _ _ I); apply nth_error_Some; congruence).
    destruct (nth_error (f_bufs st) w) as [b|] eqn:Eb; [|apply nth_error_None in Eb; lia].
    destruct x; [discriminate Hi| | | | | ]; eauto.
Qed.
End Fch5.

(** ** npz writer *)
Section Npz.
Variables (frames : list (image Z)) (t : Z).
Let n := length frames.
Let ents i := entries (fr frames i) t.
Let c i := length (ents i).
Let de : entry := ((0, 0), 0%Z).

Definition nheld (w : nstate) : option nat :=
  match w with NStart | NIdle _ => None | NExtr _ i _ | NRow _ i _ | NCol _ i _ => Some i end.
Definition rowok (st : npz) i := n_row st i = Some (map (fun e => fst (fst e)) (ents i)).
Definition colok (st : npz) i := n_col st i = Some (map (fun e => snd (fst e)) (ents i)).
Definition valok (st : npz) i := n_data st i = Some (map snd (ents i)).
Definition nbufok (b : buffer) (i k : nat) : Prop := prefix b k = ents i.

Definition nok (st : npz) (w : nstate) : Prop :=
  match w with
  | NStart | NIdle _ => True
  | NExtr b i k => nbufok (n_bufs st b) i k
  | NRow b i k => nbufok (n_bufs st b) i k /\ rowok st i
  | NCol b i k => nbufok (n_bufs st b) i k /\ rowok st i /\ colok st i
  end.
Definition ndone (st : npz) i := rowok st i /\ colok st i /\ valok st i.
Definition started (w : nstate) : bool := match w with NStart => false | _ => true end.

Record ninv (st : npz) (k : nat) : Prop := {
  u_k : k <= n;
  u_q : n_queue st = seq k (n - k);
  u_nb : n_nbuf st = cnt started (n_ws st);
  u_lt : forall w x b, nth_error (n_ws st) w = Some x -> buffer_of x = Some b -> b < n_nbuf st;
  u_dist : forall w1 w2 x1 x2 b, nth_error (n_ws st) w1 = Some x1 -> nth_error (n_ws st) w2 = Some x2 ->
             buffer_of x1 = Some b -> buffer_of x2 = Some b -> w1 = w2;
  u_w : forall w x, nth_error (n_ws st) w = Some x -> nok st x;
  u_done : forall i, i < k -> (exists w x, nth_error (n_ws st) w = Some x /\ nheld x = Some i) \/ ndone st i
}.

Definition nevolves (st st' : npz) (b : option nat) : Prop :=
  (forall b', b <> Some b' -> n_bufs st' b' = n_bufs st b') /\
  (forall i, rowok st i -> rowok st' i) /\ (forall i, colok st i -> colok st' i) /\ (forall i, valok st i -> valok st' i).

Lemma nstep_inv_common st st' k k' w x x' :
  ninv st k -> nth_error (n_ws st) w = Some x -> n_ws st' = set_nth w x' (n_ws st) ->
  k <= k' -> k' <= n -> n_queue st' = seq k' (n - k') ->
  n_nbuf st <= n_nbuf st' -> n_nbuf st' = n_nbuf st + (if started x then 0 else 1) -> started x' = true ->
  (buffer_of x' = buffer_of x \/ buffer_of x = None /\ buffer_of x' = Some (n_nbuf st) /\ n_nbuf st < n_nbuf st') ->
  nevolves st st' (buffer_of x) -> nok st' x' ->
  (forall i, i < k' -> i < k \/ nheld x' = Some i) ->
  (forall i, nheld x = Some i -> nheld x' = Some i \/ ndone st' i) ->
  ninv st' k'.
Proof.
  intros I Hx Ews Hk Hk' Hq Hnb Hnb2 Hst Hb (Ev1 & Ev2 & Ev3 & Ev4) Hok Hcov Hd.
  assert (Lw : w < length (n_ws st)) by (apply nth_error_Some; congruence).
  assert (G : forall w2 y, nth_error (n_ws st') w2 = Some y -> (w2 = w /\ y = x') \/ (w2 <> w /\ nth_error (n_ws st) w2 = Some y)).
  { intros w2 y H. rewrite Ews in H. destruct (Nat.eq_dec w w2) as [<-|Hne].
    - rewrite set_nth_eq in H by auto. left. split; congruence.
    - rewrite set_nth_ne in H by auto. right. auto. }
  constructor; auto.
  - rewrite Ews. pose proof (cnt_set_nth started _ _ _ x' Hx) as Hc. rewrite Hst in Hc. rewrite Hnb2, (u_nb _ _ I).
    destruct (started x); cbn [Nat.b2n] in Hc; lia.
  - intros w2 y b H1 H2. apply G in H1 as [[-> ->]|[_ H1]].
    + destruct Hb as [Hb|(_ & Hb & ?)].
      * rewrite H2 in Hb. symmetry in Hb. pose proof (u_lt _ _ I _ _ _ Hx Hb). lia.
      * assert (b = n_nbuf st) by congruence. lia.
    + pose proof (u_lt _ _ I _ _ _ H1 H2). lia.
  - assert (A : forall w2 y b, w2 <> w -> nth_error (n_ws st) w2 = Some y -> buffer_of y = Some b -> buffer_of x' = Some b -> False).
    { intros w2 y b Hne Hy1 Hy2 Hy3. destruct Hb as [Hb|(_ & Hb & ?)].
      - apply Hne. eapply (u_dist _ _ I); eauto. congruence.
      - pose proof (u_lt _ _ I _ _ _ Hy1 Hy2). assert (b = n_nbuf st) by congruence. lia. }
    intros w1 w2 x1 x2 b H1 H2 H3 H4. apply G in H1 as [[-> ->]|[N1 H1]], H2 as [[-> ->]|[N2 H2]]; auto.
    + exfalso. eapply (A w2); eauto.
    + exfalso. eapply (A w1); eauto.
    + eapply (u_dist _ _ I); eauto.
  - intros w2 y H. apply G in H as [[-> ->]|[Hne H]]; auto.
    pose proof (u_w _ _ I _ _ H) as Hy.
    assert (B : forall b, buffer_of y = Some b -> n_bufs st' b = n_bufs st b).
    { intros b Hyb. apply Ev1. intros Hxb. apply Hne. eapply (u_dist _ _ I); eauto. }
    destruct y; cbn [nok] in *; unfold nbufok in *; auto; rewrite B by reflexivity; decompose [and] Hy; auto.
  - intros i Hi. destruct (Hcov i Hi) as [Hi'|Hi'].
    + destruct (u_done _ _ I i Hi') as [(w2 & y & H1 & H2)|(D1 & D2 & D3)].
      * destruct (Nat.eq_dec w w2) as [<-|Hne].
        -- assert (y = x) by congruence. subst y. destruct (Hd i H2) as [H|H]; [left|right; auto].
           exists w, x'. rewrite Ews, set_nth_eq by auto. auto.
        -- left. exists w2, y. rewrite Ews, set_nth_ne by auto. auto.
      * right. repeat split; auto.
    + left. exists w, x'. rewrite Ews, set_nth_eq by auto. auto.
Qed.

Lemma nstep_inv st st' w k : ninv st k -> nstep frames t st w = Some st' -> exists k', ninv st' k'.
Proof.
  intros I H. unfold nstep in H. destruct (nth_error (n_ws st) w) as [x|] eqn:Ex; [|discriminate].
  pose proof (u_w _ _ I _ _ Ex) as Hx. pose proof (u_k _ _ I) as Hk. pose proof (u_q _ _ I) as Hq.
  destruct x as [|b|b i m|b i m|b i m]; cbn [nok] in Hx.
  - injection H as <-. exists k.
    eapply nstep_inv_common with (w := w) (x := NStart) (x' := NIdle (n_nbuf st)); eauto;
      cbn [n_ws n_queue n_nbuf n_bufs n_row n_col n_data started buffer_of nok nheld]; auto; try lia.
    + repeat split; auto.
  - rewrite Hq in H. destruct (n - k) as [|d] eqn:Ed; [discriminate|]. cbn [seq] in H.
    destruct (nth_error frames k) as [img|] eqn:Ei; [|discriminate].
    assert (Hfr : fr frames k = img) by (unfold fr; apply nth_error_nth; auto).
    pose proof (extract_prefix img t (n_bufs st b)) as Hp.
    destruct (extract_ijv img t (n_bufs st b)) as [cc b'] eqn:Ext. cbn [fst snd] in Hp. injection H as <-.
    exists (S k). eapply nstep_inv_common with (w := w) (x := NIdle b) (x' := NExtr b k cc) (k := k); eauto;
      cbn [n_ws n_queue n_nbuf n_bufs n_row n_col n_data started buffer_of nok nheld]; auto; try lia.
    + f_equal. lia.
    + repeat split; auto. cbn [n_bufs]. intros b2 Hb2. unfold upd. destruct (Nat.eqb_spec b2 b); congruence.
    + unfold nbufok, upd. rewrite Nat.eqb_refl, Hp. unfold ents. rewrite Hfr. reflexivity.
    + intros i Hi. destruct (Nat.eq_dec i k); [right; congruence|left; lia].
    + discriminate.
  - injection H as <-. exists k. unfold nbufok in Hx.
    eapply nstep_inv_common with (w := w) (x := NExtr b i m) (x' := NRow b i m); eauto;
      cbn [n_ws n_queue n_nbuf n_bufs n_row n_col n_data started buffer_of nok nheld]; auto; try lia.
    + repeat split; auto. unfold rowok. cbn [n_row]. intros j Hj. unfold upd. destruct (Nat.eqb_spec j i); subst; congruence.
    + split; [exact Hx|]. unfold rowok. cbn [n_row]. unfold upd. rewrite Nat.eqb_refl, Hx. reflexivity.
  - injection H as <-. exists k. destruct Hx as [Hx H1]. unfold nbufok in Hx.
    eapply nstep_inv_common with (w := w) (x := NRow b i m) (x' := NCol b i m); eauto;
      cbn [n_ws n_queue n_nbuf n_bufs n_row n_col n_data started buffer_of nok nheld]; auto; try lia.
    + repeat split; auto. unfold colok. cbn [n_col]. intros j Hj. unfold upd. destruct (Nat.eqb_spec j i); subst; congruence.
    + split; [exact Hx|]. split; [exact H1|]. unfold colok. cbn [n_col]. unfold upd. rewrite Nat.eqb_refl, Hx. reflexivity.
  - injection H as <-. exists k. destruct Hx as (Hx & H1 & H2). unfold nbufok in Hx.
    eapply nstep_inv_common with (w := w) (x := NCol b i m) (x' := NIdle b); eauto;
      cbn [n_ws n_queue n_nbuf n_bufs n_row n_col n_data started buffer_of nok nheld]; auto; try lia.
    + repeat split; auto. unfold valok. cbn [n_data]. intros j Hj. unfold upd. destruct (Nat.eqb_spec j i); subst; congruence.
    + intros j Hj. injection Hj as <-. right. split; [exact H1|]. split; [exact H2|].
      unfold valok. cbn [n_data]. unfold upd. rewrite Nat.eqb_refl, Hx. reflexivity.
Qed.

Lemma ninit_inv threads bufs : ninv (ninit n threads bufs) 0.
Proof.
  assert (A : forall w x, nth_error (repeat NStart threads) w = Some x -> x = NStart).
  { intros w x H. apply nth_error_In in H. apply repeat_spec in H. auto. }
  constructor; cbn [ninit n_queue n_ws n_nbuf]; try lia.
  - f_equal. lia.
  - clear A. unfold cnt. induction threads; cbn; auto.
  - intros w x b H. apply A in H. subst. discriminate.
  - intros w1 w2 x1 x2 b H. apply A in H. subst. discriminate.
  - intros w x H. apply A in H. subst. exact I.
Qed.

Lemma nrun_inv sched : forall st st' k, ninv st k -> nrun frames t st sched = Some st' -> exists k', ninv st' k'.
Proof.
  induction sched as [|w sched IH]; cbn [nrun]; intros st st' k I H; [injection H as <-; eauto|].
  destruct (nstep frames t st w) as [st1|] eqn:E; [|discriminate].
  destruct (nstep_inv _ _ _ _ I E) as (k1 & I1). eauto.
Qed.

Lemma nstep_threads st st' w : nstep frames t st w = Some st' -> length (n_ws st') = length (n_ws st).
Proof.
  unfold nstep. destruct (nth_error (n_ws st) w) as [[]|]; try discriminate;
    try (intros H; injection H as <-; cbn [n_ws]; apply set_nth_length).
  destruct (n_queue st) as [|i q]; [discriminate|]. destruct (nth_error frames i); [|discriminate].
  destruct (extract_ijv _ _ _). intros H; injection H as <-; cbn [n_ws]; apply set_nth_length.
Qed.

Lemma nrun_threads sched : forall st st', nrun frames t st sched = Some st' -> length (n_ws st') = length (n_ws st).
Proof.
  induction sched as [|w sched IH]; cbn [nrun]; intros st st' H; [injection H as <-; eauto|].
  destruct (nstep frames t st w) as [st1|] eqn:E; [|discriminate]. apply nstep_threads in E. apply IH in H. congruence.
Qed.

Lemma combine_split3 (l : list entry) :
  combine (combine (map (fun e => fst (fst e)) l) (map (fun e => snd (fst e)) l)) (map snd l) = l.
Proof. induction l as [|[[a b] v] l IH]; cbn [map combine fst snd]; [reflexivity|]; exact (f_equal (cons ((a, b, v) : entry)) IH). Qed.

Lemma nfinished_read st k i : ninv st k -> nfinished st = true -> i < n -> npz_read st i = Ok (ents i).
Proof.
  intros I H Hi. unfold nfinished in H. rewrite (u_q _ _ I) in H. destruct (n - k) as [|d] eqn:Ed; [|discriminate]. cbn [seq] in H.
  pose proof (u_k _ _ I). destruct (u_done _ _ I i) as [(w & x & G1 & G2)|(D1 & D2 & D3)]; [lia| |].
  - exfalso. rewrite forallb_forall in H. specialize (H x (nth_error_In _ _ G1)). destruct x; cbn in *; discriminate.
  - unfold npz_read. rewrite D1, D2, D3. rewrite combine_split3. reflexivity.
Qed.

Definition nwwork (w : nstate) : nat := match w with NStart => 1 | NIdle _ => 0 | NExtr _ _ _ => 3 | NRow _ _ _ => 2 | NCol _ _ _ => 1 end.
Definition nwork (st : npz) : nat := 4 * length (n_queue st) + list_sum (map nwwork (n_ws st)).

Lemma nsum_set_nth (l : list nstate) w x x' : nth_error l w = Some x ->
  list_sum (map nwwork (set_nth w x' l)) + nwwork x = list_sum (map nwwork l) + nwwork x'.
Proof.
  unfold list_sum. revert w; induction l as [|y l IH]; intros [|w] H; cbn [map fold_right set_nth nth_error] in *; try discriminate.
  - injection H as ->. lia.
  - apply IH in H. lia.
Qed.

Lemma nstep_work st st' w : nstep frames t st w = Some st' -> S (nwork st') = nwork st.
Proof.
  unfold nstep. destruct (nth_error (n_ws st) w) as [x|] eqn:Ex; [|discriminate].
  unfold nwork. destruct x.
  2: destruct (n_queue st) as [|q qs] eqn:Eq; [discriminate|]; destruct (nth_error frames q); [|discriminate];
     destruct (extract_ijv _ _ _) as [cc b'].
  all: intros H; injection H as <-; cbn [n_queue n_ws].
  all: match goal with |- context [set_nth _ ?x' _] => pose proof (nsum_set_nth _ _ _ x' Ex) as Hs end; cbn [nwwork length] in *; lia.
Qed.

Lemma nrun_work sched : forall st st', nrun frames t st sched = Some st' -> length sched + nwork st' = nwork st.
Proof.
  induction sched as [|w sched IH]; cbn [nrun length]; intros st st' H; [injection H as <-; lia|].
  destruct (nstep frames t st w) as [st1|] eqn:E; [|discriminate]. apply nstep_work in E. apply IH in H. lia.
Qed.

Lemma nwork_init threads bufs : nwork (ninit n threads bufs) = 4 * n + threads.
Proof.
  unfold nwork, ninit. cbn [n_queue n_ws]. rewrite seq_length.
  assert (A : list_sum (map nwwork (repeat NStart threads)) = threads) by (induction threads; cbn in *; auto). lia.
Qed.

Lemma nprogress st k : ninv st k -> n_ws st <> [] -> nfinished st = false -> exists w st', nstep frames t st w = Some st'.
Proof.
  intros I Hne Hf. destruct (forallb n_is_idle (n_ws st)) eqn:Ei.
  - destruct (n_ws st) as [|x l] eqn:El; [contradiction|]. exists 0.
    unfold nfinished in Hf. rewrite El, Ei in Hf. rewrite (u_q _ _ I) in Hf.
    unfold nstep. rewrite El. cbn [nth_error]. destruct x; eauto.
    rewrite (u_q _ _ I). destruct (n - k) as [|d] eqn:Ed; [discriminate|]. cbn [seq].
    destruct (nth_error frames k) as [img|] eqn:E; [|apply nth_error_None in E; fold n in E; lia].
    destruct (extract_ijv img t _). eauto.
  - assert (A : exists x, In x (n_ws st) /\ n_is_idle x = false).
    { clear -Ei. revert Ei. generalize (n_ws st) as l. induction l as [|x l IH]; cbn; [discriminate|].
      destruct (n_is_idle x) eqn:E; cbn; intros H; [destruct (IH H) as (y & ? & ?); eauto|eauto]. }
    destruct A as (x & Hx & Hi). apply In_nth_error in Hx as [w Hw]. exists w. unfold nstep. rewrite Hw.
    destruct x; try discriminate Hi; eauto.
Qed.
End Npz.

(** ** Statements used by CacheProps.v *)
Lemma extract_round_trip img t out : fits16 img ->
  same_img (rebuild (nr img) (nc img) (prefix (snd (extract_ijv img t out)) (fst (extract_ijv img t out)))) (thresholded img t).
Proof. intros H. rewrite extract_prefix. apply rebuild_entries; auto. Qed.

Lemma extract_tall out : ~ same_img
  (rebuild (nr tall_frame) (nc tall_frame) (prefix (snd (extract_ijv tall_frame 0 out)) (fst (extract_ijv tall_frame 0 out))))
  (thresholded tall_frame 0).
Proof. rewrite extract_prefix. apply (rebuild_large tall_frame eq_refl eq_refl (fun i j => eq_refl)). Qed.

Lemma extract_count img t out : fst (extract_ijv img t out) = length (above img t) /\ length (above img t) <= nr img * nc img.
Proof. split; [apply extract_spec|apply above_length]. Qed.

Lemma fr_nth frames i img : nth_error frames i = Some img -> fr frames i = img /\ i < length frames.
Proof. intros H. split; [unfold fr; apply nth_error_nth; auto|apply nth_error_Some; congruence]. Qed.

Lemma fch5_frames frames t bufs d x f sched st :
  frun frames t (finit (length frames) bufs d x f) sched = Some st -> ffinished st = true ->
  forall i img, nth_error frames i = Some img -> fits16 img ->
  same_img (rebuild (nr img) (nc img) (fch5_read st i)) (thresholded img t).
Proof.
  intros Hr Hf i img Hi Hfit. destruct (frun_inv frames t _ _ _ _ _ (finit_inv frames t bufs d x f) Hr) as (al & k & I).
  destruct (finished_done _ _ _ _ _ I Hf) as [_ Hd]. destruct (fr_nth _ _ _ Hi) as [Hfr Hlt].
  rewrite (done_read _ _ _ _ _ _ I (Hd i Hlt)). rewrite Hfr. apply rebuild_entries; auto.
Qed.

Lemma fch5_ranges frames t bufs d x f sched st :
  frun frames t (finit (length frames) bufs d x f) sched = Some st -> ffinished st = true ->
  (forall i j, i < length frames -> j < length frames -> i <> j -> disjoint_ranges (range_in_file st i) (range_in_file st j)) /\
  (forall i, i < length frames -> fst (range_in_file st i) <= snd (range_in_file st i) <= f_total st) /\
  f_total st = total_above frames t.
Proof.
  intros Hr Hf. destruct (frun_inv frames t _ _ _ _ _ (finit_inv frames t bufs d x f) Hr) as (al & k & I).
  destruct (finished_done _ _ _ _ _ I Hf) as [_ Hd]. split; [|split].
  - intros i j Hi Hj Hne. eapply done_disjoint; eauto.
  - intros i Hi. eapply done_in_file; eauto.
  - eapply finished_total; eauto.
Qed.

Lemma fch5_writes_in_bounds frames t bufs d x f sched st R C :
  (forall img, In img frames -> nr img = R /\ nc img = C) ->
  frun frames t (finit (length frames) bufs d x f) sched = Some st ->
  forall w i m s e, nth_error (f_ws st) w = Some (WAlloc i m s e) \/ nth_error (f_ws st) w = Some (WData i m s e) ->
  s <= e <= length frames * (R * C).
Proof.
  intros Hs Hr w i m s e Hw. destruct (frun_inv frames t _ _ _ _ _ (finit_inv frames t bufs d x f) Hr) as (al & k & I).
  destruct Hw as [Hw|Hw]; eapply worker_in_bounds; eauto.
Qed.

Lemma frun_ws_length frames t sched : forall st st', frun frames t st sched = Some st' -> length (f_ws st') = length (f_ws st).
Proof.
  induction sched as [|w sched IH]; cbn [frun]; intros st st' H; [injection H as <-; auto|].
  destruct (fstep frames t st w) as [st1|] eqn:E; [|discriminate]. apply IH in H. rewrite H. clear -E. unfold fstep in E.
  destruct (nth_error (f_ws st) w) as [[]|]; try discriminate; destruct (nth_error (f_bufs st) w); try discriminate;
    try (injection E as <-; cbn [f_ws]; apply set_nth_length).
  destruct (f_queue st) as [|i q]; [discriminate|]. destruct (nth_error frames i); [|discriminate].
  destruct (extract_ijv _ _ _). injection E as <-; cbn [f_ws]; apply set_nth_length.
Qed.

Lemma fch5_completes frames t bufs d x f sched st :
  bufs <> [] -> frun frames t (finit (length frames) bufs d x f) sched = Some st ->
  (ffinished st = true \/ exists w st', fstep frames t st w = Some st') /\ length sched <= 6 * length frames.
Proof.
  intros Hb Hr. destruct (frun_inv frames t _ _ _ _ _ (finit_inv frames t bufs d x f) Hr) as (al & k & I). split.
  - destruct (ffinished st) eqn:E; [left; auto|right]. eapply fprogress; eauto.
    intros El. apply frun_ws_length in Hr. rewrite El in Hr. cbn in Hr. rewrite map_length in Hr. destruct bufs; [congruence|discriminate].
  - pose proof (frun_work frames t _ _ _ Hr) as Hw. rewrite (fwork_init frames t) in Hw. lia.
Qed.

Lemma npz_frames frames t threads bufs sched st :
  nrun frames t (ninit (length frames) threads bufs) sched = Some st -> nfinished st = true ->
  forall i img, nth_error frames i = Some img -> fits16 img ->
  exists ents, npz_read st i = Ok ents /\ same_img (rebuild (nr img) (nc img) ents) (thresholded img t).
Proof.
  intros Hr Hf i img Hi Hfit. destruct (nrun_inv frames t _ _ _ _ (ninit_inv frames t threads bufs) Hr) as (k & I).
  destruct (fr_nth _ _ _ Hi) as [Hfr Hlt]. eexists. split; [eapply nfinished_read; eauto|]. rewrite Hfr. apply rebuild_entries; auto.
Qed.

Lemma npz_buffers frames t threads bufs sched st :
  nrun frames t (ninit (length frames) threads bufs) sched = Some st ->
  (forall w1 w2 x1 x2 b, nth_error (n_ws st) w1 = Some x1 -> nth_error (n_ws st) w2 = Some x2 ->
     buffer_of x1 = Some b -> buffer_of x2 = Some b -> w1 = w2) /\
  (forall w x b, nth_error (n_ws st) w = Some x -> buffer_of x = Some b -> b < threads).
Proof.
  intros Hr. destruct (nrun_inv frames t _ _ _ _ (ninit_inv frames t threads bufs) Hr) as (k & I). split.
  - apply (u_dist _ _ _ _ I).
  - intros w x b Hw Hb. pose proof (u_lt _ _ _ _ I _ _ _ Hw Hb) as H. rewrite (u_nb _ _ _ _ I) in H.
    pose proof (cnt_le started (n_ws st)) as Hc. apply nrun_threads in Hr. cbn [ninit n_ws] in Hr. rewrite repeat_length in Hr. lia.
Qed.

Lemma npz_completes frames t threads bufs sched st :
  0 < threads -> nrun frames t (ninit (length frames) threads bufs) sched = Some st ->
  (nfinished st = true \/ exists w st', nstep frames t st w = Some st') /\ length sched <= 4 * length frames + threads.
Proof.
  intros Hb Hr. destruct (nrun_inv frames t _ _ _ _ (ninit_inv frames t threads bufs) Hr) as (k & I). split.
  - destruct (nfinished st) eqn:E; [left; auto|right]. eapply nprogress; eauto.
    intros El. apply nrun_threads in Hr. rewrite El in Hr. cbn [ninit n_ws length] in Hr. rewrite repeat_length in Hr. lia.
  - pose proof (nrun_work frames t _ _ _ Hr) as Hw. rewrite (nwork_init frames t) in Hw. lia.
Qed.

Lemma npz_pool_spec m n : (0 < m -> 0 < n -> exists k, npz_pool m n = Ok k /\ 0 < k <= m) /\ npz_pool m 0 = Err ValueError.
Proof.
  unfold npz_pool. split.
  - intros Hm Hn. destruct (Nat.eqb_spec (Nat.min m n) 0); [lia|]. eexists. split; [reflexivity|lia].
  - rewrite Nat.min_0_r. reflexivity.
Qed.

Lemma map_to_of l : map Z.to_nat (map Z.of_nat l) = l.
Proof. rewrite map_map. rewrite <- (map_id l) at 2. apply map_ext. intros. lia. Qed.

Lemma archive_frames frames t threads bufs sched st meta :
  nrun frames t (ninit (length frames) threads bufs) sched = Some st -> nfinished st = true ->
  (forall k, arch_reserved (length frames) k = true -> process_meta meta k = None) ->
  arch_nframes (npz_archive st (length frames) meta) = Ok (length frames) /\
  (forall i, i < length frames -> arch_frame (npz_archive st (length frames) meta) i = npz_read st i) /\
  (forall k, arch_reserved (length frames) k = false ->
     arch_meta (npz_archive st (length frames) meta) k = Ok (process_meta meta k)).
Proof.
  intros Hr Hf Hm. destruct (nrun_inv frames t _ _ _ _ (ninit_inv frames t threads bufs) Hr) as (k0 & I).
  assert (Hn : arch_nframes (npz_archive st (length frames) meta) = Ok (length frames)).
  { unfold arch_nframes, npz_archive. rewrite Hm by reflexivity. rewrite Nat2Z.id. reflexivity. }
  split; [exact Hn|split].
  - intros i Hi. unfold arch_frame, npz_archive.
    rewrite !Hm by (cbn [arch_reserved]; apply Nat.ltb_lt; auto). unfold npz_read.
    destruct (n_row st i), (n_col st i), (n_data st i); cbn [option_map]; auto. rewrite !map_to_of. reflexivity.
  - intros k Hk. unfold arch_meta. rewrite Hn. cbn [rbind]. rewrite Hk. unfold npz_archive.
    destruct (process_meta meta k); auto. destruct k as [| | |i p|u]; cbn [arch_reserved] in Hk; try discriminate; auto.
    apply Nat.ltb_ge in Hk.
    assert (A : n_row st i = None /\ n_col st i = None /\ n_data st i = None).
    { clear -Hr Hk. 
      assert (G : forall sched st0 st1, (forall j, length frames <= j -> n_row st0 j = None /\ n_col st0 j = None /\ n_data st0 j = None) ->
                 (forall j, In j (n_queue st0) -> j < length frames) -> (forall x j, In x (n_ws st0) -> nheld x = Some j -> j < length frames) ->
                 nrun frames t st0 sched = Some st1 -> forall j, length frames <= j -> n_row st1 j = None /\ n_col st1 j = None /\ n_data st1 j = None).
      { clear. induction sched as [|w sched IH]; cbn [nrun]; intros st0 st1 H1 H2 H3 H; [injection H as <-; auto|].
        destruct (nstep frames t st0 w) as [st2|] eqn:E; [|discriminate]. unfold nstep in E.
        destruct (nth_error (n_ws st0) w) as [x|] eqn:Ew; [|discriminate].
        assert (Hin : forall y x', In y (set_nth w x' (n_ws st0)) -> y = x' \/ In y (n_ws st0)).
        { intros y x' Hy. apply In_nth_error in Hy as [q Hq]. destruct (Nat.eq_dec w q) as [<-|Hne].
          - rewrite set_nth_eq in Hq by (apply nth_error_Some; congruence). left; congruence.
          - rewrite set_nth_ne in Hq by auto. right. eapply nth_error_In; eauto. }
        pose proof (nth_error_In _ _ Ew) as Hx.
        destruct x as [|b|b i m|b i m|b i m].
        - injection E as <-. refine (IH _ _ _ _ _ H); cbn [n_ws n_row n_col n_data]; auto.
          intros y j Hy Hj. apply Hin in Hy as [-> |Hy]; [discriminate|eauto].
        - destruct (n_queue st0) as [|i q] eqn:Eq; [discriminate|]. destruct (nth_error frames i) as [img|] eqn:Ei; [|discriminate].
          destruct (extract_ijv _ _ _) as [cc b']. injection E as <-. refine (IH _ _ _ _ _ H); cbn [n_ws n_row n_col n_data n_queue]; auto.
          + intros j Hj. apply H2. right; auto.
          + intros y j Hy Hj. apply Hin in Hy as [-> |Hy]; [|eauto]. cbn in Hj. injection Hj as <-. apply H2. left; auto.
        - injection E as <-. assert (Hi : i < length frames) by (eapply H3; eauto; reflexivity).
          refine (IH _ _ _ _ _ H); cbn [n_ws n_row n_col n_data n_queue]; auto.
          + intros j Hj. unfold upd. destruct (Nat.eqb_spec j i); [lia|auto].
          + intros y j Hy Hj. apply Hin in Hy as [-> |Hy]; [cbn in Hj; congruence|eauto].
        - injection E as <-. assert (Hi : i < length frames) by (eapply H3; eauto; reflexivity).
          refine (IH _ _ _ _ _ H); cbn [n_ws n_row n_col n_data n_queue]; auto.
          + intros j Hj. unfold upd. destruct (Nat.eqb_spec j i); [lia|auto].
          + intros y j Hy Hj. apply Hin in Hy as [-> |Hy]; [cbn in Hj; congruence|eauto].
        - injection E as <-. assert (Hi : i < length frames) by (eapply H3; eauto; reflexivity).
          refine (IH _ _ _ _ _ H); cbn [n_ws n_row n_col n_data n_queue]; auto.
          + intros j Hj. unfold upd. destruct (Nat.eqb_spec j i); [lia|auto].
          + intros y j Hy Hj. apply Hin in Hy as [-> |Hy]; [discriminate|eauto]. }
      eapply G; eauto; cbn [ninit n_row n_col n_data n_queue n_ws]; auto.
      - intros j Hj. apply in_seq in Hj. lia.
      - intros x j Hx. apply repeat_spec in Hx. subst. discriminate. }
    destruct A as (A1 & A2 & A3). destruct p; rewrite ?A1, ?A2, ?A3; reflexivity.
Qed.
