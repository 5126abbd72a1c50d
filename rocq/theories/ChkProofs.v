From Coq Require Import String Ascii QArith Lqa DecimalString.
From Verif Require Import Prelude GridModel DetModel NamesModel NamesProofs HcSpec HcProofs ChkModel ChkSpec.
Local Open Scope string_scope.
Local Notation length := List.length.

(** ** lists *)
Lemma nth_firstn : forall {A} (l : list A) n j, nth_error (firstn n l) j = if (j <? n)%nat then nth_error l j else None.
Proof.
  intros A l. induction l as [|x l IH]; intros n j; [rewrite firstn_nil; destruct j; cbn [nth_error]; now destruct (_ <? n)%nat|].
  destruct n, j; try reflexivity. exact (IH n j).
Qed.
Lemma nth_skipn : forall {A} (l : list A) n j, nth_error (skipn n l) j = nth_error l (n + j).
Proof. intros A l. induction l as [|x l IH]; intros n j; destruct n; cbn; auto. now destruct j. Qed.
Lemma nth_grid : forall {X Y Z} (f : X -> Y -> Z) ys, ys <> [] -> forall xs k,
  nth_error (flat_map (fun x => map (f x) ys) xs) k =
  match nth_error xs (k / length ys), nth_error ys (k mod length ys) with Some x, Some y => Some (f x y) | _, _ => None end.
Proof.
  intros X Y Z f ys N. assert (L : (0 < length ys)%nat) by (destruct ys; [congruence|cbn; lia]).
  induction xs as [|x xs IH]; intros k; cbn [flat_map]. { destruct k; cbn [nth_error]; now destruct (_ / length ys)%nat. }
  destruct (Nat.lt_ge_cases k (length ys)) as [K|K].
  - rewrite nth_error_app1 by (now rewrite map_length). rewrite Nat.div_small, Nat.mod_small by assumption. cbn [nth_error]. rewrite nth_error_map. now destruct (nth_error ys k).
  - rewrite nth_error_app2 by (now rewrite map_length). rewrite map_length, IH.
    replace (k / length ys)%nat with (S ((k - length ys) / length ys)) by (replace k with ((k - length ys) + 1 * length ys)%nat at 2 by lia; rewrite Nat.div_add by lia; lia).
    replace (k mod length ys)%nat with ((k - length ys) mod length ys)%nat by (replace k with ((k - length ys) + 1 * length ys)%nat at 2 by lia; now rewrite Nat.mod_add by lia).
    reflexivity.
Qed.
Lemma nth_seq : forall n k, nth_error (seq 0 n) k = if (k <? n)%nat then Some k else None.
Proof.
  intros n k. destruct (Nat.ltb_spec k n).
  - rewrite (nth_error_nth' _ 0%nat) by (now rewrite seq_length). now rewrite seq_nth.
  - apply nth_error_None. now rewrite seq_length.
Qed.
Lemma nth_extents : forall n base gap k, nth_error (extents n base gap) k = if (k <? n)%nat then Some (Z.of_nat k * (base + gap), Z.of_nat k * (base + gap) + base)%Z else None.
Proof. intros. unfold extents, starts. rewrite !nth_error_map, nth_seq. now destruct (k <? n)%nat. Qed.
Lemma extents_len : forall n base gap, length (extents n base gap) = n.
Proof. intros. unfold extents, starts. now rewrite !map_length, seq_length. Qed.
Lemma chunks_nth : forall nr nc br bc gr gc k, (0 < nc)%nat ->
  let '(rects, labels) := generate_chunks nr nc br bc gr gc in let a := (k / nc)%nat in let b := (k mod nc)%nat in
  nth_error rects k = (if (k <? nr * nc)%nat then Some ((Z.of_nat a * (br + gr), Z.of_nat a * (br + gr) + br), (Z.of_nat b * (bc + gc), Z.of_nat b * (bc + gc) + bc))%Z else None) /\
  nth_error labels k = (if (k <? nr * nc)%nat then Some (label a b) else None).
Proof.
  intros nr nc br bc gr gc k N. unfold generate_chunks. cbv zeta.
  assert (E : (k <? nr * nc)%nat = (k / nc <? nr)%nat).
  { apply eq_true_iff_eq. rewrite !Nat.ltb_lt. split; intros H.
    - apply Nat.div_lt_upper_bound; lia.
    - pose proof (Nat.div_mod k nc). pose proof (Nat.mod_upper_bound k nc). nia. }
  assert (M : (k mod nc <? nc)%nat = true) by (apply Nat.ltb_lt, Nat.mod_upper_bound; lia).
  rewrite nth_grid. 2: { intros C. apply (f_equal (@List.length _)) in C. rewrite extents_len in C. cbn in C. lia. }
  rewrite extents_len, !nth_extents, M, E. split; [now destruct (k / nc <? nr)%nat|].
  rewrite nth_grid. 2: { destruct nc; [lia|discriminate]. }
  rewrite seq_length, !nth_seq, M. now destruct (k / nc <? nr)%nat.
Qed.
Lemma chunks_in : forall nr nc br bc gr gc r, In r (fst (generate_chunks nr nc br bc gr gc)) <->
  exists a b, (a < nr)%nat /\ (b < nc)%nat /\ r = ((Z.of_nat a * (br + gr), Z.of_nat a * (br + gr) + br), (Z.of_nat b * (bc + gc), Z.of_nat b * (bc + gc) + bc))%Z.
Proof.
  intros nr nc br bc gr gc r. unfold generate_chunks. cbn [fst]. rewrite in_flat_map. split.
  - intros (x & X & I). apply in_map_iff in I as (y & <- & Y). apply In_nth_error in X as [a X], Y as [b Y]. rewrite nth_extents in X, Y.
    destruct (Nat.ltb_spec a nr); [|discriminate]. destruct (Nat.ltb_spec b nc); [|discriminate]. injection X as <-. injection Y as <-. eauto.
  - intros (a & b & A & B & ->). eexists. split; [eapply nth_error_In; rewrite nth_extents, (proj2 (Nat.ltb_lt a nr) A); reflexivity|].
    apply in_map_iff. eexists. split; [reflexivity|]. eapply nth_error_In. rewrite nth_extents, (proj2 (Nat.ltb_lt b nc) B). reflexivity.
Qed.
(** ** tiles *)
Lemma tile_iff : forall n base gap i, (0 < base -> 0 <= gap -> ((exists a, (a < n)%nat /\ Z.of_nat a * (base + gap) <= i < Z.of_nat a * (base + gap) + base) <-> on_tile n base gap i))%Z.
Proof.
  intros n base gap i B G. unfold on_tile. split.
  - intros (a & A & L & U). split; [nia|]. replace i with ((i - Z.of_nat a * (base + gap)) + Z.of_nat a * (base + gap))%Z by lia. rewrite Z.mod_add, Z.mod_small by lia. lia.
  - intros [[L U] M]. exists (Z.to_nat (i / (base + gap))). pose proof (Z.div_mod i (base + gap)). pose proof (Z.mod_pos_bound i (base + gap)).
    assert (0 <= i / (base + gap))%Z by (apply Z.div_pos; lia). assert (i / (base + gap) < Z.of_nat n)%Z by (apply Z.div_lt_upper_bound; lia).
    rewrite Z2Nat.id by lia. split; lia.
Qed.
Lemma tile_unique : forall base gap a b i, (0 < base -> 0 <= gap -> Z.of_nat a * (base + gap) <= i < Z.of_nat a * (base + gap) + base ->
  Z.of_nat b * (base + gap) <= i < Z.of_nat b * (base + gap) + base -> a = b)%Z.
Proof. intros. assert (Z.of_nat a = Z.of_nat b) by nia. lia. Qed.
(** ** labels *)
Lemma dec_free : forall n, free_of "_" (dec n).
Proof.
  intros n. unfold dec. assert (F : forall d, free_of "_" (NilEmpty.string_of_uint d)) by (induction d; cbn; auto; split; auto; discriminate).
  unfold NilZero.string_of_uint. destruct (Nat.to_uint n); try apply F. cbn. split; [discriminate|auto].
Qed.
Lemma name_inj : forall p q a b c d, p ++ "_" ++ label a b = q ++ "_" ++ label c d -> p = q /\ a = c /\ b = d.
Proof.
  intros p q a b c d H. unfold label in H. cbn [append] in H.
  assert (R : forall p x y, p ++ String "_" (x ++ String "_" y) = (p ++ String "_" x) ++ String "_" y).
  { clear. intros p x y. rewrite <- (str_app_assoc p). reflexivity. }
  rewrite !R in H. apply split_at_end in H; try apply dec_free. destruct H as [H D]. apply split_at_end in H; try apply dec_free. destruct H as [H C]. apply dec_inj in C, D. auto.
Qed.
Lemma label_inj : forall a b c d, label a b = label c d -> a = c /\ b = d.
Proof. intros a b c d H. destruct (name_inj "" "" a b c d) as (_ & A & B); auto. now rewrite H. Qed.
(** ** slices *)
Lemma slice_nth : forall {A} a b (l : list A) i, (0 <= a -> 0 <= i)%Z -> (0 <= a)%Z -> nth_error (slice a b l) (Z.to_nat i) = if (i <? b - a)%Z then nth_error l (Z.to_nat (a + i)) else None.
Proof.
  intros A a b l i I P. specialize (I P). unfold slice. rewrite nth_firstn, nth_skipn. destruct (Z.ltb_spec i (b - a)), (Nat.ltb_spec (Z.to_nat i) (Z.to_nat b - Z.to_nat a)); try lia; auto. f_equal. lia.
Qed.
Lemma crop_part : forall {A} (r : rect) (m : list (list A)), (0 <= fst (fst r))%Z -> (0 <= fst (snd r))%Z -> part_of r m (crop r m).
Proof.
  intros A [[r0 r1] [c0 c1]] m R C i j I J. cbn [fst snd] in *. unfold entry, crop. cbn [fst snd]. rewrite nth_error_map, slice_nth by auto.
  destruct (i <? r1 - r0)%Z; cbn [andb option_map]; auto. destruct (nth_error m (Z.to_nat (r0 + i))) as [row|]; cbn [option_map].
  - rewrite slice_nth by auto. now destruct (j <? c1 - c0)%Z.
  - now destruct (j <? c1 - c0)%Z.
Qed.
(** ** dictionaries *)
Lemma dset_fresh : forall {A} k (v : A) d, ~ In k (map fst d) -> dset k v d = (d ++ [(k, v)])%list.
Proof.
  intros A k v d. induction d as [|[k' w] d IH]; cbn [dset map fst In app]; auto. intros N. destruct (String.eqb_spec k k') as [->|]; [tauto|]. rewrite IH; tauto.
Qed.
Lemma dlook_in : forall {A} k (v : A) d, NoDup (map fst d) -> (dlook k d = Some v <-> In (k, v) d).
Proof.
  intros A k v d. induction d as [|[k' w] d IH]; cbn [dlook map fst]; intros N; [split; [discriminate|intros []]|]. inversion N as [|? ? X N']; subst.
  destruct (String.eqb_spec k k') as [->|E].
  - split. { intros H. injection H as ->. now left. } intros [H|H]; [congruence|]. exfalso. apply X. now apply (in_map fst) in H.
  - rewrite (IH N'). cbn. split; [now right|]. intros [H|H]; [congruence|auto].
Qed.
Lemma dlook_none : forall {A} k (d : list (string * A)), dlook k d = None <-> ~ In k (map fst d).
Proof.
  intros A k d. induction d as [|[k' w] d IH]; cbn [dlook map fst In]; [tauto|]. destruct (String.eqb_spec k k') as [->|E]; [split; [discriminate|tauto]|]. rewrite IH. split; [intros H [C|C]; congruence|tauto].
Qed.
Section Chunks.
Variable load : string -> result (list (list bool)).
Variable use_roi : bool.
Definition nm (id lab : string) : string := id ++ "_" ++ lab.
Lemma chunk_panel_spec : forall id p l d d', NoDup (map (fun rl => nm id (snd rl)) l) -> (forall rl, In rl l -> ~ In (nm id (snd rl)) (map fst d)) ->
  (chunk_panel load use_roi id p l d = Ok d' <-> exists cs, d' = (d ++ cs)%list /\ Forall2 (fun rl kc => fst kc = nm id (snd rl) /\ chunk load use_roi p (fst rl) = Ok (snd kc)) l cs).
Proof.
  intros id p. induction l as [|[r lab] l IH]; intros d d' N F; cbn [chunk_panel].
  - split. { intros H. injection H as <-. exists []. now rewrite app_nil_r. } intros (cs & -> & H). inversion H. now rewrite app_nil_r.
  - cbn [map snd] in N. inversion N as [|? ? X N']; subst. assert (F0 : ~ In (nm id lab) (map fst d)) by (apply (F (r, lab)); now left).
    destruct (chunk load use_roi p r) as [c|e] eqn:C; cbn [rbind].
    + fold (nm id lab). rewrite dset_fresh by assumption. rewrite IH; auto.
      2: { intros rl I. rewrite map_app. cbn [map fst]. intros Y. apply in_app_or in Y as [Y|[Y|[]]]; [revert Y; apply F; now right|]. apply X. rewrite Y. apply (in_map (fun rl => nm id (snd rl)) l rl I). }
      split.
      * intros (cs & -> & H). exists ((nm id lab, c) :: cs). split; [now rewrite <- app_assoc|]. constructor; auto.
      * intros (cs & -> & H). inversion H as [|? [k c'] ? cs' [H1 H2] H3]; subst. cbn [fst snd] in *. exists cs'. split; auto. rewrite <- app_assoc. cbn. congruence.
    + split; [discriminate|]. intros (cs & _ & H). inversion H as [|? ? ? ? [_ H2] _]; subst. cbn [fst] in H2. congruence.
Qed.
Lemma chunk_all_spec : forall l, (forall i j x y, nth_error l i = Some x -> nth_error l j = Some y -> forall p q, nm p (snd x) = nm q (snd y) -> p = q /\ i = j) ->
  forall instr d d', NoDup (map fst instr) -> (forall id p rl, In (id, p) instr -> In rl l -> ~ In (nm id (snd rl)) (map fst d)) ->
  (chunk_all load use_roi instr l d = Ok d' <-> exists cs, d' = (d ++ cs)%list /\ entries nm instr l (fun p r c => chunk load use_roi p r = Ok c) cs).
Proof.
  intros l INJ. unfold entries. induction instr as [|[id p] instr IH]; intros d d' N F; cbn [chunk_all flat_map].
  - split. { intros H. injection H as <-. exists []. now rewrite app_nil_r. } intros (cs & -> & H). inversion H. now rewrite app_nil_r.
  - cbn [map fst] in N. inversion N as [|? ? X N']; subst.
    assert (ND : NoDup (map (fun rl => nm id (snd rl)) l)).
    { apply NoDup_nth_error. intros i j I E. rewrite map_length in I. rewrite !nth_error_map in E. destruct (nth_error l i) as [x|] eqn:A; [|apply nth_error_None in A; lia].
      destruct (nth_error l j) as [y|] eqn:B; cbn in E; [|discriminate]. injection E as E. exact (proj2 (INJ i j x y A B _ _ E)). }
    pose proof (fun d'' => chunk_panel_spec id p l d d'' ND (fun rl I => F id p rl (or_introl eq_refl) I)) as CP.
    assert (FF : forall cs, Forall2 (fun rl kc => fst kc = nm id (snd rl) /\ chunk load use_roi p (fst rl) = Ok (snd kc)) l cs -> forall id' p' rl, In (id', p') instr -> In rl l -> ~ In (nm id' (snd rl)) (map fst (d ++ cs)%list)).
    { intros cs H id' p' rl I R Y. rewrite map_app in Y. apply in_app_or in Y as [Y|Y]; [revert Y; apply (F id' p'); [now right|assumption]|].
      apply in_map_iff in Y as (kc & Y & K). assert (exists rl', In rl' l /\ fst kc = nm id (snd rl')) as (rl' & R' & E).
      { clear -H K. induction H as [|x y ? ? [A _] H IH]; [destruct K|]. destruct K as [->|K]; [exists x; split; [now left|exact A]|]. destruct (IH K) as (z & ? & ?). exists z. split; auto. now right. }
      rewrite E in Y. apply In_nth_error in R as [i R], R' as [j R']. destruct (INJ _ _ _ _ R' R _ _ Y) as [-> _]. apply X. apply (in_map fst) in I. exact I. }
    destruct (chunk_panel load use_roi id p l d) as [d1|e] eqn:C; cbn [rbind].
    + destruct (proj1 (CP d1) eq_refl) as (cs1 & -> & H1). rewrite (IH (d ++ cs1)%list d' N'); [|apply FF; exact H1]. split.
      * intros (cs & -> & H). exists (cs1 ++ cs)%list. split; [now rewrite app_assoc|]. apply Forall2_app; auto. clear -H1. induction H1; cbn; constructor; auto.
      * intros (cs & -> & H). apply Forall2_app_inv_l in H as (a & b & HA & HB & ->).
        assert (a = cs1) as ->. { clear -H1 HA. revert a HA. induction H1 as [|x y ? ? [A B] H IH]; intros a HA; inversion HA as [|? z ? ? [P Q] R]; subst; auto. f_equal; [|now apply IH]. destruct y, z. cbn [fst snd] in *. congruence. }
        exists b. split; [now rewrite app_assoc|exact HB].
    + split; [discriminate|]. intros (cs & -> & H). apply Forall2_app_inv_l in H as (a & b & HA & HB & ->).
      assert (Forall2 (fun rl kc => fst kc = nm id (snd rl) /\ chunk load use_roi p (fst rl) = Ok (snd kc)) l a) as HA'.
      { clear -HA. revert a HA. induction l as [|x l IH]; intros a HA; inversion HA; subst; constructor; auto. }
      pose proof (proj2 (CP (d ++ a)%list) (ex_intro _ a (conj eq_refl HA'))). discriminate.
Qed.
End Chunks.
(** ** substrings *)
Lemma prefixb_iff : forall p s, prefixb p s = true <-> exists b, s = p ++ b.
Proof.
  induction p as [|c p IH]; intros s; cbn. { split; [eauto|destruct s; auto]. } destruct s as [|d s]; [split; [discriminate|intros [b H]; discriminate]|].
  rewrite andb_true_iff, Ascii.eqb_eq, IH. split; [intros [-> [b ->]]; eauto|]. intros [b H]. injection H as -> ->. eauto.
Qed.
Lemma containsb_iff : forall p s, containsb p s = true <-> within p s.
Proof.
  intros p s. unfold within. induction s as [|c s IH]; cbn [containsb]; rewrite orb_true_iff, prefixb_iff.
  - split. { intros [[b H]|H]; [|discriminate]. exists "", b. exact H. } intros ([|? a] & b & H); [left; exists b; exact H|discriminate].
  - rewrite IH. split. { intros [[b H]|(a & b & ->)]; [exists "", b; exact H|exists (String c a), b; reflexivity]. }
    intros ([|x a] & b & H); [left; exists b; exact H|]. injection H as -> ->. right. eauto.
Qed.
(** ** more on lists *)
Lemma flat_map_len : forall {A B} (f : A -> list B) n l, (forall x, In x l -> length (f x) = n) -> length (flat_map f l) = (length l * n)%nat.
Proof. intros A B f n. induction l as [|x l IH]; intros H; cbn; auto. rewrite app_length, (H x (or_introl eq_refl)), IH; auto. intros y Y. apply H. now right. Qed.
Lemma NoDup_app2 : forall {A} (a b : list A), NoDup a -> NoDup b -> (forall x, In x a -> In x b -> False) -> NoDup (a ++ b)%list.
Proof.
  intros A. induction a as [|x a IH]; intros b NA NB D; cbn; auto. inversion NA as [|? ? X NA']; subst. constructor.
  - intros I. apply in_app_or in I as [I|I]; [contradiction|]. apply (D x); [now left|assumption].
  - apply IH; auto. intros y Y Z. apply (D y); [now right|assumption].
Qed.
Lemma NoDup_fst_filter : forall {A B} f (l : list (A * B)), NoDup (map fst l) -> NoDup (map fst (filter f l)).
Proof.
  intros A B f. induction l as [|x l IH]; cbn; intros N; auto. inversion N as [|? ? X N']; subst. destruct (f x); cbn; auto. constructor; auto.
  intros I. apply X. apply in_map_iff in I as (y & E & I). apply filter_In in I as [I _]. apply in_map_iff. eauto.
Qed.
Lemma inject_minus : forall a b, (inject_Z (a - b) == inject_Z a - inject_Z b)%Q.
Proof. intros. unfold Z.sub. rewrite inject_Z_plus, inject_Z_opp. ring. Qed.
Lemma chunks_zero : forall nr br bc gr gc, generate_chunks nr 0 br bc gr gc = ([], []).
Proof.
  intros. assert (W : forall {X Y} (l : list X), flat_map (fun _ => @nil Y) l = []) by (induction l; auto).
  unfold generate_chunks. change (extents 0 bc gc) with (@nil (Z * Z)). cbn [map seq]. now rewrite !W.
Qed.
Lemma Forall2_len : forall {A B} {R : A -> B -> Prop} {a b}, Forall2 R a b -> length a = length b.
Proof. intros A B R a b H. induction H; cbn; congruence. Qed.
