(** Lemmas for C19, C20, C58, C59. *)
From Verif Require Import Prelude FilesModel FilesSpec.
Local Open Scope Z_scope.

Definition info_of (empty max_frames n : Z) : finfo :=
  {| fi_empty := empty; fi_nframes := Z.min (if max_frames =? 0 then n else max_frames) (n - empty) |}.

Lemma process_ok empty max_frames files : Forall (fun n => empty < n) files ->
  process_files empty max_frames files = Ok (map (info_of empty max_frames) files).
Proof.
  induction 1 as [|n files H Hf IH]; cbn [process_files map]; auto. unfold file_info.
  destruct (Z.geb_spec empty n); [lia|]. cbn [rbind]. rewrite IH. reflexivity.
Qed.

Lemma process_err empty max_frames files : Exists (fun n => n <= empty) files ->
  process_files empty max_frames files = Err ValueError.
Proof.
  induction files as [|n files IH]; intros H; [inversion H|]. cbn [process_files]. unfold file_info.
  destruct (Z.geb_spec empty n); [reflexivity|]. inversion H; subst; [lia|]. cbn [rbind]. rewrite IH by auto. reflexivity.
Qed.

Lemma firstn_zrange k a b : firstn k (zrange a b) = zrange a (Z.min b (a + Z.of_nat k)).
Proof.
  destruct (Z_lt_le_dec b a).
  { rewrite !zrange_nil by lia. destruct k; reflexivity. }
  destruct (Z_le_gt_dec (a + Z.of_nat k) b).
  - rewrite <- (zrange_app a (a + Z.of_nat k) b) by lia. rewrite firstn_app.
    rewrite zrange_length. replace (k - Z.to_nat (a + Z.of_nat k - a))%nat with 0%nat by lia. cbn [firstn]. rewrite app_nil_r.
    rewrite firstn_all2 by (rewrite zrange_length; lia). f_equal. lia.
  - rewrite firstn_all2 by (rewrite zrange_length; lia). f_equal. lia.
Qed.

Lemma frames_of_file_eq empty max_frames f n : 0 <= empty -> 0 <= max_frames -> empty < n ->
  frames_of_file empty max_frames f n = map (fun j => (f, j)) (zrange empty (empty + fi_nframes (info_of empty max_frames n))).
Proof.
  intros H1 H2 H3. unfold frames_of_file. f_equal. cbn [fi_nframes info_of]. destruct (Z.eqb_spec max_frames 0).
  - f_equal. lia.
  - rewrite firstn_zrange. f_equal. lia.
Qed.

Lemma zrange_nth_error a b k : 0 <= k < b - a -> nth_error (zrange a b) (Z.to_nat k) = Some (a + k).
Proof.
  intros H. unfold zrange. rewrite nth_error_map.
  rewrite (nth_error_nth' _ 0%nat) by (rewrite seq_length; lia). cbn [option_map]. rewrite seq_nth by lia. f_equal. lia.
Qed.

Section Valid.
Variables (empty max_frames : Z).
Hypotheses (He : 0 <= empty) (Hm : 0 <= max_frames).
Let infos files := map (info_of empty max_frames) files.

Lemma nframes_pos n : empty < n -> 1 <= fi_nframes (info_of empty max_frames n).
Proof. intros H. cbn. destruct (Z.eqb_spec max_frames 0); lia. Qed.

Lemma frames_length files f : Forall (fun n => empty < n) files ->
  Z.of_nat (length (frames_of_files empty max_frames f files)) = total_frames (infos files).
Proof.
  intros H. revert f. induction H as [|n files Hn Hf IH]; intros f; [reflexivity|]. cbn [frames_of_files].
  rewrite app_length, Nat2Z.inj_add, IH.
  change (total_frames (infos (n :: files))) with (fi_nframes (info_of empty max_frames n) + total_frames (infos files)).
  rewrite frames_of_file_eq by auto. rewrite map_length, zrange_length. pose proof (nframes_pos n Hn) as Hp. revert Hp.
  generalize (fi_nframes (info_of empty max_frames n)) (total_frames (infos files)). intros. lia.
Qed.

Lemma find_frame_ok files : Forall (fun n => empty < n) files -> forall f k d, 0 <= k < total_frames (infos files) ->
  nth_error (frames_of_files empty max_frames f files) (Z.to_nat k) = Some (find_frame (infos files) k f d).
Proof.
  induction 1 as [|n files Hn Hf IH]; intros f k d Hk; [unfold infos, total_frames in Hk; cbn [map fold_right] in Hk; lia|].
  change (total_frames (infos (n :: files))) with (fi_nframes (info_of empty max_frames n) + total_frames (infos files)) in Hk.
  change (infos (n :: files)) with (info_of empty max_frames n :: infos files). cbn [frames_of_files find_frame].
  pose proof (nframes_pos n Hn) as Hp. rewrite frames_of_file_eq by auto.
  set (m := fi_nframes (info_of empty max_frames n)) in *.
  destruct (Z.ltb_spec k m).
  - rewrite nth_error_app1 by (rewrite map_length, zrange_length; lia). rewrite nth_error_map, zrange_nth_error by lia.
    cbn [option_map]. f_equal. f_equal. cbn [info_of fi_empty]. lia.
  - rewrite nth_error_app2 by (rewrite map_length, zrange_length; lia). rewrite map_length, zrange_length.
    replace (Z.to_nat k - Z.to_nat (empty + m - empty))%nat with (Z.to_nat (k - m)) by lia. apply IH. lia.
Qed.

Lemma series_length max_total files : Forall (fun n => empty < n) files ->
  Z.of_nat (length (series_frames empty max_frames max_total files)) = if_len max_total (infos files).
Proof.
  intros H. unfold series_frames, if_len. destruct (Z.gtb_spec max_total 0).
  - rewrite firstn_length. pose proof (frames_length files 0%nat H). lia.
  - apply frames_length; auto.
Qed.

Lemma nth_error_firstn' {A} (l : list A) k i : (i < k)%nat -> nth_error (firstn k l) i = nth_error l i.
Proof. revert k i; induction l as [|x l IH]; intros [|k] [|i] H; cbn; auto; try lia. apply IH. lia. Qed.

Lemma series_nth max_total files k d : Forall (fun n => empty < n) files -> 0 <= k < if_len max_total (infos files) ->
  nth_error (series_frames empty max_frames max_total files) (Z.to_nat k) = Some (find_frame (infos files) k 0%nat d).
Proof.
  intros H Hk. unfold series_frames, if_len in *. destruct (Z.gtb_spec max_total 0).
  - rewrite nth_error_firstn' by lia. apply find_frame_ok; auto. lia.
  - apply find_frame_ok; auto.
Qed.

Lemma multi_single files : Forall (fun n => empty < n) files -> multi_frame empty max_frames files -> singleframes (infos files) = false.
Proof.
  intros H (f & n & Hin & Hl). destruct (singleframes (infos files)) eqn:E; auto. exfalso.
  unfold singleframes in E. rewrite forallb_forall in E. rewrite Forall_forall in H.
  specialize (E (info_of empty max_frames n) (in_map _ _ _ Hin)). rewrite frames_of_file_eq in Hl by auto.
  rewrite map_length, zrange_length in Hl. destruct (Z.gtb_spec (fi_nframes (info_of empty max_frames n)) 1); [discriminate|]. lia.
Qed.

Lemma not_multi_single files : Forall (fun n => empty < n) files -> ~ multi_frame empty max_frames files -> singleframes (infos files) = true.
Proof.
  intros H Hn. unfold singleframes. apply forallb_forall. intros i Hi. apply in_map_iff in Hi as (n & <- & Hin).
  rewrite Forall_forall in H. destruct (Z.gtb_spec (fi_nframes (info_of empty max_frames n)) 1); auto. exfalso. apply Hn.
  exists 0%nat, n. split; auto. rewrite frames_of_file_eq by auto. rewrite map_length, zrange_length. lia.
Qed.

Lemma multi_get max_total files key : Forall (fun n => empty < n) files -> multi_frame empty max_frames files ->
  imagefiles_get empty max_frames max_total files key = list_lookup (series_frames empty max_frames max_total files) key.
Proof.
  intros H Hmf. unfold imagefiles_get. rewrite process_ok by auto. cbn [rbind]. fold (infos files). unfold if_get.
  rewrite multi_single by auto. unfold file_and_frame, list_lookup, py_index. rewrite series_length by auto.
  set (nf := if_len max_total (infos files)).
  assert (Hnf : 0 <= nf) by (unfold nf; rewrite <- series_length by auto; lia).
  assert (A : forall k, 0 <= k -> nf <= k -> nth_error (series_frames empty max_frames max_total files) (Z.to_nat k) = None).
  { intros k Hk1 Hk2. apply nth_error_None. pose proof (series_length max_total files H). fold nf in H0. lia. }
  destruct (Z.ltb_spec key (- nf)); cbn [orb].
  - destruct (Z.ltb_spec key 0); [|lia]. destruct (Z.ltb_spec (nf + key) 0); [reflexivity|lia].
  - destruct (Z.geb_spec key nf).
    + destruct (Z.ltb_spec key 0); [lia|]. destruct (Z.ltb_spec key 0); [lia|]. rewrite A by lia. reflexivity.
    + destruct (Z.geb_spec key 0).
      * destruct (Z.ltb_spec key 0); [lia|]. destruct (Z.ltb_spec key 0); [lia|].
        rewrite (series_nth _ _ _ (- nf - 1)) by (auto; fold nf; lia). reflexivity.
      * destruct (Z.ltb_spec key 0); [|lia]. destruct (Z.ltb_spec (nf + key) 0); [lia|].
        rewrite (series_nth _ _ _ (- nf - 1)) by (auto; fold nf; lia). reflexivity.
Qed.
End Valid.

Lemma multi_frame_lookup empty max_frames max_total files key : valid_options empty max_frames files ->
  multi_frame empty max_frames files ->
  imagefiles_get empty max_frames max_total files key = list_lookup (series_frames empty max_frames max_total files) key.
Proof. intros (H1 & H2 & H3) H4. apply multi_get; auto. Qed.

Lemma files_len empty max_frames max_total files : valid_options empty max_frames files ->
  imagefiles_len empty max_frames max_total files = Ok (Z.of_nat (length (series_frames empty max_frames max_total files))).
Proof.
  intros (H1 & H2 & H3). unfold imagefiles_len. rewrite process_ok by auto. cbn [rbind]. rewrite series_length by auto. reflexivity.
Qed.

Lemma files_rejected empty max_frames max_total files key : Exists (fun n => n <= empty) files ->
  imagefiles_get empty max_frames max_total files key = Err ValueError /\ imagefiles_len empty max_frames max_total files = Err ValueError.
Proof. intros H. unfold imagefiles_get, imagefiles_len. rewrite process_err by auto. split; reflexivity. Qed.

(** one frame per file *)
Lemma single_table max_frames files f : 0 <= max_frames -> Forall (fun n => 0 < n) files ->
  singleframes (map (info_of 0 max_frames) files) = true ->
  frames_of_files 0 max_frames f files = map (fun i => (i, 0)) (seq f (length files)).
Proof.
  intros Hm H. revert f. induction H as [|n files Hn Hf IH]; intros f Hs; cbn [frames_of_files length seq map]; [reflexivity|].
  cbn [map singleframes forallb] in Hs. apply andb_true_iff in Hs as [Hs1 Hs2].
  rewrite frames_of_file_eq by lia. rewrite IH by auto.
  assert (E : fi_nframes (info_of 0 max_frames n) = 1).
  { pose proof (nframes_pos 0 max_frames (Z.le_refl 0) Hm n Hn). destruct (Z.gtb_spec (fi_nframes (info_of 0 max_frames n)) 1); [discriminate|lia]. }
  rewrite E. reflexivity.
Qed.

Lemma py_index_map {A B} (g : A -> B) l key : py_index (map g l) key = do x <- py_index l key; Ok (g x).
Proof.
  unfold py_index. rewrite map_length. cbv zeta.
  match goal with |- context [if ?b then Err _ else _] => destruct b end; [reflexivity|].
  rewrite nth_error_map. match goal with |- context [nth_error l ?i] => destruct (nth_error l i) end; reflexivity.
Qed.

Lemma single_frame_lookup max_frames max_total files key : valid_options 0 max_frames files ->
  ~ multi_frame 0 max_frames files -> (max_total <= 0 \/ Z.of_nat (length files) <= max_total) ->
  imagefiles_get 0 max_frames max_total files key = py_index (series_frames 0 max_frames max_total files) key.
Proof.
  intros (_ & H2 & H3) Hn Ht. unfold imagefiles_get. rewrite process_ok by auto. cbn [rbind]. unfold if_get.
  pose proof (not_multi_single 0 max_frames (Z.le_refl 0) H2 files H3 Hn) as Hs. rewrite Hs. unfold series_frames.
  rewrite single_table by auto. rewrite map_length.
  assert (E : (if max_total >? 0 then firstn (Z.to_nat max_total) (map (fun i : nat => (i, 0)) (seq 0 (length files)))
               else map (fun i : nat => (i, 0)) (seq 0 (length files))) = map (fun i : nat => (i, 0)) (seq 0 (length files))).
  { destruct (Z.gtb_spec max_total 0); auto. apply firstn_all2. rewrite map_length, seq_length. lia. }
  rewrite E, py_index_map. reflexivity.
Qed.

(** ** raw files *)
Lemma raw_accept nbytes fb skip : 0 < fb -> 0 <= nbytes -> 0 <= skip ->
  ((exists n, raw_length nbytes fb skip = Ok n) <-> skip < fb /\ exists n, 0 <= n /\ nbytes = skip + n * fb) /\
  (forall n, raw_length nbytes fb skip = Ok n -> 0 <= n /\ nbytes = skip + n * fb).
Proof.
  intros H1 H2 H3. unfold raw_length. destruct (Z.eqb_spec fb 0) as [?|Hfb]; [lia|].
  assert (A : nbytes mod fb = skip -> 0 <= (nbytes - skip) / fb /\ nbytes = skip + (nbytes - skip) / fb * fb /\ skip < fb).
  { intros E. pose proof (Z.div_mod nbytes fb ltac:(lia)) as D. pose proof (Z.mod_pos_bound nbytes fb H1).
    assert (Q : (nbytes - skip) / fb = nbytes / fb).
    { replace (nbytes - skip) with (nbytes / fb * fb) by lia. apply Z.div_mul. lia. }
    rewrite Q. pose proof (Z.div_pos nbytes fb H2 H1). lia. }
  split.
  - destruct (Z.eqb_spec (nbytes mod fb) skip) as [E|E].
    + destruct (A E) as (A1 & A2 & A3). split; intros _; [split; auto; eauto|eauto].
    + split; [intros [n ?]; discriminate|]. intros (Hs & n & Hn & ->). exfalso. apply E.
      rewrite Z.mod_add by lia. apply Z.mod_small. lia.
  - intros n0. destruct (Z.eqb_spec (nbytes mod fb) skip) as [E|E]; [|discriminate]. intros Q. injection Q as <-. destruct (A E). tauto.
Qed.

Lemma skipn_firstn_nth {A} (l : list A) a k j : (j < k)%nat -> nth_error (firstn k (skipn a l)) j = nth_error l (a + j).
Proof.
  intros H. rewrite nth_error_firstn' by auto. revert a. induction l as [|x l IH]; intros [|a]; cbn; auto.
  - destruct j; auto.
Qed.

Lemma raw_get_frame {B} (bytes : list B) fb skip n key : 0 < fb -> 0 <= skip ->
  raw_length (Z.of_nat (length bytes)) fb skip = Ok n -> 0 <= key < n ->
  exists frame, raw_get bytes fb skip key = Ok frame /\ Z.of_nat (length frame) = fb /\
    forall j, 0 <= j < fb -> nth_error frame (Z.to_nat j) = nth_error bytes (Z.to_nat (skip + key * fb + j)).
Proof.
  intros H1 H2 Hl Hk. destruct (raw_accept (Z.of_nat (length bytes)) fb skip H1 ltac:(lia) H2) as [_ A].
  destruct (A n Hl) as [A1 A2]. unfold raw_get.
  assert (P : (key + 1) * fb <= n * fb) by (apply Z.mul_le_mono_nonneg_r; lia).
  assert (P0 : 0 <= key * fb) by (apply Z.mul_nonneg_nonneg; lia).
  destruct (Z.ltb_spec (key * fb + skip) 0); [lia|].
  assert (L : length (firstn (Z.to_nat fb) (skipn (Z.to_nat (key * fb + skip)) bytes)) = Z.to_nat fb).
  { rewrite firstn_length, skipn_length. lia. }
  rewrite L. destruct (Z.eqb_spec (Z.of_nat (Z.to_nat fb)) fb); [|lia]. eexists. split; [reflexivity|]. split; [rewrite L; lia|].
  intros j Hj. rewrite skipn_firstn_nth by lia. f_equal. lia.
Qed.

Lemma raw_get_outside {B} (bytes : list B) fb skip n key : 0 < fb -> 0 <= skip ->
  raw_length (Z.of_nat (length bytes)) fb skip = Ok n -> key < 0 \/ n <= key -> raw_get bytes fb skip key = Err ValueError.
Proof.
  intros H1 H2 Hl Hk. destruct (raw_accept (Z.of_nat (length bytes)) fb skip H1 ltac:(lia) H2) as [Acc A].
  destruct (A n Hl) as [A1 A2]. destruct (proj1 Acc (ex_intro _ n Hl)) as [Hs _]. unfold raw_get.
  destruct Hk as [Hk|Hk].
  - assert (key * fb <= (-1) * fb) by (apply Z.mul_le_mono_nonneg_r; lia). destruct (Z.ltb_spec (key * fb + skip) 0); [reflexivity|lia].
  - assert (n * fb <= key * fb) by (apply Z.mul_le_mono_nonneg_r; lia).
    assert (0 <= n * fb) by (apply Z.mul_nonneg_nonneg; lia).
    destruct (Z.ltb_spec (key * fb + skip) 0); [lia|].
    rewrite skipn_all2 by lia. rewrite firstn_nil. cbn [length]. destruct (Z.eqb_spec (Z.of_nat 0) fb); [lia|reflexivity].
Qed.

(** ** threads on one handle *)
Section Handle.
Context {B : Type} (bytes : list B) (fb skip : Z) (keys : list Z).

Definition r_holds (pc : rpc B) : bool := match pc with RLocked _ | RSeeked _ | RRead _ => true | _ => false end.
Definition r_ok (s : rstate B) (k : Z) (pc : rpc B) : Prop :=
  match pc with
  | RStart k' | RLocked k' => k' = k
  | RSeeked k' => k' = k /\ r_pos s = k * fb + skip /\ 0 <= k * fb + skip
  | RRead v | RDone v => v = raw_get bytes fb skip k
  end.
Record rinv (s : rstate B) : Prop := {
  ri_len : length (r_pcs s) = length keys;
  ri_lock : forall w pc, nth_error (r_pcs s) w = Some pc -> (r_holds pc = true <-> r_lock s = Some w);
  ri_lt : forall w, r_lock s = Some w -> (w < length (r_pcs s))%nat;
  ri_pc : forall w pc k, nth_error (r_pcs s) w = Some pc -> nth_error keys w = Some k -> r_ok s k pc
}.

Lemma rinit_inv : rinv (rinit keys).
Proof.
  constructor; cbn.
  - apply map_length.
  - intros w pc H. rewrite nth_error_map in H. destruct (nth_error keys w); [|discriminate]. cbn in H. injection H as <-. cbn. split; discriminate.
  - discriminate.
  - intros w pc k H Hk. rewrite nth_error_map, Hk in H. cbn in H. injection H as <-. reflexivity.
Qed.

Lemma rstep_inv s s' w : rinv s -> rstep bytes fb skip s w = Some s' -> rinv s'.
Proof.
  intros I H. unfold rstep in H. destruct (nth_error (r_pcs s) w) as [pc|] eqn:Ew; [|discriminate].
  assert (Lw : (w < length (r_pcs s))%nat) by (apply nth_error_Some; congruence).
  assert (Hkey : exists k, nth_error keys w = Some k).
  { destruct (nth_error keys w) eqn:E; [eauto|]. apply nth_error_None in E. rewrite <- (ri_len _ I) in E. lia. }
  destruct Hkey as [kw Hkw]. pose proof (ri_pc _ I _ _ _ Ew Hkw) as Hok. pose proof (ri_lock _ I _ _ Ew) as Hlk.
  assert (G : forall pc' w2 q, nth_error (set_nth w pc' (r_pcs s)) w2 = Some q ->
            (w2 = w /\ q = pc') \/ (w2 <> w /\ nth_error (r_pcs s) w2 = Some q)).
  { intros pc' w2 q Hq. destruct (Nat.eq_dec w w2) as [<-|Hne].
    - rewrite set_nth_eq in Hq by auto. left; split; congruence.
    - rewrite set_nth_ne in Hq by auto. right; auto. }
  assert (K : forall w2 q, w2 <> w -> r_holds pc = true -> nth_error (r_pcs s) w2 = Some q -> r_holds q = false).
  { intros w2 q Hne Hh Hq. destruct (r_holds q) eqn:E; auto. apply (ri_lock _ I _ _ Hq) in E. apply Hlk in Hh. congruence. }
  assert (M : forall s2 w2 q k, w2 <> w -> r_holds q = false -> nth_error (r_pcs s) w2 = Some q -> nth_error keys w2 = Some k -> r_ok s2 k q).
  { intros s2 w2 q k Hne Hh Hq Hk. pose proof (ri_pc _ I _ _ _ Hq Hk). destruct q; cbn in *; try discriminate; auto. }
  destruct pc as [k|k|k|v|v]; cbn [r_holds r_ok] in *.
  - destruct (r_lock s) eqn:El; [discriminate|]. injection H as <-. subst k. constructor; cbn [r_lock r_pos r_pcs].
    + rewrite set_nth_length. apply I.
    + intros w2 q Hq. apply G in Hq as [[-> ->]|[Hne Hq]]; [cbn; tauto|].
      pose proof (ri_lock _ I _ _ Hq) as Hl. rewrite El in Hl. split; [intros Hh; apply Hl in Hh; discriminate|congruence].
    + intros w2 E. injection E as <-. rewrite set_nth_length. auto.
    + intros w2 q k Hq Hk. apply G in Hq as [[-> ->]|[Hne Hq]]; [cbn; congruence|].
      apply M with (w2 := w2); auto. destruct (r_holds q) eqn:E; auto. apply (ri_lock _ I _ _ Hq) in E. congruence.
  - subst k. destruct (Z.ltb_spec (kw * fb + skip) 0); injection H as <-; constructor; cbn [r_lock r_pos r_pcs];
      try (rewrite set_nth_length; apply I);
      try (intros w2 q Hq; apply G in Hq as [[-> ->]|[Hne Hq]]; [exact Hlk|apply (ri_lock _ I _ _ Hq)]).
    + intros w2 q k Hq Hk. apply G in Hq as [[-> ->]|[Hne Hq]].
      * assert (k = kw) by congruence. subst k. cbn. unfold raw_get. destruct (Z.ltb_spec (kw * fb + skip) 0); [reflexivity|lia].
      * apply M with (w2 := w2); auto. apply (K w2); auto.
    + intros w2 q k Hq Hk. apply G in Hq as [[-> ->]|[Hne Hq]].
      * assert (k = kw) by congruence. subst k. cbn. lia.
      * apply M with (w2 := w2); auto. apply (K w2); auto.
  - destruct Hok as (-> & Hp & Hp2). injection H as <-; constructor; cbn [r_lock r_pos r_pcs].
    + rewrite set_nth_length; apply I.
    + intros w2 q Hq. apply G in Hq as [[-> ->]|[Hne Hq]]; [exact Hlk|apply (ri_lock _ I _ _ Hq)].
    + rewrite set_nth_length; apply I.
    + intros w2 q k Hq Hk. apply G in Hq as [[-> ->]|[Hne Hq]].
      * assert (k = kw) by congruence. subst k. cbn. unfold raw_get, read_at. rewrite Hp.
        destruct (Z.ltb_spec (kw * fb + skip) 0); [lia|reflexivity].
      * apply M with (w2 := w2); auto. apply (K w2); auto.
  - injection H as <-; constructor; cbn [r_lock r_pos r_pcs].
    + rewrite set_nth_length; apply I.
    + intros w2 q Hq. apply G in Hq as [[-> ->]|[Hne Hq]]; [cbn; split; discriminate|].
      rewrite (K w2 q Hne eq_refl Hq). split; discriminate.
    + discriminate.
    + intros w2 q k Hq Hk. apply G in Hq as [[-> ->]|[Hne Hq]].
      * assert (k = kw) by congruence. subst k. exact Hok.
      * apply M with (w2 := w2); auto. apply (K w2); auto.
  - discriminate.
Qed.

Lemma rrun_inv sched : forall s s', rinv s -> rrun bytes fb skip s sched = Some s' -> rinv s'.
Proof.
  induction sched as [|w sched IH]; cbn [rrun]; intros s s' I H; [injection H as <-; auto|].
  destruct (rstep bytes fb skip s w) as [s1|] eqn:E; [|discriminate]. eapply IH; [|exact H]. eapply rstep_inv; eauto.
Qed.

Lemma raw_threads sched s : rrun bytes fb skip (rinit keys) sched = Some s ->
  forall w k v, nth_error keys w = Some k -> nth_error (r_pcs s) w = Some (RDone v) -> v = raw_get bytes fb skip k.
Proof. intros H w k v Hk Hv. pose proof (rrun_inv _ _ _ rinit_inv H) as I. apply (ri_pc _ I _ _ _ Hv Hk). Qed.

Lemma raw_threads_progress sched s : rrun bytes fb skip (rinit keys) sched = Some s ->
  (forall w pc, nth_error (r_pcs s) w = Some pc -> rpc_value pc <> None) \/ exists w s', rstep bytes fb skip s w = Some s'.
Proof.
  intros H. pose proof (rrun_inv _ _ _ rinit_inv H) as I.
  destruct (r_lock s) as [w|] eqn:El.
  - right. pose proof (ri_lt _ I _ El) as Hr. destruct (nth_error (r_pcs s) w) as [pc|] eqn:Ew; [|apply nth_error_None in Ew; lia].
    pose proof (proj2 (ri_lock _ I _ _ Ew) El) as Hh. exists w. unfold rstep. rewrite Ew. destruct pc; try discriminate Hh; eauto.
    destruct (_ <? 0); eauto.
  - destruct (existsb (fun pc => match pc with RStart _ => true | _ => false end) (r_pcs s)) eqn:Ex.
    + right. apply existsb_exists in Ex as (pc & Hin & Hp). apply In_nth_error in Hin as [w Hw]. exists w. unfold rstep. rewrite Hw.
      destruct pc; try discriminate. rewrite El. eauto.
    + left. intros w pc Hw. destruct pc as [k|k|k|v|v]; cbn; try discriminate.
      * intros _. assert (existsb (fun pc : rpc B => match pc with RStart _ => true | _ => false end) (r_pcs s) = true).
        { apply existsb_exists. exists (RStart k). split; [eapply nth_error_In; eauto|reflexivity]. } congruence.
      * pose proof (proj1 (ri_lock _ I _ _ Hw) eq_refl). congruence.
      * pose proof (proj1 (ri_lock _ I _ _ Hw) eq_refl). congruence.
      * pose proof (proj1 (ri_lock _ I _ _ Hw) eq_refl). congruence.
Qed.
End Handle.

(** ** iteration *)
Lemma iterate_ok {A} (get : Z -> result A) (f : Z -> A) l : (forall k, In k l -> get k = Ok (f k)) -> iterate get l = (map f l, None).
Proof.
  induction l as [|k l IH]; intros H; cbn [iterate map]; auto. rewrite (H k (or_introl eq_refl)).
  rewrite IH by (intros; apply H; right; auto). reflexivity.
Qed.

Lemma iterate_stops {A} (get : Z -> result A) (f : Z -> A) l1 k l2 e : (forall j, In j l1 -> get j = Ok (f j)) -> get k = Err e ->
  iterate get (l1 ++ k :: l2) = (map f l1, match e with IndexError => None | _ => Some e end).
Proof.
  intros H Hk. induction l1 as [|j l1 IH]; cbn [app iterate map].
  - rewrite Hk. destruct e; reflexivity.
  - rewrite (H j (or_introl eq_refl)). rewrite IH by (intros; apply H; right; auto). reflexivity.
Qed.

Lemma iter_series_ok {A} (get : Z -> result A) (f : Z -> A) n : (forall k, 0 <= k < n -> get k = Ok (f k)) ->
  iter_series get n = (map f (zrange 0 n), None).
Proof. intros H. apply iterate_ok. intros k Hk. apply H. apply in_zrange in Hk. lia. Qed.

Lemma iter_series_error {A} (get : Z -> result A) (f : Z -> A) n k e : 0 <= k < n -> (forall j, 0 <= j < k -> get j = Ok (f j)) ->
  get k = Err e -> e <> IndexError -> iter_series get n = (map f (zrange 0 k), Some e).
Proof.
  intros Hk H He Hne. unfold iter_series. rewrite <- (zrange_app 0 k n) by lia.
  assert (E : zrange k n = k :: zrange (k + 1) n).
  { rewrite <- (zrange_app k (k + 1) n) by lia. unfold zrange at 1. replace (Z.to_nat (k + 1 - k)) with 1%nat by lia. cbn. f_equal. lia. }
  rewrite E, (iterate_stops get f _ _ _ e); auto.
  - destruct e; try reflexivity. congruence.
  - intros j Hj. apply in_zrange in Hj. apply H. lia.
Qed.
