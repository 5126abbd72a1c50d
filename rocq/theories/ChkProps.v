(** C158 - C160: tiled detectors and the images of a panel *)
From Coq Require Import String QArith Lqa.
From Verif Require Import Prelude GridModel DetModel NamesModel ChkModel ChkSpec ChkProofs.
Local Open Scope string_scope.
Local Notation length := List.length.

(** ** C158: the chunks of a composite detector tile it *)
(** the chunks in order of rows and columns, with their labels *)
Theorem C158_order : forall nr nc br bc gr gc rects labels, generate_chunks nr nc br bc gr gc = (rects, labels) ->
  length rects = (nr * nc)%nat /\ length labels = (nr * nc)%nat /\
  forall a b, (a < nr)%nat -> (b < nc)%nat ->
    nth_error rects (a * nc + b) = Some ((Z.of_nat a * (br + gr), Z.of_nat a * (br + gr) + br), (Z.of_nat b * (bc + gc), Z.of_nat b * (bc + gc) + bc))%Z /\
    nth_error labels (a * nc + b) = Some (dec a ++ "_" ++ dec b).
Proof.
  intros nr nc br bc gr gc rects labels G. assert (E : rects = fst (generate_chunks nr nc br bc gr gc) /\ labels = snd (generate_chunks nr nc br bc gr gc)) by now rewrite G. destruct E as [-> ->]. split; [|split].
  - unfold generate_chunks. cbn [fst]. rewrite (flat_map_len _ nc); [now rewrite extents_len|]. intros. now rewrite map_length, extents_len.
  - unfold generate_chunks. cbn [snd]. rewrite (flat_map_len _ nc); [now rewrite seq_length|]. intros. now rewrite map_length, seq_length.
  - intros a b A B. pose proof (chunks_nth nr nc br bc gr gc (a * nc + b) ltac:(lia)) as C. rewrite G in *. cbv zeta in C. cbn [fst snd].
    assert (K : (a * nc + b <? nr * nc)%nat = true) by (apply Nat.ltb_lt; nia). rewrite K in C.
    rewrite (Nat.add_comm (a * nc)), Nat.div_add, Nat.mod_add, Nat.div_small, Nat.mod_small in C by lia. rewrite (Nat.add_comm (a * nc)). exact C.
Qed.
Print Assumptions C158_order.
(** a pixel is in some chunk exactly if neither its row nor its column is in a gap *)
Theorem C158_cover : forall nr nc br bc gr gc i j, (0 < br -> 0 < bc -> 0 <= gr -> 0 <= gc ->
  ((exists r, In r (fst (generate_chunks nr nc br bc gr gc)) /\ inside r i j) <-> on_tile nr br gr i /\ on_tile nc bc gc j))%Z.
Proof.
  intros nr nc br bc gr gc i j BR BC GR GC. rewrite <- !tile_iff by assumption. split.
  - intros (r & I & [A B]). apply chunks_in in I as (a & b & H & K & ->). cbn [fst snd] in A, B. split; eauto.
  - intros [(a & A & H) (b & B & K)]. eexists. split; [apply chunks_in; exists a, b; split; [exact A|]; split; [exact B|reflexivity]|]. split; assumption.
Qed.
Print Assumptions C158_cover.
(** without gaps, these are all the pixels of the composite image *)
Theorem C158_cover_all : forall nr nc br bc i j, (0 < br -> 0 < bc ->
  ((exists r, In r (fst (generate_chunks nr nc br bc 0 0)) /\ inside r i j) <-> 0 <= i < Z.of_nat nr * br /\ 0 <= j < Z.of_nat nc * bc))%Z.
Proof.
  intros nr nc br bc i j BR BC. rewrite C158_cover by lia. unfold on_tile. rewrite !Z.add_0_r. pose proof (Z.mod_pos_bound i br BR). pose proof (Z.mod_pos_bound j bc BC). lia.
Qed.
Print Assumptions C158_cover_all.
(** no pixel is in two chunks, and no two chunks have the same label *)
Theorem C158_disjoint : forall nr nc br bc gr gc rects labels k l, generate_chunks nr nc br bc gr gc = (rects, labels) ->
  (forall r s i j, nth_error rects k = Some r -> nth_error rects l = Some s -> 0 < br -> 0 < bc -> 0 <= gr -> 0 <= gc -> inside r i j -> inside s i j -> k = l)%Z /\
  (forall x, nth_error labels k = Some x -> nth_error labels l = Some x -> k = l).
Proof.
  intros nr nc br bc gr gc rects labels k l G. destruct nc as [|nc'].
  { rewrite chunks_zero in G. injection G as <- <-.
    split; intros; destruct k; discriminate. }
  assert (NZ : (0 < S nc')%nat) by lia. revert G NZ. generalize (S nc') as nc. clear nc'. intros nc G NZ. pose proof (chunks_nth nr nc br bc gr gc k ltac:(lia)) as CK. pose proof (chunks_nth nr nc br bc gr gc l ltac:(lia)) as CL. rewrite G in CK, CL. cbv zeta in CK, CL. destruct CK as [RK LK], CL as [RL LL].
  assert (U : (k / nc = l / nc -> k mod nc = l mod nc -> k = l)%nat).
  { intros A B. rewrite (Nat.div_mod k nc), (Nat.div_mod l nc) by lia. now rewrite A, B. }
  split.
  - intros r s i j R S0 BR BC GR GC I J. rewrite RK in R. rewrite RL in S0. destruct (k <? _)%nat; [|discriminate]. destruct (l <? _)%nat; [|discriminate]. injection R as <-. injection S0 as <-.
    destruct I as [I1 I2], J as [J1 J2]. cbn [fst snd] in *. apply U; [apply (tile_unique br gr _ _ i)|apply (tile_unique bc gc _ _ j)]; assumption.
  - intros x X Y. rewrite LK in X. rewrite LL in Y. destruct (k <? _)%nat; [|discriminate]. destruct (l <? _)%nat; [|discriminate]. injection X as <-. injection Y as Y. apply label_inj in Y as [Y1 Y2]. apply U; congruence.
Qed.
Print Assumptions C158_disjoint.
(** a negative gap, which is not refused, makes chunks overlap *)
Theorem C158_gap_refuted : exists r s i j, nth_error (fst (generate_chunks 1 2 4 4 0 (-1))) 0 = Some r /\ nth_error (fst (generate_chunks 1 2 4 4 0 (-1))) 1 = Some s /\ inside r i j /\ inside s i j.
Proof. eexists _, _, 0%Z, 3%Z. split; [reflexivity|]. split; [reflexivity|]. unfold inside. cbn. lia. Qed.
Print Assumptions C158_gap_refuted.
Example C158_ex : generate_chunks 2 2 100 200 3 0 =
  ([((0, 100), (0, 200)); ((0, 100), (200, 400)); ((103, 203), (0, 200)); ((103, 203), (200, 400))]%Z, ["0_0"; "0_1"; "1_0"; "1_1"]).
Proof. reflexivity. Qed.

(** ** C159: an instrument cut into chunks *)
(** each chunk of each panel has its own entry *)
Theorem C159_entries : forall load instr nr nc br bc gr gc use_roi d rects labels, NoDup (map fst instr) -> generate_chunks nr nc br bc gr gc = (rects, labels) ->
  (chunk_instrument load instr rects labels use_roi = Ok d <->
   entries (fun id lab => id ++ "_" ++ lab) instr (combine rects labels) (fun p r c => chunk load use_roi p r = Ok c) d) /\
  (chunk_instrument load instr rects labels use_roi = Ok d -> NoDup (map fst d) /\ length d = (length instr * (nr * nc))%nat).
Proof.
  intros load instr nr nc br bc gr gc use_roi d rects labels N G.
  assert (INJ : forall i j x y, nth_error (combine rects labels) i = Some x -> nth_error (combine rects labels) j = Some y -> forall p q, nm p (snd x) = nm q (snd y) -> p = q /\ i = j).
  { assert (NL : forall l1 l2 i (x : rect * string), nth_error (combine l1 l2) i = Some x -> nth_error l2 i = Some (snd x)).
    { induction l1 as [|a l1 IH]; intros [|b l2] [|i] x H; cbn in *; try discriminate. { injection H as <-. reflexivity. } now apply IH. }
    intros i j x y X Y p q E. apply NL in X, Y. destruct nc as [|nc'].
    { rewrite chunks_zero in G. injection G as <- <-. destruct i; discriminate. }
    assert (NZ : (0 < S nc')%nat) by lia. revert G NZ. generalize (S nc') as nc. clear nc'. intros nc G NZ. pose proof (chunks_nth nr nc br bc gr gc i ltac:(lia)) as CK. pose proof (chunks_nth nr nc br bc gr gc j ltac:(lia)) as CL. rewrite G in CK, CL. cbv zeta in CK, CL. destruct CK as [_ LK], CL as [_ LL].
    rewrite X in LK. rewrite Y in LL. destruct (i <? _)%nat; [|discriminate]. destruct (j <? _)%nat; [|discriminate]. injection LK as LK. injection LL as LL. rewrite LK, LL in E. unfold nm in E.
    apply name_inj in E as (-> & A & B). split; auto. rewrite (Nat.div_mod i nc), (Nat.div_mod j nc) by lia. now rewrite A, B. }
  pose proof (chunk_all_spec load use_roi (combine rects labels) INJ instr [] d N) as CS. unfold chunk_instrument.
  assert (CS' : chunk_all load use_roi instr (combine rects labels) [] = Ok d <-> entries nm instr (combine rects labels) (fun p r c => chunk load use_roi p r = Ok c) d).
  { rewrite CS by (intros; intros []). split; [intros (cs & -> & H); exact H|intros H; exists d; auto]. }
  split; [exact CS'|]. intros H. apply CS' in H. unfold entries in H. split.
  - assert (MN : map fst d = map (fun a => nm (fst (fst a)) (snd (snd a))) (flat_map (fun p => map (fun c => (p, c)) (combine rects labels)) instr)).
    { clear -H. induction H as [|x y ? ? [A _] H IH]; cbn [map]; congruence. }
    rewrite MN. clear H MN CS CS'. revert N. induction instr as [|[id p] instr IH]; intros N; cbn [flat_map map]; [constructor|]. cbn [map fst] in N. inversion N as [|? ? X N']; subst.
    rewrite map_app, map_map. cbn [fst snd]. apply NoDup_app2.
    + apply NoDup_nth_error. intros i j I E. rewrite map_length in I. rewrite !nth_error_map in E. destruct (nth_error (combine rects labels) i) as [x|] eqn:A; [|apply nth_error_None in A; lia].
      destruct (nth_error (combine rects labels) j) as [y|] eqn:B; cbn in E; [|discriminate]. injection E as E. exact (proj2 (INJ i j x y A B id id E)).
    + apply IH; auto.
    + intros s S1 S2. apply in_map_iff in S1 as (x & <- & I1). apply in_map_iff in S2 as ([[id' p'] y] & E & I2). cbn [fst snd] in E. apply in_flat_map in I2 as (q & Q & I2). apply in_map_iff in I2 as (z & EZ & I2). injection EZ as -> ->.
      apply In_nth_error in I1 as [i I1], I2 as [j I2]. destruct (INJ _ _ _ _ I2 I1 _ _ E) as [-> _]. apply X. apply (in_map fst) in Q. exact Q.
  - rewrite <- (Forall2_len H). destruct (C158_order _ _ _ _ _ _ _ _ G) as (L1 & L2 & _). rewrite (flat_map_len _ (nr * nc)); [reflexivity|]. intros. rewrite map_length, combine_length, L1, L2. lia.
Qed.
Print Assumptions C159_entries.
(** shape, orientation and pixel size of a chunk; its mask is the part of the panel's mask; its region starts where the chunk starts, if asked for *)
Theorem C159_chunk : forall load use_roi p r0 r1 c0 c1 c, (0 <= r0)%Z -> (0 <= c0)%Z -> chunk load use_roi p ((r0, r1), (c0, c1)) = Ok c ->
  (f_rows c = r1 - r0 /\ f_cols c = c1 - c0)%Z /\ f_psr c = p_psr (i_geo p) /\ f_psc c = p_psc (i_geo p) /\ f_rmat c = i_rmat p /\ (use_roi = true -> f_roi c = Some (r0, c0)) /\
  match p_buffer (i_geo p) with
  | BNone => f_buffer c = BNone
  | BBorders x y => f_buffer c = BBorders x y
  | BMask m => exists m', f_buffer c = BMask m' /\ part_of ((r0, r1), (c0, c1)) m m'
  | BName n => exists m m', panel_buffer_from_str load n (i_geo p) = Ok m /\ f_buffer c = BMask m' /\ part_of ((r0, r1), (c0, c1)) m m'
  end.
Proof.
  intros load use_roi p r0 r1 c0 c1 c R C H. unfold chunk in H. cbn [config_dict f_psr f_psc f_rmat f_buffer f_roi] in H.
  destruct (p_buffer (i_geo p)) as [|x y|m|n] eqn:B.
  1-3: cbn [rbind] in H; injection H as <-; cbn [f_rows f_cols f_psr f_psc f_rmat f_buffer f_roi]; (repeat split; auto); try (intros ->; reflexivity).
  - eexists. split; [reflexivity|]. now apply (@crop_part bool ((r0, r1), (c0, c1))).
  - destruct (panel_buffer_from_str load n (i_geo p)) as [m|] eqn:L; [|discriminate]. cbn [rbind] in H. injection H as <-. cbn [f_rows f_cols f_psr f_psc f_rmat f_buffer f_roi]. (repeat split; auto); try (intros ->; reflexivity).
    eexists _, _. split; [reflexivity|]. split; [reflexivity|]. now apply (@crop_part bool ((r0, r1), (c0, c1))).
Qed.
Print Assumptions C159_chunk.
(** every pixel of a chunk is half a pixel, along the rows and along the columns, away from where it was on the panel *)
Theorem C159_where_partial : forall load use_roi p r0 r1 c0 c1 c i j, chunk load use_roi p ((r0, r1), (c0, c1)) = Ok c ->
  veq (vsub (pixel_of_chunk c i j) (pixel_of p (r0 + i) (c0 + j))) (along (i_rmat p) ((1 # 2) * p_psc (i_geo p)) (- (1 # 2) * p_psr (i_geo p)))%Q.
Proof.
  intros load use_roi p r0 r1 c0 c1 c i j H. unfold chunk in H. cbn [config_dict f_psr f_psc f_rmat f_buffer f_roi] in H.
  match type of H with (do b <- ?e; _) = _ => destruct e as [b|]; [|discriminate] end. cbn [rbind] in H. injection H as <-.
  unfold pixel_of_chunk, pixel_of, in_lab, along, centre, pixelToCart, corner_ll, row_dim, col_dim. cbn [f_rows f_cols f_psr f_psc f_rmat f_tvec fst snd].
  destruct (i_rmat p) as [[[[a0 a1] a2] [[b0 b1] b2]] [[d0 d1] d2]]. destruct (i_tvec p) as [[t0 t1] t2]. unfold qz.
  cbn [vadd mv dot veq vsub]. repeat split; rewrite ?inject_minus, ?inject_Z_plus; ring.
Qed.
Print Assumptions C159_where_partial.
(** so the pixels of all chunks of a panel are where they were relative to one another *)
Theorem C159_relative : forall load use_roi p r r' c c' i j i' j', chunk load use_roi p r = Ok c -> chunk load use_roi p r' = Ok c' ->
  veq (vsub (pixel_of_chunk c i j) (pixel_of_chunk c' i' j')) (vsub (pixel_of p (fst (fst r) + i) (fst (snd r) + j)) (pixel_of p (fst (fst r') + i') (fst (snd r') + j'))).
Proof.
  intros load use_roi p [[r0 r1] [c0 c1]] [[s0 s1] [d0 d1]] c c' i j i' j' H H'. pose proof (C159_where_partial _ _ _ _ _ _ _ _ i j H) as A. pose proof (C159_where_partial _ _ _ _ _ _ _ _ i' j' H') as B. cbn [fst snd].
  revert A B. generalize (pixel_of_chunk c i j) (pixel_of p (r0 + i) (c0 + j)) (pixel_of_chunk c' i' j') (pixel_of p (s0 + i') (d0 + j')) (along (i_rmat p) ((1 # 2) * p_psc (i_geo p)) (- (1 # 2) * p_psr (i_geo p)))%Q.
  intros [[? ?] ?] [[? ?] ?] [[? ?] ?] [[? ?] ?] [[? ?] ?]. cbn. intros (?&?&?) (?&?&?). repeat split; lra.
Qed.
Print Assumptions C159_relative.
(** but not where they were: a panel that is one single chunk moves; a region of the panel itself is overwritten, or kept; borders are kept for every chunk *)
Theorem C159_refuted : exists p, (exists c, chunk (fun _ => Err OSError) false p ((0, 10), (0, 10))%Z = Ok c /\ p_rows (i_geo p) = 10%Z /\ p_cols (i_geo p) = 10%Z /\ ~ veq (pixel_of_chunk c 0 0) (pixel_of p 0 0)) /\
  (exists c, chunk (fun _ => Err OSError) true p ((5, 10), (0, 10))%Z = Ok c /\ p_roi (i_geo p) = Some ((100, 110), (0, 10))%Z /\ f_roi c = Some (5, 0)%Z) /\
  (exists c, chunk (fun _ => Err OSError) false p ((5, 10), (0, 10))%Z = Ok c /\ f_roi c = Some (100, 0)%Z /\ f_buffer c = BBorders 1 1).
Proof.
  exists (IPanel (Panel 10 10 1 1 (BBorders 1 1) (Some ((100, 110), (0, 10))%Z)) ((1, 0, 0), (0, 1, 0), (0, 0, 1))%Q (0, 0, 0)%Q).
  split; [|split]; eexists; (split; [reflexivity|]); repeat split; try reflexivity. vm_compute. intros (H & _). discriminate.
Qed.
Print Assumptions C159_refuted.
Example C159_ex : exists d, chunk_instrument (fun _ => Err OSError) [("a", IPanel (Panel 10 10 1 1 BNone None) ((1, 0, 0), (0, 1, 0), (0, 0, 1)) (0, 0, 0))%Q]
  (fst (generate_chunks 2 1 5 10 0 0)) (snd (generate_chunks 2 1 5 10 0 0)) true = Ok d /\ map fst d = ["a_0_0"; "a_1_0"] /\ map (fun kc => f_roi (snd kc)) d = [Some (0, 0); Some (5, 0)]%Z.
Proof. eexists. split; [reflexivity|]. split; reflexivity. Qed.

(** ** C160: the images of a panel *)
(** which images are taken *)
Definition taken (d : list (string * images)) (det : string) (group : option string) (im : images) : Prop :=
  In (shared_key, im) d \/
  (~ In shared_key (map fst d) /\ exists k, In (k, im) d /\ within det k /\ forall k', In k' (map fst d) -> within det k' -> k' = k) \/
  (~ In shared_key (map fst d) /\ (forall k, In k (map fst d) -> ~ within det k) /\ exists g, group = Some g /\ In (g, im) d).
Theorem C160_images : forall two_rows d det roi group im, NoDup (map fst d) ->
  (parse_imgser_dict two_rows d det roi group = Ok im <->
   In (det, im) d \/ (~ In det (map fst d) /\ exists src r, taken d det group src /\ roi = Some r /\ restrict two_rows r src = Ok im)).
Proof.
  intros two_rows d det roi group im N. unfold parse_imgser_dict. destruct (dlook det d) as [x|] eqn:D.
  { pose proof (proj1 (dlook_in _ _ _ N) D) as I. split.
    - intros H. injection H as <-. auto.
    - intros [H|[H _]]. { apply dlook_in in H; auto. congruence. } exfalso. apply H. apply (in_map fst) in I. exact I. }
  apply dlook_none in D.
  assert (T : forall src, taken d det group src <-> (match dlook shared_key d with Some im => Ok im | None =>
     match filter (fun kv => containsb det (fst kv)) d with [kv] => Ok (snd kv) | _ :: _ => Err RuntimeError | [] =>
       match group with Some g => match dlook g d with Some im => Ok im | None => Err RuntimeError end | None => Err RuntimeError end end end) = Ok src).
  { intros src. unfold taken. destruct (dlook shared_key d) as [x|] eqn:S0.
    { pose proof (proj1 (dlook_in _ _ _ N) S0) as I. split.
      - intros [H|[[H _]|[H _]]]; [apply dlook_in in H; auto; congruence| |]; exfalso; apply H; apply (in_map fst) in I; exact I.
      - intros H. injection H as <-. auto. }
    pose proof (proj1 (dlook_none _ _) S0) as NS.
    assert (F : forall kv, In kv (filter (fun kv => containsb det (fst kv)) d) <-> In kv d /\ within det (fst kv)) by (intros; rewrite filter_In, containsb_iff; tauto).
    assert (NF : NoDup (map fst (filter (fun kv => containsb det (fst kv)) d))) by (apply NoDup_fst_filter; assumption).
    destruct (filter _ d) as [|kv [|kv' rest]] eqn:E.
    - assert (Z : forall k, In k (map fst d) -> ~ within det k). { intros k K W. apply in_map_iff in K as (kv & <- & K). destruct (proj2 (F kv) (conj K W)). }
      split.
      + intros [H|[[_ (k & K & W & _)]|[_ [_ (g & -> & G)]]]]. { exfalso. apply NS. apply (in_map fst) in H. exact H. } { exfalso. apply (in_map fst) in K. exact (Z _ K W). } apply dlook_in in G; auto. now rewrite G.
      + destruct group as [g|]; [|discriminate]. destruct (dlook g d) as [x|] eqn:G; [|discriminate]. intros H. injection H as <-. right. right. split; auto. split; auto. exists g. split; auto. now apply dlook_in in G.
    - destruct (proj1 (F kv) (or_introl eq_refl)) as [K W]. split.
      + intros [H|[[_ (k & I & WI & U)]|[_ [Z _]]]]. { exfalso. apply NS. apply (in_map fst) in H. exact H. }
        2: { exfalso. exact (Z _ (in_map fst _ _ K) W). } destruct (proj2 (F (k, src)) (conj I WI)) as [->|[]]. reflexivity.
      + intros H. injection H as <-. right. left. split; auto. exists (fst kv). split; [now rewrite <- surjective_pairing|]. split; auto. intros k' I' W'. apply in_map_iff in I' as (kv2 & <- & I2). destruct (proj2 (F kv2) (conj I2 W')) as [->|[]]. reflexivity.
    - split; [|discriminate]. destruct (proj1 (F kv) (or_introl eq_refl)) as [K W]. destruct (proj1 (F kv') (or_intror (or_introl eq_refl))) as [K' W'].
      intros [H|[[_ (k & I & WI & U)]|[_ [Z _]]]]. { exfalso. apply NS. apply (in_map fst) in H. exact H. }
      2: { exfalso. exact (Z _ (in_map fst _ _ K) W). } exfalso. cbn [map] in NF. inversion NF as [|? ? X _]; subst. apply X. left. rewrite (U _ (in_map fst _ _ K) W). now apply U; [apply in_map|]. }
  cbv zeta. split.
  - intros H. right. split; auto. match type of H with (do x <- ?e; _) = _ => destruct e as [src|] eqn:E; [|discriminate] end. cbn [rbind] in H. pose proof (proj2 (T src) eq_refl) as E'. destruct roi as [r|]; [|discriminate]. exists src, r. auto.
  - intros [H|[_ (src & r & K & -> & R)]]. { exfalso. apply D. apply (in_map fst) in H. exact H. } apply T in K. rewrite K. cbn [rbind]. exact R.
Qed.
Print Assumptions C160_images.
(** of images or frames the part in the panel's region is taken, with the omegas of the frames *)
Theorem C160_region : forall two_rows r src im, (0 <= fst (fst r))%Z -> (0 <= fst (snd r))%Z -> restrict two_rows r src = Ok im ->
  match src with
  | Series om frames => exists frames', im = Series om frames' /\ Forall2 (part_of r) frames frames'
  | Picture m => exists m', im = Picture m' /\ part_of r m m'
  | Stack imgs => imgs = [] /\ im = Stack [] \/ exists m rest, imgs = m :: rest /\ length m = 2%nat
  | Array _ => False
  end.
Proof.
  intros two_rows r src im R C H. destruct src as [om fr|m|imgs|n]; cbn [restrict] in H.
  - injection H as <-. eexists. split; [reflexivity|]. clear -R C. induction fr; cbn [map]; constructor; auto. now apply crop_part.
  - injection H as <-. eexists. split; [reflexivity|]. now apply crop_part.
  - destruct imgs as [|m rest]; [injection H as <-; auto|]. right. destruct (Nat.eqb_spec (length m) 2); [eauto|discriminate].
  - discriminate.
Qed.
Print Assumptions C160_region.
(** a stack of images, which is said to be accepted, is refused; the images of another panel, whose name contains this one's, are taken; and images under the panel's own name are not cut *)
Theorem C160_refuted : (forall two_rows r m rest, length m <> 2%nat -> restrict two_rows r (Stack (m :: rest)) = Err ValueError) /\
  (forall two_rows im r, parse_imgser_dict two_rows [("ge10", im)] "ge1" (Some r) None = restrict two_rows r im) /\
  (forall two_rows im r group det, parse_imgser_dict two_rows [(det, im)] det (Some r) group = Ok im).
Proof.
  split; [|split].
  - intros two_rows r m rest N. cbn [restrict]. destruct (Nat.eqb_spec (length m) 2); [contradiction|reflexivity].
  - intros. reflexivity.
  - intros. unfold parse_imgser_dict. cbn [dlook]. now rewrite String.eqb_refl.
Qed.
Print Assumptions C160_refuted.
Example C160_ex : parse_imgser_dict (fun _ => Err TypeError) [("SHARED-IMAGES", Picture [[1; 2]; [3; 4]]%Q)] "ge1" (Some ((1, 2), (0, 2))%Z) None = Ok (Picture [[3; 4]]%Q).
Proof. reflexivity. Qed.
