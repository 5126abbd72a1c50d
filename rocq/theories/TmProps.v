(** C178-C181: tomography and rings *)
From Coq Require Import String Ascii Reals QArith Qabs List Bool ZArith Lia Lra.
From Verif Require Import Prelude NamesModel NamesProofs HcProofs DetModel DetProofs ChkProofs TmModel TmSpec TmProofs.
Import ListNotations.
Local Open Scope string_scope.
Local Open Scope list_scope.
Local Notation length := List.length.

(** C178: radiograph k is the attenuation of the image numbered start + k, and different numbers are different files *)
Lemma load_nth imread folder stem ext nd nr nc : forall nums st, load_stack imread folder stem ext nd nr nc nums = Ok st ->
  length st = length nums /\ forall k n, nth_error nums k = Some n -> exists im, nth_error st k = Some im /\ imread (image_name folder stem nd ext n) = Ok im /\ has_shape nr nc im = true.
Proof.
  induction nums as [|n r IH]; intros st H; cbn [load_stack] in H. { injection H as <-. split; [reflexivity|]. intros [|k] m; discriminate. }
  destruct (imread (image_name folder stem nd ext n)) as [im|] eqn:E; [|discriminate]. cbn [rbind] in H. destruct (has_shape nr nc im) eqn:S0; [|discriminate].
  destruct (load_stack imread folder stem ext nd nr nc r) as [t|] eqn:E2; [|discriminate]. injection H as <-. destruct (IH t eq_refl) as [A B]. split; [cbn; now rewrite A|].
  intros [|k] m M; cbn in M |- *; [injection M as <-; eauto|]. apply B. exact M.
Qed.
Theorem C178_names folder stem nd ext i j : i <> j -> image_name folder stem nd ext i <> image_name folder stem nd ext j.
Proof. intros N H. apply N. eapply image_name_inj; exact H. Qed.
Theorem C178_radiographs imread folder tbf start num nr nc stem nd ext dark out :
  gen_attenuation_rads imread folder tbf start num nr nc stem nd ext (Some dark) = Ok out ->
  length out = num /\
  forall k, (k < num)%nat -> exists raw rad, imread (image_name folder stem nd ext (start + k)) = Ok raw /\ nth_error out k = Some rad /\
    forall r c i b d, at_ raw r c = Some i -> at_ tbf r c = Some b -> at_ dark r c = Some d -> (d < i)%R -> (d < b)%R ->
      exists a, at_ rad r c = Some a /\ (i - d = (b - d) * exp (- a))%R.
Proof.
  intros H. cbn [gen_attenuation_rads] in H. destruct (load_stack imread folder stem ext nd nr nc (seq start num)) as [st|] eqn:E; [|discriminate]. injection H as <-.
  destruct (load_nth _ _ _ _ _ _ _ _ _ E) as [L Hn]. rewrite seq_length in L. split; [now rewrite map_length|]. intros k K.
  destruct (Hn k (start + k)%nat) as (im & I1 & I2 & _). { rewrite (nth_error_nth' _ 0%nat) by (now rewrite seq_length). now rewrite seq_nth. }
  exists im, (attenuate tbf dark im). split; [exact I2|]. split; [rewrite nth_map', I1; reflexivity|]. intros r c i b d Hi Hb Hd D1 D2.
  exists (attenuation i b d). split; [rewrite attenuate_at, Hi, Hb, Hd; reflexivity|]. unfold attenuation. rewrite Ropp_involutive, exp_ln; [field; lra|].
  apply Rdiv_lt_0_compat; lra.
Qed.
(** a bright field is the median of the images numbered from the first on *)
Theorem C178_bright median imread folder start num nr nc stem nd ext out : gen_bright_field median imread folder start num nr nc stem nd ext = Ok out ->
  exists st, out = median st /\ length st = num /\ forall k, (k < num)%nat -> exists im, nth_error st k = Some im /\ imread (image_name folder stem nd ext (start + k)) = Ok im.
Proof.
  unfold gen_bright_field. destruct (load_stack imread folder stem ext nd nr nc (seq start num)) as [st|] eqn:E; [|discriminate]. cbn [rbind]. intros H. injection H as <-. exists st.
  destruct (load_nth _ _ _ _ _ _ _ _ _ E) as [L Hn]. rewrite seq_length in L. split; [reflexivity|]. split; [exact L|]. intros k K.
  destruct (Hn k (start + k)%nat) as (im & I1 & I2 & _). { rewrite (nth_error_nth' _ 0%nat) by (now rewrite seq_length). now rewrite seq_nth. } eauto.
Qed.
(** without a dark field, which is the default, nothing is calculated *)
Theorem C178_default_refuted :
  ~ (forall imread folder tbf start num nr nc stem nd ext, (forall s, exists im, imread s = Ok im /\ has_shape nr nc im = true) ->
     exists out, gen_attenuation_rads imread folder tbf start num nr nc stem nd ext None = Ok out).
Proof.
  intros H. destruct (H (fun _ => Ok [[1%R]]) "" [[1%R]] 0%nat 1%nat 1%nat 1%nat "" 5%nat "") as [out X]; [|discriminate]. intros s. exists [[1%R]]. split; reflexivity.
Qed.
Example C178_radiographs_ex : exists out, gen_attenuation_rads (fun s => if String.eqb s "d/nf_00012.tif" then Ok [[3%R]] else Ok [[2%R]]) "d/" [[4%R]] 11 2 1 1 "nf_" 5 ".tif" (Some [[1%R]]) = Ok out /\
  nth_error out 1 = Some [[attenuation 3 4 1]].
Proof. eexists. split; reflexivity. Qed.
Print Assumptions C178_names.
Print Assumptions C178_radiographs.
Print Assumptions C178_bright.
Print Assumptions C178_default_refuted.

(** C179: objects below a size are removed and holes below a size are closed, but for the last ones numbered *)
Section C179.
Variable dilate erode : nat -> list bool -> list bool.
Variable label : list bool -> list nat * nat.
Hypothesis labels : forall b, labels_objects b (fst (label b)) (snd (label b)).
Theorem C179_layer_partial recon thresh noise hole er di : exists b0 b1,
  b0 = erode er (dilate di (map (fun x => if Qlt_le_dec thresh x then true else false) recon)) /\
  small_changed (fst (label b0)) (snd (label b0)) (fun size => (size < noise)%nat) false b0 b1 /\
  small_changed (fst (label (map negb b1))) (snd (label (map negb b1))) (fun size => (size < hole)%nat) true b1
    (threshold_and_clean dilate erode label recon thresh noise hole None er di).
Proof.
  unfold threshold_and_clean.
  replace (map (fun x => negb (Qle_bool x thresh)) recon) with (map (fun x => if Qlt_le_dec thresh x then true else false) recon).
  2:{ apply map_ext. intros x. destruct (Qlt_le_dec thresh x) as [L|L].
      - destruct (Qle_bool x thresh) eqn:E; [|reflexivity]. apply Qle_bool_iff in E. exfalso. now apply (Qlt_not_le thresh x).
      - apply Qle_bool_iff in L. now rewrite L. }
  set (b0 := erode er _). set (b1 := remove_noise (label b0) noise b0). exists b0, b1. split; [reflexivity|]. split.
  - unfold b1, remove_noise. apply (changed _ _ false (fun ii => Nat.ltb (size_of (fst (label b0)) ii) noise)); [apply labels|].
    intros k i _. rewrite Nat.ltb_lt, size_pixels. reflexivity.
  - unfold close_holes. apply (changed _ _ true (fun ii => Nat.leb 1 (size_of (fst (label (map negb b1))) ii) && Nat.ltb (size_of (fst (label (map negb b1))) ii) hole)).
    { destruct (labels (map negb b1)) as [L _]. now rewrite map_length in L. }
    intros k i Hk. rewrite andb_true_iff, Nat.ltb_lt, Nat.leb_le, size_pixels. split; [tauto|]. intros S0. split; [|exact S0].
    apply nth_error_In in Hk. apply (count_occ_In Nat.eq_dec) in Hk. unfold pixels. lia.
Qed.
End C179.
Print Assumptions C179_layer_partial.
(** each pixel its own object *)
Fixpoint number (k : nat) (b : list bool) : list nat := match b with [] => [] | true :: r => k :: number (S k) r | false :: r => 0%nat :: number k r end.
Definition ones (b : list bool) : nat := length (filter (fun x => x) b).
Definition label_each (b : list bool) : list nat * nat := (number 1 b, ones b).
Lemma label_each_ok b : labels_objects b (fst (label_each b)) (snd (label_each b)).
Proof.
  cbn [label_each fst snd]. assert (G : forall k, (1 <= k)%nat -> length (number k b) = length b /\ forall i l, nth_error (number k b) i = Some l -> (l < k + ones b)%nat /\ (l = 0%nat <-> nth_error b i = Some false)).
  { unfold ones. induction b as [|[|] r IH]; intros k K; cbn [number filter List.length].
    - split; [reflexivity|]. intros [|i] l; discriminate.
    - destruct (IH (S k)) as [A B]; [lia|]. split; [now rewrite A|]. intros [|i] l H; cbn in H |- *.
      + injection H as <-. split; [lia|]. split; [lia|discriminate].
      + destruct (B i l H). split; [lia|assumption].
    - destruct (IH k K) as [A B]. split; [now rewrite A|]. intros [|i] l H; cbn in H |- *.
      + injection H as <-. split; [lia|]. split; reflexivity.
      + apply B. exact H. }
  destruct (G 1%nat) as [A B]; [lia|]. split; [exact A|]. intros i l H. destruct (B i l H). split; [lia|assumption].
Qed.
(** a speck of one pixel stays if it is the last object, in the extreme the only one *)
Theorem C179_last_refuted :
  ~ (forall dilate erode label recon thresh noise hole er di, (forall b, labels_objects b (fst (label b)) (snd (label b))) ->
     let b0 := erode er (dilate di (map (fun x => if Qlt_le_dec thresh x then true else false) recon)) in
     forall i k, nth_error (fst (label b0)) i = Some k -> (1 <= k)%nat -> (pixels (fst (label b0)) k < noise)%nat ->
       nth_error (threshold_and_clean dilate erode label recon thresh noise hole None er di) i = Some false).
Proof.
  intros H. specialize (H (fun _ b => b) (fun _ b => b) label_each [0; 2; 0]%Q 1%Q 5%nat 0%nat 1%nat 1%nat label_each_ok). cbv zeta in H.
  specialize (H 1%nat 1%nat eq_refl (le_n _)). cbv in H. assert (X : Some true = Some false); [|discriminate]. apply H. repeat constructor.
Qed.
Example C179_layer_ex : threshold_and_clean (fun _ b => b) (fun _ b => b) label_each [2; 0; 2; 0; 2]%Q 1%Q 5 0 None 1 1 = [false; false; false; false; true].
Proof. reflexivity. Qed.
Print Assumptions C179_last_refuted.

(** C180: the columns kept of a sinogram are centred on the rotation axis and as wide as asked *)
Theorem C180_sinogram_partial {A} (row : list A) center ps cross :
  let w := Z.of_nat (length row) in let axis := rotation_axis_pos center ps in let rad := max_rad cross ps in
  (2 * Z.abs axis <= w)%Z -> (1 <= rad)%Z -> (2 * rad + 1 < w - 2 * Z.abs axis)%Z ->
  exists first width, piece row (cut_sinogram center ps cross row) first width /\ (2 * first + width = w + 2 * axis /\ -1 <= width - 2 * rad <= 1)%Z.
Proof.
  intros w axis rad A0 R0 W0. unfold cut_sinogram. fold axis rad. pose proof (cut_axis_piece axis row A0) as P1. fold w in P1. set (sc := cut_axis axis row) in *.
  assert (L : Z.of_nat (length sc) = (w - 2 * Z.abs axis)%Z) by (destruct P1 as (B & L & _); rewrite L; lia).
  pose proof (half_round (Z.of_nat (length sc))) as HR. set (q := qround (qz (Z.of_nat (length sc)) / 2)) in *.
  pose proof (trim_piece (q - rad) sc ltac:(lia) ltac:(lia)) as P2. pose proof (piece_trans _ _ _ _ _ _ _ P1 P2) as P. rewrite L in P.
  eexists. eexists. split; [exact P|]. destruct (Z.leb_spec 0 axis); lia.
Qed.
(** the axis itself is at the nearest pixel to minus the centre, and the angles are equally spaced from the first on, the last left out *)
Theorem C180_axis center ps : (Qabs (center / ps + qz (rotation_axis_pos center ps)) <= 1 # 2)%Q.
Proof. unfold rotation_axis_pos. pose proof (qround_near (center / ps)) as H. unfold qz in *. rewrite inject_Z_opp. exact H. Qed.
Theorem C180_angles start stop n k : (k < n)%nat -> exists t, nth_error (thetas start stop n) k = Some t /\ (t == start + (stop - start) * qz (Z.of_nat k) / qz (Z.of_nat n))%Q.
Proof.
  intros K. unfold thetas. rewrite nth_map', nth_seq, (proj2 (Nat.ltb_lt k n) K). eexists. split; [reflexivity|]. field. unfold qz, Qeq, inject_Z. cbn. lia.
Qed.
(** a sample that needs all columns leaves none: columns d to -d are none for d = 0 *)
Theorem C180_full_refuted :
  ~ (forall (row : list nat) center ps cross, let w := Z.of_nat (length row) in let axis := rotation_axis_pos center ps in let rad := max_rad cross ps in
     (2 * Z.abs axis <= w)%Z -> (1 <= rad)%Z -> (2 * rad <= w - 2 * Z.abs axis)%Z ->
     exists first width, piece row (cut_sinogram center ps cross row) first width /\ (-1 <= width - 2 * rad <= 1)%Z).
Proof.
  intros H. specialize (H (repeat 7%nat 22) 0%Q 1%Q 20%Q). cbv zeta in H. assert (R0 : max_rad 20 1 = 11%Z) by reflexivity. assert (A0 : rotation_axis_pos 0 1 = 0%Z) by reflexivity. rewrite R0, A0 in H.
  destruct H as (f & wd & (_ & L & _) & W); [cbn; lia|lia|cbn; lia|]. assert (E : cut_sinogram 0 1 20 (repeat 7%nat 22) = []) by reflexivity. rewrite E in L. cbn in L. lia.
Qed.
Example C180_sinogram_ex : cut_sinogram (-2 # 1) 1 2 (seq 0 14) = [8; 9]%nat.
Proof. reflexivity. Qed.
Print Assumptions C180_sinogram_partial.
Print Assumptions C180_axis.
Print Assumptions C180_angles.
Print Assumptions C180_full_refuted.

(** a cropped layer: the middle of the image, within the circle *)
Theorem C180_crop_partial (im : list (list bool)) vs cross mask cols :
  let rows := Z.of_nat (length im) in let cut := qround ((qz rows * vs - cross) / 2 / vs) in
  Forall (fun r => length r = cols) im -> (0 < cut)%Z -> (2 * cut <= rows)%Z -> (2 * cut <= Z.of_nat cols)%Z ->
  let mid := (qz (rows - 2 * cut) / 2)%Q in
  forall i j, at_ (crop_layer im vs cross mask) i j = Some true <->
    (Z.of_nat i < rows - 2 * cut)%Z /\ (Z.of_nat j < Z.of_nat cols - 2 * cut)%Z /\ at_ im (Z.to_nat cut + i) (Z.to_nat cut + j) = Some true /\
    match mask with Some r => ((qz (Z.of_nat i) - mid) * (qz (Z.of_nat i) - mid) + (qz (Z.of_nat j) - mid) * (qz (Z.of_nat j) - mid) <= qz (qround (r / vs)) * qz (qround (r / vs)))%Q | None => True end.
Proof.
  intros rows cut F C0 C1 C2 mid i j. unfold crop_layer. fold rows cut. set (im2 := map (trim cut) (trim cut im)).
  pose proof (trim_piece cut im C0 C1) as (B1 & L1 & N1). fold rows in L1, N1.
  assert (L2 : Z.of_nat (length im2) = (rows - 2 * cut)%Z) by (unfold im2; rewrite map_length, L1; lia).
  assert (K : at_ im2 i j = if Z.ltb (Z.of_nat i) (rows - 2 * cut) then if Z.ltb (Z.of_nat j) (Z.of_nat cols - 2 * cut) then at_ im (Z.to_nat cut + i) (Z.to_nat cut + j) else None else None).
  { unfold at_, im2. rewrite nth_map'. destruct (Z.ltb_spec (Z.of_nat i) (rows - 2 * cut)) as [I|I].
    - rewrite N1 by exact I. destruct (nth_error im (Z.to_nat cut + i)) as [row|] eqn:E; cbn [option_map].
      + assert (LR : length row = cols) by (rewrite Forall_forall in F; apply F; eapply nth_error_In; eassumption).
        pose proof (trim_piece cut row C0) as T. rewrite LR in T. destruct T as (_ & L3 & N3); [exact C2|]. destruct (Z.ltb_spec (Z.of_nat j) (Z.of_nat cols - 2 * cut)) as [J|J].
        * now apply N3.
        * apply nth_error_None. lia.
      + now destruct (Z.ltb _ _).
    - assert (X : nth_error (trim cut im) i = None) by (apply nth_error_None; lia). rewrite X. reflexivity. }
  assert (K' : at_ im2 i j = Some true <-> (Z.of_nat i < rows - 2 * cut)%Z /\ (Z.of_nat j < Z.of_nat cols - 2 * cut)%Z /\ at_ im (Z.to_nat cut + i) (Z.to_nat cut + j) = Some true).
  { rewrite K. destruct (Z.ltb_spec (Z.of_nat i) (rows - 2 * cut)), (Z.ltb_spec (Z.of_nat j) (Z.of_nat cols - 2 * cut)); split; intros HH; try discriminate; try tauto; destruct HH as (? & ? & ?); try lia; auto. }
  destruct mask as [r|]; [|rewrite K'; tauto]. set (rad := qround (r / vs)).
  assert (M : at_ (mask_circle rad im2) i j = option_map (fun p => if Qle_bool ((qz (Z.of_nat j) - mid) * (qz (Z.of_nat j) - mid) + (qz (Z.of_nat i) - mid) * (qz (Z.of_nat i) - mid)) (qz (rad * rad)) then p else false) (at_ im2 i j)).
  { unfold at_, mask_circle. rewrite L2. fold mid. rewrite mapi_nth. destruct (nth_error im2 i) as [row|]; [|reflexivity]. cbn [option_map]. now rewrite mapi_nth. }
  rewrite M. assert (Q0 : (qz (rad * rad) == qz rad * qz rad)%Q) by (unfold qz; now rewrite inject_Z_mult).
  destruct (Qle_bool ((qz (Z.of_nat j) - mid) * (qz (Z.of_nat j) - mid) + (qz (Z.of_nat i) - mid) * (qz (Z.of_nat i) - mid)) (qz (rad * rad))) eqn:E.
  - apply Qle_bool_iff in E. rewrite Q0, Qplus_comm in E. destruct (at_ im2 i j) as [p|]; cbn [option_map]; tauto.
  - split; [destruct (at_ im2 i j); discriminate|]. intros (_ & _ & _ & X). rewrite <- Q0, Qplus_comm in X. apply Qle_bool_iff in X. congruence.
Qed.
(** an image that needs no cropping is lost *)
Theorem C180_crop_refuted :
  ~ (forall im vs cross, qround ((qz (Z.of_nat (length im)) * vs - cross) / 2 / vs) = 0%Z -> crop_layer im vs cross None = im).
Proof. intros H. specialize (H [[true; true]; [true; true]] 1%Q 2%Q eq_refl). discriminate. Qed.
Example C180_crop_ex : crop_layer (repeat (repeat true 6) 6) 1 4 (Some 2%Q) = [[false; false; true; false]; [false; true; true; true]; [true; true; true; true]; [false; true; true; true]].
Proof. reflexivity. Qed.
Print Assumptions C180_crop_partial.
Print Assumptions C180_crop_refuted.

(** C181: one parameter for each ring measured, named apart, its bounds five degrees from the mean *)
Definition ring_of (degmean : list R -> R) (prefix : string) (rings : list (list (option (list R)))) (r : ring_param) : Prop :=
  exists i ring, nth_error rings i = Some ring /\ (exists a, In (Some a) ring) /\
    let v := degmean (concat (flat_map (fun p => match p with Some a => [a] | None => [] end) ring)) in r = RP (prefix +++ dec i) v true (v - 5) (v + 5).
Lemma ring_params_spec degmean prefix : forall rings ii r, In r (ring_params degmean prefix ii rings) <->
  exists i ring, nth_error rings i = Some ring /\ (exists a, In (Some a) ring) /\
    let v := degmean (concat (flat_map (fun p => match p with Some a => [a] | None => [] end) ring)) in r = RP (prefix +++ dec (ii + i)) v true (v - 5)%R (v + 5)%R.
Proof.
  assert (E0 : forall tth : list (option (list R)), flat_map (fun p => match p with Some a => [a] | None => [] end) tth = [] <-> ~ exists a, In (Some a) tth).
  { induction tth as [|[a|] t IH]; cbn [flat_map app].
    - split; [intros _ [a []]|reflexivity].
    - split; [discriminate|]. intros H. exfalso. apply H. exists a. now left.
    - rewrite IH. split; intros H [a X]; apply H; [destruct X as [X|X]; [discriminate|]; eauto|exists a; now right]. }
  induction rings as [|tth rs IH]; intros ii r; cbn [ring_params].
  { split; [contradiction|]. intros (i & ring & N & _). destruct i; discriminate. }
  destruct (flat_map (fun v => match v with Some a => [a] | None => [] end) tth) as [|x xs] eqn:E.
  - rewrite IH. split; intros (i & ring & N & M & V).
    + exists (S i), ring. rewrite Nat.add_succ_r. auto.
    + destruct i as [|i]; cbn in N; [injection N as <-; apply E0 in E; contradiction|]. exists i, ring. rewrite Nat.add_succ_r in V. auto.
  - cbn [In]. rewrite IH. split.
    + intros [<-|(i & ring & N & M & V)].
      * exists 0%nat, tth. split; [reflexivity|]. split; [|rewrite E, Nat.add_0_r; reflexivity].
        assert (Y : ~ ~ exists a, In (Some a) tth) by (intros Z0; apply E0 in Z0; congruence). clear - Y. induction tth as [|[a|] t IH]; [exfalso; apply Y; intros [a []]|exists a; now left|].
        destruct IH as [a Ha]; [|exists a; now right]. intros N. apply Y. intros [a [X|X]]; [discriminate|]. apply N. eauto.
      * exists (S i), ring. rewrite Nat.add_succ_r. auto.
    + intros (i & ring & N & M & V). destruct i as [|i]; cbn in N.
      * injection N as <-. left. rewrite E, Nat.add_0_r in V. symmetry. exact V.
      * right. exists i, ring. rewrite Nat.add_succ_r in V. auto.
Qed.
Lemma ring_params_nodup degmean prefix : forall rings ii, NoDup (map r_name (ring_params degmean prefix ii rings)).
Proof.
  induction rings as [|tth rs IH]; intros ii; cbn [ring_params]; [constructor|]. destruct (flat_map _ tth) as [|x xs]; [apply IH|]. cbn [map r_name]. constructor; [|apply IH].
  intros H. apply in_map_iff in H. destruct H as (r & E & H). apply ring_params_spec in H. destruct H as (i & ring & _ & _ & V). cbv zeta in V. subst r. cbn [r_name] in E. apply app_cancel_l in E. apply dec_inj in E. lia.
Qed.
Lemma prefixes_assoc beams src prefix : NoDup beams -> assoc src (tth_parameter_prefixes beams) = Some prefix ->
  In src beams /\ (beams = [src] /\ prefix = "DS_ring_" \/ (exists a b, In a beams /\ In b beams /\ a <> b) /\ prefix = src +++ "_" +++ "DS_ring_").
Proof.
  intros ND. assert (G : forall l, assoc src (map (fun n => (n, n +++ "_" +++ "DS_ring_")) l) = Some prefix -> In src l /\ prefix = src +++ "_" +++ "DS_ring_").
  { induction l as [|n l IH]; cbn [map assoc]; [discriminate|]. destruct (String.eqb_spec src n) as [->|N]; [intros H; injection H as <-; split; [now left|reflexivity]|]. intros H. destruct (IH H). split; [now right|assumption]. }
  destruct beams as [|a [|b r]]; [discriminate| |].
  - cbn [tth_parameter_prefixes assoc]. destruct (String.eqb_spec src a) as [->|N]; [|discriminate]. intros H. injection H as <-. split; [now left|]. left. auto.
  - intros H. apply G in H. destruct H as [H1 H2]. split; [exact H1|]. right. split; [|exact H2]. exists a, b. split; [now left|]. split; [right; now left|]. intros ->. inversion ND as [|? ? X]; subst. apply X. now left.
Qed.
Theorem C181_rings degmean beams meas out : NoDup beams -> NoDup (map fst meas) -> create_tth_parameters degmean beams meas = Ok out ->
  NoDup (map r_name out) /\
  forall r, In r out <-> exists src rings, In (src, rings) meas /\ ring_of degmean (if Nat.eqb (length beams) 1 then "DS_ring_" else src +++ "_DS_ring_") rings r.
Proof.
  intros ND. revert out. induction meas as [|[src rings] ms IH]; intros out NM H; cbn [create_tth_parameters] in H.
  { injection H as <-. split; [constructor|]. intros r. split; [contradiction|]. intros (s & rs & [] & _). }
  destruct (assoc src (tth_parameter_prefixes beams)) as [prefix|] eqn:E; [|discriminate]. destruct (create_tth_parameters degmean beams ms) as [t|] eqn:E2; [|discriminate]. cbn [rbind] in H. injection H as <-.
  cbn [map fst] in NM. inversion NM as [|? ? N1 N2]; subst. destruct (IH t N2 eq_refl) as [ND2 SP]. apply (prefixes_assoc beams src prefix ND) in E. destruct E as [Is E].
  assert (PE : prefix = if Nat.eqb (length beams) 1 then "DS_ring_" else src +++ "_DS_ring_").
  { destruct E as [[-> ->]|[(a & b & Ia & Ib & Nab) ->]]; [reflexivity|]. destruct (Nat.eqb_spec (length beams) 1) as [L|L]; [|reflexivity]. destruct beams as [|x [|y l]]; try discriminate. destruct Ia as [<-|[]], Ib as [<-|[]]. congruence. }
  assert (S1 : forall r, In r (ring_params degmean prefix 0 rings) <-> ring_of degmean (if Nat.eqb (length beams) 1 then "DS_ring_" else src +++ "_DS_ring_") rings r) by (intros r; rewrite <- PE; apply ring_params_spec).
  split.
  - rewrite map_app. apply NoDup_app2; [apply ring_params_nodup|exact ND2|]. intros x X1 X2. apply in_map_iff in X1, X2. destruct X1 as (r1 & R1 & X1), X2 as (r2 & R2 & X2).
    apply S1 in X1. apply SP in X2. destruct X2 as (src2 & rings2 & M2 & X2). destruct X1 as (i & ring & A1 & A2 & A3), X2 as (j & ring' & B1 & B2 & B3). cbv zeta in A3, B3. subst r1 r2. cbn [r_name] in R1, R2. rewrite <- R2 in R1. clear R2 x.
    assert (SS : src <> src2) by (intros ->; apply N1; change src2 with (fst (src2, rings2)); now apply in_map).
    destruct (Nat.eqb_spec (length beams) 1) as [L|L].
    + (* a second source would not be a beam *)
      assert (In src2 beams).
      { clear - E2 M2 ND. revert t E2 M2. induction ms as [|[s rs] ms IH]; intros t E2 M2; [contradiction|]. cbn [create_tth_parameters] in E2. destruct (assoc s (tth_parameter_prefixes beams)) as [p|] eqn:E; [|discriminate].
        destruct (create_tth_parameters degmean beams ms) as [t'|]; [|discriminate]. destruct M2 as [M2|M2]; [injection M2 as -> ->; now apply (prefixes_assoc beams src2 p ND) in E|]. eapply IH; [reflexivity|exact M2]. }
      destruct beams as [|x [|y l]]; try discriminate. destruct Is as [<-|[]]. destruct H as [<-|[]]. congruence.
    + assert (Sh : forall s k, (s +++ "_DS_ring_") +++ dec k = (s +++ "_DS_ring") +++ String "_"%char (dec k)) by (intros s k; rewrite !app_assoc_s; reflexivity).
      rewrite !Sh in R1. apply split_at_end in R1; try apply dec_free. destruct R1 as [R1 _]. apply app_cancel_r in R1. congruence.
  - intros r. rewrite in_app_iff, S1, SP. split.
    + intros [X|(s & rs & M & X)]; [exists src, rings; split; [now left|exact X]|exists s, rs; split; [now right|exact X]].
    + intros (s & rs & [M|M] & X); [injection M as -> ->; left; exact X|right; eauto].
Qed.
Example C181_rings_ex : option_map (map r_name) (match create_tth_parameters (fun _ => 7%R) ["a"; "b"] [("a", [[None]; [Some [1%R]; None]]); ("b", [[Some [2%R]]])] with Ok l => Some l | Err _ => None end) = Some ["a_DS_ring_1"; "b_DS_ring_0"].
Proof. reflexivity. Qed.
Print Assumptions C181_rings.
