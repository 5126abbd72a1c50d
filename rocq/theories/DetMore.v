(** Further lemmas: lists of points, nearest pixels, border masks, affine images. *)
From Coq Require Import QArith Qround Qabs Lqa Qfield String.
From Verif Require Import Prelude GridModel GridSpec GridProofs GridIndexProofs DetModel DetSpec DetProofs.
Local Open Scope Q_scope.
Local Notation length := List.length.

Lemma place_spec : forall A B (mask : A -> bool) (l : list A) (f : A -> result B) (vals : list B) (g : B -> option Q) fill,
  all_ok (map f (pick (map mask l) l)) = Ok vals ->
  length (place (map mask l) (map g vals) fill) = length l /\
  forall k x, nth_error l k = Some x ->
    (mask x = true -> exists b, f x = Ok b /\ nth_error (place (map mask l) (map g vals) fill) k = Some (g b)) /\
    (mask x = false -> nth_error (place (map mask l) (map g vals) fill) k = Some fill).
Proof.
  intros A B mask l. induction l as [|a l IH]; intros f vals g fill H.
  { cbn. split; [reflexivity|]. intros [|k] x K; discriminate. }
  cbn [map pick] in *. destruct (mask a) eqn:E.
  - cbn [map all_ok] in H. destruct (f a) as [b|] eqn:F; [|discriminate]. cbn [rbind] in H.
    destruct (all_ok (map f (pick (map mask l) l))) as [vs|] eqn:V; [|discriminate]. cbn [rbind] in H. injection H as <-.
    destruct (IH f vs g fill V) as [L N]. cbn [map place length]. split; [f_equal; exact L|].
    intros [|k] x K; cbn [nth_error] in *; [injection K as <-|exact (N k x K)].
    split; [intros _; exists b; split; [exact F|reflexivity] | congruence].
  - destruct (IH f vals g fill H) as [L N]. cbn [place length]. split; [f_equal; exact L|].
    intros [|k] x K; cbn [nth_error] in *; [injection K as <-|exact (N k x K)].
    split; [congruence | reflexivity].
Qed.
Lemma all_ok_exists : forall A (l : list (result A)), (forall x, In x l -> exists a, x = Ok a) -> exists vs, all_ok l = Ok vs.
Proof.
  induction l as [|x l IH]; intros H; [exists []; reflexivity|].
  destruct (H x (or_introl eq_refl)) as [a ->]. destruct IH as [vs V]; [intros y Y; apply H; right; exact Y|].
  exists (a :: vs). cbn. rewrite V. reflexivity.
Qed.

Lemma nth_firstn_lt : forall A n (l : list A) k d, (k < n)%nat -> nth k (firstn n l) d = nth k l d.
Proof.
  induction n as [|n IH]; intros l k d H; [lia|]. destruct l as [|x l]; [reflexivity|]. destruct k as [|k]; [reflexivity|].
  cbn. apply IH. lia.
Qed.
Lemma nth_skipn_add : forall A n (l : list A) k d, nth k (skipn n l) d = nth (n + k) l d.
Proof.
  induction n as [|n IH]; intros l k d; [reflexivity|]. destruct l as [|x l]; cbn; [destruct k; reflexivity | apply IH].
Qed.
Lemma nth_slice : forall A (l : list A) a b k d, (0 <= a)%Z -> (0 <= k < b)%Z -> nth (Z.to_nat k) (slice a (a + b) l) d = nth (Z.to_nat (a + k)) l d.
Proof.
  intros A l a b k d Ha Hk. unfold slice. rewrite nth_firstn_lt by lia. rewrite nth_skipn_add. f_equal. lia.
Qed.

Section Clip.
Context (load : string -> result (list (list bool))).
(** a clip that succeeds is a test applied to every point *)
Lemma clip_shape : forall p xy be kept mask, clip_to_panel load p xy be = Ok (kept, mask) ->
  exists on, mask = map on xy /\ kept = pick (map on xy) xy /\
    (be = false \/ p_buffer p = BNone -> forall pt, on pt = true <-> within_border p 0 0 pt) /\
    (forall bx by_, be = true -> p_buffer p = BBorders bx by_ -> forall pt, on pt = true <-> within_border p bx by_ pt) /\
    (forall m, be = true -> p_buffer p = BMask m -> on = mask_at m p) /\
    (forall n, be = true -> p_buffer p = BName n -> exists m, panel_buffer_from_str load n p = Ok m /\ on = mask_at m p).
Proof.
  intros p xy be kept mask H. unfold clip_to_panel in H.
  destruct be.
  - destruct (p_buffer p) as [|bx by_|m|n] eqn:B; cbn [rbind] in H.
    + injection H as <- <-. eexists; split; [reflexivity|]. split; [reflexivity|].
      split; [intros _ pt; apply within_iff0|]. split; [discriminate|]. split; discriminate.
    + injection H as <- <-. eexists; split; [reflexivity|]. split; [reflexivity|].
      split; [intros [X|X]; discriminate|]. split; [intros a b _ X pt; injection X as <- <-; apply within_iff|]. split; discriminate.
    + injection H as <- <-. eexists; split; [reflexivity|]. split; [reflexivity|].
      split; [intros [X|X]; discriminate|]. split; [discriminate|]. split; [intros m' _ X; injection X as <-; reflexivity | discriminate].
    + destruct (panel_buffer_from_str load n p) as [m|] eqn:M; [|discriminate]. cbn [rbind] in H.
      injection H as <- <-. eexists; split; [reflexivity|]. split; [reflexivity|].
      split; [intros [X|X]; discriminate|]. split; [discriminate|]. split; [discriminate|].
      intros n' _ X; injection X as <-. exists m; split; [exact M | reflexivity].
  - cbn [rbind] in H. injection H as <- <-. eexists; split; [reflexivity|]. split; [reflexivity|].
    split; [intros _ pt; apply within_iff0|]. split; [discriminate|]. split; discriminate.
Qed.
Lemma clip_pointwise : forall p xy be kept mask, clip_to_panel load p xy be = Ok (kept, mask) ->
  length mask = length xy /\ kept = selected mask xy.
Proof.
  intros p xy be kept mask H. destruct (clip_shape _ _ _ _ _ H) as [on [-> [-> _]]].
  split; [apply map_length | apply pick_selected].
Qed.
(** every accepted point is on the sensor when the borders are not negative *)
Lemma clip_on_sensor : forall p xy kept mask pt, sound p -> (forall bx by_, p_buffer p = BBorders bx by_ -> 0 <= bx /\ 0 <= by_) ->
  clip_to_panel load p xy true = Ok (kept, mask) -> In pt kept -> within_border p 0 0 pt.
Proof.
  intros p xy kept mask pt G NB H I. destruct (clip_shape _ _ _ _ _ H) as [on [-> [-> [A [B [C D]]]]]].
  apply pick_map_in in I. destruct I as [_ I]. destruct (p_buffer p) as [|bx by_|m|n] eqn:E.
  - apply A; [right; reflexivity | exact I].
  - destruct (NB bx by_ eq_refl). apply (B bx by_ eq_refl eq_refl) in I. unfold within_border in *. lra.
  - rewrite (C m eq_refl eq_refl) in I. apply (mask_at_true m p pt G) in I. destruct I as [i [j [I1 [I2 _]]]]. exact (touches_within p i j pt G I1 I2).
  - destruct (D n eq_refl eq_refl) as [m [_ O]]. rewrite O in I.
    apply (mask_at_true m p pt G) in I. destruct I as [i [j [I1 [I2 _]]]]. exact (touches_within p i j pt G I1 I2).
Qed.
End Clip.

(** ** pixel centres and borders *)
Lemma centre_coords : forall p i j, cartToPixel_discrete p (centre_x p j, centre_y p i) = (i, j) \/ ~ sound p.
Proof.
  intros p i j. destruct (Qlt_le_dec 0 (p_psr p)) as [R|R]; [|right; intros [_ [_ [X _]]]; lra].
  destruct (Qlt_le_dec 0 (p_psc p)) as [C|C]; [|right; intros [_ [_ [_ X]]]; lra]. left.
  unfold cartToPixel_discrete. cbn zeta. f_equal; apply qround_int.
  - rewrite c2p_row by assumption. cbn [fst snd]. unfold centre_y, qz. field. lra.
  - rewrite c2p_col by assumption. cbn [fst snd]. unfold centre_x, qz. field. lra.
Qed.
Lemma nth_grid : forall A (f : Z -> Z -> A) rows cols i j d, (0 <= i < rows)%Z -> (0 <= j < cols)%Z ->
  nth (Z.to_nat j) (nth (Z.to_nat i) (map (fun i => map (f i) (zrange 0 cols)) (zrange 0 rows)) []) d = f i j.
Proof.
  intros A f rows cols i j d I J.
  assert (X : forall B (g : Z -> B) n k d, (0 <= k < n)%Z -> nth (Z.to_nat k) (map g (zrange 0 n)) d = g k).
  { intros B g n k e K. rewrite (nth_indep _ e (g 0%Z)) by (rewrite map_length, zrange_length; lia). rewrite map_nth.
    unfold zrange. rewrite (nth_indep _ 0%Z (0 + Z.of_nat 0)%Z) by (rewrite map_length, seq_length; lia).
    rewrite (map_nth (fun i => (0 + Z.of_nat i)%Z)), seq_nth by lia. f_equal. lia. }
  rewrite (X _ (fun i => map (f i) (zrange 0 cols)) rows i [] I). apply X; exact J.
Qed.
Lemma grid_shape : forall A (f : Z -> Z -> A) rows cols, (0 <= rows)%Z -> (0 <= cols)%Z -> table_shape (map (fun i => map (f i) (zrange 0 cols)) (zrange 0 rows)) rows cols.
Proof.
  intros A f rows cols R C. split; [rewrite map_length, zrange_length; lia|].
  intros r H. apply in_map_iff in H. destruct H as [i [<- _]]. rewrite map_length, zrange_length. lia.
Qed.

(** ** affine images and bounds *)
Lemma lerp_bounds : forall t a b lo hi, 0 <= t <= 1 -> lo <= a <= hi -> lo <= b <= hi -> lo <= lerp t a b <= hi.
Proof. intros t a b lo hi T A B. unfold lerp. split; nra. Qed.
Lemma blend_bounds : forall p img i j t s lo hi, sound p -> (forall i j, in_shape p i j -> lo <= image_value img i j <= hi) ->
  0 <= t <= 1 -> 0 <= s <= 1 -> lo <= blend p img i j t s <= hi.
Proof.
  intros p img i j t s lo hi [G1 [G2 _]] B T S'.
  assert (X : forall i j, lo <= continued p img i j <= hi) by (intros; unfold continued; apply B; split; apply nearest_range; assumption).
  unfold blend. apply lerp_bounds; [exact T| |]; apply lerp_bounds; auto.
Qed.

(** ** the cells used by both interpolations *)
Lemma last_x : forall p, (1 <= p_cols p)%Z -> centre_x p (p_cols p - 1) == centre_x p 0 + inject_Z (Z.of_nat (Z.to_nat (p_cols p - 1))) * p_psc p.
Proof.
  intros p H. rewrite ofnat_sub1 by lia. unfold centre_x. unfold Z.sub. rewrite inject_Z_plus. change (inject_Z (- (1))) with (- (1)). change (inject_Z 0) with 0. field.
Qed.
Lemma last_y : forall p, (1 <= p_rows p)%Z -> centre_y p (p_rows p - 1) == centre_y p 0 - inject_Z (Z.of_nat (Z.to_nat (p_rows p - 1))) * p_psr p.
Proof.
  intros p H. rewrite ofnat_sub1 by lia. unfold centre_y. unfold Z.sub. rewrite inject_Z_plus. change (inject_Z (- (1))) with (- (1)). change (inject_Z 0) with 0. field.
Qed.
Lemma row_cell : forall ztol p pt, sound p -> (2 <= p_rows p)%Z -> 0 < ztol -> 2 * ztol < p_psr p -> within_border p 0 0 pt -> off_last_strip ztol p pt ->
  exists f, cell_index ztol (row_pixel_vec p) (snd pt) = Ok f /\ inject_Z f * p_psr p < centre_y p 0 - snd pt /\ centre_y p 0 - snd pt <= (inject_Z f + 1) * p_psr p.
Proof.
  intros ztol p pt G R2 Hz Zr [_ Wy] [_ Oy]. pose proof G as [G1 [G2 [R C]]]. apply Qabs_Qle_condition in Wy.
  assert (HiR : centre_y p 0 - (inject_Z (Z.of_nat (Z.to_nat (p_rows p - 1))) + 1) * p_psr p < snd pt).
  { rewrite ofnat_sub1 by lia. unfold centre_y. change (inject_Z 0) with 0.
    assert (E : p_psr p * ((inject_Z (p_rows p) - 1) / 2 - 0) - (inject_Z (p_rows p) - 1 + 1) * p_psr p == - (inject_Z (p_rows p) * p_psr p / 2) - p_psr p / 2) by field.
    rewrite E. assert (0 < p_psr p / 2) by (apply Qlt_shift_div_l; lra). lra. }
  rewrite (last_y p G1) in Oy.
  exact (cell_dec_general ztol _ _ _ _ (snd pt) (row_edges p G1) ltac:(lia) Hz Zr HiR Oy).
Qed.
Lemma col_cell : forall ztol p pt, sound p -> (2 <= p_cols p)%Z -> 0 < ztol -> 2 * ztol < p_psc p -> within_border p 0 0 pt -> off_last_strip ztol p pt ->
  exists f, cell_index ztol (col_pixel_vec p) (fst pt) = Ok f /\ inject_Z f * p_psc p <= fst pt - centre_x p 0 /\
    (fst pt - centre_x p 0 < (inject_Z f + 1) * p_psc p \/ fst pt == centre_x p (p_cols p - 1)).
Proof.
  intros ztol p pt G R2 Hz Zr [Wx _] [Ox _]. pose proof G as [G1 [G2 [R C]]]. apply Qabs_Qle_condition in Wx.
  assert (HiC : fst pt < centre_x p 0 + (inject_Z (Z.of_nat (Z.to_nat (p_cols p - 1))) + 1) * p_psc p).
  { rewrite ofnat_sub1 by lia. unfold centre_x. change (inject_Z 0) with 0.
    assert (E : p_psc p * (0 - (inject_Z (p_cols p) - 1) / 2) + (inject_Z (p_cols p) - 1 + 1) * p_psc p == inject_Z (p_cols p) * p_psc p / 2 + p_psc p / 2) by field.
    rewrite E. assert (0 < p_psc p / 2) by (apply Qlt_shift_div_l; lra). lra. }
  rewrite (last_x p G2) in Ox.
  destruct (cell_inc_general ztol _ _ _ _ (fst pt) (col_edges p G2) ltac:(lia) Hz Zr HiC Ox) as [h [Eh [H1 [_ H2]]]].
  exists h. split; [exact Eh|]. split; [exact H1 | destruct H2 as [H2|H2]; [left; exact H2 | right; rewrite (last_x p G2); exact H2]].
Qed.
Lemma col_cell_last : forall ztol p, sound p -> (2 <= p_cols p)%Z -> 0 < ztol -> 2 * ztol < p_psc p ->
  cell_index ztol (col_pixel_vec p) (centre_x p (p_cols p - 1)) = Ok (p_cols p - 2)%Z.
Proof.
  intros ztol p G C2 Hz Zc. pose proof G as [G1 [G2 [R C]]]. pose proof (col_edges p G2) as [L E].
  pose proof (last_x p G2) as X.
  destruct (cell_index_inc_lemma ztol _ _ _ _ (centre_x p (p_cols p - 1)) (col_edges p G2) ltac:(lia) Hz Zc) as [k [K [K1 [K2 K3]]]].
  - rewrite X. assert (0 <= inject_Z (Z.of_nat (Z.to_nat (p_cols p - 1))) * p_psc p); [|lra].
    apply Qmult_le_0_compat; [apply (inj_le 0); lia | lra].
  - rewrite (E _ (le_n _)), X. lra.
  - rewrite K. f_equal. destruct K3 as [K3|K3]; [|lia]. rewrite (E (k + 1)%nat) in K3 by lia. rewrite X in K3.
    assert (Y : inject_Z (Z.of_nat (Z.to_nat (p_cols p - 1))) * p_psc p < inject_Z (Z.of_nat (k + 1)) * p_psc p) by lra.
    apply scale_lt in Y; [|exact C]. lia.
Qed.
Lemma centre_off_strip : forall ztol p i j, sound p -> in_shape p i j -> off_last_strip ztol p (centre_x p j, centre_y p i).
Proof.
  intros ztol p i j [G1 [G2 [R C]]] [I J]. unfold off_last_strip. cbn [fst snd]. split; left.
  - unfold centre_x. rewrite !(Qmult_comm (p_psc p)). apply Qmult_le_compat_r; [|lra]. assert (inject_Z j <= inject_Z (p_cols p - 1)) by (apply inj_le; lia). lra.
  - unfold centre_y. rewrite !(Qmult_comm (p_psr p)). apply Qmult_le_compat_r; [|lra]. assert (inject_Z i <= inject_Z (p_rows p - 1)) by (apply inj_le; lia). lra.
Qed.
Lemma centre_touches : forall p i j, sound p -> touches_pixel p i j (centre_x p j, centre_y p i).
Proof.
  intros p i j [_ [_ [R C]]]. unfold touches_pixel. cbn [fst snd].
  assert (A : centre_x p j - centre_x p j == 0) by ring. assert (B : centre_y p i - centre_y p i == 0) by ring. rewrite A, B.
  assert (0 < p_psr p / 2) by (apply Qlt_shift_div_l; lra). assert (0 < p_psc p / 2) by (apply Qlt_shift_div_l; lra).
  change (Qabs 0) with 0. lra.
Qed.
Lemma shape_iff : forall img rows cols, image_shape img rows cols = true <-> table_shape img rows cols.
Proof.
  intros b r c. unfold image_shape, table_shape. rewrite andb_true_iff, forallb_forall, Z.eqb_eq.
  split; intros [X Y]; (split; [exact X|]); intros q Q'; specialize (Y q Q'); [apply Z.eqb_eq in Y|apply Z.eqb_eq]; exact Y.
Qed.
(** one accepted point *)
Lemma nearest_one : forall load ztol p img pt pad a b v, p_buffer p = BNone -> table_shape img (p_rows p) (p_cols p) -> within_border p 0 0 pt ->
  cell_index ztol (row_pixel_vec p) (snd pt) = Ok a -> cell_index ztol (col_pixel_vec p) (fst pt) = Ok b -> pixel img a b = Ok v ->
  interpolate_nearest load ztol p [pt] img pad = Ok [Some v].
Proof.
  intros load ztol p img pt pad a b v B Sh W A C V. unfold interpolate_nearest. apply shape_iff in Sh. rewrite Sh. cbn [negb].
  unfold clip_to_panel. rewrite B. cbn [rbind fst snd map]. apply within_iff0 in W. rewrite W. cbn [pick map all_ok rbind].
  rewrite A. cbn [rbind map all_ok]. rewrite C. cbn [rbind combine map all_ok fst snd]. rewrite V. reflexivity.
Qed.
