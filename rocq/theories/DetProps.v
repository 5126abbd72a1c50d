(** Theorems about the pixel geometry of a detector panel. *)
From Coq Require Import QArith Qround Qabs Lqa Qfield String.
From Verif Require Import Prelude GridModel GridSpec GridProofs GridIndexProofs DetModel DetSpec DetProofs DetMore.
Local Open Scope Q_scope.
Local Notation length := List.length.

(** C92: pixel coordinates and cartesian coordinates are inverse to each other, and integer pixel coordinates are the pixel centres. *)
Theorem C92_round_trip : forall p, sound p ->
  (forall pt, same_point (pixelToCart p (cartToPixel p pt)) pt) /\
  (forall ij, same_point (cartToPixel p (pixelToCart p ij)) ij) /\
  (forall i j, same_point (pixelToCart p (inject_Z i, inject_Z j)) (centre_x p j, centre_y p i)).
Proof.
  intros p [_ [_ [R C]]]. unfold same_point. split; [|split].
  - intros pt. rewrite p2c_x, p2c_y, c2p_row, c2p_col by assumption. split; field; lra.
  - intros ij. rewrite c2p_row, c2p_col, p2c_x, p2c_y by assumption. split; field; lra.
  - intros i j. rewrite p2c_x, p2c_y. cbn [fst snd]. unfold centre_x, centre_y, qz. split; reflexivity.
Qed.
(** The discrete pixel of a point is the one it is in: exactly so off the pixel borders, a touching one on them; and points of the open sensor get existing pixels. *)
Theorem C92_pixel : forall p pt, sound p -> let ij := cartToPixel_discrete p pt in
  touches_pixel p (fst ij) (snd ij) pt /\
  (forall i j, inside_pixel p i j pt -> ij = (i, j)) /\
  (Qabs (fst pt) < inject_Z (p_cols p) * p_psc p / 2 -> Qabs (snd pt) < inject_Z (p_rows p) * p_psr p / 2 -> in_shape p (fst ij) (snd ij)).
Proof.
  intros p pt G ij. split; [apply discrete_touches; exact G|]. split; [intros i j H; apply discrete_inside; assumption|].
  intros X Y. pose proof G as [G1 [G2 [R C]]]. unfold ij, cartToPixel_discrete; cbn [fst snd].
  pose proof (qround_near (fst (cartToPixel p pt))) as A. pose proof (qround_near (snd (cartToPixel p pt))) as B.
  apply Qabs_Qle_condition in A. apply Qabs_Qle_condition in B. apply Qabs_Qlt_condition in X. apply Qabs_Qlt_condition in Y.
  set (r := qround (fst (cartToPixel p pt))) in *. set (c := qround (snd (cartToPixel p pt))) in *. clearbody r c.
  rewrite c2p_row in A by assumption. rewrite c2p_col in B by assumption. unfold qz in *.
  set (u := snd pt / p_psr p) in *. set (w := fst pt / p_psc p) in *.
  assert (Eu : snd pt == u * p_psr p) by (unfold u; field; lra). assert (Ew : fst pt == w * p_psc p) by (unfold w; field; lra).
  rewrite Eu in Y. rewrite Ew in X. clearbody u w.
  assert (U : - (inject_Z (p_rows p) * (1 # 2)) < u /\ u < inject_Z (p_rows p) * (1 # 2)).
  { split; apply (Qmult_lt_r _ _ (p_psr p) R).
    - assert (E : - (inject_Z (p_rows p) * (1 # 2)) * p_psr p == - (inject_Z (p_rows p) * p_psr p / 2)) by field. rewrite E; apply Y.
    - assert (E : inject_Z (p_rows p) * (1 # 2) * p_psr p == inject_Z (p_rows p) * p_psr p / 2) by field. rewrite E; apply Y. }
  assert (W : - (inject_Z (p_cols p) * (1 # 2)) < w /\ w < inject_Z (p_cols p) * (1 # 2)).
  { split; apply (Qmult_lt_r _ _ (p_psc p) C).
    - assert (E : - (inject_Z (p_cols p) * (1 # 2)) * p_psc p == - (inject_Z (p_cols p) * p_psc p / 2)) by field. rewrite E; apply X.
    - assert (E : inject_Z (p_cols p) * (1 # 2) * p_psc p == inject_Z (p_cols p) * p_psc p / 2) by field. rewrite E; apply X. }
  assert (Ea : (inject_Z (p_rows p) - 1) / 2 == inject_Z (p_rows p) * (1 # 2) - (1 # 2)) by field. rewrite Ea in A.
  assert (Eb : (inject_Z (p_cols p) - 1) / 2 == inject_Z (p_cols p) * (1 # 2) - (1 # 2)) by field. rewrite Eb in B.
  assert (T : forall a b : Z, inject_Z a < inject_Z b + 1 -> (a < b + 1)%Z).
  { intros a b H. apply inj_lt_inv. rewrite inject_Z_plus. exact H. }
  assert (T0 : forall a : Z, -1 < inject_Z a -> (-1 < a)%Z) by (intros a H; apply inj_lt_inv; exact H).
  assert (A1 : (-1 < r)%Z) by (apply T0; lra). assert (B1 : (-1 < c)%Z) by (apply T0; lra).
  assert (A2 : (r < p_rows p)%Z) by (apply inj_lt_inv; lra). assert (B2 : (c < p_cols p)%Z) by (apply inj_lt_inv; lra).
  unfold in_shape. lia.
Qed.
Print Assumptions C92_round_trip.
Print Assumptions C92_pixel.

(** C93: clipping keeps, in order, exactly the points of the sensor that its buffer does not exclude, and says which. *)
Theorem C93_clip : forall load p xy buffer_edges kept mask, sound p -> clip_to_panel load p xy buffer_edges = Ok (kept, mask) ->
  length mask = length xy /\ kept = selected mask xy /\
  forall k pt, nth_error xy k = Some pt ->
    let on := nth k mask false = true in
    (buffer_edges = false \/ p_buffer p = BNone -> (on <-> within_border p 0 0 pt)) /\
    (forall bx by_, buffer_edges = true -> p_buffer p = BBorders bx by_ -> (on <-> within_border p bx by_ pt)) /\
    (forall m, buffer_edges = true -> p_buffer p = BMask m \/ (exists n, p_buffer p = BName n /\ panel_buffer_from_str load n p = Ok m) ->
       (forall i j, inside_pixel p i j pt -> (on <-> in_shape p i j /\ mask_value m i j = true)) /\
       (on -> exists i j, in_shape p i j /\ touches_pixel p i j pt /\ mask_value m i j = true)).
Proof.
  intros load p xy be kept mask G H. destruct (clip_pointwise load _ _ _ _ _ H) as [L K]. split; [exact L|]. split; [exact K|].
  intros k pt N. destruct (clip_shape load _ _ _ _ _ H) as [on [M [_ [A [B [C D]]]]]].
  assert (E : nth k mask false = on pt).
  { rewrite M. apply nth_error_nth. rewrite nth_error_map, N. reflexivity. }
  cbn zeta. rewrite E. split; [intros X; apply A; exact X|]. split; [intros bx by_ X Y; apply (B bx by_ X Y)|].
  intros m X Y. assert (O : on = mask_at m p).
  { destruct Y as [Y|[n [Y Z]]]; [exact (C m X Y)|]. destruct (D n X Y) as [m' [Z' O]]. rewrite Z in Z'. injection Z' as <-. exact O. }
  rewrite O. split; [|apply mask_at_true; exact G].
  intros i j I. rewrite (mask_at_inside m p i j pt G I). unfold in_shape.
  destruct (0 <=? i)%Z eqn:E1, (i <? p_rows p)%Z eqn:E2, (0 <=? j)%Z eqn:E3, (j <? p_cols p)%Z eqn:E4; cbn [andb]; split;
    try (intros; discriminate); try (intros [Q1 Q2]; lia); try tauto; intros; split; try lia; assumption.
Qed.
(** Clipping raises only for a stored mask that cannot be loaded or does not fit. *)
Theorem C93_total : forall load p xy buffer_edges, (forall n, p_buffer p <> BName n) ->
  exists kept mask, clip_to_panel load p xy buffer_edges = Ok (kept, mask).
Proof.
  intros load p xy be H. unfold clip_to_panel. destruct be; [|eexists; eexists; reflexivity].
  destruct (p_buffer p) as [| | |n] eqn:B; try (eexists; eexists; reflexivity). exfalso; exact (H n eq_refl).
Qed.

(** A stored mask is used as it is, or is the part of it under the region of interest. *)
Theorem C93_stored_mask : forall load p r c name stored m p', load name = Ok stored -> sound p -> (0 <= r)%Z -> (0 <= c)%Z ->
  set_roi p (Some [r; c]) = Ok p' -> panel_buffer_from_str load name p' = Ok m ->
  table_shape m (p_rows p) (p_cols p) /\
  (table_shape stored (p_rows p) (p_cols p) -> m = stored) /\
  (~ table_shape stored (p_rows p) (p_cols p) -> forall i j, in_shape p i j -> mask_value m i j = mask_value stored (r + i) (c + j)).
Proof.
  intros load p r c name stored m p' Ld [G1 [G2 _]] Hr Hc S' F. injection S' as <-.
  assert (SH : forall b, mask_shape b (p_rows p) (p_cols p) = true <-> table_shape b (p_rows p) (p_cols p)).
  { intros b. unfold mask_shape, table_shape. rewrite andb_true_iff, forallb_forall, Z.eqb_eq.
    split; intros [X Y]; (split; [exact X|]); intros q Q'; specialize (Y q Q'); [apply Z.eqb_eq in Y|apply Z.eqb_eq]; exact Y. }
  unfold panel_buffer_from_str in F. rewrite Ld in F. cbn [rbind p_rows p_cols p_roi] in F.
  destruct (mask_shape stored (p_rows p) (p_cols p)) eqn:E1.
  - injection F as <-. apply SH in E1. split; [exact E1|]. split; [reflexivity|]. intros X; contradiction.
  - destruct (mask_shape (map (slice c (c + p_cols p)) (slice r (r + p_rows p) stored)) (p_rows p) (p_cols p)) eqn:E2; [|discriminate].
    injection F as <-. apply SH in E2. split; [exact E2|].
    split; [intros X; apply SH in X; congruence|]. intros _ i j [I J]. unfold mask_value.
    assert (NS : forall A (l : list A) a b k d, (0 <= a)%Z -> (0 <= k < b)%Z -> nth (Z.to_nat k) (slice a (a + b) l) d = nth (Z.to_nat (a + k)) l d).
    { apply nth_slice. }
    destruct E2 as [L2 W2]. rewrite map_length in L2.
    rewrite (nth_indep _ [] (slice c (c + p_cols p) [])) by (rewrite map_length; lia).
    rewrite map_nth, !NS by lia. reflexivity.
Qed.

(** A border in mm turned into a mask keeps exactly the pixels whose centre is within the border, unless the border is a half-odd number of pixels. *)
Definition not_half (x : Q) : Prop := forall k, ~ x == inject_Z k + (1 # 2).
Theorem C93_border_mask : forall load p bx by_, sound p -> p_buffer p = BBorders bx by_ -> 0 <= bx -> 0 <= by_ ->
  not_half (bx / p_psc p) -> not_half (by_ / p_psr p) ->
  exists m, panel_buffer_as_2d_array load p = Ok m /\ table_shape m (p_rows p) (p_cols p) /\
    forall i j, in_shape p i j -> (mask_value m i j = true <-> within_border p bx by_ (centre_x p j, centre_y p i)).
Proof.
  intros load p bx by_ [G1 [G2 [R C]]] B Bx By Nx Ny. unfold panel_buffer_as_2d_array. rewrite B. eexists; split; [reflexivity|].
  split; [apply grid_shape; lia|]. intros i j [I J]. unfold mask_value. rewrite nth_grid by assumption.
  assert (KEY : forall b d n, (1 <= n)%Z -> 0 < d -> 0 <= b -> not_half (b / d) -> forall k, (0 <= k < n)%Z ->
     ((slice_start n (qround (b / d)) <=? k)%Z && (k <? slice_stop n (n - qround (b / d)))%Z = true <->
      Qabs (d * ((inject_Z n - 1) / 2 - inject_Z k)) <= inject_Z n * d / 2 - b)).
  { clear - R C. intros b d n Hn Hd Hb NH k Hk.
    assert (E : b == b / d * d) by (field; lra). set (u := b / d) in *.
    assert (U0 : 0 <= u). { apply (Qmult_le_r _ _ d Hd). rewrite <- E. lra. } clearbody u.
    pose proof (qround_near u) as N. apply Qabs_Qle_condition in N. set (r := qround u) in *. clearbody r. unfold qz in N.
    assert (N' : inject_Z r - (1 # 2) < u /\ u < inject_Z r + (1 # 2)).
    { split; [|pose proof (NH r); destruct (Qlt_le_dec u (inject_Z r + (1 # 2))) as [X|X]; [exact X|exfalso; apply (NH r); lra]].
      destruct (Qlt_le_dec (inject_Z r - (1 # 2)) u) as [X|X]; [exact X|]. exfalso. apply (NH (r - 1)%Z). unfold Z.sub. rewrite inject_Z_plus.
      change (inject_Z (- (1))) with (- (1)). lra. }
    assert (R0 : (0 <= r)%Z). { assert (-1 < r)%Z; [|lia]. apply inj_lt_inv. change (inject_Z (-1)) with (-1). lra. }
    unfold slice_start, slice_stop. destruct (r <? 0)%Z eqn:Z0; [lia|].
    assert (LHS : ((r <=? k)%Z && (k <? (if n - r <? 0 then Z.max 0 (n + (n - r)) else n - r))%Z = true <-> (r <= k /\ k < n - r)%Z)).
    { rewrite andb_true_iff. destruct (n - r <? 0)%Z eqn:Z1; lia. }
    rewrite LHS. rewrite Qabs_Qle_condition.
    assert (E1 : d * ((inject_Z n - 1) / 2 - inject_Z k) == (inject_Z n * (1 # 2) - (1 # 2) - inject_Z k) * d) by field.
    assert (E2 : inject_Z n * d / 2 - b == (inject_Z n * (1 # 2) - u) * d) by (rewrite E; field).
    assert (E3 : - ((inject_Z n * (1 # 2) - u) * d) == (u - inject_Z n * (1 # 2)) * d) by ring.
    rewrite E1, E2, E3, !(Qmult_le_r _ _ d Hd).
    split.
    - intros [H1 H2]. apply inj_le in H1. assert (H2' : (k + 1 <= n - r)%Z) by lia. apply inj_le in H2'. unfold Z.sub in H2'.
      rewrite !inject_Z_plus, inject_Z_opp in H2'. change (inject_Z 1) with 1 in H2'. lra.
    - intros [H1 H2]. split.
      + assert (r < k + 1)%Z; [|lia]. apply inj_lt_inv. rewrite inject_Z_plus. change (inject_Z 1) with 1. lra.
      + apply inj_lt_inv. unfold Z.sub. rewrite !inject_Z_plus, inject_Z_opp. lra. }
  unfold within_border. cbn [fst snd]. unfold centre_x, centre_y.
  rewrite andb_true_iff, (KEY by_ (p_psr p) (p_rows p) G1 R By Ny i I), (KEY bx (p_psc p) (p_cols p) G2 C Bx Nx j J).
  assert (X : p_psc p * (inject_Z j - (inject_Z (p_cols p) - 1) / 2) == - (p_psc p * ((inject_Z (p_cols p) - 1) / 2 - inject_Z j))) by field.
  rewrite X, Qabs_opp. tauto.
Qed.
(** With half a pixel over, the two differ: a border of 3/2 pixels lets the clip accept the centre of the second pixel, which the mask excludes. *)
Theorem C93_border_mask_refuted : exists load p m, sound p /\ p_buffer p = BBorders (3 # 2) (3 # 2) /\ panel_buffer_as_2d_array load p = Ok m /\
  in_shape p 1 1 /\ within_border p (3 # 2) (3 # 2) (centre_x p 1, centre_y p 1) /\ mask_value m 1 1 = false.
Proof.
  exists (fun _ => Err RuntimeError), (Panel 5 5 1 1 (BBorders (3 # 2) (3 # 2)) None). eexists.
  split; [repeat split; cbn; lia || lra|]. split; [reflexivity|]. split; [reflexivity|]. split; [cbv; intuition congruence|].
  split; [split; vm_compute; congruence|]. vm_compute. reflexivity.
Qed.
(** A mask that excludes nothing is not the same as no mask: with an even number of columns the right edge of the sensor is off. *)
Theorem C93_full_mask_refuted : exists load p pt, sound p /\ p_buffer p = BNone /\
  let p' := Panel (p_rows p) (p_cols p) (p_psr p) (p_psc p) (BMask [[true; true]; [true; true]]) None in
  table_shape [[true; true]; [true; true]] (p_rows p) (p_cols p) /\
  clip_to_panel load p [pt] true = Ok ([pt], [true]) /\ clip_to_panel load p' [pt] true = Ok ([], [false]).
Proof.
  exists (fun _ => Err RuntimeError), (Panel 2 2 1 1 BNone None), (1, 0).
  split; [repeat split; cbn; lia || lra|]. split; [reflexivity|]. cbn zeta. cbn [p_rows p_cols p_psr p_psc].
  split; [split; [reflexivity | intros r [<-|[<-|[]]]; reflexivity]|]. split; vm_compute; reflexivity.
Qed.
Print Assumptions C93_clip.
Print Assumptions C93_total.
Print Assumptions C93_stored_mask.
Print Assumptions C93_border_mask.
Print Assumptions C93_border_mask_refuted.
Print Assumptions C93_full_mask_refuted.

(** C94: interpolation of a floating point image gives at every accepted point the blend of the four surrounding pixels, the
    image being continued past its border by its border pixels, and the fill value elsewhere.  Missing: the strip of width
    [ztol] just beyond the last row or column of pixel centres, see below. *)
Theorem C94_bilinear_partial : forall load ztol p xy img pad kept mask,
  sound p -> (2 <= p_rows p)%Z -> (2 <= p_cols p)%Z -> 0 < ztol -> 2 * ztol < p_psr p -> 2 * ztol < p_psc p ->
  table_shape img (p_rows p) (p_cols p) -> (forall bx by_, p_buffer p = BBorders bx by_ -> 0 <= bx /\ 0 <= by_) ->
  clip_to_panel load p xy true = Ok (kept, mask) -> (forall pt, In pt kept -> off_last_strip ztol p pt) ->
  exists out, interpolate_bilinear load ztol p xy img false pad = Ok out /\ length out = length xy /\
  forall k pt, nth_error xy k = Some pt ->
    (nth k mask false = true -> exists v, nth_error out k = Some (Some v) /\
       (exists i j t s, between p i j t s pt) /\ forall i j t s, between p i j t s pt -> v == blend p img i j t s) /\
    (nth k mask false = false -> nth_error out k = Some (if pad then None else Some 0)).
Proof.
  intros load ztol p xy img pad kept mask G R2 C2 Hz Zr Zc Sh NB H Off.
  pose proof (fun pt => clip_on_sensor load p xy kept mask pt G NB H) as On.
  unfold interpolate_bilinear. rewrite H. cbn [rbind fst snd].
  assert (V : exists vs, all_ok (map (bilinear_at ztol p img) kept) = Ok vs).
  { apply all_ok_exists. intros x X. apply in_map_iff in X. destruct X as [pt [<- I]].
    destruct (bilinear_at_value ztol p img pt G R2 C2 Hz Zr Zc Sh (On pt I) (Off pt I)) as [v [E _]]. exists v; exact E. }
  destruct V as [vs V]. rewrite V. cbn [rbind]. eexists; split; [reflexivity|].
  destruct (clip_shape load _ _ _ _ _ H) as [on [-> [-> _]]].
  destruct (place_spec _ _ on xy (bilinear_at ztol p img) vs (fun v => Some (store false v)) (fill_value pad) V) as [L P].
  split; [exact L|]. intros k pt K. destruct (P k pt K) as [P1 P2].
  assert (E : nth k (map on xy) false = on pt) by (apply nth_error_nth; rewrite nth_error_map, K; reflexivity). rewrite E.
  split; [|intros F; rewrite (P2 F); destruct pad; reflexivity].
  intros T. destruct (P1 T) as [v [F N]]. exists v. split; [exact N|]. split; [apply between_exists; exact G|].
  assert (I : In pt (pick (map on xy) xy)) by (apply pick_map_in; split; [exact (nth_error_In _ _ K) | exact T]).
  destruct (bilinear_at_value ztol p img pt G R2 C2 Hz Zr Zc Sh (On pt I) (Off pt I)) as [v' [F' B]].
  rewrite F in F'. injection F' as <-. exact B.
Qed.
(** The blend is the image at a pixel centre, lies between the least and the greatest pixel, and is exact for an image
    that varies linearly with position, between the outermost centres. *)
Theorem C94_blend : forall p img i j t s pt, sound p -> between p i j t s pt ->
  (in_shape p i j -> t == 0 -> s == 0 -> blend p img i j t s == image_value img i j) /\
  (forall lo hi, (forall i j, in_shape p i j -> lo <= image_value img i j <= hi) -> lo <= blend p img i j t s <= hi) /\
  (forall a b c, (forall i j, in_shape p i j -> image_value img i j == a + b * centre_x p j + c * centre_y p i) ->
     in_shape p i j -> in_shape p (i + 1) (j + 1) -> blend p img i j t s == a + b * fst pt + c * snd pt).
Proof.
  intros p img i j t s pt G [T [S' [X Y]]]. split; [|split].
  - intros [I J] T0 S0. unfold blend, lerp, continued.
    replace (nearest_index (p_rows p) i) with i by (unfold nearest_index; lia). replace (nearest_index (p_cols p) j) with j by (unfold nearest_index; lia).
    rewrite T0, S0. ring.
  - intros lo hi B. apply blend_bounds; assumption.
  - intros a b c A [I J] [I' J'].
    assert (N : forall n k, (0 <= k < n)%Z -> nearest_index n k = k) by (intros; unfold nearest_index; lia).
    unfold blend, lerp, continued. rewrite !(N _ i), !(N _ j), !(N _ (i + 1)%Z), !(N _ (j + 1)%Z) by lia.
    rewrite (A i j), (A i (j + 1)%Z), (A (i + 1)%Z j), (A (i + 1)%Z (j + 1)%Z) by (unfold in_shape; lia).
    rewrite X, Y. unfold centre_x, centre_y. rewrite !inject_Z_plus. change (inject_Z 1) with 1. field.
Qed.
(** In the strip the result is extrapolated from the last two columns: here beyond every pixel value of the image. *)
Theorem C94_strip_refuted : exists load ztol p img pt v, sound p /\ (2 <= p_rows p)%Z /\ (2 <= p_cols p)%Z /\ 0 < ztol /\ 2 * ztol < p_psr p /\ 2 * ztol < p_psc p /\
  table_shape img (p_rows p) (p_cols p) /\ p_buffer p = BNone /\ within_border p 0 0 pt /\
  interpolate_bilinear load ztol p [pt] img false true = Ok [Some v] /\ forall i j, in_shape p i j -> image_value img i j < v.
Proof.
  exists (fun _ => Err RuntimeError), (1 # 100), (Panel 2 2 1 1 BNone None), [[0; 1]; [0; 1]], ((1 # 2) + (1 # 200), 0). eexists.
  split; [repeat split; cbn; lia || lra|]. split; [cbn; lia|]. split; [cbn; lia|]. split; [lra|]. split; [cbn; lra|]. split; [cbn; lra|].
  split; [split; [reflexivity | intros r [<-|[<-|[]]]; reflexivity]|]. split; [reflexivity|].
  split; [split; vm_compute; congruence|]. split; [vm_compute; reflexivity|].
  intros i j [I J]. cbn in I, J. assert (Ei : (i = 0 \/ i = 1)%Z) by lia. assert (Ej : (j = 0 \/ j = 1)%Z) by lia.
  destruct Ei as [->| ->], Ej as [->| ->]; vm_compute; reflexivity.
Qed.
(** The values of an integer image are cut to integers: half way between pixels 1 and 2 the result is 1. *)
Theorem C94_integer_refuted : exists load ztol p img pt i j t s, sound p /\ table_shape img (p_rows p) (p_cols p) /\ p_buffer p = BNone /\
  off_last_strip ztol p pt /\ between p i j t s pt /\ interpolate_bilinear load ztol p [pt] img true true = Ok [Some 1] /\ blend p img i j t s == 3 # 2.
Proof.
  exists (fun _ => Err RuntimeError), (1 # 100), (Panel 2 2 1 1 BNone None), [[1; 2]; [1; 2]], (0, 1 # 2), 0%Z, 0%Z, 0, (1 # 2).
  split; [repeat split; cbn; lia || lra|]. split; [split; [reflexivity | intros r [<-|[<-|[]]]; reflexivity]|]. split; [reflexivity|].
  split; [split; left; vm_compute; congruence|]. split; [repeat split; vm_compute; congruence|]. split; vm_compute; reflexivity.
Qed.
(** On a panel with a single row or column interpolation at an accepted point raises. *)
Theorem C94_single_row_refuted : forall load ztol p img pt, sound p -> p_buffer p = BNone -> within_border p 0 0 pt -> p_rows p = 1%Z ->
  interpolate_bilinear load ztol p [pt] img false true = Err AssertionError.
Proof.
  intros load ztol p img pt G B W R. unfold interpolate_bilinear, clip_to_panel. rewrite B. cbn [rbind fst snd map].
  apply within_iff0 in W. rewrite W. cbn [pick map all_ok]. unfold bilinear_at. destruct (cartToPixel p pt) as [u w].
  unfold row_pixel_vec. rewrite R. reflexivity.
Qed.
Print Assumptions C94_bilinear_partial.
Print Assumptions C94_blend.
Print Assumptions C94_strip_refuted.
Print Assumptions C94_integer_refuted.
Print Assumptions C94_single_row_refuted.

(** C95: the "nearest" interpolation should give the pixel a point is in.  It gives the upper left one of the four pixels
    around it, so at the centre of a pixel it gives the pixel above, and in the first row the pixel in the last row. *)
Theorem C95_nearest_refuted : forall load ztol p img pad i j, sound p -> (2 <= p_rows p)%Z -> (2 <= p_cols p)%Z ->
  0 < ztol -> 2 * ztol < p_psr p -> 2 * ztol < p_psc p -> p_buffer p = BNone -> table_shape img (p_rows p) (p_cols p) -> in_shape p i j ->
  inside_pixel p i j (centre_x p j, centre_y p i) /\
  interpolate_nearest load ztol p [(centre_x p j, centre_y p i)] img pad =
    Ok [Some (image_value img (if i =? 0 then p_rows p - 1 else i - 1)%Z (if j =? p_cols p - 1 then p_cols p - 2 else j)%Z)].
Proof.
  intros load ztol p img pad i j G R2 C2 Hz Zr Zc B Sh IJ. pose proof G as [G1 [G2 [R C]]]. pose proof IJ as [I J].
  set (pt := (centre_x p j, centre_y p i)).
  assert (W : within_border p 0 0 pt) by (exact (touches_within p i j _ G IJ (centre_touches p i j G))).
  assert (O : off_last_strip ztol p pt) by (apply centre_off_strip; assumption).
  split.
  { unfold inside_pixel, pt. cbn [fst snd].
    assert (X : centre_x p j - centre_x p j == 0) by ring. assert (Y : centre_y p i - centre_y p i == 0) by ring. rewrite X, Y.
    split; apply Qlt_shift_div_l; change (Qabs 0) with 0; lra. }
  destruct (row_cell ztol p pt G R2 Hz Zr W O) as [f [Ef [F1 F2]]].
  assert (Dy : centre_y p 0 - snd pt == inject_Z i * p_psr p) by (unfold pt, centre_y; cbn [snd]; change (inject_Z 0) with 0; field).
  rewrite Dy in F1, F2. apply scale_lt in F1; [|exact R].
  assert (F3 : (i <= f + 1)%Z). { apply inj_le_inv. rewrite inject_Z_plus. change (inject_Z 1) with 1. apply (Qmult_le_r _ _ (p_psr p) R). exact F2. }
  assert (Ff : f = (i - 1)%Z) by lia. subst f.
  assert (Ec : cell_index ztol (col_pixel_vec p) (fst pt) = Ok (if j =? p_cols p - 1 then p_cols p - 2 else j)%Z).
  { destruct (j =? p_cols p - 1)%Z eqn:E.
    - apply Z.eqb_eq in E. unfold pt; cbn [fst]. rewrite E. apply col_cell_last; assumption.
    - apply Z.eqb_neq in E. destruct (col_cell ztol p pt G C2 Hz Zc W O) as [h [Eh [H1 H2]]]. rewrite Eh. f_equal.
      assert (Dx : fst pt - centre_x p 0 == inject_Z j * p_psc p) by (unfold pt, centre_x; cbn [fst]; change (inject_Z 0) with 0; field).
      rewrite Dx in H1, H2. destruct H2 as [H2|H2].
      + assert (H3 : (h <= j)%Z) by (apply inj_le_inv; apply (Qmult_le_r _ _ (p_psc p) C); exact H1).
        assert (H4 : (j < h + 1)%Z) by (apply (scale_lt _ _ (p_psc p) C); rewrite inject_Z_plus; exact H2). lia.
      + exfalso. unfold pt in H2; cbn [fst] in H2. unfold centre_x in H2. apply Qmult_inj_l in H2; [|lra].
        assert (H3 : inject_Z j == inject_Z (p_cols p - 1)) by lra. apply (proj1 (inject_Z_injective _ _)) in H3. lia. }
  assert (Jn : (0 <= (if j =? p_cols p - 1 then p_cols p - 2 else j) < p_cols p)%Z) by (destruct (j =? p_cols p - 1)%Z; lia).
  refine (nearest_one load ztol p img pt pad _ _ _ B Sh W Ef Ec _).
  destruct (i =? 0)%Z eqn:E.
  - apply Z.eqb_eq in E. subst i. unfold pixel, image_value, py_index. destruct Sh as [L Wd]. rewrite L.
    change (0 - 1 <? 0)%Z with true. cbn zeta iota. destruct (p_rows p + (0 - 1) <? 0)%Z eqn:Q'; [lia|].
    replace (p_rows p + (0 - 1))%Z with (p_rows p - 1)%Z by lia. rewrite (nth_error_nth' img []) by lia. cbn [rbind].
    pose proof (py_index_in _ (nth (Z.to_nat (p_rows p - 1)) img []) (if (j =? p_cols p - 1)%Z then (p_cols p - 2)%Z else j) 0) as PI.
    unfold py_index in PI. apply PI. rewrite (Wd (nth (Z.to_nat (p_rows p - 1)) img [])); [exact Jn | apply nth_In; lia].
  - apply Z.eqb_neq in E. apply (pixel_in img _ _ _ _ Sh); [lia | exact Jn].
Qed.
(** What it does: for a point between the centres of pixels (i, j) and (i+1, j+1) it gives pixel (i, j).  Right in a quarter of the cases only. *)
Theorem C95_upper_left_partial : forall load ztol p img pad i j t s pt, sound p -> (2 <= p_rows p)%Z -> (2 <= p_cols p)%Z ->
  0 < ztol -> 2 * ztol < p_psr p -> 2 * ztol < p_psc p -> p_buffer p = BNone -> table_shape img (p_rows p) (p_cols p) -> in_shape p i j ->
  within_border p 0 0 pt -> off_last_strip ztol p pt -> between p i j t s pt -> 0 < t -> s < 1 -> ~ fst pt == centre_x p (p_cols p - 1) ->
  interpolate_nearest load ztol p [pt] img pad = Ok [Some (image_value img i j)].
Proof.
  intros load ztol p img pad i j t s pt G R2 C2 Hz Zr Zc B Sh [I J] W O [T [S' [X Y]]] T0 S1 NL. pose proof G as [G1 [G2 [R C]]].
  destruct (row_cell ztol p pt G R2 Hz Zr W O) as [f [Ef [F1 F2]]].
  destruct (col_cell ztol p pt G C2 Hz Zc W O) as [h [Eh [H1 H2]]].
  assert (Dy : centre_y p 0 - snd pt == (inject_Z i + t) * p_psr p) by (rewrite Y; unfold centre_y; change (inject_Z 0) with 0; field).
  assert (Dx : fst pt - centre_x p 0 == (inject_Z j + s) * p_psc p) by (rewrite X; unfold centre_x; change (inject_Z 0) with 0; field).
  assert (f = i). { rewrite Dy in F1, F2. apply (cell_same (p_psr p) f i _ R F1 F2); [apply Qmult_lt_r; lra | apply Qmult_le_r; lra]. }
  assert (h = j). { destruct H2 as [H2|H2]; [|contradiction]. rewrite Dx in H1, H2. apply (cell_same' (p_psc p) h j _ C H1 H2); [apply Qmult_le_r; lra | apply Qmult_lt_r; lra]. }
  subst f h. refine (nearest_one load ztol p img pt pad _ _ _ B Sh W Ef Eh _). apply (pixel_in img _ _ _ _ Sh); assumption.
Qed.
Print Assumptions C95_nearest_refuted.
Print Assumptions C95_upper_left_partial.

(** A 3 x 4 panel meets the hypotheses; the values are those of hand calculation. *)
Definition ex_panel := Panel 3 4 (1 # 5) (1 # 10) BNone None.
Definition ex_img : list (list Q) := [[0; 1; 2; 3]; [10; 11; 12; 13]; [20; 21; 22; 23]].
Example Det_example : sound ex_panel /\ table_shape ex_img (p_rows ex_panel) (p_cols ex_panel) /\
  in_shape ex_panel 1 2 /\ between ex_panel 1 1 (1 # 2) (1 # 2) (0, - (1 # 10)) /\ off_last_strip (1 # 1000) ex_panel (0, - (1 # 10)) /\
  within_border ex_panel 0 0 (0, - (1 # 10)) /\ inside_pixel ex_panel 1 2 (1 # 20, 0) /\
  (exists out, interpolate_bilinear (fun _ => Err RuntimeError) (1 # 1000) ex_panel [(0, - (1 # 10)); (1, 1)] ex_img false true = Ok [Some out; None] /\ out == 33 # 2) /\
  interpolate_nearest (fun _ => Err RuntimeError) (1 # 1000) ex_panel [(0 + (1 # 20), 0)] ex_img true = Ok [Some 2].
Proof.
  split; [repeat split; cbn; lia || lra|]. split; [split; [reflexivity|intros r [<-|[<-|[<-|[]]]]; reflexivity]|].
  split; [cbv; intuition congruence|]. split; [repeat split; vm_compute; congruence|]. split; [split; left; vm_compute; congruence|].
  split; [split; vm_compute; congruence|]. split; [split; vm_compute; reflexivity|]. split; [eexists; split; [vm_compute; reflexivity | vm_compute; reflexivity]|].
  vm_compute. reflexivity.
Qed.
