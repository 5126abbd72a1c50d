(** Lemmas for the detector panel theorems. *)
From Coq Require Import QArith Qround Qabs Lqa Qfield.
From Verif Require Import Prelude GridModel GridSpec GridProofs GridIndexProofs DetModel DetSpec.
Local Open Scope Q_scope.

(** ** rounding *)
Lemma qround_near : forall x, Qabs (x - qz (qround x)) <= 1 # 2.
Proof.
  intros x. unfold qround. pose proof (Qfloor_le x) as A. pose proof (Qlt_floor x) as B.
  rewrite inject_Z_plus in B. change (inject_Z 1) with 1 in B. unfold qz.
  destruct (x - inject_Z (Qfloor x) ?= 1 # 2) eqn:E.
  - apply Qeq_alt in E. destruct (Z.even _); [|rewrite inject_Z_plus; change (inject_Z 1) with 1]; apply Qabs_Qle_condition; lra.
  - apply Qlt_alt in E. apply Qabs_Qle_condition; lra.
  - apply Qgt_alt in E. rewrite inject_Z_plus; change (inject_Z 1) with 1. apply Qabs_Qle_condition; lra.
Qed.
Lemma qround_unique : forall x k, Qabs (x - qz k) < 1 # 2 -> qround x = k.
Proof.
  intros x k H. pose proof (qround_near x) as N. apply Qabs_Qlt_condition in H. apply Qabs_Qle_condition in N.
  unfold qz in *. assert (A : inject_Z (qround x) < inject_Z (k + 1)) by (rewrite inject_Z_plus; change (inject_Z 1) with 1; lra).
  assert (B : inject_Z k < inject_Z (qround x + 1)) by (rewrite inject_Z_plus; change (inject_Z 1) with 1; lra).
  apply inj_lt_inv in A. apply inj_lt_inv in B. lia.
Qed.
Lemma qround_int : forall x k, x == qz k -> qround x = k.
Proof. intros x k H. apply qround_unique. apply Qabs_Qlt_condition. lra. Qed.

(** ** pixel coordinates *)
Lemma c2p_row : forall p pt, 0 < p_psr p -> fst (cartToPixel p pt) == (qz (p_rows p) - 1) / 2 - snd pt / p_psr p.
Proof. intros p pt H. unfold cartToPixel, corner_ul, row_dim; cbn [fst snd]. field. lra. Qed.
Lemma c2p_col : forall p pt, 0 < p_psc p -> snd (cartToPixel p pt) == (qz (p_cols p) - 1) / 2 + fst pt / p_psc p.
Proof. intros p pt H. unfold cartToPixel, corner_ul, col_dim; cbn [fst snd]. field. lra. Qed.
Lemma p2c_x : forall p ij, fst (pixelToCart p ij) == p_psc p * (snd ij - (qz (p_cols p) - 1) / 2).
Proof. intros p ij. unfold pixelToCart, corner_ll, col_dim; cbn [fst snd]. field. Qed.
Lemma p2c_y : forall p ij, snd (pixelToCart p ij) == p_psr p * ((qz (p_rows p) - 1) / 2 - fst ij).
Proof. intros p ij. unfold pixelToCart, corner_ll, row_dim; cbn [fst snd]. field. Qed.

(** the distance from a pixel centre, in pixels *)
Lemma row_dist : forall p pt i, 0 < p_psr p -> (fst (cartToPixel p pt) - qz i) * p_psr p == - (snd pt - centre_y p i).
Proof. intros p pt i H. rewrite c2p_row by assumption. unfold centre_y, qz. field. lra. Qed.
Lemma col_dist : forall p pt j, 0 < p_psc p -> (snd (cartToPixel p pt) - qz j) * p_psc p == fst pt - centre_x p j.
Proof. intros p pt i H. rewrite c2p_col by assumption. unfold centre_x, qz. field. lra. Qed.

Lemma scaled_abs_le : forall a d y, 0 < d -> a * d == y -> (Qabs y <= d / 2 <-> Qabs a <= 1 # 2).
Proof.
  intros a d y H E. rewrite <- E, Qabs_Qmult, (Qabs_pos d) by lra.
  pose proof (Qmult_le_r (Qabs a) (1 # 2) d H) as M.
  assert (X : d / 2 == (1 # 2) * d) by field. rewrite X. exact M.
Qed.
Lemma scaled_abs_lt : forall a d y, 0 < d -> a * d == y -> (Qabs y < d / 2 <-> Qabs a < 1 # 2).
Proof.
  intros a d y H E. rewrite <- E, Qabs_Qmult, (Qabs_pos d) by lra.
  pose proof (Qmult_lt_r (Qabs a) (1 # 2) d H) as M.
  assert (X : d / 2 == (1 # 2) * d) by field. rewrite X. exact M.
Qed.
Lemma touches_iff : forall p i j pt, sound p -> (touches_pixel p i j pt <->
  Qabs (fst (cartToPixel p pt) - qz i) <= 1 # 2 /\ Qabs (snd (cartToPixel p pt) - qz j) <= 1 # 2).
Proof.
  intros p i j pt [_ [_ [R C]]]. unfold touches_pixel.
  rewrite <- (Qabs_opp (snd pt - centre_y p i)).
  rewrite (scaled_abs_le _ _ _ R (row_dist p pt i R)), (scaled_abs_le _ _ _ C (col_dist p pt j C)). tauto.
Qed.
Lemma inside_iff : forall p i j pt, sound p -> (inside_pixel p i j pt <->
  Qabs (fst (cartToPixel p pt) - qz i) < 1 # 2 /\ Qabs (snd (cartToPixel p pt) - qz j) < 1 # 2).
Proof.
  intros p i j pt [_ [_ [R C]]]. unfold inside_pixel.
  rewrite <- (Qabs_opp (snd pt - centre_y p i)).
  rewrite (scaled_abs_lt _ _ _ R (row_dist p pt i R)), (scaled_abs_lt _ _ _ C (col_dist p pt j C)). tauto.
Qed.
Lemma discrete_inside : forall p i j pt, sound p -> inside_pixel p i j pt -> cartToPixel_discrete p pt = (i, j).
Proof.
  intros p i j pt G H. apply (inside_iff _ _ _ _ G) in H. destruct H as [H1 H2].
  unfold cartToPixel_discrete. cbn zeta. f_equal; apply qround_unique; assumption.
Qed.
Lemma discrete_touches : forall p pt, sound p -> touches_pixel p (fst (cartToPixel_discrete p pt)) (snd (cartToPixel_discrete p pt)) pt.
Proof. intros p pt G. apply touches_iff; [exact G|]. unfold cartToPixel_discrete; cbn [fst snd]. split; apply qround_near. Qed.

(** ** clipping *)
Lemma within_iff : forall bx by_ p pt, within ((1 # 2) * col_dim p - bx) ((1 # 2) * row_dim p - by_) pt = true <-> within_border p bx by_ pt.
Proof.
  intros bx by_ p pt. unfold within, within_border, col_dim, row_dim, qz.
  rewrite !andb_true_iff, !Qle_bool_iff, !Qabs_Qle_condition.
  assert (X : inject_Z (p_cols p) * p_psc p / 2 == (1 # 2) * (inject_Z (p_cols p) * p_psc p)) by field.
  assert (Y : inject_Z (p_rows p) * p_psr p / 2 == (1 # 2) * (inject_Z (p_rows p) * p_psr p)) by field.
  rewrite X, Y. tauto.
Qed.
Lemma within_iff0 : forall p pt, within ((1 # 2) * col_dim p) ((1 # 2) * row_dim p) pt = true <-> within_border p 0 0 pt.
Proof.
  intros p pt. rewrite <- within_iff. unfold within. rewrite !andb_true_iff, !Qle_bool_iff.
  assert (X : (1 # 2) * col_dim p - 0 == (1 # 2) * col_dim p) by ring.
  assert (Y : (1 # 2) * row_dim p - 0 == (1 # 2) * row_dim p) by ring.
  rewrite X, Y. tauto.
Qed.
Lemma pick_selected : forall A (mask : list bool) (l : list A), pick mask l = selected mask l.
Proof.
  induction mask as [|b m IH]; intros [|x l]; unfold selected in *; try reflexivity.
  cbn. destruct b; cbn; rewrite <- IH; reflexivity.
Qed.
Lemma pick_map_in : forall A (f : A -> bool) l x, In x (pick (map f l) l) <-> In x l /\ f x = true.
Proof.
  induction l as [|a l IH]; intros x; cbn; [tauto|]. destruct (f a) eqn:E; cbn; rewrite IH; split.
  - intros [H|H]; [subst; tauto | tauto].
  - intros [[H|H] F]; tauto.
  - tauto.
  - intros [[H|H] F]; [subst; congruence | tauto].
Qed.
Lemma mask_at_inside : forall m p i j pt, sound p -> inside_pixel p i j pt ->
  mask_at m p pt = if ((0 <=? i) && (i <? p_rows p) && ((0 <=? j) && (j <? p_cols p)))%Z then mask_value m i j else false.
Proof.
  intros m p i j pt G H. unfold mask_at. rewrite (discrete_inside p i j pt G H). unfold mask_value.
  destruct (i <? 0)%Z eqn:A, (p_rows p <=? i)%Z eqn:B, (j <? 0)%Z eqn:C, (p_cols p <=? j)%Z eqn:D,
    (0 <=? i)%Z eqn:A', (i <? p_rows p)%Z eqn:B', (0 <=? j)%Z eqn:C', (j <? p_cols p)%Z eqn:D'; try lia; reflexivity.
Qed.
Lemma mask_at_true : forall m p pt, sound p -> mask_at m p pt = true ->
  exists i j, in_shape p i j /\ touches_pixel p i j pt /\ mask_value m i j = true.
Proof.
  intros m p pt G H. pose proof (discrete_touches p pt G) as T. unfold mask_at in H.
  destruct (cartToPixel_discrete p pt) as [i j]. cbn [fst snd] in T. exists i, j. unfold in_shape, mask_value.
  destruct (i <? 0)%Z eqn:A, (p_rows p <=? i)%Z eqn:B, (j <? 0)%Z eqn:C, (p_cols p <=? j)%Z eqn:D; cbn in H; try discriminate.
  split; [lia|]. split; [exact T | exact H].
Qed.
(** pixels tile the sensor *)
Lemma col_bound : forall p j x, (1 <= p_cols p)%Z -> 0 < p_psc p -> (0 <= j < p_cols p)%Z -> Qabs (x - centre_x p j) <= p_psc p / 2 ->
  Qabs x <= inject_Z (p_cols p) * p_psc p / 2.
Proof.
  intros p j x H P J T. apply Qabs_Qle_condition in T. apply Qabs_Qle_condition. unfold centre_x in T.
  assert (J0 : 0 <= inject_Z j) by (apply (inj_le 0); lia).
  assert (J1 : inject_Z j <= inject_Z (p_cols p) - 1).
  { assert (E : inject_Z (p_cols p) - 1 == inject_Z (p_cols p - 1)) by (unfold Z.sub; rewrite inject_Z_plus; reflexivity).
    rewrite E. apply inj_le. lia. }
  set (d := p_psc p) in *. set (n := inject_Z (p_cols p)) in *. set (q := inject_Z j) in *. clearbody d n q.
  assert (A : 0 <= d * q) by nra. assert (B : d * q <= d * (n - 1)) by nra.
  assert (E1 : d * (q - (n - 1) / 2) == d * q - n * d / 2 + d / 2) by field.
  assert (E2 : d * (n - 1) == n * d - d) by ring. assert (E3 : n * d / 2 == (1 # 2) * (n * d)) by field. assert (E4 : d / 2 == (1 # 2) * d) by field.
  rewrite E1, E4, E3 in T. rewrite E3. rewrite E2 in B. lra.
Qed.
Lemma row_bound : forall p i y, (1 <= p_rows p)%Z -> 0 < p_psr p -> (0 <= i < p_rows p)%Z -> Qabs (y - centre_y p i) <= p_psr p / 2 ->
  Qabs y <= inject_Z (p_rows p) * p_psr p / 2.
Proof.
  intros p j x H P J T. apply Qabs_Qle_condition in T. apply Qabs_Qle_condition. unfold centre_y in T.
  assert (J0 : 0 <= inject_Z j) by (apply (inj_le 0); lia).
  assert (J1 : inject_Z j <= inject_Z (p_rows p) - 1).
  { assert (E : inject_Z (p_rows p) - 1 == inject_Z (p_rows p - 1)) by (unfold Z.sub; rewrite inject_Z_plus; reflexivity).
    rewrite E. apply inj_le. lia. }
  set (d := p_psr p) in *. set (n := inject_Z (p_rows p)) in *. set (q := inject_Z j) in *. clearbody d n q.
  assert (A : 0 <= d * q) by nra. assert (B : d * q <= d * (n - 1)) by nra.
  assert (E1 : d * ((n - 1) / 2 - q) == - (d * q) + n * d / 2 - d / 2) by field.
  assert (E2 : d * (n - 1) == n * d - d) by ring. assert (E3 : n * d / 2 == (1 # 2) * (n * d)) by field. assert (E4 : d / 2 == (1 # 2) * d) by field.
  rewrite E1, E4, E3 in T. rewrite E3. rewrite E2 in B. lra.
Qed.
Lemma touches_within : forall p i j pt, sound p -> in_shape p i j -> touches_pixel p i j pt -> within_border p 0 0 pt.
Proof.
  intros p i j pt [G1 [G2 [G3 G4]]] [I J] [T1 T2]. unfold within_border.
  pose proof (col_bound p j _ G2 G4 J T1). pose proof (row_bound p i _ G1 G3 I T2). lra.
Qed.

(** ** interpolation *)
Lemma row_edges : forall p, (1 <= p_rows p)%Z -> regular_edges (centre_y p 0) (- p_psr p) (Z.to_nat (p_rows p - 1)) (row_pixel_vec p).
Proof.
  intros p H. unfold row_pixel_vec. split; [rewrite map_length, zrange_length; lia|].
  intros k K. rewrite zrange_nth_gen by lia. unfold centre_y, qz. change (inject_Z 0) with 0. field.
Qed.
Lemma col_edges : forall p, (1 <= p_cols p)%Z -> regular_edges (centre_x p 0) (p_psc p) (Z.to_nat (p_cols p - 1)) (col_pixel_vec p).
Proof.
  intros p H. unfold col_pixel_vec. split; [rewrite map_length, zrange_length; lia|].
  intros k K. rewrite zrange_nth_gen by lia. unfold centre_x, qz. change (inject_Z 0) with 0. field.
Qed.

(** the cell of a point among increasing points, away from the strip *)
Lemma cell_inc_general : forall ztol e0 d n l x, regular_edges e0 d n l -> (1 <= n)%nat -> 0 < ztol -> 2 * ztol < d ->
  x < e0 + (inject_Z (Z.of_nat n) + 1) * d ->
  (x <= e0 + inject_Z (Z.of_nat n) * d \/ e0 + inject_Z (Z.of_nat n) * d + ztol <= x) ->
  exists k, cell_index ztol l x = Ok k /\ inject_Z k * d <= x - e0 /\ x - e0 <= (inject_Z k + 1) * d /\
    (x - e0 < (inject_Z k + 1) * d \/ x == e0 + inject_Z (Z.of_nat n) * d).
Proof.
  intros ztol e0 d n l x R Hn Hz Hd Hi Off.
  pose proof R as [Len E]. destruct (edges_cons _ _ _ _ R Hn) as [a [b [r [-> [Ea [Eb El]]]]]].
  rewrite cell_index_inc by lra. set (L := a :: b :: r) in *.
  set (x' := if Qle_bool (last L 0 - ztol) x then x - ztol else x).
  destruct (floor_cell (x' - a) (b - a) ltac:(lra)) as [F1 F2].
  set (k := Qfloor ((x' - a) / (b - a))) in *. rewrite Eb, Ea in F1, F2. clearbody k. exists k. split; [reflexivity|].
  unfold x' in *. destruct (Qle_bool (last L 0 - ztol) x) eqn:S; [|split; [lra|]; split; [lra|left; lra]].
  apply Qle_bool_iff in S. rewrite El in S. split; [lra|].
  assert (U : x - e0 <= (inject_Z k + 1) * d /\ (x < e0 + inject_Z (Z.of_nat n) * d \/ e0 + inject_Z (Z.of_nat n) * d < x -> x - e0 < (inject_Z k + 1) * d));
    [|destruct U as [U1 U2]; split; [exact U1|]; destruct (Q_dec x (e0 + inject_Z (Z.of_nat n) * d)) as [[X|X]|X]; auto].
  destruct Off as [Off|Off].
  - (* the last full cell *)
    assert (N : (Z.of_nat n - 1 < k + 1)%Z).
    { apply (scale_lt _ _ d); [lra|]. unfold Z.sub. rewrite !inject_Z_plus. change (inject_Z 1) with 1. change (inject_Z (- (1))) with (- (1)). lra. }
    assert (N' : (Z.of_nat n <= k + 1)%Z) by lia. apply inj_le in N'. rewrite inject_Z_plus in N'. change (inject_Z 1) with 1 in N'.
    pose proof (Qmult_le_compat_r _ _ d N' ltac:(lra)). split; lra.
  - assert (N : (Z.of_nat n < k + 1)%Z).
    { apply (scale_lt _ _ d); [lra|]. rewrite !inject_Z_plus. change (inject_Z 1) with 1. lra. }
    assert (N' : (Z.of_nat n + 1 <= k + 1)%Z) by lia. apply inj_le in N'. rewrite !inject_Z_plus in N'. change (inject_Z 1) with 1 in N'.
    pose proof (Qmult_le_compat_r _ _ d N' ltac:(lra)). split; lra.
Qed.
(** and among decreasing points *)
Lemma cell_dec_general : forall ztol e0 d n l x, regular_edges e0 (- d) n l -> (1 <= n)%nat -> 0 < ztol -> 2 * ztol < d ->
  e0 - (inject_Z (Z.of_nat n) + 1) * d < x ->
  (e0 - inject_Z (Z.of_nat n) * d <= x \/ x < e0 - inject_Z (Z.of_nat n) * d - ztol) ->
  exists k, cell_index ztol l x = Ok k /\ inject_Z k * d < e0 - x /\ e0 - x <= (inject_Z k + 1) * d.
Proof.
  intros ztol e0 d n l x R Hn Hz Hd Hi Off.
  pose proof R as [Len E]. destruct (edges_cons _ _ _ _ R Hn) as [a [b [r [-> [Ea [Eb El]]]]]].
  rewrite cell_index_dec by lra. set (L := a :: b :: r) in *.
  set (x' := if Qle_bool x (last L 0 + ztol) then x + ztol else x).
  destruct (ceil_cell (x' - a) (b - a) ltac:(lra)) as [F1 F2].
  set (k := Qceiling ((x' - a) / (b - a))) in *. rewrite Eb, Ea in F1, F2. clearbody k. exists (k - 1)%Z. split; [reflexivity|].
  assert (K : inject_Z (k - 1) == inject_Z k - 1) by (unfold Z.sub; rewrite inject_Z_plus; reflexivity). rewrite K.
  unfold x' in *. destruct (Qle_bool x (last L 0 + ztol)) eqn:S; [|lra].
  apply Qle_bool_iff in S. rewrite El in S. split; [lra|].
  destruct Off as [Off|Off].
  - assert (N : (Z.of_nat n - 1 < k)%Z).
    { apply (scale_lt _ _ d); [lra|]. unfold Z.sub. rewrite !inject_Z_plus. change (inject_Z (- (1))) with (- (1)). lra. }
    assert (N' : (Z.of_nat n <= k)%Z) by lia. apply inj_le in N'.
    pose proof (Qmult_le_compat_r _ _ d N' ltac:(lra)). lra.
  - assert (N : (Z.of_nat n < k)%Z) by (apply (scale_lt _ _ d); [lra|]; lra).
    assert (N' : (Z.of_nat n + 1 <= k)%Z) by lia. apply inj_le in N'. rewrite !inject_Z_plus in N'. change (inject_Z 1) with 1 in N'.
    pose proof (Qmult_le_compat_r _ _ d N' ltac:(lra)). lra.
Qed.

(** two cells containing the same coordinate give the same interpolated value *)
Lemma cell_free : forall (g : Z -> Q) u f i, inject_Z f <= u -> u <= inject_Z f + 1 -> inject_Z i <= u -> u <= inject_Z i + 1 ->
  (inject_Z f + 1 - u) * g f + (u - inject_Z f) * g (f + 1)%Z == lerp (u - inject_Z i) (g i) (g (i + 1)%Z).
Proof.
  intros g u f i A B C D.
  assert (X : (f < i + 2)%Z) by (apply inj_lt_inv; rewrite inject_Z_plus; change (inject_Z 2) with 2; lra).
  assert (Y : (i < f + 2)%Z) by (apply inj_lt_inv; rewrite inject_Z_plus; change (inject_Z 2) with 2; lra).
  assert (H : (f = i \/ f = i + 1 \/ i = f + 1)%Z) by lia. unfold lerp. destruct H as [H|[H|H]]; subst.
  - ring.
  - rewrite inject_Z_plus in *. change (inject_Z 1) with 1 in *. assert (U : u == inject_Z i + 1) by lra. rewrite U. ring.
  - rewrite inject_Z_plus in *. change (inject_Z 1) with 1 in *. assert (U : u == inject_Z f + 1) by lra. rewrite U. ring.
Qed.
Lemma fix_index_nearest : forall n i, (1 <= n)%Z -> fix_index 0 (n - 1) i = nearest_index n i.
Proof. intros n i H. unfold fix_index, nearest_index. destruct (i <? 0)%Z eqn:A; [lia|]. destruct (n - 1 <? i)%Z eqn:B; lia. Qed.
Lemma py_index_in : forall A (l : list A) i d, (0 <= i < Z.of_nat (length l))%Z -> py_index l i = Ok (nth (Z.to_nat i) l d).
Proof.
  intros A l i d H. unfold py_index. destruct (i <? 0)%Z eqn:E; [lia|]. cbn zeta. rewrite E.
  rewrite (nth_error_nth' l d) by lia. reflexivity.
Qed.
Lemma pixel_in : forall img rows cols i j, table_shape img rows cols -> (0 <= i < rows)%Z -> (0 <= j < cols)%Z -> pixel img i j = Ok (image_value img i j).
Proof.
  intros img rows cols i j [L W] I J. unfold pixel. rewrite (py_index_in _ img i []) by lia. cbn [rbind].
  apply py_index_in. rewrite W; [exact J|]. apply nth_In. lia.
Qed.
Lemma nearest_range : forall n i, (1 <= n)%Z -> (0 <= nearest_index n i < n)%Z.
Proof. intros n i H. unfold nearest_index. lia. Qed.

Lemma coords_between : forall p i j t s pt, sound p -> between p i j t s pt ->
  fst (cartToPixel p pt) == inject_Z i + t /\ snd (cartToPixel p pt) == inject_Z j + s.
Proof.
  intros p i j t s pt [_ [_ [R C]]] [_ [_ [X Y]]].
  pose proof (row_dist p pt i R) as A. pose proof (col_dist p pt j C) as B. unfold qz in *. rewrite X in B. rewrite Y in A.
  assert (A' : (fst (cartToPixel p pt) - inject_Z i) * p_psr p == t * p_psr p) by (rewrite A; ring).
  assert (B' : (snd (cartToPixel p pt) - inject_Z j) * p_psc p == s * p_psc p) by (rewrite B; ring).
  apply Qmult_inj_r in A'; [|lra]. apply Qmult_inj_r in B'; [|lra]. split; lra.
Qed.
Lemma between_exists : forall p pt, sound p -> exists i j t s, between p i j t s pt.
Proof.
  intros p pt G. pose proof G as [_ [_ [R C]]].
  set (u := fst (cartToPixel p pt)). set (v := snd (cartToPixel p pt)).
  exists (Qfloor u), (Qfloor v), (u - inject_Z (Qfloor u)), (v - inject_Z (Qfloor v)).
  pose proof (Qfloor_le u). pose proof (Qlt_floor u) as U. pose proof (Qfloor_le v). pose proof (Qlt_floor v) as V.
  rewrite inject_Z_plus in U, V. change (inject_Z 1) with 1 in U, V.
  pose proof (row_dist p pt (Qfloor u) R) as A. pose proof (col_dist p pt (Qfloor v) C) as B. fold u in A. fold v in B. unfold qz in *.
  unfold between. split; [lra|]. split; [lra|]. split; [rewrite B|rewrite A]; ring.
Qed.

Lemma ofnat_sub1 : forall n, (1 <= n)%Z -> inject_Z (Z.of_nat (Z.to_nat (n - 1))) == inject_Z n - 1.
Proof. intros n H. rewrite Z2Nat.id by lia. unfold Z.sub. rewrite inject_Z_plus. reflexivity. Qed.

Lemma bilinear_at_value : forall ztol p img pt, sound p -> (2 <= p_rows p)%Z -> (2 <= p_cols p)%Z -> 0 < ztol -> 2 * ztol < p_psr p -> 2 * ztol < p_psc p ->
  table_shape img (p_rows p) (p_cols p) -> within_border p 0 0 pt -> off_last_strip ztol p pt ->
  exists v, bilinear_at ztol p img pt = Ok v /\ forall i j t s, between p i j t s pt -> v == blend p img i j t s.
Proof.
  intros ztol p img pt G R2 C2 Hz Zr Zc Sh [Wx Wy] [Ox Oy].
  pose proof G as [G1 [G2 [R C]]].
  apply Qabs_Qle_condition in Wx. apply Qabs_Qle_condition in Wy.
  assert (Ex : centre_x p (p_cols p - 1) == centre_x p 0 + inject_Z (Z.of_nat (Z.to_nat (p_cols p - 1))) * p_psc p).
  { rewrite ofnat_sub1 by lia. unfold centre_x. unfold Z.sub. rewrite inject_Z_plus. change (inject_Z (- (1))) with (- (1)). change (inject_Z 0) with 0. field. }
  assert (Ey : centre_y p (p_rows p - 1) == centre_y p 0 - inject_Z (Z.of_nat (Z.to_nat (p_rows p - 1))) * p_psr p).
  { rewrite ofnat_sub1 by lia. unfold centre_y. unfold Z.sub. rewrite inject_Z_plus. change (inject_Z (- (1))) with (- (1)). change (inject_Z 0) with 0. field. }
  assert (HiC : fst pt < centre_x p 0 + (inject_Z (Z.of_nat (Z.to_nat (p_cols p - 1))) + 1) * p_psc p).
  { rewrite ofnat_sub1 by lia. unfold centre_x. change (inject_Z 0) with 0.
    assert (E : p_psc p * (0 - (inject_Z (p_cols p) - 1) / 2) + (inject_Z (p_cols p) - 1 + 1) * p_psc p == inject_Z (p_cols p) * p_psc p / 2 + p_psc p / 2) by field.
    rewrite E. assert (0 < p_psc p / 2) by (apply Qlt_shift_div_l; lra). lra. }
  assert (HiR : centre_y p 0 - (inject_Z (Z.of_nat (Z.to_nat (p_rows p - 1))) + 1) * p_psr p < snd pt).
  { rewrite ofnat_sub1 by lia. unfold centre_y. change (inject_Z 0) with 0.
    assert (E : p_psr p * ((inject_Z (p_rows p) - 1) / 2 - 0) - (inject_Z (p_rows p) - 1 + 1) * p_psr p == - (inject_Z (p_rows p) * p_psr p / 2) - p_psr p / 2) by field.
    rewrite E. assert (0 < p_psr p / 2) by (apply Qlt_shift_div_l; lra). lra. }
  rewrite Ex in Ox. rewrite Ey in Oy.
  destruct (cell_dec_general ztol _ _ _ _ (snd pt) (row_edges p G1) ltac:(lia) Hz Zr HiR Oy) as [f [Ef [F1 F2]]].
  destruct (cell_inc_general ztol _ _ _ _ (fst pt) (col_edges p G2) ltac:(lia) Hz Zc HiC Ox) as [h [Eh [H1 [H2 _]]]].
  unfold bilinear_at. pose proof (row_dist p pt 0 R) as Dr. pose proof (col_dist p pt 0 C) as Dc.
  pose proof (coords_between p) as CB. specialize (fun i j t s => CB i j t s pt G).
  destruct (cartToPixel p pt) as [u w]. cbn [fst snd] in *. change (qz 0) with 0 in Dr, Dc.
  rewrite Ef, Eh. cbn [rbind]. rewrite !fix_index_nearest by assumption.
  rewrite !(pixel_in img _ _ _ _ Sh) by (apply nearest_range; assumption). cbn [rbind].
  eexists; split; [reflexivity|]. intros i j t s B. destruct (CB i j t s B) as [U W]. destruct B as [Bt [Bs _]].
  assert (F1' : inject_Z f <= u).
  { apply (Qmult_le_r _ _ (p_psr p) R). lra. }
  assert (F2' : u <= inject_Z f + 1) by (apply (Qmult_le_r _ _ (p_psr p) R); lra).
  assert (H1' : inject_Z h <= w) by (apply (Qmult_le_r _ _ (p_psc p) C); lra).
  assert (H2' : w <= inject_Z h + 1) by (apply (Qmult_le_r _ _ (p_psc p) C); lra).
  pose proof (fun g => cell_free g u f i F1' F2' ltac:(lra) ltac:(lra)) as KR.
  pose proof (fun g => cell_free g w h j H1' H2' ltac:(lra) ltac:(lra)) as KC.
  pose proof (KC (fun k => continued p img f k)) as K1. pose proof (KC (fun k => continued p img (f + 1) k)) as K2.
  pose proof (KR (fun m => lerp (w - inject_Z j) (continued p img m j) (continued p img m (j + 1)))) as K3.
  cbv beta in K1, K2, K3. 
  assert (Et : u - inject_Z i == t) by lra. assert (Es : w - inject_Z j == s) by lra. 
  unfold blend, lerp in *. rewrite Et in K3. rewrite Es in K1, K2, K3.
  rewrite <- K3, <- K1, <- K2. unfold continued, qz. rewrite !inject_Z_plus. change (inject_Z 1) with 1. ring.
Qed.

(** the exact cell *)
Lemma cell_same : forall d k i u, 0 < d -> inject_Z k * d < u -> u <= (inject_Z k + 1) * d -> inject_Z i * d < u -> u <= (inject_Z i + 1) * d -> k = i.
Proof.
  intros d k i u H A B C D. assert (X : (k < i + 1)%Z) by (apply (scale_lt _ _ d); [lra|]; rewrite inject_Z_plus; change (inject_Z 1) with 1; lra).
  assert (Y : (i < k + 1)%Z) by (apply (scale_lt _ _ d); [lra|]; rewrite inject_Z_plus; change (inject_Z 1) with 1; lra). lia.
Qed.
Lemma cell_same' : forall d k i u, 0 < d -> inject_Z k * d <= u -> u < (inject_Z k + 1) * d -> inject_Z i * d <= u -> u < (inject_Z i + 1) * d -> k = i.
Proof.
  intros d k i u H A B C D. assert (X : (k < i + 1)%Z) by (apply (scale_lt _ _ d); [lra|]; rewrite inject_Z_plus; change (inject_Z 1) with 1; lra).
  assert (Y : (i < k + 1)%Z) by (apply (scale_lt _ _ d); [lra|]; rewrite inject_Z_plus; change (inject_Z 1) with 1; lra). lia.
Qed.
