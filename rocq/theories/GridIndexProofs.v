From Coq Require Import QArith Qround Qabs Lqa Qfield Sorted.
From Verif Require Import Prelude GridModel GridSpec GridProofs.
Local Open Scope Q_scope.

(** ** cellIndices *)
Lemma inj_le : forall a b, (a <= b)%Z -> inject_Z a <= inject_Z b.
Proof. intros a b H; unfold Qle; cbn; lia. Qed.
Lemma inj_lt_inv : forall a b, inject_Z a < inject_Z b -> (a < b)%Z.
Proof. intros a b H; unfold Qlt in H; cbn in H; lia. Qed.
Lemma inj_le_inv : forall a b, inject_Z a <= inject_Z b -> (a <= b)%Z.
Proof. intros a b H; unfold Qle in H; cbn in H; lia. Qed.
Lemma last_nth_q : forall (l : list Q) d n, length l = S n -> last l d = nth n l d.
Proof.
  induction l as [|a l IH]; intros d n H; [discriminate|]. injection H as H.
  destruct l as [|b l]; [cbn in H; subst n; reflexivity|].
  destruct n as [|n]; [discriminate|]. exact (IH d n H).
Qed.

Lemma edges_cons : forall e0 d n l, regular_edges e0 d n l -> (1 <= n)%nat ->
  exists a b r, l = a :: b :: r /\ a == e0 /\ b - a == d /\ last l 0 == e0 + inject_Z (Z.of_nat n) * d.
Proof.
  intros e0 d n l [L E] H. destruct l as [|a [|b r]]; cbn in L; try lia.
  exists a, b, r. pose proof (E 0%nat ltac:(lia)) as E0. pose proof (E 1%nat H) as E1. pose proof (E n ltac:(lia)) as En.
  cbn [nth] in E0, E1. change (Z.of_nat 0) with 0%Z in E0. change (Z.of_nat 1) with 1%Z in E1.
  split; [reflexivity|]. split; [rewrite E0; ring|]. split; [rewrite E0, E1; ring|].
  rewrite (last_nth_q (a :: b :: r) 0 n L). exact En.
Qed.

(** the floor of a quotient as a cell *)
Lemma div_mult : forall y d, ~ d == 0 -> y / d * d == y.
Proof. intros; field; assumption. Qed.
Lemma floor_cell : forall y d, 0 < d -> inject_Z (Qfloor (y / d)) * d <= y /\ y < (inject_Z (Qfloor (y / d)) + 1) * d.
Proof.
  intros y d H. pose proof (Qfloor_le (y / d)) as A. pose proof (Qlt_floor (y / d)) as B. rewrite inject_Z_plus in B.
  change (inject_Z 1) with 1 in B.
  assert (N : ~ d == 0) by lra. pose proof (div_mult y d N) as E. set (q := y / d) in *. clearbody q.
  pose proof (Qmult_le_compat_r _ _ d A (Qlt_le_weak _ _ H)). pose proof (Qmult_lt_compat_r _ _ d H B). lra.
Qed.
Lemma ceil_cell : forall y d, d < 0 -> inject_Z (Qceiling (y / d)) * d <= y /\ y < (inject_Z (Qceiling (y / d)) - 1) * d.
Proof.
  intros y d H. pose proof (Qle_ceiling (y / d)) as A. pose proof (Qceiling_lt (y / d)) as B.
  unfold Z.sub in B. rewrite inject_Z_plus in B. change (inject_Z (- (1))) with (- (1)) in B.
  assert (N : ~ d == 0) by lra. pose proof (div_mult y d N) as E. set (q := y / d) in *. clearbody q.
  assert (H' : 0 < - d) by lra.
  pose proof (Qmult_le_compat_r _ _ (- d) A (Qlt_le_weak _ _ H')). pose proof (Qmult_lt_compat_r _ _ (- d) H' B). lra.
Qed.

Lemma cell_index_inc : forall ztol a b r x, 0 < b - a ->
  cell_index ztol (a :: b :: r) x = Ok (Qfloor (((if Qle_bool (last (a :: b :: r) 0 - ztol) x then x - ztol else x) - a) / (b - a))).
Proof.
  intros ztol a b r x H. unfold cell_index. apply Qle_bool_false in H. rewrite H. reflexivity.
Qed.
Lemma cell_index_dec : forall ztol a b r x, b - a < 0 ->
  cell_index ztol (a :: b :: r) x = Ok (Qceiling (((if Qle_bool x (last (a :: b :: r) 0 + ztol) then x + ztol else x) - a) / (b - a))%Q - 1)%Z.
Proof.
  intros ztol a b r x H. unfold cell_index.
  assert (A : Qle_bool (b - a) 0 = true) by (apply Qle_bool_iff; lra). rewrite A. cbn [negb].
  apply Qle_bool_false in H. rewrite H. reflexivity.
Qed.

(** bounds on an integer from bounds on scaled values *)
Lemma scale_lt : forall k n d, 0 < d -> inject_Z k * d < inject_Z n * d -> (k < n)%Z.
Proof.
  intros k n d H L. apply inj_lt_inv. apply Qnot_le_lt; intros C.
  pose proof (Qmult_le_compat_r _ _ d C (Qlt_le_weak _ _ H)). lra.
Qed.

Theorem cell_index_inc_lemma : forall ztol e0 d n l x, regular_edges e0 d n l -> (1 <= n)%nat -> 0 < ztol -> 2 * ztol < d ->
  e0 <= x -> x <= nth n l 0 ->
  exists k, cell_index ztol l x = Ok (Z.of_nat k) /\ (k < n)%nat /\ nth k l 0 <= x /\ (x < nth (k + 1) l 0 \/ (k = n - 1)%nat).
Proof.
  intros ztol e0 d n l x R Hn Hz Hd Lo Hi.
  pose proof R as [Len E]. destruct (edges_cons _ _ _ _ R Hn) as [a [b [r [-> [Ea [Eb El]]]]]].
  rewrite cell_index_inc by lra. rewrite (E n (le_n _)) in Hi.
  set (L := a :: b :: r) in *.
  assert (N1 : inject_Z (Z.of_nat n) == inject_Z (Z.of_nat (n - 1)) + 1).
  { rewrite <- (inject_Z_plus _ 1). apply inject_Z_injective. lia. }
  assert (Npos : 0 <= inject_Z (Z.of_nat (n - 1))) by (apply (inj_le 0); lia).
  set (N := inject_Z (Z.of_nat (n - 1))) in *.
  set (x' := if Qle_bool (last L 0 - ztol) x then x - ztol else x).
  assert (B : e0 <= x' /\ x' < e0 + (N + 1) * d /\ x' <= x /\ (x' == x \/ (e0 + N * d <= x'))).
  { unfold x'. rewrite N1 in El, Hi. destruct (Qle_bool (last L 0 - ztol) x) eqn:S.
    - apply Qle_bool_iff in S. rewrite El in S. repeat split; [nra | nra | lra | right; nra].
    - apply Qle_bool_false in S. rewrite El in S. repeat split; [lra | lra | lra | left; reflexivity]. }
  destruct B as [B0 [B1 [B2 B3]]].
  destruct (floor_cell (x' - a) (b - a) ltac:(lra)) as [F1 F2].
  set (k := Qfloor ((x' - a) / (b - a))) in *.
  assert (E1 : inject_Z k * d <= x' - e0). { rewrite Eb, Ea in F1. exact F1. }
  assert (E2 : x' - e0 < (inject_Z k + 1) * d). { rewrite Eb, Ea in F2. exact F2. }
  assert (K0 : (0 <= k)%Z).
  { assert (-1 < k)%Z; [|lia]. apply (scale_lt _ _ d); [lra|]. change (inject_Z (-1)) with (-1). nra. }
  assert (Kn : (k < Z.of_nat n)%Z). { apply (scale_lt _ _ d); [lra|]. rewrite N1. lra. }
  exists (Z.to_nat k). assert (Ek : Z.of_nat (Z.to_nat k) = k) by lia.
  split; [f_equal; lia|]. split; [lia|].
  split.
  { rewrite E by lia. rewrite Ek. lra. }
  destruct B3 as [B3|B3].
  - left. rewrite E by lia.
    assert (Es : inject_Z (Z.of_nat (Z.to_nat k + 1)) == inject_Z k + 1).
    { rewrite <- (inject_Z_plus _ 1). apply inject_Z_injective. lia. }
    rewrite Es. lra.
  - right. assert (Z.of_nat (n - 1) < k + 1)%Z; [|lia].
    apply (scale_lt _ _ d); [lra|]. fold N. rewrite inject_Z_plus. change (inject_Z 1) with 1. lra.
Qed.

Theorem cell_index_out_lemma : forall ztol e0 d n l x, regular_edges e0 d n l -> (1 <= n)%nat -> 0 < ztol -> 2 * ztol < d ->
  (x < e0 -> exists k, cell_index ztol l x = Ok k /\ (k < 0)%Z) /\
  (nth n l 0 + ztol <= x -> exists k, cell_index ztol l x = Ok k /\ (Z.of_nat n <= k)%Z).
Proof.
  intros ztol e0 d n l x R Hn Hz Hd.
  pose proof R as [Len E]. destruct (edges_cons _ _ _ _ R Hn) as [a [b [r [-> [Ea [Eb El]]]]]].
  rewrite cell_index_inc by lra. rewrite (E n (le_n _)).
  set (L := a :: b :: r) in *.
  set (x' := if Qle_bool (last L 0 - ztol) x then x - ztol else x).
  destruct (floor_cell (x' - a) (b - a) ltac:(lra)) as [F1 F2].
  set (k := Qfloor ((x' - a) / (b - a))) in *.
  rewrite Eb, Ea in F1, F2. clearbody k.
  split; intros H; exists k; (split; [reflexivity|]).
  - apply (scale_lt _ _ d); [lra|]. change (inject_Z 0) with 0.
    assert (x' <= x) by (unfold x'; destruct (Qle_bool _ _); lra). lra.
  - assert (Z.of_nat n < k + 1)%Z; [|lia]. apply (scale_lt _ _ d); [lra|].
    rewrite inject_Z_plus. change (inject_Z 1) with 1.
    assert (inject_Z (Z.of_nat n) * d <= x' - e0); [|lra].
    unfold x'; destruct (Qle_bool _ _); lra.
Qed.

Theorem cell_index_dec_lemma : forall ztol e0 d n l x, regular_edges e0 d n l -> (1 <= n)%nat -> 0 < ztol -> d < - (2 * ztol) ->
  nth n l 0 <= x -> x < e0 ->
  exists k, cell_index ztol l x = Ok (Z.of_nat k) /\ (k < n)%nat /\ nth (k + 1) l 0 <= x /\ x < nth k l 0.
Proof.
  intros ztol e0 d n l x R Hn Hz Hd Lo Hi.
  pose proof R as [Len E]. destruct (edges_cons _ _ _ _ R Hn) as [a [b [r [-> [Ea [Eb El]]]]]].
  rewrite cell_index_dec by lra. rewrite (E n (le_n _)) in Lo.
  set (L := a :: b :: r) in *.
  assert (N1 : inject_Z (Z.of_nat n) == inject_Z (Z.of_nat (n - 1)) + 1).
  { rewrite <- (inject_Z_plus _ 1). apply inject_Z_injective. lia. }
  assert (Npos : 0 <= inject_Z (Z.of_nat (n - 1))) by (apply (inj_le 0); lia).
  set (N := inject_Z (Z.of_nat (n - 1))) in *.
  set (x' := if Qle_bool x (last L 0 + ztol) then x + ztol else x).
  assert (B : x' < e0 /\ e0 + (N + 1) * d <= x' /\ x <= x' /\ (x' == x \/ (x' < e0 + N * d))).
  { unfold x'. rewrite N1 in El, Lo. destruct (Qle_bool x (last L 0 + ztol)) eqn:S.
    - apply Qle_bool_iff in S. rewrite El in S. repeat split; [nra | nra | lra | right; nra].
    - apply Qle_bool_false in S. rewrite El in S. repeat split; [lra | lra | lra | left; reflexivity]. }
  destruct B as [B0 [B1 [B2 B3]]].
  destruct (ceil_cell (x' - a) (b - a) ltac:(lra)) as [F1 F2].
  set (c := Qceiling ((x' - a) / (b - a))) in *.
  rewrite Eb, Ea in F1, F2. clearbody c.
  assert (K0 : (0 < c)%Z). { apply (scale_lt _ _ (- d)); [lra|]. change (inject_Z 0) with 0. lra. }
  assert (Kn : (c < Z.of_nat n + 1)%Z).
  { apply (scale_lt _ _ (- d)); [lra|]. rewrite inject_Z_plus, N1. change (inject_Z 1) with 1. lra. }
  exists (Z.to_nat (c - 1)).
  split; [f_equal; lia|]. split; [lia|].
  assert (Es : inject_Z (Z.of_nat (Z.to_nat (c - 1) + 1)) == inject_Z c) by (apply inject_Z_injective; lia).
  assert (Ek : inject_Z (Z.of_nat (Z.to_nat (c - 1))) == inject_Z c - 1).
  { setoid_replace (inject_Z c - 1) with (inject_Z (c + -1)) by (rewrite inject_Z_plus; reflexivity). apply inject_Z_injective. lia. }
  split; rewrite E by lia; rewrite ?Es, ?Ek.
  - destruct B3 as [B3|B3]; [lra|].
    assert (Z.of_nat (n - 1) < c)%Z. { apply (scale_lt _ _ (- d)); [lra|]. fold N. lra. }
    assert (c = Z.of_nat n) by lia. subst c. lra.
  - lra.
Qed.
Theorem cell_index_first_lemma : forall ztol e0 d n l, regular_edges e0 d n l -> (1 <= n)%nat -> 0 < ztol -> d < - (2 * ztol) ->
  cell_index ztol l e0 = Ok (-1)%Z.
Proof.
  intros ztol e0 d n l R Hn Hz Hd.
  destruct (edges_cons _ _ _ _ R Hn) as [a [b [r [-> [Ea [Eb El]]]]]].
  rewrite cell_index_dec by lra.
  assert (1 <= inject_Z (Z.of_nat n)) by (apply (inj_le 1); lia).
  assert (S : Qle_bool e0 (last (a :: b :: r) 0 + ztol) = false) by (apply Qle_bool_false; nra).
  rewrite S. f_equal.
  assert (Z : (e0 - a) / (b - a) == 0). { rewrite Ea. field. lra. }
  rewrite Z. reflexivity.
Qed.

(** ** make_tolerance_grid *)
Lemma qmin_le : forall a b, qmin a b <= a /\ qmin a b <= b /\ (0 < a -> 0 < b -> 0 < qmin a b).
Proof.
  intros a b; unfold qmin. destruct (Qle_bool a b) eqn:E; cbn [negb].
  - apply Qle_bool_iff in E; repeat split; lra || auto.
  - apply Qle_bool_false in E; repeat split; lra || auto.
Qed.
Lemma zrange_len0 : forall n, (0 <= n)%Z -> length (zrange 0 n) = Z.to_nat n.
Proof. intros; rewrite zrange_length; f_equal; lia. Qed.
Lemma zrange_nth_gen : forall (f : Z -> Q) n i, (i < Z.to_nat n)%nat -> nth i (map f (zrange 0 n)) 0 = f (Z.of_nat i).
Proof.
  intros f n i H. unfold zrange. rewrite map_map.
  assert (L : (i < length (map (fun k : nat => f (0 + Z.of_nat k)%Z) (seq 0 (Z.to_nat (n - 0)))))%nat) by (rewrite map_length, seq_length; lia).
  rewrite (nth_indep _ 0 ((fun k : nat => f (0 + Z.of_nat k)%Z) 0%nat) L).
  rewrite (map_nth (fun k : nat => f (0 + Z.of_nat k)%Z) _ 0%nat i). rewrite seq_nth by lia. f_equal.
Qed.
Lemma ceil_div : forall w b, 0 < b -> b <= w -> (1 <= Qceiling (w / b))%Z /\ w <= inject_Z (Qceiling (w / b)) * b /\ inject_Z (Qceiling (w / b)) * b < w + b.
Proof.
  intros w b Hb Hw. pose proof (Qle_ceiling (w / b)) as A. pose proof (Qceiling_lt (w / b)) as B.
  unfold Z.sub in B. rewrite inject_Z_plus in B. change (inject_Z (- (1))) with (- (1)) in B.
  assert (N : ~ b == 0) by lra. pose proof (div_mult w b N) as E. set (q := w / b) in *. set (c := Qceiling q) in *. clearbody c. clearbody q.
  pose proof (Qmult_le_compat_r _ _ b A (Qlt_le_weak _ _ Hb)). pose proof (Qmult_lt_compat_r _ _ b Hb B).
  assert (C1 : (0 < c)%Z). { apply (scale_lt _ _ b Hb). change (inject_Z 0) with 0. lra. }
  repeat split; [lia | lra | lra].
Qed.

Theorem tolerance_grid_lemma : forall bin window subdiv adjust, 0 < bin -> 0 < window -> (1 <= subdiv)%Z ->
  exists N g W s, tolerance_grid bin window subdiv adjust false = Ok (Z.of_nat N, g) /\
    length g = S N /\ (1 <= N)%nat /\
    (forall i, (i <= N)%nat -> nth i g 0 == - (1 # 2) * W + inject_Z (Z.of_nat i) * s) /\
    s * inject_Z (Z.of_nat N) == W /\ 0 < s /\ s * inject_Z subdiv <= bin /\
    (adjust = false -> W = window) /\
    (adjust = true -> window <= W /\ W < window + bin /\ exists q, W == inject_Z q * qmin bin window).
Proof.
  intros bin window subdiv adjust Hb Hw Hs.
  destruct (qmin_le bin window) as [M1 [M2 M3]]. specialize (M3 Hb Hw). set (b := qmin bin window) in *.
  set (W := if adjust then inject_Z (Qceiling (window / b)) * b else window).
  destruct (ceil_div window b M3 M2) as [C1 [C2 C3]].
  assert (Wb : b <= W) by (unfold W; destruct adjust; lra).
  destruct (ceil_div W b M3 Wb) as [D1 [D2 D3]].
  set (ND := (subdiv * Qceiling (W / b))%Z).
  assert (ND1 : (1 <= ND)%Z) by (unfold ND; nia).
  assert (NDp : 1 <= inject_Z ND) by (apply (inj_le 1); exact ND1).
  exists (Z.to_nat ND), (map (fun i => inject_Z i * W / inject_Z ND - (1 # 2) * W) (zrange 0 (ND + 1))), W, (W / inject_Z ND).
  assert (En : Z.of_nat (Z.to_nat ND) = ND) by lia.
  split.
  { unfold tolerance_grid. fold b. assert (Qeq_bool b 0 = false) as ->.
    { destruct (Qeq_bool b 0) eqn:E; [apply Qeq_bool_iff in E; lra | reflexivity]. }
    fold W. cbv zeta iota. fold ND. rewrite En. reflexivity. }
  split; [rewrite map_length, zrange_len0 by lia; lia|].
  split; [lia|].
  split.
  { intros i Hi. rewrite zrange_nth_gen by lia. field. lra. }
  split. { rewrite En. field. lra. }
  split. { unfold Qdiv. apply Qmult_lt_0_compat; [lra | apply Qinv_lt_0_compat; lra]. }
  split.
  { (* W / (subdiv * c) * subdiv = W / c <= b *)
    set (c := Qceiling (W / b)) in *.
    assert (Ec : inject_Z ND == inject_Z subdiv * inject_Z c) by (unfold ND; rewrite inject_Z_mult; reflexivity).
    assert (Sp : 1 <= inject_Z subdiv) by (apply (inj_le 1); exact Hs). assert (Cp : 1 <= inject_Z c) by (apply (inj_le 1); exact D1).
    assert (E1 : W / inject_Z ND * inject_Z subdiv == W / inject_Z c) by (rewrite Ec; field; split; lra).
    rewrite E1. apply Qle_shift_div_r; [lra|]. nra. }
  split; [intros ->; reflexivity|].
  intros ->. unfold W. repeat split; [exact C2 | lra | exists (Qceiling (window / b)); reflexivity].
Qed.
Theorem tolerance_grid_one_sided_lemma : forall bin window subdiv adjust, 0 < bin -> 0 < window ->
  exists N g b, tolerance_grid bin window subdiv adjust true = Ok (Z.of_nat (2 * N), g) /\ b = qmin bin window /\
    length g = (2 * N + 1)%nat /\ (1 <= N)%nat /\
    (forall i, (i <= 2 * N)%nat -> nth i g 0 == (inject_Z (Z.of_nat i) - inject_Z (Z.of_nat N)) * b) /\
    (adjust = false -> inject_Z (Z.of_nat N) * b <= window /\ window < inject_Z (Z.of_nat N) * b + b) /\
    (adjust = true -> window <= inject_Z (Z.of_nat N) * b /\ inject_Z (Z.of_nat N) * b < window + b).
Proof.
  intros bin window subdiv adjust Hb Hw.
  destruct (qmin_le bin window) as [M1 [M2 M3]]. specialize (M3 Hb Hw).
  set (b := qmin bin window) in *.
  set (W := if adjust then inject_Z (Qceiling (window / b)) * b else window).
  destruct (ceil_div window b M3 M2) as [C1 [C2 C3]].
  assert (Wb : b <= W) by (unfold W; destruct adjust; lra).
  assert (T : qtrunc (W / b) = Qfloor (W / b)).
  { unfold qtrunc. assert (Qle_bool 0 (W / b) = true) as ->; [|reflexivity].
    apply Qle_bool_iff. apply Qle_shift_div_l; lra. }
  destruct (floor_cell W b M3) as [F1 F2].
  set (k := Qfloor (W / b)) in *.
  assert (K0 : (0 < k)%Z).
  { assert (1 < k + 1)%Z; [|lia]. apply (scale_lt _ _ b M3). rewrite inject_Z_plus. change (inject_Z 1) with 1. lra. }
  assert (Ek : Z.of_nat (Z.to_nat (Z.abs k)) = k) by lia.
  exists (Z.to_nat (Z.abs k)), (map (fun i => inject_Z (i - Z.abs k) * b) (zrange 0 (2 * Z.abs k + 1))), b.
  split.
  { unfold tolerance_grid. fold b. assert (Qeq_bool b 0 = false) as ->.
    { destruct (Qeq_bool b 0) eqn:E; [apply Qeq_bool_iff in E; lra | reflexivity]. }
    fold W. cbv zeta iota. rewrite T. fold k. assert (EN : Z.of_nat (2 * Z.to_nat (Z.abs k)) = (Z.abs k * 2)%Z) by lia. rewrite EN. reflexivity. }
  split; [reflexivity|].
  split; [rewrite map_length, zrange_len0 by lia; lia|].
  split; [lia|].
  split.
  { intros i Hi. rewrite zrange_nth_gen by lia. unfold Z.sub. rewrite inject_Z_plus, inject_Z_opp. rewrite Ek.
    rewrite (Z.abs_eq k) by lia. ring. }
  rewrite Ek. clearbody k. split; intros ->; unfold W in F1, F2.
  - split; [exact F1 | lra].
  - (* W is a multiple of b *)
    assert (G : k = Qceiling (window / b)).
    { assert (A : (k < Qceiling (window / b) + 1)%Z).
      { apply (scale_lt _ _ b M3). rewrite inject_Z_plus. change (inject_Z 1) with 1. lra. }
      assert (B : (Qceiling (window / b) < k + 1)%Z).
      { apply (scale_lt _ _ b M3). rewrite inject_Z_plus. change (inject_Z 1) with 1. lra. }
      lia. }
    rewrite G. split; [exact C2 | exact C3].
Qed.

(** ** findDuplicateVectors *)
Lemma dup_close_iff : forall tol pm a b, dup_close tol pm a b = true <-> close tol pm a b.
Proof.
  intros tol pm a b. unfold dup_close, close.
  assert (L : forall x, negb (Qle_bool tol x) = true <-> x < tol).
  { intros x. destruct (Qle_bool tol x) eqn:E; cbn [negb].
    - apply Qle_bool_iff in E. split; [discriminate | lra].
    - apply Qle_bool_false in E. tauto. }
  destruct pm; cbv zeta beta.
  - rewrite orb_true_iff, !L. unfold vdist, vneg, dist1, qsum. tauto.
  - rewrite L. unfold vdist, dist1, qsum. split; [auto | intros [H|[H _]]; [exact H | discriminate]].
Qed.
Lemma existsb_in : forall x l, existsb (Nat.eqb x) l = true <-> In x l.
Proof.
  intros x l. rewrite existsb_exists. split.
  - intros [y [H E]]. apply Nat.eqb_eq in E. subst; exact H.
  - intros H; exists x; split; [exact H | apply Nat.eqb_refl].
Qed.
Lemma existsb_notin : forall x l, existsb (Nat.eqb x) l = false <-> ~ In x l.
Proof. intros x l. rewrite <- existsb_in. destruct (existsb _ l); split; congruence. Qed.

Lemma NoDup_app' : forall (l1 l2 : list nat), NoDup l1 -> NoDup l2 -> (forall x, In x l1 -> In x l2 -> False) -> NoDup (l1 ++ l2).
Proof.
  induction l1 as [|a l1 IH]; intros l2 H1 H2 D; [exact H2|]. inversion H1 as [|? ? Na H1']; subst.
  cbn [app]. constructor.
  - intros K. apply in_app_or in K. destruct K as [K|K]; [contradiction | exact (D a (or_introl eq_refl) K)].
  - apply IH; auto. intros x A B; exact (D x (or_intror A) B).
Qed.

Section D.
Variables (tol : Q) (pm : bool) (vecs : list (list Q)).
Notation m := (length vecs).
Notation cl i j := (close tol pm (nth i vecs []) (nth j vecs [])).

Lemma in_dup_row : forall ii master jj, In jj (dup_row tol pm vecs ii master) <-> ((ii < jj < m)%nat /\ ~ In jj master /\ cl ii jj).
Proof.
  intros ii master jj. unfold dup_row. rewrite filter_In, in_seq, andb_true_iff, negb_true_iff, existsb_notin, dup_close_iff.
  split; intros [A B]; (split; [lia | tauto]).
Qed.
Lemma NoDup_filter' : forall A (f : A -> bool) l, NoDup l -> NoDup (filter f l).
Proof. intros; apply NoDup_filter; assumption. Qed.

Lemma dup_loop_cons : forall ii r master, dup_loop tol pm vecs (ii :: r) master =
  (let row := dup_row tol pm vecs ii master in let '(rows, ms) := dup_loop tol pm vecs r (master ++ row) in (row :: rows, ms)).
Proof. reflexivity. Qed.

Lemma dup_loop_facts : forall iis master, let rows := fst (dup_loop tol pm vecs iis master) in
  length rows = length iis /\
  (forall t jj, In jj (nth t rows []) -> (t < length iis)%nat /\ (nth t iis 0%nat < jj < m)%nat /\ cl (nth t iis 0%nat) jj) /\
  NoDup (concat rows) /\ (forall jj, In jj (concat rows) -> ~ In jj master) /\
  (forall ii jj, In ii iis -> (ii < jj < m)%nat -> cl ii jj -> In jj master \/ In jj (concat rows)).
Proof.
  induction iis as [|ii r IH]; intros master rows; subst rows.
  - cbn [dup_loop fst]. split; [reflexivity|]. split; [intros [|t] jj []|]. split; [constructor|]. split; [intros jj []|]. intros ii jj [].
  - rewrite dup_loop_cons. cbv zeta. set (row := dup_row tol pm vecs ii master).
    specialize (IH (master ++ row)). cbv zeta in IH. destruct (dup_loop tol pm vecs r (master ++ row)) as [rows ms]. cbn [fst] in *.
    destruct IH as [L [A [N [D C]]]].
    split; [cbn; congruence|].
    split.
    { intros [|t] jj H; cbn [nth] in *.
      - apply in_dup_row in H. split; [cbn; lia | tauto].
      - apply A in H. split; [cbn; lia | tauto]. }
    split.
    { cbn [concat]. apply NoDup_app'; [apply NoDup_filter, seq_NoDup | exact N |].
      intros x Hx Hx'. apply (D x Hx'). apply in_or_app; right; exact Hx. }
    split.
    { intros jj H. cbn [concat] in H. apply in_app_or in H. destruct H as [H|H].
      - apply in_dup_row in H. tauto.
      - intros C'. apply (D jj H). apply in_or_app; left; exact C'. }
    intros i jj [<-|Hi] Hr Hc.
    + destruct (in_dec Nat.eq_dec jj master) as [I|I]; [left; exact I | right].
      cbn [concat]. apply in_or_app; left. apply in_dup_row. tauto.
    + destruct (C i jj Hi Hr Hc) as [K|K].
      * apply in_app_or in K. destruct K as [K|K]; [left; exact K | right; cbn [concat]; apply in_or_app; left; exact K].
      * right; cbn [concat]; apply in_or_app; right; exact K.
Qed.

Lemma in_concat_nth : forall (rows : list (list nat)) x, In x (concat rows) -> exists t, (t < length rows)%nat /\ In x (nth t rows []).
Proof.
  induction rows as [|r rows IH]; intros x H; [destruct H|].
  cbn [concat] in H. apply in_app_or in H. destruct H as [H|H].
  - exists 0%nat; split; [cbn; lia | exact H].
  - destruct (IH x H) as [t [Ht K]]. exists (S t); split; [cbn; lia | exact K].
Qed.
Lemma seq_sorted : forall n a, StronglySorted lt (seq a n).
Proof.
  induction n as [|n IH]; intros a; constructor; [apply IH|]. apply Forall_forall. intros x H; apply in_seq in H; lia.
Qed.
Lemma filter_sorted : forall (f : nat -> bool) l, StronglySorted lt l -> StronglySorted lt (filter f l).
Proof.
  intros f l H; induction H as [|a l H IH F]; [constructor|]. cbn [filter]. destruct (f a); [|exact IH].
  constructor; [exact IH|]. apply Forall_forall. intros x Hx. apply filter_In in Hx. rewrite Forall_forall in F. apply F; tauto.
Qed.
Lemma eqv_rows : forall (iis : list nat) (rows : list (list nat)), length rows = length iis ->
  forall g, In g (flat_map (fun ir : nat * list nat => match snd ir with [] => [] | v => [fst ir :: v] end) (combine iis rows)) <->
   exists t, (t < length iis)%nat /\ nth t rows [] <> [] /\ g = nth t iis 0%nat :: nth t rows [].
Proof.
  induction iis as [|i iis IH]; intros [|r rows] L g; try discriminate.
  - cbn; split; [intros [] | intros [t [H _]]; lia].
  - injection L as L. cbn [combine flat_map]. rewrite in_app_iff. rewrite (IH rows L g). cbn [fst snd]. split.
    + intros [H|[t [Ht [A B]]]].
      * exists 0%nat. cbn [nth length]. destruct r as [|x r]; [destruct H|]. destruct H as [<-|[]].
        split; [lia | split; [discriminate | reflexivity]].
      * exists (S t); cbn [nth length]; split; [lia | tauto].
    + intros [[|t] [Ht [A B]]]; cbn [nth] in *.
      * left. subst g. destruct r as [|x r]; [congruence | left; reflexivity].
      * right. exists t; cbn [length] in Ht; split; [lia | tauto].
Qed.
Lemma eqv_tails : forall (iis : list nat) (rows : list (list nat)), length rows = length iis ->
  concat (map (@tl nat) (flat_map (fun ir : nat * list nat => match snd ir with [] => [] | v => [fst ir :: v] end) (combine iis rows))) = concat rows.
Proof.
  induction iis as [|i iis IH]; intros [|r rows] L; try discriminate; [reflexivity|].
  injection L as L. cbn [combine flat_map]. rewrite map_app, concat_app, (IH rows L). cbn [fst snd concat].
  f_equal. destruct r; [reflexivity|]. cbn. rewrite app_nil_r. reflexivity.
Qed.

Theorem dup_lemma : let eqv := fst (find_duplicates tol pm vecs) in let uid := snd (find_duplicates tol pm vecs) in
  StronglySorted lt uid /\ (forall i, In i uid -> (i < m)%nat) /\
  (forall i j, In i uid -> In j uid -> (i < j)%nat -> ~ cl i j) /\
  (forall j, (j < m)%nat -> In j uid \/ exists i js, In (i :: js) eqv /\ In j js) /\
  (forall g, In g eqv -> exists i js, g = i :: js /\ js <> [] /\ forall j, In j js -> (i < j < m)%nat /\ cl i j /\ ~ In j uid) /\
  NoDup (concat (map (@tl nat) eqv)).
Proof.
  intros eqv uid; subst eqv uid. unfold find_duplicates.
  pose proof (dup_loop_facts (seq 0 m) []) as F. cbv zeta in F.
  destruct (dup_loop tol pm vecs (seq 0 m) []) as [rows ms]. cbn [fst snd] in *.
  rewrite seq_length in F. destruct F as [L [A [N [_ C]]]].
  assert (Lr : length rows = length (seq 0 m)) by (rewrite seq_length; exact L).
  assert (U : forall i, In i (filter (fun u => negb (existsb (Nat.eqb u) (concat rows))) (seq 0 m)) <-> ((i < m)%nat /\ ~ In i (concat rows))).
  { intros i. rewrite filter_In, in_seq, negb_true_iff, existsb_notin. split; intros [X Y]; (split; [lia | exact Y]). }
  split; [apply filter_sorted, seq_sorted|].
  split; [intros i H; apply U in H; tauto|].
  split.
  { intros i j Hi Hj Lt Cl. apply U in Hi, Hj.
    destruct (C i j ltac:(apply in_seq; lia) ltac:(lia) Cl) as [[]|K]. tauto. }
  split.
  { intros j Hj. destruct (in_dec Nat.eq_dec j (concat rows)) as [I|I]; [right | left; apply U; tauto].
    destruct (in_concat_nth rows j I) as [t [Ht K]]. exists t, (nth t rows []). split; [|exact K].
    apply (eqv_rows (seq 0 m) rows Lr). exists t. rewrite seq_length. split; [lia|]. split; [intros E; rewrite E in K; destruct K|].
    rewrite seq_nth by lia. reflexivity. }
  split; [|rewrite (eqv_tails (seq 0 m) rows Lr); exact N].
  intros g Hg. apply (eqv_rows (seq 0 m) rows Lr) in Hg. destruct Hg as [t [Ht [Ne ->]]]. rewrite seq_length in Ht.
  exists (nth t (seq 0 m) 0%nat), (nth t rows []). split; [reflexivity|]. split; [exact Ne|].
  intros j Hj. destruct (A t j Hj) as [_ [B1 B2]]. split; [exact B1|]. split; [exact B2|].
  rewrite U. intros [_ K]. apply K. apply in_concat. exists (nth t rows []). split; [apply nth_In; lia | exact Hj].
Qed.

(** with transitive closeness, every removed vector is close to a kept one *)
Theorem dup_trans_lemma : (forall i j k, (i < m)%nat -> (j < m)%nat -> (k < m)%nat -> cl i j -> cl j k -> cl i k) ->
  forall j, (j < m)%nat -> ~ In j (snd (find_duplicates tol pm vecs)) -> exists i, In i (snd (find_duplicates tol pm vecs)) /\ (i < j)%nat /\ cl i j.
Proof.
  intros T. destruct dup_lemma as [_ [_ [_ [D [E _]]]]].
  assert (G : forall b j, (j < b)%nat -> (j < m)%nat -> ~ In j (snd (find_duplicates tol pm vecs)) -> exists i, In i (snd (find_duplicates tol pm vecs)) /\ (i < j)%nat /\ cl i j).
  { induction b as [|b IH]; intros j Hb Hj Hn; [lia|].
    destruct (D j Hj) as [K|[i [js [Hg Hjs]]]]; [contradiction|].
    destruct (E _ Hg) as [i' [js' [Eq [_ P]]]]. injection Eq as <- <-. destruct (P j Hjs) as [Lt [Cl _]].
    destruct (in_dec Nat.eq_dec i (snd (find_duplicates tol pm vecs))) as [I|I]; [exists i; repeat split; auto; lia|].
    destruct (IH i ltac:(lia) ltac:(lia) I) as [q [Q1 [Q2 Q3]]].
    exists q. split; [exact Q1|]. split; [lia|]. apply (T q i j); try lia; assumption. }
  intros j Hj Hn. apply (G (S j) j); auto.
Qed.
End D.
