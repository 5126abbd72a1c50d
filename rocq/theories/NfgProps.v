(** Grids, trial orientations, stitching and detector scans of the near field reconstruction *)
From Coq Require Import QArith Qround Lqa.
From Verif Require Import Prelude NfModel NfSpec NfProofs NfLoop NfGather NfgModel NfgSpec NfgProofs NfgMore.
Local Open Scope Q_scope.

Lemma ceil_count : forall x k, (k < Z.to_nat (Qceiling x))%nat <-> inject_Z (Z.of_nat k) < x.
Proof.
  intros x k. assert (E : (k < Z.to_nat (Qceiling x))%nat <-> (Z.of_nat k < Qceiling x)%Z) by lia. rewrite E. destruct (proj1 (ceiling_iff x (Qceiling x)) eq_refl) as [A B]. split; intros H.
  - assert (Z.of_nat k <= Qceiling x - 1)%Z as H' by lia. rewrite Zle_Qle in H'. unfold Zminus in H'. rewrite inject_Z_plus in H'. cbn in H'. change (inject_Z (-1)) with (-1) in H'. lra.
  - rewrite Zlt_Qlt. lra.
Qed.
Lemma div_lt : forall k x s, 0 < s -> (k < x / s <-> k * s < x).
Proof. intros k x s H. split; intros G; [|now apply Qlt_shift_div_l]. assert (E : x == x / s * s) by (field; lra). rewrite E. now apply Qmult_lt_compat_r. Qed.
Lemma arange_centres : forall lo hi s, 0 < s -> exists l, arange (lo + s / 2) hi s = Ok l /\ (forall k, (k < length l)%nat <-> middle lo s k < hi) /\ forall k x, nth_error l k = Some x -> x == middle lo s k.
Proof.
  intros lo hi s H. destruct (arange_lemma (lo + s / 2) hi s) as (l & E & L & N); [lra|]. exists l. split; auto. split.
  - intros k. rewrite L, ceil_count, div_lt by auto. unfold middle. assert (E2 : s / 2 == s * (1 # 2)) by field. rewrite E2. split; intros; lra.
  - intros k x X. rewrite (N k x X). unfold middle. field.
Qed.

(** the grid covers the cross section: its points are the centres of the voxels, one layer after the other *)
Theorem C147_voxels : forall d v0 v1 s, 0 < s -> ~ v0 == v1 ->
  exists n p pts, gen_nf_test_grid d (v0, v1) s = Ok pts /\
    is_grid (middle (- d / 2) s) n (middle v0 s) p (middle (- d / 2) s) n pts /\
    (forall k, (k < n)%nat <-> middle (- d / 2) s k < d / 2) /\ (forall k, (k < p)%nat <-> middle v0 s k < v1).
Proof.
  intros d v0 v1 s H D. unfold gen_nf_test_grid. destruct (arange_centres (- d / 2) (d / 2) s H) as (l & E & L & N). rewrite E. cbn [rbind fst snd]. rewrite Qeq_bool_false by auto.
  destruct (arange_centres v0 v1 s H) as (l' & E' & L' & N'). rewrite E'. cbn [rbind]. exists (length l), (length l'), (mesh l l' l). split; auto. split; [|auto]. apply mesh_grid; auto.
Qed.
(** a section of a whole number of voxels is filled *)
Theorem C147_filled : forall (n p : nat) v0 v1 s, 0 < s -> (0 < p)%nat -> v1 == v0 + inject_Z (Z.of_nat p) * s ->
  exists pts, gen_nf_test_grid (inject_Z (Z.of_nat n) * s) (v0, v1) s = Ok pts /\
    is_grid (middle (- (inject_Z (Z.of_nat n) * s) / 2) s) n (middle v0 s) p (middle (- (inject_Z (Z.of_nat n) * s) / 2) s) n pts.
Proof.
  intros n p v0 v1 s H P V. assert (P' : 1 <= inject_Z (Z.of_nat p)) by (change 1 with (inject_Z 1); rewrite <- Zle_Qle; lia).
  assert (KS : forall k m : nat, (inject_Z (Z.of_nat k) + (1 # 2)) * s < inject_Z (Z.of_nat m) * s <-> (k < m)%nat).
  { intros k m. split; intros G.
    - assert (inject_Z (Z.of_nat k) + (1 # 2) < inject_Z (Z.of_nat m)) as G' by nra. assert (inject_Z (Z.of_nat k) < inject_Z (Z.of_nat m)) as G2 by lra. rewrite <- Zlt_Qlt in G2. lia.
    - assert (inject_Z (Z.of_nat k) + 1 <= inject_Z (Z.of_nat m)) by (change 1 with (inject_Z 1); rewrite <- inject_Z_plus, <- Zle_Qle; lia). nra. }
  destruct (C147_voxels (inject_Z (Z.of_nat n) * s) v0 v1 s H) as (n' & p' & pts & E & G & A & B); [nra|]. exists pts. split; auto.
  assert (n' = n). { assert (X : forall k, (k < n')%nat <-> (k < n)%nat) by (intros k; rewrite A, <- KS; unfold middle; set (w := inject_Z (Z.of_nat n) * s); assert (E1 : - w / 2 == - (w * (1 # 2))) by field; assert (E2 : w / 2 == w * (1 # 2)) by field; rewrite E1, E2; clearbody w; split; intros; lra). destruct (Nat.lt_trichotomy n' n) as [Y|[Y|Y]]; auto; [apply X in Y|apply X in Y]; lia. }
  assert (p' = p). { assert (X : forall k, (k < p')%nat <-> (k < p)%nat) by (intros k; rewrite B, <- KS; unfold middle; split; intros; lra). destruct (Nat.lt_trichotomy p' p) as [Y|[Y|Y]]; auto; [apply X in Y|apply X in Y]; lia. }
  now subst.
Qed.
(** equal bounds mean one layer *)
Theorem C147_layer : forall d v0 v1 s, 0 < s -> v0 == v1 ->
  exists n pts, gen_nf_test_grid d (v0, v1) s = Ok pts /\ is_grid (middle (- d / 2) s) n (fun _ => v0) 1 (middle (- d / 2) s) n pts /\
    (forall k, (k < n)%nat <-> middle (- d / 2) s k < d / 2).
Proof.
  intros d v0 v1 s H D. unfold gen_nf_test_grid. destruct (arange_centres (- d / 2) (d / 2) s H) as (l & E & L & N). rewrite E. cbn [rbind fst snd]. rewrite Qeq_bool_true by auto.
  exists (length l), (mesh l [v0] l). split; auto. split; [|auto]. apply (mesh_grid l [v0] l); auto. intros [|[|j]] x X; cbn in X; try discriminate. injection X as <-. reflexivity.
Qed.
(** no voxel without a size; bounds in the wrong order give an empty grid and no error *)
Theorem C147_spacing : forall d v s, s == 0 -> gen_nf_test_grid d v s = Err ZeroDivisionError.
Proof. intros d v s H. unfold gen_nf_test_grid, arange. rewrite Qeq_bool_true by auto. reflexivity. Qed.
Theorem C147_reversed_refuted : ~ (forall d v0 v1 s, 0 < d -> 0 < s -> v1 < v0 -> exists e, gen_nf_test_grid d (v0, v1) s = Err e).
Proof. intros H. destruct (H 2 1 0 1 ltac:(lra) ltac:(lra) ltac:(lra)) as [e E]. vm_compute in E. discriminate. Qed.
(** evenly spaced samples with both ends *)
Theorem C147_samples : forall low top n, (2 <= n)%nat ->
  exists pts, generate_test_grid low top (Z.of_nat n) = Ok pts /\
    let f k := low + inject_Z (Z.of_nat k) * ((top - low) / inject_Z (Z.of_nat n - 1)) in is_grid f n f n f n pts /\ f 0%nat == low /\ f (n - 1)%nat == top.
Proof.
  intros low top n H. unfold generate_test_grid, linspace. destruct (Z.of_nat n <? 0)%Z eqn:E; [lia|]. destruct (Z.of_nat n =? 1)%Z eqn:E1; [lia|]. cbn [rbind]. eexists. split; [reflexivity|]. cbv zeta.
  assert (NZ : ~ inject_Z (Z.of_nat n - 1) == 0) by (change 0 with (inject_Z 0); rewrite inject_Z_injective; lia).
  set (c := map (fun k => low + inject_Z k * ((top - low) / inject_Z (Z.of_nat n - 1))) (zrange 0 (Z.of_nat n))).
  assert (L : length c = n) by (unfold c; rewrite map_length, zrange_length; lia).
  assert (N : forall k x, nth_error c k = Some x -> x == low + inject_Z (Z.of_nat k) * ((top - low) / inject_Z (Z.of_nat n - 1))).
  { intros k x X. unfold c in X. rewrite nth_map in X. destruct (nth_error (zrange 0 (Z.of_nat n)) k) as [z|] eqn:Z; [|discriminate]. injection X as <-. assert (K : (k < n)%nat) by (rewrite <- L; unfold c; rewrite map_length; apply nth_error_Some; congruence). rewrite nth_zrange in Z by lia. injection Z as <-. cbn [Z.add]. reflexivity. }
  split; [|split].
  - pose proof (mesh_grid c c c _ _ _ N N N) as G. rewrite L in G. exact G.
  - cbn [Z.of_nat]. change (inject_Z 0) with 0. ring.
  - replace (Z.of_nat (n - 1)) with (Z.of_nat n - 1)%Z by lia. field. auto.
Qed.
(** the grid for a tomographic mask starts at the edges of the voxels ... *)
Theorem C147_tomo_partial : forall (nx nz : nat) v0 v1 s, 0 < s -> ~ v0 == v1 ->
  exists p pts, gen_nf_test_grid_tomo (Z.of_nat nx) (Z.of_nat nz) (v0, v1) s = Ok pts /\ (forall k, (k < p)%nat <-> middle v0 s k < v1) /\
    is_grid (fun k => middle (- (inject_Z (Z.of_nat nx) * s) / 2) s k - s / 2) nx (middle v0 s) p (fun k => middle (- (inject_Z (Z.of_nat nz) * s) / 2) s k - s / 2) nz pts.
Proof.
  intros nx nz v0 v1 s H D. unfold gen_nf_test_grid_tomo. cbn [fst snd]. rewrite Qeq_bool_false by auto. destruct (arange_centres v0 v1 s H) as (l' & E' & L' & N'). rewrite E'. cbn [rbind].
  exists (length l'). eexists. split; [reflexivity|]. split; auto.
  assert (LX : forall n, length (map inject_Z (zrange 0 (Z.of_nat n))) = n) by (intros n; rewrite map_length, zrange_length; lia).
  assert (NX : forall n j x, nth_error (map inject_Z (zrange 0 (Z.of_nat n))) j = Some x -> x == inject_Z (Z.of_nat j)).
  { intros n j x X. assert (K : (j < n)%nat) by (rewrite <- (LX n); apply nth_error_Some; congruence). rewrite nth_map, nth_zrange in X by lia. injection X as <-. reflexivity. }
  destruct (mesh_grid (map inject_Z (zrange 0 (Z.of_nat nx))) l' (map inject_Z (zrange 0 (Z.of_nat nz))) (fun j => inject_Z (Z.of_nat j)) (middle v0 s) (fun j => inject_Z (Z.of_nat j)) (NX nx) N' (NX nz)) as [G1 G2]. rewrite !LX in *.
  split; [now rewrite map_length|]. intros i j k I J K. destruct (G2 i j k I J K) as (x & y & z & A & X & Y & Z). rewrite nth_map, A. exists ((x - inject_Z (Z.of_nat nx) / 2) * s), y, ((z - inject_Z (Z.of_nat nz) / 2) * s). split; auto. unfold middle. rewrite X, Z. repeat split; auto; field.
Qed.
(** ... so it is not the grid of the voxels of the same section *)
Theorem C147_tomo_refuted : ~ (forall (n p : nat) s pts, 0 < s -> (0 < p)%nat ->
  gen_nf_test_grid_tomo (Z.of_nat n) (Z.of_nat n) (0, inject_Z (Z.of_nat p) * s) s = Ok pts ->
  is_grid (middle (- (inject_Z (Z.of_nat n) * s) / 2) s) n (middle 0 s) p (middle (- (inject_Z (Z.of_nat n) * s) / 2) s) n pts).
Proof.
  intros H. specialize (H 2%nat 1%nat 1 _ ltac:(lra) ltac:(lia) eq_refl). destruct H as [_ H]. destruct (H 0%nat 0%nat 0%nat ltac:(lia) ltac:(lia) ltac:(lia)) as (x & y & z & E & X & _). vm_compute in E. injection E as <- <- <-. vm_compute in X. discriminate.
Qed.

(** ** C148 *)
Section Trial.
Variables (rad bnd spacing : Q) (m : nat).
Hypotheses (Hr : 0 < rad) (Hs : 0 < spacing) (Hb : bnd == inject_Z (Z.of_nat m) * spacing).
Lemma pts_lemma : exists l, arange (- (bnd * rad)) (bnd * rad + spacing * rad * (999 # 1000)) (spacing * rad) = Ok l /\ length l = (2 * m + 1)%nat /\ forall k x, nth_error l k = Some x -> x == inject_Z (Z.of_nat k - Z.of_nat m) * (spacing * rad).
Proof.
  assert (P : 0 < spacing * rad) by nra. destruct (arange_lemma (- (bnd * rad)) (bnd * rad + spacing * rad * (999 # 1000)) (spacing * rad)) as (l & E & L & N); [lra|]. exists l. split; auto. split.
  - rewrite L. rewrite (proj2 (ceiling_iff _ (2 * Z.of_nat m + 1))); [lia|].
    assert (EE : (bnd * rad + spacing * rad * (999 # 1000) - - (bnd * rad)) / (spacing * rad) == inject_Z (2 * Z.of_nat m) + (999 # 1000)). { rewrite Hb, inject_Z_mult. field. split; lra. }
    rewrite EE, inject_Z_plus. change (inject_Z 1) with 1. split; lra.
  - intros k x X. rewrite (N k x X), Hb. unfold Zminus. rewrite inject_Z_plus, inject_Z_opp. lra.
Qed.
Lemma steps_lemma : qtrunc (bnd / spacing) = Z.of_nat m.
Proof.
  assert (E : bnd / spacing == inject_Z (Z.of_nat m)) by (rewrite Hb; field; lra). unfold qtrunc. assert (0 <= inject_Z (Z.of_nat m)) by (change 0 with (inject_Z 0); rewrite <- Zle_Qle; lia).
  rewrite (proj2 (Qle_bool_iff _ _)) by (rewrite E; auto). apply floor_iff. rewrite E. split; lra.
Qed.
Lemma trial_form : forall ff comp chi2, exists pts, length pts = (2 * m + 1)%nat /\ (forall k x, nth_error pts k = Some x -> x == inject_Z (Z.of_nat k - Z.of_nat m) * (spacing * rad)) /\
  let cut := where_true (map (fun g => qlt comp (g_comp g) && qlt (g_chi2 g) chi2) ff) in
  trial_orientations rad ff comp chi2 bnd spacing =
    Ok (flat_map (fun e => map (fun o => qadd3 o e) (mesh pts pts pts)) (flat_map (fun i => match nth_error ff (Z.to_nat i) with Some g => [g_exp g] | None => [] end) cut),
        if (Z.of_nat m =? 0)%Z then cut else concat (repeat cut (27 * m))).
Proof.
  intros ff comp chi2. destruct pts_lemma as (l & E & L & N). exists l. split; auto. split; auto. cbv zeta. unfold trial_orientations. rewrite Qeq_bool_false by lra. rewrite E. cbn [rbind]. rewrite steps_lemma. unfold tile. destruct (Z.of_nat m =? 0)%Z eqn:Z0; [reflexivity|]. destruct (27 * Z.of_nat m <? 0)%Z eqn:Z1; [lia|]. cbn [rbind]. do 4 f_equal. lia.
Qed.
End Trial.
Lemma exp_maps_lemma : forall ff comp chi2 cut, selected ff comp chi2 cut ->
  length (flat_map (fun i => match nth_error ff (Z.to_nat i) with Some g => [g_exp g] | None => [] end) cut) = length cut /\
  forall q gi g, nth_error cut q = Some gi -> nth_error ff (Z.to_nat gi) = Some g -> nth_error (flat_map (fun i => match nth_error ff (Z.to_nat i) with Some g => [g_exp g] | None => [] end) cut) q = Some (g_exp g).
Proof.
  intros ff comp chi2 cut [_ H]. assert (L : forall a, In a cut -> length (match nth_error ff (Z.to_nat a) with Some g => [g_exp g] | None => [] end) = 1%nat) by (intros a A; apply H in A; destruct A as (_ & g & G & _); now rewrite G). split.
  - rewrite (flat_length _ _ _ 1); auto. lia.
  - intros q gi g E G. replace q with (q * 1 + 0)%nat by lia. rewrite (flat_nth _ _ _ 1 cut q 0 gi L ltac:(lia) E), G. reflexivity.
Qed.
(** around every grain that is complete enough and fits well enough the whole cube of misorientations is tried *)
Theorem C148_orientations : forall rad ff comp chi2 bnd spacing (m : nat), 0 < rad -> 0 < spacing -> bnd == inject_Z (Z.of_nat m) * spacing ->
  exists cut oris ids, trial_orientations rad ff comp chi2 bnd spacing = Ok (oris, ids) /\ selected ff comp chi2 cut /\
    length oris = (length cut * ((2 * m + 1) * (2 * m + 1) * (2 * m + 1)))%nat /\
    forall q gi g i j k, nth_error cut q = Some gi -> nth_error ff (Z.to_nat gi) = Some g -> (i < 2 * m + 1)%nat -> (j < 2 * m + 1)%nat -> (k < 2 * m + 1)%nat ->
      exists o, nth_error oris (q * ((2 * m + 1) * (2 * m + 1) * (2 * m + 1)) + ((i * (2 * m + 1) + j) * (2 * m + 1) + k)) = Some o /\
        turned_by (g_exp g) (spacing * rad) (Z.of_nat j - Z.of_nat m) (Z.of_nat i - Z.of_nat m) (Z.of_nat k - Z.of_nat m) o.
Proof.
  intros rad ff comp chi2 bnd spacing m Hr Hs Hb. destruct (trial_form rad bnd spacing m Hr Hs Hb ff comp chi2) as (pts & L & N & T). cbv zeta in T. pose proof (selected_lemma ff comp chi2) as Sel. set (cut := where_true _) in *. clearbody cut.
  destruct (exp_maps_lemma ff comp chi2 cut Sel) as [EL EN]. set (em := flat_map (fun i => match nth_error ff (Z.to_nat i) with Some g => [g_exp g] | None => [] end) cut) in *. clearbody em.
  assert (ML : forall e : Q * Q * Q, In e em -> length (map (fun o => qadd3 o e) (mesh pts pts pts)) = ((2 * m + 1) * (2 * m + 1) * (2 * m + 1))%nat) by (intros e _; now rewrite map_length, mesh_length, L).
  exists cut. eexists. eexists. split; [exact T|]. split; auto. split; [rewrite (flat_length _ _ _ _ _ ML); congruence|].
  intros q gi g i j k Q1 G I J K. rewrite (flat_nth _ _ _ _ em q _ (g_exp g) ML); [|nia|eauto]. rewrite nth_map.
  assert (P : forall t, (t < 2 * m + 1)%nat -> exists x, nth_error pts t = Some x) by (intros t Ht; destruct (nth_error pts t) eqn:X; eauto; apply nth_error_None in X; lia).
  destruct (P i I) as [y Y]. destruct (P j J) as [x X]. destruct (P k K) as [z Z]. pose proof (mesh_nth pts pts pts i j k x y z Y X Z) as MN. rewrite L in MN. rewrite MN. eexists. split; [reflexivity|].
  unfold turned_by, same3, qadd3. destruct (g_exp g) as [[e1 e2] e3]. rewrite (N _ _ X), (N _ _ Y), (N _ _ Z). repeat split; lra.
Qed.
(** the list of names is right when no misorientation is tried, and for one grain and one step *)
Theorem C148_names_partial : forall rad ff comp chi2 bnd spacing (m : nat), 0 < rad -> 0 < spacing -> bnd == inject_Z (Z.of_nat m) * spacing ->
  exists cut oris ids, trial_orientations rad ff comp chi2 bnd spacing = Ok (oris, ids) /\ selected ff comp chi2 cut /\
    (m = 0%nat \/ m = 1%nat /\ (length cut <= 1)%nat -> named cut ((2 * m + 1) * (2 * m + 1) * (2 * m + 1)) ids).
Proof.
  intros rad ff comp chi2 bnd spacing m Hr Hs Hb. destruct (trial_form rad bnd spacing m Hr Hs Hb ff comp chi2) as (pts & L & N & T). cbv zeta in T. pose proof (selected_lemma ff comp chi2) as Sel. set (cut := where_true _) in *. clearbody cut.
  exists cut. eexists. eexists. split; [exact T|]. split; auto. intros [->|[-> H]].
  - cbn [Z.of_nat Z.eqb]. change ((2 * 0 + 1) * (2 * 0 + 1) * (2 * 0 + 1))%nat with 1%nat. split; [lia|]. intros q t gi E Ht. replace (q * 1 + t)%nat with q by lia. auto.
  - change ((2 * 1 + 1) * (2 * 1 + 1) * (2 * 1 + 1))%nat with 27%nat. destruct cut as [|c [|c' t]]; cbn [length] in H; [| |lia].
    + split; [reflexivity|]. intros [|q] t gi E; discriminate.
    + split; [reflexivity|]. intros [|[|q]] t gi E Ht; cbn in E; try discriminate. injection E as <-. cbn [Nat.mul Nat.add]. exact (nth_error_repeat c Ht).
Qed.
(** with several grains the name of an orientation is that of another grain, *)
Definition ffA : list ff_grain := [FFG (9 # 10) (1 # 100) (0, 0, 0); FFG (1 # 10) (1 # 100) (0, 0, 0); FFG 1 (1 # 50) (1, 0, 0)].
Theorem C148_names_refuted : ~ (forall rad ff comp chi2 bnd spacing (m : nat) cut oris ids, 0 < rad -> 0 < spacing -> bnd == inject_Z (Z.of_nat m) * spacing ->
  selected ff comp chi2 cut -> trial_orientations rad ff comp chi2 bnd spacing = Ok (oris, ids) -> length ids = length oris -> named cut ((2 * m + 1) * (2 * m + 1) * (2 * m + 1)) ids).
Proof.
  intros H. pose proof (selected_lemma ffA (8 # 10) (1 # 10)) as Sel. set (cut := where_true _) in Sel. destruct (trial_form 1 1 1 1 ltac:(lra) ltac:(lra) ltac:(reflexivity) ffA (8 # 10) (1 # 10)) as (pts & L & N & T). cbv zeta in T.
  specialize (H 1 ffA (8 # 10) (1 # 10) 1 1 1%nat cut _ _ ltac:(lra) ltac:(lra) ltac:(reflexivity) Sel T). destruct H as [_ H].
  - cbn [Z.of_nat Z.eqb]. rewrite (flat_length _ _ _ 27) by (intros; rewrite map_length, mesh_length, L; reflexivity). vm_compute. reflexivity.
  - specialize (H 0%nat 1%nat 0%Z ltac:(vm_compute; reflexivity) ltac:(cbn; lia)). vm_compute in H. discriminate.
Qed.
(** and with more steps there are fewer names than orientations *)
Theorem C148_number_refuted : ~ (forall rad ff comp chi2 bnd spacing (m : nat) oris ids, 0 < rad -> 0 < spacing -> bnd == inject_Z (Z.of_nat m) * spacing ->
  trial_orientations rad ff comp chi2 bnd spacing = Ok (oris, ids) -> length ids = length oris).
Proof.
  intros H. destruct (trial_form 1 2 1 2 ltac:(lra) ltac:(lra) ltac:(reflexivity) [FFG 1 0 (0, 0, 0)] (8 # 10) (1 # 10)) as (pts & L & N & T). cbv zeta in T.
  specialize (H 1 _ (8 # 10) (1 # 10) 2 1 2%nat _ _ ltac:(lra) ltac:(lra) ltac:(reflexivity) T). rewrite (flat_length _ _ _ 125) in H by (intros; rewrite map_length, mesh_length, L; reflexivity). vm_compute in H. discriminate.
Qed.
(** a spacing of zero is an error even if no misorientation is asked for *)
Theorem C148_spacing : forall rad ff comp chi2 bnd spacing, spacing == 0 -> trial_orientations rad ff comp chi2 bnd spacing = Err ZeroDivisionError.
Proof. intros. unfold trial_orientations. now rewrite Qeq_bool_true. Qed.
Example C148_ex : selected ffA (8 # 10) (1 # 10) [0; 2]%Z. Proof. exact (selected_lemma ffA (8 # 10) (1 # 10)). Qed.

(** ** C149 *)
(** one spacing: block ii of every array comes from one scan, and is moved by ii spacings *)
Theorem C149_stitched : forall scans L r c v top_down, (0 < L)%nat -> (0 < r)%nat -> scans <> [] -> Forall (scan_shape L r c) scans -> 0 < v \/ v < - (1 # 1000000000000) ->
  exists out, output_grain_map scans [v] top_down = Ok out /\
    forall ii l i j s, (l < L)%nat -> (ii < length scans)%nat -> nth_error scans (source (length scans) top_down ii) = Some s ->
      at3 (v_grain out) (ii * L + l) i j = at3 (v_grain s) l i j /\ at3 (v_conf out) (ii * L + l) i j = at3 (v_conf s) l i j /\
      at3 (v_x out) (ii * L + l) i j = at3 (v_x s) l i j /\ at3 (v_z out) (ii * L + l) i j = at3 (v_z s) l i j /\
      forall y, at3 (v_y s) l i j = Some y -> exists y', at3 (v_y out) (ii * L + l) i j = Some y' /\ y' == y + inject_Z (Z.of_nat ii) * v.
Proof.
  intros scans L r c v top_down HL Hr Hne Hs Hv. assert (V0 : ~ v == 0) by (destruct Hv; lra).
  destruct (arange_lemma 0 (v * inject_Z (Z.of_nat (length scans)) + (1 # 1000000000000)) v V0) as (sh & E & EL & EN).
  assert (SL : (length scans <= length sh)%nat).
  { rewrite EL. destruct (length scans) as [|n]; [lia|]. apply ceil_count. rewrite Nat2Z.inj_succ. unfold Z.succ. rewrite inject_Z_plus. change (inject_Z 1) with 1. set (q := inject_Z (Z.of_nat n)).
    assert (EE : (v * (q + 1) + (1 # 1000000000000) - 0) / v == q + 1 + (1 # 1000000000000) / v) by (field; auto). rewrite EE.
    assert (- (1) < (1 # 1000000000000) / v); [|lra]. destruct Hv as [P|P].
    - assert (0 < (1 # 1000000000000) / v) by (apply Qlt_shift_div_l; lra). lra.
    - assert (EQ : (1 # 1000000000000) / v == - ((1 # 1000000000000) / - v)) by (field; lra). rewrite EQ. assert ((1 # 1000000000000) / - v < 1) by (apply Qlt_shift_div_r; lra). lra. }
  destruct (stitch_lemma scans L r c [v] top_down sh HL Hr Hne Hs E SL) as (out & O & F). exists out. split; auto. intros ii l i j s Hl Hi Es.
  destruct (nth_error sh ii) as [x|] eqn:X; [|apply nth_error_None in X; lia]. destruct (F ii l i j s x Hl Hi Es X) as (A & B & C & D & G). do 4 (split; auto). intros y Y. rewrite G, Y. eexists. split; [reflexivity|]. rewrite (EN _ _ X). lra.
Qed.
(** several: they are the positions of the blocks *)
Theorem C149_positions : forall scans L r c shifts top_down, (0 < L)%nat -> (0 < r)%nat -> scans <> [] -> Forall (scan_shape L r c) scans -> (length scans <= length shifts)%nat -> length shifts <> 1%nat ->
  exists out, output_grain_map scans shifts top_down = Ok out /\
    forall ii l i j s sh, (l < L)%nat -> (ii < length scans)%nat -> nth_error scans (source (length scans) top_down ii) = Some s -> nth_error shifts ii = Some sh ->
      at3 (v_grain out) (ii * L + l) i j = at3 (v_grain s) l i j /\ at3 (v_conf out) (ii * L + l) i j = at3 (v_conf s) l i j /\
      at3 (v_x out) (ii * L + l) i j = at3 (v_x s) l i j /\ at3 (v_z out) (ii * L + l) i j = at3 (v_z s) l i j /\
      at3 (v_y out) (ii * L + l) i j = match at3 (v_y s) l i j with Some y => Some (y + sh) | None => None end.
Proof.
  intros scans L r c shifts top_down HL Hr Hne Hs Hl H1. apply stitch_lemma with r c; auto. unfold vol_shifts. destruct shifts as [|a [|b t]]; auto. cbn in H1. lia.
Qed.
(** nothing to stitch, no spacing, or one of zero *)
Theorem C149_errors : forall v sh top_down,
  (~ v == 0 -> output_grain_map [] [v] top_down = Err IndexError) /\ output_grain_map [] [] top_down = Err IndexError /\
  (forall scans, v == 0 -> output_grain_map scans [v] top_down = Err ZeroDivisionError) /\
  (forall L r c s scans, (0 < L)%nat -> (0 < r)%nat -> Forall (scan_shape L r c) (s :: scans) -> sh = [] -> output_grain_map (s :: scans) sh top_down = Err IndexError).
Proof.
  intros v sh top_down. split; [|split; [|split]].
  - intros H. unfold output_grain_map, vol_shifts. destruct (arange_lemma 0 (v * inject_Z (Z.of_nat (@length scan [])) + (1 # 1000000000000)) v H) as (l & E & _). rewrite E. reflexivity.
  - reflexivity.
  - intros scans H. unfold output_grain_map, vol_shifts, arange. now rewrite Qeq_bool_true.
  - intros L r c s scans HL Hr Hs ->. unfold output_grain_map. cbn [vol_shifts rbind]. change (py_index (s :: scans) 0) with (Ok s). cbn [rbind].
    assert (S0 : scan_shape L r c s) by now inversion Hs. pose proof S0 as [[SL SR] _]. rewrite SL.
    assert (ER : match v_grain s with [] => 0 | la :: _ => length la end%nat = r). { destruct (v_grain s) as [|la t]; [cbn in SL; lia|]. now inversion SR. }
    assert (EC : match v_grain s with [] => 0 | la :: _ => match la with [] => 0 | ro :: _ => length ro end end%nat = c). { destruct (v_grain s) as [|la t]; [cbn in SL; lia|]. inversion SR as [|x y [H1 H2] H3]. destruct la as [|ro la]; [cbn in H1; lia|]. now inversion H2. }
    rewrite ER, EC. set (n := length (s :: scans)).
    assert (EE : forall (f : result scan -> nat -> result scan) l, (forall i, f (Err IndexError) i = Err IndexError) -> fold_left f l (Err IndexError) = Err IndexError) by (intros f; induction l as [|a l IH]; intros F; cbn; auto; rewrite F; auto).
    assert (X : exists s1, nth_error (s :: scans) (source n top_down 0) = Some s1). { destruct (nth_error (s :: scans) (source n top_down 0)) eqn:Q; eauto. apply nth_error_None in Q. unfold source in Q. fold n in Q. destruct top_down; [|unfold n in *; cbn in *; lia]. unfold n in *. cbn in *. lia. }
    destruct X as [s1 X1]. assert (SS : scan_shape L r c s1). { rewrite Forall_forall in Hs. apply Hs. eapply nth_error_In; eauto. } destruct SS as (A & B & C & D & G).
    change (seq 0 n) with (0%nat :: seq 1 (length scans)). cbn [fold_left rbind].
    assert (N1 : (1 <= n)%nat) by (unfold n; cbn [length]; lia). assert (IX : (if top_down then Z.of_nat n - 1 - Z.of_nat 0 else Z.of_nat 0)%Z = Z.of_nat (source n top_down 0)) by (unfold source; destruct top_down; lia). rewrite IX, index_nat, X1. cbn [rbind]. unfold set_layers. rewrite !(proj2 (shape_iff L r c _)) by auto. cbn [rbind].
    change (py_index (@nil Q) (Z.of_nat 0)) with (@Err Q IndexError). cbn [rbind]. apply EE. reflexivity.
Qed.
(** the VTK file announces as many cells as it lists, and a cell lists the eight corners of a cube of neighbouring points *)
Theorem C149_vtk : forall nk nj ni : nat, (1 <= nk)%nat -> (1 <= nj)%nat -> (1 <= ni)%nat ->
  Z.of_nat (length (vtk_cells (Z.of_nat nk) (Z.of_nat nj) (Z.of_nat ni))) = vtk_num_cells (Z.of_nat nk) (Z.of_nat nj) (Z.of_nat ni) /\
  (forall k j i, (k < nk - 1)%nat -> (j < nj - 1)%nat -> (i < ni - 1)%nat ->
    let p a b d := point_no (Z.of_nat nj) (Z.of_nat ni) (Z.of_nat k + a) (Z.of_nat j + b) (Z.of_nat i + d) in
    nth_error (vtk_cells (Z.of_nat nk) (Z.of_nat nj) (Z.of_nat ni)) ((k * (nj - 1) + j) * (ni - 1) + i) =
      Some [p 0 0 0; p 0 0 1; p 0 1 1; p 0 1 0; p 1 0 0; p 1 0 1; p 1 1 1; p 1 1 0]%Z) /\
  (forall cell q, In cell (vtk_cells (Z.of_nat nk) (Z.of_nat nj) (Z.of_nat ni)) -> In q cell -> (0 <= q < Z.of_nat nk * Z.of_nat nj * Z.of_nat ni)%Z).
Proof.
  intros nk nj ni Hk Hj Hi. unfold vtk_cells, vtk_num_cells, point_no. split; [|split].
  - rewrite (flat_length _ _ _ ((nj - 1) * (ni - 1))). { rewrite zrange_length. nia. } intros a _. rewrite (flat_length _ _ _ (ni - 1)). { rewrite zrange_length. nia. } intros b _. rewrite map_length, zrange_length. lia.
  - intros k j i K J I. cbv zeta. replace ((k * (nj - 1) + j) * (ni - 1) + i)%nat with (k * ((nj - 1) * (ni - 1)) + (j * (ni - 1) + i))%nat by ring.
    rewrite (flat_nth _ _ _ ((nj - 1) * (ni - 1)) _ k _ (Z.of_nat k)); [|intros a _; rewrite (flat_length _ _ _ (ni - 1)); [rewrite zrange_length; nia|intros b _; rewrite map_length, zrange_length; lia]|nia|rewrite nth_zrange by lia; f_equal; lia].
    rewrite (flat_nth _ _ _ (ni - 1) _ j _ (Z.of_nat j)); [|intros b _; rewrite map_length, zrange_length; lia|lia|rewrite nth_zrange by lia; f_equal; lia].
    rewrite nth_map, nth_zrange by lia. f_equal. repeat (f_equal; [ring|]). f_equal. ring.
  - intros cell q C Q1. apply in_flat_map in C. destruct C as (k & Kk & C). apply in_flat_map in C. destruct C as (j & Jj & C). apply in_map_iff in C. destruct C as (i & <- & Ii). apply in_zrange in Kk. apply in_zrange in Jj. apply in_zrange in Ii. cbn [In] in Q1.
    assert (B : (0 <= Z.of_nat ni * Z.of_nat nj * k + Z.of_nat ni * j + i)%Z) by nia.
    assert (T : (Z.of_nat ni * Z.of_nat nj * k + Z.of_nat ni * j + i + Z.of_nat ni * Z.of_nat nj + Z.of_nat ni + 1 < Z.of_nat nk * Z.of_nat nj * Z.of_nat ni)%Z).
    { assert (Z.of_nat ni * Z.of_nat nj * (k + 2) <= Z.of_nat nk * Z.of_nat nj * Z.of_nat ni)%Z by nia. assert (Z.of_nat ni * (j + 2) <= Z.of_nat ni * Z.of_nat nj)%Z by nia. nia. }
    assert (0 <= Z.of_nat ni * Z.of_nat nj)%Z by nia. repeat (destruct Q1 as [<-|Q1]; [lia|]). contradiction.
Qed.
Definition volA (a : Q) : vol := [[[a; a + 1]]; [[a + 2; a + 3]]].
Definition scanA (a : Q) : scan := SCAN (volA a) (volA a) (volA a) (volA a) (volA a).
Example C149_ex : Forall (scan_shape 2 1 2) [scanA 0; scanA 10] /\ 0 < 1 # 2. Proof. split; [|reflexivity]. assert (V : forall a, vol_shape 2 1 2 (volA a)) by (intros a; split; [reflexivity|repeat constructor]). repeat constructor; apply V. Qed.

(** ** C150 *)
(** every trial sees the original experiment with only its parameter replaced; afterwards the experiment is that of the last trial *)
Theorem C150_trials : forall (M C : Type) (make : Q * Q * Q -> M) (test : expt -> result C) rad e which range deg cs ps e',
  scan_detector_parm make test rad e which range deg = Ok (cs, ps, e') ->
  length cs = length ps /\
  (forall j p c, nth_error ps j = Some p -> nth_error cs j = Some c -> exists e1, with_parm make e which p e1 /\ test e1 = Ok c) /\
  (forall p, nth_error (rev ps) 0 = Some p -> with_parm make e which p e').
Proof.
  intros M C make test rad e which range deg cs ps e' H. unfold scan_detector_parm in H. destruct (parm_vector rad which range deg) as [ps0|] eqn:P; [|discriminate]. cbn [rbind] in H. destruct (scan_loop make test e which ps0 (e_tvec e) e) as [[cs0 e0]|] eqn:L; [|discriminate]. cbn [rbind fst snd] in H. injection H as <- <- <-.
  assert (T : td_ok e which (e_tvec e)) by (unfold td_ok; destruct (e_tvec e) as [[x y] z]; auto). assert (X : ex_ok e which e) by (split; auto). destruct (scan_lemma make test e which ps0 _ _ _ _ T X L) as (A & B & _ & D). auto.
Qed.
(** the experiment is not put back *)
Theorem C150_restored_refuted : ~ (forall (M C : Type) (make : Q * Q * Q -> M) (test : expt -> result C) rad e which range deg cs ps e',
  scan_detector_parm make test rad e which range deg = Ok (cs, ps, e') -> e_tvec e' = e_tvec e).
Proof.
  intros H. specialize (H (Q * Q * Q)%type Q (fun t => t) (fun e => Ok 0) 1 (EXPT (0, 0, 0) (0, 0, 0) (0, 0, -5) (0, 1) (0, 1) [0] 0) 0%Z (-6, -4, 2) false). vm_compute in H. specialize (H _ _ _ eq_refl). discriminate.
Qed.
(** a range with n steps wider than a millionth means n + 1 evenly spaced trials with both ends *)
Theorem C150_points : forall rad which a b (n : nat) deg, (1 <= n)%nat -> (1 # 1000000) * inject_Z (Z.of_nat n) < b - a ->
  let unit := if (2 <? which)%Z && deg then rad else 1 in
  exists ps, parm_vector rad which (a, b, inject_Z (Z.of_nat n)) deg = Ok ps /\ length ps = (n + 1)%nat /\
    forall k p, nth_error ps k = Some p -> p == (a + inject_Z (Z.of_nat k) * (b - a) / inject_Z (Z.of_nat n)) * unit.
Proof.
  intros rad which a b n deg Hn Hr unit. assert (N1 : 1 <= inject_Z (Z.of_nat n)) by (change 1 with (inject_Z 1); rewrite <- Zle_Qle; lia). set (q := inject_Z (Z.of_nat n)) in *. assert (D0 : 0 < b - a) by nra.
  assert (SP : 0 < (b - a) / q) by (apply Qlt_shift_div_l; lra). unfold parm_vector. rewrite Qeq_bool_false by lra.
  destruct (arange_lemma a (b + (1 # 1000000)) ((b - a) / q)) as (l & E & L & N); [lra|]. rewrite E. cbn [rbind].
  assert (LL : length l = (n + 1)%nat).
  { rewrite L. rewrite (proj2 (ceiling_iff _ (Z.of_nat n + 1))); [lia|]. rewrite inject_Z_plus. fold q. change (inject_Z 1) with 1.
    assert (EE : (b + (1 # 1000000) - a) / ((b - a) / q) == q + (1 # 1000000) * q / (b - a)) by (field; split; lra). rewrite EE.
    assert (0 < (1 # 1000000) * q / (b - a)) by (apply Qlt_shift_div_l; lra). assert ((1 # 1000000) * q / (b - a) < 1) by (apply Qlt_shift_div_r; lra). lra. }
  eexists. split; [reflexivity|]. unfold unit. destruct ((2 <? which)%Z && deg).
  - split; [now rewrite map_length|]. intros k p K. rewrite nth_map in K. destruct (nth_error l k) as [x|] eqn:X; [|discriminate]. injection K as <-. rewrite (N _ _ X). fold q. field. lra.
  - split; auto. intros k p K. rewrite (N _ _ K). field. lra.
Qed.
(** narrower ones have more trials than asked for *)
Theorem C150_points_refuted : ~ (forall rad which a b (n : nat) deg ps, (1 <= n)%nat -> a < b -> parm_vector rad which (a, b, inject_Z (Z.of_nat n)) deg = Ok ps -> length ps = (n + 1)%nat).
Proof. intros H. specialize (H 1 0%Z 0 (1 # 1000000) 2%nat false _ ltac:(lia) ltac:(reflexivity) eq_refl). vm_compute in H. discriminate. Qed.
(** no steps; or no range *)
Theorem C150_errors : forall (M C : Type) (make : Q * Q * Q -> M) (test : expt -> result C) rad e which a b n deg, (n == 0 \/ a == b) ->
  scan_detector_parm make test rad e which (a, b, n) deg = Err ZeroDivisionError.
Proof.
  intros M C make test rad e which a b n deg H. unfold scan_detector_parm, parm_vector. destruct (Qeq_bool n 0) eqn:E; [reflexivity|]. apply Qeq_bool_neq in E. destruct H as [H|H]; [contradiction|]. unfold arange. rewrite Qeq_bool_true; [reflexivity|]. rewrite H. field. auto.
Qed.
Example C150_ex : (1 # 1000000) * inject_Z (Z.of_nat 4) < 3 - 1 /\ exists r, scan_detector_parm (fun t => t) (fun e => Ok (e_rmat e)) (1 # 57) (EXPT (1, 2, 3) (0, 0, 0) (0, 0, -5) (0, 1) (0, 1) [0] 0) 4 (1, 3, 4) true = Ok r.
Proof. split; [reflexivity|]. eexists. vm_compute. reflexivity. Qed.

Print Assumptions C147_voxels.
Print Assumptions C147_filled.
Print Assumptions C147_layer.
Print Assumptions C147_spacing.
Print Assumptions C147_reversed_refuted.
Print Assumptions C147_samples.
Print Assumptions C147_tomo_partial.
Print Assumptions C147_tomo_refuted.
Print Assumptions C148_orientations.
Print Assumptions C148_names_partial.
Print Assumptions C148_names_refuted.
Print Assumptions C148_number_refuted.
Print Assumptions C148_spacing.
Print Assumptions C149_stitched.
Print Assumptions C149_positions.
Print Assumptions C149_errors.
Print Assumptions C149_vtk.
Print Assumptions C150_trials.
Print Assumptions C150_restored_refuted.
Print Assumptions C150_points.
Print Assumptions C150_points_refuted.
Print Assumptions C150_errors.
