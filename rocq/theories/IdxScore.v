From Coq Require Import Reals Lra Permutation Sorted.
From Verif Require Import Prelude Lin RotModel RotProofs2 XfModel UcModel IdxModel IdxSpec IdxProofs IdxMore.
Local Open Scope R_scope.
Local Notation length := List.length.

Lemma same_unique : forall off a b c, same_direction a b -> same_direction a c -> off <= b < off + 2 * PI -> off <= c < off + 2 * PI -> b = c.
Proof.
  intros off a b c [k K] [n N] B C. assert (E : b = map_angle c off). { destruct (map_angle_ok c off) as [_ [j J]]. rewrite <- (map_angle_id b off B). unfold map_angle. f_equal. clear J j.
    rewrite (map_angle_id c off C) || idtac. assert (X : map_angle b off = map_angle c off); [|unfold map_angle in X; lra]. rewrite (map_angle_id b off B), (map_angle_id c off C).
    pose proof two_pi_pos. assert (D : b - c = 2 * PI * IZR (k - n)) by (rewrite minus_IZR; lra). destruct (IZR_bounds (k - n)) as [Q|[Q|[Q|Q]]].
    - assert (IZR (k - n) <= -1) by (apply IZR_le; lia). assert (2 * PI * IZR (k - n) <= 2 * PI * -1) by (apply Rmult_le_compat_l; lra). lra.
    - rewrite Q in D. lra.
    - rewrite Q in D. lra.
    - assert (2 <= IZR (k - n)) by (apply IZR_le; lia). assert (2 * PI * 2 <= 2 * PI * IZR (k - n)) by (apply Rmult_le_compat_l; lra). lra. }
  rewrite E. apply map_angle_id. exact C.
Qed.
Lemma falls_ok : forall ee oe off eta ome e o, falls_into ee oe off eta ome e o <-> in_bin ee e (map_angle eta (- PI)) /\ in_bin oe o (map_angle ome off).
Proof.
  intros. destruct (map_angle_ok eta (- PI)) as [A K]. destruct (map_angle_ok ome off) as [B N]. split.
  - intros (x & y & X & BX & EX & Y & BY & EY). rewrite (same_unique (- PI) eta _ x K X A); [|lra]. rewrite (same_unique off ome _ y N Y B BY). now split.
  - intros [X Y]. exists (map_angle eta (- PI)), (map_angle ome off). split; [exact K|]. split; [lra|]. split; [exact X|]. split; [exact N|]. split; [exact B|exact Y].
Qed.
Lemma odd_even : forall m, Z.even m = negb (Z.odd m). Proof. intros. now rewrite Z.negb_odd. Qed.
Definition sees (p : params) (hkl e o : nat) (s : sight) : Prop :=
  let m := nth hkl (p_maps p) [] in shows (near o e (p_dpix_ome p) (p_dpix_eta p) (length m) (length (p_eta_edges p) - 1)) (fun i j => nth j (nth i m []) None) (nth hkl (p_threshold p) None) s.
Lemma hit_ok : forall p etaR omeR hkl ang,
  (forall a, exists m, find_in_range (map_angle a (- PI)) (p_eta_spans p) = Ok m /\ (Z.odd m = true <-> in_arcs etaR a)) ->
  (forall a, exists m, find_in_range (map_angle a (p_ome_offset p)) (p_ome_spans p) = Ok m /\ (Z.odd m = true <-> in_arcs omeR a)) ->
  ascending (p_eta_edges p) -> p_eta_edges p <> [] -> ascending (p_ome_edges p) -> p_ome_edges p <> [] ->
  exists v, angle_is_hit p hkl ang = Ok v /\ verdict etaR omeR (p_eta_edges p) (p_ome_edges p) (p_ome_offset p) (sees p hkl) (o_tth ang) (o_eta ang) (o_ome ang) v.
Proof.
  intros p etaR omeR hkl ang HE HO AE NE AO NO. unfold angle_is_hit, verdict. cbv zeta. destruct (o_tth ang) as [tth|]; [|exists (0, 0)%Z; split; [reflexivity|right; split; [intros e o [C _]; now elim C|reflexivity]]].
  destruct (o_eta ang) as [eta|]; [|exists (0, 0)%Z; split; [reflexivity|right; split; [intros e o [_ (x & C & _)]; discriminate|reflexivity]]].
  destruct (HE eta) as (m & E1 & O1). rewrite E1. cbn [rbind]. rewrite odd_even. destruct (Z.odd m); cbn [negb]; [|exists (0, 0)%Z; split; [reflexivity|right; split; [|reflexivity]]; intros e o [_ (x & X & A & _)]; injection X as <-; apply O1 in A; discriminate].
  destruct (HO (o_ome ang)) as (n & E2 & O2). rewrite E2. cbn [rbind]. rewrite odd_even. destruct (Z.odd n); cbn [negb]; [|exists (0, 0)%Z; split; [reflexivity|right; split; [|reflexivity]]; intros e o [_ (x & X & _ & A & _)]; injection X as <-; apply O2 in A; discriminate].
  destruct (bin_ok (map_angle eta (- PI)) _ AE NE) as [(e & B1 & I1 & U1)|[B1 I1]]; rewrite B1; cbn [rbind].
  2: { exists (0, 0)%Z. split; [reflexivity|]. right. split; [|reflexivity]. intros e o [_ (x & X & _ & _ & F)]. injection X as <-. apply falls_ok in F. exact (I1 e (proj1 F)). }
  destruct (bin_ok (map_angle (o_ome ang) (p_ome_offset p)) _ AO NO) as [(o & B2 & I2 & U2)|[B2 I2]]; rewrite B2; cbn [rbind].
  2: { exists (0, 0)%Z. split; [reflexivity|]. right. split; [|reflexivity]. intros e' o [_ (x & X & _ & _ & F)]. injection X as <-. apply falls_ok in F. exact (I2 o (proj2 F)). }
  destruct (dilated_shows e o (p_dpix_eta p) (p_dpix_ome p) (nth hkl (p_maps p) []) (length (p_eta_edges p) - 1) (nth hkl (p_threshold p) None)) as (s & C & SH). rewrite C.
  exists (points s). split; [destruct s; reflexivity|]. left. exists e, o, s. split; [|split; [exact SH|reflexivity]]. split; [discriminate|]. exists eta. split; [reflexivity|]. split; [now apply O1|]. split; [now apply O2|]. apply falls_ok. now split.
Qed.
Lemma verdict_range : forall a b c d e f g h i v, verdict a b c d e f g h i v -> v = (1, 1)%Z \/ v = (0, 1)%Z \/ v = (0, 0)%Z.
Proof. intros. unfold verdict in H. cbv zeta in H. destruct H as [(x & y & s & _ & _ & ->)|[_ ->]]; [destruct s; cbn [points]; auto|auto]. Qed.
Lemma in_bin_unique : forall l i j v, ascending l -> in_bin l i v -> in_bin l j v -> i = j.
Proof.
  intros l i j v A (L & B & C) (L' & B' & C'). destruct (Nat.lt_trichotomy i j) as [H|[H|H]]; [|assumption|].
  - pose proof (A (S i) j ltac:(lia)). lra. - pose proof (A (S j) i ltac:(lia)). lra.
Qed.
Lemma verdict_unique : forall eR oR ee oe off (see : nat -> nat -> sight -> Prop) tth eta ome v w, ascending ee -> ascending oe -> (forall e o s s', see e o s -> see e o s' -> s = s') ->
  verdict eR oR ee oe off see tth eta ome v -> verdict eR oR ee oe off see tth eta ome w -> v = w.
Proof.
  intros eR oR ee oe off see tth eta ome v w AE AO U V W. unfold verdict in *. cbv zeta in *. destruct V as [(e & o & s & VI & SE & ->)|[NV ->]], W as [(e' & o' & s' & VI' & SE' & ->)|[NW ->]]; [|now elim (NW e o)|now elim (NV e' o')|reflexivity].
  destruct VI as (_ & x & X & _ & _ & F). destruct VI' as (_ & x' & X' & _ & _ & F'). assert (x = x') by congruence. subst x'. apply falls_ok in F, F'. destruct F as [F1 F2], F' as [F1' F2'].
  rewrite (in_bin_unique _ _ _ _ AE F1' F1), (in_bin_unique _ _ _ _ AO F2' F2) in SE'. now rewrite (U _ _ _ _ SE SE').
Qed.
(** ** counting *)
Definition shift (h t : Z) (l : list (Z * Z)) : R :=
  let hits := (h + fold_right (fun v s => (fst v + s)%Z) 0%Z l)%Z in let counted := (t + fold_right (fun v s => (snd v + s)%Z) 0%Z l)%Z in if (counted =? 0)%Z then 0 else IZR hits / IZR counted.
Definition judged (p : params) (na : nat * oang) (v : Z * Z) : Prop := angle_is_hit p (fst na) (snd na) = Ok v.
Lemma partition_nth : forall stars k f, (f <= length stars)%nat -> nth_error (partition_from k stars) f = Some (k + length (concat (firstn f stars)))%nat.
Proof.
  induction stars as [|s stars IH]; intros k f H; [cbn in H; assert (f = 0)%nat by lia; subst; cbn [partition_from nth_error firstn concat length]; f_equal; lia|].
  destruct f as [|f]; [cbn [partition_from nth_error firstn concat length]; f_equal; lia|]. cbn [partition_from nth_error firstn concat]. rewrite IH by (cbn in H; lia). rewrite app_length. f_equal. lia.
Qed.
Lemma numbered_app : forall {A} (a b : list (list (A * A))) k, numbered k (a ++ b) = (numbered k a ++ numbered (k + length a) b)%list.
Proof. intros A a. induction a as [|x a IH]; intros b k; cbn [app numbered length]; [now rewrite Nat.add_0_r|]. rewrite IH, <- app_assoc. do 2 f_equal. f_equal. lia. Qed.
(** within a family: the rows left in family f, then the later families *)
Lemma count_ok : forall p (stars : list (list v3)) (all : list (list (oang * oang))), Forall2 (fun s r => length s = length r) stars all -> (forall s, In s stars -> s <> []) ->
  forall rest left f i h t, (f + length rest + 1 = length all)%nat -> skipn (S f) all = rest -> (i + length left = length (concat (firstn (S f) stars)))%nat ->
  forall vs, Forall2 (judged p) (flat_map (fun r => [(f, fst r); (f, snd r)]) left ++ numbered (S f) rest) vs ->
  count_hits p (partition_from 0 stars) i f (length (concat (firstn (S f) stars))) h t (left ++ concat rest) = Ok (shift h t vs).
Proof.
  intros p stars all F2 NE. assert (LE : length stars = length all) by (clear NE; induction F2; cbn [length]; congruence).
  induction rest as [|r rest IHR]; induction left as [|[a b] left IHL]; intros f i h t LF SK LI vs JU.
  - cbn [flat_map app numbered] in JU. inversion JU; subst. cbn [app concat count_hits]. unfold shift. cbn [fold_right]. rewrite !Z.add_0_r. reflexivity.
  - cbn [flat_map app fst snd] in JU. inversion JU as [|? v1 ? ? J1 JU1]; subst. inversion JU1 as [|? v2 ? ? J2 JU2]; subst. unfold judged in J1, J2. cbn [fst snd] in J1, J2.
    cbn [app count_hits]. cbn [length] in LI. replace (length (concat (firstn (S f) stars)) <=? i)%nat with false by (symmetry; apply Nat.leb_gt; lia). cbn [rbind fst snd]. rewrite J1. cbn [rbind]. rewrite J2. cbn [rbind]. rewrite (IHL f (S i) _ _ LF SK ltac:(lia) _ JU2). f_equal. unfold shift. cbn [fold_right]. rewrite !Z.add_assoc. reflexivity.
  - cbn [flat_map app numbered] in JU.
    assert (RI : nth_error all (S f) = Some r). { rewrite <- (firstn_skipn (S f) all), SK, nth_error_app2; rewrite firstn_length_le by (cbn [length] in LF; lia); [|lia]. now rewrite Nat.sub_diag. }
    assert (SX : exists s, nth_error stars (S f) = Some s /\ length s = length r). { clear - F2 RI. revert RI. generalize (S f). induction F2 as [|x y l l' H F IH]; intros n N; [destruct n; discriminate|]. destruct n as [|n]; [injection N as <-; exists x; now split|]. exact (IH n N). }
    destruct SX as (s & SI & SL). assert (SN : s <> []) by (apply NE; exact (nth_error_In _ _ SI)). destruct r as [|[a b] r]; [destruct s; [now elim SN|discriminate]|].
    assert (FS : firstn (S (S f)) stars = (firstn (S f) stars ++ [s])%list). { clear - SI. revert SI. generalize (S f). intros n. revert stars. induction n as [|n IH]; intros [|x stars] H; try discriminate; [injection H as ->; reflexivity|]. cbn [firstn app] in *. f_equal. now apply IH. }
    assert (LC : length (concat (firstn (S (S f)) stars)) = (i + length ((a, b) :: r))%nat). { rewrite FS, concat_app, app_length. cbn [concat]. rewrite app_nil_r, SL. cbn [length] in *. lia. }
    cbn [app concat count_hits]. cbn [length] in LI. replace (length (concat (firstn (S f) stars)) <=? i)%nat with true by (symmetry; apply Nat.leb_le; lia).
    rewrite partition_nth by (cbn [length] in LF; lia). cbn [rbind fst snd]. replace (S f + 1)%nat with (S (S f)) by lia. cbn [Nat.add].
    cbn [flat_map app fst snd] in JU. inversion JU as [|? v1 ? ? J1 JU1]; subst. inversion JU1 as [|? v2 ? ? J2 JU2]; subst. unfold judged in J1, J2. cbn [fst snd] in J1, J2. rewrite J1. cbn [rbind]. rewrite J2. cbn [rbind].
    assert (SK2 : skipn (S (S f)) all = rest). { clear - SK. revert SK. generalize (S f). intros n. revert all. induction n as [|n IH]; intros [|x all] H; cbn [skipn] in *; try discriminate; [now injection H|]. apply IH. exact H. }
    rewrite (IHR r (S f) (S i) _ _ ltac:(cbn [length] in LF; lia) SK2 ltac:(cbn [length] in LC; lia) _ JU2). f_equal. unfold shift. cbn [fold_right]. rewrite !Z.add_assoc. reflexivity.
  - cbn [flat_map app fst snd] in JU. inversion JU as [|? v1 ? ? J1 JU1]; subst. inversion JU1 as [|? v2 ? ? J2 JU2]; subst. unfold judged in J1, J2. cbn [fst snd] in J1, J2.
    cbn [app count_hits]. cbn [length] in LI. replace (length (concat (firstn (S f) stars)) <=? i)%nat with false by (symmetry; apply Nat.leb_gt; lia). cbn [rbind fst snd]. rewrite J1. cbn [rbind]. rewrite J2. cbn [rbind]. rewrite (IHL f (S i) _ _ LF SK ltac:(lia) _ JU2). f_equal. unfold shift. cbn [fold_right]. rewrite !Z.add_assoc. reflexivity.
Qed.
Lemma score_ok : forall p stars all vs, Forall2 (fun (s : list v3) (r : list (oang * oang)) => length s = length r) stars all -> stars <> [] -> (forall s, In s stars -> s <> []) -> Forall2 (judged p) (numbered 0 all) vs ->
  filter_and_count_hits p (partition_from 0 stars) (concat all) = Ok (ratio vs).
Proof.
  intros p stars all vs F2 N0 NE JU. destruct F2 as [|s r stars all H F]; [now elim N0|]. unfold filter_and_count_hits. rewrite partition_nth by (cbn; lia). cbn [Nat.add].
  cbn [numbered] in JU. change (concat (r :: all)) with (r ++ concat all)%list.
  rewrite (count_ok p (s :: stars) (r :: all) ltac:(constructor; assumption) NE all r 0%nat 0%nat 0%Z 0%Z ltac:(cbn [length]; lia) eq_refl ltac:(cbn [firstn concat]; rewrite app_nil_r; lia) vs JU). reflexivity.
Qed.
Lemma ratio_bounds : forall vs, (forall v, In v vs -> v = (1, 1)%Z \/ v = (0, 1)%Z \/ v = (0, 0)%Z) -> 0 <= ratio vs <= 1.
Proof.
  intros vs H. unfold ratio. cbv zeta. set (h := fold_right (fun v s => (fst v + s)%Z) 0%Z vs). set (c := fold_right (fun v s => (snd v + s)%Z) 0%Z vs).
  assert (B : (0 <= h <= c)%Z). { unfold h, c. clear h c. induction vs as [|v vs IH]; [cbn; lia|]. cbn [fold_right]. specialize (IH (fun w W => H w (or_intror W))). destruct (H v (or_introl eq_refl)) as [-> | [-> | ->]]; cbn [fst snd]; lia. }
  clearbody h c. destruct (Z.eqb_spec c 0) as [E|E]; [lra|]. assert (0 < IZR c) by (apply IZR_lt; lia). assert (0 <= IZR h) by (apply IZR_le; lia). assert (IZR h <= IZR c) by (apply IZR_le; lia).
  split; [apply Rmult_le_pos; [assumption|left; now apply Rinv_0_lt_compat]|]. apply Rmult_le_reg_r with (IZR c); [assumption|]. unfold Rdiv. rewrite Rmult_assoc, Rinv_l by lra. lra.
Qed.
(** ** the pool *)
Section Pool.
Context {A B : Type}.
Variable f : A -> B.
Lemma nth_firstn : forall {C} (l : list C) n j, nth_error (firstn n l) j = if (j <? n)%nat then nth_error l j else None.
Proof.
  intros C l. induction l as [|x l IH]; intros n j; [rewrite firstn_nil; destruct j; cbn [nth_error]; now destruct (_ <? _)%nat|]. destruct n as [|n]; [now destruct j|]. destruct j as [|j]; [reflexivity|]. cbn [firstn nth_error]. rewrite IH. reflexivity.
Qed.
Lemma nth_skipn : forall {C} (l : list C) n j, nth_error (skipn n l) j = nth_error l (n + j).
Proof. intros C l. induction l as [|x l IH]; intros n j; [rewrite skipn_nil; now destruct j, (n + 0)%nat, n|]. destruct n as [|n]; [reflexivity|]. cbn [skipn Nat.add nth_error]. apply IH. Qed.
Lemma store_length : forall size xs value i, (0 < size)%nat -> length value = length xs -> (i * size <= length xs)%nat -> length (store size value i (map f (chunk size xs i))) = length xs.
Proof. intros size xs value i S0 LV LI. unfold store, chunk. rewrite !app_length, !map_length, !firstn_length, !skipn_length. nia. Qed.
Lemma store_nth : forall size xs value i j, (0 < size)%nat -> length value = length xs -> (i * size <= length xs)%nat ->
  nth_error (store size value i (map f (chunk size xs i))) j = if (j / size =? i)%nat then option_map (fun x => Some (f x)) (nth_error xs j) else nth_error value j.
Proof.
  intros size xs value i j S0 LV LI. unfold store. assert (L1 : length (firstn (i * size) value) = (i * size)%nat) by (rewrite firstn_length; lia).
  pose proof (Nat.div_mod j size ltac:(lia)) as DM. pose proof (Nat.mod_upper_bound j size ltac:(lia)) as MB.
  destruct (Nat.lt_ge_cases j (i * size)) as [C|C].
  - rewrite nth_error_app1 by lia. rewrite nth_firstn. replace (j <? i * size)%nat with true by (symmetry; apply Nat.ltb_lt; lia). replace (j / size =? i)%nat with false; [reflexivity|]. symmetry. apply Nat.eqb_neq. intros E. rewrite E in DM. nia.
  - rewrite nth_error_app2 by lia. rewrite L1. set (k := (j - i * size)%nat). assert (J : j = (i * size + k)%nat) by (unfold k; lia).
    destruct (Nat.lt_ge_cases k (length (chunk size xs i))) as [D|D].
    + rewrite nth_error_app1 by (rewrite !map_length; assumption). rewrite map_map, nth_error_map. unfold chunk in *. rewrite firstn_length in D. rewrite nth_firstn, nth_skipn. replace (k <? size)%nat with true by (symmetry; apply Nat.ltb_lt; lia).
      replace (j / size =? i)%nat with true; [rewrite <- J; reflexivity|]. symmetry. apply Nat.eqb_eq. symmetry. apply (Nat.div_unique j size i k); lia.
    + rewrite nth_error_app2 by (rewrite !map_length; assumption). rewrite !map_length, nth_skipn. unfold chunk in *. rewrite firstn_length, skipn_length in *.
      destruct (Nat.lt_ge_cases k size) as [Q|Q].
      * assert (N1 : nth_error xs j = None) by (apply nth_error_None; lia). assert (N2 : nth_error value j = None) by (apply nth_error_None; lia). rewrite N1, N2. replace (nth_error value _) with (@None (option B)) by (symmetry; apply nth_error_None; nia). now destruct (_ =? _)%nat.
      * replace (j / size =? i)%nat with false; [|symmetry; apply Nat.eqb_neq; intros E; rewrite E in DM; nia]. destruct (Nat.le_gt_cases size (length xs - i * size)) as [T|T].
        -- f_equal. rewrite Nat.min_l by assumption. lia.
        -- replace (nth_error value j) with (@None (option B)) by (symmetry; apply nth_error_None; lia). apply nth_error_None. rewrite Nat.min_r by lia. nia.
Qed.
Lemma pool_fold : forall size xs done value, (0 < size)%nat -> length value = length xs -> (forall i, In i done -> (i * size <= length xs)%nat) ->
  let r := fold_left (fun value i => store size value i (map f (chunk size xs i))) done value in
  length r = length xs /\ forall j, nth_error r j = if existsb (Nat.eqb (j / size)) done then option_map (fun x => Some (f x)) (nth_error xs j) else nth_error value j.
Proof.
  intros size xs done. induction done as [|i done IH]; intros value S0 LV LI; cbn [fold_left existsb]; [split; [assumption|reflexivity]|].
  destruct (IH (store size value i (map f (chunk size xs i))) S0) as [L N]; [apply store_length; [assumption|assumption|apply LI; now left]|intros k K; apply LI; now right|]. split; [exact L|]. intros j. rewrite N, store_nth; [|assumption|assumption|apply LI; now left].
  destruct (existsb (Nat.eqb (j / size)) done); [now rewrite orb_true_r|]. rewrite orb_false_r. reflexivity.
Qed.
Lemma chunks_bound : forall size n i, (0 < size)%nat -> (i < number_of_chunks size n)%nat <-> (i * size < n)%nat.
Proof.
  intros size n i S0. unfold number_of_chunks. pose proof (Nat.div_mod n size ltac:(lia)) as DM. pose proof (Nat.mod_upper_bound n size ltac:(lia)) as MB. destruct (Nat.eqb_spec (n mod size) 0) as [E|E]; split; intros H; nia.
Qed.
Lemma nth_error_ext : forall {C} (l l' : list C), (forall j, nth_error l j = nth_error l' j) -> l = l'.
Proof. intros C l. induction l as [|x l IH]; intros [|y l'] H; [reflexivity|specialize (H 0%nat); discriminate|specialize (H 0%nat); discriminate|]. pose proof (H 0%nat) as H0. injection H0 as ->. f_equal. apply IH. intros j. exact (H (S j)). Qed.
Lemma pool_ok : forall size xs done, (0 < size)%nat -> (forall i, In i done <-> (i < number_of_chunks size (length xs))%nat) -> pool_map f size xs done = map (fun x => Some (f x)) xs.
Proof.
  intros size xs done S0 D. unfold pool_map. replace (Nat.eqb size 0) with false by (symmetry; apply Nat.eqb_neq; lia).
  destruct (pool_fold size xs done (repeat None (length xs)) S0) as [L N]; [apply repeat_length|intros i I; apply D, (chunks_bound size) in I; lia|]. cbv zeta in *. apply nth_error_ext. intros j. rewrite N, nth_error_map.
  destruct (Nat.lt_ge_cases j (length xs)) as [C|C].
  - replace (existsb (Nat.eqb (j / size)) done) with true; [reflexivity|]. symmetry. apply existsb_exists. exists (j / size)%nat. split; [|apply Nat.eqb_refl]. apply D. apply chunks_bound; [assumption|]. pose proof (Nat.div_mod j size ltac:(lia)). nia.
  - assert (N1 : nth_error xs j = None) by (apply nth_error_None; lia). rewrite N1. assert (N2 : nth_error (repeat (@None B) (length xs)) j = None) by (apply nth_error_None; rewrite repeat_length; lia). rewrite N2. now destruct (existsb _ _).
Qed.
End Pool.
