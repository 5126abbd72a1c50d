(** C151 - C153: which reflections a simulated rotation series contains *)
From Coq Require Import Reals Lra.
From Verif Require Import Prelude XfModel XfSpec XfTrig XfRanges RotModel RotProofs2 SimModel SimSpec SimProofs.
Local Open Scope R_scope.

(** ** C151: the filter by ranges *)
(** rows and indices that pass are returned together and in order *)
Theorem C151_filter : forall {H} (hkls : list H) angles etas omes, List.length angles = (2 * List.length hkls)%nat ->
  exists out mask, filter_hkls_eta_ome hkls angles etas omes = Ok (map snd out, map fst out, mask) /\
    gives (fun row row' => row' = row /\ taken_ccw etas (eta_of (snd row)) /\ taken_sticky omes (ome_of (snd row))) (combine (hkls ++ hkls) angles) out /\
    Forall2 (fun a b => b = true <-> taken_ccw etas (eta_of a) /\ taken_sticky omes (ome_of a)) angles mask.
Proof.
  intros H hkls angles etas omes L. eexists _, _. split; [apply (filter_rows hkls angles etas omes L)|]. split.
  - apply gives_filter. intros [h a]. cbn [snd]. apply row_ok_iff.
  - clear L. induction angles as [|a l IH]; cbn; constructor; auto. apply row_ok_iff.
Qed.
Print Assumptions C151_filter.
Theorem C151_mismatch : forall {H} (hkls : list H) angles etas omes, List.length angles <> (2 * List.length hkls)%nat ->
  filter_hkls_eta_ome hkls angles etas omes = Err IndexError.
Proof. intros. now apply filter_mismatch. Qed.
Print Assumptions C151_mismatch.
(** the sense of every omega range is its own when the increasing ones come first *)
Theorem C151_senses_partial : forall rs a,
  (forall i j r r', (i < j)%nat -> nth_error rs i = Some r -> nth_error rs j = Some r' -> decreasing r -> decreasing r') ->
  (taken_sticky rs a <-> taken_own_sense rs a).
Proof.
  intros rs a M. split.
  - intros (i & r & b & E & B & T). exists r, b. split; [eapply nth_error_In; eassumption|]. split; auto. rewrite B. split.
    + intros (j & r' & L & E' & D). destruct (Nat.eq_dec j i) as [->|N]; [congruence|]. apply (M j i r' r); auto; lia.
    + intros D. exists i, r. auto.
  - intros (r & b & I & B & T). apply In_nth_error in I as [i E]. exists i, r, b. split; auto. split; auto. rewrite B. split.
    + intros D. exists i, r. auto.
    + intros (j & r' & L & E' & D). destruct (Nat.eq_dec j i) as [->|N]; [congruence|]. apply (M j i r' r); auto; lia.
Qed.
Print Assumptions C151_senses_partial.
Lemma small_arc : forall s t w, s <= t -> t - s < 2 * PI -> arc_length s t w -> w = t - s.
Proof.
  intros s t w A B L. apply arc_wrapped in L. apply (wrapped_unique _ _ _ L). unfold wrapped, two_pi. split; [lra|]. exists 0%Z. split; [ring|]. split; intros; [lia|lia].
Qed.
Lemma arc_ex : forall s t, s <= t -> t - s < 2 * PI -> arc_length s t (t - s).
Proof. intros s t A B. apply arc_wrapped. unfold wrapped, two_pi. split; [lra|]. exists 0%Z. split; [ring|]. split; intros; lia. Qed.
(** an increasing range after a decreasing one is read as its complement *)
Theorem C151_senses_refuted :
  let rs := [(2 / 10, 1 / 10); (1, 2)] in
  taken_sticky rs (Some 3) /\ ~ taken_own_sense rs (Some 3) /\ taken_own_sense rs (Some (15 / 10)) /\ ~ taken_sticky rs (Some (15 / 10)).
Proof.
  intros rs. pose proof two_pi_big as P. unfold two_pi in P. unfold tolerance in *.
  assert (N1 : forall x, 1 / 2 < x < 5 -> ~ takes false (2 / 10, 1 / 10) (Some x)).
  { intros x B (w & A & C). unfold arc_start, arc_stop, tolerance in *. cbn [fst snd] in *. apply small_arc in A; [|lra|lra].
    destruct C as [C|(th & A' & C)]; [lra|]. apply small_arc in A'; lra. }
  assert (N2 : ~ takes true (1, 2) (Some 3)).
  { intros (w & A & C). unfold arc_start, arc_stop, tolerance in *. cbn [fst snd] in *. apply small_arc in A; [|lra|lra].
    destruct C as [C|(th & A' & C)]; [lra|]. apply small_arc in A'; lra. }
  assert (AC : arc_length 2 1 (2 * PI - 1)). { apply arc_wrapped. unfold wrapped, two_pi. split; [lra|]. exists 1%Z. split; [ring|]. split; intros; lra || lia. }
  repeat split.
  - exists 1%nat, (1, 2), false. split; auto. split. { split; auto. intros _. exists 0%nat, (2 / 10, 1 / 10). repeat split; auto. unfold decreasing; cbn; lra. }
    exists (2 * PI - 1). split; [exact AC|right]. exists (3 - 2). unfold tolerance. cbn. split; [apply arc_ex; lra|lra].
  - intros (r & b & [<-|[<-|[]]] & B & T); unfold decreasing in B; cbn [fst snd] in B.
    + assert (b = false) as -> by (apply B; lra). revert T. apply N1. lra.
    + destruct b; [now apply N2|]. assert (2 < 1) by now apply B. lra.
  - exists (1, 2), true. split; [cbn; auto|]. split. { unfold decreasing; cbn [fst snd]. split; [discriminate|lra]. }
    exists (2 - 1). unfold arc_start, arc_stop, tolerance. cbn [fst snd]. split; [apply arc_ex; lra|right]. exists (15 / 10 - 1). split; [apply arc_ex; lra|lra].
  - intros ([|[|i]] & r & b & E & B & T); try discriminate.
    + injection E as <-. assert (b = false) as ->. { apply B. exists 0%nat, (2 / 10, 1 / 10). repeat split; auto. unfold decreasing; cbn; lra. } revert T. apply N1. lra.
    + injection E as <-. assert (b = false) as ->. { apply B. exists 0%nat, (2 / 10, 1 / 10). repeat split; auto. unfold decreasing; cbn; lra. }
      destruct T as (w & A & C). unfold arc_start, arc_stop, tolerance in *. cbn [fst snd] in *. apply arc_wrapped in A. apply arc_wrapped in AC. rewrite (wrapped_unique _ _ _ A AC) in C.
      destruct C as [C|(th & A' & C)]; [lra|].
      assert (A2 : arc_length 2 (15 / 10) (2 * PI - 5 / 10)). { apply arc_wrapped. unfold wrapped, two_pi. split; [lra|]. exists 1%Z. split; [lra|]. split; intros; lra || lia. }
      apply arc_wrapped in A', A2. rewrite (wrapped_unique _ _ _ A' A2) in C. lra.
    + destruct i; discriminate.
Qed.
Print Assumptions C151_senses_refuted.
(** the default ranges, a whole turn each, let every row pass, solutions that do not exist included *)
Theorem C151_whole_turn : forall {H} (hkls : list H) angles, List.length angles = (2 * List.length hkls)%nat ->
  exists mask, filter_hkls_eta_ome hkls angles [(- PI, PI)] [(- PI, PI)] = Ok (angles, hkls ++ hkls, mask).
Proof.
  intros H hkls angles L. eexists. rewrite (filter_rows hkls angles _ _ L).
  assert (T : forall a, takes true (- PI, PI) a).
  { intros a. exists (2 * PI). unfold arc_start, arc_stop, tolerance. cbn [fst snd]. pose proof PI_RGT_0. split.
    { exists 0%Z. split; [ring|]. right. left. split; auto. lia. }
    right. destruct a as [x|]; [|split; lra]. destruct (wrap_ok (x - - PI)) as (th & _ & W). exists th. split; [now apply arc_wrapped|]. destruct W as [W _]. unfold two_pi in W. lra. }
  assert (R : forall a, row_ok [(- PI, PI)] [(- PI, PI)] a = true).
  { intros a. apply row_ok_iff. split. { exists (- PI, PI). split; [now left|apply T]. }
    exists 0%nat, (- PI, PI), true. split; auto. split; [|apply T]. split; [discriminate|]. intros (j & r & Lj & E & D). assert (j = 0%nat) as -> by lia. injection E as <-.
    unfold decreasing in D. cbn in D. pose proof PI_RGT_0. lra. }
  assert (F : forall l, filter (fun p : H * option angs => row_ok [(- PI, PI)] [(- PI, PI)] (snd p)) l = l) by (induction l as [|p l IH]; cbn [filter]; auto; now rewrite R, IH).
  rewrite F. destruct (combine_split_map (hkls ++ hkls) angles) as [-> ->]; [rewrite app_length; lia|]. reflexivity.
Qed.
Print Assumptions C151_whole_turn.
Example C151_ex : exists mask, filter_hkls_eta_ome [1%Z] [Some (1, 2, 3); None] [(- PI, PI)] [(- PI, PI)] = Ok ([Some (1, 2, 3); None], [1%Z; 1%Z], mask).
Proof. apply (C151_whole_turn [1%Z] [Some (1, 2, 3); None]). reflexivity. Qed.

(** ** C152: the spots of a grain on a panel *)
(** what a row (indices and one solution) gives: the solution is in the ranges, its omega is brought into the period, and the position
    found for it is on the panel *)
Definition spot_row {H XY G} (project : G -> angs -> option XY) (inside : XY -> bool) (g : G) (etas omes : list (R * R)) (lo hi : R)
    (row : H * option angs) (s : H * angs * XY) : Prop :=
  exists h t e o o' xy, row = (h, Some (t, e, o)) /\ s = (h, (t, e, o'), xy) /\ taken_ccw etas (Some e) /\ taken_sticky omes (Some o) /\ brought lo hi o o' /\
    project g (t, e, o') = Some xy /\ inside xy = true.
Lemma combine_app_len : forall {A B} (x x' : list A) (y y' : list B), List.length y = List.length x -> combine (x ++ x') (y ++ y') = combine x y ++ combine x' y'.
Proof. induction x as [|a x IH]; intros x' [|b y] y' L; cbn in *; try discriminate; auto. now rewrite IH by lia. Qed.
Theorem C152_grain : forall {H XY PS G} K oscill project inside (pixel_size : XY -> PS) tvec_of (hkls : list H) etas omes lo hi w ec tvec_s (g : G) w' first second,
  hi - lo = 2 * PI -> apply_correction_to_wavelength K w ec tvec_s (tvec_of g) = Ok w' ->
  oscill w' g hkls = (first, second) -> List.length first = List.length hkls -> List.length second = List.length hkls ->
  exists spots, simulate_grain K oscill project inside pixel_size tvec_of hkls etas omes (lo, hi) w ec tvec_s g =
    Ok (SERIES (map (fun s => fst (fst s)) spots) (map (fun s => Some (snd (fst s))) spots) (map snd spots) (map (fun s => pixel_size (snd s)) spots)) /\
    gives (spot_row project inside g etas omes lo hi) (combine hkls first ++ combine hkls second) spots.
Proof.
  intros H XY PS G K oscill project inside pixel_size tvec_of hkls etas omes lo hi w ec tvec_s g w' first second W E O L1 L2. eexists. split.
  - apply (grain_lemma K oscill project inside pixel_size tvec_of hkls etas omes lo hi w ec tvec_s g w' W E). rewrite O. cbn [fst snd]. rewrite app_length. lia.
  - rewrite O. cbn [fst snd]. pose proof (spots_gives project inside g etas omes lo hi (combine hkls first ++ combine hkls second) W) as S1.
    assert (C : combine (hkls ++ hkls) (first ++ second) = combine hkls first ++ combine hkls second).
    { now apply combine_app_len. }
    rewrite C. exact S1.
Qed.
Print Assumptions C152_grain.
(** the period of the omegas must be one turn *)
Theorem C152_period : forall {H XY PS G} K oscill project inside (pixel_size : XY -> PS) tvec_of (hkls : list H) etas omes lo hi w ec tvec_s (g : G) out,
  / 100000000 + / 100000 * (2 * PI) < Rabs (hi - lo - 2 * PI) -> simulate_grain K oscill project inside pixel_size tvec_of hkls etas omes (lo, hi) w ec tvec_s g <> Ok out.
Proof.
  intros H XY PS G K oscill project inside pixel_size tvec_of hkls etas omes lo hi w ec tvec_s g out B Q. unfold simulate_grain in Q.
  destruct (apply_correction_to_wavelength _ _ _ _ _); [|discriminate]. cbn [rbind] in Q. destruct (oscill _ _ _) as [o0 o1].
  destruct (filter_hkls_eta_ome _ _ _ _) as [[[al hk] m]|]; [|discriminate]. cbn [rbind] in Q. rewrite (map_omegas_bad lo hi al B) in Q. discriminate.
Qed.
Print Assumptions C152_period.
(** every grain gets its own series; the wavelength used is the one given, if one is given *)
Theorem C152_series : forall {H XY PS G} K oscill project inside (pixel_size : XY -> PS) tvec_of pdw tth_nan (hkls : R -> list H) (grains : list G) etas omes period tvec_s w ec out pdw',
  simulate_rotation_series K oscill project inside pixel_size tvec_of pdw tth_nan hkls grains etas omes period tvec_s w ec = Ok (out, pdw') ->
  Forall2 (fun g s => simulate_grain K oscill project inside pixel_size tvec_of (hkls pdw') etas omes period (match w with Some x => x | None => pdw end) ec tvec_s g = Ok s) grains out /\
  tth_nan pdw' = false /\
  (w = None -> pdw' = pdw) /\ (forall x, w = Some x -> K <> 0 -> pdw' = x \/ (pdw' = pdw /\ Rabs (pdw - x) <= / 100000000 + / 100000 * Rabs x)).
Proof.
  intros H XY PS G K oscill project inside pixel_size tvec_of pdw tth_nan hkls grains etas omes period tvec_s w ec out pdw' E. unfold simulate_rotation_series in E.
  destruct w as [x|].
  - destruct (Req_EM_T pdw x) as [->|N]; cbn [rbind] in E.
    + destruct (tth_nan x) eqn:T; [discriminate|]. destruct (map_result _ _) as [l|] eqn:M; [|discriminate]. cbn [rbind] in E. injection E as <- <-.
      split. { now apply map_result_inv in M. } split; auto. split; [discriminate|]. intros y Y. injection Y as <-. auto.
    + unfold set_wavelength, keVToAngstrom, rdiv in E. destruct (Req_EM_T x 0) as [|NX]; [discriminate|]. cbn [rbind] in E.
      destruct (Req_EM_T (K / x) 0) as [|NK]; [discriminate|]. cbn [rbind] in E.
      assert (KX : K <> 0 -> K / (K / x) = x) by (intros; field; auto).
      destruct (tth_nan _) eqn:T; [discriminate|]. destruct (map_result _ _) as [l|] eqn:M; [|discriminate]. cbn [rbind] in E. injection E as <- <-.
      split. { now apply map_result_inv in M. } split; auto. split; [discriminate|]. intros y Y. injection Y as <-. intros KN. rewrite (KX KN). unfold allclose.
      destruct (Rle_dec _ _); auto.
  - cbn [rbind] in E. destruct (tth_nan pdw) eqn:T; [discriminate|]. destruct (map_result _ _) as [l|] eqn:M; [|discriminate]. cbn [rbind] in E. injection E as <- <-.
    split. { now apply map_result_inv in M. } split; auto. split; auto. discriminate.
Qed.
Print Assumptions C152_series.
(** a reflection that does not diffract at the wavelength stops the simulation *)
Theorem C152_nan : forall {H XY PS G} K oscill project inside (pixel_size : XY -> PS) tvec_of pdw tth_nan (hkls : R -> list H) (grains : list G) etas omes period tvec_s ec,
  tth_nan pdw = true ->
  simulate_rotation_series K oscill project inside pixel_size tvec_of pdw tth_nan hkls grains etas omes period tvec_s None ec = Err AssertionError.
Proof. intros. unfold simulate_rotation_series. cbn [rbind]. now rewrite H0. Qed.
Print Assumptions C152_nan.
Definition row_ex : option angs := Some (0, 0, 0).
Definition osc_ex (w : R) (g : nat) (l : list nat) : list (option angs) * list (option angs) := if Req_EM_T w 1 then ([row_ex], [row_ex]) else ([None], [None]).
(** the plane data handed in are changed: a second call without a wavelength does not repeat a first call *)
Theorem C152_unchanged_refuted :
  exists (oscill : R -> nat -> list nat -> list (option angs) * list (option angs)) (project : nat -> angs -> option nat) inside (size : nat -> nat) tv hk grains etas omes per tv_s,
  let run pdw w := simulate_rotation_series 12 oscill project inside size tv pdw (fun _ => false) hk grains etas omes per tv_s w None in
  exists a b pdw1 pdw2, run 1 None = Ok (a, pdw1) /\ run pdw1 (Some 2) = Ok (b, pdw2) /\ pdw1 = 1 /\ pdw2 = 2 /\ a <> b /\ exists c, run pdw2 None = Ok (c, 2) /\ c <> a.
Proof.
  exists osc_ex, (fun _ _ => Some 0%nat), (fun _ => true), (fun x => x), (fun _ => (0, 0, 0)),
    (fun _ => [7%nat]), [0%nat], [(- PI, PI)], [(- PI, PI)], (- PI, PI), (0, 0, 0). cbn zeta.
  assert (PP : PI - - PI = 2 * PI) by ring.
  assert (G1 : exists x t, simulate_grain 12 osc_ex (fun _ _ => Some 0%nat) (fun _ => true) (fun x : nat => x) (fun _ => (0, 0, 0)) [7%nat] [(- PI, PI)] [(- PI, PI)] (- PI, PI) 1 None (0, 0, 0) 0%nat = Ok (SERIES (7%nat :: x) t [0%nat; 0%nat] [0%nat; 0%nat])).
  { unfold simulate_grain. cbn [apply_correction_to_wavelength rbind]. unfold osc_ex. destruct (Req_EM_T 1 1) as [_|N]; [|now exfalso].
    destruct (C151_whole_turn [7%nat] [row_ex; row_ex] eq_refl) as (m & E). cbn [app] in *. rewrite E. cbn [rbind]. rewrite (map_omegas_ok (- PI) PI _ PP). unfold row_ex. cbn [rbind map mo].
    destruct (map_brought 0 (- PI) PI PP) as (v & Ev & _). rewrite Ev. cbn. eexists _, _. reflexivity. }
  assert (G2 : simulate_grain 12 osc_ex (fun _ _ => Some 0%nat) (fun _ => true) (fun x : nat => x) (fun _ => (0, 0, 0)) [7%nat] [(- PI, PI)] [(- PI, PI)] (- PI, PI) 2 None (0, 0, 0) 0%nat = Ok (SERIES [] [] [] [])).
  { unfold simulate_grain. cbn [apply_correction_to_wavelength rbind]. unfold osc_ex. destruct (Req_EM_T 2 1) as [N|_]; [lra|].
    destruct (C151_whole_turn [7%nat] [None; None] eq_refl) as (m & E). cbn [app] in *. rewrite E. cbn [rbind]. rewrite (map_omegas_ok (- PI) PI _ PP). cbn. reflexivity. }
  destruct G1 as (x & t & G1). exists [SERIES (7%nat :: x) t [0%nat; 0%nat] [0%nat; 0%nat]], [SERIES [] [] [] []], 1, 2.
  unfold simulate_rotation_series. cbn [rbind map_result]. rewrite G1. cbn [rbind]. split; auto.
  destruct (Req_EM_T 1 2) as [N|_]; [lra|]. unfold set_wavelength, keVToAngstrom, rdiv. destruct (Req_EM_T 2 0) as [N|_]; [lra|]. cbn [rbind]. destruct (Req_EM_T (12 / 2) 0) as [N|_]; [lra|]. cbn [rbind].
  replace (12 / (12 / 2)) with 2 by field. unfold allclose. destruct (Rle_dec (Rabs (1 - 2)) _) as [Q|_].
  { exfalso. rewrite Rabs_left1, Rabs_right in Q by lra. lra. }
  rewrite G2. cbn [rbind]. repeat split; try discriminate. exists [SERIES [] [] [] []]. split; auto. discriminate.
Qed.
Print Assumptions C152_unchanged_refuted.

(** ** C153: the energy correction, and the older simulation *)
Theorem C153_correction : forall K w ec tvec_s tvec_c w', K <> 0 -> apply_correction_to_wavelength K w (Some ec) tvec_s tvec_c = Ok w' ->
  energy K w' = energy K w + ec_slope ec / 1000 *
    (match ec_axis ec with AxisY => snd (fst tvec_c) + snd (fst tvec_s) | _ => fst (fst tvec_c) + fst (fst tvec_s) end - ec_intercept ec).
Proof.
  intros K w ec [[sx sy] sz] [[cx cy] cz] w' KN E. unfold apply_correction_to_wavelength, rdiv in E. cbn [fst snd]. destruct (Req_EM_T w 0) as [|NW]; [discriminate|]. cbn [rbind] in E.
  match type of E with (if Req_EM_T ?d 0 then _ else _) = _ => destruct (Req_EM_T d 0) as [|ND]; [discriminate|]; set (D := d) in * end. injection E as <-. unfold energy.
  replace (K / (K / D)) with D by (field; auto). unfold D. destruct (ec_axis ec); field; auto.
Qed.
Print Assumptions C153_correction.
Theorem C153_defined : forall K w ec tvec_s tvec_c, w <> 0 ->
  energy K w + ec_slope ec / 1000 * (match ec_axis ec with AxisY => snd (fst tvec_c) + snd (fst tvec_s) | _ => fst (fst tvec_c) + fst (fst tvec_s) end - ec_intercept ec) <> 0 ->
  exists w', apply_correction_to_wavelength K w (Some ec) tvec_s tvec_c = Ok w'.
Proof.
  intros K w ec [[sx sy] sz] [[cx cy] cz] NW ND. unfold apply_correction_to_wavelength, rdiv. cbn [fst snd] in *. destruct (Req_EM_T w 0); [contradiction|]. cbn [rbind].
  match goal with |- exists w', (if Req_EM_T ?d 0 then _ else _) = _ => destruct (Req_EM_T d 0) as [Z|_] end; [|eauto]. exfalso. apply ND. rewrite <- Z. unfold energy. destruct (ec_axis ec); field; auto.
Qed.
Print Assumptions C153_defined.
Theorem C153_none : forall K w tvec_s tvec_c, apply_correction_to_wavelength K w None tvec_s tvec_c = Ok w.
Proof. reflexivity. Qed.
Print Assumptions C153_none.
(** at the intercept nothing changes *)
Theorem C153_intercept : forall K w i sl tvec_s x y z, w <> 0 -> K <> 0 -> x + fst (fst tvec_s) = i ->
  apply_correction_to_wavelength K w (Some (ECORR i sl AxisX)) tvec_s (x, y, z) = Ok w.
Proof.
  intros K w i sl [[sx sy] sz] x y z NW NK E. cbn [fst snd] in E. unfold apply_correction_to_wavelength, rdiv. cbn [ec_axis ec_intercept ec_slope]. destruct (Req_EM_T w 0); [contradiction|]. cbn [rbind].
  replace (K / w + (x + sx - i) * sl / 1000) with (K / w) by (rewrite E; field; auto). destruct (Req_EM_T (K / w) 0) as [Z|_].
  - exfalso. apply NK. replace K with (K / w * w) by (field; auto). rewrite Z. ring.
  - f_equal. field. auto.
Qed.
Print Assumptions C153_intercept.
(** an axis that is neither x nor y is taken to be x *)
Theorem C153_axis_refuted : forall K w i sl tvec_s tvec_c,
  apply_correction_to_wavelength K w (Some (ECORR i sl AxisOther)) tvec_s tvec_c = apply_correction_to_wavelength K w (Some (ECORR i sl AxisX)) tvec_s tvec_c.
Proof. reflexivity. Qed.
Print Assumptions C153_axis_refuted.
(** the older function gives a result only when no solution passes the filter *)
Theorem C153_older_refuted : forall {H XY PS G} K oscill project inside (tvec_of : G -> R * R * R) (sizes : option angs -> list XY -> list PS)
    (hkls : list H) etas omes period w ec tvec_s (g : G) out,
  simulateGVecs K oscill project inside tvec_of sizes hkls etas omes period w ec tvec_s g = Ok out ->
  out = SERIES [] [] [] [] /\
  exists w' first second, apply_correction_to_wavelength K w ec tvec_s (tvec_of g) = Ok w' /\ oscill w' g hkls = (first, second) /\
    forall a, In a (first ++ second) -> ~ (taken_ccw etas (eta_of a) /\ taken_sticky omes (ome_of a)).
Proof.
  intros H XY PS G K oscill project inside tvec_of sizes hkls etas omes period w ec tvec_s g out E. unfold simulateGVecs in E.
  destruct (apply_correction_to_wavelength _ _ _ _ _) as [w'|]; [|discriminate]. cbn [rbind] in E. destruct (oscill w' g hkls) as [o0 o1] eqn:O.
  destruct (Nat.eq_dec (List.length (o0 ++ o1)) (2 * List.length hkls)) as [L|L]; [|rewrite (filter_mismatch hkls (o0 ++ o1) etas omes L) in E; discriminate].
  rewrite (filter_rows hkls (o0 ++ o1) etas omes L) in E. cbn [rbind] in E.
  destruct (filter (fun p => row_ok etas omes (snd p)) (combine (hkls ++ hkls) (o0 ++ o1))) as [|p rows] eqn:F.
  - cbn [map] in E. injection E as <-. split; auto. exists w', o0, o1. split; auto. split; auto. intros a I T. apply row_ok_iff in T.
    destruct (combine_split_map (hkls ++ hkls) (o0 ++ o1)) as [_ S2]; [rewrite app_length; lia|]. rewrite <- S2 in I. apply in_map_iff in I as (q & <- & I).
    assert (J : In q (filter (fun p => row_ok etas omes (snd p)) (combine (hkls ++ hkls) (o0 ++ o1)))) by (apply filter_In; auto). rewrite F in J. destruct J.
  - cbn [map] in E. unfold project_on_detector_plane in E. destruct (take_where _ _); discriminate.
Qed.
Print Assumptions C153_older_refuted.
Example C153_ex : apply_correction_to_wavelength 12 1 (Some (ECORR 1 1000 AxisY)) (0, 1, 0) (5, 4, 0) = Ok (12 / 16).
Proof.
  unfold apply_correction_to_wavelength, rdiv. cbn [ec_axis ec_intercept ec_slope]. destruct (Req_EM_T 1 0); [lra|]. cbn [rbind]. replace (12 / 1 + (4 + 1 - 1) * 1000 / 1000) with 16 by lra.
  destruct (Req_EM_T 16 0); [lra|]. reflexivity.
Qed.
