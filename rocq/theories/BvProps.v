(** C161, C162: the beam direction, wedges and other helpers of an instrument *)
From Coq Require Import Reals String List ZArith Lra Lia.
From Verif Require Import Prelude Lin TensorModel XfModel XfTrig BvModel BvSpec.
Import ListNotations.
Local Open Scope R_scope.
Local Notation length := List.length.

Lemma deg_rad : forall x, radians (degrees x) = x.
Proof. intros. unfold radians, degrees. field. apply PI_neq0. Qed.
Lemma rad_deg : forall x, degrees (radians x) = x.
Proof. intros. unfold radians, degrees. field. apply PI_neq0. Qed.
Lemma v3_eq : forall a b, vx a = vx b -> vy a = vy b -> vz a = vz b -> a = b.
Proof. intros [] [] ; cbn. congruence. Qed.
Lemma unit_of : forall v, norm v = 1 -> fst (unit_row_vector v) = v.
Proof.
  intros v H. unfold unit_row_vector. rewrite H. destruct (Rlt_dec c_epsf 1) as [L|L]; cbn [fst]; [|reflexivity]. destruct v; cbn. f_equal; field.
Qed.
Lemma eps_small : 0 < c_epsf < 1.
Proof. unfold c_epsf. split; [apply Rinv_0_lt_compat; lra|]. rewrite <- Rinv_1. apply Rinv_lt_contravar; lra. Qed.

(** ** C161: the beam direction and its two angles *)
Theorem C161_unit : forall azim pola, calc_beam_vec azim pola = vneg (towards azim pola) /\ norm (calc_beam_vec azim pola) = 1.
Proof.
  intros a p. split.
  - unfold calc_beam_vec, towards, vneg, vscale, radians. cbn [vx vy vz]. replace (a * (PI / 180)) with (a * PI / 180) by field. replace (p * (PI / 180)) with (p * PI / 180) by field. apply v3_eq; cbn [vx vy vz]; ring.
  - unfold norm, norm2, dot, calc_beam_vec. cbn [vx vy vz]. pose proof (sin2_cos2 (radians a)) as A. pose proof (sin2_cos2 (radians p)) as P. unfold Rsqr in A, P.
    rewrite <- sqrt_1. f_equal. rewrite <- P. transitivity (sin (radians p) * sin (radians p) * (sin (radians a) * sin (radians a) + cos (radians a) * cos (radians a)) + cos (radians p) * cos (radians p)); [ring|]. rewrite A. ring.
Qed.
Print Assumptions C161_unit.
(** the angles of the direction of two angles are those angles; at a pole the azimuth is lost *)
Theorem C161_angles_back : forall azim pola, (- 180 < azim <= 180 -> 0 < pola < 180 -> calc_angles_from_beam_vec (calc_beam_vec azim pola) = (azim, pola)) /\
  (pola = 0 \/ pola = 180 -> calc_angles_from_beam_vec (calc_beam_vec azim pola) = (0, pola)).
Proof.
  intros a p. pose proof PI_RGT_0 as PP.
  assert (E : calc_angles_from_beam_vec (calc_beam_vec a p) = (degrees (atan2 (sin (radians p) * sin (radians a)) (sin (radians p) * cos (radians a))), degrees (acos (cos (radians p))))).
  { unfold calc_angles_from_beam_vec, calc_beam_vec. cbn [vx vy vz]. rewrite unit_of; [cbn [vx vy vz]; now rewrite !Ropp_involutive|]. rewrite !Ropp_involutive.
    destruct (C161_unit a p) as [_ U]. unfold norm, norm2, dot, calc_beam_vec in U |- *. cbn [vx vy vz] in U |- *. rewrite <- U. f_equal. ring. }
  rewrite E. split.
  - intros A P. assert (RP : 0 < radians p < PI) by (unfold radians; split; [nra|]; replace PI with (180 * (PI / 180)) at 2 by field; apply Rmult_lt_compat_r; lra).
    assert (RA : - PI < radians a <= PI). { unfold radians. split; [replace (- PI) with (- 180 * (PI / 180)) by field; apply Rmult_lt_compat_r; lra|]. replace PI with (180 * (PI / 180)) at 2 by field. apply Rmult_le_compat_r; lra. }
    rewrite acos_cos by lra. rewrite atan2_of; [now rewrite !rad_deg| |assumption]. apply sin_gt_0; lra.
  - intros P. assert (S0 : sin (radians p) = 0). { destruct P as [-> | ->]; unfold radians; [rewrite Rmult_0_l; apply sin_0|replace (180 * (PI / 180)) with PI by field; apply sin_PI]. }
    rewrite S0, !Rmult_0_l. f_equal.
    + unfold atan2. destruct (Rlt_dec 0 0); [lra|]. unfold degrees. ring.
    + rewrite acos_cos; [apply rad_deg|]. destruct P as [-> | ->]; unfold radians; [lra|]. replace (180 * (PI / 180)) with PI by field. lra.
Qed.
Print Assumptions C161_angles_back.
(** the direction of the angles of a vector is the vector's direction, and the angles are in their ranges *)
Theorem C161_direction_back : forall b, c_epsf < norm b -> let '(azim, pola) := calc_angles_from_beam_vec b in
  vscale (norm b) (calc_beam_vec azim pola) = b /\ - 180 < azim <= 180 /\ 0 <= pola <= 180.
Proof.
  intros b N. pose proof eps_small as ES. pose proof PI_RGT_0 as PP. unfold calc_angles_from_beam_vec.
  set (m := V3 (- vx b) (- vy b) (- vz b)). assert (NM : norm m = norm b). { unfold norm, norm2, dot, m. cbn [vx vy vz]. f_equal. ring. }
  unfold unit_row_vector. rewrite NM. destruct (Rlt_dec c_epsf (norm b)) as [_|]; [|contradiction]. cbn [fst vx vy vz m]. set (n := norm b) in *.
  set (x := - vx b / n). set (y := - vy b / n). set (z := - vz b / n).
  assert (U : x * x + y * y + z * z = 1). { pose proof (norm_sq b) as Q. fold n in Q. unfold norm2, dot in Q. unfold x, y, z. replace (- vx b / n * (- vx b / n) + - vy b / n * (- vy b / n) + - vz b / n * (- vz b / n)) with ((vx b * vx b + vy b * vy b + vz b * vz b) / (n * n)) by (field; lra). rewrite <- Q. field. lra. }
  assert (Y : - 1 <= y <= 1) by nra. split.
  - unfold calc_beam_vec. rewrite !deg_rad. rewrite cos_acos by assumption.
    assert (SP : sin (acos y) = sqrt (x * x + z * z)). { rewrite sin_acos by assumption. f_equal. unfold Rsqr. lra. }
    rewrite SP. destruct (Req_dec (x * x + z * z) 0) as [Z0|NZ].
    + assert (x = 0 /\ z = 0) as [X0 Z1] by nra. rewrite Z0, sqrt_0. unfold vscale. cbn [vx vy vz]. apply v3_eq; cbn [vx vy vz].
      * unfold x in X0. apply (Rmult_eq_compat_r n) in X0. replace (- vx b / n * n) with (- vx b) in X0 by (field; lra). lra.
      * unfold y. field. lra.
      * unfold z in Z1. apply (Rmult_eq_compat_r n) in Z1. replace (- vz b / n * n) with (- vz b) in Z1 by (field; lra). lra.
    + assert (H : x <> 0 \/ z <> 0). { destruct (Req_dec x 0) as [->|]; auto. right. intros ->. apply NZ. ring. }
      destruct (atan2_polar x z H) as [C S1]. rewrite C, S1. assert (R0 : sqrt (x * x + z * z) <> 0) by (apply Rgt_not_eq, sqrt_lt_R0; nra).
      unfold vscale. cbn [vx vy vz]. apply v3_eq; cbn [vx vy vz].
      * replace (n * - (sqrt (x * x + z * z) * (x / sqrt (x * x + z * z)))) with (n * - x) by (field; auto). unfold x. field. lra.
      * unfold y. field. lra.
      * replace (n * - (sqrt (x * x + z * z) * (z / sqrt (x * x + z * z)))) with (n * - z) by (field; auto). unfold z. field. lra.
  - assert (DP : 180 = PI * (180 / PI)) by (field; lra). assert (D : 0 < 180 / PI) by (apply Rdiv_lt_0_compat; lra).
    pose proof (atan2_range x z) as [A1 A2]. pose proof (acos_bound y) as [B1 B2]. unfold degrees. revert DP D. generalize (180 / PI) as k. intros k DP D.
    assert (- PI * k < atan2 z x * k) by (apply Rmult_lt_compat_r; lra). assert (atan2 z x * k <= PI * k) by (apply Rmult_le_compat_r; lra).
    assert (0 * k <= acos y * k) by (apply Rmult_le_compat_r; lra). assert (acos y * k <= PI * k) by (apply Rmult_le_compat_r; lra). repeat split; lra.
Qed.
Print Assumptions C161_direction_back.
(** a vector shorter than the machine epsilon is not normalised: the null vector is read as a beam along minus x *)
Theorem C161_short_refuted : calc_angles_from_beam_vec (V3 0 0 0) = (0, 90) /\ calc_beam_vec 0 90 = V3 (-1) 0 0.
Proof.
  pose proof eps_small as ES. pose proof PI_RGT_0. split.
  - unfold calc_angles_from_beam_vec, unit_row_vector. cbn [vx vy vz]. assert (Z : norm (V3 (- 0) (- 0) (- 0)) = 0). { unfold norm, norm2, dot. cbn [vx vy vz]. replace (- 0 * - 0 + - 0 * - 0 + - 0 * - 0) with 0 by ring. apply sqrt_0. }
    rewrite Z. destruct (Rlt_dec c_epsf 0); [lra|]. cbn [fst vx vy vz]. rewrite Ropp_0, acos_0. unfold atan2. destruct (Rlt_dec 0 0); [lra|]. unfold degrees. f_equal; field; lra.
  - unfold calc_beam_vec, radians. replace (90 * (PI / 180)) with (PI / 2) by field. rewrite Rmult_0_l, sin_PI2, cos_PI2, cos_0, sin_0. apply v3_eq; cbn [vx vy vz]; ring.
Qed.
Print Assumptions C161_short_refuted.
Example C161_ex : calc_angles_from_beam_vec (calc_beam_vec (- 30) 60) = (- 30, 60).
Proof. apply C161_angles_back; lra. Qed.

(** ** C162: wedges, centres of edges, the greatest two-theta *)
Lemma npmod_spec : forall a m, 0 < m -> 0 <= npmod a m < m /\ exists k, npmod a m = a + IZR k * m.
Proof.
  intros a m M. unfold npmod. pose proof (base_Int_part (a / m)) as [A B]. assert (E : a = a / m * m) by (field; lra). split.
  - split; apply Rmult_le_compat_r with (r := m) in A; try lra. assert (a / m - 1 < IZR (Int_part (a / m))) as C by lra. apply Rmult_lt_compat_r with (r := m) in C; lra.
  - exists (- Int_part (a / m))%Z. rewrite opp_IZR. ring.
Qed.
Lemma wedge_iff : forall tau angle amin amax, 0 < tau -> (amin + npmod (angle - amin) tau < amax <-> in_wedge tau angle (amin, amax)).
Proof.
  intros tau angle amin amax T. destruct (npmod_spec (angle - amin) tau T) as [[L U] [k K]]. unfold in_wedge. cbn [fst snd]. split.
  - intros H. exists k. lra.
  - intros (j & J1 & J2). assert (Q : IZR k * tau <= IZR j * tau); [|lra].
    apply Rmult_le_compat_r; [lra|]. apply IZR_le. assert (- 1 < IZR (j - k)) as P; [|apply lt_IZR in P; lia]. apply Rmult_lt_reg_r with tau; auto. rewrite minus_IZR. lra.
Qed.
(** the wedge that is found is the first that contains the angle; none is found exactly if none contains it *)
Theorem C162_wedge : forall angle ranges units, let turn := if String.eqb units "radians" then 2 * PI else 360 in
  (forall i, angle_in_range angle ranges units = Some i <->
     exists w, nth_error ranges i = Some w /\ in_wedge turn angle w /\ forall j v, (j < i)%nat -> nth_error ranges j = Some v -> ~ in_wedge turn angle v) /\
  (angle_in_range angle ranges units = None <-> forall w, In w ranges -> ~ in_wedge turn angle w).
Proof.
  intros angle ranges units turn. assert (T : 0 < turn) by (unfold turn; pose proof PI_RGT_0; destruct (String.eqb units "radians"); lra).
  unfold angle_in_range. fold turn. clearbody turn. assert (G : forall l k, match first_wedge turn angle k l with
    | Some i => exists n w, i = (k + n)%nat /\ nth_error l n = Some w /\ in_wedge turn angle w /\ forall j v, (j < n)%nat -> nth_error l j = Some v -> ~ in_wedge turn angle v
    | None => forall w, In w l -> ~ in_wedge turn angle w end).
  { induction l as [|[a b] l IH]; intros k; cbn [first_wedge]; [intros w []|]. destruct (Rlt_dec (a + npmod (angle - a) turn) b) as [L|L].
    - exists 0%nat, (a, b). split; [lia|]. split; [reflexivity|]. split; [now apply wedge_iff|]. intros j v J. lia.
    - assert (NW : ~ in_wedge turn angle (a, b)) by (intros W; apply L; now apply wedge_iff). specialize (IH (S k)). destruct (first_wedge turn angle (S k) l) as [i|].
      + destruct IH as (n & w & -> & N & W & B). exists (S n), w. split; [lia|]. split; auto. split; auto. intros [|j] v J H; cbn in H; [injection H as <-; auto|]. apply (B j v); [lia|auto].
      + intros w [<-|I]; auto. }
  specialize (G ranges 0%nat). destruct (first_wedge turn angle 0 ranges) as [i|]; split.
  - destruct G as (n & w & -> & N & W & B). cbn [Nat.add]. intros i. split.
    + intros H. injection H as <-. eauto.
    + intros (w' & N' & W' & B'). f_equal. destruct (lt_eq_lt_dec n i) as [[L|E]|L]; auto; exfalso; [exact (B' n w L N W)|exact (B i w' L N' W')].
  - split; [discriminate|]. destruct G as (n & w & -> & N & W & _). intros H. exfalso. exact (H w (nth_error_In _ _ N) W).
  - intros i. split; [discriminate|]. intros (w & N & W & _). exfalso. exact (G w (nth_error_In _ _ N) W).
  - split; auto.
Qed.
Print Assumptions C162_wedge.
(** a wedge whose end is not after its start is empty: it is not read across the turn, in either sense *)
Theorem C162_wrap_refuted : forall angle a b units, b <= a -> angle_in_range angle [(a, b)] units = None.
Proof.
  intros angle a b units H. apply (proj2 (C162_wedge angle [(a, b)] units)). intros w [<-|[]] (k & L & U). cbn [fst snd] in *. lra.
Qed.
Print Assumptions C162_wrap_refuted.
(** the centres of edges *)
Theorem C162_centres : forall edges, (forall e, centers_of_edge_vec edges = Err e <-> e = ValueError /\ (length edges < 2)%nat) /\
  forall cs, centers_of_edge_vec edges = Ok cs -> length edges = S (length cs) /\
    forall i a b, nth_error edges i = Some a -> nth_error edges (S i) = Some b -> nth_error cs i = Some ((a + b) / 2).
Proof.
  intros edges. unfold centers_of_edge_vec. destruct (Nat.ltb_spec (length edges) 2) as [L|L]; split.
  - intros e. split; [intros H; injection H as <-; auto|intros [-> _]; reflexivity].
  - discriminate.
  - intros e. split; [discriminate|lia].
  - intros cs H. injection H as <-. split.
    + assert (G : forall l, l <> [] -> length l = S (length (averages l))). { induction l as [|x [|y l] IH]; intros N; [congruence|reflexivity|]. cbn [averages length] in *. f_equal. apply IH. discriminate. } apply G. destruct edges; [cbn in L; lia|discriminate].
    + clear L. induction edges as [|x l IH]; intros i a b A B; [destruct i; discriminate|]. destruct l as [|y l]; [cbn in B; destruct i; discriminate|].
      destruct i as [|i]; [injection A as ->; injection B as ->; reflexivity|]. cbn [averages nth_error]. apply IH; assumption.
Qed.
Print Assumptions C162_centres.
(** the greatest two-theta of the pixels of all panels *)
Theorem C162_max_tth : forall panels, Forall (fun p => p <> []) panels -> Forall (Forall (fun t => 0 <= t)) panels -> panels <> [] ->
  exists m, max_tth panels = Ok m /\ (exists p, In p panels /\ In m p) /\ forall p t, In p panels -> In t p -> t <= m.
Proof.
  intros panels NE NN N. unfold max_tth.
  assert (M : forall l, l <> [] -> exists m, np_max l = Ok m /\ In m l /\ forall t, In t l -> t <= m).
  { induction l as [|x [|y l] IH]; intros H; [congruence| |].
    - exists x. split; [reflexivity|]. split; [now left|]. intros t [->|[]]. lra.
    - destruct IH as (m & E & I & B); [discriminate|]. exists (Rmax x m). cbn [np_max] in *. rewrite E. cbn [rbind]. split; auto. split.
      + unfold Rmax. destruct (Rle_dec x m); [now right|now left].
      + intros t [->|T]; [apply Rmax_l|]. apply Rle_trans with m; [auto|apply Rmax_r]. }
  assert (G : forall ps m0, Forall (fun p => p <> []) ps -> exists m, max_tth_from m0 ps = Ok m /\ m0 <= m /\ (m = m0 \/ exists p, In p ps /\ In m p) /\ forall p t, In p ps -> In t p -> t <= m).
  { clear NE NN N panels. induction ps as [|p ps IH]; intros m0 NE; cbn [max_tth_from].
    - exists m0. repeat split; auto; [lra|]. intros p t [].
    - inversion NE as [|? ? P NE']; subst. destruct (M p P) as (m1 & E & I & B). rewrite E. cbn [rbind]. destruct (IH (Rmax m1 m0) NE') as (m & E2 & L & C & D). exists m. split; auto.
      pose proof (Rmax_l m1 m0). pose proof (Rmax_r m1 m0). split; [lra|]. split.
      + destruct C as [->|(q & Q & C)]; [|right; exists q; split; [now right|auto]]. unfold Rmax. destruct (Rle_dec m1 m0); [now left|]. right. exists p. split; [now left|auto].
      + intros q t [<-|Q] T; [|now apply (D q)]. apply B in T. lra. }
  destruct (G panels 0 NE) as (m & E & L & C & D). exists m. split; auto. split; auto. destruct C as [->|C]; auto.
  destruct panels as [|p panels]; [congruence|]. inversion NE as [|? ? P NE']; subst. inversion NN as [|? ? Q NN']; subst. destruct p as [|t p]; [congruence|].
  exists (t :: p). split; [now left|]. inversion Q as [|? ? T Q']; subst. assert (t = 0) as ->; [|now left]. pose proof (D (t :: p) t (or_introl eq_refl) (or_introl eq_refl)). lra.
Qed.
Print Assumptions C162_max_tth.
Example C162_ex : angle_in_range (- 90) [(0, 90); (180, 300)] "degrees" = Some 1%nat.
Proof.
  apply (proj1 (C162_wedge (- 90) [(0, 90); (180, 300)] "degrees")). exists (180, 300). split; [reflexivity|]. change (if String.eqb "degrees" "radians" then 2 * PI else 360) with 360. split.
  - exists 1%Z. cbn. lra.
  - intros j v J H. assert (j = 0)%nat as -> by lia. injection H as <-. intros (k & A & B). cbn [fst snd] in *. assert (0 < IZR k < 1) as [K1 K2] by lra. apply lt_IZR in K1, K2. lia.
Qed.
