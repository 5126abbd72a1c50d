(** C107, C108: the equation of state and the cell at pressure and temperature. *)
From Coq Require Import Reals List Lra Lia Psatz ClassicalChoice.
From Verif Require Import Prelude Lin LatModel LatSpec EosModel EosSpec EosProofs EosMore.
Import ListNotations.
Local Open Scope R_scope.

(** C107: the pressure is that of the third order Birch-Murnaghan equation; it is zero at the reference volume, where
    the modulus -v dP/dv is the bulk modulus at that temperature. *)
Theorem C107_pressure : forall e t v, calc_pressure e (Some v) t = birch_murnaghan (vt e t) (kt e t) (ktp e t) v.
Proof. exact pressure_bm. Qed.
Theorem C107_reference : forall e t, 0 < vt e t ->
  calc_pressure e (Some (vt e t)) t = 0 /\ derivable_pt_lim (fun v => calc_pressure e (Some v) t) (vt e t) (- kt e t / vt e t).
Proof.
  intros e t V. split; [rewrite pressure_bm; now apply bm_at_v0|]. pose proof (bm_slope (vt e t) (kt e t) (ktp e t) V) as D.
  intros eps He. destruct (D eps He) as (d & Hd). exists d. intros h. rewrite !pressure_bm. apply Hd.
Qed.

(** C107: at 298 K the volume, bulk modulus and derivative are v0, k0 and k0p; at temperature T the volume grows with the coefficient
    alpha_t + dalpha_t_dt * T, the bulk modulus at the rate dk0dt and its derivative at the rate dk0pdt. *)
Theorem C107_temperature : forall e,
  (vt e (Some 298) = e_v0 e /\ vt e None = e_v0 e /\ kt e (Some 298) = e_k0 e /\ kt e None = e_k0 e /\ ktp e (Some 298) = e_k0p e /\ ktp e None = e_k0p e) /\
  forall T, derivable_pt_lim (fun T => vt e (Some T)) T ((e_a0 e + e_a1 e * T) * vt e (Some T)) /\
            derivable_pt_lim (fun T => kt e (Some T)) T (e_dk e) /\ derivable_pt_lim (fun T => ktp e (Some T)) T (e_dkp e).
Proof.
  intros e. split.
  - unfold vt, kt, ktp. replace (e_a0 e * (298 - 298) + / 2 * e_a1 e * (298 ^ 2 - 298 ^ 2)) with 0 by ring. rewrite exp_0. repeat split; ring.
  - intros T. assert (L : forall a b, derivable_pt_lim (fun T => a + b * (T - 298)) T b).
    { intros a b. pose proof (derivable_pt_lim_plus _ _ _ _ _ (derivable_pt_lim_const a T) (derivable_pt_lim_scal _ b _ _ (derivable_pt_lim_minus _ _ _ _ _ (derivable_pt_lim_id T) (derivable_pt_lim_const 298 T)))) as D.
      replace (0 + b * (1 - 0)) with b in D by ring. exact D. }
    split; [|split; [apply L|apply L]].
    assert (P : derivable_pt_lim (fun t => e_a0 e * (t - 298) + / 2 * e_a1 e * (t ^ 2 - 298 ^ 2)) T (e_a0 e + e_a1 e * T)).
    { pose proof (derivable_pt_lim_scal _ (e_a0 e) _ _ (derivable_pt_lim_minus _ _ _ _ _ (derivable_pt_lim_id T) (derivable_pt_lim_const 298 T))) as A.
      pose proof (derivable_pt_lim_scal _ (/ 2 * e_a1 e) _ _ (derivable_pt_lim_minus _ _ _ _ _ (derivable_pt_lim_pow T 2) (derivable_pt_lim_const (298 ^ 2) T))) as B.
      pose proof (derivable_pt_lim_plus _ _ _ _ _ A B) as D. match type of D with derivable_pt_lim _ _ ?d => replace (e_a0 e + e_a1 e * T) with d by (cbn [INR pow pred]; field) end. exact D. }
    pose proof (derivable_pt_lim_scal _ (e_v0 e) _ _ (derivable_pt_lim_comp _ exp _ _ _ P (derivable_pt_lim_exp _))) as D.
    unfold vt. match type of D with derivable_pt_lim _ _ ?d => match goal with |- derivable_pt_lim _ _ ?g => replace g with d by ring end end. exact D.
Qed.
(** C107: so alpha_t is not the coefficient at 298 K, which is what jcpds.py:22 takes it to be, unless dalpha_t_dt is zero. *)
Theorem C107_expansion_refuted : forall e, 0 < e_v0 e -> e_a1 e <> 0 ->
  derivable_pt_lim (fun T => vt e (Some T)) 298 ((e_a0 e + 298 * e_a1 e) * e_v0 e) /\ ~ derivable_pt_lim (fun T => vt e (Some T)) 298 (e_a0 e * e_v0 e).
Proof.
  intros e V A. destruct (C107_temperature e) as ((E & _) & D). destruct (D 298) as (D' & _). rewrite E in D'. rewrite (Rmult_comm 298). split; [exact D'|].
  intros C. pose proof (uniqueness_limite _ _ _ _ C D') as U. assert (Z : e_a1 e * (298 * e_v0 e) = 0) by lra. apply Rmult_integral in Z as [Z|Z]; lra.
Qed.

(** C107: when some volume not above the reference volume has the pressure asked for, the volume returned is the largest such
    volume; its pressure is the one asked for. *)
Theorem C107_volume : forall roots e t p, finds_roots roots -> 0 < vt e t -> kt e t <> 0 ->
  (exists v, 0 < v <= vt e t /\ birch_murnaghan (vt e t) (kt e t) (ktp e t) v = p) ->
  largest_volume (vt e t) (kt e t) (ktp e t) p (calc_volume roots e (Some p) t) /\
  calc_pressure e (Some (calc_volume roots e (Some p) t)) t = p.
Proof.
  intros roots e t p HR V K H. pose proof (volume_found roots HR e t p V K H) as L. split; [exact L|]. rewrite pressure_bm. apply L.
Qed.
(** C107: for a positive bulk modulus whose derivative is at least 4, every pressure from zero up has exactly one volume, and
    volume and pressure are inverse to each other. *)
Theorem C107_inverse : forall roots e t, finds_roots roots -> 0 < vt e t -> 0 < kt e t -> 4 <= ktp e t ->
  (forall p, 0 <= p -> 0 < calc_volume roots e (Some p) t <= vt e t /\ calc_pressure e (Some (calc_volume roots e (Some p) t)) t = p) /\
  (forall v, 0 < v <= vt e t -> calc_volume roots e (Some (calc_pressure e (Some v) t)) t = v) /\
  (forall p q, 0 <= p < q -> calc_volume roots e (Some q) t < calc_volume roots e (Some p) t).
Proof.
  intros roots e t HR V K KP.
  assert (A : forall p, 0 <= p -> 0 < calc_volume roots e (Some p) t <= vt e t /\ calc_pressure e (Some (calc_volume roots e (Some p) t)) t = p).
  { intros p P. destruct (C107_volume roots e t p HR V ltac:(lra) (bm_exists _ _ _ _ V K KP P)) as [(L & _) E]. now split. }
  assert (U : forall v w, 0 < v <= vt e t -> 0 < w <= vt e t -> calc_pressure e (Some v) t <= calc_pressure e (Some w) t -> w <= v).
  { intros v w Bv Bw H. destruct (Rle_or_lt w v) as [|L]; [assumption|]. exfalso. rewrite !pressure_bm in H.
    pose proof (bm_decreasing (vt e t) (kt e t) (ktp e t) v w K KP ltac:(lra) L ltac:(lra)). lra. }
  split; [exact A|split].
  - intros v B. assert (P : 0 <= calc_pressure e (Some v) t).
    { rewrite pressure_bm, bm_lin. apply Rmult_le_pos; [lra|]. apply ppoly_pos; [lra|now apply lin_ge1]. }
    destruct (A _ P) as [B' E]. apply Rle_antisym; apply U; try assumption; lra.
  - intros p q PQ. destruct (A p ltac:(lra)) as [Bp Ep]. destruct (A q ltac:(lra)) as [Bq Eq].
    assert (L : calc_volume roots e (Some q) t <= calc_volume roots e (Some p) t) by (apply U; try assumption; lra).
    destruct L as [L|L]; [assumption|]. exfalso. rewrite <- L in Ep. lra.
Qed.
(** C107: when no volume has the pressure, the reference volume is returned without any sign of it. *)
Theorem C107_no_volume : forall roots e t p, finds_roots roots -> 0 < vt e t -> kt e t <> 0 ->
  (forall v, 0 < v <= vt e t -> birch_murnaghan (vt e t) (kt e t) (ktp e t) v <> p) ->
  calc_volume roots e (Some p) t = vt e t /\ calc_pressure e (Some (calc_volume roots e (Some p) t)) t <> p.
Proof.
  intros roots e t p HR V K N. rewrite (volume_none roots HR e t p V K N). split; [reflexivity|]. rewrite pressure_bm. apply N. lra.
Qed.
(** That is so for the values a new material has (k0 = 100, k0p = 0) at every pressure from 26 GPa. *)
Definition new_material (v0 : R) : eos := Eos v0 100 0 0 0 0 0.
Theorem C107_new_material_refuted : forall roots v0 p, finds_roots roots -> 0 < v0 -> 26 <= p ->
  calc_volume roots (new_material v0) (Some p) None = v0 /\ calc_pressure (new_material v0) (Some v0) None <> p.
Proof.
  intros roots v0 p HR V P.
  assert (N : forall v, 0 < v <= v0 -> birch_murnaghan v0 100 0 v <> p).
  { intros v B. rewrite bm_lin. set (x := lin_of v0 v). assert (X : 1 <= x) by now apply lin_ge1. clearbody x. intros E.
    unfold ppoly in E. assert (G : (x ^ 7 - x ^ 5) * (4 - 3 * x ^ 2) = p / 150) by (rewrite <- E; field). clear E.
    replace ((x ^ 7 - x ^ 5) * (4 - 3 * x ^ 2)) with (x ^ 5 * ((x ^ 2 - 1) * (4 - 3 * x ^ 2))) in G by ring.
    assert (X5 : 1 <= x ^ 5) by (apply pow_R1_Rle; lra). set (h := (x ^ 2 - 1) * (4 - 3 * x ^ 2)) in *.
    assert (H12 : h <= 1 / 12) by (unfold h; pose proof (Rle_0_sqr (x ^ 2 - 7 / 6)) as Hs; unfold Rsqr in Hs; lra).
    destruct (Rle_or_lt x (231 / 200)) as [L|L].
    - assert (Y5 : x ^ 5 <= (231 / 200) ^ 5) by (apply pow_incr; lra). destruct (Rle_or_lt h 0) as [Hh|Hh]; [nra|].
      assert (x ^ 5 * h <= (231 / 200) ^ 5 * (1 / 12)) by (apply Rmult_le_compat; lra). lra.
    - assert (h <= 0). { unfold h. assert ((231 / 200) ^ 2 < x ^ 2) by nra. assert (4 - 3 * x ^ 2 < 0) by lra. nra. } nra. }
  destruct (C107_no_volume roots (new_material v0) None p HR V ltac:(cbn; lra) N) as [A B]. rewrite A in B. now split.
Qed.
(** C107: a negative pressure never gives an expanded volume, although one exists: the reference volume is returned when the
    derivative is at least 4, and a compressed one when it is less. *)
Theorem C107_tension_refuted : forall roots e t p, finds_roots roots -> 0 < vt e t -> 0 < kt e t -> p < 0 ->
  (4 <= ktp e t -> calc_volume roots e (Some p) t = vt e t) /\ (ktp e t < 4 -> 0 < calc_volume roots e (Some p) t < vt e t).
Proof.
  intros roots e t p HR V K P. split; intros KP.
  - apply (C107_no_volume roots e t p HR V ltac:(lra)). intros v B. rewrite bm_lin.
    assert (G : 0 <= ppoly (3 / 4 * (ktp e t - 4)) (lin_of (vt e t) v)) by (apply ppoly_pos; [lra|now apply lin_ge1]).
    assert (0 <= 3 * kt e t / 2 * ppoly (3 / 4 * (ktp e t - 4)) (lin_of (vt e t) v)) by (apply Rmult_le_pos; lra). lra.
  - destruct (C107_volume roots e t p HR V ltac:(lra) (bm_exists_neg _ _ _ p V K KP (Rlt_le _ _ P))) as [(B & E & _) _]. split; [lra|].
    destruct B as [B1 [B2|B2]]; [assumption|]. exfalso. rewrite B2, bm_at_v0 in E by assumption. lra.
Qed.
Example C107_tension_ex : forall v0, 0 < v0 -> v0 < 8 * v0 /\ birch_murnaghan v0 100 4 (8 * v0) = - 225 / 64.
Proof. intros v0 V. split; [lra|]. replace (8 * v0) with (1 / (1 / 2) ^ 3 * v0) by field. rewrite bm_at by lra. unfold ppoly. field. Qed.

(** ** the hypothesis on root finding can be met *)
Fixpoint synth (r b : R) (t : list R) : list R * R :=
  match t with [] => ([], b) | c :: t => let (q, m) := synth r (c + r * b) t in (b :: q, m) end.
Lemma synth_ok : forall r t b q m, synth r b t = (q, m) -> length q = length t /\ forall x, b * x ^ length t + value t x = (x - r) * value q x + m.
Proof.
  intros r. induction t as [|c t IH]; intros b q m H; cbn [synth] in H.
  - injection H as <- <-. split; [reflexivity|]. intros x. cbn [value length pow]. ring.
  - destruct (synth r (c + r * b) t) as [q' m'] eqn:E. injection H as <- <-. apply IH in E as [L E]. cbn [length value]. split; [now f_equal|].
    intros x. specialize (E x). rewrite L. cbn [pow]. lra.
Qed.
Lemma finite_roots : forall n p, length p = n -> (exists a, In a p /\ a <> 0) -> exists l, forall x, In x l <-> value p x = 0.
Proof.
  induction n as [|n IH]; intros [|b t] L (a & I & A); try discriminate; [destruct I|]. cbn [length] in L. injection L as L.
  destruct (Req_dec b 0) as [->|B].
  - destruct (IH t L) as (l & Hl); [exists a; destruct I as [<- |I]; [lra|now split]|]. exists l. intros x. rewrite Hl. cbn [value]. now rewrite Rmult_0_l, Rplus_0_l.
  - destruct (classic (exists r, value (b :: t) r = 0)) as [(r & R0)|N].
    + destruct (synth r b t) as [q m] eqn:E. pose proof (synth_ok _ _ _ _ _ E) as [Lq Eq]. cbn [value] in R0. rewrite Eq in R0.
      assert (M0 : m = 0) by (rewrite Rminus_diag_eq in R0 by reflexivity; lra). destruct t as [|c t].
      { exists []. intros x. cbn [In value length pow]. split; [easy|lra]. }
      cbn [synth] in E. destruct (synth r (c + r * b) t) as [q' m'] eqn:E'. injection E as <- <-. rewrite <- Lq in L.
      destruct (IH _ L) as (l & Hl); [exists b; split; [now left|assumption]|]. exists (r :: l). intros x. cbn [In]. rewrite Hl.
      change (value (b :: c :: t) x) with (b * x ^ length (c :: t) + value (c :: t) x). rewrite Eq, M0, Rplus_0_r. split.
      * intros [<- |H]; [rewrite Rminus_diag_eq by reflexivity; ring|rewrite H; ring].
      * intros H. apply Rmult_integral in H as [H|H]; [left; lra|now right].
    + exists []. intros x. split; [intros []|]. intros H. apply N. now exists x.
Qed.
Example C107_roots_ex : exists roots, finds_roots roots.
Proof.
  destruct (choice (fun p l => (exists a, In a p /\ a <> 0) -> forall x, In x l <-> value p x = 0)) as (f & Hf).
  - intros p. destruct (classic (exists a, In a p /\ a <> 0)) as [H|H]; [|exists []; intros H'; contradiction].
    destruct (finite_roots _ p eq_refl H) as (l & Hl). now exists l.
  - exists f. exact Hf.
Qed.
(** iron, alpha phase: v0 = 23.6 cubic angstroms, k0 = 165 GPa, k0p = 5.3 *)
Example C107_ex : forall roots, finds_roots roots -> let e := Eos (236 / 10) 165 (53 / 10) (/ 100000) 0 (- / 100) 0 in
  calc_pressure e (Some (calc_volume roots e (Some 10) (Some 398))) (Some 398) = 10.
Proof.
  intros roots HR e. apply C107_inverse; try assumption; try (cbn; lra). cbn [vt e_v0 e]. apply Rmult_lt_0_compat; [lra|apply exp_pos].
Qed.

(** C108: the cell at a pressure and temperature has the angles of the present cell and the volume v0 * V(P, T) / V(0, T), where V is
    the volume of the equation of state; F and F' are the vectors of the present and of the returned cell, in nm. *)
Theorem C108_cell : forall roots e t p len deg F, 0 < e_v0 e -> 0 < vt e t -> 0 < calc_volume roots e p t ->
  has_shape F len (radians_of deg) -> det F <> 0 ->
  snd (calc_lp_at_PT roots e len deg p t) = deg /\
  (exists s, 0 < s /\ fst (calc_lp_at_PT roots e len deg p t) = V3 (s * vx len) (s * vy len) (s * vz len)) /\
  forall F', has_shape F' (fst (calc_lp_at_PT roots e len deg p t)) (radians_of (snd (calc_lp_at_PT roots e len deg p t))) ->
    1000 * Rabs (det F') = e_v0 e * (calc_volume roots e p t / vt e t).
Proof.
  intros roots e t p len deg F V0 VT CV SH D. split; [reflexivity|].
  assert (W : 0 < u_vol (calcmatrices len deg)) by (rewrite (vol_det F) by assumption; now apply Rabs_pos_lt).
  set (f := calc_lp_factor roots e p t). set (g := pt_lp_factor e (u_vol (calcmatrices len deg))).
  assert (Pf : 0 < f) by (unfold f, calc_lp_factor, Rpower; apply exp_pos). assert (Pg : 0 < g) by (unfold g, pt_lp_factor, Rpower; apply exp_pos).
  assert (E : fst (calc_lp_at_PT roots e len deg p t) = stretch (f / g) len).
  { unfold calc_lp_at_PT, lparms0, stretch. cbn [fst vx vy vz]. fold f g. f_equal; field; lra. }
  assert (Pq : 0 < f / g) by now apply Rdiv_lt_0_compat.
  split; [exists (f / g); split; [assumption|exact E]|]. intros F' SH'. rewrite E in SH'. cbn [snd calc_lp_at_PT] in SH'.
  apply vol_det in SH'. rewrite <- SH', vol_scale by lra.
  assert (cube : forall a, 0 < a -> Rpower a (1 / 3) ^ 3 = a).
  { intros a A. rewrite <- Rpower_pow by (unfold Rpower; apply exp_pos). rewrite Rpower_mult. replace (1 / 3 * INR 3) with 1 by (cbn [INR]; field). now apply Rpower_1. }
  assert (Cf : f ^ 3 = calc_volume roots e p t / vt e t) by (unfold f, calc_lp_factor; apply cube; now apply Rdiv_lt_0_compat).
  assert (Cg : g ^ 3 = u_vol (calcmatrices len deg) * 1000 / e_v0 e) by (unfold g, pt_lp_factor; apply cube; apply Rdiv_lt_0_compat; [lra|assumption]).
  replace ((f / g) ^ 3) with (f ^ 3 / g ^ 3) by (field; lra). rewrite Cf, Cg. field. lra.
Qed.
(** C108: without a temperature the volume is that of the equation of state. *)
Theorem C108_pressure_only : forall roots e p len deg F F', 0 < e_v0 e -> 0 < calc_volume roots e p None ->
  has_shape F len (radians_of deg) -> det F <> 0 ->
  has_shape F' (fst (calc_lp_at_PT roots e len deg p None)) (radians_of (snd (calc_lp_at_PT roots e len deg p None))) ->
  1000 * Rabs (det F') = calc_volume roots e p None.
Proof.
  intros roots e p len deg F F' V0 CV SH D SH'. destruct (C108_cell roots e None p len deg F V0 V0 CV SH D) as (_ & _ & H). rewrite (H F' SH'). unfold vt. field. lra.
Qed.
(** C108: the result does not depend on how far the present cell is compressed or expanded. *)
Theorem C108_present_cell : forall roots e t p len deg s, 0 < e_v0 e -> 0 < u_vol (calcmatrices len deg) -> 0 < s ->
  calc_lp_at_PT roots e (V3 (s * vx len) (s * vy len) (s * vz len)) deg p t = calc_lp_at_PT roots e len deg p t.
Proof.
  intros roots e t p len deg s V0 W Ps. unfold calc_lp_at_PT, lparms0. cbn [vx vy vz].
  change (V3 (s * vx len) (s * vy len) (s * vz len)) with (stretch s len). rewrite vol_scale by lra. set (w := u_vol (calcmatrices len deg)) in *. clearbody w.
  assert (C : pt_lp_factor e (s ^ 3 * w) = s * pt_lp_factor e w).
  { unfold pt_lp_factor. replace (s ^ 3 * w * 1000 / e_v0 e) with (s ^ 3 * (w * 1000 / e_v0 e)) by (field; lra).
    rewrite <- Rpower_mult_distr; [|apply pow_lt; lra|apply Rdiv_lt_0_compat; lra]. f_equal.
    rewrite <- Rpower_pow by assumption. rewrite Rpower_mult. replace (INR 3 * (1 / 3)) with 1 by (cbn [INR]; field). now apply Rpower_1. }
  rewrite C. assert (0 < pt_lp_factor e w) by (unfold pt_lp_factor, Rpower; apply exp_pos). set (g := pt_lp_factor e w) in *. clearbody g.
  f_equal. f_equal; field; lra.
Qed.
(** C108: thermal expansion does not reach the cell: without pressure the cell returned has the volume v0 at every temperature,
    while the volume of the equation of state is another one. *)
Theorem C108_thermal_refuted : forall roots e T len deg F F', 0 < e_v0 e -> 0 < e_a0 e -> e_a1 e = 0 -> 298 < T ->
  has_shape F len (radians_of deg) -> det F <> 0 ->
  has_shape F' (fst (calc_lp_at_PT roots e len deg None (Some T))) (radians_of (snd (calc_lp_at_PT roots e len deg None (Some T)))) ->
  1000 * Rabs (det F') = e_v0 e /\ e_v0 e < calc_volume roots e None (Some T).
Proof.
  intros roots e T len deg F F' V0 A0 A1 HT SH D SH'. assert (VT : 0 < vt e (Some T)) by (unfold vt; apply Rmult_lt_0_compat; [assumption|apply exp_pos]).
  split.
  - destruct (C108_cell roots e (Some T) None len deg F V0 VT VT SH D) as (_ & _ & H). rewrite (H F' SH'). unfold calc_volume. field. lra.
  - unfold calc_volume, vt. rewrite A1. replace (e_v0 e) with (e_v0 e * 1) at 1 by ring. apply Rmult_lt_compat_l; [assumption|].
    rewrite <- exp_0. apply exp_increasing. assert (0 < e_a0 e * (T - 298)) by (apply Rmult_lt_0_compat; lra). lra.
Qed.
(** a cubic cell of 2.87 angstroms *)
Example C108_ex : has_shape (M3 (287 / 1000) 0 0 0 (287 / 1000) 0 0 0 (287 / 1000)) (V3 (287 / 1000) (287 / 1000) (287 / 1000)) (radians_of (V3 90 90 90)) /\
  det (M3 (287 / 1000) 0 0 0 (287 / 1000) 0 0 0 (287 / 1000)) <> 0.
Proof.
  assert (N : forall x, 0 <= x -> sqrt (x * x) = x) by (intros; now apply sqrt_square).
  assert (C : PI / 180 * 90 = PI / 2) by field.
  assert (B : 0 <= PI / 2 <= PI) by (pose proof PI_RGT_0; lra).
  unfold has_shape, angle_between, norm, norm2, radians_of. lin_unfold. rewrite !C, !cos_PI2.
  repeat match goal with |- context [sqrt ?e] => match e with context [287] => replace (sqrt e) with (287 / 1000) by (symmetry; apply sqrt_lem_1; lra) end end.
  repeat split; lra.
Qed.
Print Assumptions C107_pressure.
Print Assumptions C107_reference.
Print Assumptions C107_temperature.
Print Assumptions C107_expansion_refuted.
Print Assumptions C107_volume.
Print Assumptions C107_inverse.
Print Assumptions C107_no_volume.
Print Assumptions C107_new_material_refuted.
Print Assumptions C107_tension_refuted.
Print Assumptions C107_roots_ex.
Print Assumptions C108_cell.
Print Assumptions C108_pressure_only.
Print Assumptions C108_present_cell.
Print Assumptions C108_thermal_refuted.
