From Coq Require Import Reals List ZArith Lra Lia Psatz.
From Verif Require Import Prelude Lin RotModel RotProofs2 OrbModel HslModel HslSpec.
Import ListNotations.
Local Open Scope R_scope.

Lemma eps_pos : 0 < sqrt_epsf < / 1000.
Proof. unfold sqrt_epsf. split; [apply Rinv_0_lt_compat, pow_lt; lra|]. apply Rinv_lt_contravar; simpl; lra. Qed.
(** values that the conversion does not move to 0 or 1 *)
Definition settled (x : R) : Prop := x = 0 \/ x = 1 \/ sqrt_epsf <= x <= 1 - sqrt_epsf.
Lemma snap1_id x : settled x -> snap1 x = x.
Proof.
  pose proof eps_pos. unfold settled, snap1. cbv zeta. intros [->|[->|H1]].
  - rewrite Rabs_R0. destruct (Rlt_dec 0 sqrt_epsf); [|lra]. unfold Rabs. destruct (Rcase_abs _), (Rlt_dec _ _); lra.
  - rewrite Rabs_R1. destruct (Rlt_dec 1 sqrt_epsf); [lra|]. replace (1 - 1) with 0 by lra. rewrite Rabs_R0. destruct (Rlt_dec _ _); lra.
  - rewrite (Rabs_right x) by lra. destruct (Rlt_dec x sqrt_epsf); [lra|]. rewrite Rabs_left by lra. destruct (Rlt_dec _ _); lra.
Qed.
Lemma settled_unit x : settled x -> 0 <= x <= 1.
Proof. pose proof eps_pos. unfold settled. lra. Qed.
Lemma clip1_id x : 0 <= x <= 1 -> clip1 x = x.
Proof. intros H. unfold clip1. destruct (Rlt_dec x 0); [lra|]. destruct (Rlt_dec 1 x); lra. Qed.
Lemma clip_id v : is_colour v -> clip v = v.
Proof. destruct v as [a b c]. intros (H1 & H2 & H3). unfold clip. cbn [vx vy vz] in *. now rewrite !clip1_id. Qed.
Lemma in_range1_iff x : in_range1 x = true <-> 0 <= x <= 1.
Proof. unfold in_range1. destruct (Rlt_dec x 0); [split; [discriminate|lra]|]. destruct (Rlt_dec 1 x); [split; [discriminate|lra]|]. split; [lra|reflexivity]. Qed.
Lemma in_range_iff v : in_range v = true <-> is_colour v.
Proof. unfold in_range, is_colour, unit_interval. now rewrite !Bool.andb_true_iff, !in_range1_iff. Qed.

Lemma room l : 1 - Rabs (2 * l - 1) = 2 * Rmin l (1 - l).
Proof. unfold Rabs, Rmin. destruct (Rcase_abs _), (Rle_dec _ _); lra. Qed.
Lemma npmod_val x y (z : Z) : 0 < y -> IZR z * y <= x < (IZR z + 1) * y -> npmod x y = x - y * IZR z.
Proof.
  intros Hy H. unfold npmod. rewrite (Int_part_val (x / y) z); [reflexivity| |].
  - apply Rmult_le_reg_r with y; [exact Hy|]. unfold Rdiv. rewrite Rmult_assoc, Rinv_l by lra. lra.
  - apply Rmult_lt_reg_r with y; [exact Hy|]. unfold Rdiv. rewrite Rmult_assoc, Rinv_l by lra. lra.
Qed.
Lemma sector (k : nat) f s l : (k < 6)%nat -> 0 <= f < 1 -> raw_rgb (V3 ((INR k + f) / 6) s l) = tinted (wheel k f) s l.
Proof.
  intros K F. unfold raw_rgb, tinted, chroma. cbn [vx vy vz]. rewrite room. replace (6 * ((INR k + f) / 6)) with (INR k + f) by field.
  rewrite (Int_part_val (INR k + f) (Z.of_nat k)) by (rewrite <- INR_IZR_INZ; lra).
  destruct k as [|[|[|[|[|[|k]]]]]]; [| | | | | |lia];
    [rewrite (npmod_val _ 2 0)|rewrite (npmod_val _ 2 0)|rewrite (npmod_val _ 2 1)|rewrite (npmod_val _ 2 1)|rewrite (npmod_val _ 2 2)|rewrite (npmod_val _ 2 2)];
    simpl INR; try lra; cbn [Z.of_nat Pos.of_succ_nat Pos.succ Z.eqb Pos.eqb orb wheel vx vy vz];
    (rewrite Rabs_right by lra) || (rewrite Rabs_left1 by lra); f_equal; lra.
Qed.
Lemma last_sector s l : raw_rgb (V3 1 s l) = tinted (wheel 0 0) s l.
Proof.
  unfold raw_rgb, tinted, chroma. cbn [vx vy vz wheel]. rewrite room. replace (6 * 1) with 6 by lra. rewrite (Int_part_val 6 6) by lra. rewrite (npmod_val 6 2 3) by lra. cbn [Z.eqb Pos.eqb orb].
  rewrite Rabs_left by lra. f_equal; lra.
Qed.
Lemma wheel_unit k f : 0 <= f <= 1 -> is_colour (wheel k f).
Proof. intros F. unfold is_colour, unit_interval. destruct k as [|[|[|[|[|k]]]]]; cbn [wheel vx vy vz]; lra. Qed.
Lemma chroma_room s l : 0 <= s <= 1 -> 0 <= l <= 1 -> 0 <= chroma s l /\ chroma s l <= 2 * l /\ chroma s l <= 2 * (1 - l).
Proof. intros Hs Hl. unfold chroma, Rmin. destruct (Rle_dec _ _); repeat split; nra. Qed.
Lemma tinted_colour w s l : is_colour w -> 0 <= s <= 1 -> 0 <= l <= 1 -> is_colour (tinted w s l).
Proof.
  intros (A & B & C) Hs Hl. destruct (chroma_room s l Hs Hl) as (H0 & H1 & H2). unfold is_colour, unit_interval, tinted in *. cbn [vx vy vz]. set (c := chroma s l) in *. clearbody c.
  repeat split; nra.
Qed.
Lemma hue_sector h : 0 <= h < 1 -> exists k f, (k < 6)%nat /\ 0 <= f < 1 /\ 6 * h = INR k + f.
Proof.
  intros H. destruct (Rlt_dec (6 * h) 1); [exists 0%nat, (6 * h); simpl; repeat split; try lia; lra|].
  destruct (Rlt_dec (6 * h) 2); [exists 1%nat, (6 * h - 1); simpl; repeat split; try lia; lra|].
  destruct (Rlt_dec (6 * h) 3); [exists 2%nat, (6 * h - 2); simpl; repeat split; try lia; lra|].
  destruct (Rlt_dec (6 * h) 4); [exists 3%nat, (6 * h - 3); simpl; repeat split; try lia; lra|].
  destruct (Rlt_dec (6 * h) 5); [exists 4%nat, (6 * h - 4); simpl; repeat split; try lia; lra|].
  exists 5%nat, (6 * h - 5); simpl; repeat split; try lia; lra.
Qed.

Lemma max3 a b c m : a <= m -> b <= m -> c <= m -> a = m \/ b = m \/ c = m -> Rmax a (Rmax b c) = m.
Proof. intros. unfold Rmax. repeat destruct (Rle_dec _ _); lra. Qed.
Lemma min3 a b c m : m <= a -> m <= b -> m <= c -> a = m \/ b = m \/ c = m -> Rmin a (Rmin b c) = m.
Proof. intros. unfold Rmin. repeat destruct (Rle_dec _ _); lra. Qed.
Lemma raw_hsl_tinted k f s l : (k < 6)%nat -> 0 <= f < 1 -> 0 < l < 1 -> sqrt_epsf <= chroma s l -> raw_hsl (tinted (wheel k f) s l) = V3 ((INR k + f) / 6) s l.
Proof.
  intros K F Hl Hc. pose proof eps_pos as He. assert (Hr : 0 < 2 * Rmin l (1 - l)) by (unfold Rmin; destruct (Rle_dec _ _); lra).
  assert (Hs : chroma s l / (2 * Rmin l (1 - l)) = s) by (unfold chroma; field; lra).
  unfold raw_hsl, tinted. cbn [vx vy vz]. set (c := chroma s l) in *. clearbody c. assert (Pc : 0 < c) by lra.
  assert (W : is_colour (wheel k f)) by (apply wheel_unit; lra). destruct W as (W1 & W2 & W3). unfold unit_interval in *.
  rewrite (max3 _ _ _ (l + c / 2)); [rewrite (min3 _ _ _ (l - c / 2))| | | |]; try nra.
  2, 3: destruct k as [|[|[|[|[|[|k]]]]]]; cbn [wheel vx vy vz]; [| | | | | |lia]; first [left; lra|right; left; lra|right; right; lra].
  replace (l + c / 2 - (l - c / 2)) with c by lra. replace (/ 2 * (l + c / 2 + (l - c / 2))) with l by lra. rewrite room, Hs. rewrite (Rabs_right c) by lra.
  destruct (Rlt_dec c sqrt_epsf); [lra|]. f_equal.
  assert (Q : forall a b d, (l + c * (a - / 2) - (l + c * (b - / 2))) / c + d = a - b + d) by (intros; field; lra).
  assert (Q0 : forall a b, (l + c * (a - / 2) - (l + c * (b - / 2))) / c = a - b) by (intros; field; lra).
  repeat rewrite Q. repeat rewrite Q0.
  destruct k as [|[|[|[|[|[|k]]]]]]; [| | | | | |lia]; cbn [wheel vx vy vz]; simpl INR;
    repeat match goal with
    | |- context [Req_EM_T (l + c * (?a - / 2)) (l + c / 2)] =>
        let e := fresh in destruct (Req_EM_T (l + c * (a - / 2)) (l + c / 2)) as [e|e];
        [assert (a = 1) by (apply Rmult_eq_reg_l with c; lra)|assert (a <> 1) by (intros e'; apply e; first [lra|rewrite e'; lra])]; clear e; try (exfalso; lra)
    end; apply (f_equal (fun x => x / 6));
    first [rewrite (npmod_val _ 6 0) by lra; lra|rewrite (npmod_val _ 6 (-1)) by lra; lra].
Qed.
(** every colour that is not grey is on the wheel *)
Lemma on_wheel v : is_colour v -> let hi := Rmax (vx v) (Rmax (vy v) (vz v)) in let lo := Rmin (vx v) (Rmin (vy v) (vz v)) in
  lo < hi -> exists k f s l, (k < 6)%nat /\ 0 <= f < 1 /\ 0 < s <= 1 /\ 0 < l < 1 /\ v = tinted (wheel k f) s l /\ chroma s l = hi - lo.
Proof.
  intros (A & B & C) hi lo D. destruct v as [r g b]. cbn [vx vy vz] in *. unfold unit_interval in *.
  assert (X : forall k f, (k < 6)%nat -> 0 <= f < 1 -> V3 r g b = V3 (lo + (hi - lo) * vx (wheel k f)) (lo + (hi - lo) * vy (wheel k f)) (lo + (hi - lo) * vz (wheel k f)) ->
    0 <= lo -> hi <= 1 -> exists k f s l, (k < 6)%nat /\ 0 <= f < 1 /\ 0 < s <= 1 /\ 0 < l < 1 /\ V3 r g b = tinted (wheel k f) s l /\ chroma s l = hi - lo).
  { intros k f K F E L0 H1. clearbody hi lo. set (l := (hi + lo) / 2). assert (Hr : 0 < 2 * Rmin l (1 - l)) by (unfold l, Rmin; destruct (Rle_dec _ _); lra).
    assert (Hc : chroma ((hi - lo) / (2 * Rmin l (1 - l))) l = hi - lo) by (unfold chroma; field; lra).
    exists k, f, ((hi - lo) / (2 * Rmin l (1 - l))), l. repeat split; try assumption; try (unfold l; lra); try lia; try lra.
    - apply Rdiv_lt_0_compat; lra.
    - apply Rmult_le_reg_r with (2 * Rmin l (1 - l)); [exact Hr|]. unfold Rdiv. rewrite Rmult_assoc, Rinv_l by lra. unfold l, Rmin. destruct (Rle_dec _ _); lra.
    - unfold tinted. rewrite Hc, E. unfold l. f_equal; lra. }
  assert (L0 : 0 <= lo) by (unfold lo, Rmin; repeat destruct (Rle_dec _ _); lra). assert (H1 : hi <= 1) by (unfold hi, Rmax; repeat destruct (Rle_dec _ _); lra).
  assert (Y : forall x, lo <= x < hi -> 0 <= (x - lo) / (hi - lo) < 1).
  { clearbody hi lo. intros x Hx. split; [apply Rmult_le_pos; [lra|]; left; apply Rinv_0_lt_compat; lra|]. apply Rmult_lt_reg_r with (hi - lo); [lra|]. unfold Rdiv. rewrite Rmult_assoc, Rinv_l by lra. lra. }
  assert (Y2 : forall x, lo < x <= hi -> 0 <= 1 - (x - lo) / (hi - lo) < 1).
  { clearbody hi lo. intros x Hx. replace (1 - (x - lo) / (hi - lo)) with ((hi + lo - x - lo) / (hi - lo)) by (field; lra). apply Y. lra. }
  assert (Z1 : forall x, lo + (hi - lo) * ((x - lo) / (hi - lo)) = x) by (clearbody hi lo; intros; field; lra).
  assert (Z2 : forall x, lo + (hi - lo) * (1 - (1 - (x - lo) / (hi - lo))) = x) by (clearbody hi lo; intros; field; lra).
  assert (M : (lo = r \/ lo = g \/ lo = b) /\ (hi = r \/ hi = g \/ hi = b) /\ lo <= r <= hi /\ lo <= g <= hi /\ lo <= b <= hi).
  { unfold lo, hi, Rmin, Rmax. repeat destruct (Rle_dec _ _); lra. }
  clearbody hi lo. destruct M as (M1 & M2 & M3 & M4 & M5).
  destruct M1 as [M1|[M1|M1]].
  - destruct (Req_dec b hi).
    + destruct (Req_dec g lo); [apply (X 4%nat ((r - lo) / (hi - lo)))|apply (X 3%nat (1 - (g - lo) / (hi - lo)))]; try lia; try assumption; try (apply Y; lra); try (apply Y2; lra); cbn [wheel vx vy vz]; rewrite ?Z1, ?Z2; f_equal; lra.
    + apply (X 2%nat ((b - lo) / (hi - lo))); try lia; try assumption; try (apply Y; lra); cbn [wheel vx vy vz]; rewrite ?Z1; f_equal; lra.
  - destruct (Req_dec b hi).
    + destruct (Req_dec r hi); [apply (X 5%nat (1 - (b - lo) / (hi - lo)))|apply (X 4%nat ((r - lo) / (hi - lo)))]; try lia; try assumption; try (apply Y; lra); try (apply Y2; lra); cbn [wheel vx vy vz]; rewrite ?Z1, ?Z2; f_equal; lra.
    + destruct (Req_dec b lo); [apply (X 0%nat ((g - lo) / (hi - lo)))|apply (X 5%nat (1 - (b - lo) / (hi - lo)))]; try lia; try assumption; try (apply Y; lra); try (apply Y2; lra); cbn [wheel vx vy vz]; rewrite ?Z1, ?Z2; f_equal; lra.
  - destruct (Req_dec g hi).
    + destruct (Req_dec r lo); [apply (X 2%nat ((b - lo) / (hi - lo)))|apply (X 1%nat (1 - (r - lo) / (hi - lo)))]; try lia; try assumption; try (apply Y; lra); try (apply Y2; lra); cbn [wheel vx vy vz]; rewrite ?Z1, ?Z2; f_equal; lra.
    + apply (X 0%nat ((g - lo) / (hi - lo))); try lia; try assumption; try (apply Y; lra); cbn [wheel vx vy vz]; rewrite ?Z1; f_equal; lra.
Qed.
