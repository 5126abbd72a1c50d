(** Colours by hue, saturation and lightness *)
From Coq Require Import Reals List ZArith Lra Lia Psatz.
From Verif Require Import Prelude Lin RotModel OrbModel HslModel HslSpec HslProofs.
Import ListNotations.
Local Open Scope R_scope.

(** no part of the colour is so near to 0 or 1, without being it, that the conversion moves it *)
Definition all_settled (v : v3) : Prop := settled (vx v) /\ settled (vy v) /\ settled (vz v).
Lemma settled_colour v : all_settled v -> is_colour v.
Proof. intros (A & B & C). repeat split; now apply settled_unit. Qed.
Lemma snap_id v : all_settled v -> snap v = v.
Proof. destruct v as [x y z]. intros (A & B & C). unfold snap. cbn [vx vy vz] in *. now rewrite !snap1_id. Qed.
Lemma run_settled l : Forall all_settled l -> hsl2rgb l = (Ok (map (fun v => clip (raw_rgb v)) l), l).
Proof.
  intros H. unfold hsl2rgb. assert (E : map snap l = l) by (induction H as [|v t Hv Ht IH]; [reflexivity|]; cbn [map]; now rewrite IH, snap_id). rewrite E.
  replace (forallb in_range l) with true; [reflexivity|]. symmetry. apply forallb_forall. intros v I. apply in_range_iff, settled_colour. now apply (proj1 (Forall_forall _ _) H).
Qed.

(** ** C190: each colour is that of its hue on the wheel, with the range its saturation and lightness give, and one to one *)
Theorem C190_colour_partial : forall hsl, Forall all_settled hsl -> exists rgb, fst (hsl2rgb hsl) = Ok rgb /\
  Forall2 (fun v c => is_colour c /\ exists k f, (k < 6)%nat /\ 0 <= f < 1 /\ (6 * vx v = INR k + f \/ vx v = 1 /\ k = 0%nat /\ f = 0) /\ c = tinted (wheel k f) (vy v) (vz v)) hsl rgb.
Proof.
  intros hsl H. rewrite (run_settled hsl H). cbn [fst]. eexists. split; [reflexivity|]. induction H as [|v t Hv Ht IH]; [constructor|]. cbn [map]. constructor; [|exact IH]. clear IH Ht.
  pose proof (settled_colour v Hv) as (H1 & H2 & H3). destruct v as [h s l]. cbn [vx vy vz] in *.
  assert (E : exists k f, (k < 6)%nat /\ 0 <= f < 1 /\ (6 * h = INR k + f \/ h = 1 /\ k = 0%nat /\ f = 0) /\ raw_rgb (V3 h s l) = tinted (wheel k f) s l).
  { destruct (Req_dec h 1) as [->|N]; [exists 0%nat, 0; repeat split; try lia; try lra; [now right|apply last_sector]|]. destruct (hue_sector h) as (k & f & K & F & E); [unfold unit_interval in H1; lra|].
    exists k, f. split; [exact K|]. split; [exact F|]. split; [now left|]. rewrite <- (sector k f s l K F). do 2 f_equal. lra. }
  destruct E as (k & f & K & F & X & E). rewrite E. assert (C : is_colour (tinted (wheel k f) s l)) by (apply tinted_colour; [apply wheel_unit; lra|exact H2|exact H3]).
  rewrite clip_id by exact C. split; [exact C|]. exists k, f. auto.
Qed.
Print Assumptions C190_colour_partial.
(** back from the colour to hue, saturation and lightness, unless it is as good as grey; hue 1 is hue 0 *)
Theorem C190_round_trip_partial : forall hsl rgb, Forall all_settled hsl -> Forall (fun v => vx v < 1 /\ sqrt_epsf <= chroma (vy v) (vz v)) hsl ->
  fst (hsl2rgb hsl) = Ok rgb -> rgb2hsl rgb = hsl.
Proof.
  intros hsl rgb H G E. rewrite (run_settled hsl H) in E. cbn [fst] in E. injection E as <-. unfold rgb2hsl. rewrite map_map. rewrite <- (map_id hsl) at 2. apply map_ext_in. intros v I.
  pose proof (proj1 (Forall_forall _ _) H v I) as Hv. destruct (proj1 (Forall_forall _ _) G v I) as [G1 G2]. pose proof (settled_colour v Hv) as C. pose proof C as (H1 & H2 & H3).
  pose proof eps_pos as He. destruct v as [h s l]. cbn [vx vy vz] in *. unfold unit_interval in *. destruct (hue_sector h ltac:(lra)) as (k & f & K & F & E).
  replace h with ((INR k + f) / 6) by lra. rewrite (sector k f s l K F). rewrite (clip_id (tinted _ _ _)) by (apply tinted_colour; [apply wheel_unit; lra|exact H2|exact H3]).
  destruct (chroma_room s l H2 H3) as (_ & C1 & C2). rewrite raw_hsl_tinted; [|exact K|exact F|lra|exact G2]. replace ((INR k + f) / 6) with h by lra. now apply clip_id.
Qed.
Print Assumptions C190_round_trip_partial.
(** and from the colour there and back *)
Theorem C190_back_partial : forall rgb, Forall is_colour rgb -> Forall all_settled (rgb2hsl rgb) ->
  Forall (fun v => let spread := Rmax (vx v) (Rmax (vy v) (vz v)) - Rmin (vx v) (Rmin (vy v) (vz v)) in spread = 0 \/ sqrt_epsf <= spread) rgb ->
  fst (hsl2rgb (rgb2hsl rgb)) = Ok rgb.
Proof.
  intros rgb C S1 G. rewrite (run_settled _ S1). cbn [fst]. f_equal. unfold rgb2hsl. rewrite map_map. rewrite <- (map_id rgb) at 2. apply map_ext_in. intros v I.
  pose proof (proj1 (Forall_forall _ _) C v I) as Cv. pose proof (proj1 (Forall_forall _ _) G v I) as Gv. cbv zeta in Gv. pose proof eps_pos as He. destruct Gv as [Z0|D].
  - pose proof Cv as (A & B & D). unfold unit_interval in *. unfold raw_hsl. rewrite Z0, Rabs_R0. destruct (Rlt_dec 0 sqrt_epsf) as [Hlt|Hlt]; [|lra].
    assert (E : vy v = vx v /\ vz v = vx v) by (revert Z0; unfold Rmax, Rmin; repeat destruct (Rle_dec _ _); lra). destruct v as [r g b]. cbn [vx vy vz] in *. destruct E as [-> ->].
    assert (M : / 2 * (Rmax r (Rmax r r) + Rmin r (Rmin r r)) = r) by (unfold Rmax, Rmin; repeat destruct (Rle_dec _ _); lra). rewrite M.
    rewrite (clip_id (V3 0 0 r)) by (repeat split; cbn; lra). replace (V3 0 0 r) with (V3 ((INR 0 + 0) / 6) 0 r) by (simpl; f_equal; lra). rewrite sector by (lia || lra).
    unfold tinted, chroma. replace (V3 _ _ _) with (V3 r r r) by (f_equal; lra). apply clip_id. repeat split; cbn; lra.
  - destruct (on_wheel v Cv ltac:(lra)) as (k & f & s & l & K & F & Hs & Hl & E & Hc). cbv zeta in Hc. rewrite <- Hc in D. rewrite E at 1. rewrite raw_hsl_tinted by (assumption || lra).
    assert (U : 0 <= (INR k + f) / 6 <= 1) by (assert (INR k <= 5) by (replace 5 with (INR 5) by (simpl; lra); apply le_INR; lia); pose proof (pos_INR k); lra).
    rewrite (clip_id (V3 _ s l)) by (repeat split; cbn; lra). rewrite sector by assumption. rewrite <- E. now apply clip_id.
Qed.
Print Assumptions C190_back_partial.
(** colours with parts outside of the interval, by more than eps, are refused, and no others *)
Theorem C190_refused : forall hsl, fst (hsl2rgb hsl) = Err RuntimeError <->
  exists v x, In v hsl /\ (x = vx v \/ x = vy v \/ x = vz v) /\ (x <= - sqrt_epsf \/ 1 + sqrt_epsf <= x).
Proof.
  intros hsl. pose proof eps_pos as He.
  assert (S1 : forall x, in_range1 (snap1 x) = true <-> ~ (x <= - sqrt_epsf \/ 1 + sqrt_epsf <= x)).
  { intros x. rewrite in_range1_iff. unfold snap1, Rabs. repeat (destruct (Rcase_abs _) || destruct (Rlt_dec _ _)); lra. }
  unfold hsl2rgb. cbv zeta. cbn [fst]. destruct (forallb in_range (map snap hsl)) eqn:F.
  - split; [discriminate|]. intros (v & x & I & X & O). rewrite forallb_forall in F. specialize (F (snap v) (in_map snap _ _ I)). unfold in_range, snap in F. cbn [vx vy vz] in F.
    rewrite !Bool.andb_true_iff, !S1 in F. destruct X as [->|[->| ->]]; tauto.
  - split; [intros _|reflexivity]. assert (N : exists v, In v hsl /\ in_range (snap v) = false).
    { clear -F. induction hsl as [|v t IH]; [discriminate|]. cbn [map forallb] in F. destruct (in_range (snap v)) eqn:E; [destruct (IH F) as (w & I & W); exists w; split; [now right|exact W]|exists v; split; [now left|exact E]]. }
    destruct N as (v & I & W). exists v. unfold in_range, snap in W. cbn [vx vy vz] in W.
    assert (D : forall x, in_range1 (snap1 x) = false -> x <= - sqrt_epsf \/ 1 + sqrt_epsf <= x).
    { intros x E. destruct (Rle_dec x (- sqrt_epsf)); [now left|]. destruct (Rle_dec (1 + sqrt_epsf) x); [now right|]. assert (in_range1 (snap1 x) = true) by (apply S1; lra). congruence. }
    apply Bool.andb_false_iff in W. destruct W as [W|W]; [exists (vx v); auto|]. apply Bool.andb_false_iff in W. destruct W as [W|W]; [exists (vy v)|exists (vz v)]; auto 6.
Qed.
Print Assumptions C190_refused.
(** every result is a colour, also of parts that are moved *)
Theorem C190_in_range : forall hsl rgb, fst (hsl2rgb hsl) = Ok rgb -> length rgb = length hsl /\ Forall is_colour rgb.
Proof.
  intros hsl rgb E. unfold hsl2rgb in E. cbn [fst] in E. destruct (forallb _ _); [|discriminate]. injection E as <-. rewrite !map_length. split; [reflexivity|].
  apply Forall_forall. intros c I. apply in_map_iff in I. destruct I as (v & <- & _). unfold is_colour, unit_interval, clip, clip1. cbn [vx vy vz].
  repeat split; repeat destruct (Rlt_dec _ _); lra.
Qed.
Print Assumptions C190_in_range.
(** refuted: the caller's array is not changed *)
Theorem C190_input_partial : forall hsl, Forall all_settled hsl -> snd (hsl2rgb hsl) = hsl.
Proof. intros hsl H. now rewrite run_settled. Qed.
Print Assumptions C190_input_partial.
Theorem C190_input_refuted : exists hsl, snd (hsl2rgb hsl) <> hsl.
Proof.
  exists [V3 (sqrt_epsf / 2) 1 1]. pose proof eps_pos as He. unfold hsl2rgb. cbn [snd map]. unfold snap. cbn [vx vy vz]. intros E. injection E as E _. unfold snap1 in E. cbv zeta in E.
  rewrite (Rabs_right (sqrt_epsf / 2)) in E by lra. destruct (Rlt_dec (sqrt_epsf / 2) sqrt_epsf); [|lra]. rewrite Rabs_left in E by lra. destruct (Rlt_dec _ _); lra.
Qed.
Print Assumptions C190_input_refuted.
Example C190_ex : let green := V3 (/ 3) 1 (/ 2) in all_settled green /\ vx green < 1 /\ sqrt_epsf <= chroma (vy green) (vz green) /\
  fst (hsl2rgb [green]) = Ok [V3 0 1 0] /\ rgb2hsl [V3 0 1 0] = [green].
Proof.
  cbv zeta. pose proof eps_pos as He. assert (A : all_settled (V3 (/ 3) 1 (/ 2))) by (unfold all_settled, settled; cbn [vx vy vz]; repeat split; lra).
  assert (B : sqrt_epsf <= chroma 1 (/ 2)) by (unfold chroma, Rmin; destruct (Rle_dec _ _); lra).
  assert (E : fst (hsl2rgb [V3 (/ 3) 1 (/ 2)]) = Ok [V3 0 1 0]).
  { rewrite run_settled by (constructor; [exact A|constructor]). cbn [fst map]. do 2 f_equal. replace (V3 (/ 3) 1 (/ 2)) with (V3 ((INR 2 + 0) / 6) 1 (/ 2)) by (simpl; f_equal; lra).
    rewrite sector by (lia || lra). unfold tinted, chroma. replace (Rmin (/ 2) (1 - / 2)) with (/ 2) by (unfold Rmin; destruct (Rle_dec _ _); lra). cbn [wheel vx vy vz].
    rewrite clip_id; [f_equal; lra|]. repeat split; cbn [vx vy vz]; lra. }
  repeat split; try apply A; cbn [vx vy vz]; try lra; [exact E|].
  apply (C190_round_trip_partial [V3 (/ 3) 1 (/ 2)]); [constructor; [exact A|constructor]|constructor; [split; [cbn; lra|exact B]|constructor]|exact E].
Qed.
