(** Proofs about validate_angle_ranges. *)
From Coq Require Import Reals Lra Psatz ZArith Lia.
From Verif Require Import Prelude Lin XfModel XfSpec XfTrig.
Local Open Scope R_scope.

Lemma f2_impl : forall {A B} (P Q : A -> B -> Prop) l m, (forall a b, P a b -> Q a b) -> Forall2 P l m -> Forall2 Q l m.
Proof. intros A B P Q l m H F. induction F; constructor; auto. Qed.
Definition wrapped (x y : R) : Prop :=
  0 <= y <= two_pi /\ exists k : Z, y = x + IZR k * two_pi /\ (y = two_pi -> (k <= 0)%Z) /\ (y = 0 -> (0 <= k)%Z).
Lemma wrap_up_ok : forall f x, - INR f * two_pi <= x -> exists n : nat, wrap_up f x = Ok (x + INR n * two_pi) /\ 0 <= x + INR n * two_pi /\ ((0 < n)%nat -> x + INR n * two_pi < two_pi).
Proof.
  induction f as [|f IH]; intros x H; cbn [wrap_up]; destruct (Rlt_dec x 0) as [L|L].
  - cbn in H. pose proof two_pi_pos. lra.
  - exists 0%nat. cbn [INR]. replace (x + 0 * two_pi) with x by ring. repeat split; [lra|]. lia.
  - destruct (IH (x + two_pi)) as (n & E & P & Q). { rewrite S_INR in H. lra. }
    exists (S n). rewrite S_INR. replace (x + (INR n + 1) * two_pi) with (x + two_pi + INR n * two_pi) by ring. rewrite E. repeat split; auto.
    intros _. destruct n as [|n]; [cbn [INR]; lra|]. apply Q. lia.
  - exists 0%nat. cbn [INR]. replace (x + 0 * two_pi) with x by ring. repeat split; [lra|]. lia.
Qed.
Lemma wrap_down_ok : forall f x, x <= INR (S f) * two_pi -> exists n : nat, wrap_down f x = Ok (x - INR n * two_pi) /\ x - INR n * two_pi <= two_pi /\ ((0 < n)%nat -> 0 < x - INR n * two_pi).
Proof.
  induction f as [|f IH]; intros x H; cbn [wrap_down]; destruct (Rlt_dec two_pi x) as [L|L].
  - cbn in H. pose proof two_pi_pos. lra.
  - exists 0%nat. cbn [INR]. replace (x - 0 * two_pi) with x by ring. repeat split; [lra|]. lia.
  - destruct (IH (x - two_pi)) as (n & E & P & Q). { rewrite S_INR in H. lra. }
    exists (S n). rewrite S_INR. replace (x - (INR n + 1) * two_pi) with (x - two_pi - INR n * two_pi) by ring. rewrite E. repeat split; auto.
    intros _. destruct n as [|n]; [cbn [INR]; lra|]. apply Q. lia.
  - exists 0%nat. cbn [INR]. replace (x - 0 * two_pi) with x by ring. repeat split; [lra|]. lia.
Qed.
Lemma fuel_enough : forall x, Rabs x <= INR (wrap_fuel x) * two_pi.
Proof.
  intros x. unfold wrap_fuel. pose proof two_pi_pos as P. destruct (archimed (Rabs x / two_pi)) as [A _].
  assert (N : 0 <= Rabs x / two_pi). { apply Rmult_le_pos; [apply Rabs_pos|]. left. now apply Rinv_0_lt_compat. }
  assert (0 <= up (Rabs x / two_pi))%Z. { apply le_IZR. lra. }
  rewrite INR_IZR_INZ, Z2Nat.id by assumption. apply Rmult_le_reg_r with (/ two_pi). { now apply Rinv_0_lt_compat. }
  rewrite Rmult_assoc, Rinv_r, Rmult_1_r by lra. unfold Rdiv in A. lra.
Qed.
Lemma wrap_ok : forall x, exists y, wrap_angle x = Ok y /\ wrapped x y.
Proof.
  intros x. pose proof two_pi_pos as P. pose proof (fuel_enough x) as F. unfold wrap_angle. set (f := wrap_fuel x) in *.
  destruct (wrap_up_ok f x) as (n & E & A & B). { pose proof (Rle_abs (- x)). rewrite Rabs_Ropp in *. lra. }
  rewrite E. cbn [rbind].
  destruct (wrap_down_ok f (x + INR n * two_pi)) as (m & D & C & G).
  { rewrite S_INR. destruct n as [|n]. { cbn [INR]. pose proof (Rle_abs x). lra. } assert (x + INR (S n) * two_pi < two_pi) by (apply B; lia). assert (0 <= INR f * two_pi) by (apply Rmult_le_pos; [apply pos_INR|lra]). lra. }
  rewrite D. eexists. split; [reflexivity|]. split.
  - split; [|assumption]. destruct m; [cbn [INR]; lra|]. left. apply G. lia.
  - exists (Z.of_nat n - Z.of_nat m)%Z. split. { rewrite minus_IZR, <- !INR_IZR_INZ. ring. }
    split; intros Q.
    + destruct m as [|m]; [|destruct n as [|n]; [lia|]].
      * destruct n as [|n]; [lia|]. change (INR 0) with 0 in Q. assert (x + INR (S n) * two_pi < two_pi) by (apply B; lia). lra.
      * assert (x + INR (S n) * two_pi < two_pi) by (apply B; lia). assert (0 <= INR (S m) * two_pi) by (apply Rmult_le_pos; [apply pos_INR|lra]). lra.
    + destruct m as [|m]; [lia|]. assert (0 < x + INR n * two_pi - INR (S m) * two_pi) by (apply G; lia). lra.
Qed.
Lemma small_int : forall k : Z, -1 < IZR k < 1 -> k = 0%Z.
Proof. intros k [L U]. apply lt_IZR in L, U. lia. Qed.
Lemma wrapped_unique : forall x y y', wrapped x y -> wrapped x y' -> y = y'.
Proof.
  intros x y y' (B & k & E & T & Z) (B' & k' & E' & T' & Z'). pose proof two_pi_pos as P.
  assert (D : y - y' = IZR (k - k') * two_pi) by (rewrite minus_IZR; lra).
  assert (H : -1 <= IZR (k - k') <= 1). { split; apply Rmult_le_reg_r with two_pi; lra. }
  destruct H as [L U]. apply le_IZR in L, U. assert (C : (k - k' = -1 \/ k - k' = 0 \/ k - k' = 1)%Z) by lia.
  destruct C as [C|[C|C]]; rewrite C in D.
  - assert (y = 0) by lra. assert (y' = two_pi) by lra. specialize (Z H). specialize (T' H0). lia.
  - lra.
  - assert (y' = 0) by lra. assert (y = two_pi) by lra. specialize (Z' H). specialize (T H0). lia.
Qed.
Lemma arc_wrapped : forall start stop w, arc_length start stop w <-> wrapped (stop - start) w.
Proof.
  intros start stop w. pose proof PI_RGT_0. unfold arc_length, wrapped, two_pi. split.
  - intros (k & E & C). split. { destruct C as [C|[[C _]|[C _]]]; lra. }
    exists (- k)%Z. rewrite opp_IZR. split. { lra. } split; intros W; destruct C as [C|[[C ?]|[C ?]]]; try lra; lia.
  - intros (B & k & E & T & Z). exists (- k)%Z. rewrite opp_IZR. split. { lra. }
    destruct (Req_dec w 0) as [W|W]. { right. right. split; auto. specialize (Z W). lia. }
    destruct (Req_dec w (2 * PI)) as [W'|W']. { right. left. split; auto. specialize (T W'). lia. } left. lra.
Qed.
(** what one range accepts *)
Lemma in_range_char : forall ccw a r, exists w th, wrapped (arc_stop ccw r - arc_start ccw r) w /\ wrapped (a - arc_start ccw r) th /\
  exists b, in_range ccw a r = Ok b /\ (b = true <-> (w < c_sqrt_epsf \/ th <= w + c_sqrt_epsf)).
Proof.
  intros ccw a [mn mx]. destruct (wrap_ok (arc_stop ccw (mn, mx) - arc_start ccw (mn, mx))) as (w & Ew & W).
  destruct (wrap_ok (a - arc_start ccw (mn, mx))) as (th & Et & T). exists w, th. split; [assumption|]. split; [assumption|].
  assert (Wb : 0 <= w <= two_pi) by apply W. assert (Tb : 0 <= th <= two_pi) by apply T. pose proof sqrt_epsf_small as S.
  unfold in_range. unfold arc_stop, arc_start in *. cbn [fst snd] in *.
  replace (let '(start, stop) := if ccw then (mn, mx) else (mx, mn) in
     do thetaMax <- wrap_angle (stop - start);
     if Rlt_dec (Rabs thetaMax) c_sqrt_epsf then Ok true
     else if (if Rlt_dec (Rabs (thetaMax - two_pi)) c_sqrt_epsf
              then (if ccw then (if Rlt_dec mn mx then true else false) else (if Rlt_dec mx mn then true else false)) else false) then Ok true
     else do theta <- wrap_angle (a - start);
          Ok (if Rle_dec (- c_sqrt_epsf) theta then (if Rle_dec theta (thetaMax + c_sqrt_epsf) then true else false) else false))
   with (if Rlt_dec (Rabs w) c_sqrt_epsf then Ok true
     else if (if Rlt_dec (Rabs (w - two_pi)) c_sqrt_epsf
              then (if ccw then (if Rlt_dec mn mx then true else false) else (if Rlt_dec mx mn then true else false)) else false) then Ok true
     else Ok (if Rle_dec (- c_sqrt_epsf) th then (if Rle_dec th (w + c_sqrt_epsf) then true else false) else false)).
  2: { destruct ccw; cbn beta iota; rewrite Ew; cbn [rbind]; rewrite Et; reflexivity. }
  rewrite (Rabs_right w) by lra. destruct (Rlt_dec w c_sqrt_epsf) as [A|A].
  { exists true. split; auto. split; auto. }
  match goal with |- context [if ?c then Ok true else _] => destruct c eqn:E end.
  { exists true. split; auto. split; auto. intros _. right. destruct (Rlt_dec (Rabs (w - two_pi)) c_sqrt_epsf) as [L|L]; [|discriminate].
    apply Rabs_def2 in L. lra. }
  destruct (Rle_dec (- c_sqrt_epsf) th) as [B|B]; [|lra]. destruct (Rle_dec th (w + c_sqrt_epsf)) as [C|C].
  - exists true. split; auto. split; auto.
  - exists false. split; auto. split; [discriminate|]. intros [|]; lra.
Qed.
Lemma accepted_ok : forall ccw a rs, exists b, accepted ccw a rs = Ok b /\ (b = true <-> exists r, In r rs /\ in_range ccw a r = Ok true).
Proof.
  induction rs as [|r rs IH]; cbn [accepted].
  - exists false. split; auto. split; [discriminate|]. now intros (r & [] & _).
  - destruct (in_range_char ccw a r) as (w & th & _ & _ & b & E & _). rewrite E. cbn [rbind]. destruct b.
    + exists true. split; auto. split; auto. intros _. exists r. split; [now left|auto].
    + destruct IH as (b & E' & I). exists b. split; auto. rewrite I. split; intros (r' & H & K).
      * exists r'. split; [now right|auto].
      * destruct H as [->|H]; [congruence|]. now exists r'.
Qed.
Lemma map_result_ok : forall {A B} (f : A -> result B) l, (forall x, exists y, f x = Ok y) -> exists out, map_result f l = Ok out /\ Forall2 (fun x y => f x = Ok y) l out.
Proof.
  intros A B f l H. induction l as [|x l IH]; cbn [map_result]. { exists []. split; auto. }
  destruct (H x) as [y E]. destruct IH as (ys & Es & F). rewrite E. cbn [rbind]. rewrite Es. cbn [rbind]. exists (y :: ys). split; auto.
Qed.
Lemma map_result_inv : forall {A B} (f : A -> result B) l out, map_result f l = Ok out -> Forall2 (fun x y => f x = Ok y) l out.
Proof.
  intros A B f. induction l as [|x l IH]; cbn [map_result]; intros out H. { injection H as <-. constructor. }
  destruct (f x) as [y|] eqn:E; [|discriminate]. cbn [rbind] in H. destruct (map_result f l) as [ys|] eqn:Es; [|discriminate]. cbn [rbind] in H. injection H as <-. constructor; auto.
Qed.
Lemma validate_total : forall angs starts stops ccw, List.length starts = List.length stops ->
  exists out, validate_angle_ranges angs starts stops ccw = Ok out /\ List.length out = List.length angs.
Proof.
  intros angs starts stops ccw H. unfold validate_angle_ranges. rewrite (proj2 (Nat.eqb_eq _ _) H).
  destruct (map_result_ok (fun a => accepted ccw a (combine starts stops)) angs) as (out & E & F).
  { intros a. destruct (accepted_ok ccw a (combine starts stops)) as (b & E & _). now exists b. }
  exists out. split; auto. symmetry. clear - F. induction F; cbn; auto.
Qed.
Lemma validate_mismatch : forall angs starts stops ccw, List.length starts <> List.length stops -> validate_angle_ranges angs starts stops ccw = Err RuntimeError.
Proof. intros angs starts stops ccw H. unfold validate_angle_ranges. now rewrite (proj2 (Nat.eqb_neq _ _) H). Qed.
Lemma validate_each : forall angs starts stops ccw out, validate_angle_ranges angs starts stops ccw = Ok out ->
  Forall2 (fun a b => b = true <-> exists r, In r (combine starts stops) /\ in_range ccw a r = Ok true) angs out.
Proof.
  intros angs starts stops ccw out H. unfold validate_angle_ranges in H. destruct (Nat.eqb _ _); [|discriminate]. apply map_result_inv in H.
  eapply f2_impl; [|exact H]. cbn beta. intros a b E. destruct (accepted_ok ccw a (combine starts stops)) as (b' & E' & I). rewrite E in E'. injection E' as <-. exact I.
Qed.
(** an angle on the arc is accepted, unless it is the start of the arc reached by whole turns forwards *)
Lemma accepts_arc : forall ccw a r w, arc_length (arc_start ccw r) (arc_stop ccw r) w -> on_arc (arc_start ccw r) w a ->
  ~ (exists k : Z, (0 < k)%Z /\ a = arc_start ccw r + IZR k * (2 * PI)) -> in_range ccw a r = Ok true.
Proof.
  intros ccw a r w A (k & L & U) N. apply arc_wrapped in A. destruct (in_range_char ccw a r) as (w' & th & W & T & b & E & I).
  rewrite (wrapped_unique _ _ _ W A) in I. rewrite E. f_equal. apply I. clear I E b. pose proof sqrt_epsf_small as S. pose proof two_pi_pos as P. fold two_pi in *.
  destruct A as (B & _). destruct T as (Tb & j & Ej & Tj & Zj). right. set (st := arc_start ccw r) in *.
  assert (D : th - (a + IZR k * two_pi - st) = IZR (j - k) * two_pi) by (rewrite minus_IZR; lra).
  assert (H : -1 <= IZR (j - k) <= 1). { split; apply Rmult_le_reg_r with two_pi; lra. }
  destruct H as [H1 H2]. apply le_IZR in H1, H2. assert (C : (j - k = -1 \/ j - k = 0 \/ j - k = 1)%Z) by lia.
  destruct C as [C|[C|C]]; rewrite C in D; [lra|lra|].
  assert (X : a + IZR k * two_pi = st) by lra. assert (th = two_pi) by lra. specialize (Tj H). exfalso. apply N. exists (- k)%Z. rewrite opp_IZR. fold two_pi. split; [lia|lra].
Qed.
Lemma accepted_near : forall ccw a r, in_range ccw a r = Ok true -> exists w, arc_length (arc_start ccw r) (arc_stop ccw r) w /\
  (w < c_sqrt_epsf \/ on_arc (arc_start ccw r) (w + c_sqrt_epsf) a).
Proof.
  intros ccw a r H. destruct (in_range_char ccw a r) as (w & th & W & T & b & E & I). rewrite H in E. injection E as <-.
  exists w. split. { now apply arc_wrapped. } destruct (proj1 I eq_refl) as [C|C]; [now left|right].
  destruct T as (Tb & j & Ej & _). exists j. fold two_pi. lra.
Qed.
Lemma full_accepts : forall ccw a r w, arc_length (arc_start ccw r) (arc_stop ccw r) w -> two_pi - c_sqrt_epsf <= w -> in_range ccw a r = Ok true.
Proof.
  intros ccw a r w A H. apply arc_wrapped in A. destruct (in_range_char ccw a r) as (w' & th & W & T & b & E & I).
  rewrite (wrapped_unique _ _ _ W A) in I. rewrite E. f_equal. apply I. right. destruct T as [T _]. lra.
Qed.
Lemma validate_accepts : forall angs starts stops ccw out, validate_angle_ranges angs starts stops ccw = Ok out ->
  Forall2 (fun a b => forall r w, In r (combine starts stops) -> arc_length (arc_start ccw r) (arc_stop ccw r) w -> on_arc (arc_start ccw r) w a ->
    ~ (exists k : Z, (0 < k)%Z /\ a = arc_start ccw r + IZR k * (2 * PI)) -> b = true) angs out.
Proof.
  intros. eapply f2_impl; [|eapply validate_each; eassumption]. cbn beta. intros a b I r w Hr A O N. apply I. exists r. split; auto. eapply accepts_arc; eassumption.
Qed.
Lemma validate_near : forall angs starts stops ccw out, validate_angle_ranges angs starts stops ccw = Ok out ->
  Forall2 (fun a b => b = true -> exists r w, In r (combine starts stops) /\ arc_length (arc_start ccw r) (arc_stop ccw r) w /\
    (w < c_sqrt_epsf \/ on_arc (arc_start ccw r) (w + c_sqrt_epsf) a)) angs out.
Proof.
  intros. eapply f2_impl; [|eapply validate_each; eassumption]. cbn beta. intros a b I B. apply I in B as (r & Hr & K).
  destruct (accepted_near _ _ _ K) as (w & A & C). now exists r, w.
Qed.
Lemma validate_full : forall angs starts stops ccw out r (k : Z), validate_angle_ranges angs starts stops ccw = Ok out -> In r (combine starts stops) ->
  (0 < k)%Z -> arc_stop ccw r = arc_start ccw r + IZR k * (2 * PI) -> Forall (fun b => b = true) out.
Proof.
  intros angs starts stops ccw out r k H Hr K E. pose proof (validate_each _ _ _ _ _ H) as F.
  assert (A : arc_length (arc_start ccw r) (arc_stop ccw r) (2 * PI)).
  { exists (k - 1)%Z. rewrite minus_IZR. split; [lra|]. right. left. split; auto. lia. }
  clear H. induction F as [|a b la lb F1 F2 IH]; constructor; auto. apply F1. exists r. split; auto.
  apply (full_accepts ccw a r (2 * PI) A). unfold two_pi. pose proof sqrt_epsf_small. lra.
Qed.
(** the angle 2 pi on the arc from 0 to 1 *)
Lemma start_refuted : validate_angle_ranges [0] [0] [1] true = Ok [true] /\ validate_angle_ranges [2 * PI] [0] [1] true = Ok [false].
Proof.
  pose proof two_pi_big as P. pose proof sqrt_epsf_small as S.
  assert (W1 : wrapped (1 - 0) 1). { split; [lra|]. exists 0%Z. split; [ring|]. split; intros; [lia|lra]. }
  unfold validate_angle_ranges. cbn [List.length Nat.eqb combine map_result accepted].
  destruct (in_range_char true 0 (0, 1)) as (w & th & W & T & b & E & I). destruct (in_range_char true (2 * PI) (0, 1)) as (w' & th' & W' & T' & b' & E' & I').
  rewrite E, E'. cbn [arc_start arc_stop fst snd] in *. rewrite (wrapped_unique _ _ _ W W1) in I. rewrite (wrapped_unique _ _ _ W' W1) in I'.
  assert (T1 : wrapped (0 - 0) 0). { split; [lra|]. exists 0%Z. split; [ring|]. split; intros; [lia|lia]. }
  assert (T2 : wrapped (2 * PI - 0) two_pi). { split; [lra|]. exists 0%Z. split; [unfold two_pi; ring|]. split; intros; [lia|lra]. }
  rewrite (wrapped_unique _ _ _ T T1) in I. rewrite (wrapped_unique _ _ _ T' T2) in I'.
  assert (b = true) by (apply I; right; lra). subst b. destruct b'. { exfalso. destruct (proj1 I' eq_refl); lra. } split; reflexivity.
Qed.
Lemma empty_refuted : forall s a, validate_angle_ranges [a] [s] [s] true = Ok [true].
Proof.
  intros s a. unfold validate_angle_ranges. cbn [List.length Nat.eqb combine map_result accepted].
  destruct (in_range_char true a (s, s)) as (w & th & W & T & b & E & I). rewrite E. cbn [arc_start arc_stop fst snd] in *.
  assert (W1 : wrapped (s - s) 0). { pose proof two_pi_pos. split; [lra|]. exists 0%Z. split; [ring|]. split; intros; lia. }
  rewrite (wrapped_unique _ _ _ W W1) in I. pose proof sqrt_epsf_small. assert (b = true) by (apply I; left; lra). subst b. reflexivity.
Qed.
