(** Geometric structure factors: the extinction condition [absent] is exactly
    the vanishing of the sum over the equivalent positions of every point. *)
From Coq Require Import Reals Lra Permutation.
From Verif Require Import Prelude SgModel SgSpec SgRSpec SgProofs.
Local Open Scope R_scope.

(** ** Sums *)
Lemma rsum_ext {A} (f g : A -> R) l : (forall a, In a l -> f a = g a) -> rsum f l = rsum g l.
Proof.
  induction l as [|a l IH]; cbn [rsum]; auto. intros H.
  rewrite (H a) by now left. rewrite IH; auto. intros b Hb. apply H. now right.
Qed.
Lemma rsum_plus {A} (f g : A -> R) l : rsum (fun a => f a + g a) l = rsum f l + rsum g l.
Proof. induction l as [|a l IH]; cbn [rsum]; [lra|]. rewrite IH. lra. Qed.
Lemma rsum_scale {A} k (f : A -> R) l : rsum (fun a => k * f a) l = k * rsum f l.
Proof. induction l as [|a l IH]; cbn [rsum]; [lra|]. rewrite IH. lra. Qed.
Lemma rsum_map {A B} (f : B -> R) (g : A -> B) l : rsum f (map g l) = rsum (fun a => f (g a)) l.
Proof. induction l as [|a l IH]; cbn [rsum map]; auto. now rewrite IH. Qed.
Lemma rsum_perm {A} (f : A -> R) l l' : Permutation l l' -> rsum f l = rsum f l'.
Proof. induction 1; cbn [rsum]; lra. Qed.
Lemma rsum_swap {A B} (f : A -> B -> R) la lb :
  rsum (fun a => rsum (f a) lb) la = rsum (fun b => rsum (fun a => f a b) la) lb.
Proof.
  induction la as [|a la IH]; cbn [rsum].
  - induction lb as [|b lb IHb]; cbn [rsum]; lra.
  - rewrite IH, <- rsum_plus. apply rsum_ext. intros; lra.
Qed.
Lemma rsum_nonneg {A} (f : A -> R) l : (forall a, In a l -> 0 <= f a) -> 0 <= rsum f l.
Proof.
  induction l as [|a l IH]; cbn [rsum]; [lra|]. intros H.
  pose proof (H a (or_introl eq_refl)). specialize (IH (fun b Hb => H b (or_intror Hb))). lra.
Qed.
Lemma rsum_pos {A} (f : A -> R) l a : (forall a, In a l -> 0 <= f a) -> In a l -> 0 < f a -> 0 < rsum f l.
Proof.
  induction l as [|b l IH]; cbn [rsum]; [easy|]. intros H [->|Hin] Hp.
  - pose proof (rsum_nonneg f l (fun b Hb => H b (or_intror Hb))). lra.
  - pose proof (H b (or_introl eq_refl)). specialize (IH (fun b Hb => H b (or_intror Hb)) Hin Hp). lra.
Qed.

(** ** Turns *)
Lemma cos_turn a k : cos (2 * PI * (a + IZR k)) = cos (2 * PI * a).
Proof.
  destruct (Z_le_dec 0 k) as [H|H].
  - rewrite <- (Z2Nat.id k H), <- INR_IZR_INZ.
    replace (2 * PI * (a + INR (Z.to_nat k))) with (2 * PI * a + 2 * INR (Z.to_nat k) * PI) by ring.
    apply cos_period.
  - replace (2 * PI * a) with (2 * PI * (a + IZR k) + 2 * INR (Z.to_nat (- k)) * PI).
    { symmetry. apply cos_period. }
    rewrite INR_IZR_INZ, Z2Nat.id, opp_IZR by lia. ring.
Qed.
Lemma sin_turn a k : sin (2 * PI * (a + IZR k)) = sin (2 * PI * a).
Proof.
  destruct (Z_le_dec 0 k) as [H|H].
  - rewrite <- (Z2Nat.id k H), <- INR_IZR_INZ.
    replace (2 * PI * (a + INR (Z.to_nat k))) with (2 * PI * a + 2 * INR (Z.to_nat k) * PI) by ring.
    apply sin_period.
  - replace (2 * PI * a) with (2 * PI * (a + IZR k) + 2 * INR (Z.to_nat (- k)) * PI).
    { symmetry. apply sin_period. }
    rewrite INR_IZR_INZ, Z2Nat.id, opp_IZR by lia. ring.
Qed.

(** a turn by a fraction that is not whole moves every vector but 0 *)
Lemma cos_frac n d : (0 < d)%Z -> (n mod d <> 0)%Z -> cos (2 * PI * (IZR n / IZR d)) <> 1.
Proof.
  intros Hd Hn. assert (Hd' : 0 < IZR d) by (apply IZR_lt; exact Hd).
  set (r := (n mod d)%Z) in *. pose proof (Z.mod_pos_bound n d Hd) as Hr. fold r in Hr.
  assert (E : IZR n / IZR d = IZR r / IZR d + IZR (n / d)).
  { rewrite (Z.div_mod n d) at 1 by lia. fold r. rewrite plus_IZR, mult_IZR. field. lra. }
  rewrite E, cos_turn.
  assert (Hrd : 0 < IZR r / IZR d < 1).
  { assert (0 < IZR r < IZR d) by (split; apply IZR_lt; lia).
    split; [apply Rdiv_lt_0_compat; lra|]. apply Rmult_lt_reg_r with (IZR d); [lra|].
    unfold Rdiv. rewrite Rmult_assoc, Rinv_l; lra. }
  revert Hrd. generalize (IZR r / IZR d) as u. intros u Hu K. pose proof PI_RGT_0 as HP.
  assert (S0 : sin (PI * u) = 0).
  { pose proof (cos_2a_sin (PI * u)) as C. replace (2 * (PI * u)) with (2 * PI * u) in C by ring.
    rewrite K in C. assert (sin (PI * u) * sin (PI * u) = 0) by lra. now apply Rmult_integral in H as [|]. }
  assert (0 < sin (PI * u)); [|lra]. apply sin_gt_0; nra.
Qed.

Lemma turn_zero (c s a b : R) : a * a + b * b = 1 -> a <> 1 ->
  c = a * c - b * s -> s = b * c + a * s -> c = 0 /\ s = 0.
Proof.
  intros Hab Ha Hc Hs.
  assert (K : (2 - 2 * a) * c = 0).
  { assert ((1 - a) * c = - b * s) by lra. assert ((1 - a) * s = b * c) by lra.
    assert ((1 - a) * ((1 - a) * c) = - b * (b * c)).
    { rewrite H. replace ((1 - a) * (- b * s)) with (- b * ((1 - a) * s)) by ring. now rewrite H0. }
    replace ((2 - 2 * a) * c) with ((1 - a) * ((1 - a) * c) + (1 - a * a) * c) by ring.
    rewrite H1. replace (1 - a * a) with (b * b) by lra. ring. }
  assert (K' : (2 - 2 * a) * s = 0).
  { assert ((1 - a) * c = - b * s) by lra. assert ((1 - a) * s = b * c) by lra.
    assert ((1 - a) * ((1 - a) * s) = - b * (b * s)).
    { rewrite H0. replace ((1 - a) * (b * c)) with (b * ((1 - a) * c)) by ring. rewrite H. ring. }
    replace ((2 - 2 * a) * s) with ((1 - a) * ((1 - a) * s) + (1 - a * a) * s) by ring.
    rewrite H1. replace (1 - a * a) with (b * b) by lra. ring. }
  split; [apply Rmult_integral in K as [|]|apply Rmult_integral in K' as [|]]; lra.
Qed.

(** ** Phases *)
Lemma phase_compose h a b x y z :
  phase h (compose a b) x y z = phase (row_act h (op_r a)) b x y z + IZR (idot h (op_t a)) / 24.
Proof.
  destruct h as [h0 h1 h2], a as [[[a00 a01 a02] [a10 a11 a12] [a20 a21 a22]] [s0 s1 s2]],
    b as [[[b00 b01 b02] [b10 b11 b12] [b20 b21 b22]] [t0 t1 t2]].
  unfold phase, compose, matmul, row_act, idot. cbn [op_r op_t r0 r1 r2 v0 v1 v2].
  rewrite ?plus_IZR, ?mult_IZR. rewrite ?plus_IZR, ?mult_IZR. field.
Qed.

Lemma phase_same h a b x y z : same_op a b -> exists k, phase h a x y z = phase h b x y z + IZR k.
Proof.
  destruct h as [h0 h1 h2], a as [ra [s0 s1 s2]], b as [rb [t0 t1 t2]].
  intros (E & [k0 E0] & [k1 E1] & [k2 E2]). cbn [op_r op_t v0 v1 v2] in *. subst rb.
  exists (h0 * k0 + h1 * k1 + h2 * k2)%Z. unfold phase. cbn [op_r op_t v0 v1 v2].
  replace s0 with (t0 + k0 * 24)%Z by lia. replace s1 with (t1 + k1 * 24)%Z by lia.
  replace s2 with (t2 + k2 * 24)%Z by lia.
  rewrite ?plus_IZR, ?mult_IZR, ?plus_IZR, ?mult_IZR. field.
Qed.

Lemma op_frac_same a : same_op (op_frac a) a.
Proof. apply same_op_frac, op_frac_idem. Qed.

Lemma map_NoDup_in {A B} (f : A -> B) l :
  (forall x y, In x l -> In y l -> f x = f y -> x = y) -> NoDup l -> NoDup (map f l).
Proof.
  intros Hf H. induction H as [|x l Hx Hl IH]; cbn [map]; constructor.
  - intros K. apply in_map_iff in K as (y & E & Hy). apply Hx.
    rewrite <- (Hf y x); auto; [now right|now left].
  - apply IH. intros; apply Hf; auto; now right.
Qed.

(** ** Multiplying by one operation permutes a space group *)
Section Group.
  Context (ops : list symop) (Hsg : space_group ops).

  Lemma sg_eq a b : In a ops -> In b ops -> same_op a b -> a = b.
  Proof.
    intros Ha Hb H. apply In_nth_error in Ha as [i Hi]. apply In_nth_error in Hb as [j Hj].
    pose proof (sg_distinct _ Hsg _ _ _ _ Hi Hj H) as <-. congruence.
  Qed.
  Lemma sg_nodup : NoDup ops.
  Proof.
    apply NoDup_nth_error. intros i j Hi E. destruct (nth_error ops i) as [a|] eqn:Ei.
    - symmetry in E. eapply (sg_distinct _ Hsg); eauto using same_op_refl.
    - apply nth_error_None in Ei. lia.
  Qed.

  Lemma sg_perm a : In a ops ->
    Permutation (map (fun b => op_frac (compose a b)) ops) (map op_frac ops).
  Proof.
    intros Ha. apply NoDup_Permutation_bis.
    - apply map_NoDup_in; [|apply sg_nodup].
      intros b c Hb Hc E. apply same_op_frac in E. apply sg_eq; auto.
      destruct (sg_inv _ Hsg a Ha) as (i & _ & _ & Hi).
      assert (K : forall d, same_op (compose i (compose a d)) d).
      { intros d. rewrite <- compose_assoc.
        eapply same_op_trans; [apply same_op_compose; [exact Hi|apply same_op_refl]|].
        destruct d as [[[d00 d01 d02] [d10 d11 d12] [d20 d21 d22]] [t0 t1 t2]].
        unfold same_op, compose, identity_op, matmul, row_act, idot, one. cbn [op_r op_t r0 r1 r2 v0 v1 v2].
        split; [f_equal; f_equal; ring|]. repeat split; exists 0%Z; ring. }
      eapply same_op_trans; [apply same_op_sym, K|]. eapply same_op_trans; [|apply K].
      apply same_op_compose; [apply same_op_refl|exact E].
    - rewrite !map_length. lia.
    - intros f Hf. apply in_map_iff in Hf as (b & <- & Hb).
      destruct (sg_mul _ Hsg a b Ha Hb) as (c & Hc & E).
      apply same_op_frac in E. rewrite <- E. now apply in_map.
  Qed.

  Lemma periodic_sum (f : R -> R) h x y z :
    (forall u k, f (u + IZR k) = f u) -> forall a, In a ops ->
    rsum (fun b => f (phase h b x y z)) ops = rsum (fun b => f (phase h (compose a b) x y z)) ops.
  Proof.
    intros Hf a Ha.
    assert (Hfr : forall b, f (phase h (op_frac b) x y z) = f (phase h b x y z)).
    { intros b. destruct (phase_same h _ _ x y z (op_frac_same b)) as [k ->]. apply Hf. }
    transitivity (rsum (fun b => f (phase h b x y z)) (map op_frac ops)).
    - rewrite rsum_map. apply rsum_ext. intros; symmetry; apply Hfr.
    - rewrite <- (rsum_perm _ _ _ (sg_perm a Ha)), rsum_map. apply rsum_ext. intros; apply Hfr.
  Qed.

  Lemma absent_extinguished h : absent ops h -> extinguished ops h.
  Proof.
    intros (a & Ha & Hfix & Hdiv) x y z.
    set (al := 2 * PI * (IZR (idot h (op_t a)) / 24)).
    apply (turn_zero _ _ (cos al) (sin al)).
    - pose proof (sin2_cos2 al) as K. unfold Rsqr in K. lra.
    - apply (cos_frac _ 24); [lia|]. intros K. apply Hdiv. now apply Z.mod_divide.
    - unfold sf_re at 1. rewrite (periodic_sum (fun u => cos (2 * PI * u)) h x y z (fun u k => cos_turn u k) a Ha).
      unfold sf_re, sf_im.
      transitivity (rsum (fun b => cos al * cos (2 * PI * phase h b x y z)
                                   + (- sin al) * sin (2 * PI * phase h b x y z)) ops);
        [|rewrite rsum_plus, !rsum_scale; ring].
      apply rsum_ext. intros b _. rewrite phase_compose, Hfix.
      replace (2 * PI * (phase h b x y z + IZR (idot h (op_t a)) / 24)) with (2 * PI * phase h b x y z + al)
        by (unfold al; ring).
      rewrite cos_plus. ring.
    - unfold sf_im at 1. rewrite (periodic_sum (fun u => sin (2 * PI * u)) h x y z (fun u k => sin_turn u k) a Ha).
      unfold sf_re, sf_im. rewrite <- !rsum_scale, <- rsum_plus.
      apply rsum_ext. intros b _. rewrite phase_compose, Hfix.
      replace (2 * PI * (phase h b x y z + IZR (idot h (op_t a)) / 24)) with (2 * PI * phase h b x y z + al)
        by (unfold al; ring).
      rewrite sin_plus. ring.
  Qed.
End Group.

(** ** Conversely, a reflection that is not absent is seen by some atom *)

Lemma big_bound {A} (f : A -> Z) l : exists m, (0 < m)%Z /\ forall a, In a l -> (f a < m)%Z.
Proof.
  induction l as [|a l (m & Hm & IH)]; [exists 1%Z; split; [lia|easy]|].
  exists (Z.max m (f a + 1)). split; [lia|]. intros b [<-|Hb]; [lia|]. specialize (IH b Hb). lia.
Qed.

Lemma separate a b c m : (Z.abs a + Z.abs b < m)%Z -> (a + b * m + c * (m * m) = 0)%Z ->
  a = 0%Z /\ b = 0%Z /\ c = 0%Z.
Proof.
  intros Hm E.
  assert (Hc : c = 0%Z).
  { destruct (Z.eq_dec c 0); auto. exfalso.
    assert (Z.abs (c * (m * m)) >= m * m)%Z by nia.
    assert (Z.abs (a + b * m) <= Z.abs a + Z.abs b * m)%Z by nia. nia. }
  subst c. assert (Hb : b = 0%Z).
  { destruct (Z.eq_dec b 0); auto. exfalso. assert (Z.abs (b * m) >= m)%Z by nia. lia. }
  subst b. lia.
Qed.

Lemma circle_sum k n c : (0 < n)%Z -> (k mod n <> 0)%Z ->
  rsum (fun s => cos (2 * PI * (IZR s * (IZR k / IZR n) + c))) (zrange 0 n) = 0.
Proof.
  intros Hn Hk. assert (Hn' : 0 < IZR n) by (apply IZR_lt; exact Hn).
  set (th := IZR k / IZR n).
  set (C := rsum (fun s => cos (2 * PI * (IZR s * th + c))) (zrange 0 n)).
  set (S := rsum (fun s => sin (2 * PI * (IZR s * th + c))) (zrange 0 n)).
  assert (Sh : forall f : R -> R, (forall u j, f (u + IZR j) = f u) ->
    rsum (fun s => f (IZR s * th + c)) (zrange 0 n) = rsum (fun s => f (IZR s * th + c + th)) (zrange 0 n)).
  { intros f Hf.
    transitivity (rsum (fun s => f (IZR s * th + c)) (zrange 1 (n + 1))).
    - rewrite <- (zrange_app 0 1 n) by lia. rewrite <- (zrange_app 1 n (n + 1)) by lia.
      rewrite (rsum_perm _ _ _ (Permutation_app_comm _ _)).
      assert (A : forall l1 l2 (g : Z -> R), rsum g (l1 ++ l2) = rsum g l1 + rsum g l2).
      { intros l1 l2 g. induction l1; cbn [rsum app]; [lra|]. rewrite IHl1. lra. }
      rewrite !A. f_equal.
      replace (zrange 0 1) with [0%Z] by reflexivity.
      replace (zrange n (n + 1)) with [n].
      2:{ unfold zrange. replace (Z.to_nat (n + 1 - n)) with 1%nat by lia. cbn [seq map Z.of_nat]. now rewrite Z.add_0_r. }
      cbn [rsum]. f_equal. replace (IZR n * th + c) with ((0 * th + c) + IZR k).
      { rewrite Hf. reflexivity. }
      unfold th. field. lra.
    - replace (zrange 1 (n + 1)) with (map (fun s => (s + 1)%Z) (zrange 0 n)).
      + rewrite rsum_map. apply rsum_ext. intros s _. f_equal. rewrite plus_IZR. ring.
      + unfold zrange. rewrite map_map. replace (n + 1 - 1)%Z with (n - 0)%Z by lia.
        apply map_ext. intros; lia. }
  assert (K : C = 0 /\ S = 0); [|apply K].
  set (al := 2 * PI * th).
  apply (turn_zero _ _ (cos al) (sin al)).
  - pose proof (sin2_cos2 al) as K. unfold Rsqr in K. lra.
  - apply (cos_frac k n Hn Hk).
  - unfold C at 1. rewrite (Sh (fun u => cos (2 * PI * u))) by (intros; apply cos_turn).
    unfold C, S.
    transitivity (rsum (fun s => cos al * cos (2 * PI * (IZR s * th + c))
                                 + (- sin al) * sin (2 * PI * (IZR s * th + c))) (zrange 0 n));
      [|rewrite rsum_plus, !rsum_scale; ring].
    apply rsum_ext. intros s _.
    replace (2 * PI * (IZR s * th + c + th)) with (2 * PI * (IZR s * th + c) + al) by (unfold al; ring).
    rewrite cos_plus. ring.
  - unfold S at 1. rewrite (Sh (fun u => sin (2 * PI * u))) by (intros; apply sin_turn).
    unfold C, S. rewrite <- !rsum_scale, <- rsum_plus. apply rsum_ext. intros s _.
    replace (2 * PI * (IZR s * th + c + th)) with (2 * PI * (IZR s * th + c) + al) by (unfold al; ring).
    rewrite sin_plus. ring.
Qed.

Lemma iv_eq_dec (a b : ivec) : {a = b} + {a <> b}.
Proof. decide equality; apply Z.eq_dec. Qed.

Lemma absent_dec ops h : {absent ops h} + {~ absent ops h}.
Proof.
  induction ops as [|o ops [IH|IH]].
  - right. intros (? & [] & _).
  - left. destruct IH as (a & Ha & H). exists a. split; [now right|exact H].
  - destruct (iv_eq_dec (row_act h (op_r o)) h) as [E|E].
    + destruct (Znumtheory.Zdivide_dec 24 (idot h (op_t o))) as [D|D].
      * right. intros (a & [<-|Ha] & H); [tauto|]. apply IH. exists a. auto.
      * left. exists o. split; [now left|]. auto.
    + right. intros (a & [<-|Ha] & H); [tauto|]. apply IH. exists a. auto.
Qed.

Lemma extinguished_absent ops h : In identity_op ops -> extinguished ops h -> absent ops h.
Proof.
  intros Hid Hext. destruct (absent_dec ops h) as [|Hna]; auto. exfalso.
  set (d := fun op => let g := row_act h (op_r op) in
                      IV (v0 g - v0 h) (v1 g - v1 h) (v2 g - v2 h)).
  destruct (big_bound (fun op => (Z.abs (v0 (d op)) + Z.abs (v1 (d op)))%Z) ops) as (m & Hm0 & Hm).
  set (w := fun g => (v0 g + v1 g * m + v2 g * (m * m))%Z).
  destruct (big_bound (fun op => Z.abs (w (d op))) ops) as (n & Hn0 & Hn).
  assert (Hk : forall op, In op ops -> (w (d op) mod n = 0)%Z -> row_act h (op_r op) = h).
  { intros op Hop K. specialize (Hn op Hop). cbv beta in Hn.
    assert (W : w (d op) = 0%Z).
    { apply Z.mod_divide in K; [|lia]. destruct K as [j Hj]. rewrite Hj in Hn |- *.
      rewrite Z.abs_mul, (Z.abs_eq n) in Hn by lia.
      assert (Z.abs j = 0)%Z by nia. assert (j = 0)%Z by lia. subst j. reflexivity. }
    specialize (Hm op Hop). cbv beta in Hm.
    destruct (separate _ _ _ _ Hm W) as (E0 & E1 & E2). unfold d in E0, E1, E2. cbn [v0 v1 v2] in E0, E1, E2.
    destruct (row_act h (op_r op)) as [p q r], h as [h0 h1 h2]. cbn [v0 v1 v2] in *. f_equal; lia. }
  assert (Hn' : 0 < IZR n) by (apply IZR_lt; exact Hn0).
  (* phases along the line s (1, m, m^2) / n, taken relative to that of h *)
  assert (Ph : forall op s, phase h op (IZR s / IZR n) (IZR s / IZR n * IZR m) (IZR s / IZR n * (IZR m * IZR m))
      = IZR s * (IZR (w (d op)) / IZR n) + IZR (idot h (op_t op)) / 24 + IZR s * IZR (w h) / IZR n).
  { intros [[[a00 a01 a02] [a10 a11 a12] [a20 a21 a22]] [t0 t1 t2]] s. destruct h as [h0 h1 h2].
    unfold phase, w, d, row_act, idot. cbn [op_r op_t r0 r1 r2 v0 v1 v2].
    rewrite ?plus_IZR, ?minus_IZR, ?mult_IZR, ?plus_IZR, ?minus_IZR, ?mult_IZR, ?plus_IZR, ?mult_IZR. field. lra. }
  set (T := rsum (fun s => rsum (fun op =>
     cos (2 * PI * (IZR s * (IZR (w (d op)) / IZR n) + IZR (idot h (op_t op)) / 24))) ops) (zrange 0 n)).
  assert (T0 : T = 0).
  { unfold T. transitivity (rsum (fun _ : Z => 0) (zrange 0 n)).
    - apply rsum_ext. intros s _.
      destruct (Hext (IZR s / IZR n) (IZR s / IZR n * IZR m) (IZR s / IZR n * (IZR m * IZR m))) as [E1 E2].
      unfold sf_re in E1. unfold sf_im in E2.
      set (be := 2 * PI * (IZR s * IZR (w h) / IZR n)).
      transitivity (rsum (fun op => cos be * cos (2 * PI * phase h op (IZR s / IZR n) (IZR s / IZR n * IZR m) (IZR s / IZR n * (IZR m * IZR m)))
         + sin be * sin (2 * PI * phase h op (IZR s / IZR n) (IZR s / IZR n * IZR m) (IZR s / IZR n * (IZR m * IZR m)))) ops).
      + apply rsum_ext. intros op _. rewrite Ph.
        set (ga := IZR s * (IZR (w (d op)) / IZR n) + IZR (idot h (op_t op)) / 24).
        rewrite (Rmult_plus_distr_l (2 * PI) ga). fold be.
        generalize (2 * PI * ga) as ga'. clear ga. intros ga. rewrite cos_plus, sin_plus.
        pose proof (sin2_cos2 be) as K. unfold Rsqr in K.
        replace (cos be * (cos ga * cos be - sin ga * sin be) + sin be * (sin ga * cos be + cos ga * sin be))
          with (cos ga * (sin be * sin be + cos be * cos be)) by ring. rewrite K. ring.
      + rewrite rsum_plus, !rsum_scale, E1, E2. ring.
    - induction (zrange 0 n) as [|? ? IH]; cbn [rsum]; [reflexivity|rewrite IH; ring]. }
  assert (Tp : 0 < T).
  { unfold T. rewrite rsum_swap.
    assert (One : forall op, In op ops -> row_act h (op_r op) = h -> forall s,
      cos (2 * PI * (IZR s * (IZR (w (d op)) / IZR n) + IZR (idot h (op_t op)) / 24)) = 1).
    { intros op Hop E s.
      assert (W : w (d op) = 0%Z).
      { unfold w, d. cbv zeta. rewrite E. cbn [v0 v1 v2]. ring. }
      destruct (Znumtheory.Zdivide_dec 24 (idot h (op_t op))) as [[k Ek]|N].
      - rewrite W, Ek, mult_IZR.
        replace (IZR s * (0 / IZR n) + IZR k * 24 / 24) with (0 + IZR k) by (field; lra).
        rewrite cos_turn, Rmult_0_r. apply cos_0.
      - exfalso. apply Hna. exists op. auto. }
    apply rsum_pos with identity_op; auto.
    - intros op Hop. destruct (Z.eq_dec (w (d op) mod n) 0) as [K|K].
      + apply rsum_nonneg. intros s _. rewrite One; auto; lra.
      + rewrite circle_sum; auto. lra.
    - assert (E : row_act h (op_r identity_op) = h).
      { destruct h as [h0 h1 h2]. unfold row_act, identity_op, one. cbn [op_r r0 r1 r2 v0 v1 v2]. f_equal; ring. }
      rewrite (rsum_ext _ (fun _ => 1)) by (intros; now apply One).
      assert (H0 : In 0%Z (zrange 0 n)) by (apply in_zrange; lia).
      eapply (rsum_pos (fun _ => 1)); [intros; lra|exact H0|lra]. }
  lra.
Qed.
