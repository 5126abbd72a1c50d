(** Lemmas about the rows of an eta-omega map. *)
From Coq Require Import Reals Qreals Lra.
From Verif Require Import Prelude OmegaModel OmegaSpec OmegaProofs FibModel FibUnique EowModel EowSpec.
From Coq Require Import QArith Qabs Qround Lqa.
Local Close Scope R_scope.
Open Scope Q_scope.
Local Notation length := List.length.

Local Notation qn n := (inject_Z (Z.of_nat n)).
Lemma qn_S n : inject_Z (Z.of_nat n + 1) == qn n + 1.
Proof. rewrite inject_Z_plus. reflexivity. Qed.
Lemma qn_lt a b : (a < b)%nat -> qn a + 1 <= qn b.
Proof. intros H. rewrite <- qn_S, <- Zle_Qle. lia. Qed.
Lemma qn_le a b : (a <= b)%nat -> qn a <= qn b.
Proof. intros H. rewrite <- Zle_Qle. lia. Qed.
Lemma qn_pos a : 0 <= qn a.
Proof. apply (qn_le 0 a). lia. Qed.

(** ** equal steps pass the check of the wedges *)
Lemma unique_same ws d : (2 <= length ws)%nat -> (forall w, In w ws -> w_delta w == d) ->
  exists u, uniqueVectors 1 (map (fun w => [Q2R (w_delta w)]) ws) (Q2R (1 # 1000000)) = Ok u /\ length u = 1%nat.
Proof.
  intros HL Hd.
  destruct (unique_vectors_lemma 1 (map (fun w => [Q2R (w_delta w)]) ws) (Q2R (1 # 1000000))) as (out & E & H1 & H2 & H3).
  { replace 0%R with (Q2R 0) by apply RMicromega.Q2R_0. apply Qle_Rle. lra. }
  { rewrite map_length. exact HL. }
  exists out. split; auto.
  assert (K : forall x, In x out -> x = [Q2R d]).
  { intros x Hx. apply H1, in_map_iff in Hx as (w & <- & Hw). f_equal. apply Qeq_eqR. apply Hd; auto. }
  destruct out as [|x [|y t]]; [|reflexivity|].
  - exfalso. destruct ws as [|w t]; [cbn in HL; lia|]. destruct (H2 [Q2R (w_delta w)]) as (x & [] & _). left. reflexivity.
  - exfalso. destruct (H3 0%nat 1%nat x y) as (k & Hk & Hlt & _); auto.
    rewrite (K x), (K y) in Hlt by (cbn; auto).
    assert (Hpos : (0 < Q2R (1 # 1000000))%R) by (replace 0%R with (Q2R 0) by apply RMicromega.Q2R_0; apply Qlt_Rlt; lra).
    destruct k as [|k]; [cbn [nth] in Hlt|lia]. revert Hlt Hpos. generalize (Q2R d) (Q2R (1 # 1000000)). intros a b H4 H5. Lra.lra.
Qed.

(** ** angles that are in the period stay *)
Lemma map_stay x lo : lo < x -> x <= lo + 360 -> qmapAngle x lo == x.
Proof.
  intros H1 H2. unfold qmapAngle.
  pose proof (qmod_range (x - lo)) as R. pose proof (qmod_congr (x - lo)) as C. unfold TAU in *.
  set (m := qmod (x - lo) 360) in *. set (z := Qfloor ((x - lo) / 360)) in *.
  assert (Hz : (z = 0 \/ z = 1)%Z).
  { assert ((-1 < z)%Z) by (rewrite Zlt_Qlt; change (inject_Z (-1)) with (-1); lra).
    assert ((z < 2)%Z) by (rewrite Zlt_Qlt; change (inject_Z 2) with 2; lra). lia. }
  destruct (Qeq_bool (m + lo) lo) eqn:E.
  - apply Qeq_bool_iff in E. rewrite (proj2 (Qltb_true lo x) H1).
    destruct Hz as [Hz|Hz]; rewrite Hz in C; [change (inject_Z 0) with 0 in C|change (inject_Z 1) with 1 in C]; lra.
  - apply Qeq_bool_neq in E. destruct Hz as [Hz|Hz]; rewrite Hz in C; [change (inject_Z 0) with 0 in C|change (inject_Z 1) with 1 in C]; [lra|].
    elim E. lra.
Qed.
Global Instance qmapAngle_proper_l : Proper (Qeq ==> eq ==> Qeq) qmapAngle.
Proof.
  intros x y E lo ? <-. unfold qmapAngle. assert (K : qmod (x - lo) 360 + lo == qmod (y - lo) 360 + lo).
  { unfold qmod. assert (F : Qfloor ((x - lo) / 360) = Qfloor ((y - lo) / 360)) by (apply Qfloor_comp; apply Qmult_comp; [|reflexivity]; lra). rewrite F. lra. }
  set (a := qmod (x - lo) 360 + lo) in *. set (b := qmod (y - lo) 360 + lo) in *.
  destruct (Qeq_bool a lo) eqn:E1.
  - apply Qeq_bool_iff in E1. rewrite (proj2 (Qeq_bool_iff b lo)) by (rewrite <- K; auto).
    destruct (Qltb lo x) eqn:E2.
    + apply Qltb_true in E2. rewrite (proj2 (Qltb_true lo y)) by (rewrite <- E; auto). reflexivity.
    + apply Qltb_false in E2. rewrite (proj2 (Qltb_false lo y)) by (rewrite <- E; auto). exact K.
  - destruct (Qeq_bool b lo) eqn:E2; [|exact K]. apply Qeq_bool_iff in E2. apply Qeq_bool_neq in E1. elim E1. rewrite K. exact E2.
Qed.

Lemma qint_whole x n : x == qn n -> qint x = Z.of_nat n.
Proof.
  intros E. unfold qint. pose proof (qn_pos n). rewrite (proj2 (Qle_bool_iff 0 x)) by lra. rewrite E. apply Qfloor_Z.
Qed.

Section Rows.
Variables (o0 delta : Q) (ns : list nat) (om : omarr) (ws : list wedge).
Hypothesis Hgrid : on_grid o0 delta ns om.
Hypothesis Hasc : ascending ns.
Hypothesis Hfirst : nth_error ns 0 = Some 0%nat.
Hypothesis Hdelta : 1 # 1000000 < delta.
Let N := S (last ns 0%nat).
Hypothesis Hspan : qn N * delta <= 360.
Hypothesis Hws : make_wedges om = Ok ws.

Lemma Hlen : length om = length ns.
Proof. apply Hgrid. Qed.
Lemma asc_lt l : ascending l -> forall i j, (i < j < length l)%nat -> (nth i l 0 < nth j l 0)%nat.
Proof.
  induction l as [|a t IH]; intros H i j Hij; [cbn in Hij; lia|]. destruct t as [|b t]; [cbn in Hij; lia|]. destruct H as [H1 H2].
  destruct j as [|j]; [lia|]. destruct i as [|i].
  - destruct j as [|j]; [exact H1|]. specialize (IH H2 0%nat (S j) ltac:(cbn [length] in *; lia)). cbn [nth] in *. lia.
  - apply (IH H2 i j). cbn [length] in *. lia.
Qed.
Lemma at_f f : (f < length ns)%nat ->
  fst (om_at om f) == o0 + qn (nth f ns 0%nat) * delta /\ snd (om_at om f) == o0 + (qn (nth f ns 0%nat) + 1) * delta.
Proof.
  intros Hf. destruct Hgrid as [_ H]. destruct (H f _ (nth_error_nth' ns 0%nat Hf)) as [H1 H2]. rewrite qn_S in H2. split; auto.
Qed.
Lemma last_ge f : (f < length ns)%nat -> (nth f ns 0 < N)%nat.
Proof.
  intros Hf. unfold N.
  assert (E : last ns 0%nat = nth (length ns - 1) ns 0%nat).
  { clear. induction ns as [|a t IH]; [reflexivity|]. destruct t as [|b t]; [reflexivity|].
    change (last (a :: b :: t) 0%nat) with (last (b :: t) 0%nat). rewrite IH. cbn [length]. rewrite Nat.sub_succ, Nat.sub_0_r.
    replace (S (length t) - 1)%nat with (length t) by lia. reflexivity. }
  rewrite E. destruct (Nat.eq_dec f (length ns - 1)) as [->|]; [lia|]. pose proof (asc_lt ns Hasc f (length ns - 1) ltac:(lia)). lia.
Qed.
Lemma wedge_facts w : In w ws ->
  (0 < w_n w)%nat /\ (w_f0 w + w_n w <= length ns)%nat /\
  (forall i, (i < w_n w)%nat -> nth (w_f0 w + i) ns 0%nat = (nth (w_f0 w) ns 0 + i)%nat) /\
  w_start w == o0 + qn (nth (w_f0 w) ns 0%nat) * delta /\
  w_stop w == o0 + (qn (nth (w_f0 w) ns 0%nat) + qn (w_n w)) * delta /\ w_delta w == delta.
Proof.
  intros Hin. destruct (make_wedges_inv _ _ Hws) as (HF & _ & _). rewrite Forall_forall in HF.
  destruct (HF w Hin) as (K1 & K2 & K3 & K4 & K5 & K6 & K7 & K8). rewrite Hlen in *.
  assert (C : forall i, (i < w_n w)%nat -> nth (w_f0 w + i) ns 0%nat = (nth (w_f0 w) ns 0 + i)%nat).
  { induction i as [|i IH]; intros Hi; [rewrite Nat.add_0_r; lia|].
    specialize (IH ltac:(lia)). destruct (K6 (w_f0 w + S i)%nat ltac:(lia)) as [_ K].
    replace (w_f0 w + S i - 1)%nat with (w_f0 w + i)%nat in K by lia.
    destruct (at_f (w_f0 w + S i) ltac:(lia)) as [A1 _]. destruct (at_f (w_f0 w + i) ltac:(lia)) as [_ A2].
    rewrite Qabs_cond in K. pose proof (asc_lt ns Hasc (w_f0 w + i) (w_f0 w + S i) ltac:(lia)) as L.
    set (b := nth (w_f0 w + S i) ns 0%nat) in *. set (a := nth (w_f0 w + i) ns 0%nat) in *.
    destruct (Nat.eq_dec b (S a)) as [|Ne]; [lia|]. exfalso.
    assert (G : qn a + 1 + 1 <= qn b) by (rewrite <- qn_S; pose proof (qn_lt (S a) b ltac:(lia)) as G; rewrite Nat2Z.inj_succ in G; unfold Z.succ in G; exact G).
    assert (G2 : (qn a + 1 + 1) * delta <= qn b * delta) by (apply Qmult_le_compat_r; lra). lra. }
  destruct (at_f (w_f0 w) ltac:(lia)) as [A1 _]. destruct (at_f (w_f0 w + w_n w - 1) ltac:(lia)) as [_ A2].
  assert (En : nth (w_f0 w + w_n w - 1) ns 0%nat = (nth (w_f0 w) ns 0 + (w_n w - 1))%nat).
  { replace (w_f0 w + w_n w - 1)%nat with (w_f0 w + (w_n w - 1))%nat by lia. apply C. lia. }
  rewrite En in A2. rewrite <- K3 in A1. rewrite <- K4 in A2.
  assert (S1 : w_stop w == o0 + (qn (nth (w_f0 w) ns 0%nat) + qn (w_n w)) * delta).
  { rewrite A2. rewrite <- qn_S, <- inject_Z_plus. apply Qplus_comp; [reflexivity|]. apply Qmult_comp; [|reflexivity].
    replace (Z.of_nat (nth (w_f0 w) ns 0%nat + (w_n w - 1)) + 1)%Z with (Z.of_nat (nth (w_f0 w) ns 0%nat) + Z.of_nat (w_n w))%Z by lia. reflexivity. }
  assert (HP : 0 < qn (w_n w)) by (pose proof (qn_lt 0 (w_n w) K1) as G; change (qn 0) with 0 in G; lra).
  do 3 (split; auto). split; [exact A1|]. split; [exact S1|]. rewrite K5, S1, A1. field. lra.
Qed.

(** the centre of interval k is found in a wedge exactly if some frame covers the interval *)
Lemma found_iff k x : (k < N)%nat -> x == o0 + (qn k + (1 # 2)) * delta ->
  ((fst (omega_to_frame ws x) =? -1)%Z = false <-> In k ns).
Proof.
  intros Hk Ex.
  assert (Hx : o0 < x < o0 + 360).
  { pose proof (qn_pos k). pose proof (qn_lt k N Hk). assert (0 <= qn k * delta) by (apply Qmult_le_0_compat; lra).
    assert ((qn k + 1) * delta <= qn N * delta) by (apply Qmult_le_compat_r; lra). lra. }
  destruct (omega_to_frame ws x) as [f wi] eqn:E. cbn [fst].
  destruct (omega_to_frame_lemma om ws x f wi Hws E) as [[K1 K2]|(n & w & E1 & E2 & E3 & j & i & (I1 & I2) & E4 & E5 & _)].
  - injection K1 as -> ->. split; [discriminate|]. intros Hin. exfalso.
    destruct (In_nth _ _ 0%nat Hin) as (g & Hg & Eg).
    destruct (make_wedges_inv _ _ Hws) as (_ & HP & _).
    assert (Hg' : In g (flat_map w_frames ws)) by (rewrite HP, Hlen; apply in_seq; lia).
    apply in_flat_map in Hg' as (w & Hw & Hgw). unfold w_frames in Hgw. apply in_seq in Hgw.
    destruct (wedge_facts w Hw) as (F1 & F2 & F3 & F4 & F5 & _).
    apply (K2 w Hw). exists 0%Z. change (inject_Z 0) with 0. rewrite F4, F5, Ex.
    pose proof (F3 (g - w_f0 w)%nat ltac:(lia)) as F. replace (w_f0 w + (g - w_f0 w))%nat with g in F by lia. rewrite Eg in F.
    set (a := nth (w_f0 w) ns 0%nat) in *.
    assert (L1 : qn a <= qn k) by (apply qn_le; lia).
    assert (L2 : qn k + 1 <= qn a + qn (w_n w)).
    { rewrite <- inject_Z_plus, <- Nat2Z.inj_add. apply qn_lt. lia. }
    assert (M1 : qn a * delta <= qn k * delta) by (apply Qmult_le_compat_r; lra).
    assert (M2 : (qn k + 1) * delta <= (qn a + qn (w_n w)) * delta) by (apply Qmult_le_compat_r; lra).
    split; lra.
  - assert (Hf : (f =? -1)%Z = false) by (apply Z.eqb_neq; lia). rewrite Hf. split; auto. intros _.
    apply nth_error_In in E2. destruct (wedge_facts w E2) as (F1 & F2 & F3 & F4 & F5 & _).
    set (a := nth (w_f0 w) ns 0%nat) in *.
    assert (La : (a + w_n w <= N)%nat).
    { pose proof (F3 (w_n w - 1)%nat ltac:(lia)) as F. pose proof (last_ge (w_f0 w + (w_n w - 1)) ltac:(lia)). lia. }
    assert (M0 : 0 <= qn a * delta) by (apply Qmult_le_0_compat; [apply qn_pos|lra]).
    assert (M1 : (qn a + qn (w_n w)) * delta <= qn N * delta).
    { apply Qmult_le_compat_r; [|lra]. rewrite <- inject_Z_plus, <- Nat2Z.inj_add. apply qn_le. exact La. }
    assert (Hj : j = 0%Z).
    { assert ((-1 < j)%Z) by (rewrite Zlt_Qlt; change (inject_Z (-1)) with (-1); lra).
      assert ((j < 1)%Z) by (rewrite Zlt_Qlt; change (inject_Z 1) with 1; lra). lia. }
    subst j. change (inject_Z 0) with 0 in *. rewrite F4, Ex in I1. rewrite F5, Ex in I2.
    assert (Lk : (a <= k)%nat).
    { destruct (Nat.le_gt_cases a k) as [|L]; auto. exfalso. apply qn_lt in L.
      assert ((qn k + 1) * delta <= qn a * delta) by (apply Qmult_le_compat_r; lra). lra. }
    assert (Lk2 : (k < a + w_n w)%nat).
    { destruct (Nat.le_gt_cases (a + w_n w) k) as [L|]; auto. exfalso. apply qn_le in L. rewrite Nat2Z.inj_add, inject_Z_plus in L.
      assert ((qn a + qn (w_n w)) * delta <= qn k * delta) by (apply Qmult_le_compat_r; lra). lra. }
    pose proof (F3 (k - a)%nat ltac:(lia)) as F. replace (a + (k - a))%nat with k in F by lia. rewrite <- F. apply nth_In. lia.
Qed.

(** the last wedge ends at the end of the last interval *)
Lemma frames_last (l : list wedge) s n : l <> [] -> (forall w, In w l -> (0 < w_n w)%nat) -> flat_map w_frames l = seq s n ->
  w_f0 (hd wedge0 l) = s /\ (w_f0 (last l wedge0) + w_n (last l wedge0) = s + n)%nat.
Proof.
  revert s n. induction l as [|w t IH]; intros s n Hne Hp E; [congruence|].
  pose proof (Hp w (or_introl eq_refl)) as Hw. cbn [flat_map hd] in *.
  assert (Ln : n = (w_n w + length (flat_map w_frames t))%nat).
  { apply (f_equal (@length nat)) in E. rewrite app_length, seq_length in E. unfold w_frames in E at 1. rewrite seq_length in E. lia. }
  assert (Es : w_f0 w = s /\ flat_map w_frames t = seq (s + w_n w) (n - w_n w)).
  { rewrite Ln in E. rewrite seq_app in E. unfold w_frames in E at 1.
    assert (E1 : firstn (w_n w) (seq (w_f0 w) (w_n w) ++ flat_map w_frames t) = firstn (w_n w) (seq s (w_n w) ++ seq (s + w_n w) (length (flat_map w_frames t)))) by (rewrite E; reflexivity).
    assert (E2 : skipn (w_n w) (seq (w_f0 w) (w_n w) ++ flat_map w_frames t) = skipn (w_n w) (seq s (w_n w) ++ seq (s + w_n w) (length (flat_map w_frames t)))) by (rewrite E; reflexivity).
    rewrite !firstn_app, !seq_length, !Nat.sub_diag, !firstn_all2 in E1 by (rewrite seq_length; lia).
    rewrite !skipn_app, !seq_length, !Nat.sub_diag, !skipn_all2 in E2 by (rewrite seq_length; lia).
    rewrite (firstn_all2 (seq s (w_n w))) in E1 by (rewrite seq_length; lia). rewrite (skipn_all2 (seq s (w_n w))) in E2 by (rewrite seq_length; lia).
    cbn [firstn skipn app] in E1, E2. rewrite !app_nil_r in E1. split.
    - destruct (w_n w) as [|m]; [lia|]. cbn [seq] in E1. injection E1. auto.
    - rewrite E2. f_equal. lia. }
  destruct Es as [Es Et]. split; [exact Es|]. destruct t as [|w' t].
  - cbn [last]. cbn in Ln. lia.
  - change (last (w :: w' :: t) wedge0) with (last (w' :: t) wedge0).
    destruct (IH (s + w_n w)%nat (n - w_n w)%nat) as [_ IH2]; auto; [discriminate|intros; apply Hp; right; auto|]. lia.
Qed.
Lemma ws_facts : (1 <= length ws)%nat /\ w_start (hd wedge0 ws) == o0 /\ w_delta (hd wedge0 ws) == delta /\ w_stop (last ws wedge0) == o0 + qn N * delta.
Proof.
  destruct (make_wedges_inv _ _ Hws) as (_ & HP & Hne).
  assert (Hw : ws <> []). { intros ->. cbn in HP. apply (f_equal (@length nat)) in HP. rewrite seq_length in HP. destruct om; [congruence|discriminate]. }
  destruct (frames_last ws 0 (length om) Hw) as [L1 L2]; auto.
  { intros w Hin. apply (wedge_facts w Hin). }
  assert (I1 : In (hd wedge0 ws) ws) by (destruct ws; [congruence|left; reflexivity]).
  assert (I2 : In (last ws wedge0) ws).
  { clear - Hw. induction ws as [|a t IH]; [congruence|]. destruct t as [|b t]; [left; reflexivity|]. right. apply IH. discriminate. }
  split; [destruct ws; [congruence|cbn; lia]|].
  destruct (wedge_facts _ I1) as (F1 & F2 & F3 & F4 & F5 & F6). destruct (wedge_facts _ I2) as (G1 & G2 & G3 & G4 & G5 & G6).
  rewrite L1 in F4. rewrite (nth_error_nth _ _ 0%nat Hfirst) in F4. change (qn 0) with 0 in F4.
  split; [rewrite F4; ring|]. split; [exact F6|]. rewrite G5. apply Qplus_comp; [reflexivity|]. apply Qmult_comp; [|reflexivity].
  rewrite <- inject_Z_plus.
  pose proof (G3 (w_n (last ws wedge0) - 1)%nat ltac:(lia)) as G. rewrite Hlen in L2.
  assert (E : last ns 0%nat = nth (length ns - 1) ns 0%nat).
  { clear. induction ns as [|a t IH]; [reflexivity|]. destruct t as [|b t]; [reflexivity|].
    change (last (a :: b :: t) 0%nat) with (last (b :: t) 0%nat). rewrite IH. cbn [length]. rewrite Nat.sub_succ, Nat.sub_0_r.
    replace (S (length t) - 1)%nat with (length t) by lia. reflexivity. }
  replace (w_f0 (last ws wedge0) + (w_n (last ws wedge0) - 1))%nat with (length ns - 1)%nat in G by lia. rewrite <- E in G.
  unfold N. rewrite G. replace (Z.of_nat (nth (w_f0 (last ws wedge0)) ns 0%nat) + Z.of_nat (w_n (last ws wedge0)))%Z
    with (Z.of_nat (S (nth (w_f0 (last ws wedge0)) ns 0%nat + (w_n (last ws wedge0) - 1)))) by lia. reflexivity.
Qed.

Definition inb (k : nat) : bool := existsb (Nat.eqb k) ns.
Lemma inb_iff k : inb k = true <-> In k ns.
Proof.
  unfold inb. rewrite existsb_exists. split.
  - intros (x & Hx & E). apply Nat.eqb_eq in E. subst. auto.
  - intros H. exists k. split; auto. apply Nat.eqb_refl.
Qed.
Lemma om0 : fst (om_at om 0) == o0.
Proof.
  destruct Hgrid as [_ H]. destruct (H 0%nat 0%nat Hfirst) as [H1 _]. rewrite H1. change (qn 0) with 0. ring.
Qed.
Lemma qmap0 x : o0 < x -> x <= o0 + 360 -> qmapAngle x (fst (om_at om 0)) == x.
Proof. intros H1 H2. pose proof om0. apply map_stay; lra. Qed.

Lemma rows_lemma : (2 <= length ws)%nat ->
  exists arr, omega_rows om ws = Ok (Some (map inb (seq 0 N)), arr) /\ length arr = N /\
    forall k, (k < N)%nat -> fst (om_at arr k) == o0 + qn k * delta /\ snd (om_at arr k) == o0 + (qn k + 1) * delta.
Proof.
  intros Hn. destruct ws_facts as (_ & W1 & W2 & W3). unfold omega_rows.
  replace (Nat.leb (length ws) 1) with false by (symmetry; apply Nat.leb_gt; lia).
  destruct (unique_same ws delta Hn) as (u & Eu & Lu); [intros w Hw; apply (wedge_facts w Hw)|].
  rewrite Eu. cbn [rbind]. rewrite Lu. cbn [Nat.eqb negb].
  assert (HN : 1 <= qn N) by (pose proof (qn_lt 0 N ltac:(unfold N; lia)) as G; change (qn 0) with 0 in G; lra).
  assert (HNd : 1 * delta <= qn N * delta) by (apply Qmult_le_compat_r; lra).
  set (ostop := qmapAngle (w_stop (last ws wedge0)) (fst (om_at om 0))).
  assert (Es : ostop == o0 + qn N * delta) by (unfold ostop; rewrite qmap0, W3; [reflexivity| |]; lra).
  set (ostart := w_start (hd wedge0 ws)) in *. clearbody ostop ostart.
  rewrite (qint_whole _ N) by (rewrite Es, W1, W2; field; lra).
  replace (Z.of_nat N + 1 <? 0)%Z with false by (symmetry; apply Z.ltb_ge; lia).
  replace (Z.to_nat (Z.of_nat N + 1)) with (S N) by lia. replace (S N - 1)%nat with N by lia.
  assert (Hl : forall k, linspace ostart ostop (S N) k == o0 + qn k * delta).
  { intros k. unfold linspace. replace (S N - 1)%nat with N by lia. rewrite Es, W1. field. lra. }
  set (arr := map (fun k => (linspace ostart ostop (S N) k, linspace ostart ostop (S N) (S k))) (seq 0 N)).
  assert (Ha : forall k, (k < N)%nat -> om_at arr k = (linspace ostart ostop (S N) k, linspace ostart ostop (S N) (S k))).
  { intros k Hk. unfold om_at, arr.
    rewrite nth_indep with (d' := (fun k => (linspace ostart ostop (S N) k, linspace ostart ostop (S N) (S k))) 0%nat) by (rewrite map_length, seq_length; auto).
    rewrite (map_nth (fun k => (linspace ostart ostop (S N) k, linspace ostart ostop (S N) (S k)))), seq_nth by auto. reflexivity. }
  exists arr. split; [|split].
  - f_equal. f_equal. f_equal. unfold arr. rewrite map_map. apply map_ext_in. intros k Hk. apply in_seq in Hk.
    cbn [fst snd]. set (x := (linspace ostart ostop (S N) k + linspace ostart ostop (S N) (S k)) / 2).
    assert (Ex : x == o0 + (qn k + (1 # 2)) * delta).
    { unfold x. rewrite !Hl, Nat2Z.inj_succ. unfold Z.succ. rewrite qn_S. field. }
    pose proof (found_iff k x ltac:(lia) Ex) as F. pose proof (inb_iff k) as G.
    destruct (fst (omega_to_frame ws x) =? -1)%Z; destruct (inb k); try reflexivity; exfalso.
    + destruct G as [G _]. destruct F as [_ F]. specialize (F (G eq_refl)). discriminate.
    + destruct F as [F _]. destruct G as [_ G]. specialize (G (F eq_refl)). discriminate.
  - unfold arr. rewrite map_length, seq_length. reflexivity.
  - intros k Hk. rewrite (Ha k Hk). cbn [fst snd]. rewrite !Hl, Nat2Z.inj_succ. unfold Z.succ. rewrite qn_S. split; reflexivity.
Qed.
End Rows.

(** ** placing the rows *)
Lemma inb_mask_count ns s n : ascending ns -> Forall (fun k => (s <= k < s + n)%nat) ns ->
  length (filter (fun b => b) (map (inb ns) (seq s n))) = length ns.
Proof.
  revert ns s. induction n as [|n IH]; intros ns s Ha HF.
  - destruct ns as [|a t]; [reflexivity|]. inversion HF; subst. lia.
  - cbn [seq map filter].
    destruct ns as [|a t].
    + cbn [inb existsb]. change (inb [] s) with false. rewrite (IH [] (S s)); auto.
    + assert (Ht : Forall (fun k => (S a <= k)%nat) t).
      { clear - Ha. revert a Ha. induction t as [|b t IHt]; intros a Ha; constructor; [destruct Ha; lia|].
        destruct Ha as [H1 H2]. specialize (IHt b H2). eapply Forall_impl; [|exact IHt]. cbn. lia. }
      destruct (Nat.eq_dec a s) as [->|Hne].
      * assert (E : inb (s :: t) s = true) by (apply inb_iff; left; auto). rewrite E. cbn [length]. f_equal.
        rewrite (map_ext_in _ (inb t)).
        -- apply IH; [destruct t; [exact I|apply Ha]|]. rewrite Forall_forall in *. intros k Hk. specialize (HF k (or_intror Hk)). specialize (Ht k Hk). lia.
        -- intros k Hk. apply in_seq in Hk. unfold inb. cbn [existsb]. replace (Nat.eqb k s) with false by (symmetry; apply Nat.eqb_neq; lia). reflexivity.
      * assert (E : inb (a :: t) s = false).
        { destruct (inb (a :: t) s) eqn:E; auto. apply inb_iff in E. exfalso. rewrite Forall_forall in *. destruct E as [E|E]; [congruence|].
          specialize (Ht s E). specialize (HF a (or_introl eq_refl)). lia. }
        rewrite E. apply IH; auto. rewrite Forall_forall in *. intros k Hk. pose proof (HF k Hk).
        destruct (Nat.eq_dec k s) as [->|]; [|lia]. assert (inb (a :: t) s = true) by (apply inb_iff; auto). congruence.
Qed.
Lemma spread_lemma {A} ns s n (rows : list A) : ascending ns -> Forall (fun k => (s <= k < s + n)%nat) ns -> length rows = length ns ->
  length (spread (map (inb ns) (seq s n)) rows) = n /\
  forall k, (k < n)%nat ->
    (forall f, nth_error ns f = Some (s + k)%nat -> nth_error (spread (map (inb ns) (seq s n)) rows) k = Some (nth_error rows f)) /\
    (~ In (s + k)%nat ns -> nth_error (spread (map (inb ns) (seq s n)) rows) k = Some None).
Proof.
  revert ns s rows. induction n as [|n IH]; intros ns s rows Ha HF HL; [split; [reflexivity|intros; lia]|].
  cbn [seq map].
  destruct ns as [|a t].
  - change (inb [] s) with false. cbn [spread]. destruct (IH [] (S s) rows Ha) as [I1 I2]; auto.
    split; [cbn [length]; f_equal; exact I1|]. intros [|k] Hk.
    + split; [intros [|f]; discriminate|auto].
    + destruct (I2 k ltac:(lia)) as [J1 J2]. replace (S s + k)%nat with (s + S k)%nat in * by lia. cbn [nth_error]. split; auto.
  - assert (Ht : Forall (fun k => (S a <= k)%nat) t).
    { clear - Ha. revert a Ha. induction t as [|b t IHt]; intros a Ha; constructor; [destruct Ha; lia|].
      destruct Ha as [H1 H2]. specialize (IHt b H2). eapply Forall_impl; [|exact IHt]. cbn. lia. }
    destruct (Nat.eq_dec a s) as [->|Hne].
    + assert (E : inb (s :: t) s = true) by (apply inb_iff; left; auto). rewrite E. cbn [spread].
      destruct rows as [|r rs]; [discriminate|].
      rewrite (map_ext_in (inb (s :: t)) (inb t)).
      2:{ intros k Hk. apply in_seq in Hk. unfold inb. cbn [existsb]. replace (Nat.eqb k s) with false by (symmetry; apply Nat.eqb_neq; lia). reflexivity. }
      destruct (IH t (S s) rs) as [I1 I2].
      { destruct t; [exact I|apply Ha]. }
      { rewrite Forall_forall in *. intros k Hk. specialize (HF k (or_intror Hk)). specialize (Ht k Hk). lia. }
      { cbn [length] in HL. lia. }
      split; [cbn [length]; f_equal; exact I1|]. intros [|k] Hk.
      * rewrite Nat.add_0_r. split.
        -- intros [|f] Hf; [reflexivity|]. exfalso. cbn [nth_error] in Hf. apply nth_error_In in Hf. rewrite Forall_forall in Ht. specialize (Ht s Hf). lia.
        -- intros Hn. elim Hn. left. auto.
      * destruct (I2 k ltac:(lia)) as [J1 J2]. replace (S s + k)%nat with (s + S k)%nat in * by lia. cbn [nth_error]. split.
        -- intros [|f] Hf; [cbn [nth_error] in Hf; injection Hf; lia|]. cbn [nth_error] in *. auto.
        -- intros Hn. apply J2. intros K. apply Hn. right. auto.
    + assert (E : inb (a :: t) s = false).
      { destruct (inb (a :: t) s) eqn:E; auto. apply inb_iff in E. exfalso. rewrite Forall_forall in *. destruct E as [E|E]; [congruence|].
        specialize (Ht s E). specialize (HF a (or_introl eq_refl)). lia. }
      rewrite E. cbn [spread]. assert (Hs : ~ In s (a :: t)) by (intros K; apply inb_iff in K; congruence).
      destruct (IH (a :: t) (S s) rows) as [I1 I2]; auto.
      { rewrite Forall_forall in *. intros k Hk. pose proof (HF k Hk). destruct (Nat.eq_dec k s) as [->|]; [contradiction|lia]. }
      split; [cbn [length]; f_equal; exact I1|]. intros [|k] Hk.
      * rewrite Nat.add_0_r. split; [|auto]. intros f Hf. apply nth_error_In in Hf. contradiction.
      * destruct (I2 k ltac:(lia)) as [J1 J2]. replace (S s + k)%nat with (s + S k)%nat in * by lia. cbn [nth_error]. split; auto.
Qed.

Lemma map_lemma {A} o0 delta ns om (rows : list A) :
  on_grid o0 delta ns om -> ascending ns -> nth_error ns 0 = Some 0%nat -> 1 # 1000000 < delta ->
  let N := S (last ns 0%nat) in qn N * delta <= 360 -> length rows = length om ->
  exists out, omega_map om rows = Ok out /\ length out = N /\
    forall k, (k < N)%nat -> exists r c, nth_error out k = Some (r, c) /\ c == o0 + (qn k + (1 # 2)) * delta /\
      (forall f, nth_error ns f = Some k -> r = nth_error rows f) /\ (~ In k ns -> r = None).
Proof.
  intros Hg Ha H0 Hd N HN HL. unfold omega_map.
  assert (Hacc : exists ws, make_wedges om = Ok ws).
  { apply make_wedges_accepts.
    - destruct Hg as [Hl _]. intros ->. destruct ns; discriminate.
    - apply Forall_forall. intros r Hr. destruct (In_nth _ _ (0, 0) Hr) as (f & Hf & <-).
      pose proof (at_f o0 delta ns om Hg f) as K. destruct Hg as [Hl _]. rewrite <- Hl in K. destruct (K Hf) as [K1 K2]. unfold om_at in *. lra. }
  destruct Hacc as (ws & Hws). rewrite Hws. cbn [rbind].
  pose proof (ws_facts o0 delta ns om ws Hg Ha H0 Hd Hws) as (W0 & _).
  assert (Hlast : Forall (fun k => (0 <= k < 0 + N)%nat) ns).
  { apply Forall_forall. intros k Hk. destruct (In_nth _ _ 0%nat Hk) as (f & Hf & <-). pose proof (last_ge ns Ha f Hf). unfold N. lia. }
  assert (HLn : length rows = length ns) by (destruct Hg; congruence).
  assert (Hcen : forall r k, (k < N)%nat -> fst r == o0 + qn k * delta -> snd r == o0 + (qn k + 1) * delta ->
             centre_of (fst (om_at om 0)) r == o0 + (qn k + (1 # 2)) * delta).
  { intros r k Hk E1 E2. unfold centre_of. assert (E : (fst r + snd r) / 2 == o0 + (qn k + (1 # 2)) * delta) by (rewrite E1, E2; field).
    rewrite E. pose proof (qn_pos k). pose proof (qn_lt k N Hk). assert (0 <= qn k * delta) by (apply Qmult_le_0_compat; lra).
    assert ((qn k + 1) * delta <= qn N * delta) by (apply Qmult_le_compat_r; lra).
    apply (qmap0 o0 delta ns om Hg H0); lra. }
  destruct (Nat.le_gt_cases 2 (length ws)) as [Hn|Hn].
  - destruct (rows_lemma o0 delta ns om ws Hg Ha H0 Hd HN Hws Hn) as (arr & E & La & Harr). fold N in E, La, Harr.
    rewrite E. cbn [rbind fst snd place].
    rewrite (inb_mask_count ns 0 N Ha Hlast), HLn, Nat.eqb_refl. cbn [rbind].
    destruct (spread_lemma ns 0 N rows Ha Hlast HLn) as [S1 S2].
    eexists. split; [reflexivity|]. split.
    + rewrite combine_length, map_length, S1, La. lia.
    + intros k Hk. destruct (S2 k Hk) as [S3 S4]. cbn [Nat.add] in *.
      destruct (nth_error (spread (map (inb ns) (seq 0 N)) rows) k) as [r|] eqn:Er; [|apply nth_error_None in Er; lia].
      exists r, (centre_of (fst (om_at om 0)) (om_at arr k)). split; [|split; [|split]].
      * apply nth_error_split in Er as (l1 & l2 & E1 & E2). clear - E1 E2 La Hk S1. rewrite E1 in *.
        assert (Earr : nth_error (map (centre_of (fst (om_at om 0))) arr) k = Some (centre_of (fst (om_at om 0)) (om_at arr k))).
        { rewrite nth_error_map. unfold om_at at 3. rewrite (nth_error_nth' arr (0, 0)) by lia. reflexivity. }
        revert Earr. generalize (map (centre_of (fst (om_at om 0))) arr) (centre_of (fst (om_at om 0)) (om_at arr k)). clear - E2. subst k.
        induction l1 as [|x l1 IH]; intros l c H; destruct l as [|y l]; try discriminate; cbn in *; [injection H as ->; reflexivity|]. apply IH. exact H.
      * destruct (Harr k Hk). apply Hcen; auto.
      * intros f Hf. specialize (S3 f Hf). injection S3. auto.
      * intros Hni. specialize (S4 Hni). injection S4. auto.
  - assert (Hone : length ws = 1%nat) by lia. destruct ws as [|w [|]]; try discriminate.
    unfold omega_rows. cbn [length Nat.leb rbind fst snd place].
    destruct (wedge_facts o0 delta ns om [w] Hg Ha Hd Hws w (or_introl eq_refl)) as (F1 & F2 & F3 & _).
    destruct (make_wedges_inv _ _ Hws) as (_ & HP & _). cbn [flat_map] in HP. rewrite app_nil_r in HP.
    destruct (frames_last ns [w] 0 (length om)) as [L1 L2]; [discriminate|intros w' [<-|[]]; auto|cbn [flat_map]; rewrite app_nil_r; exact HP|].
    cbn [hd last] in L1, L2. rewrite L1 in *. cbn [Nat.add] in *.
    assert (Hns : forall i, (i < length ns)%nat -> nth i ns 0%nat = i).
    { intros i Hi. rewrite (F3 i) by (destruct Hg; lia). rewrite (nth_error_nth _ _ 0%nat H0). reflexivity. }
    assert (EN : N = length ns).
    { assert (E : last ns 0%nat = nth (length ns - 1) ns 0%nat).
      { clear. induction ns as [|a t IH]; [reflexivity|]. destruct t as [|b t]; [reflexivity|].
        change (last (a :: b :: t) 0%nat) with (last (b :: t) 0%nat). rewrite IH. cbn [length]. rewrite Nat.sub_succ, Nat.sub_0_r.
        replace (S (length t) - 1)%nat with (length t) by lia. reflexivity. }
      unfold N. rewrite E. destruct ns as [|a t]; [discriminate|]. rewrite Hns by (cbn [length]; lia). cbn [length]. lia. }
    eexists. split; [reflexivity|]. split.
    + rewrite combine_length, !map_length. destruct Hg. lia.
    + intros k Hk. destruct (nth_error rows k) as [r|] eqn:Er; [|apply nth_error_None in Er; lia].
      exists (Some r), (centre_of (fst (om_at om 0)) (om_at om k)). split; [|split; [|split]].
      * assert (E1 : nth_error (map Some rows) k = Some (Some r)) by (rewrite nth_error_map, Er; reflexivity).
        assert (E2 : nth_error (map (centre_of (fst (om_at om 0))) om) k = Some (centre_of (fst (om_at om 0)) (om_at om k))).
        { rewrite nth_error_map. unfold om_at at 3. rewrite (nth_error_nth' om (0, 0)) by (destruct Hg; lia). reflexivity. }
        revert E1 E2. generalize (map Some rows) (map (centre_of (fst (om_at om 0))) om) (centre_of (fst (om_at om 0)) (om_at om k)) (Some r). clear.
        induction k as [|k IH]; intros [|x l] [|y l'] c r; cbn; try discriminate; [intros [= ->] [= ->]; reflexivity|apply IH].
      * destruct (at_f o0 delta ns om Hg k ltac:(lia)) as [A1 A2]. rewrite (Hns k) in A1, A2 by lia. apply Hcen; auto.
      * intros f Hf. pose proof (nth_error_nth _ _ 0%nat Hf) as Q. rewrite Hns in Q by (apply nth_error_Some; congruence). subst f. auto.
      * intros Hni. elim Hni. rewrite <- (Hns k) by lia. apply nth_In. lia.
Qed.
