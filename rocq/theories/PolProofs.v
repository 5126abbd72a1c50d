(** Lemmas for C137-C139 *)
From Coq Require Import QArith Qround Qabs Lqa Qfield String.
From Verif Require Import Prelude GridModel GridProofs DetModel DetSpec DetProofs DetMore PolModel PolSpec.
Local Open Scope Q_scope.
Local Notation length := List.length.

Lemma qlt_iff a b : qlt a b = true <-> a < b.
Proof. unfold qlt. rewrite negb_true_iff. split; [intros H; apply Qnot_le_lt; intros K; apply Qle_bool_iff in K; congruence|]. intros H. destruct (Qle_bool b a) eqn:E; [|reflexivity]. apply Qle_bool_iff in E. lra. Qed.
Lemma zr_nth a b k : (a + Z.of_nat k < b)%Z -> nth_error (zrange a b) k = Some (a + Z.of_nat k)%Z.
Proof.
  intros H. unfold zrange. rewrite nth_error_map.
  assert (E : nth_error (seq 0 (Z.to_nat (b - a))) k = Some k).
  { rewrite (nth_error_nth' _ 0%nat) by (rewrite seq_length; lia). rewrite seq_nth by lia. reflexivity. }
  rewrite E. reflexivity.
Qed.
Lemma zr_nth_out a b k : (b <= a + Z.of_nat k)%Z -> nth_error (zrange a b) k = None.
Proof. intros H. apply nth_error_None. rewrite zrange_length. lia. Qed.
Lemma tth_nth v j : (j < Z.to_nat (ntth v))%nat -> exists t, nth_error (tth_vec v) j = Some t /\ t == middle (tth_min v) (tth_pixel_size v) j.
Proof. intros H. unfold tth_vec. rewrite nth_error_map, zr_nth by lia. eexists. split; [reflexivity|]. unfold middle, qz. replace (0 + Z.of_nat j)%Z with (Z.of_nat j) by lia. ring. Qed.
Lemma eta_nth v j : (j < Z.to_nat (neta v))%nat -> exists t, nth_error (eta_vec v) j = Some t /\ t == middle (eta_min v) (eta_pixel_size v) j.
Proof. intros H. unfold eta_vec. rewrite nth_error_map, zr_nth by lia. eexists. split; [reflexivity|]. unfold middle, qz. replace (0 + Z.of_nat j)%Z with (Z.of_nat j) by lia. ring. Qed.
Lemma tth_len v : length (tth_vec v) = Z.to_nat (ntth v). Proof. unfold tth_vec. rewrite map_length, zrange_length. f_equal. lia. Qed.
Lemma eta_len v : length (eta_vec v) = Z.to_nat (neta v). Proof. unfold eta_vec. rewrite map_length, zrange_length. f_equal. lia. Qed.
Lemma grid_entry v i j : entry (angular_grid v) i j = match nth_error (eta_vec v) i, nth_error (tth_vec v) j with Some e, Some t => Some (e, t) | _, _ => None end.
Proof. unfold entry, angular_grid. rewrite nth_error_map. destruct (nth_error (eta_vec v) i) as [e|]; cbn; [|reflexivity]. rewrite nth_error_map. destruct (nth_error (tth_vec v) j); reflexivity. Qed.

(** flattening and reshaping *)
Lemma concat_nth {A} w (m : list (list A)) : (forall r, In r m -> length r = w) -> forall i j, (j < w)%nat -> nth_error (concat m) (i * w + j) = entry m i j.
Proof.
  induction m as [|r m IH]; intros H i j Hj; [unfold entry; cbn [concat]; destruct (i * w + j)%nat; destruct i; reflexivity|].
  cbn [concat]. assert (L : length r = w) by (apply H; left; reflexivity). destruct i as [|i].
  - cbn [Nat.mul Nat.add]. rewrite nth_error_app1 by lia. reflexivity.
  - rewrite nth_error_app2 by (cbn; lia). replace (S i * w + j - length r)%nat with (i * w + j)%nat by (cbn; lia). rewrite IH; [reflexivity|intros; apply H; right; assumption|exact Hj].
Qed.
Lemma concat_len {A} w (m : list (list A)) : (forall r, In r m -> length r = w) -> length (concat m) = (length m * w)%nat.
Proof. induction m as [|r m IH]; intros H; [reflexivity|]. cbn [concat]. rewrite app_length, IH by (intros; apply H; right; assumption). rewrite (H r (or_introl eq_refl)). reflexivity. Qed.
Lemma nth_skip {A} (l : list A) i : forall r, nth_error (skipn i l) r = nth_error l (i + r).
Proof. revert i; induction l as [|x l IH]; intros [|i] r; cbn; try reflexivity; [destruct r; reflexivity|apply IH]. Qed.
Lemma nth_first {A} (l : list A) : forall i r, (r < i)%nat -> nth_error (firstn i l) r = nth_error l r.
Proof. induction l as [|x l IH]; intros [|i] [|r] H; cbn; try reflexivity; try lia. apply IH. lia. Qed.
Lemma rows_entry {A} w n : forall (l : list A) i j, (i < n)%nat -> (j < w)%nat -> entry (rows n w l) i j = nth_error l (i * w + j).
Proof.
  induction n as [|n IH]; intros l i j Hi Hj; [lia|]. destruct i as [|i]; cbn [rows]; unfold entry; cbn [nth_error].
  - apply nth_first. exact Hj.
  - change (entry (rows n w (skipn w l)) i j = nth_error l (S i * w + j)). rewrite IH by lia. rewrite nth_skip. f_equal. cbn. lia.
Qed.
Lemma grid_rows v r : In r (angular_grid v) -> length r = Z.to_nat (ntth v).
Proof. unfold angular_grid. rewrite in_map_iff. intros (e & <- & _). rewrite map_length. apply tth_len. Qed.
Lemma grid_len v : length (concat (angular_grid v)) = (Z.to_nat (neta v) * Z.to_nat (ntth v))%nat.
Proof. rewrite (concat_len (Z.to_nat (ntth v))) by apply grid_rows. unfold angular_grid. rewrite map_length, eta_len. reflexivity. Qed.
Lemma grid_flat v i j : (j < Z.to_nat (ntth v))%nat -> nth_error (concat (angular_grid v)) (i * Z.to_nat (ntth v) + j) = entry (angular_grid v) i j.
Proof. intros H. apply concat_nth; [apply grid_rows|exact H]. Qed.
Lemma flat_index v k : (k < length (concat (angular_grid v)))%nat -> exists i j, (i < Z.to_nat (neta v))%nat /\ (j < Z.to_nat (ntth v))%nat /\ k = (i * Z.to_nat (ntth v) + j)%nat.
Proof.
  rewrite grid_len. set (w := Z.to_nat (ntth v)). set (n := Z.to_nat (neta v)). intros H. destruct (Nat.eq_dec w 0) as [Z|Z]; [rewrite Z in H; lia|].
  exists (Nat.div k w), (Nat.modulo k w). split; [apply Nat.div_lt_upper_bound; lia|]. split; [apply Nat.mod_upper_bound; exact Z|]. rewrite Nat.mul_comm. apply Nat.div_mod. exact Z.
Qed.

(** rounding *)
Lemma round_close range step : 0 < step -> Qabs (inject_Z (qround (range / step)) * step - range) <= step / 2.
Proof.
  intros H. pose proof (qround_near (range / step)) as N. apply Qabs_Qle_condition in N. apply Qabs_Qle_condition. unfold qz in N.
  set (n := inject_Z (qround (range / step))) in *. assert (E : range == range / step * step) by (field; lra). set (u := range / step) in *.
  assert (S2 : step / 2 == (1 # 2) * step) by field. assert (K1 : (n - u) * step <= (1 # 2) * step) by (apply Qmult_le_compat_r; lra).
  assert (K2 : (u - n) * step <= (1 # 2) * step) by (apply Qmult_le_compat_r; lra). assert (K3 : (n - u) * step == n * step - u * step) by ring. assert (K4 : (u - n) * step == u * step - n * step) by ring.
  rewrite S2. split; lra.
Qed.
Lemma round_exact range step n : 0 < step -> range == inject_Z n * step -> qround (range / step) = n.
Proof. intros H E. apply qround_int. rewrite E. unfold qz. field. lra. Qed.

(** least and greatest *)
Lemma fold_min l : forall a, (forall x, In x (a :: l) -> fold_left qmin l a <= x) /\ exists x, In x (a :: l) /\ fold_left qmin l a = x.
Proof.
  induction l as [|b l IH]; intros a; cbn [fold_left].
  - split; [intros x [<-|[]]; lra|exists a; split; [left|]; reflexivity].
  - destruct (IH (qmin a b)) as (H1 & x & H2 & H3). assert (Q : qmin a b <= a /\ qmin a b <= b /\ (qmin a b = a \/ qmin a b = b)).
    { unfold qmin. destruct (Qle_bool a b) eqn:E; [apply Qle_bool_iff in E; repeat split; auto; lra|]. assert (~ a <= b) by (intros K; apply Qle_bool_iff in K; congruence). repeat split; auto; lra. }
    destruct Q as (q1 & q2 & q3). split.
    + intros y [<-|[<-|Hy]]; [specialize (H1 _ (or_introl eq_refl)); lra|specialize (H1 _ (or_introl eq_refl)); lra|apply H1; right; exact Hy].
    + exists x. split; [|exact H3]. destruct H2 as [<-|H2]; [destruct q3 as [-> | ->]; cbn; auto|cbn; auto].
Qed.
Lemma fold_max l : forall a, (forall x, In x (a :: l) -> x <= fold_left qmax l a) /\ exists x, In x (a :: l) /\ fold_left qmax l a = x.
Proof.
  induction l as [|b l IH]; intros a; cbn [fold_left].
  - split; [intros x [<-|[]]; lra|exists a; split; [left|]; reflexivity].
  - destruct (IH (qmax a b)) as (H1 & x & H2 & H3). assert (Q : a <= qmax a b /\ b <= qmax a b /\ (qmax a b = a \/ qmax a b = b)).
    { unfold qmax. destruct (Qle_bool a b) eqn:E; [apply Qle_bool_iff in E; repeat split; auto; lra|]. assert (~ a <= b) by (intros K; apply Qle_bool_iff in K; congruence). repeat split; auto; lra. }
    destruct Q as (q1 & q2 & q3). split.
    + intros y [<-|[<-|Hy]]; [specialize (H1 _ (or_introl eq_refl)); lra|specialize (H1 _ (or_introl eq_refl)); lra|apply H1; right; exact Hy].
    + exists x. split; [|exact H3]. destruct H2 as [<-|H2]; [destruct q3 as [-> | ->]; cbn; auto|cbn; auto].
Qed.
Lemma np_min_val l m : (exists x, In x l /\ x == m) -> (forall x, In x l -> m <= x) -> exists y, np_min l = Ok y /\ y == m.
Proof.
  intros (x & Hx & Ex) H. destruct l as [|a l]; [destruct Hx|]. exists (fold_left qmin l a). split; [reflexivity|]. destruct (fold_min l a) as (H1 & y & Hy & Ey).
  specialize (H1 x Hx). specialize (H y Hy). rewrite <- Ey in H. lra.
Qed.
Lemma np_max_val l m : (exists x, In x l /\ x == m) -> (forall x, In x l -> x <= m) -> exists y, np_max l = Ok y /\ y == m.
Proof.
  intros (x & Hx & Ex) H. destruct l as [|a l]; [destruct Hx|]. exists (fold_left qmax l a). split; [reflexivity|]. destruct (fold_max l a) as (H1 & y & Hy & Ey).
  specialize (H1 x Hx). specialize (H y Hy). rewrite <- Ey in H. lra.
Qed.
