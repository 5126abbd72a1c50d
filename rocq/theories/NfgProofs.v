From Coq Require Import QArith Qround Lqa Sorted.
From Verif Require Import Prelude NfModel NfSpec NfProofs NfLoop NfGather NfgModel NfgSpec.
Local Open Scope Q_scope.

(** ** lists made of blocks of the same length *)
Lemma flat_length : forall (A B : Type) (f : A -> list B) m l, (forall a, In a l -> length (f a) = m) -> length (flat_map f l) = (length l * m)%nat.
Proof. intros A B f m. induction l as [|a l IH]; intros H; [reflexivity|]. cbn [flat_map length Nat.mul]. rewrite app_length, (H a (or_introl eq_refl)), IH; auto. intros. apply H. now right. Qed.
Lemma flat_nth : forall (A B : Type) (f : A -> list B) m l i j a, (forall a, In a l -> length (f a) = m) -> (j < m)%nat -> nth_error l i = Some a -> nth_error (flat_map f l) (i * m + j) = nth_error (f a) j.
Proof.
  intros A B f m. induction l as [|b l IH]; intros i j a H J E; [destruct i; discriminate|]. destruct i as [|i]; cbn [nth_error] in E; cbn [flat_map].
  - injection E as <-. cbn [Nat.mul Nat.add]. rewrite nth_error_app1; auto. rewrite (H b (or_introl eq_refl)). auto.
  - rewrite nth_error_app2 by (rewrite (H b (or_introl eq_refl)); cbn; lia). rewrite (H b (or_introl eq_refl)). replace (S i * m + j - m)%nat with (i * m + j)%nat by (cbn; lia). apply IH; auto. intros. apply H. now right.
Qed.
Lemma mesh_length : forall xs ys zs, length (mesh xs ys zs) = (length ys * length xs * length zs)%nat.
Proof. intros. unfold mesh. rewrite (flat_length _ _ _ (length xs * length zs)); [lia|]. intros y _. rewrite (flat_length _ _ _ (length zs)); auto. intros x _. apply map_length. Qed.
Lemma mesh_nth : forall xs ys zs i j k x y z, nth_error ys i = Some y -> nth_error xs j = Some x -> nth_error zs k = Some z ->
  nth_error (mesh xs ys zs) ((i * length xs + j) * length zs + k) = Some (x, y, z).
Proof.
  intros xs ys zs i j k x y z Y X Z. unfold mesh.
  assert (K : (k < length zs)%nat) by (apply nth_error_Some; congruence). assert (J : (j < length xs)%nat) by (apply nth_error_Some; congruence).
  replace ((i * length xs + j) * length zs + k)%nat with (i * (length xs * length zs) + (j * length zs + k))%nat by lia.
  rewrite (flat_nth _ _ _ (length xs * length zs) _ _ _ y); auto; [|intros a _; rewrite (flat_length _ _ _ (length zs)); auto; intros; apply map_length|nia].
  rewrite (flat_nth _ _ _ (length zs) _ _ _ x); auto; [|intros; apply map_length]. rewrite nth_map, Z. reflexivity.
Qed.
Lemma mesh_grid : forall (xs ys zs : list Q) fx fy fz, (forall j x, nth_error xs j = Some x -> x == fx j) -> (forall j x, nth_error ys j = Some x -> x == fy j) -> (forall j x, nth_error zs j = Some x -> x == fz j) ->
  is_grid fx (length xs) fy (length ys) fz (length zs) (mesh xs ys zs).
Proof.
  intros xs ys zs fx fy fz X Y Z. split; [apply mesh_length|]. intros i j k I J K.
  destruct (nth_error ys i) as [y|] eqn:Ey; [|apply nth_error_None in Ey; lia]. destruct (nth_error xs j) as [x|] eqn:Ex; [|apply nth_error_None in Ex; lia]. destruct (nth_error zs k) as [z|] eqn:Ez; [|apply nth_error_None in Ez; lia].
  exists x, y, z. split; [now apply mesh_nth|]. auto.
Qed.

(** ** arange and linspace *)
Lemma arange_lemma : forall a b s, ~ s == 0 -> exists l, arange a b s = Ok l /\ length l = Z.to_nat (Qceiling ((b - a) / s)) /\ forall k x, nth_error l k = Some x -> x == a + inject_Z (Z.of_nat k) * s.
Proof.
  intros a b s H. unfold arange. destruct (Qeq_bool s 0) eqn:E; [apply Qeq_bool_iff in E; contradiction|]. eexists. split; [reflexivity|]. split; [rewrite map_length, zrange_length; f_equal; lia|].
  intros k x N. rewrite nth_map in N. destruct (nth_error (zrange 0 (Qceiling ((b - a) / s))) k) as [z|] eqn:Z; [|discriminate]. injection N as <-. assert (K : (k < length (zrange 0 (Qceiling ((b - a) / s))))%nat) by (apply nth_error_Some; congruence).
  rewrite zrange_length in K. rewrite nth_zrange in Z by auto. injection Z as <-. reflexivity.
Qed.
Lemma ceiling_iff : forall x k, Qceiling x = k <-> inject_Z k - 1 < x <= inject_Z k.
Proof.
  intros x k. unfold Qceiling. assert (E : (- Qfloor (- x) = k)%Z <-> Qfloor (- x) = (- k)%Z) by lia. rewrite E, floor_iff, inject_Z_opp. split; intros; lra.
Qed.
Lemma Qeq_bool_false : forall a b, ~ a == b -> Qeq_bool a b = false. Proof. intros a b H. destruct (Qeq_bool a b) eqn:E; auto. apply Qeq_bool_iff in E. contradiction. Qed.
Lemma Qeq_bool_true : forall a b, a == b -> Qeq_bool a b = true. Proof. intros. now apply Qeq_bool_iff. Qed.

(** ** selection *)
Lemma where_true_lemma : forall bs k l, l = map fst (filter snd (combine (zrange k (k + Z.of_nat (length bs))) bs)) ->
  StronglySorted Z.lt l /\ (forall i, In i l <-> (k <= i)%Z /\ nth_error bs (Z.to_nat (i - k)) = Some true).
Proof.
  induction bs as [|b bs IH]; intros k l ->.
  - split; [destruct (zrange k _); constructor|]. intros i. split; [destruct (zrange k _); intros []|intros [_ H]; destruct (Z.to_nat (i - k)); discriminate].
  - replace (zrange k (k + Z.of_nat (length (b :: bs)))) with (k :: zrange (k + 1) ((k + 1) + Z.of_nat (length bs))).
    2: { rewrite <- (zrange_app k (k + 1)) by (cbn [length]; lia). replace (zrange k (k + 1)) with [k] by (unfold zrange; replace (Z.to_nat (k + 1 - k)) with 1%nat by lia; cbn; f_equal; lia). cbn [app length]. do 2 f_equal. lia. }
    cbn [combine filter snd]. destruct (IH (k + 1)%Z _ eq_refl) as [Ss I]. set (t := map fst (filter snd (combine (zrange (k + 1) (k + 1 + Z.of_nat (length bs))) bs))) in *.
    assert (P : forall i, (k <= i)%Z -> nth_error (b :: bs) (Z.to_nat (i - k)) = if (i =? k)%Z then Some b else nth_error bs (Z.to_nat (i - (k + 1)))).
    { intros i Hi. destruct (i =? k)%Z eqn:E; [replace (Z.to_nat (i - k)) with 0%nat by lia; reflexivity|]. replace (Z.to_nat (i - k)) with (S (Z.to_nat (i - (k + 1)))) by lia. reflexivity. }
    destruct b; cbn [map fst]; fold t.
    + split; [constructor; auto; apply Forall_forall; intros x X; apply I in X; lia|]. intros i. cbn [In]. rewrite I. split.
      * intros [<-|[H1 H2]]; [split; [lia|rewrite P, Z.eqb_refl by lia; reflexivity]|]. split; [lia|]. rewrite P by lia. destruct (i =? k)%Z eqn:E; auto.
      * intros [H1 H2]. rewrite P in H2 by lia. destruct (i =? k)%Z eqn:E; [left; lia|right; split; [lia|auto]].
    + split; auto. intros i. rewrite I. split.
      * intros [H1 H2]. split; [lia|]. rewrite P by lia. destruct (i =? k)%Z eqn:E; [lia|auto].
      * intros [H1 H2]. rewrite P in H2 by lia. destruct (i =? k)%Z eqn:E; [discriminate|split; [lia|auto]].
Qed.
Lemma selected_lemma : forall ff comp chi2, selected ff comp chi2 (where_true (map (fun g => qlt comp (g_comp g) && qlt (g_chi2 g) chi2) ff)).
Proof.
  intros ff comp chi2. destruct (where_true_lemma (map (fun g => qlt comp (g_comp g) && qlt (g_chi2 g) chi2) ff) 0 _ eq_refl) as [Ss I]. split; [exact Ss|]. intros i. unfold where_true. rewrite I, Z.sub_0_r, nth_map. split.
  - intros [H1 H2]. split; auto. destruct (nth_error ff (Z.to_nat i)) as [g|]; [|discriminate]. injection H2 as H2. apply andb_prop in H2. destruct H2 as [A B]. apply qlt_true in A, B. eauto.
  - intros [H1 (g & -> & A & B)]. split; auto. apply qlt_true in A, B. now rewrite A, B.
Qed.

(** ** volumes *)
Lemma shape_iff : forall l r c v, vol_has_shape l r c v = true <-> vol_shape l r c v.
Proof.
  intros l r c v. unfold vol_has_shape, vol_shape. rewrite andb_true_iff, Nat.eqb_eq, forallb_forall, Forall_forall. apply and_iff_compat_l. split; intros H x X; specialize (H x X).
  - apply andb_prop in H. destruct H as [A B]. apply Nat.eqb_eq in A. split; auto. rewrite Forall_forall. rewrite forallb_forall in B. intros y Y. apply Nat.eqb_eq. auto.
  - destruct H as [A B]. rewrite A, Nat.eqb_refl. cbn [andb]. apply forallb_forall. rewrite Forall_forall in B. intros y Y. apply Nat.eqb_eq. auto.
Qed.
Lemma shifted_shape : forall l r c v s, vol_shape l r c v -> vol_shape l r c (shifted v s).
Proof.
  intros l r c v s [A B]. unfold shifted. split; [now rewrite map_length|]. rewrite Forall_forall in *. intros la H. apply in_map_iff in H. destruct H as (la0 & <- & H). destruct (B _ H) as [C D]. split; [now rewrite map_length|].
  rewrite Forall_forall in *. intros ro R. apply in_map_iff in R. destruct R as (ro0 & <- & R). rewrite map_length. auto.
Qed.
Lemma shifted_at : forall v s l i j, at3 (shifted v s) l i j = match at3 v l i j with Some y => Some (y + s) | None => None end.
Proof.
  intros v s l i j. unfold at3, shifted. rewrite nth_map. destruct (nth_error v l) as [la|]; auto. rewrite nth_map. destruct (nth_error la i) as [ro|]; auto. rewrite nth_map. reflexivity.
Qed.
