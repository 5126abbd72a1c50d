From Coq Require Import QArith Lqa Permutation.
From Verif Require Import Prelude NfModel NfSpec NfProofs NfLoop NfGather.
Local Open Scope Q_scope.

Lemma col_best_lemma : forall l pre i b v, i = Z.of_nat (length pre) -> (0 <= b < i)%Z -> nth_error pre (Z.to_nat b) = Some v ->
  (forall k u, nth_error pre k = Some u -> u <= v /\ ((k < Z.to_nat b)%nat -> u < v)) ->
  let '(g, w) := col_best i b v l in
  (0 <= g < Z.of_nat (length (pre ++ l)))%Z /\ nth_error (pre ++ l) (Z.to_nat g) = Some w /\ (forall k u, nth_error (pre ++ l) k = Some u -> u <= w /\ ((k < Z.to_nat g)%nat -> u < w)).
Proof.
  induction l as [|x l IH]; intros pre i b v Hi Hb Hv H; cbn [col_best].
  - rewrite app_nil_r. rewrite <- Hi. auto.
  - replace (pre ++ x :: l)%list with ((pre ++ [x]) ++ l)%list by (now rewrite <- app_assoc). destruct (qlt v x) eqn:E; [apply qlt_true in E|assert (E' : x <= v) by (destruct (Qlt_le_dec v x) as [L|L]; auto; apply qlt_true in L; congruence)].
    + apply IH; [rewrite app_length; cbn; lia|lia|rewrite nth_error_app2, Hi, Nat2Z.id, Nat.sub_diag by lia; reflexivity|].
      intros k u N. destruct (Nat.lt_ge_cases k (length pre)) as [K|K].
      * rewrite nth_error_app1 in N by auto. destruct (H k u N). split; [lra|intros; lra].
      * rewrite nth_error_app2 in N by auto. destruct (k - length pre)%nat as [|d] eqn:D; cbn in N; [injection N as <-; split; [lra|intros; lia]|destruct d; discriminate].
    + apply IH; [rewrite app_length; cbn; lia|lia|rewrite nth_error_app1; auto; lia|].
      intros k u N. destruct (Nat.lt_ge_cases k (length pre)) as [K|K].
      * rewrite nth_error_app1 in N by auto. apply H; auto.
      * rewrite nth_error_app2 in N by auto. destruct (k - length pre)%nat as [|d] eqn:D; cbn in N; [injection N as <-; split; [lra|intros; lia]|destruct d; discriminate].
Qed.
Lemma best_lemma : forall raw j, raw <> [] -> exists g v, best_of (column raw j) = Ok (g, v) /\ best_at raw j g v.
Proof.
  intros raw j H. unfold best_of, column, best_at. destruct raw as [|r raw]; [congruence|]. cbn [map]. pose proof (col_best_lemma (map (fun r => nth j r 0) raw) [nth j r 0] 1 0 (nth j r 0) eq_refl) as C.
  destruct (col_best 1 0 (nth j r 0) (map (fun row => nth j row 0) raw)) as [g v] eqn:E. exists g, v. split; auto. cbn [app] in C. rewrite <- (map_length (fun r => nth j r 0) (r :: raw)). cbn [map]. apply C; [lia|reflexivity|].
  intros [|k] u N; cbn in N; [injection N as <-; split; [lra|cbn; lia]|destruct k; discriminate].
Qed.
Lemma best_unique : forall raw j g1 v1 g2 v2, best_at raw j g1 v1 -> best_at raw j g2 v2 -> g1 = g2 /\ v1 == v2.
Proof.
  intros raw j g1 v1 g2 v2 (A1 & A2 & A3) (B1 & B2 & B3). destruct (A3 _ _ B2) as [L1 M1]. destruct (B3 _ _ A2) as [L2 M2].
  destruct (Z.lt_trichotomy g1 g2) as [T|[T|T]]; [specialize (M2 ltac:(lia)); lra|subst; split; auto; lra|specialize (M1 ltac:(lia)); lra].
Qed.

Open Scope Z_scope.
Definition renamed (ids : list Z) (top g : Z) : Z := if (0 <=? g) && (g <? top) then match nth_error ids (Z.to_nat g) with Some x => x | None => 0 end else g.
Lemma remap_lemma : forall gm ids k, (k <= length ids)%nat -> remap_loop gm ids (Z.of_nat k) = Ok (map (renamed ids (Z.of_nat k)) gm).
Proof.
  intros gm ids. unfold remap_loop. induction k as [|k IH]; intros K.
  - cbn. f_equal. rewrite <- (map_id gm) at 1. apply map_ext. intros g. unfold renamed. destruct (0 <=? g) eqn:A; destruct (g <? 0) eqn:B; cbn [andb]; auto; lia.
  - rewrite <- (zrange_app 0 (Z.of_nat k) (Z.of_nat (S k))) by lia. rewrite fold_left_app, IH by lia.
    replace (zrange (Z.of_nat k) (Z.of_nat (S k))) with [Z.of_nat k] by (unfold zrange; replace (Z.to_nat (Z.of_nat (S k) - Z.of_nat k)) with 1%nat by lia; cbn; f_equal; lia). cbn [fold_left rbind].
    destruct (index_ok _ ids (Z.of_nat k)) as (a & A1 & A2); [lia|]. rewrite A1. cbn [rbind]. f_equal. rewrite Nat2Z.id in A2.
    clear IH. induction gm as [|g gm IH]; [reflexivity|]. cbn [map combine fst snd]. f_equal; [|exact IH]. unfold renamed.
    destruct (g =? Z.of_nat k) eqn:E; [apply Z.eqb_eq in E; subst g; rewrite Nat2Z.id, A2; destruct (0 <=? Z.of_nat k) eqn:B; destruct (Z.of_nat k <? Z.of_nat (S k)) eqn:C; cbn [andb]; auto; lia|].
    destruct (0 <=? g) eqn:B; cbn [andb]; auto. destruct (g <? Z.of_nat k) eqn:C; destruct (g <? Z.of_nat (S k)) eqn:D; auto; lia.
Qed.
Lemma remap_short : forall gm ids top, Z.of_nat (length ids) < top -> remap_loop gm ids top = Err IndexError.
Proof.
  intros gm ids top H. unfold remap_loop. rewrite <- (zrange_app 0 (Z.of_nat (length ids)) top) by lia. rewrite fold_left_app. pose proof (remap_lemma gm ids (length ids) (Nat.le_refl _)) as R. unfold remap_loop in R. rewrite R.
  rewrite <- (zrange_app (Z.of_nat (length ids)) (Z.of_nat (length ids) + 1) top) by lia. rewrite fold_left_app.
  replace (zrange (Z.of_nat (length ids)) (Z.of_nat (length ids) + 1)) with [Z.of_nat (length ids)] by (unfold zrange; replace (Z.to_nat (Z.of_nat (length ids) + 1 - Z.of_nat (length ids))) with 1%nat by lia; cbn; f_equal; lia). cbn [fold_left rbind].
  assert (X : py_index ids (Z.of_nat (length ids)) = Err IndexError). { unfold py_index. destruct (Z.of_nat (length ids) <? 0) eqn:E; [lia|]. rewrite E. rewrite (proj2 (nth_error_None _ _)) by lia. reflexivity. }
  rewrite X. cbn [rbind]. generalize (zrange (Z.of_nat (length ids) + 1) top). induction l as [|x l IH]; cbn [fold_left rbind]; auto.
Qed.
Lemma zmax_lemma : forall l m, zmax l = Ok m -> In m l /\ forall x, In x l -> x <= m.
Proof.
  intros [|a l] m H; [discriminate|]. cbn [zmax] in H. injection H as <-. enough (G : forall a, (In (fold_left Z.max l a) (a :: l)) /\ (forall x, In x (a :: l) -> x <= fold_left Z.max l a)) by apply G.
  induction l as [|b l IH]; intros c; [cbn; split; auto; intros x [<-|[]]; lia|]. cbn [fold_left]. destruct (IH (Z.max c b)) as [I J]. split.
  - destruct I as [I|I]; [|right; now right]. rewrite <- I. destruct (Z.max_spec c b) as [[_ ->]|[_ ->]]; cbn; auto.
  - intros x [<-|[<-|X]]; [|apply Z.le_trans with (Z.max c b); [lia|apply J; now left]|apply J; now right]. apply Z.le_trans with (Z.max c b); [lia|apply J; now left].
Qed.
Lemma zmax_ok : forall l, l <> [] -> exists m, zmax l = Ok m. Proof. intros [|a l] H; [congruence|]. cbn. eauto. Qed.
