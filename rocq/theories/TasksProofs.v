(** Lemmas for TasksProps. *)
From Verif Require Import Prelude TasksModel.
Open Scope Z_scope.

Definition covered (rs : list (Z * Z)) : list Z :=
  concat (map (fun r => zrange (fst r) (snd r)) rs).

Definition sz (r : Z * Z) : Z := snd r - fst r.

Lemma py_index_last {A} (l : list A) x : py_index (l ++ [x]) (-1) = Ok x.
Proof.
  unfold py_index. rewrite app_length; cbn [length].
  replace (-1 <? 0) with true by reflexivity.
  destruct (Z.ltb_spec (Z.of_nat (length l + 1) + -1) 0); [lia|].
  replace (Z.to_nat (Z.of_nat (length l + 1) + -1)) with (length l) by lia.
  rewrite nth_error_app2, Nat.sub_diag by lia. reflexivity.
Qed.

Definition ends_at (acc : list (Z * Z)) (e : Z) : Prop :=
  (acc = [] /\ e = 0) \/ exists l r, acc = l ++ [r] /\ snd r = e.

Lemma covered_app l r : covered (l ++ [r]) = covered l ++ zrange (fst r) (snd r).
Proof. unfold covered. rewrite map_app, concat_app. cbn. rewrite app_nil_r. reflexivity. Qed.

Lemma dt_loop_spec k : forall i tpw rem assigned n acc,
  0 <= i -> 0 <= tpw -> 0 <= rem <= Z.of_nat k -> 0 <= assigned ->
  n - assigned = Z.of_nat k * tpw + rem ->
  Z.of_nat (length acc) = i ->
  ends_at acc assigned -> (i = 0 <-> acc = []) ->
  covered acc = zrange 0 assigned ->
  Forall (fun r => 0 < sz r /\ tpw <= sz r <= tpw + 1) acc ->
  exists rs, dt_loop k i tpw rem assigned n acc = Ok rs /\
    covered rs = zrange 0 n /\
    Forall (fun r => 0 < sz r /\ tpw <= sz r <= tpw + 1) rs /\
    Z.of_nat (length rs) <= i + Z.of_nat k /\
    (Z.of_nat (length rs) = i + Z.of_nat k \/ (tpw = 0 /\ Z.of_nat (length rs) = i + rem)).
Proof.
  induction k as [|k IH]; intros i tpw rem assigned n acc Hi Ht Hr Ha Hn Hl He Hz Hc Hf.
  - cbn. exists acc. assert (n = assigned) by lia. subst n. repeat split; auto; lia.
  - cbn [dt_loop]. destruct (Z.eqb_spec assigned n) as [E|NE].
    + exists acc. subst n. repeat split; auto; nia.
    + set (tasks := if negb (rem =? 0) then tpw + 1 else tpw).
      set (rem' := if negb (rem =? 0) then rem - 1 else rem).
      assert (Hprev : (if i =? 0 then Ok 0 else do l <- py_index acc (-1); Ok (snd l)) = Ok assigned).
      { destruct (Z.eqb_spec i 0) as [E0|NE0].
        - destruct He as [[_ ->]|(l & r & -> & _)]; [reflexivity|].
          exfalso. apply Hz in E0. destruct l; discriminate.
        - destruct He as [[-> _]|(l & r & -> & E)]; [exfalso; apply NE0, Hz; reflexivity|].
          rewrite py_index_last. cbn. congruence. }
      rewrite Hprev. cbn [rbind].
      assert (Hsum : n - (assigned + tasks) = Z.of_nat k * tpw + rem').
      { unfold tasks, rem'. destruct (Z.eqb_spec rem 0); cbn [negb]; lia. }
      assert (Hrem' : 0 <= rem' <= Z.of_nat k).
      { unfold rem'. destruct (Z.eqb_spec rem 0); cbn [negb]; lia. }
      assert (Htasks : 0 < tasks /\ tpw <= tasks <= tpw + 1).
      { unfold tasks. destruct (Z.eqb_spec rem 0); cbn [negb]; nia. }
      destruct (IH (i + 1) tpw rem' (assigned + tasks) n (acc ++ [(assigned, assigned + tasks)]))
        as (rs & E & C & F & L1 & L2); try lia.
      * rewrite app_length; cbn [length]; lia.
      * right. exists acc, (assigned, assigned + tasks). split; reflexivity.
      * split; [lia|]. destruct acc; discriminate.
      * rewrite covered_app, Hc. cbn [fst snd]. apply zrange_app. lia.
      * apply Forall_app; split; auto. constructor; auto. unfold sz; cbn. lia.
      * exists rs. repeat split; auto; try lia.
Qed.

Lemma distribute_tasks_correct n w : 0 <= n -> 1 <= w ->
  exists rs, distribute_tasks n w = Ok rs /\
    covered rs = zrange 0 n /\
    Forall (fun r => fst r < snd r) rs /\
    Z.of_nat (length rs) = Z.min n w /\
    (forall r s, In r rs -> In s rs -> sz r - sz s <= 1).
Proof.
  intros Hn Hw. unfold distribute_tasks. destruct (Z.eqb_spec w 0); [lia|].
  destruct (dt_loop_spec (Z.to_nat w) 0 (n / w) (n mod w) 0 n []) as (rs & E & C & F & L1 & L2).
  - lia.
  - apply Z.div_pos; lia.
  - lia.
  - lia.
  - rewrite Z2Nat.id by lia. pose proof (Z.div_mod n w); lia.
  - reflexivity.
  - left; auto.
  - split; auto.
  - reflexivity.
  - constructor.
  - exists rs. rewrite Forall_forall in F. repeat split; auto.
    + apply Forall_forall. intros r Hr. specialize (F r Hr). unfold sz in F. lia.
    + assert (Hdm := Z.div_mod n w ltac:(lia)). assert (Hm := Z.mod_pos_bound n w ltac:(lia)).
      destruct L2 as [L2|[L2 L3]].
      * assert (Hw2 : Z.of_nat (length rs) = w) by lia. rewrite Hw2.
        assert (w <= n); [|lia].
        (* w non-empty ranges cover n items *)
        assert (G : Z.of_nat (length rs) <= Z.of_nat (length (covered rs))).
        { clear -F. induction rs as [|r rs IH]; cbn; [lia|].
          unfold covered in *; cbn. rewrite app_length, zrange_length.
          assert (F1 := F r (or_introl eq_refl)). unfold sz in F1.
          specialize (IH (fun x Hx => F x (or_intror Hx))). lia. }
        rewrite C, zrange_length in G. lia.
      * rewrite L2 in Hdm. lia.
    + intros r s Hr Hs. apply F in Hr. apply F in Hs. lia.
Qed.

Lemma distribute_tasks_zero n : distribute_tasks n 0 = Err ZeroDivisionError.
Proof. reflexivity. Qed.

Lemma distribute_tasks_negative n w : w < 0 -> distribute_tasks n w = Ok [].
Proof. intros H. unfold distribute_tasks. destruct (Z.eqb_spec w 0); [lia|].
  replace (Z.to_nat w) with O by lia. reflexivity. Qed.
