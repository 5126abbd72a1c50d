(** Proofs about the reflection lists, second part: choosing one reflection of each star, sorting, the box of indices. *)
From Coq Require Import Reals String Lra Psatz Permutation Sorted.
From Verif Require Import Prelude SgModel SgSpec Lin LatModel UcModel UcSpec UcSym.
Import ListNotations.
Local Open Scope R_scope.

(** ** one of each class *)
Section Choose.
Variable star : ivec -> list ivec.
Variable eqv : ivec -> ivec -> Prop.
Hypothesis eqv_refl : forall h, eqv h h.
Hypothesis eqv_sym : forall h h', eqv h h' -> eqv h' h.
Hypothesis eqv_trans : forall h h' h'', eqv h h' -> eqv h' h'' -> eqv h h''.
Hypothesis star_tl : forall h x, In x (tl (star h)) <-> eqv h x /\ x <> h.

Lemma clear_nth : forall e l mask i, List.length mask = List.length l -> forall h, nth_error l i = Some h ->
  nth i (clear e l mask) false = (if existsb (iv_eqb h) e then false else nth i mask false).
Proof.
  intros e. induction l as [|x l IH]; intros [|b mask] i L h H; try discriminate; [destruct i; discriminate|].
  destruct i as [|i]; cbn [clear nth nth_error] in *. - injection H as ->. reflexivity.
  - injection L as L. now apply IH.
Qed.
Lemma clear_len : forall e l mask, List.length mask = List.length l -> List.length (clear e l mask) = List.length l.
Proof. intros e. induction l as [|x l IH]; intros [|b mask] L; try discriminate; cbn [clear List.length]; [reflexivity|]. injection L as L. now rewrite IH. Qed.

Definition done_upto (l : list ivec) (n : nat) (mask : list bool) : Prop :=
  List.length mask = List.length l /\
  forall i h, nth_error l i = Some h ->
    (nth i mask false = true <-> forall j h', (j < n)%nat -> (j < i)%nat -> nth_error l j = Some h' -> ~ eqv h' h).
Lemma mask_loop_facts : forall l, NoDup l -> forall todo n mask, skipn n l = todo -> done_upto l n mask ->
  done_upto l (List.length l) (mask_loop star l n todo mask).
Proof.
  intros l N. induction todo as [|g todo IH]; intros n mask SK D; cbn [mask_loop].
  - destruct D as [A B]. split; [exact A|]. intros i h H. rewrite (B i h H).
    assert (List.length l <= n)%nat. { pose proof (skipn_length n l) as K. rewrite SK in K. cbn in K. lia. }
    assert (i < List.length l)%nat by (apply nth_error_Some; congruence). split; intros Q j h' J1 J2; apply (Q j h'); lia.
  - assert (G : nth_error l n = Some g).
    { assert (K : nth_error (skipn n l) 0 = Some g) by now rewrite SK. revert K. clear. revert l. induction n as [|n IH]; intros l; cbn [skipn]; [auto|]. destruct l; [discriminate|]. intros; now apply IH. }
    assert (S' : skipn (S n) l = todo). { revert SK. clear. revert l. induction n as [|n IH]; intros l SK; destruct l as [|a l]; try discriminate; cbn [skipn] in *. - congruence. - now apply IH. }
    apply IH; [exact S'|]. destruct D as [A B]. destruct (nth n mask false) eqn:M.
    + split; [now apply clear_len|]. intros i h H. rewrite (clear_nth _ _ _ _ A h H).
      pose proof (proj1 (B n g G) M) as First.
      destruct (existsb (iv_eqb h) (tl (star g))) eqn:E.
      * apply existsb_exists in E. destruct E as (y & Y & Z). apply iv_eqb_eq in Z. subst y. apply star_tl in Y. destruct Y as [Y1 Y2].
        split; [discriminate|]. intros Q. exfalso.
        destruct (lt_eq_lt_dec i n) as [[LT|EQ]|GT].
        -- apply (First i h LT LT H). now apply eqv_sym.
        -- subst i. congruence.
        -- apply (Q n g ltac:(lia) GT G). exact Y1.
      * rewrite (B i h H). split; intros Q j h' J1 J2 J3; [|apply (Q j h'); auto; lia].
        assert (J : (j < n)%nat \/ j = n) by lia. destruct J as [J|J]; [now apply (Q j h')|]. subst j. rewrite G in J3. injection J3 as <-.
        intros X. assert (T : existsb (iv_eqb h) (tl (star g)) = true); [|congruence].
        apply existsb_exists. exists h. split; [|now apply iv_eqb_eq]. apply star_tl. split; [exact X|].
        intros ->. assert (i = n); [|lia]. eapply NoDup_nth_error; eauto; [apply nth_error_Some; congruence|congruence].
    + split; [exact A|]. intros i h H. rewrite (B i h H). split; intros Q j h' J1 J2 J3; [|apply (Q j h'); auto; lia].
      assert (J : (j < n)%nat \/ j = n) by lia. destruct J as [J|J]; [now apply (Q j h')|]. subst j. rewrite G in J3. injection J3 as <-. intros X.
      assert (NM : ~ forall j h', (j < n)%nat -> (j < n)%nat -> nth_error l j = Some h' -> ~ eqv h' g). { intros K. apply (B n g G) in K. congruence. }
      apply NM. intros j h' K1 _ K3 K. apply (Q j h' K1 ltac:(lia) K3). eauto.
Qed.

Lemma select_in : forall (mask : list bool) (l : list ivec) x, List.length mask = List.length l ->
  (In x (select mask l) <-> exists i, nth_error l i = Some x /\ nth i mask false = true).
Proof.
  induction mask as [|b mask IH]; intros [|y l] x L; try discriminate; cbn [select].
  - split; [easy|]. intros ([|i] & H & _); discriminate.
  - injection L as L. specialize (IH l x L). destruct b; cbn [In]; rewrite IH.
    + split. * intros [->|(i & H & M)]; [exists 0%nat; auto|exists (S i); auto].
      * intros ([|i] & H & M); cbn in *; [left; congruence|right; eauto].
    + split. * intros (i & H & M). exists (S i). auto. * intros ([|i] & H & M); cbn in *; [discriminate|eauto].
Qed.
Lemma select_nodup : forall (mask : list bool) (l : list ivec), NoDup l -> NoDup (select mask l).
Proof.
  induction mask as [|b mask IH]; intros [|y l] N; cbn [select]; try constructor. inversion_clear N. destruct b; [|auto]. constructor; [|auto].
  intros I. apply H. revert I. clear. revert l. induction mask as [|b mask IH]; intros [|z l]; cbn [select]; try easy. destruct b; cbn [In]; intuition.
Qed.
Definition first_of (l : list ivec) (h : ivec) : Prop := exists i, nth_error l i = Some h /\ forall j h', (j < i)%nat -> nth_error l j = Some h' -> ~ eqv h' h.
Lemma choose_first : forall l, NoDup l -> let hkl := select (mask_loop star l 0 l (repeat true (List.length l))) l in
  NoDup hkl /\ forall h, In h hkl <-> first_of l h.
Proof.
  intros l N hkl. split; [now apply select_nodup|].
  assert (D : done_upto l (List.length l) (mask_loop star l 0 l (repeat true (List.length l)))).
  { apply mask_loop_facts; auto. split; [apply repeat_length|]. intros i h H. assert (i < List.length l)%nat by (apply nth_error_Some; congruence). split; [intros _ j h' J; lia|].
    intros _. rewrite <- (repeat_length true (List.length l)) in H0. revert H0. generalize (List.length l). clear. intros n. revert i. induction n as [|n IH]; intros [|i] H; cbn in *; try lia; auto. apply IH. lia. }
  destruct D as [A B]. intros h. unfold hkl. rewrite select_in by exact A. unfold first_of. split; intros (i & H & M).
  - exists i. split; [exact H|]. intros j h' J. apply (proj1 (B i h H) M); [|exact J]. assert (i < List.length l)%nat by (apply nth_error_Some; congruence). lia.
  - exists i. split; [exact H|]. apply (B i h H). intros j h' _ J. now apply M.
Qed.
Lemma first_exists : (forall h h', {eqv h h'} + {~ eqv h h'}) -> forall l h, In h l -> exists h', first_of l h' /\ eqv h' h.
Proof.
  intros dec l h I.
  assert (P : forall n i h, (i < n)%nat -> nth_error l i = Some h -> exists h', first_of l h' /\ eqv h' h).
  { clear h I. induction n as [|n IH]; intros i h L H; [lia|].
    assert (Q : (exists j h', (j < i)%nat /\ nth_error l j = Some h' /\ eqv h' h) \/ forall j h', (j < i)%nat -> nth_error l j = Some h' -> ~ eqv h' h).
    { clear L IH. revert H. generalize i at 2 3. intros m. induction m as [|m IHm]; intros H; [right; intros; lia|].
      destruct (IHm H) as [(j & h' & J & K)|N]; [left; exists j, h'; split; [lia|exact K]|].
      destruct (nth_error l m) as [x|] eqn:E.
      - destruct (dec x h) as [Y|Y]; [left; exists m, x; split; [lia|auto]|]. right. intros j h' J K.
        assert (C : (j < m)%nat \/ j = m) by lia. destruct C as [C|C]; [eauto|]. subst. congruence.
      - right. intros j h' J K. assert (C : (j < m)%nat \/ j = m) by lia. destruct C as [C|C]; [eauto|]. subst. congruence. }
    destruct Q as [(j & h' & J & K & E)|N].
    - destruct (IH j h' ltac:(lia) K) as (f & F & X). exists f. split; [exact F|]. eapply eqv_trans; eauto.
    - exists h. split; [|apply eqv_refl]. exists i. auto. }
  apply In_nth_error in I. destruct I as (i & I). exact (P (S i) i h ltac:(lia) I).
Qed.
Lemma first_unique : forall l h h', first_of l h -> first_of l h' -> eqv h h' -> h = h'.
Proof.
  intros l h h' (i & H & F) (j & H' & F') E. destruct (lt_eq_lt_dec i j) as [[LT|EQ]|GT].
  - exfalso. exact (F' i h LT H E). - congruence. - exfalso. apply (F j h' GT H'). now apply eqv_sym.
Qed.
End Choose.

(** ** the largest sum *)
Lemma argmax_in : forall l b, In (argmax_sum b l) (b :: l) /\ forall v, In v (b :: l) -> vsum v <= vsum (argmax_sum b l).
Proof.
  induction l as [|x l IH]; intros b; cbn [argmax_sum].
  - split; [now left|]. intros v [->|[]]. lra.
  - destruct (Rlt_dec (vsum b) (vsum x)) as [L|L].
    + destruct (IH x) as [A B]. split; [destruct A as [A|A]; [right; left; exact A|right; right; exact A]|].
      intros v [<-|[<-|V]]; [|apply B; now left|apply B; now right]. pose proof (B x (or_introl eq_refl)). lra.
    + destruct (IH b) as [A B]. split; [destruct A as [A|A]; [left; exact A|right; right; exact A]|].
      intros v [<-|[<-|V]]; [apply B; now left| |apply B; now right]. pose proof (B b (or_introl eq_refl)). lra.
Qed.

(** ** sorting *)
Lemma insert_perm : forall key g l, Permutation (insert_by key g l) (g :: l).
Proof. intros key g. induction l as [|h l IH]; cbn [insert_by]; [constructor; constructor|]. destruct (key_leb _ _); [reflexivity|]. rewrite IH. constructor. Qed.
Lemma sort_perm : forall u l, Permutation (SortHKL u l) l.
Proof. intros u. induction l as [|g l IH]; cbn [SortHKL fold_right]; [constructor|]. fold (SortHKL u l). rewrite insert_perm. now constructor. Qed.
Lemma key_total : forall a b, key_leb a b = false -> key_leb b a = true.
Proof.
  induction a as [|x a IH]; intros [|y b] H; cbn [key_leb] in *; auto. destruct (x <? y)%Z eqn:L; [discriminate|].
  destruct (x =? y)%Z eqn:E. - replace (y <? x)%Z with false by lia. replace (y =? x)%Z with true by lia. now apply IH. - now replace (y <? x)%Z with true by lia.
Qed.
Lemma key_trans : forall a b c, List.length a = List.length b -> List.length b = List.length c -> key_leb a b = true -> key_leb b c = true -> key_leb a c = true.
Proof.
  induction a as [|x a IH]; intros [|y b] [|z c] L1 L2 H1 H2; try discriminate; cbn [key_leb] in *; auto.
  destruct (x <? y)%Z eqn:A, (y <? z)%Z eqn:B; try (now replace (x <? z)%Z with true by lia).
  - destruct (y =? z)%Z eqn:C; [|discriminate]. now replace (x <? z)%Z with true by lia.
  - destruct (x =? y)%Z eqn:C; [|discriminate]. now replace (x <? z)%Z with true by lia.
  - destruct (x =? y)%Z eqn:C; [|discriminate]. destruct (y =? z)%Z eqn:D; [|discriminate].
    replace (x <? z)%Z with false by lia. replace (x =? z)%Z with true by lia. injection L1 as L1. injection L2 as L2. eauto.
Qed.
Lemma insert_sorted : forall u g l, StronglySorted (fun a b => key_leb (sort_key u a) (sort_key u b) = true) l ->
  StronglySorted (fun a b => key_leb (sort_key u a) (sort_key u b) = true) (insert_by (sort_key u) g l).
Proof.
  intros u g. induction l as [|h l IH]; intros S; cbn [insert_by]; [repeat constructor|].
  inversion_clear S as [|? ? S' F]. destruct (key_leb (sort_key u g) (sort_key u h)) eqn:E.
  - constructor; [constructor; auto|]. constructor; [exact E|]. rewrite Forall_forall in *. intros x X. eapply key_trans; [| |exact E|apply F; exact X]; reflexivity.
  - constructor; [auto|]. apply Permutation_Forall with (g :: l); [symmetry; apply insert_perm|]. constructor; [now apply key_total|exact F].
Qed.
Lemma sort_sorted : forall u l, StronglySorted (fun a b => key_leb (sort_key u a) (sort_key u b) = true) (SortHKL u l).
Proof. intros u. induction l as [|g l IH]; [constructor|]. cbn [SortHKL fold_right]. now apply insert_sorted. Qed.

(** ** the box *)
Lemma down_in : forall hi lo x, In x (down hi lo) <-> (lo < x <= hi)%Z.
Proof.
  intros hi lo x. unfold down. rewrite in_map_iff. split.
  - intros (i & <- & I). apply in_seq in I. lia. - intros H. exists (Z.to_nat (hi - x)). split; [lia|]. apply in_seq. lia.
Qed.
Lemma down_nodup : forall hi lo, NoDup (down hi lo).
Proof. intros. unfold down. apply FinFun.Injective_map_NoDup; [|apply seq_NoDup]. intros a b H. lia. Qed.
Lemma box_in : forall a b c h, In h (index_box a b c) <-> (- a <= v0 h <= a /\ - b <= v1 h <= b /\ 0 <= v2 h <= c)%Z.
Proof.
  intros a b c [x y z]. unfold index_box. rewrite in_flat_map. cbn [v0 v1 v2]. split.
  - intros (h & H & K). apply down_in in H. apply in_flat_map in K. destruct K as (k & K & L). apply down_in in K. apply in_map_iff in L. destruct L as (l & E & L). apply down_in in L.
    injection E as <- <- <-. lia.
  - intros H. exists x. split; [apply down_in; lia|]. apply in_flat_map. exists y. split; [apply down_in; lia|]. apply in_map_iff. exists z. split; [reflexivity|]. apply down_in; lia.
Qed.
Lemma nodup_flat_map {A B} (f : A -> list B) l : NoDup l -> (forall x, In x l -> NoDup (f x)) ->
  (forall x y z, In x l -> In y l -> In z (f x) -> In z (f y) -> x = y) -> NoDup (flat_map f l).
Proof.
  induction l as [|x l IH]; intros N F D; cbn [flat_map]; [constructor|]. inversion_clear N.
  assert (NoDup (flat_map f l)). { apply IH; auto. - intros; apply F; now right. - intros a b c ? ? ? ?; apply (D a b c); auto; now right. }
  assert (X : forall z, In z (f x) -> ~ In z (flat_map f l)).
  { intros z Z I. apply in_flat_map in I. destruct I as (y & Y & I). assert (x = y); [|subst; contradiction]. apply (D x y z); auto; [now left|now right]. }
  pose proof (F x (or_introl eq_refl)) as Fx. clear - Fx H1 X. induction (f x) as [|z q IH]; cbn [app]; [exact H1|]. inversion_clear Fx. constructor.
  - rewrite in_app_iff. intros [|I]; [contradiction|]. apply (X z); [now left|exact I]. - apply IH; auto. intros; apply X; now right.
Qed.
Lemma box_nodup : forall a b c, NoDup (index_box a b c).
Proof.
  intros a b c. unfold index_box. apply nodup_flat_map; [apply down_nodup| |].
  - intros h _. apply nodup_flat_map; [apply down_nodup| |]. + intros k _. apply FinFun.Injective_map_NoDup; [|apply down_nodup]. intros x y E. congruence.
    + intros k k' z _ _ I J. apply in_map_iff in I, J. destruct I as (? & <- & _), J as (? & E & _). congruence.
  - intros h h' z _ _ I J. apply in_flat_map in I, J. destruct I as (? & _ & I), J as (? & _ & J). apply in_map_iff in I, J. destruct I as (? & <- & _), J as (? & E & _). congruence.
Qed.
