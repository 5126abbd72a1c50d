From Coq Require Import QArith Qround Qabs Lqa Qfield.
From Verif Require Import Prelude GridModel GridSpec GridProofs.
Local Open Scope Q_scope.

(** ** areas *)
Definition sh (ab : point * point) : Q := fst (fst ab) * snd (snd ab) - snd (fst ab) * fst (snd ab).
Fixpoint chain (p : point) (l : list point) : Q :=
  match l with [] => 0 | c :: r => sh (p, c) + chain c r end.
Lemma chain_combine : forall l p, qsum (map sh (combine (p :: l) l)) = chain p l.
Proof.
  induction l as [|c r IH]; intros p; [reflexivity|].
  change (combine (p :: c :: r) (c :: r)) with ((p, c) :: combine (c :: r) r).
  cbn [map qsum fold_right chain]. f_equal. apply IH.
Qed.
Lemma fan_cons : forall o p c r, fan o p (c :: r) = (1 # 2) * cross2 o p c + fan o c r.
Proof. reflexivity. Qed.
Lemma fan_chain : forall l o p, fan o p l == (1 # 2) * (sh (o, p) + chain p l + sh (last l p, o)).
Proof.
  induction l as [|c r IH]; intros o p.
  - cbn [fan chain last]. unfold sh; cbn; ring.
  - rewrite fan_cons, IH, last_step. cbn [chain]. unfold cross2, sh; cbn [fst snd]; ring.
Qed.
Lemma shoelace_unfold : forall l, shoelace l = (1 # 2) * chain (last l (0, 0)) l.
Proof. intros l; unfold shoelace, poly_edges. f_equal. exact (chain_combine l (last l (0, 0))). Qed.

Theorem area_shoelace_lemma : forall l, compute_area l == shoelace l.
Proof.
  intros l; rewrite shoelace_unfold. destruct l as [|o [|p r]].
  - cbn; ring.
  - cbn; unfold sh; cbn; ring.
  - cbn [compute_area]. rewrite fan_chain. rewrite (last_step _ (p :: r) o), (last_step _ r p).
    cbn [chain]. ring.
Qed.

(** cyclic sums *)
Definition ochain (l : list point) : Q := match l with [] => 0 | a :: r => chain a r end.
Lemma chain_snoc : forall l p x, chain p (l ++ [x]) == chain p l + sh (last l p, x).
Proof.
  induction l as [|c r IH]; intros p x; [cbn; ring|].
  rewrite last_step. cbn [app chain]. rewrite IH. ring.
Qed.
Lemma ochain_snoc : forall l x, l <> [] -> ochain (l ++ [x]) == ochain l + sh (last l (0, 0), x).
Proof. intros [|a r] x H; [congruence|]. cbn [app ochain]. rewrite chain_snoc, last_step. reflexivity. Qed.
Lemma sh_anti : forall a b, sh (a, b) == - sh (b, a).
Proof. intros; unfold sh; cbn; ring. Qed.
Lemma last_rev : forall (l : list point) d, last (rev l) d = hd d l.
Proof. intros [|a l] d; [reflexivity|]. cbn [rev hd]. apply last_last. Qed.
Lemma hd_rev : forall (l : list point) d, hd d (rev l) = last l d.
Proof. intros l d. rewrite <- (rev_involutive l) at 2. rewrite last_rev. reflexivity. Qed.
Lemma ochain_rev : forall l, ochain (rev l) == - ochain l.
Proof.
  induction l as [|a r IH]; [cbn; ring|]. destruct r as [|c r]; [cbn; ring|].
  change (rev (a :: c :: r)) with (rev (c :: r) ++ [a]).
  rewrite ochain_snoc.
  - rewrite IH, last_rev. cbn [hd ochain chain]. rewrite (sh_anti c a). ring.
  - intros E. apply (f_equal (@length _)) in E. rewrite rev_length in E. discriminate.
Qed.
Lemma shoelace_o : forall l, shoelace l == (1 # 2) * (ochain l + sh (last l (0, 0), hd (0, 0) l)).
Proof.
  intros l; rewrite shoelace_unfold. destruct l as [|a r]; [cbn; unfold sh; cbn; ring|].
  cbn [chain hd ochain]. ring.
Qed.
Theorem area_rev_lemma : forall l, compute_area (rev l) == - compute_area l.
Proof.
  intros l. rewrite !area_shoelace_lemma, !shoelace_o, ochain_rev, last_rev, hd_rev, (sh_anti (hd _ _)). ring.
Qed.
Theorem area_rotate_lemma : forall a l, compute_area (l ++ [a]) == compute_area (a :: l).
Proof.
  intros a l. rewrite !area_shoelace_lemma, !shoelace_o. destruct l as [|c r]; [cbn; ring|].
  rewrite ochain_snoc by discriminate. rewrite last_last, (last_step _ (c :: r) a), (last_default _ (c :: r) a (0, 0)) by discriminate.
  cbn [app hd ochain chain]. ring.
Qed.
Lemma fan_shift : forall dx dy l o p, let s := fun q : point => (fst q + dx, snd q + dy) in fan (s o) (s p) (map s l) == fan o p l.
Proof.
  intros dx dy; induction l as [|c r IH]; intros o p s; [reflexivity|].
  cbn [map]. rewrite !fan_cons. assert (K : fan (s o) (s c) (map s r) == fan o c r) by exact (IH o c). rewrite K. unfold cross2, s; cbn [fst snd]. ring.
Qed.
Theorem area_shift_lemma : forall dx dy l, compute_area (map (fun q : point => (fst q + dx, snd q + dy)) l) == compute_area l.
Proof. intros dx dy [|o [|p r]]; [reflexivity | reflexivity | exact (fan_shift dx dy r o p)]. Qed.
Lemma fan_app : forall l1 o p m l2, fan o p (l1 ++ m :: l2) == fan o p (l1 ++ [m]) + fan o m l2.
Proof.
  induction l1 as [|c r IH]; intros o p m l2.
  - cbn [app]. rewrite !fan_cons. cbn [fan]. ring.
  - cbn [app]. rewrite !fan_cons, IH. ring.
Qed.
Theorem area_split_lemma : forall o l1 m l2, compute_area (o :: l1 ++ m :: l2) == compute_area (o :: l1 ++ [m]) + compute_area (o :: m :: l2).
Proof.
  intros o [|p r] m l2; cbn [app compute_area].
  - cbn [fan]; ring.
  - apply fan_app.
Qed.
Lemma fan_nonneg : forall l o p, (forall a c, In (a, c) (combine (p :: l) l) -> 0 <= turn a c o) -> 0 <= fan o p l.
Proof.
  induction l as [|c r IH]; intros o p H; [cbn; lra|].
  rewrite fan_cons.
  assert (0 <= turn p c o) by (apply H; left; reflexivity).
  assert (E : cross2 o p c == turn p c o) by (unfold cross2, turn; ring). rewrite E.
  assert (0 <= fan o c r) by (apply IH; intros; apply H; right; assumption). lra.
Qed.
Theorem area_convex_lemma : forall l, convex l -> 0 <= compute_area l.
Proof.
  intros [|o [|p r]] C; [cbn; lra | cbn; lra |]. cbn [compute_area].
  apply fan_nonneg. intros a c H. apply C; [|left; reflexivity]. right; right; exact H.
Qed.

Theorem cell_area_lemma : forall p0 p1 p2 p3,
  cell_area p0 p1 p2 p3 == compute_area [p0; p1; p2; p3] <-> (fst p1 - fst p2) * (snd p3 - snd p0) == (snd p1 - snd p2) * (fst p3 - fst p0).
Proof.
  intros p0 p1 p2 p3.
  assert (E : cell_area p0 p1 p2 p3 - compute_area [p0; p1; p2; p3] ==
     (1 # 2) * ((fst p1 - fst p2) * (snd p3 - snd p0) - (snd p1 - snd p2) * (fst p3 - fst p0))).
  { unfold cell_area, compute_area, fan, cross2; ring. }
  split; intros H; lra.
Qed.

(** ** connectivity *)
Lemma nth_flat_map_uniform : forall A B (f : A -> list B) n l j i d d0, (forall x, length (f x) = n) ->
  (j < length l)%nat -> (i < n)%nat -> nth (j * n + i) (flat_map f l) d = nth i (f (nth j l d0)) d.
Proof.
  intros A B f n l; induction l as [|a l IH]; intros j i d d0 U Hj Hi; [cbn in Hj; lia|].
  cbn [flat_map]. destruct j as [|j].
  - cbn [nth Nat.mul Nat.add]. rewrite app_nth1; [reflexivity | rewrite U; exact Hi].
  - rewrite app_nth2; rewrite U; [|cbn; lia].
    replace (S j * n + i - n)%nat with (j * n + i)%nat by (cbn; lia).
    cbn [nth]. apply IH; auto. cbn in Hj; lia.
Qed.
Lemma flat_map_length_uniform : forall A B (f : A -> list B) n l, (forall x, length (f x) = n) -> length (flat_map f l) = (length l * n)%nat.
Proof. intros A B f n l U; induction l as [|a l IH]; [reflexivity|]. cbn [flat_map length]. rewrite app_length, U, IH; cbn; lia. Qed.

Lemma fill_row_corners : forall m n k j i, fill_row m n k j i = corners m n k j i.
Proof. intros; unfold fill_row, corners, node. f_equal; [nia|]. f_equal; [nia|]. f_equal; [nia|]. f_equal; nia. Qed.
Lemma fill_layer_length : forall m n k, length (fill_layer m n k) = (m * n)%nat.
Proof.
  intros; unfold fill_layer. rewrite (flat_map_length_uniform _ _ _ n); [rewrite seq_length; reflexivity|].
  intros; rewrite map_length, seq_length; reflexivity.
Qed.
Lemma fill_layer_nth : forall m n k j i d, (j < m)%nat -> (i < n)%nat -> nth (j * n + i) (fill_layer m n k) d = corners m n k j i.
Proof.
  intros m n k j i d Hj Hi. unfold fill_layer.
  rewrite (nth_flat_map_uniform _ _ _ n _ j i d 0%nat); [| intros; rewrite map_length, seq_length; reflexivity | rewrite seq_length; exact Hj | exact Hi].
  rewrite (nth_indep _ d (fill_row m n k (nth j (seq 0 m) 0%nat) 0%nat)) by (rewrite map_length, seq_length; exact Hi).
  rewrite (map_nth (fun i0 => fill_row m n k (nth j (seq 0 m) 0%nat) i0) (seq 0 n) 0%nat i).
  rewrite !seq_nth by assumption. apply fill_row_corners.
Qed.
Lemma layers_nth : forall m n p k, (k < p)%nat -> nth k (fill_connectivity m n p) [] = fill_layer m n k.
Proof.
  intros m n p k H. unfold fill_connectivity.
  rewrite (nth_indep _ [] (fill_layer m n 0)) by (rewrite map_length, seq_length; exact H).
  rewrite map_nth, seq_nth by exact H. reflexivity.
Qed.
Lemma concat_map_flat_map : forall A B (f : A -> list B) l, concat (map f l) = flat_map f l.
Proof. intros; symmetry; apply flat_map_concat_map. Qed.

Definition raw_con (m n p : nat) : list (list nat) := cell_connectivity m n p false.
Lemma con_ll : forall m n p, cell_connectivity m n p true = map (@rev nat) (raw_con m n p).
Proof. reflexivity. Qed.

Lemma con_flat_length : forall m n, length (raw_con m n 1) = (m * n)%nat.
Proof.
  intros. unfold raw_con, cell_connectivity. change (Nat.ltb 1 1) with false. cbv iota zeta.
  cbn [fill_connectivity seq map concat]. rewrite app_nil_r. apply fill_layer_length.
Qed.
Lemma con_flat_nth : forall m n j i d, (j < m)%nat -> (i < n)%nat -> nth (j * n + i) (raw_con m n 1) d = corners m n 0 j i.
Proof.
  intros. unfold raw_con, cell_connectivity. change (Nat.ltb 1 1) with false. cbv iota zeta.
  cbn [fill_connectivity seq map concat]. rewrite app_nil_r. apply fill_layer_nth; assumption.
Qed.

Definition hex_rows (m n : nat) (layers : list (list (list nat))) (layer : nat) : list (list nat) :=
  map (fun ab => fst ab ++ snd ab) (combine (nth layer layers []) (nth (layer + 1) layers [])).
Lemma flat_map_length_in : forall A B (f : A -> list B) n l, (forall x, In x l -> length (f x) = n) -> length (flat_map f l) = (length l * n)%nat.
Proof.
  intros A B f n l; induction l as [|a l IH]; intros U; [reflexivity|]. cbn [flat_map length].
  rewrite app_length, (U a (or_introl eq_refl)), IH; [cbn; lia | intros; apply U; right; assumption].
Qed.
Lemma nth_flat_map_in : forall A B (f : A -> list B) n l j i d d0, (forall x, In x l -> length (f x) = n) ->
  (j < length l)%nat -> (i < n)%nat -> nth (j * n + i) (flat_map f l) d = nth i (f (nth j l d0)) d.
Proof.
  intros A B f n l; induction l as [|a l IH]; intros j i d d0 U Hj Hi; [cbn in Hj; lia|].
  cbn [flat_map]. pose proof (U a (or_introl eq_refl)) as Ua. destruct j as [|j].
  - cbn [nth Nat.mul Nat.add]. rewrite app_nth1; [reflexivity | rewrite Ua; exact Hi].
  - rewrite app_nth2; rewrite Ua; [|cbn; lia].
    replace (S j * n + i - n)%nat with (j * n + i)%nat by (cbn; lia).
    cbn [nth]. apply IH; auto; [intros; apply U; right; assumption | cbn in Hj; lia].
Qed.
Lemma hex_rows_length : forall m n p k, (k + 1 < p)%nat -> length (hex_rows m n (fill_connectivity m n p) k) = (m * n)%nat.
Proof.
  intros m n p k H; unfold hex_rows. rewrite map_length, combine_length, !layers_nth, !fill_layer_length by lia. lia.
Qed.
Lemma hex_rows_nth : forall m n p k j i d, (k + 1 < p)%nat -> (j < m)%nat -> (i < n)%nat ->
  nth (j * n + i) (hex_rows m n (fill_connectivity m n p) k) d = corners m n k j i ++ corners m n (k + 1) j i.
Proof.
  intros m n p k j i d H Hj Hi. unfold hex_rows.
  set (c := combine _ _).
  assert (L : (j * n + i < m * n)%nat) by nia.
  assert (Lc : length c = (m * n)%nat) by (unfold c; rewrite combine_length, !layers_nth, !fill_layer_length by lia; lia).
  rewrite (nth_indep _ d ((fun ab : list nat * list nat => fst ab ++ snd ab) ([], []))) by (rewrite map_length, Lc; exact L).
  rewrite (map_nth (fun ab : list nat * list nat => fst ab ++ snd ab) c ([], [])). unfold c. rewrite combine_nth by (rewrite !layers_nth, !fill_layer_length by lia; reflexivity).
  rewrite !layers_nth by lia. cbn [fst snd]. rewrite !fill_layer_nth by assumption. reflexivity.
Qed.
Lemma raw_con_hex : forall m n p, (1 < p)%nat -> raw_con m n p = flat_map (hex_rows m n (fill_connectivity m n p)) (seq 0 (p - 1)).
Proof.
  intros m n p H. unfold raw_con, cell_connectivity, hex_rows.
  destruct (Nat.ltb_spec 1 p) as [_|C]; [reflexivity | lia].
Qed.
Lemma con_hex_length : forall m n p, (1 < p)%nat -> length (raw_con m n p) = ((p - 1) * (m * n))%nat.
Proof.
  intros m n p H. rewrite raw_con_hex by exact H.
  rewrite (flat_map_length_in _ _ _ (m * n)%nat); [rewrite seq_length; reflexivity|].
  intros k Hk; apply in_seq in Hk. apply hex_rows_length; lia.
Qed.
Lemma con_hex_nth : forall m n p k j i d, (k + 1 < p)%nat -> (j < m)%nat -> (i < n)%nat ->
  nth (k * (m * n) + (j * n + i)) (raw_con m n p) d = corners m n k j i ++ corners m n (k + 1) j i.
Proof.
  intros m n p k j i d H Hj Hi. rewrite raw_con_hex by lia.
  rewrite (nth_flat_map_in _ _ _ (m * n)%nat _ k _ d 0%nat).
  - rewrite seq_nth by lia. apply hex_rows_nth; assumption.
  - intros q Hq; apply in_seq in Hq. apply hex_rows_length; lia.
  - rewrite seq_length; lia.
  - nia.
Qed.

Lemma node_inj : forall m n k j i k' j' i', (j <= m)%nat -> (i <= n)%nat -> (j' <= m)%nat -> (i' <= n)%nat ->
  node m n k j i = node m n k' j' i' -> k = k' /\ j = j' /\ i = i'.
Proof.
  intros m n k j i k' j' i' Hj Hi Hj' Hi' E. unfold node in E.
  assert (Ek : k = k').
  { destruct (Nat.lt_trichotomy k k') as [L|[L|L]]; [exfalso|exact L|exfalso].
    - assert ((k + 1) * ((m + 1) * (n + 1)) <= k' * ((m + 1) * (n + 1)))%nat by (apply Nat.mul_le_mono_r; lia). nia.
    - assert ((k' + 1) * ((m + 1) * (n + 1)) <= k * ((m + 1) * (n + 1)))%nat by (apply Nat.mul_le_mono_r; lia). nia. }
  subst k'. assert (Ej : j = j').
  { destruct (Nat.lt_trichotomy j j') as [L|[L|L]]; [exfalso|exact L|exfalso].
    - assert ((j + 1) * (n + 1) <= j' * (n + 1))%nat by (apply Nat.mul_le_mono_r; lia). nia.
    - assert ((j' + 1) * (n + 1) <= j * (n + 1))%nat by (apply Nat.mul_le_mono_r; lia). nia. }
  subst j'. repeat split; lia.
Qed.
Lemma node_lt : forall m n p k j i, (k < p)%nat -> (j <= m)%nat -> (i <= n)%nat -> (node m n k j i < p * ((m + 1) * (n + 1)))%nat.
Proof.
  intros m n p k j i Hk Hj Hi. unfold node.
  assert ((k + 1) * ((m + 1) * (n + 1)) <= p * ((m + 1) * (n + 1)))%nat by (apply Nat.mul_le_mono_r; lia).
  assert (j * (n + 1) <= m * (n + 1))%nat by (apply Nat.mul_le_mono_r; lia). nia.
Qed.
Lemma div_split : forall q n, (0 < n)%nat -> exists a c, q = (a * n + c)%nat /\ (c < n)%nat.
Proof. intros q n H. exists (q / n)%nat, (q mod n)%nat. split; [rewrite (Nat.div_mod q n) at 1 by lia; lia | apply Nat.mod_upper_bound; lia]. Qed.
Lemma flat_split : forall m n q, (q < m * n)%nat -> exists j i, q = (j * n + i)%nat /\ (j < m)%nat /\ (i < n)%nat.
Proof.
  intros m n q H. assert (Hn : (0 < n)%nat) by (destruct n; lia).
  destruct (div_split q n Hn) as [j [i [E Hi]]]. exists j, i; repeat split; auto. nia.
Qed.

Theorem con_flat_lemma : forall m n,
  length (cell_connectivity m n 1 false) = (m * n)%nat /\
  (forall j i d, (j < m)%nat -> (i < n)%nat -> nth (j * n + i) (cell_connectivity m n 1 false) d = corners m n 0 j i) /\
  (forall row v, In row (cell_connectivity m n 1 false) -> In v row -> (v < (m + 1) * (n + 1))%nat) /\
  NoDup (cell_connectivity m n 1 false).
Proof.
  intros m n. fold (raw_con m n 1). split; [apply con_flat_length|]. split; [intros; apply con_flat_nth; assumption|]. split.
  - intros row v Hr Hv. apply In_nth with (d := []) in Hr. destruct Hr as [q [Hq E]]. rewrite con_flat_length in Hq.
    destruct (flat_split m n q Hq) as [j [i [-> [Hj Hi]]]]. rewrite con_flat_nth in E by assumption. subst row.
    assert (K : forall j i, (j <= m)%nat -> (i <= n)%nat -> (node m n 0 j i < (m + 1) * (n + 1))%nat).
    { intros j' i' A B. pose proof (node_lt m n 1 0 j' i' Nat.lt_0_1 A B). lia. }
    destruct Hv as [<-|[<-|[<-|[<-|[]]]]]; apply K; lia.
  - apply (NoDup_nth _ []). rewrite con_flat_length. intros q q' Hq Hq' E.
    destruct (flat_split m n q Hq) as [j [i [-> [Hj Hi]]]]. destruct (flat_split m n q' Hq') as [j' [i' [-> [Hj' Hi']]]].
    rewrite !con_flat_nth in E by assumption.
    injection E as _ E _ _. apply node_inj in E; [|lia..]. destruct E as [_ [-> ->]]. reflexivity.
Qed.
Lemma hex_split : forall m n p q, (q < (p - 1) * (m * n))%nat -> exists k j i, q = (k * (m * n) + (j * n + i))%nat /\ (k + 1 < p)%nat /\ (j < m)%nat /\ (i < n)%nat.
Proof.
  intros m n p q H. destruct (flat_split (p - 1) (m * n) q H) as [k [r [-> [Hk Hr]]]].
  destruct (flat_split m n r Hr) as [j [i [-> [Hj Hi]]]]. exists k, j, i; repeat split; auto; lia.
Qed.
Theorem con_hex_lemma : forall m n p, (1 < p)%nat ->
  length (cell_connectivity m n p false) = ((p - 1) * (m * n))%nat /\
  (forall k j i d, (k + 1 < p)%nat -> (j < m)%nat -> (i < n)%nat ->
     nth (k * (m * n) + (j * n + i)) (cell_connectivity m n p false) d = corners m n k j i ++ corners m n (k + 1) j i) /\
  (forall row v, In row (cell_connectivity m n p false) -> In v row -> (v < p * ((m + 1) * (n + 1)))%nat) /\
  NoDup (cell_connectivity m n p false).
Proof.
  intros m n p H. fold (raw_con m n p). split; [apply con_hex_length; exact H|]. split; [intros; apply con_hex_nth; assumption|]. split.
  - intros row v Hr Hv. apply In_nth with (d := []) in Hr. destruct Hr as [q [Hq E]]. rewrite con_hex_length in Hq by exact H.
    destruct (hex_split m n p q Hq) as [k [j [i [-> [Hk [Hj Hi]]]]]]. rewrite con_hex_nth in E by assumption. subst row.
    destruct Hv as [<-|[<-|[<-|[<-|[<-|[<-|[<-|[<-|[]]]]]]]]]; apply node_lt; lia.
  - apply (NoDup_nth _ []). rewrite con_hex_length by exact H. intros q q' Hq Hq' E.
    destruct (hex_split m n p q Hq) as [k [j [i [-> [Hk [Hj Hi]]]]]]. destruct (hex_split m n p q' Hq') as [k' [j' [i' [-> [Hk' [Hj' Hi']]]]]].
    rewrite !con_hex_nth in E by assumption.
    injection E as _ E _ _ _ _ _ _. apply node_inj in E; [|lia..]. destruct E as [-> [-> ->]]. reflexivity.
Qed.
Theorem con_ll_lemma : forall m n p, cell_connectivity m n p true = map (@rev nat) (cell_connectivity m n p false).
Proof. reflexivity. Qed.

(** every cell of a unit grid has area +1 *)
Theorem con_area_lemma : forall m n (crd : list point) (ll : bool),
  (forall j i, (j <= m)%nat -> (i <= n)%nat ->
     nth (node m n 0 j i) crd (0, 0) = (inject_Z (Z.of_nat i), if ll then inject_Z (Z.of_nat j) else - inject_Z (Z.of_nat j))) ->
  forall row, In row (cell_connectivity m n 1 ll) -> compute_area (map (fun v => nth v crd (0, 0)) row) == 1.
Proof.
  intros m n crd ll H.
  assert (Z1 : forall q, inject_Z (Z.of_nat (q + 1)) == inject_Z (Z.of_nat q) + 1).
  { intros q. rewrite Nat2Z.inj_add. rewrite inject_Z_plus. reflexivity. }
  assert (K : forall row, In row (raw_con m n 1) -> exists j i, (j < m)%nat /\ (i < n)%nat /\ row = corners m n 0 j i).
  { intros row Hr. apply In_nth with (d := []) in Hr. destruct Hr as [q [Hq E]]. rewrite con_flat_length in Hq.
    destruct (flat_split m n q Hq) as [j [i [-> [Hj Hi]]]]. rewrite con_flat_nth in E by assumption. exists j, i; auto. }
  intros row Hr. destruct ll.
  - rewrite con_ll in Hr. apply in_map_iff in Hr. destruct Hr as [row' [<- Hr]]. destruct (K row' Hr) as [j [i [Hj [Hi ->]]]].
    cbn [corners rev app map]. rewrite !H by lia. unfold compute_area, fan, cross2; cbn [fst snd]. rewrite !Z1. ring.
  - destruct (K row Hr) as [j [i [Hj [Hi ->]]]].
    cbn [corners map]. rewrite !H by lia. unfold compute_area, fan, cross2; cbn [fst snd]. rewrite !Z1. ring.
Qed.
