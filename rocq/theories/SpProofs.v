(** Proofs about parameters of a fitted spectrum *)
From Coq Require Import String DecimalString QArith Qabs List Bool Lia Lqa Permutation Sorted.
From Verif Require Import Prelude NamesModel NamesProofs ChkProofs SpModel SpSpec.
Import ListNotations.
Local Open Scope string_scope.
Local Open Scope list_scope.
Local Notation length := List.length.
Local Open Scope Q_scope.

Lemma has_iff pat n : containsb pat n = true <-> has pat n.
Proof. rewrite containsb_iff. unfold ChkSpec.within, has. reflexivity. Qed.
Lemma has_not pat n : containsb pat n = false <-> ~ has pat n.
Proof. rewrite <- has_iff. destruct (containsb pat n); split; intuition congruence. Qed.

Lemma change_spec pat f (R : fprm -> fprm -> Prop) ps : (forall p, R p (f p)) -> only_changes pat R ps (change ps (containsb pat) f).
Proof.
  intros Hf. unfold only_changes, change. induction ps as [|[k p] r IH]; cbn [map]; constructor; [|exact IH]. cbn [fst snd].
  split; [reflexivity|]. destruct (containsb pat k) eqn:E.
  - split; [intros _; apply Hf|]. apply has_iff in E. contradiction.
  - apply has_not in E. split; [contradiction|reflexivity].
Qed.

(** names *)
Lemma change_names ps sel f : map fst (change ps sel f) = map fst ps.
Proof. unfold change. rewrite map_map. apply map_ext. reflexivity. Qed.
Lemma fget_change ps sel f n : fget (change ps sel f) n = option_map (fun p => if sel n then f p else p) (fget ps n).
Proof.
  unfold change. induction ps as [|[k p] r IH]; cbn [map fget fst snd]; [reflexivity|].
  destruct (String.eqb_spec n k) as [->|N]; [reflexivity|exact IH].
Qed.
Lemma fget_fset ps m q n : fget (fset ps m q) n = if String.eqb n m then Some q else fget ps n.
Proof.
  induction ps as [|[k p] r IH]; cbn [fset fget].
  - reflexivity.
  - destruct (String.eqb_spec m k) as [->|N]; cbn [fget].
    + destruct (String.eqb_spec n k); reflexivity.
    + rewrite IH. destruct (String.eqb_spec n k) as [->|N2]; [|reflexivity]. destruct (String.eqb_spec k m); [congruence|reflexivity].
Qed.
Lemma fget_in ps n p : fget ps n = Some p -> In (n, p) ps.
Proof.
  induction ps as [|[k q] r IH]; cbn [fget]; [discriminate|]. destruct (String.eqb_spec n k) as [->|N].
  - intros [= ->]. left. reflexivity.
  - intros H. right. auto.
Qed.
Lemma in_fget ps n p : NoDup (map fst ps) -> In (n, p) ps -> fget ps n = Some p.
Proof.
  induction ps as [|[k q] r IH]; cbn [map fst fget]; [contradiction|]. intros ND [[= -> ->]|H].
  - now rewrite String.eqb_refl.
  - inversion ND as [|? ? A B]; subst. destruct (String.eqb_spec n k) as [->|N]; [|auto].
    exfalso. apply A. change k with (fst (k, p)). now apply in_map.
Qed.
Lemma fget_some ps n : In n (map fst ps) -> exists p, fget ps n = Some p.
Proof.
  induction ps as [|[k q] r IH]; cbn [map fst fget]; [contradiction|]. destruct (String.eqb_spec n k) as [->|N]; [eauto|].
  intros [H|H]; [congruence|auto].
Qed.
Lemma fset_nodup ps n q : NoDup (map fst ps) -> NoDup (map fst (fset ps n q)).
Proof.
  assert (K : forall r x, In x (map fst (fset r n q)) -> x = n \/ In x (map fst r)).
  { induction r as [|[k p] r IH]; cbn [fset map fst]; intros x; [intros [H|[]]; auto|].
    destruct (String.eqb n k); cbn [map fst]; intros [H|H]; cbn [In]; auto. apply IH in H. tauto. }
  induction ps as [|[k p] r IH]; cbn [fset map fst]; intros ND.
  - repeat constructor. intros [].
  - inversion ND as [|? ? A B]; subst. destruct (String.eqb_spec n k) as [->|N]; cbn [map fst]; constructor; auto.
    intros H. apply K in H. destruct H; [congruence|contradiction].
Qed.

(** the names of separations *)
Definition sepn (ip : nat) : string := "pksep" +++ dec ip.
Lemma sepn_cen ip : containsb "cen" (sepn ip) = false.
Proof.
  unfold sepn, dec. assert (F : forall d, containsb "cen" (NilEmpty.string_of_uint d) = false) by (induction d; cbn in *; auto).
  unfold NilZero.string_of_uint. destruct (Nat.to_uint ip) as [|d|d|d|d|d|d|d|d|d|d]; cbn; try reflexivity; apply F.
Qed.
Lemma sepn_inj i j : sepn i = sepn j -> i = j.
Proof. intros H. apply (app_cancel_l "pksep") in H. now apply dec_inj. Qed.

(** sorting *)
Lemma insert_perm key x l : Permutation (x :: l) (insert_by key x l).
Proof. induction l as [|y r IH]; cbn [insert_by]; [reflexivity|]. destruct (Qle_bool (key x) (key y)); [reflexivity|]. rewrite perm_swap. now constructor. Qed.
Lemma sort_perm key l : Permutation l (sort_by key l).
Proof. induction l as [|x r IH]; cbn; [constructor|]. fold (sort_by key r). rewrite <- insert_perm. now constructor. Qed.
Definition kle (key : string -> Q) (a b : string) : Prop := key a <= key b.
Lemma insert_sorted key x l : StronglySorted (kle key) l -> StronglySorted (kle key) (insert_by key x l).
Proof.
  induction l as [|y r IH]; cbn [insert_by]; intros Sd. { repeat constructor. }
  inversion Sd as [|? ? A B]; subst. destruct (Qle_bool (key x) (key y)) eqn:E.
  - apply Qle_bool_iff in E. constructor; [exact Sd|]. constructor; [exact E|]. eapply Forall_impl; [|exact B]. intros a Ha. unfold kle in *. lra.
  - assert (E' : key y <= key x). { destruct (Qlt_le_dec (key y) (key x)) as [L|L]; [lra|]. apply Qle_bool_iff in L. congruence. }
    constructor; [auto|]. eapply Permutation_Forall; [apply insert_perm|]. constructor; assumption.
Qed.
Lemma sort_sorted key l : StronglySorted (kle key) (sort_by key l).
Proof. induction l as [|x r IH]; cbn; [constructor|]. apply insert_sorted. exact IH. Qed.

(** counting *)
Inductive spaced (key : string -> Q) (d : Q) : list string -> Prop :=
| sp0 : spaced key d []
| sp1 a : spaced key d [a]
| sp2 a b r : d < key b - key a -> spaced key d (b :: r) -> spaced key d (a :: b :: r).
Lemma count_le key tol l : (count_unique key tol l <= length l)%nat.
Proof. induction l as [|a [|b r] IH]; [cbn; lia|cbn; lia|]. change (count_unique key tol (a :: b :: r)) with ((if Qle_bool (Qabs (key b - key a)) tol then 0 else 1) + count_unique key tol (b :: r))%nat. destruct (Qle_bool _ _); cbn [List.length] in *; lia. Qed.
Lemma count_all key tol l : 0 <= tol -> StronglySorted (kle key) l -> (count_unique key tol l = length l <-> spaced key tol l).
Proof.
  intros T. induction l as [|a [|b r] IH]; intros Sd; [split; [constructor|reflexivity]|split; [constructor|reflexivity]|].
  change (count_unique key tol (a :: b :: r)) with ((if Qle_bool (Qabs (key b - key a)) tol then 0 else 1) + count_unique key tol (b :: r))%nat.
  inversion Sd as [|? ? A B]; subst. inversion B as [|? ? B1 B2]; subst. unfold kle in B1. specialize (IH A).
  pose proof (count_le key tol (b :: r)) as CL. rewrite Qabs_pos by lra. destruct (Qle_bool (key b - key a) tol) eqn:E.
  - apply Qle_bool_iff in E. split; [cbn [List.length] in *; lia|]. intros X. inversion X as [| |? ? ? D X']; subst. lra.
  - assert (E' : tol < key b - key a). { destruct (Qlt_le_dec tol (key b - key a)) as [L|L]; [exact L|]. apply Qle_bool_iff in L. congruence. }
    split; intros X.
    + constructor; [exact E'|]. apply IH. cbn [List.length] in *. lia.
    + inversion X as [| |? ? ? D X']; subst. apply IH in X'. cbn [List.length] in *. lia.
Qed.
Lemma spaced_head key d a l : 0 <= d -> spaced key d (a :: l) -> forall b, In b l -> d < key b - key a.
Proof.
  intros D. revert a. induction l as [|c r IH]; intros a X b; [contradiction|]. inversion X as [| |? ? ? E X']; subst. intros [->|H]; [exact E|].
  specialize (IH c X' b H). lra.
Qed.
Lemma spaced_pair key d l : 0 <= d -> StronglySorted (kle key) l -> spaced key d l -> forall a b, In a l -> In b l -> a <> b -> d < Qabs (key a - key b).
Proof.
  intros D. induction l as [|c r IH]; intros Sd X a b Ha Hb N; [contradiction|]. inversion Sd as [|? ? A B]; subst.
  assert (X' : spaced key d r) by (inversion X; subst; [constructor|assumption]).
  destruct Ha as [<-|Ha], Hb as [<-|Hb]; [congruence| | |auto].
  - pose proof (spaced_head key d c r D X b Hb). rewrite Qabs_Qminus, Qabs_pos; lra.
  - pose proof (spaced_head key d c r D X a Ha). rewrite Qabs_pos; lra.
Qed.
Lemma not_spaced key d l : NoDup l -> StronglySorted (kle key) l -> (forall a b, In a l -> In b l -> a <> b -> d < Qabs (key a - key b)) -> spaced key d l.
Proof.
  induction l as [|a [|b r] IH]; intros ND Sd H; [constructor|constructor|]. inversion Sd as [|? ? A B]; subst. inversion B as [|? ? B1 B2]; subst. inversion ND as [|? ? N1 N2]; subst.
  constructor.
  - unfold kle in B1. rewrite <- (Qabs_pos (key b - key a)) by lra. apply H; cbn; auto. intros ->. apply N1. now left.
  - apply IH; auto. intros x y Hx Hy. apply H; now right.
Qed.

(** the chain of separations *)
Section Chain.
Variables w0 w1 sep : Q.
Lemma chain_other : forall names ps prev ip n, ~ In n names -> (forall j, (ip <= j < ip + length names)%nat -> n <> sepn j) -> fget (chain ps w0 w1 sep prev ip names) n = fget ps n.
Proof.
  induction names as [|m r IH]; intros ps prev ip n Hn Hj; [reflexivity|]. cbn [chain]. fold (sepn ip). rewrite IH.
  - rewrite fget_change, fget_fset. destruct (String.eqb_spec n (sepn ip)) as [->|_]; [exfalso; apply (Hj ip); [cbn [List.length]; lia|reflexivity]|].
    destruct (String.eqb_spec m n) as [->|_]; [exfalso; apply Hn; now left|]. now destruct (fget ps n).
  - intros X. apply Hn. now right.
  - intros j L. apply Hj. cbn [List.length]. lia.
Qed.
Lemma cen_sepn n j : containsb "cen" n = true -> n <> sepn j.
Proof. intros C ->. rewrite sepn_cen in C. discriminate. Qed.
Lemma chain_nodup : forall names ps prev ip, NoDup (map fst ps) -> NoDup (map fst (chain ps w0 w1 sep prev ip names)).
Proof. induction names as [|m r IH]; intros ps prev ip ND; [exact ND|]. cbn [chain]. apply IH. rewrite change_names. now apply fset_nodup. Qed.
(** consecutive names in the list: how they are tied *)
Inductive tied (ps : fparams) (val : string -> Q) : string -> nat -> list string -> Prop :=
| ti0 p i : tied ps val p i []
| ti1 p i n r q d : fget ps n = Some q -> f_expr q = Some (ESum p (sepn i)) -> f_val q = val n ->
    fget ps (sepn i) = Some (FP d true (Some sep) (Some (w1 - w0)) None) -> d = val n - val p -> tied ps val n (S i) r -> tied ps val p i (n :: r).
Lemma chain_tied : forall names ps prev ip, NoDup (prev :: names) -> (forall n, In n (prev :: names) -> containsb "cen" n = true /\ In n (map fst ps)) ->
  tied (chain ps w0 w1 sep prev ip names) (value_of ps) prev ip names.
Proof.
  induction names as [|m r IH]; intros ps prev ip ND H; [constructor|]. cbn [chain]. fold (sepn ip).
  set (ps1 := fset ps _ _). set (ps2 := change ps1 _ _).
  inversion ND as [|? ? N1 N2]; subst. inversion N2 as [|? ? N3 N4]; subst.
  assert (G : forall n, containsb "cen" n = true -> fget ps2 n = option_map (fun p => if String.eqb m n then with_expr (ESum prev (sepn ip)) p else p) (fget ps n)).
  { intros n C. unfold ps2, ps1. rewrite fget_change, fget_fset. destruct (String.eqb_spec n (sepn ip)) as [E|_]; [exfalso; now apply (cen_sepn n ip)|reflexivity]. }
  assert (V : forall n, containsb "cen" n = true -> value_of ps2 n = value_of ps n).
  { intros n C. unfold value_of. rewrite (G n C). destruct (fget ps n) as [p|]; cbn; [|reflexivity]. now destruct (String.eqb m n). }
  destruct (H m) as [Cm Im]; [right; now left|]. destruct (H prev) as [Cp Ip]; [now left|]. destruct (fget_some ps m Im) as [q Hq].
  assert (T : tied (chain ps2 w0 w1 sep m (S ip) r) (value_of ps2) m (S ip) r).
  { apply IH; [exact N2|]. intros n Hn. destruct (H n) as [C I]; [now right|]. split; [exact C|]. unfold ps2. rewrite change_names.
    destruct (fget_some ps n I) as [p Hp]. assert (X : fget ps1 n = Some p). { unfold ps1. rewrite fget_fset. destruct (String.eqb_spec n (sepn ip)) as [E|_]; [exfalso; now apply (cen_sepn n ip)|exact Hp]. }
    apply fget_in in X. change n with (fst (n, p)). now apply in_map. }
  apply (ti1 _ _ prev ip m r (with_expr (ESum prev (sepn ip)) q) (value_of ps m - value_of ps prev)); try reflexivity.
  - rewrite chain_other; [|exact N3|intros j _; now apply cen_sepn]. rewrite (G m Cm), Hq. cbn. now rewrite String.eqb_refl.
  - cbn. unfold value_of. now rewrite Hq.
  - rewrite chain_other; [|intros X; destruct (H (sepn ip)) as [C _]; [right; now right|rewrite sepn_cen in C; discriminate]|intros j L E; apply sepn_inj in E; lia].
    unfold ps2, ps1. rewrite fget_change, fget_fset, String.eqb_refl. cbn [option_map]. destruct (String.eqb_spec m (sepn ip)) as [E|_]; [exfalso; now apply (cen_sepn m ip)|reflexivity].
  - clear - T V H. assert (X : forall n, In n (m :: r) -> value_of ps2 n = value_of ps n) by (intros n Hn; apply V, H; now right).
    revert T X. generalize (chain ps2 w0 w1 sep m (S ip) r) as P. generalize (S ip) as i. generalize m as b. generalize r as l. clear.
    induction l as [|a l IH]; intros b i P T X; [constructor|]. inversion T as [|? ? ? ? q d H1 H2 H3 H4 H5 T']; subst.
    rewrite (X a) in H3, H4 by (cbn; auto). rewrite (X b) in H4 by (cbn; auto).
    apply (ti1 _ _ b i a l q (value_of ps a - value_of ps b)); auto. apply IH; auto. intros n Hn. apply X. now right.
Qed.
Lemma tied_spaced ps v : 0 <= sep -> named_apart ps -> admissible ps v -> forall names val prev ip, tied ps val prev ip names -> forall b, In b names -> v prev + sep <= v b.
Proof.
  intros S0 ND Ad. induction names as [|m r IH]; intros val prev ip T b Hb; [contradiction|]. inversion T as [|? ? ? ? q d H1 H2 H3 H4 H5 T']; subst.
  pose proof (Ad m q (fget_in _ _ _ H1)) as E. rewrite H2 in E. pose proof (Ad _ _ (fget_in _ _ _ H4)) as F. cbn [f_expr f_min] in F. destruct F as [F _]. specialize (F sep eq_refl).
  destruct Hb as [->|Hb]; [lra|]. specialize (IH val m (S ip) T' b Hb). lra.
Qed.
Lemma tied_ordered ps v val : 0 <= sep -> named_apart ps -> admissible ps v -> forall names prev ip, tied ps val prev ip names -> StronglySorted (kle val) (prev :: names) ->
  forall a b, In a (prev :: names) -> In b (prev :: names) -> val a < val b -> v a + sep <= v b.
Proof.
  intros S0 ND Ad. induction names as [|m r IH]; intros prev ip T Sd a b Ha Hb L.
  - destruct Ha as [->|[]], Hb as [->|[]]. lra.
  - inversion Sd as [|? ? A B]; subst. destruct Ha as [->|Ha].
    + destruct Hb as [->|Hb]; [lra|]. eapply tied_spaced; eauto.
    + destruct Hb as [->|Hb]. { rewrite Forall_forall in B. specialize (B a Ha). unfold kle in B. lra. }
      inversion T; subst. eauto.
Qed.
Definition meets (v : string -> Q) (n : string) (p : fprm) : Prop :=
  match f_expr p with
  | Some (ESame a) => v n == v a
  | Some (ESum a b) => v n == v a + v b
  | None => (forall m, f_min p = Some m -> m <= v n) /\ (forall m, f_max p = Some m -> v n <= m)
  end.
Lemma tied_meets ps val : 0 <= sep -> forall names prev ip, tied ps val prev ip names -> spaced val sep (prev :: names) ->
  (forall n, In n (prev :: names) -> value_of ps n = val n /\ w0 + sep <= val n <= w1 - sep) ->
  forall n p, fget ps n = Some p -> (In n names \/ exists j, (ip <= j < ip + length names)%nat /\ n = sepn j) -> meets (value_of ps) n p.
Proof.
  intros S0. induction names as [|m r IH]; intros prev ip T Sp H n p Hp Hn.
  { destruct Hn as [[]|(j & L & _)]. cbn [List.length] in L. lia. }
  inversion T as [|? ? ? ? q d H1 H2 H3 H4 H5 T']; subst. inversion Sp as [| |? ? ? E Sp']; subst.
  destruct (H prev) as [Vp Wp]; [now left|]. destruct (H m) as [Vm Wm]; [right; now left|].
  assert (Vs : value_of ps (sepn ip) = val m - val prev) by (unfold value_of; now rewrite H4).
  assert (K : n = m \/ n = sepn ip \/ (In n r \/ exists j, (S ip <= j < S ip + length r)%nat /\ n = sepn j)).
  { destruct Hn as [[->|Hn]|(j & L & ->)]; auto. cbn [List.length] in L. destruct (Nat.eq_dec j ip) as [->|N]; [auto|]. right. right. right. exists j. split; [lia|reflexivity]. }
  destruct K as [->|[->|K]].
  - rewrite H1 in Hp. injection Hp as <-. unfold meets. rewrite H2, Vp, Vm, Vs. ring.
  - rewrite H4 in Hp. injection Hp as <-. unfold meets. cbn [f_expr f_min f_max]. rewrite Vs. split; intros x X; injection X as <-; lra.
  - apply (IH m (S ip) T' Sp'); auto. intros x Hx. apply H. now right.
Qed.
End Chain.
