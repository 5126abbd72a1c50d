(** C176-C177: parameters of a fitted spectrum *)
From Coq Require Import String QArith Qabs List Bool Lia Lqa Permutation Sorted.
From Verif Require Import Prelude NamesModel NamesProofs SpModel SpSpec SpProofs.
Import ListNotations.
Local Open Scope string_scope.
Local Open Scope list_scope.
Local Notation length := List.length.
Local Open Scope Q_scope.

(** C176: refinement, bounds and ties change the parameters with the text in their names, as asked, and nothing else *)
Lemma extract_in ps pat n : In n (extract_parameters_by_name ps pat) <-> has pat n /\ exists p, is_param ps n p.
Proof.
  unfold extract_parameters_by_name. rewrite filter_In, has_iff, in_map_iff. unfold is_param. split.
  - intros [([k p] & <- & H) C]. cbn [fst]. eauto.
  - intros [C [p H]]. split; [|exact C]. exists (n, p). auto.
Qed.
Theorem C176_refine ps pat vary :
  match set_refinement_by_name ps pat vary with
  | Ok ps' => (exists n p, is_param ps n p /\ has pat n) /\ only_changes pat (fun p q => q = FP (f_val p) vary (f_min p) (f_max p) (f_expr p)) ps ps'
  | Err e => e = RuntimeError /\ forall n p, is_param ps n p -> ~ has pat n
  end.
Proof.
  unfold set_refinement_by_name. destruct (extract_parameters_by_name ps pat) as [|a r] eqn:E.
  - split; [reflexivity|]. intros n p H C. assert (X : In n (extract_parameters_by_name ps pat)) by (apply extract_in; eauto). rewrite E in X. exact X.
  - split; [|apply change_spec; reflexivity]. destruct (proj1 (extract_in ps pat a)) as [C [p H]]; [rewrite E; now left|]. eauto.
Qed.
Theorem C176_bounds ps pat lo hi :
  only_changes pat (fun p q => same_but_bounds p q /\ f_min q = lo /\ f_max q = hi) ps (set_bound_constraints ps pat lo hi None false).
Proof. apply change_spec. intros p. repeat split. Qed.
(** a box is centred on the value, of the width given or that part of the size of the value *)
Theorem C176_box ps pat lo hi (b : Q) (percentage : bool) :
  only_changes pat (fun p q => same_but_bounds p q /\ exists x y, f_min q = Some x /\ f_max q = Some y /\ (x + y) / 2 == f_val p /\
    y - x == (if percentage then Qabs (f_val p) * Qabs b / 100 else b)) ps (set_bound_constraints ps pat lo hi (Some b) percentage).
Proof.
  apply change_spec. intros p. split; [repeat split|]. do 2 eexists. split; [reflexivity|]. split; [reflexivity|]. split.
  - destruct percentage; field.
  - destruct percentage; [|field]. unfold Qdiv. rewrite !Qabs_Qmult. change (Qabs (/ 100)) with (/ 100). field.
Qed.
Theorem C176_widths ps lo hi :
  Forall2 (fun x y : string * fprm => fst y = fst x /\ same_but_bounds (snd x) (snd y) /\
    (has "mixing" (fst x) -> f_min (snd y) = Some 0 /\ f_max (snd y) = Some 1) /\
    (has "fwhm" (fst x) -> ~ has "mixing" (fst x) -> f_min (snd y) = Some lo /\ f_max (snd y) = hi) /\
    (~ has "fwhm" (fst x) -> ~ has "mixing" (fst x) -> snd y = snd x)) ps (set_width_mixing_bounds ps lo hi).
Proof.
  unfold set_width_mixing_bounds. induction ps as [|[k p] r IH]; cbn [map]; constructor; [|exact IH]. cbn [fst snd].
  split; [reflexivity|]. destruct (containsb "fwhm" k) eqn:A, (containsb "mixing" k) eqn:B; (apply has_iff in A || apply has_not in A); (apply has_iff in B || apply has_not in B);
    (split; [repeat split|]); (split; [intros X; (contradiction || (split; reflexivity))|]); (split; [intros X Y; (contradiction || (split; reflexivity))|]); intros X Y; (contradiction || reflexivity).
Qed.
(** tied parameters have one value in every step of a fit *)
Theorem C176_equal ps pat :
  match set_equal ps pat with
  | Ok ps' => (forall v, admissible ps' v -> forall a b p q, is_param ps a p -> has pat a -> is_param ps b q -> has pat b -> v a == v b) /\
      only_changes pat (fun p q => q = p \/ exists a, has pat a /\ q = FP (f_val p) (f_vary p) (f_min p) (f_max p) (Some (ESame a))) ps ps'
  | Err e => e = RuntimeError /\ forall n p, is_param ps n p -> ~ has pat n
  end.
Proof.
  unfold set_equal. destruct (extract_parameters_by_name ps pat) as [|c r] eqn:E.
  - split; [reflexivity|]. intros n p H C. assert (X : In n (extract_parameters_by_name ps pat)) by (apply extract_in; eauto). rewrite E in X. exact X.
  - assert (IN : forall n, In n (c :: r) <-> has pat n /\ exists p, is_param ps n p) by (intros n; rewrite <- E; apply extract_in). split.
    + intros v Ad. assert (K : forall a p, is_param ps a p -> has pat a -> v a == v c).
      { intros a p Ha Ca. destruct (existsb (String.eqb a) r) eqn:X.
        - assert (H : is_param (change ps (fun n => existsb (String.eqb n) r) (with_expr (ESame c))) a (with_expr (ESame c) p)).
          { unfold is_param, change. apply in_map_iff. exists (a, p). cbn [fst snd]. rewrite X. auto. }
          apply Ad in H. exact H.
        - assert (Y : In a (c :: r)) by (apply IN; eauto). destruct Y as [->|Y]; [reflexivity|]. exfalso.
          assert (existsb (String.eqb a) r = true); [|congruence]. apply existsb_exists. exists a. split; [exact Y|apply String.eqb_refl]. }
      intros a b p q Ha Ca Hb Cb. rewrite (K a p Ha Ca), (K b q Hb Cb). reflexivity.
    + unfold only_changes, change. assert (Cc : has pat c) by (apply (IN c); now left).
      assert (G : forall l, (forall x, In x l -> In x ps) -> Forall2 (fun x y : string * fprm => fst y = fst x /\ (has pat (fst x) -> snd y = snd x \/ exists a, has pat a /\ snd y = FP (f_val (snd x)) (f_vary (snd x)) (f_min (snd x)) (f_max (snd x)) (Some (ESame a))) /\ (~ has pat (fst x) -> snd y = snd x)) l
         (map (fun kp => (fst kp, if existsb (String.eqb (fst kp)) r then with_expr (ESame c) (snd kp) else snd kp)) l)).
      { induction l as [|[k p] l IH]; intros L; cbn [map]; constructor; [|apply IH; intros x Hx; apply L; now right]. cbn [fst snd]. split; [reflexivity|].
        destruct (existsb (String.eqb k) r) eqn:X; [|auto]. split; [intros _; right; exists c; split; [exact Cc|reflexivity]|]. intros N. exfalso. apply N.
        apply existsb_exists in X. destruct X as [y [Hy Ey]]. apply String.eqb_eq in Ey. subst y. apply (IN k). now right. }
      apply G. auto.
Qed.
Print Assumptions C176_refine.
Print Assumptions C176_bounds.
Print Assumptions C176_box.
Print Assumptions C176_widths.
Print Assumptions C176_equal.

(** C177: centres of peaks *)
Definition is_centre (ps : fparams) (n : string) : Prop := has "cen" n /\ exists p, is_param ps n p.

Lemma centres_nodup ps : named_apart ps -> NoDup (extract_parameters_by_name ps "cen").
Proof. intros ND. unfold extract_parameters_by_name. now apply NoDup_filter. Qed.
Lemma value_is ps n p : named_apart ps -> is_param ps n p -> value_of ps n = f_val p.
Proof. intros ND H. unfold value_of. now rewrite (in_fget ps n p ND H). Qed.
(** refused if and only if two centres are within the separation *)
Theorem C177_close ps w0 w1 sep : named_apart ps -> 0 <= sep ->
  ((exists e, set_peak_center_bounds ps w0 w1 sep = Err e) <->
   exists a b p q, a <> b /\ has "cen" a /\ has "cen" b /\ is_param ps a p /\ is_param ps b q /\ Qabs (f_val p - f_val q) <= sep).
Proof.
  intros ND S0. unfold set_peak_center_bounds. set (T := extract_parameters_by_name ps "cen"). set (L := sort_by (value_of ps) T).
  pose proof (sort_perm (value_of ps) T) as Pm. fold L in Pm. pose proof (sort_sorted (value_of ps) T) as Sd. fold L in Sd.
  assert (NT : NoDup T) by (apply centres_nodup; exact ND). assert (NL : NoDup L) by (eapply Permutation_NoDup; eassumption).
  pose proof (count_all (value_of ps) sep L S0 Sd) as CA. pose proof (count_le (value_of ps) sep L) as CL. rewrite <- (Permutation_length Pm) in CA, CL.
  assert (IL : forall n, In n L <-> is_centre ps n).
  { intros n. rewrite <- (extract_in ps "cen" n : _ <-> is_centre ps n). fold T. split; apply Permutation_in; [now symmetry|exact Pm]. }
  assert (DEC : (exists a b p q, a <> b /\ has "cen" a /\ has "cen" b /\ is_param ps a p /\ is_param ps b q /\ Qabs (f_val p - f_val q) <= sep) -> ~ spaced (value_of ps) sep L).
  { intros (a & b & p & q & N & Ca & Cb & Ha & Hb & Q) X.
    pose proof (spaced_pair (value_of ps) sep L S0 Sd X a b) as Y. rewrite (value_is ps a p), (value_is ps b q) in Y by assumption.
    assert (sep < Qabs (f_val p - f_val q)); [|lra]. apply Y; [apply IL; split; eauto|apply IL; split; eauto|exact N]. }
  assert (DEC2 : ~ spaced (value_of ps) sep L -> exists a b p q, a <> b /\ has "cen" a /\ has "cen" b /\ is_param ps a p /\ is_param ps b q /\ Qabs (f_val p - f_val q) <= sep).
  { clear - IL NL Sd ND. intros X. assert (IL' : forall n, In n L -> is_centre ps n) by (intros n; apply IL). clear IL. revert NL Sd X IL'. generalize L as l.
    induction l as [|a [|b r] IH]; intros NL Sd X IL'; [exfalso; apply X; constructor|exfalso; apply X; constructor|].
    inversion Sd as [|? ? A B]; subst. inversion B as [|? ? B1 B2]; subst. inversion NL as [|? ? N1 N2]; subst. unfold kle in B1.
    destruct (Qlt_le_dec sep (value_of ps b - value_of ps a)) as [G|G].
    - apply IH; auto. { intros Y. apply X. now constructor. } intros n Hn. apply IL'. now right.
    - destruct (IL' a) as [Ca [p Hp]]; [now left|]. destruct (IL' b) as [Cb [q Hq]]; [right; now left|]. exists a, b, p, q. repeat (split; [assumption||(intros ->; apply N1; now left)|]).
      rewrite (value_is ps a p), (value_is ps b q) in * by assumption. rewrite Qabs_Qminus, Qabs_pos; lra. }
  destruct (Nat.ltb_spec 1 (length T)) as [L1|L1].
  - split.
    + intros [e H]. apply DEC2. intros X. apply CA in X. rewrite X in H. destruct (Nat.eqb_spec (length T) 1); [lia|]. rewrite Nat.ltb_irrefl in H. destruct L; discriminate.
    + intros X. apply DEC in X. rewrite <- CA in X. destruct (Nat.eqb (count_unique (value_of ps) sep L) 1); [eauto|]. destruct (Nat.ltb_spec (count_unique (value_of ps) sep L) (length T)); [eauto|lia].
  - split; [intros [e H]; discriminate|]. intros X. apply DEC in X. exfalso. apply X. pose proof (Permutation_length Pm) as PL. destruct L as [|a [|b r]]; [constructor|constructor|cbn [List.length] in PL; lia].
Qed.
Print Assumptions C177_close.

Lemma accepted ps w0 w1 sep ps' : named_apart ps -> 0 <= sep -> (1 < length (extract_parameters_by_name ps "cen"))%nat -> set_peak_center_bounds ps w0 w1 sep = Ok ps' ->
  exists first rest, let ps1 := change ps (containsb "cen") (with_bounds (Some (w0 + sep)) (Some (w1 - sep))) in
    ps' = chain ps1 w0 w1 sep first 0 rest /\ NoDup (first :: rest) /\ StronglySorted (kle (value_of ps)) (first :: rest) /\ spaced (value_of ps) sep (first :: rest) /\
    (forall n, In n (first :: rest) <-> is_centre ps n) /\ (forall n, value_of ps1 n = value_of ps n) /\ tied w0 w1 sep ps' (value_of ps) first 0 rest /\ named_apart ps'.
Proof.
  intros ND S0 L1 H. unfold set_peak_center_bounds in H. cbv zeta in H. set (T := extract_parameters_by_name ps "cen") in *. set (L := sort_by (value_of ps) T) in *.
  pose proof (sort_perm (value_of ps) T) as Pm. fold L in Pm. pose proof (sort_sorted (value_of ps) T) as Sd. fold L in Sd.
  assert (NT : NoDup T) by (apply centres_nodup; exact ND). assert (NL : NoDup L) by (eapply Permutation_NoDup; eassumption).
  pose proof (count_all (value_of ps) sep L S0 Sd) as CA. pose proof (count_le (value_of ps) sep L) as CL. pose proof (Permutation_length Pm) as PL.
  assert (IL : forall n, In n L <-> is_centre ps n).
  { intros n. rewrite <- (extract_in ps "cen" n : _ <-> is_centre ps n). fold T. split; apply Permutation_in; [now symmetry|exact Pm]. }
  rewrite (proj2 (Nat.ltb_lt 1 (length T)) L1) in H. destruct (Nat.eqb_spec (count_unique (value_of ps) sep L) 1) as [|NE]; [discriminate|].
  destruct (Nat.ltb_spec (count_unique (value_of ps) sep L) (length T)) as [|G]; [discriminate|]. assert (Sp : spaced (value_of ps) sep L) by (apply CA; lia).
  clear CA CL. destruct L as [|f r]; [cbn [List.length] in PL; lia|]. injection H as <-. exists f, r. cbv zeta.
  set (ps1 := change ps _ _).
  assert (VV : forall n, value_of ps1 n = value_of ps n). { intros n. unfold value_of, ps1. rewrite fget_change. destruct (fget ps n) as [p|]; [|reflexivity]. cbn. now destruct (containsb "cen" n). }
  split; [reflexivity|]. split; [exact NL|]. split; [exact Sd|]. split; [exact Sp|]. split; [exact IL|]. split; [exact VV|]. split.
  - assert (X : tied w0 w1 sep (chain ps1 w0 w1 sep f 0 r) (value_of ps1) f 0 r).
    { apply chain_tied; [exact NL|]. intros n Hn. apply IL in Hn. destruct Hn as [C [p Hp]]. split; [now apply has_iff|]. unfold ps1. rewrite change_names. change n with (fst (n, p)). now apply in_map. }
    clear - X VV. revert X. generalize (chain ps1 w0 w1 sep f 0 r) as P. generalize f as b. generalize 0%nat as i. generalize r as l.
    induction l as [|a l IH]; intros i b P X; [constructor|]. inversion X as [|? ? ? ? q d H1 H2 H3 H4 H5 T']; subst. rewrite VV in H3. rewrite !VV in H4. eapply ti1; eauto.
  - apply chain_nodup. unfold ps1. rewrite change_names. exact ND.
Qed.
(** in every step of a fit, centres stay in order, apart by at least the separation *)
Theorem C177_separated ps w0 w1 sep ps' : named_apart ps -> 0 <= sep -> set_peak_center_bounds ps w0 w1 sep = Ok ps' ->
  forall v, admissible ps' v -> forall a b p q, has "cen" a -> has "cen" b -> is_param ps a p -> is_param ps b q -> f_val p < f_val q -> v a + sep <= v b.
Proof.
  intros ND S0 H v Ad a b p q Ca Cb Ha Hb L.
  assert (L1 : (1 < length (extract_parameters_by_name ps "cen"))%nat).
  { assert (In a (extract_parameters_by_name ps "cen")) as Ia by (apply extract_in; eauto). assert (In b (extract_parameters_by_name ps "cen")) as Ib by (apply extract_in; eauto).
    destruct (extract_parameters_by_name ps "cen") as [|x [|y r]]; [contradiction| |cbn; lia]. destruct Ia as [<-|[]], Ib as [<-|[]].
    pose proof (value_is ps x p ND Ha). pose proof (value_is ps x q ND Hb). assert (f_val p = f_val q) as E by congruence. rewrite E in L. lra. }
  destruct (accepted ps w0 w1 sep ps' ND S0 L1 H) as (f & r & E & NL & Sd & Sp & IL & VV & Td & ND').
  apply (tied_ordered w0 w1 sep ps' v (value_of ps) S0 ND' Ad r f 0%nat Td Sd); [apply IL; split; eauto|apply IL; split; eauto|].
  now rewrite (value_is ps a p), (value_is ps b q).
Qed.
Print Assumptions C177_separated.

(** the first values are those given, and a fit may start from them: if they were admissible, and the centres in the window, they still are *)
Definition refers_within (ps : fparams) : Prop := forall n p, is_param ps n p ->
  match f_expr p with Some (ESame a) => In a (map fst ps) | Some (ESum a b) => In a (map fst ps) /\ In b (map fst ps) | None => True end.
Theorem C177_start ps w0 w1 sep ps' : named_apart ps -> 0 <= sep -> set_peak_center_bounds ps w0 w1 sep = Ok ps' ->
  (forall n p, is_param ps n p -> ~ has "pksep" n) -> refers_within ps ->
  (forall n p, is_param ps n p -> exists q, is_param ps' n q /\ f_val q = f_val p /\ f_vary q = f_vary p) /\
  (admissible ps (value_of ps) -> (forall n p, is_param ps n p -> has "cen" n -> w0 + sep <= f_val p <= w1 - sep) -> admissible ps' (value_of ps')).
Proof.
  intros ND S0 H NS RW. destruct (Nat.ltb_spec 1 (length (extract_parameters_by_name ps "cen"))) as [L1|L1].
  2:{ unfold set_peak_center_bounds in H. rewrite (proj2 (Nat.ltb_ge 1 _) L1) in H. injection H as <-. split; [intros n p Hp; exists p; auto|auto]. }
  destruct (accepted ps w0 w1 sep ps' ND S0 L1 H) as (f & r & E & NL & Sd & Sp & IL & VV & Td & ND').
  set (ps1 := change ps (containsb "cen") (with_bounds (Some (w0 + sep)) (Some (w1 - sep)))) in *.
  assert (NSP : forall n j, In n (map fst ps) -> n <> sepn j).
  { intros n j Hn ->. apply in_map_iff in Hn. destruct Hn as ([k p] & Ek & Hp). cbn [fst] in Ek. subst k. apply (NS _ _ Hp). exists "", (dec j). reflexivity. }
  assert (TV : forall l i b, tied w0 w1 sep ps' (value_of ps) b i l -> forall n, In n l -> exists q, fget ps' n = Some q /\ f_val q = value_of ps n).
  { induction l as [|a l IH]; intros i b X n Hn; [contradiction|]. inversion X; subst. destruct Hn as [<-|Hn]; [eauto|eapply IH; eauto]. }
  assert (TE : forall n, ~ In n r -> In n (map fst ps) -> fget ps' n = fget ps1 n).
  { intros n N I. rewrite E. apply chain_other; [exact N|]. intros j _. now apply NSP. }
  assert (V' : forall n, In n (map fst ps) -> value_of ps' n = value_of ps n).
  { intros n I. destruct (in_dec string_dec n r) as [Hr|Hr].
    - destruct (TV r 0%nat f Td n Hr) as (q & Q1 & Q2). unfold value_of at 1. now rewrite Q1.
    - unfold value_of at 1. rewrite (TE n Hr I). exact (VV n). }
  assert (VY : forall names ps0 prev ip n, (forall j, n <> sepn j) -> option_map f_vary (fget (chain ps0 w0 w1 sep prev ip names) n) = option_map f_vary (fget ps0 n)).
  { induction names as [|m l IH]; intros ps0 prev ip n Hn; [reflexivity|]. cbn [chain]. rewrite IH by exact Hn. rewrite fget_change, fget_fset. fold (sepn ip).
    destruct (String.eqb_spec n (sepn ip)) as [X|_]; [now apply Hn in X|]. destruct (fget ps0 n) as [p|]; [|reflexivity]. cbn [option_map]. now destruct (String.eqb m n). }
  split.
  - intros n p Hp. assert (I : In n (map fst ps)) by (change n with (fst (n, p)); now apply in_map).
    pose proof (V' n I) as W. pose proof (VY r ps1 f 0%nat n (fun j => NSP n j I)) as Y. rewrite <- E in Y.
    rewrite (value_is ps n p ND Hp) in W. unfold value_of in W. unfold ps1 in Y. rewrite fget_change, (in_fget ps n p ND Hp) in Y. cbn [option_map] in Y.
    destruct (fget ps' n) as [q|] eqn:Q; [|discriminate]. exists q. split; [now apply fget_in|]. split; [exact W|]. cbn [option_map] in Y. injection Y as Y. rewrite Y. now destruct (containsb "cen" n).
  - intros Ad W n p Hp.
    assert (WW : forall m, In m (f :: r) -> value_of ps' m = value_of ps m /\ w0 + sep <= value_of ps m <= w1 - sep).
    { intros m Hm. apply IL in Hm. destruct Hm as [C [q Hq]]. split; [apply V'; change m with (fst (m, q)); now apply in_map|]. rewrite (value_is ps m q ND Hq). now apply (W m q). }
    pose proof (in_fget ps' n p ND' Hp) as G.
    destruct (in_dec string_dec n r) as [Hr|Hr].
    { apply (tied_meets w0 w1 sep ps' (value_of ps) S0 r f 0%nat Td Sp WW n p G). now left. }
    assert (Dj : (exists j, (0 <= j < 0 + length r)%nat /\ n = sepn j) \/ (forall j, (0 <= j < 0 + length r)%nat -> n <> sepn j)).
    { clear. generalize (length r) as k. induction k as [|k IH]; [right; intros; lia|]. destruct IH as [(j & L & ->)|N]; [left; exists j; split; [lia|reflexivity]|].
      destruct (string_dec n (sepn k)) as [->|X]; [left; exists k; split; [lia|reflexivity]|]. right. intros j L. destruct (Nat.eq_dec j k) as [->|Y]; [exact X|apply N; lia]. }
    destruct Dj as [Dj|Dj]. { apply (tied_meets w0 w1 sep ps' (value_of ps) S0 r f 0%nat Td Sp WW n p G). now right. }
    rewrite E in G. rewrite (chain_other w0 w1 sep r ps1 f 0%nat n Hr Dj) in G. unfold ps1 in G. rewrite fget_change in G. destruct (fget ps n) as [p0|] eqn:G0; [|discriminate].
    cbn [option_map] in G. injection G as G. pose proof (fget_in ps n p0 G0) as I0. pose proof (Ad n p0 I0) as M. pose proof (RW n p0 I0) as R0.
    assert (In0 : In n (map fst ps)) by (change n with (fst (n, p0)); now apply in_map). rewrite (V' n In0).
    destruct (containsb "cen" n) eqn:C; subst p; cbn [with_bounds f_expr f_min f_max].
    + destruct (f_expr p0) as [[a|a b]|]; [rewrite (V' a R0); exact M|destruct R0 as [R1 R2]; rewrite (V' a R1), (V' b R2); exact M|].
      apply has_iff in C. specialize (W n p0 I0 C). rewrite (value_is ps n p0 ND I0). split; intros m X; injection X as <-; lra.
    + destruct (f_expr p0) as [[a|a b]|]; [rewrite (V' a R0); exact M|destruct R0 as [R1 R2]; rewrite (V' a R1), (V' b R2); exact M|exact M].
Qed.
Print Assumptions C177_start.

(** a single centre gets no bounds, and other centres than the first may leave the window *)
Theorem C177_single ps w0 w1 sep : (forall a b p q, is_param ps a p -> is_param ps b q -> has "cen" a -> has "cen" b -> a = b) -> named_apart ps ->
  set_peak_center_bounds ps w0 w1 sep = Ok ps.
Proof.
  intros H ND. unfold set_peak_center_bounds. destruct (Nat.ltb_spec 1 (length (extract_parameters_by_name ps "cen"))) as [L|L]; [|reflexivity]. exfalso.
  pose proof (centres_nodup ps ND) as NT. assert (X : forall n, In n (extract_parameters_by_name ps "cen") -> is_centre ps n) by (intros n; apply extract_in).
  destruct (extract_parameters_by_name ps "cen") as [|a [|b r]]; cbn [List.length] in L; try lia. inversion NT as [|? ? N1 N2]; subst. apply N1.
  destruct (X a) as [Ca [p Hp]]; [now left|]. destruct (X b) as [Cb [q Hq]]; [right; now left|]. left. symmetry. eapply H; eauto.
Qed.
Print Assumptions C177_single.
Definition free (x : Q) : fprm := FP x true None None None.
Definition two_peaks : fparams := [("pk0_cen", free 2); ("pk0_fwhm", free 1); ("pk1_cen", free 1)].
Theorem C177_window_refuted :
  ~ (forall ps w0 w1 sep ps', named_apart ps -> 0 <= sep -> set_peak_center_bounds ps w0 w1 sep = Ok ps' ->
     forall v, admissible ps' v -> forall a p, is_param ps a p -> has "cen" a -> w0 <= v a <= w1).
Proof.
  intros H. set (v := fun n => if String.eqb n "pk1_cen" then 2 else if String.eqb n "pk0_cen" then 4 else if String.eqb n "pksep0" then 2 else 1).
  specialize (H two_peaks 0 3 (1 # 2) (chain (change two_peaks (containsb "cen") (with_bounds (Some (0 + (1 # 2))) (Some (3 - (1 # 2))))) 0 3 (1 # 2) "pk1_cen" 0 ["pk0_cen"])).
  assert (X : 0 <= v "pk0_cen" <= 3).
  { apply (H) with (p := free 2).
    - unfold named_apart, two_peaks. cbn [map fst]. repeat constructor; cbn [In]; intros Y; repeat (destruct Y as [Y|Y]; [discriminate Y|]); exact Y.
    - discriminate.
    - reflexivity.
    - intros n p Hp. cbn in Hp. repeat (destruct Hp as [Hp|Hp]; [injection Hp as <- <-; unfold v; cbn|]); try contradiction; try (split; intros m M; (discriminate M || (injection M as <-; unfold Qle, Qlt, Qminus, Qplus, Qopp; cbn; lia))).
    - left. reflexivity.
    - exists "pk0_", "". reflexivity. }
  unfold v in X. cbn in X. destruct X as [_ X]. unfold Qle in X. cbn in X. lia.
Qed.
Print Assumptions C177_window_refuted.

Example C177_separated_ex : exists ps', set_peak_center_bounds two_peaks 0 3 (1 # 2) = Ok ps' /\ named_apart two_peaks /\ admissible ps' (value_of ps').
Proof.
  eexists. split; [reflexivity|]. split.
  - unfold named_apart, two_peaks. cbn [map fst]. repeat constructor; cbn [In]; intros Y; repeat (destruct Y as [Y|Y]; [discriminate Y|]); exact Y.
  - intros n p Hp. cbn in Hp. repeat (destruct Hp as [Hp|Hp]; [injection Hp as <- <-; cbn|]); try contradiction; try (split; intros m M; (discriminate M || (injection M as <-; unfold Qle; cbn; lia))).
Qed.
Example C177_close_ex : set_peak_center_bounds two_peaks 0 3 1 = Err TypeError.
Proof. reflexivity. Qed.
Example C176_refine_ex : set_refinement_by_name two_peaks "cen" false = Ok [("pk0_cen", FP 2 false None None None); ("pk0_fwhm", free 1); ("pk1_cen", FP 1 false None None None)] /\
  set_refinement_by_name two_peaks "amp" false = Err RuntimeError.
Proof. split; reflexivity. Qed.
Example C176_equal_ex : set_equal two_peaks "cen" = Ok [("pk0_cen", free 2); ("pk0_fwhm", free 1); ("pk1_cen", FP 1 true None None (Some (ESame "pk0_cen")))].
Proof. reflexivity. Qed.
Example C176_bounds_ex : fget (set_bound_constraints two_peaks "cen" None None (Some 1) false) "pk0_cen" <> Some (free 2) /\
  fget (set_bound_constraints two_peaks "cen" None None (Some 1) false) "pk0_fwhm" = Some (free 1).
Proof. split; [discriminate|reflexivity]. Qed.
