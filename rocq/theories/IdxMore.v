From Coq Require Import Reals Lra Permutation Sorted.
From Verif Require Import Prelude Lin RotModel RotProofs2 XfModel UcModel IdxModel IdxSpec IdxProofs.
Local Open Scope R_scope.
Local Notation length := List.length.

Lemma Rltb_true : forall a b, Rltb a b = true <-> a < b. Proof. intros. unfold Rltb. destruct (Rlt_dec a b); split; try discriminate; try tauto; lra. Qed.
Lemma small_pos : 0 < / 10 ^ 8. Proof. apply Rinv_0_lt_compat. apply pow_lt. lra. Qed.
Lemma map_angle_id : forall a off, off <= a < off + 2 * PI -> map_angle a off = a.
Proof.
  intros a off H. destruct (map_angle_ok a off) as [B [k K]]. pose proof two_pi_pos. destruct (IZR_bounds k) as [Q|[Q|[Q|Q]]].
  - assert (IZR k <= -1) by (apply IZR_le; lia). assert (2 * PI * IZR k <= 2 * PI * -1) by (apply Rmult_le_compat_l; lra). lra.
  - subst k. lra.
  - subst k. lra.
  - assert (2 <= IZR k) by (apply IZR_le; lia). assert (2 * PI * 2 <= 2 * PI * IZR k) by (apply Rmult_le_compat_l; lra). lra.
Qed.
Lemma full_in : forall r a, 2 * PI <= snd r - fst r -> in_arc r a.
Proof. intros r a H. destruct (map_angle_ok a (fst r)) as [B [k K]]. exists k. rewrite <- K. lra. Qed.
Lemma full_spans : forall a off, find_in_range (map_angle a off) [off; 2 * PI + off] = Ok 1%Z.
Proof.
  intros a off. destruct (map_angle_ok a off) as [B _]. set (v := map_angle a off) in *. clearbody v.
  destruct (find_ok v [off; 2 * PI + off]) as [[E O]|(m & E & M & _)]; [intros i j H; cbn [length] in H; pose proof two_pi_pos; destruct i as [|[|i]], j as [|[|j]]; cbn [nth]; lra || lia|discriminate| |].
  - exfalso. destruct O as [O|O]; [specialize (O 0%nat ltac:(cbn; lia)); cbn [nth] in O; lra|specialize (O 1%nat ltac:(cbn; lia)); cbn [nth] in O; lra].
  - cbn [length] in M. assert (m = 1%nat) by lia. subst. exact E.
Qed.
Lemma rev_ravel : forall l p, rev (ravel (l ++ [p])) = snd p :: fst p :: rev (ravel l).
Proof. intros l p. rewrite ravel_app. change (ravel [p]) with [fst p; snd p]. rewrite rev_app_distr. reflexivity. Qed.
(** ** the range check *)
Lemma normalize_ok : forall ranges off spans, normalize_ranges ranges off false = Ok spans -> clear_cut ranges -> separate ranges ->
  forall a, exists m, find_in_range (map_angle a off) spans = Ok m /\ (Z.odd m = true <-> in_arcs ranges a).
Proof.
  intros ranges off spans N CC SE a. unfold normalize_ranges in N. cbv zeta iota in N.
  destruct (negb (forallb (fun r => Rltb (fst r) (snd r)) ranges)) eqn:E1; [discriminate|]. clear E1.
  destruct (existsb (fun r => Rltb (fst r + 2 * PI) (snd r + / 10 ^ 8)) ranges) eqn:E2.
  - apply existsb_exists in E2. destruct E2 as (r & I & L). apply Rltb_true in L. injection N as <-. exists 1%Z. split; [apply full_spans|]. split; [intros _|reflexivity]. exists r. split; [assumption|]. apply full_in. destruct (CC r I) as [_ [C|C]]; [assumption|lra].
  - assert (W : forall r, In r ranges -> fst r < snd r /\ snd r - fst r < 2 * PI).
    { intros r I. destruct (CC r I) as [A [C|C]]; split; try assumption; pose proof small_pos; [|lra]. exfalso.
      assert (X : existsb (fun r => Rltb (fst r + 2 * PI) (snd r + / 10 ^ 8)) ranges = true) by (apply existsb_exists; exists r; split; [assumption|]; apply Rltb_true; lra). rewrite X in E2. discriminate. }
    clear E2. fold (nrm off) in N. change (map (fun r => (map_angle (fst r) off, map_angle (snd r) off)) ranges) with (map (nrm off) ranges) in N.
    pose proof (sort_perm (map (nrm off) ranges)) as PM. pose proof (sort_sorted (map (nrm off) ranges)) as SO. set (so := sort_ranges (map (nrm off) ranges)) in *. clearbody so.
    assert (CA : Forall (canon off) so).
    { apply Forall_forall. intros p P. apply (Permutation_in _ (Permutation_sym PM)) in P. apply in_map_iff in P. destruct P as (r & <- & I). destruct (W r I) as [W1 W2]. destruct (map_angle_ok (fst r) off) as [B1 _]. destruct (map_angle_ok (snd r) off) as [B2 _]. split; [exact B1|]. split; [exact B2|]. destruct (map_angle_ok a off) as [V _]. exact (proj2 (arc_ok off r W1 W2 (map_angle a off) V)). }
    assert (AP : ForallOrdPairs (apart off) so).
    { apply (pairs_perm (apart off)) with (l := map (nrm off) ranges); [intros x y H v V [A B]; exact (H v V (conj B A))|exact PM|].
      refine (pairs_map (nrm off) _ (apart off) ranges _ SE). intros x y X Y H v V [A B]. destruct (W x X) as [X1 X2]. destruct (W y Y) as [Y1 Y2]. apply (H v). split.
      - exact (proj2 (proj1 (arc_ok off x X1 X2 v V)) A). - exact (proj2 (proj1 (arc_ok off y Y1 Y2 v V)) B). }
    destruct (list_eq_dec (fun p q : R * R => ltac:(decide equality; apply Req_EM_T)) so []) as [->|NE]; [discriminate N|].
    destruct (exists_last NE) as (l & p & E). subst so. rewrite rev_ravel in N. destruct (no_overlap (map (nrm off) ranges)) as [[]|]; cbn [rbind] in N; try discriminate.
    destruct (spans_ok off l p CA AP SO) as (pairs & NP & EP & AS & SP).
    assert (ES : spans = ravel pairs) by (rewrite <- EP; congruence). subst spans. destruct (map_angle_ok a off) as [V _].
    destruct (parity (map_angle a off) pairs AS NP) as (m & F & O). exists m. split; [exact F|]. rewrite O, (SP _ V). split.
    + intros (q & Q & A). apply (Permutation_in _ (Permutation_sym PM)) in Q. apply in_map_iff in Q. destruct Q as (r & <- & I). exists r. split; [assumption|]. destruct (W r I) as [W1 W2]. apply (proj2 (in_arc_map off r a)). exact (proj2 (proj1 (arc_ok off r W1 W2 _ V)) A).
    + intros (r & I & A). destruct (W r I) as [W1 W2]. exists (nrm off r). split; [apply (Permutation_in _ PM); now apply in_map|]. exact (proj1 (proj1 (arc_ok off r W1 W2 _ V)) (proj1 (in_arc_map off r a) A)).
Qed.
Lemma normalize_nonempty : forall ranges off spans, normalize_ranges ranges off false = Ok spans -> spans <> [].
Proof.
  intros ranges off spans N. unfold normalize_ranges in N. cbv zeta iota in N. destruct (negb _); [discriminate|]. destruct (existsb _ _); [injection N as <-; discriminate|].
  destruct (rev (ravel _)) as [|x [|y t]] eqn:E; [discriminate|discriminate|]. destruct (no_overlap _) as [[]|]; cbn [rbind] in N; try discriminate. injection N as <-. destruct (Rlt_dec x y); [discriminate|]. intros C. rewrite C in E. discriminate.
Qed.
Lemma forallb_lt : forall ranges : list (R * R), (forall r, In r ranges -> fst r < snd r) -> forallb (fun r => Rltb (fst r) (snd r)) ranges = true.
Proof. intros. apply forallb_forall. intros r I. apply Rltb_true. auto. Qed.
Lemma sort_length : forall l, length (sort_ranges l) = length l. Proof. intros. symmetry. apply Permutation_length. apply sort_perm. Qed.
Lemma ravel_two : forall l, l <> [] -> exists x y t, rev (ravel l) = x :: y :: t.
Proof. intros l NE. destruct (exists_last NE) as (l' & p & ->). rewrite rev_ravel. eauto. Qed.
Lemma normalize_shape : forall ranges off, (forall r, In r ranges -> fst r < snd r) -> ranges <> [] ->
  (exists spans, normalize_ranges ranges off false = Ok spans /\ exists r, In r ranges /\ 2 * PI - / 10 ^ 8 < snd r - fst r) \/
  ((forall r, In r ranges -> snd r - fst r <= 2 * PI - / 10 ^ 8) /\
   exists spans, normalize_ranges ranges off false = (do ok <- no_overlap (map (nrm off) ranges); if ok then Ok spans else Err ValueError)).
Proof.
  intros ranges off L NE. unfold normalize_ranges. cbv zeta iota. rewrite (forallb_lt ranges L). cbn [negb]. destruct (existsb _ ranges) eqn:E.
  - left. eexists. split; [reflexivity|]. apply existsb_exists in E. destruct E as (r & I & X). apply Rltb_true in X. exists r. split; [assumption|lra].
  - right. split.
    + intros r I. destruct (Rle_dec (snd r - fst r) (2 * PI - / 10 ^ 8)); [assumption|]. exfalso. assert (X : existsb (fun r => Rltb (fst r + 2 * PI) (snd r + / 10 ^ 8)) ranges = true) by (apply existsb_exists; exists r; split; [assumption|]; apply Rltb_true; lra). rewrite X in E. discriminate.
    + change (map (fun r => (map_angle (fst r) off, map_angle (snd r) off)) ranges) with (map (nrm off) ranges).
      destruct (ravel_two (sort_ranges (map (nrm off) ranges))) as (x & y & t & ET). { intros C. apply (f_equal (@length _)) in C. rewrite sort_length, map_length in C. destruct ranges; [now elim NE|discriminate]. }
      rewrite ET. eexists. reflexivity.
Qed.
Lemma one_or_two : forall ranges off, (length ranges = 1 \/ length ranges = 2)%nat -> (forall r, In r ranges -> fst r < snd r) -> exists spans, normalize_ranges ranges off false = Ok spans.
Proof.
  intros ranges off H L. destruct (normalize_shape ranges off L) as [(s & E & _)|(_ & s & E)]; [destruct ranges; [cbn in H; lia|discriminate]|eauto|]. exists s. rewrite E. destruct ranges as [|r [|q [|z t]]]; cbn [length] in H; try lia; reflexivity.
Qed.
Lemma four_ranges : forall ranges off, (4 <= length ranges)%nat -> (forall r, In r ranges -> fst r < snd r /\ snd r - fst r <= 2 * PI - / 10 ^ 8) -> normalize_ranges ranges off false = Err ValueError.
Proof.
  intros ranges off H L. destruct (normalize_shape ranges off) as [(s & E & r & I & X)|(_ & s & E)]; [intros r I; now apply L|destruct ranges; [cbn in H; lia|discriminate]|destruct (L r I); lra|]. rewrite E.
  destruct ranges as [|a [|b [|c [|d t]]]]; cbn [length] in H; try lia. unfold no_overlap. cbn [map skipn length Nat.sub firstn]. unfold all_greater.
  assert (NB : Nat.eqb (length (fst (nrm off b) :: fst (nrm off c) :: fst (nrm off d) :: map fst (map (nrm off) t))) (length (snd (nrm off a) :: snd (nrm off b) :: firstn (length (map (nrm off) t)) (snd (nrm off c) :: snd (nrm off d) :: map snd (map (nrm off) t)))) = false).
  { apply Nat.eqb_neq. cbn [length]. rewrite firstn_length. cbn [length]. rewrite !map_length. lia. }
  rewrite NB. reflexivity.
Qed.
(** ** windows *)
Lemma window_in : forall c d n k, In k (window c d n) <-> (k < n /\ c <= k + d /\ k <= c + d)%nat.
Proof. intros. unfold window. rewrite in_seq. lia. Qed.
Definition cells (rows cols : list nat) : list (nat * nat) := flat_map (fun i => map (fun j => (i, j)) cols) rows.
Lemma cells_in : forall rows cols i j, In (i, j) (cells rows cols) <-> In i rows /\ In j cols.
Proof.
  intros. unfold cells. rewrite in_flat_map. split.
  - intros (x & X & Y). apply in_map_iff in Y. destruct Y as (y & E & Y). injection E as -> ->. now split.
  - intros [A B]. exists i. split; [assumption|]. apply in_map_iff. exists j. now split.
Qed.
Definition bef (p q : nat * nat) : Prop := before (fst p) (snd p) (fst q) (snd q).
Lemma seq_sorted : forall n k, StronglySorted lt (seq k n).
Proof. induction n as [|n IH]; intros k; cbn [seq]; constructor; [apply IH|]. rewrite Forall_forall. intros x X. apply in_seq in X. lia. Qed.
Lemma sorted_app : forall {A} (P : A -> A -> Prop) l l', StronglySorted P l -> StronglySorted P l' -> (forall x y, In x l -> In y l' -> P x y) -> StronglySorted P (l ++ l').
Proof.
  intros A P l l' H. induction H as [|x l H IH F]; intros H' X; cbn [app]; [assumption|]. constructor; [apply IH; [assumption|intros; apply X; [now right|assumption]]|].
  rewrite Forall_forall in *. intros y Y. apply in_app_or in Y. destruct Y; [now apply F|apply X; [now left|assumption]].
Qed.
Lemma cells_sorted : forall rows cols, StronglySorted lt rows -> StronglySorted lt cols -> StronglySorted bef (cells rows cols).
Proof.
  intros rows cols R C. induction R as [|i rows R IH F]; [constructor|]. change (cells (i :: rows) cols) with (map (fun j => (i, j)) cols ++ cells rows cols)%list. apply sorted_app; [|assumption|].
  - clear - C. induction C as [|j cols C IH F]; [constructor|]. cbn [map]. constructor; [assumption|]. rewrite Forall_forall in *. intros x X. apply in_map_iff in X. destruct X as (y & <- & Y). right. split; [reflexivity|]. now apply F.
  - intros x [i' j'] X Y. apply in_map_iff in X. destruct X as (y & <- & _). apply cells_in in Y. destruct Y as [Y _]. rewrite Forall_forall in F. left. now apply F.
Qed.
Lemma greater_bright : forall v t, greater v t = true <-> bright t v.
Proof.
  intros [x|] [t|]; cbn [greater]; split; try discriminate.
  - intros H. apply Rltb_true in H. exists t, x. now repeat split. - intros (t' & x' & T & X & L). injection T as <-. injection X as <-. now apply Rltb_true.
  - intros (t' & x' & T & X & L). discriminate. - intros (t' & x' & T & X & L). discriminate. - intros (t' & x' & T & X & L). discriminate.
Qed.
Definition code (s : sight) : Z := match s with Hit => 1 | Miss => 0 | Unknown => -1 end%Z.
Definition shows_l (l : list (nat * nat)) (g : nat -> nat -> option R) (t : option R) (s : sight) : Prop := shows (fun i j => In (i, j) l) g t s.
Lemma scan_shows : forall t (g : nat -> nat -> option R) l, StronglySorted bef l -> exists s, scan (map (fun p => g (fst p) (snd p)) l) t = code s /\ shows_l l g t s.
Proof.
  intros t g l H. induction H as [|[i j] l H IH F]; [exists Miss; split; [reflexivity|intros i j []]|]. rewrite Forall_forall in F. cbn [map scan fst snd].
  assert (FI : forall x y, In (x, y) ((i, j) :: l) -> ~ before x y i j). { intros x y [X|X] B; [injection X as -> ->; unfold before in B; lia|]. specialize (F _ X). unfold bef, before in *. cbn [fst snd] in *. lia. }
  destruct (greater (g i j) t) eqn:G.
  - apply greater_bright in G. exists Hit. split; [reflexivity|]. exists i, j. split; [|assumption]. split; [now left|]. split; [now left|]. intros x y X B. now elim (FI x y X).
  - destruct (g i j) as [v|] eqn:V.
    + assert (NB : ~ (bright t (g i j) \/ g i j = None)). { rewrite V. intros [C|C]; [apply greater_bright in C; congruence|discriminate]. }
      destruct IH as (s & E & SH). exists s. split; [exact E|].
      assert (D : forall x y, decides (fun i j => In (i, j) l) g t x y -> decides (fun i0 j0 => In (i0, j0) ((i, j) :: l)) g t x y).
      { intros x y (A & B & C). split; [now right|]. split; [assumption|]. intros x' y' [X|X] BE; [injection X as -> ->; exact NB|now apply C]. }
      destruct s; cbn [shows_l shows] in *; unfold shows_l, shows in *.
      * destruct SH as (x & y & A & B). exists x, y. split; [now apply D|assumption].
      * intros x y [X|X]; [injection X as -> ->; split; [intros C; apply NB; now left|rewrite V; discriminate]|now apply SH].
      * destruct SH as (x & y & A & B). exists x, y. split; [now apply D|assumption].
    + exists Unknown. split; [reflexivity|]. exists i, j. split; [|assumption]. split; [now left|]. split; [now right|]. intros x y X B. now elim (FI x y X).
Qed.
Lemma flat_cells : forall (g : nat -> nat -> option R) rows cols, flat_map (fun i => map (g i) cols) rows = map (fun p => g (fst p) (snd p)) (cells rows cols).
Proof. intros g rows cols. unfold cells. induction rows as [|i rows IH]; [reflexivity|]. cbn [flat_map]. rewrite map_app, IH. f_equal. rewrite map_map. reflexivity. Qed.
Lemma before_total : forall i j i' j', before i j i' j' \/ before i' j' i j \/ (i = i' /\ j = j'). Proof. unfold before. lia. Qed.
Lemma shows_unique : forall near g t s s', shows near g t s -> shows near g t s' -> s = s'.
Proof.
  intros near g t s s' A B.
  assert (U : forall i j i' j', decides near g t i j -> decides near g t i' j' -> i = i' /\ j = j').
  { intros i j i' j' (N & K & F) (N' & K' & F'). destruct (before_total i j i' j') as [C|[C|C]]; [elim (F' i j N C K)|elim (F i' j' N' C K')|assumption]. }
  assert (BN : forall v, bright t v -> v = None -> False). { intros v (a & b & _ & E & _) E'. congruence. }
  destruct s, s'; try reflexivity; cbn [shows] in A, B; exfalso.
  - destruct A as (i & j & (N & _) & K). now destruct (B i j N).
  - destruct A as (i & j & D & K). destruct B as (i' & j' & D' & K'). destruct (U _ _ _ _ D D') as [-> ->]. exact (BN _ K K').
  - destruct B as (i & j & (N & _) & K). now destruct (A i j N).
  - destruct B as (i & j & (N & _) & K). now destruct (A i j N).
  - destruct A as (i & j & D & K). destruct B as (i' & j' & D' & K'). destruct (U _ _ _ _ D D') as [-> ->]. exact (BN _ K' K).
  - destruct A as (i & j & (N & _) & K). now destruct (B i j N).
Qed.
Lemma shows_ext : forall near near' g t s, (forall i j, near i j <-> near' i j) -> shows near g t s -> shows near' g t s.
Proof.
  intros near near' g t s H. assert (D : forall i j, decides near g t i j -> decides near' g t i j). { intros i j (A & B & C). split; [now apply H|]. split; [assumption|]. intros i' j' N. apply C. now apply H. }
  destruct s; cbn [shows]; [intros (i & j & A & B); exists i, j; split; [now apply D|assumption]|intros A i j N; apply A; now apply H|intros (i & j & A & B); exists i, j; split; [now apply D|assumption]].
Qed.
Lemma dilated_shows : forall e o de d m cols t, exists s, check_dilated e o de d m cols t = code s /\ shows (near o e d de (length m) cols) (map_at m) t s.
Proof.
  intros. unfold check_dilated. rewrite flat_cells. destruct (scan_shows t (map_at m) (cells (window o d (length m)) (window e de cols))) as (s & E & SH); [apply cells_sorted; apply seq_sorted|].
  exists s. split; [exact E|]. revert SH. apply shows_ext. intros i j. rewrite cells_in, !window_in. unfold near. lia.
Qed.
