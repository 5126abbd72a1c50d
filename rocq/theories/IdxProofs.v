From Coq Require Import Reals Lra Permutation Sorted.
From Verif Require Import Prelude RotModel RotProofs2 IdxModel IdxSpec.
Local Open Scope R_scope.
Local Notation length := List.length.

Lemma two_pi_pos : 0 < 2 * PI. Proof. pose proof PI_RGT_0. lra. Qed.
Lemma map_angle_ok : forall a off, off <= map_angle a off < off + 2 * PI /\ exists k : Z, map_angle a off = a + 2 * PI * IZR k.
Proof.
  intros a off. unfold map_angle. destruct (npmod_lemma (a - off) (2 * PI) two_pi_pos) as [B [k K]]. split; [lra|]. exists k. rewrite K. ring.
Qed.
(** ** bisection *)
Lemma bisect_ok : forall fuel v l li ri, ascending l -> (li <= ri <= length l)%nat -> (ri - li <= fuel)%nat ->
  (forall k, (k < li)%nat -> nth k l 0 <= v) -> (forall k, (ri <= k < length l)%nat -> v < nth k l 0) ->
  exists m, bisect fuel v l li ri = Ok m /\ (li <= m <= ri)%nat /\ (forall k, (k < m)%nat -> nth k l 0 <= v) /\ forall k, (m <= k < length l)%nat -> v < nth k l 0.
Proof.
  induction fuel as [|f IH]; intros v l li ri AS B F LO HI.
  - assert (li = ri) by lia. subst. exists ri. cbn [bisect]. rewrite Nat.ltb_irrefl. split; [reflexivity|]. split; [lia|]. split; assumption.
  - cbn [bisect]. destruct (li <? ri)%nat eqn:L.
    + apply Nat.ltb_lt in L. cbv zeta. set (mi := ((li + ri) / 2)%nat). assert (M : (li <= mi < ri)%nat) by (unfold mi; lia). clearbody mi. destruct (Rlt_dec v (nth mi l 0)) as [C|C].
      * destruct (IH v l li mi AS) as (m & E & R1 & R2); [lia|lia|assumption|intros k K; apply Rlt_le_trans with (nth mi l 0); [assumption|apply AS; lia]|]. exists m. split; [exact E|]. split; [lia|exact R2].
      * destruct (IH v l (S mi) ri AS) as (m & E & R1 & R2); [lia|lia|intros k K; apply Rle_trans with (nth mi l 0); [apply AS; lia|lra]|assumption|]. exists m. split; [exact E|]. split; [lia|exact R2].
    + apply Nat.ltb_ge in L. assert (li = ri) by lia. subst. exists ri. split; [reflexivity|]. split; [lia|]. split; assumption.
Qed.
Lemma last_nth : forall (l : list R) d, last l d = nth (length l - 1) l d.
Proof. induction l as [|x l IH]; intros d; [reflexivity|]. cbn [last length]. destruct l as [|y l]; [reflexivity|]. rewrite IH. cbn [length]. replace (S (S (length l)) - 1)%nat with (S (S (length l) - 1)) by lia. reflexivity. Qed.
Lemma find_ok : forall v l, ascending l -> l <> [] ->
  (find_in_range v l = Ok (-2)%Z /\ ((forall k, (k < length l)%nat -> v < nth k l 0) \/ forall k, (k < length l)%nat -> nth k l 0 <= v)) \/
  exists m, find_in_range v l = Ok (Z.of_nat m) /\ (1 <= m < length l)%nat /\ (forall k, (k < m)%nat -> nth k l 0 <= v) /\ forall k, (m <= k < length l)%nat -> v < nth k l 0.
Proof.
  intros v l AS NE. destruct l as [|x l]; [now elim NE|]. cbn [find_in_range]. set (L := x :: l) in *. assert (LE : length L = S (length l)) by reflexivity. destruct (Rlt_dec v x) as [C|C].
  - left. split; [reflexivity|]. left. intros k K. apply Rlt_le_trans with x; [assumption|]. apply (AS 0%nat k). lia.
  - destruct (Rle_dec (last L 0) v) as [D|D].
    + left. split; [reflexivity|]. right. intros k K. apply Rle_trans with (last L 0); [|assumption]. rewrite last_nth. apply AS. lia.
    + right. destruct (bisect_ok (length L) v L 0 (length L) AS) as (m & E & R1 & R2 & R3); [lia|lia|intros k K; lia|intros k K; lia|]. exists m. rewrite E. split; [reflexivity|]. split; [|split; assumption].
      rewrite last_nth in D. split.
      * destruct m; [|lia]. elim C. apply (R3 0%nat). lia.
      * destruct (Nat.lt_ge_cases m (length L)) as [Q|Q]; [assumption|]. elim D. apply R2. lia.
Qed.
Lemma bin_ok : forall v edges, ascending edges -> edges <> [] ->
  (exists i, bin v edges = Ok (Some i) /\ in_bin edges i v /\ forall j, in_bin edges j v -> j = i) \/ (bin v edges = Ok None /\ forall i, ~ in_bin edges i v).
Proof.
  intros v l AS NE. unfold bin. destruct (find_ok v l AS NE) as [[E O]|(m & E & M & LO & HI)]; rewrite E; cbn [rbind].
  - right. split; [reflexivity|]. intros i (L & A & B). destruct O as [O|O]; [specialize (O i ltac:(lia)); lra|specialize (O (S i) L); lra].
  - left. exists (m - 1)%nat. replace (Z.of_nat m - 1 <? 0)%Z with false by (symmetry; apply Z.ltb_ge; lia). replace (Z.to_nat (Z.of_nat m - 1)) with (m - 1)%nat by lia. split; [reflexivity|]. split.
    + split; [lia|]. replace (S (m - 1)) with m by lia. split; [apply LO; lia|apply HI; lia].
    + intros j (L & A & B). destruct (Nat.lt_ge_cases j m) as [Q|Q]; [|specialize (HI j ltac:(lia)); lra]. destruct (Nat.lt_ge_cases (S j) m) as [P|P]; [specialize (LO (S j) P); lra|lia].
Qed.
(** ** parity *)
Lemma ravel_length : forall l, length (ravel l) = (2 * length l)%nat.
Proof. induction l as [|p l IH]; [reflexivity|]. unfold ravel in *. cbn [flat_map app length]. rewrite IH. lia. Qed.
Lemma ravel_nth : forall l k, (k < length l)%nat -> nth (2 * k) (ravel l) 0 = fst (nth k l (0, 0)) /\ nth (2 * k + 1) (ravel l) 0 = snd (nth k l (0, 0)).
Proof.
  induction l as [|p l IH]; intros k K; [cbn in K; lia|]. destruct k as [|k]; [split; reflexivity|]. unfold ravel. cbn [flat_map app]. fold (ravel l). replace (2 * S k)%nat with (S (S (2 * k))) by lia. replace (S (S (2 * k)) + 1)%nat with (S (S (2 * k + 1))) by lia. cbn [nth]. apply IH. cbn in K. lia.
Qed.
Lemma parity : forall v l, ascending (ravel l) -> l <> [] -> exists m, find_in_range v (ravel l) = Ok m /\ (Z.odd m = true <-> exists p, In p l /\ fst p <= v < snd p).
Proof.
  intros v l AS NE. assert (NR : ravel l <> []) by (destruct l; [now elim NE|discriminate]).
  assert (IN : forall p, In p l -> exists k, (k < length l)%nat /\ nth (2 * k) (ravel l) 0 = fst p /\ nth (2 * k + 1) (ravel l) 0 = snd p).
  { intros p I. destruct (In_nth l p (0, 0) I) as (k & K & E). exists k. destruct (ravel_nth l k K) as [A B]. rewrite A, B, E. now repeat split. }
  destruct (find_ok v (ravel l) AS NR) as [[E O]|(m & E & M & LO & HI)].
  - exists (-2)%Z. split; [exact E|]. split; [discriminate|]. intros (p & I & A & B). destruct (IN p I) as (k & K & F & S1). rewrite ravel_length in O. destruct O as [O|O].
    + specialize (O (2 * k)%nat ltac:(lia)). lra. + specialize (O (2 * k + 1)%nat ltac:(lia)). lra.
  - exists (Z.of_nat m). split; [exact E|]. rewrite ravel_length in *. split.
    + intros OD. apply Z.odd_spec in OD. destruct OD as [q Q]. assert (Q2 : m = (2 * Z.to_nat q + 1)%nat) by lia. set (k := Z.to_nat q) in *. clearbody k. exists (nth k l (0, 0)). split; [apply nth_In; lia|]. destruct (ravel_nth l k ltac:(lia)) as [A B]. rewrite <- A, <- B. split; [apply LO; lia|apply HI; lia].
    + intros (p & I & A & B). destruct (IN p I) as (k & K & F & S1). assert (m = 2 * k + 1)%nat.
      { destruct (Nat.lt_ge_cases (2 * k) m) as [P|P]; [|specialize (HI (2 * k)%nat ltac:(lia)); lra]. destruct (Nat.lt_ge_cases (2 * k + 1) m) as [T|T]; [specialize (LO (2 * k + 1)%nat T); lra|lia]. }
      subst m. apply Z.odd_spec. exists (Z.of_nat k). lia.
Qed.
(** ** arcs *)
(** the arc between the normalised ends s and t *)
Definition arc (p : R * R) (v : R) : Prop := (fst p < snd p /\ fst p <= v < snd p) \/ (snd p < fst p /\ (fst p <= v \/ v < snd p)).
Definition nrm (off : R) (r : R * R) : R * R := (map_angle (fst r) off, map_angle (snd r) off).
Lemma IZR_bounds : forall k : Z, (k <= -1)%Z \/ k = 0%Z \/ k = 1%Z \/ (2 <= k)%Z. Proof. intros. lia. Qed.
Lemma arc_ok : forall off r, fst r < snd r -> snd r - fst r < 2 * PI -> forall v, off <= v < off + 2 * PI ->
  ((exists k : Z, fst r <= v + 2 * PI * IZR k < snd r) <-> arc (nrm off r) v) /\ fst (nrm off r) <> snd (nrm off r).
Proof.
  intros off [s t] H W v V. cbn [fst snd] in *. pose proof two_pi_pos as TP. destruct (map_angle_ok s off) as [S1 [m M]]. destruct (map_angle_ok t off) as [T1 [n N]].
  unfold arc, nrm. cbn [fst snd]. set (s' := map_angle s off) in *. set (t' := map_angle t off) in *. clearbody s' t'.
  assert (D : t' - s' = t - s \/ t' - s' = t - s - 2 * PI).
  { assert (E : t' - s' = t - s + 2 * PI * IZR (n - m)) by (rewrite minus_IZR; lra). destruct (IZR_bounds (n - m)) as [K|[K|[K|K]]].
    - right. destruct (Z.eq_dec (n - m) (-1)) as [K2|K2]; [rewrite K2 in E; lra|]. assert (Q : IZR (n - m) <= -2) by (apply IZR_le; lia). assert (2 * PI * IZR (n - m) <= 2 * PI * -2) by (apply Rmult_le_compat_l; lra). lra.
    - left. rewrite K in E. lra.
    - rewrite K in E. lra.
    - assert (Q : 2 <= IZR (n - m)) by (apply IZR_le; lia). assert (2 * PI * 2 <= 2 * PI * IZR (n - m)) by (apply Rmult_le_compat_l; lra). lra. }
  split; [|lra]. assert (SH : (exists k : Z, s <= v + 2 * PI * IZR k < t) <-> (exists k : Z, s' <= v + 2 * PI * IZR k < s' + (t - s))).
  { split; intros [k K]; [exists (k + m)%Z|exists (k - m)%Z]; [rewrite plus_IZR|rewrite minus_IZR]; lra. }
  rewrite SH. split.
  - intros [k K]. destruct (IZR_bounds k) as [Q|[Q|[Q|Q]]].
    + assert (IZR k <= -1) by (apply IZR_le; lia). assert (2 * PI * IZR k <= 2 * PI * -1) by (apply Rmult_le_compat_l; lra). lra.
    + subst k. destruct D; [left|right]; lra.
    + subst k. destruct D; [left|right]; lra.
    + assert (2 <= IZR k) by (apply IZR_le; lia). assert (2 * PI * 2 <= 2 * PI * IZR k) by (apply Rmult_le_compat_l; lra). lra.
  - intros [A|[A [B|B]]].
    + exists 0%Z. lra. + exists 0%Z. lra. + exists 1%Z. lra.
Qed.
Lemma in_arc_map : forall off r a, in_arc r a <-> exists k : Z, fst r <= map_angle a off + 2 * PI * IZR k < snd r.
Proof.
  intros off r a. destruct (map_angle_ok a off) as [_ [m M]]. split; intros [k K]; [exists (k - m)%Z|exists (k + m)%Z]; rewrite ?minus_IZR, ?plus_IZR; lra.
Qed.
(** ** sorting *)
Lemma insert_perm : forall p l, Permutation (p :: l) (insert_range p l).
Proof. intros p l. induction l as [|q l IH]; cbn [insert_range]; [apply Permutation_refl|]. destruct (Rle_dec (fst p) (fst q)); [apply Permutation_refl|]. eapply Permutation_trans; [apply perm_swap|]. now constructor. Qed.
Lemma sort_perm : forall l, Permutation l (sort_ranges l).
Proof. induction l as [|p l IH]; [constructor|]. unfold sort_ranges in *. cbn [fold_right]. eapply Permutation_trans; [apply perm_skip; exact IH|]. apply insert_perm. Qed.
Definition by_start (p q : R * R) : Prop := fst p <= fst q.
Lemma insert_sorted : forall p l, StronglySorted by_start l -> StronglySorted by_start (insert_range p l).
Proof.
  intros p l H. induction H as [|q l H IH F]; cbn [insert_range]; [repeat constructor|]. destruct (Rle_dec (fst p) (fst q)) as [C|C].
  - constructor; [constructor; assumption|]. constructor; [exact C|]. rewrite Forall_forall in *. intros x X. specialize (F x X). unfold by_start in *. lra.
  - constructor; [assumption|]. rewrite Forall_forall in *. intros x X. apply (Permutation_in x (Permutation_sym (insert_perm p l))) in X. destruct X as [<-|X]; [unfold by_start; lra|now apply F].
Qed.
Lemma sort_sorted : forall l, StronglySorted by_start (sort_ranges l).
Proof. induction l as [|p l IH]; [constructor|]. unfold sort_ranges in *. cbn [fold_right]. now apply insert_sorted. Qed.
Lemma pairs_perm : forall {A} (P : A -> A -> Prop), (forall x y, P x y -> P y x) -> forall l l', Permutation l l' -> ForallOrdPairs P l -> ForallOrdPairs P l'.
Proof.
  intros A P SY l l' H. induction H as [|x l l' H IH|x y l|l l' l'' H1 IH1 H2 IH2]; intros F.
  - constructor.
  - inversion F as [|? ? A1 A2]; subst. constructor; [|auto]. rewrite Forall_forall in *. intros z Z. apply A1. eapply Permutation_in; [apply Permutation_sym; exact H|exact Z].
  - inversion F as [|? ? A1 A2]; subst. inversion A2 as [|? ? B1 B2]; subst. inversion A1 as [|? ? C1 C2]; subst. constructor; [constructor; [now apply SY|assumption]|]. constructor; assumption.
  - auto.
Qed.
Lemma pairs_map : forall {A B} (f : A -> B) (P : A -> A -> Prop) (Q : B -> B -> Prop) l, (forall x y, In x l -> In y l -> P x y -> Q (f x) (f y)) -> ForallOrdPairs P l -> ForallOrdPairs Q (map f l).
Proof.
  intros A B f P Q l. induction l as [|x l IH]; intros H F; [constructor|]. inversion F as [|? ? A1 A2]; subst. cbn [map]. constructor.
  - rewrite Forall_forall in *. intros z Z. apply in_map_iff in Z. destruct Z as (y & <- & Y). apply H; [now left|now right|now apply A1].
  - apply IH; [intros; apply H; [now right|now right|assumption]|assumption].
Qed.
Definition apart (off : R) (p q : R * R) : Prop := forall v, off <= v < off + 2 * PI -> ~ (arc p v /\ arc q v).
(** ends in the canonical interval, and a proper arc *)
Definition canon (off : R) (p : R * R) : Prop := off <= fst p < off + 2 * PI /\ off <= snd p < off + 2 * PI /\ fst p <> snd p.
Lemma own_start : forall off p, canon off p -> arc p (fst p).
Proof. intros off p (A & B & C). unfold arc. destruct (Rlt_dec (fst p) (snd p)); [left; lra|right; lra]. Qed.
Lemma follows : forall off p q, canon off p -> canon off q -> apart off p q -> by_start p q -> fst p < snd p /\ snd p <= fst q.
Proof.
  intros off p q CP CQ AP BS. pose proof (own_start off q CQ) as OQ. destruct CP as (A & B & C). destruct CQ as (A' & B' & C'). unfold by_start in BS. specialize (AP (fst q) A'). destruct (Rlt_dec (fst p) (snd p)) as [L|L].
  - split; [assumption|]. destruct (Rle_dec (snd p) (fst q)); [assumption|]. elim AP. split; [left; lra|assumption].
  - elim AP. split; [right; lra|assumption].
Qed.
(** lists of pairs in ascending order *)
Fixpoint chain (lo : R) (l : list (R * R)) : Prop := match l with [] => True | p :: t => lo <= fst p /\ fst p <= snd p /\ chain (snd p) t end.
Lemma chain_weaken : forall l a b, a <= b -> chain b l -> chain a l. Proof. intros [|p l] a b H; cbn [chain]; [auto|]. intros (A & B). split; [lra|assumption]. Qed.
Lemma chain_bound : forall l lo x, chain lo l -> In x (ravel l) -> lo <= x.
Proof. induction l as [|p l IH]; intros lo x C I; [destruct I|]. cbn [chain] in C. destruct C as (A & B & C). unfold ravel in I. cbn [flat_map app] in I. fold (ravel l) in I. destruct I as [<-|[<-|I]]; [assumption|lra|]. specialize (IH (snd p) x C I). lra. Qed.
Lemma sorted_ascending : forall l, StronglySorted Rle l -> ascending l.
Proof.
  intros l H. induction H as [|x l H IH F]; intros i j B; [cbn in B; lia|]. destruct i as [|i], j as [|j]; cbn [nth]; try lra; try lia.
  - rewrite Forall_forall in F. apply F. apply nth_In. cbn in B. lia. - apply IH. cbn in B. lia.
Qed.
Lemma chain_sorted : forall l lo, chain lo l -> StronglySorted Rle (ravel l).
Proof.
  induction l as [|p l IH]; intros lo C; [constructor|]. cbn [chain] in C. destruct C as (A & B & C). unfold ravel. cbn [flat_map app]. fold (ravel l).
  constructor; [constructor; [exact (IH _ C)|]|]; rewrite Forall_forall.
  - intros x X. exact (chain_bound l _ x C X). - intros x [<-|X]; [assumption|]. pose proof (chain_bound l _ x C X). lra.
Qed.
Lemma chain_ascending : forall l lo, chain lo l -> ascending (ravel l). Proof. intros l lo C. apply sorted_ascending. now apply (chain_sorted l lo). Qed.
Lemma chain_app : forall l lo p, chain lo l -> (forall q, In q l -> snd q <= fst p) -> lo <= fst p -> fst p <= snd p -> chain lo (l ++ [p]).
Proof.
  induction l as [|q l IH]; intros lo p C H L P; cbn [app chain] in *; [now repeat split|]. destruct C as (A & B & C). split; [assumption|]. split; [assumption|]. apply IH; [assumption|intros x X; apply H; now right|apply H; now left|assumption].
Qed.
(** all but the last of separate sorted arcs are ordinary intervals, in ascending order *)
Lemma chain_init : forall off l p, Forall (canon off) (l ++ [p]) -> ForallOrdPairs (apart off) (l ++ [p]) -> StronglySorted by_start (l ++ [p]) ->
  chain off l /\ (forall q, In q l -> fst q < snd q /\ snd q <= fst p /\ apart off q p).
Proof.
  intros off l p CA AP SO. assert (G : forall lo, (forall q, In q l -> lo <= fst q) -> chain lo l /\ (forall q, In q l -> fst q < snd q /\ snd q <= fst p /\ apart off q p)).
  { induction l as [|q l IH]; intros lo LO; cbn [app] in *; [split; [exact I|intros ? []]|].
    inversion CA as [|? ? C1 C2]; subst. inversion AP as [|? ? A1 A2]; subst. inversion SO as [|? ? S1 S2]; subst. rewrite Forall_forall in *.
    assert (FO : forall x, In x (l ++ [p]) -> fst q < snd q /\ snd q <= fst x). { intros x X. apply (follows off); [assumption|now apply C2|now apply A1|now apply S2]. }
    destruct (FO p) as [P1 P2]; [apply in_or_app; right; now left|].
    destruct (IH C2 A2 S1 (snd q)) as [I1 I2]. { intros x X. apply FO. apply in_or_app. now left. }
    cbn [chain]. split; [split; [apply LO; now left|split; [lra|assumption]]|]. intros x [<-|X]; [|now apply I2]. split; [assumption|]. split; [assumption|]. apply A1. apply in_or_app. right. now left. }
  apply G. intros q Q. rewrite Forall_forall in CA. destruct (CA q) as (A & _); [apply in_or_app; now left|]. lra.
Qed.
Lemma ravel_app : forall a b, ravel (a ++ b) = (ravel a ++ ravel b)%list. Proof. intros. unfold ravel. apply flat_map_app. Qed.
(** the heart: the spans of separate arcs *)
Lemma spans_ok : forall off l p, Forall (canon off) (l ++ [p]) -> ForallOrdPairs (apart off) (l ++ [p]) -> StronglySorted by_start (l ++ [p]) ->
  exists pairs, pairs <> [] /\ (if Rlt_dec (snd p) (fst p) then off :: snd p :: (removelast (ravel (l ++ [p])) ++ [off + 2 * PI])%list else ravel (l ++ [p])) = ravel pairs /\ ascending (ravel pairs) /\
  forall v, off <= v < off + 2 * PI -> ((exists q, In q pairs /\ fst q <= v < snd q) <-> exists q, In q (l ++ [p]) /\ arc q v).
Proof.
  intros off l p CA AP SO. destruct (chain_init off l p CA AP SO) as [CH IN]. pose proof CA as CA'. rewrite Forall_forall in CA'. assert (CP : canon off p) by (apply CA'; apply in_or_app; right; now left). destruct CP as (P1 & P2 & P3).
  assert (ORD : forall q, In q l -> forall v, arc q v <-> fst q <= v < snd q). { intros q Q v. destruct (IN q Q) as [L _]. unfold arc. split; [intros [A|A]; lra|intros A; left; lra]. }
  destruct (Rlt_dec (snd p) (fst p)) as [W|W].
  - exists ((off, snd p) :: l ++ [(fst p, off + 2 * PI)])%list. split; [discriminate|]. split; [|split].
    + rewrite ravel_app. change (ravel [p]) with [fst p; snd p]. change (ravel ((off, snd p) :: l ++ [(fst p, off + 2 * PI)])%list) with (off :: snd p :: ravel (l ++ [(fst p, off + 2 * PI)]))%list. rewrite ravel_app. change (ravel [(fst p, off + 2 * PI)]) with [fst p; off + 2 * PI].
      rewrite removelast_app by discriminate. cbn [removelast]. now rewrite <- app_assoc.
    + apply (chain_ascending _ off). cbn [chain fst snd]. split; [lra|]. split; [lra|]. apply chain_app; cbn [fst snd]; [|intros q Q; now destruct (IN q Q) as (_ & L & _)|lra|lra].
      destruct l as [|q l]; [exact I|]. cbn [chain] in CH |- *. destruct CH as (A & B & C). split; [|now split]. destruct (IN q (or_introl eq_refl)) as (Q1 & Q2 & Q3). destruct (Rle_dec (snd p) (fst q)); [assumption|].
      assert (CQ : canon off q) by (apply CA'; now left). elim (Q3 (fst q)); [now destruct CQ|]. split; [now apply (own_start off)|]. right. lra.
    + intros v V. split.
      * intros (q & Q & R). destruct Q as [<-|Q]; [cbn [fst snd] in R; exists p; split; [apply in_or_app; right; now left|right; lra]|]. apply in_app_or in Q. destruct Q as [Q|[<-|[]]].
        -- exists q. split; [apply in_or_app; now left|]. now apply ORD. -- cbn [fst snd] in R. exists p. split; [apply in_or_app; right; now left|right; lra].
      * intros (q & Q & R). apply in_app_or in Q. destruct Q as [Q|[<-|[]]].
        -- exists q. split; [right; apply in_or_app; now left|]. now apply ORD.
        -- destruct R as [R|[_ [R|R]]]; [lra| |]. ++ exists (fst p, off + 2 * PI). split; [right; apply in_or_app; right; now left|cbn [fst snd]; lra]. ++ exists (off, snd p). split; [now left|cbn [fst snd]; lra].
  - exists (l ++ [p])%list. split; [destruct l; discriminate|]. split; [reflexivity|]. split.
    + apply (chain_ascending _ off). apply chain_app; [assumption|intros q Q; now destruct (IN q Q) as (_ & L & _)|lra|lra].
    + intros v V. split; intros (q & Q & R); exists q; (split; [assumption|]); apply in_app_or in Q; destruct Q as [Q|[<-|[]]]; try (now apply ORD).
      * unfold arc. left. lra. * unfold arc in R. lra.
Qed.
