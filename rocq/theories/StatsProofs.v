(** Lemmas for StatsProps. *)
From Verif Require Import Prelude StatsModel StatsSpec.
From Coq Require Import Sorting.Sorted.
Open Scope Z_scope.

Lemma zrange_cons a b : a < b -> zrange a b = a :: zrange (a + 1) b.
Proof.
  intros H. rewrite <- (zrange_app a (a + 1) b) by lia.
  unfold zrange at 1. replace (Z.to_nat (a + 1 - a)) with 1%nat by lia. cbn. f_equal. lia.
Qed.

Lemma cumsum_zrange (f g : Z -> Z) : (forall i, 0 <= i -> g (i + 1) = g i + f i) ->
  forall k s e, e - s = Z.of_nat k -> 0 <= s ->
  cumsum_from (g s) (map f (zrange s e)) = map (fun i => g (i + 1)) (zrange s e).
Proof.
  intros Hg. induction k as [|k IH]; intros s e He Hs.
  - rewrite zrange_nil by lia. reflexivity.
  - rewrite zrange_cons by lia. cbn. rewrite <- Hg by lia. f_equal. apply IH; lia.
Qed.

Definition stop_at (n k j : Z) : Z := (j + 1) * (n / k) + Z.min (j + 1) (n mod k) - 1.

Lemma chunk_stops_closed n k : 1 <= k <= n ->
  chunk_stops n k = Ok (map (stop_at n k) (zrange 0 k)).
Proof.
  intros H. unfold chunk_stops.
  destruct (Z.gtb_spec k n); [lia|]. destruct (Z.eqb_spec k 0); [lia|].
  destruct (Z.ltb_spec k 0); [lia|].
  set (f := fun i => n / k + (if i <? n mod k then 1 else 0)).
  assert (E : exists p0 ps, map f (zrange 0 k) = p0 :: ps).
  { rewrite zrange_cons by lia. cbn. eauto. }
  destruct E as (p0 & ps & E). rewrite E.
  assert (G : cumsum_from (-1) (map f (zrange 0 k)) = map (stop_at n k) (zrange 0 k)).
  { pose (g := fun i => i * (n / k) + Z.min i (n mod k) - 1).
    replace (-1) with (g 0) by (unfold g; pose proof (Z.mod_pos_bound n k); lia).
    rewrite (cumsum_zrange f g) with (k := Z.to_nat k); try lia; [reflexivity|].
    intros i Hi. unfold g, f. clear. revert i. generalize (n / k) (n mod k). intros q r i.
    destruct (Z.ltb_spec i r); lia. }
  rewrite E in G. rewrite <- G. cbn [cumsum_from].
  replace (0 + (p0 - 1)) with (-1 + p0) by lia. reflexivity.
Qed.

Lemma stop_at_lt n k i j : 1 <= k <= n -> 0 <= i < j -> stop_at n k i < stop_at n k j.
Proof.
  intros H Hij. unfold stop_at.
  assert (1 <= n / k) by (apply Z.div_le_lower_bound; lia).
  assert (Hm : Z.min (i + 1) (n mod k) <= Z.min (j + 1) (n mod k)) by lia. nia.
Qed.

Lemma stop_at_last n k : 1 <= k <= n -> stop_at n k (k - 1) = n - 1.
Proof. intros H. unfold stop_at. pose proof (Z.mod_pos_bound n k ltac:(lia)).
  pose proof (Z.div_mod n k ltac:(lia)).
  replace (k - 1 + 1) with k by lia. lia. Qed.

Lemma stop_at_first n k : 1 <= k <= n -> 0 <= stop_at n k 0.
Proof. intros H. unfold stop_at. assert (1 <= n / k) by (apply Z.div_le_lower_bound; lia).
  pose proof (Z.mod_pos_bound n k ltac:(lia)). lia. Qed.

Lemma map_last {A B} (f : A -> B) (l : list A) (d : A) (d' : B) :
  l <> [] -> last (map f l) d' = f (last l d).
Proof.
  induction l as [|x l IH]; [congruence|]. intros _. destruct l as [|y l]; [reflexivity|].
  cbn [map] in *. change (last (f x :: f y :: map f l) d') with (last (f y :: map f l) d').
  rewrite IH by discriminate. reflexivity.
Qed.

Lemma last_zrange a b d : a < b -> last (zrange a b) d = b - 1.
Proof.
  intros H. rewrite <- (zrange_app a (b - 1) b) by lia.
  rewrite (zrange_cons (b - 1) b), (zrange_nil (b - 1 + 1) b) by lia. apply last_last.
Qed.

Lemma zrange_sorted k : forall a b, b - a = Z.of_nat k -> StronglySorted Z.lt (zrange a b).
Proof.
  induction k as [|k IH]; intros a b H.
  - rewrite zrange_nil by lia. constructor.
  - rewrite zrange_cons by lia. constructor; [apply IH; lia|].
    apply Forall_forall. intros x Hx. apply in_zrange in Hx. lia.
Qed.

Lemma stops_sorted n k : 1 <= k <= n -> StronglySorted Z.lt (map (stop_at n k) (zrange 0 k)).
Proof.
  intros H.
  assert (G : forall m s, k - s = Z.of_nat m -> 0 <= s ->
     StronglySorted Z.lt (map (stop_at n k) (zrange s k))).
  { induction m as [|m IH]; intros s Hs Hs0.
    - rewrite zrange_nil by lia. constructor.
    - rewrite zrange_cons by lia. cbn. constructor; [apply IH; lia|].
      apply Forall_forall. intros x Hx. apply in_map_iff in Hx.
      destruct Hx as (i & <- & Hi). apply in_zrange in Hi. apply stop_at_lt; lia. }
  apply (G (Z.to_nat k)); lia.
Qed.

Lemma chunk_stops_correct n k : 1 <= k <= n ->
  exists stops, chunk_stops n k = Ok stops /\
    Z.of_nat (length stops) = k /\ StronglySorted Z.lt stops /\
    Forall (fun s => 0 <= s) stops /\ last stops 0 = n - 1.
Proof.
  intros H. exists (map (stop_at n k) (zrange 0 k)). repeat split.
  - apply chunk_stops_closed; auto.
  - rewrite map_length, zrange_length. lia.
  - apply stops_sorted; auto.
  - apply Forall_forall. intros x Hx. apply in_map_iff in Hx. destruct Hx as (i & <- & Hi).
    apply in_zrange in Hi. pose proof (stop_at_first n k H).
    destruct (Z.eq_dec i 0) as [->|]; auto. pose proof (stop_at_lt n k 0 i H). lia.
  - rewrite (map_last _ _ 0) by (rewrite zrange_cons by lia; discriminate).
    rewrite last_zrange by lia. apply stop_at_last; auto.
Qed.

Lemma chunk_sizes_map n k : forall m s, k - s = Z.of_nat m -> 0 <= s -> 1 <= k <= n ->
  chunk_sizes (s * (n / k) + Z.min s (n mod k) - 1) (map (stop_at n k) (zrange s k))
  = map (fun i => n / k + if i <? n mod k then 1 else 0) (zrange s k).
Proof.
  induction m as [|m IH]; intros s Hs Hs0 H.
  - rewrite zrange_nil by lia. reflexivity.
  - rewrite zrange_cons by lia. cbn [map chunk_sizes]. f_equal.
    + unfold stop_at. clear. generalize (n / k) (n mod k). intros q r.
      destruct (Z.ltb_spec s r); lia.
    + unfold stop_at at 1. apply IH; lia.
Qed.

Lemma chunk_sizes_even n k stops : 1 <= k <= n -> chunk_stops n k = Ok stops ->
  Forall (fun c => n / k <= c <= n / k + 1) (chunk_sizes (-1) stops).
Proof.
  intros H E. rewrite chunk_stops_closed in E by auto. injection E as <-.
  pose proof (Z.mod_pos_bound n k ltac:(lia)).
  replace (-1) with (0 * (n / k) + Z.min 0 (n mod k) - 1) by lia.
  rewrite chunk_sizes_map with (m := Z.to_nat k) by lia.
  apply Forall_forall. intros x Hx. apply in_map_iff in Hx. destruct Hx as (i & <- & _).
  destruct (i <? n mod k); lia.
Qed.

Lemma sorted_le_last : forall tl stop s, StronglySorted Z.lt (stop :: tl) -> In s (stop :: tl) ->
  s <= last (stop :: tl) 0.
Proof.
  induction tl as [|y t IH]; intros stop s S Hs.
  - destruct Hs as [->|[]]; cbn; lia.
  - change (s <= last (y :: t) 0). inversion S as [|? ? S' Hf]; subst.
    destruct Hs as [->|Hs]; [|apply IH; auto].
    pose proof (IH y y S' (or_introl eq_refl)). inversion Hf; subst; lia.
Qed.

(** ** the frame loop *)
Section IterLoopProofs.
  Context {A B C : Type}.
  Variables (init : A -> B) (op : B -> A -> B) (out : nat -> B -> C) (out0 : B -> C).

  Definition after (img : B) (frames : list A) (m : nat) : B := fold_left op (firstn m frames) img.

  Lemma iter_loop_spec : forall frames i nf stops s0 stop tl img,
    skipn s0 stops = stop :: tl -> StronglySorted Z.lt (stop :: tl) ->
    Z.of_nat i <= stop -> last (stop :: tl) 0 = Z.of_nat nf - 1 ->
    (length frames = nf - i)%nat -> (i < nf)%nat ->
    iter_loop op out i nf stops s0 stop img frames
    = (map (fun s => out (Z.to_nat s) (after img frames (Z.to_nat s + 1 - i))) (stop :: tl), None).
  Proof using op out.
    clear init out0.
    induction frames as [|f rest IH]; intros i nf stops s0 stop tl img Hsk Hso Hst Hla Hle Hi.
    - cbn in Hle. lia.
    - cbn [iter_loop]. cbn [length] in Hle.
      assert (Hnext : nth_error stops (S s0) = nth_error tl 0).
      { assert (G : forall (l : list Z) k, nth_error l (S k) = nth_error (skipn (S k) l) 0).
        { clear. induction l as [|x l IH]; intros k; [reflexivity|]. cbn.
          destruct k; [reflexivity|]. rewrite IH. reflexivity. }
        rewrite G. f_equal.
        assert (G2 : forall (l : list Z) k x t, skipn k l = x :: t -> skipn (S k) l = t).
        { clear. induction l as [|y l IH]; intros [|k] x t E; cbn in *; try discriminate.
          - congruence.
          - apply (IH k x t E). }
        apply (G2 _ _ stop tl Hsk). }
      destruct (Z.leb_spec stop (Z.of_nat i)) as [Hle1|Hlt1].
      + assert (stop = Z.of_nat i) by lia. subst stop.
        destruct (Nat.ltb_spec (i + 1) nf) as [H1|H1].
        * rewrite Hnext. destruct tl as [|stop' tl']; [cbn in Hla; lia|]. cbn [nth_error].
          assert (Hs2 : skipn (S s0) stops = stop' :: tl').
          { clear -Hsk. revert s0 Hsk. induction stops as [|y l IH]; intros [|k] E; cbn in *; try discriminate.
            - congruence.
            - apply IH in E. exact E. }
          inversion Hso as [|? ? Hso' Hf]; subst. inversion Hf; subst.
          rewrite (IH (i + 1)%nat nf stops (S s0) stop' tl' (op img f) Hs2 Hso'); try lia.
          -- cbn [map]. f_equal. f_equal.
             ++ unfold after. f_equal; [lia|].
                replace (Z.to_nat (Z.of_nat i) + 1 - i)%nat with 1%nat by lia. reflexivity.
             ++ assert (Hgt : forall s, In s (stop' :: tl') -> Z.of_nat i < s).
                { rewrite Forall_forall in Hf. exact Hf. }
                change (out (Z.to_nat stop') (after (op img f) rest (Z.to_nat stop' + 1 - (i + 1)))
                   :: map (fun s => out (Z.to_nat s) (after (op img f) rest (Z.to_nat s + 1 - (i + 1)))) tl')
                with (map (fun s => out (Z.to_nat s) (after (op img f) rest (Z.to_nat s + 1 - (i + 1)))) (stop' :: tl')).
                change (out (Z.to_nat stop') (after img (f :: rest) (Z.to_nat stop' + 1 - i))
                   :: map (fun s => out (Z.to_nat s) (after img (f :: rest) (Z.to_nat s + 1 - i))) tl')
                with (map (fun s => out (Z.to_nat s) (after img (f :: rest) (Z.to_nat s + 1 - i))) (stop' :: tl')).
                apply map_ext_in. intros s Hs. apply Hgt in Hs. f_equal. unfold after.
                replace (Z.to_nat s + 1 - i)%nat with (S (Z.to_nat s + 1 - (i + 1))) by lia. reflexivity.
          -- exact Hla.
        * assert (rest = []) by (destruct rest; [reflexivity|cbn in Hle; lia]). subst rest.
          cbn [iter_loop]. assert (tl = []).
          { destruct tl as [|s' tl']; [reflexivity|]. exfalso.
            inversion Hso as [|? ? Hso' Hf]; subst. rewrite Forall_forall in Hf.
            assert (Hin : In (last (s' :: tl') 0) (s' :: tl')).
            { clear. revert s'. induction tl' as [|y t IH]; intros s'; [left; reflexivity|].
              right. apply IH. }
            apply Hf in Hin. change (last (Z.of_nat i :: s' :: tl') 0) with (last (s' :: tl') 0) in Hla. lia. }
          subst tl. cbn [map]. f_equal. f_equal. unfold after.
          replace (Z.to_nat (Z.of_nat i) + 1 - i)%nat with 1%nat by lia. cbn. f_equal. lia.
      + assert (Hin : Z.of_nat i < Z.of_nat nf - 1).
        { rewrite <- Hla. clear -Hlt1 Hso. revert stop Hlt1 Hso.
          induction tl as [|y t IH]; intros stop Hlt Hso; [exact Hlt|].
          change (Z.of_nat i < last (y :: t) 0). apply IH; inversion Hso as [|? ? Hs Hf]; subst; auto.
          inversion Hf; subst; lia. }
        rewrite (IH (i + 1)%nat nf stops s0 stop tl (op img f) Hsk Hso); try lia.
        f_equal. apply map_ext_in. intros s Hs.
        assert (stop <= s).
        { destruct Hs as [->|Hs]; [lia|]. inversion Hso as [|? ? Hs2 Hf]; subst.
          rewrite Forall_forall in Hf. apply Hf in Hs. lia. }
        f_equal. unfold after. replace (Z.to_nat s + 1 - i)%nat with (S (Z.to_nat s + 1 - (i + 1))) by lia.
        reflexivity.
  Qed.

  (** What each chunk must contain: the accumulation of frames 0..s. *)
  Definition chunk_image (f0 : A) (rest : list A) (s : Z) : C :=
    if s =? 0 then out0 (init f0)
    else out (Z.to_nat s) (fold_left op (firstn (Z.to_nat s) rest) (init f0)).

  Lemma stat_iter_spec f0 rest nchunk nframes :
    let nf := Z.of_nat (nframes_used (length (f0 :: rest)) nframes) in
    1 <= nchunk <= nf ->
    exists stops, chunk_stops nf nchunk = Ok stops /\
      stat_iter init op out out0 (f0 :: rest) nchunk nframes
      = (map (chunk_image f0 rest) stops, None).
  Proof.
    cbn zeta. intros H. set (nf := nframes_used (length (f0 :: rest)) nframes) in *.
    destruct (chunk_stops_correct (Z.of_nat nf) nchunk H) as (stops & E & L & S & F & La).
    exists stops. split; [exact E|]. unfold stat_iter. fold nf. rewrite E.
    assert (Hnf : (nf - 1 <= length rest)%nat).
    { unfold nf, nframes_used. cbn [length]. destruct (0 <? nframes); lia. }
    destruct stops as [|stop tl]; [cbn in L; lia|].
    assert (Hlen : length (firstn (nf - 1) rest) = (nf - 1)%nat) by (rewrite firstn_length; lia).
    assert (Hin : forall s, In s (stop :: tl) -> 0 <= s <= Z.of_nat nf - 1).
    { intros s Hs. split; [rewrite Forall_forall in F; apply F; auto|].
      rewrite <- La. apply sorted_le_last; auto. }
    assert (Hmap : forall l, (forall s, In s l -> 1 <= s <= Z.of_nat nf - 1) ->
       map (fun s => out (Z.to_nat s) (after (init f0) (firstn (nf - 1) rest) (Z.to_nat s + 1 - 1))) l
       = map (chunk_image f0 rest) l).
    { intros l Hl. apply map_ext_in. intros s Hs. apply Hl in Hs. unfold chunk_image.
      destruct (Z.eqb_spec s 0); [lia|]. f_equal. unfold after. rewrite firstn_firstn.
      do 2 f_equal. lia. }
    destruct (Z.eqb_spec stop 0) as [E0|NE0].
    - subst stop. destruct (Nat.ltb_spec 1 nf) as [H1|H1].
      + destruct tl as [|stop' tl']; [cbn in La; lia|]. cbn [nth_error].
        inversion S as [|? ? S' Hf]; subst. inversion Hf; subst.
        rewrite (iter_loop_spec _ 1 nf (0 :: stop' :: tl') 1 stop' tl'); auto; try lia.
        rewrite Hmap.
        * cbn [map]. unfold chunk_image at 3. reflexivity.
        * intros s Hs. rewrite Forall_forall in Hf. pose proof (Hf s Hs).
          pose proof (Hin s (or_intror Hs)). lia.
      + assert (Hr : firstn (nf - 1) rest = []) by (replace (nf - 1)%nat with 0%nat by lia; reflexivity).
        rewrite Hr. cbn [iter_loop].
        assert (tl = []).
        { destruct tl as [|y t]; [reflexivity|]. exfalso. inversion S as [|? ? S' Hf]; subst.
          inversion Hf; subst. pose proof (Hin y (or_intror (or_introl eq_refl))). lia. }
        subst tl. reflexivity.
    - assert (Hpos : 0 <= stop <= Z.of_nat nf - 1) by (apply Hin; left; auto).
      rewrite (iter_loop_spec _ 1 nf (stop :: tl) 0 stop tl); auto; try lia.
      rewrite Hmap; [reflexivity|]. intros s Hs. pose proof (Hin s Hs).
      destruct Hs as [->|Hs]; [lia|]. inversion S as [|? ? S' Hf]; subst.
      rewrite Forall_forall in Hf. apply Hf in Hs. lia.
  Qed.

  (** exactly [nchunk] images, the last one the full accumulation *)
  Lemma stat_iter_last ims nchunk nframes d : 
    (forall b, out0 b = out 0%nat b) ->
    let nf := nframes_used (length ims) nframes in
    1 <= nchunk <= Z.of_nat nf ->
    exists img ys, stat_once init op ims nframes = Ok img /\
      stat_iter init op out out0 ims nchunk nframes = (ys, None) /\
      Z.of_nat (length ys) = nchunk /\ last ys d = out (nf - 1)%nat img.
  Proof.
    cbn zeta. intros Ho H. destruct ims as [|f0 rest].
    { exfalso. unfold nframes_used in H. cbn in H. destruct (0 <? nframes); lia. }
    set (nf := nframes_used (length (f0 :: rest)) nframes) in *.
    destruct (stat_iter_spec f0 rest nchunk nframes H) as (stops & E & Ey). fold nf in E.
    exists (fold_left op (firstn (nf - 1) rest) (init f0)), (map (chunk_image f0 rest) stops).
    destruct (chunk_stops_correct (Z.of_nat nf) nchunk H) as (stops' & E' & L & S & F & La).
    rewrite E in E'. injection E' as <-.
    repeat split; auto.
    - rewrite map_length. exact L.
    - rewrite (map_last _ _ 0) by (destruct stops; [cbn in L; lia|discriminate]).
      rewrite La. unfold chunk_image. destruct (Z.eqb_spec (Z.of_nat nf - 1) 0) as [E0|NE0].
      + rewrite Ho. replace (nf - 1)%nat with 0%nat by lia. reflexivity.
      + f_equal; [lia|]. do 2 f_equal. lia.
  Qed.
End IterLoopProofs.

(** ** row-chunked percentile *)
Section PercentileProofs.
  Context {row orow : Type}.
  Variable prow : list row -> orow.
  Variable zero : orow.

  Definition column (fs : list (list row)) (r : nat) : list row :=
    flat_map (fun f => match nth_error f r with Some x => [x] | None => [] end) fs.

  Lemma nth_error_slice (f : list row) r0 r1 r : (r < r1 - r0)%nat ->
    nth_error (slice r0 r1 f) r = nth_error f (r0 + r).
  Proof.
    intros H. unfold slice.
    assert (G : forall (l : list row) m k, (k < m)%nat -> nth_error (firstn m l) k = nth_error l k).
    { clear. induction l as [|x l IH]; intros m k H; destruct m; cbn; try lia; destruct k; auto.
      cbn. apply IH. lia. }
    rewrite G by auto. clear. revert f. induction r0 as [|r0 IH]; intros f; [reflexivity|].
    destruct f as [|x f]; cbn; [destruct r; reflexivity|apply IH].
  Qed.

  Lemma column_slice fs r0 r1 r : (r < r1 - r0)%nat ->
    column (map (slice r0 r1) fs) r = column fs (r0 + r).
  Proof.
    intros H. induction fs as [|f fs IH]; [reflexivity|]. cbn [map column flat_map].
    rewrite nth_error_slice by auto. unfold column in IH. rewrite IH. reflexivity.
  Qed.

  Lemma percentile_rows_slice fs r0 r1 :
    percentile_rows prow (map (slice r0 r1) fs) (r1 - r0)
    = map (fun r => prow (column fs r)) (seq r0 (r1 - r0)).
  Proof.
    unfold percentile_rows. fold (column (map (slice r0 r1) fs)).
    assert (G : forall m, (m <= r1 - r0)%nat -> forall s,
       (s + m <= r1 - r0)%nat ->
       map (fun r => prow (column (map (slice r0 r1) fs) r)) (seq s m)
       = map (fun r => prow (column fs r)) (seq (r0 + s) m)).
    { induction m as [|m IH]; intros Hm s Hs; [reflexivity|]. cbn [seq map].
      rewrite column_slice by lia. f_equal. rewrite IH by lia.
      replace (r0 + S s)%nat with (S (r0 + s)) by lia. reflexivity. }
    rewrite G by lia. rewrite Nat.add_0_r. reflexivity.
  Qed.

  Definition good_buffer (ims : list (list row)) (nf r0 : nat) (buffer : option (list (list row))) : Prop :=
    match buffer with
    | None => True
    | Some b => (length b <= nf)%nat /\ (r0 = 0%nat \/ b = firstn (length b) ims)
    end.

  Lemma toarray_spec ims nf r0 r1 buffer : (nf <= length ims)%nat -> (r0 < r1)%nat ->
    good_buffer ims nf r0 buffer ->
    fst (toarray ims nf r0 r1 buffer) = map (slice r0 r1) (firstn nf ims) /\
    good_buffer ims nf r1 (snd (toarray ims nf r0 r1 buffer)).
  Proof.
    intros Hnf Hr Hb. unfold toarray. destruct buffer as [b|]; cbn in *; [|auto].
    destruct Hb as (Hl & Hb).
    assert (E : (if Nat.eqb r0 0 then firstn (length b) ims else b) = firstn (length b) ims).
    { destruct (Nat.eqb_spec r0 0); [reflexivity|]. destruct Hb; [lia|auto]. }
    rewrite E. split.
    - rewrite <- map_app. f_equal.
      rewrite <- (firstn_skipn (length b) (firstn nf ims)) at 2. f_equal.
      rewrite firstn_firstn. f_equal. lia.
    - rewrite firstn_length_le by lia. split; auto.
  Qed.

  Definition partial_image (fs : list (list row)) (nr r : nat) : list orow :=
    map (fun i => prow (column fs i)) (seq 0 r) ++ repeat zero (nr - r).

  Lemma percentile_loop_spec ims nf nr : (nf <= length ims)%nat ->
    forall stops r0 buffer, good_buffer ims nf r0 buffer -> (r0 <= nr)%nat ->
      StronglySorted Z.lt stops -> Forall (fun s => Z.of_nat r0 <= s < Z.of_nat nr) stops ->
      percentile_loop prow ims nf r0 stops (partial_image (firstn nf ims) nr r0) buffer
      = map (fun s => partial_image (firstn nf ims) nr (Z.to_nat (s + 1))) stops.
  Proof.
    intros Hnf. induction stops as [|s rest IH]; intros r0 buffer Hb Hr Hso Hf; [reflexivity|].
    inversion Hf as [|? ? Hs Hf']; subst. inversion Hso as [|? ? Hso' Hlt]; subst.
    cbn [percentile_loop map].
    destruct (toarray ims nf r0 (Z.to_nat (s + 1)) buffer) as [a buffer'] eqn:E.
    pose proof (toarray_spec ims nf r0 (Z.to_nat (s + 1)) buffer Hnf ltac:(lia) Hb) as [Ha Hb'].
    rewrite E in Ha, Hb'. cbn [fst snd] in Ha, Hb'. subst a. rewrite percentile_rows_slice.
    set (fs := firstn nf ims) in *. set (r1 := Z.to_nat (s + 1)) in *.
    assert (Ei : firstn r0 (partial_image fs nr r0) ++
       map (fun r => prow (column fs r)) (seq r0 (r1 - r0)) ++ skipn r1 (partial_image fs nr r0)
       = partial_image fs nr r1).
    { unfold partial_image.
      assert (L : length (map (fun i => prow (column fs i)) (seq 0 r0)) = r0)
        by (rewrite map_length, seq_length; reflexivity).
      rewrite firstn_app, L, Nat.sub_diag, firstn_O, app_nil_r.
      rewrite firstn_all2 by lia. rewrite skipn_app, L, skipn_all2 by lia. cbn [app].
      rewrite app_assoc, <- map_app, <- seq_app.
      replace (r0 + (r1 - r0))%nat with r1 by lia. f_equal.
      assert (G : forall k m, skipn k (repeat zero m) = repeat zero (m - k)).
      { clear. induction k as [|k IH]; intros m; [rewrite Nat.sub_0_r; reflexivity|].
        destruct m; [reflexivity|]. cbn. apply IH. }
      rewrite G. f_equal. lia. }
    rewrite Ei. f_equal. apply IH; auto; try lia.
    rewrite Forall_forall in *. intros x Hx. specialize (Hlt x Hx). specialize (Hf' x Hx). lia.
  Qed.

  Lemma percentile_once_eq ims nr nf :
    percentile_once prow ims nr nf = partial_image (firstn nf ims) nr nr.
  Proof.
    unfold percentile_once, partial_image. rewrite Nat.sub_diag. cbn [repeat]. rewrite app_nil_r.
    pose proof (percentile_rows_slice (firstn nf ims) 0 nr) as H. rewrite Nat.sub_0_r in H. exact H.
  Qed.

  Lemma percentile_iter_spec ims nr nchunks nframes buf0 :
    let nf := nframes_used (length ims) nframes in
    1 <= nchunks <= Z.of_nat nr ->
    match buf0 with None => True | Some b => (length b <= nf)%nat end ->
    exists ys, percentile_iter prow zero ims nr nchunks nframes buf0 = Ok ys /\
      Z.of_nat (length ys) = nchunks /\ last ys [] = percentile_once prow ims nr nf.
  Proof.
    cbn zeta. intros H Hb. set (nf := nframes_used (length ims) nframes) in *.
    destruct (chunk_stops_correct (Z.of_nat nr) nchunks H) as (stops & E & L & S & F & La).
    unfold percentile_iter. rewrite E. fold nf.
    assert (Hnf : (nf <= length ims)%nat) by (unfold nf, nframes_used; destruct (0 <? nframes); lia).
    change (repeat zero nr) with ([] ++ repeat zero nr).
    replace ([] ++ repeat zero nr) with (partial_image (firstn nf ims) nr 0)
      by (unfold partial_image; rewrite Nat.sub_0_r; reflexivity).
    eexists. split; [reflexivity|].
    destruct stops as [|s0 tl]; [cbn in L; lia|].
    rewrite percentile_loop_spec; auto; try lia.
    - split; [rewrite map_length; exact L|].
      rewrite (map_last _ _ 0) by discriminate. rewrite La, percentile_once_eq. f_equal. lia.
    - destruct buf0; cbn; auto.
    - rewrite Forall_forall in *. intros x Hx. split; [apply F; auto|].
      pose proof (sorted_le_last tl s0 x S Hx). lia.
  Qed.
End PercentileProofs.

(** ** aliasing *)
Section HeapProofs.
  Context {A B : Type}.
  Variables (init : A -> B) (op : B -> A -> B) (fresh : nat -> B -> B).

  Lemma heap_loop_spec : forall frames i nf stops s0 stop img htl ys hf,
    heap_loop op fresh i nf stops s0 stop (img :: htl) frames = (ys, hf) ->
    (forall l v, nth_error htl l = Some v -> nth_error hf (S l) = Some v) /\
    (forall y, In y ys -> (1 <= y_loc y)%nat /\ nth_error hf (y_loc y) = Some (y_val y)) /\
    map (@y_val B) ys = fst (iter_loop op fresh i nf stops s0 stop img frames).
  Proof.
    induction frames as [|f rest IH]; intros i nf stops s0 stop img htl ys hf E.
    - cbn in E. injection E as <- <-. cbn. repeat split; auto; contradiction.
    - cbn [heap_loop iter_loop] in *. cbn [app length] in E.
      set (v := fresh i (op img f)) in *.
      assert (Hstep : forall nf' s0' stop' ys' hf',
        heap_loop op fresh (i + 1) nf' stops s0' stop' (op img f :: htl ++ [v]) rest = (ys', hf') ->
        (forall l w, nth_error htl l = Some w -> nth_error hf' (S l) = Some w) /\
        (nth_error hf' (S (length htl)) = Some v) /\
        (forall y, In y ys' -> (1 <= y_loc y)%nat /\ nth_error hf' (y_loc y) = Some (y_val y)) /\
        map (@y_val B) ys' = fst (iter_loop op fresh (i + 1) nf' stops s0' stop' (op img f) rest)).
      { intros nf' s0' stop' ys' hf' E'. destruct (IH _ _ _ _ _ _ _ _ _ E') as (H1 & H2 & H3).
        repeat split; auto.
        - intros l w Hl. apply H1. rewrite nth_error_app1; auto. apply nth_error_Some. congruence.
        - apply H1. rewrite nth_error_app2, Nat.sub_diag by lia. reflexivity.
        - apply H2; auto.
        - apply H2; auto. }
      destruct (stop <=? Z.of_nat i).
      + destruct (Nat.ltb (i + 1) nf).
        * destruct (nth_error stops (S s0)) as [stop'|].
          -- destruct (heap_loop op fresh (i + 1) nf stops (S s0) stop' (op img f :: htl ++ [v]) rest) as [ys' hf'] eqn:E'.
             injection E as <- <-. destruct (Hstep _ _ _ _ _ E') as (H1 & H2 & H3 & H4).
             split; [exact H1|]. split.
             ++ intros y [<-|Hy]; [cbn; split; [lia|exact H2]|auto].
             ++ cbn. rewrite H4. destruct (iter_loop _ _ _ _ _ _ _ _ _); reflexivity.
          -- injection E as <- <-. split; [|split].
             ++ intros l w Hl. cbn. rewrite nth_error_app1; auto. apply nth_error_Some. congruence.
             ++ intros y [<-|[]]. cbn. split; [lia|]. rewrite nth_error_app2, Nat.sub_diag by lia. reflexivity.
             ++ reflexivity.
        * destruct (heap_loop op fresh (i + 1) nf stops s0 stop (op img f :: htl ++ [v]) rest) as [ys' hf'] eqn:E'.
          injection E as <- <-. destruct (Hstep _ _ _ _ _ E') as (H1 & H2 & H3 & H4).
          split; [exact H1|]. split.
          -- intros y [<-|Hy]; [cbn; split; [lia|exact H2]|auto].
          -- cbn. rewrite H4. destruct (iter_loop _ _ _ _ _ _ _ _ _); reflexivity.
      + destruct (IH _ _ _ _ _ _ _ _ _ E) as (H1 & H2 & H3). auto.
  Qed.

  (** the accumulator cell (location 0) ends with the full accumulation *)
  Lemma heap_loop_acc : forall frames i nf stops s0 stop img htl,
    snd (iter_loop op fresh i nf stops s0 stop img frames) = None ->
    hd_error (snd (heap_loop op fresh i nf stops s0 stop (img :: htl) frames))
    = Some (fold_left op frames img).
  Proof.
    induction frames as [|f rest IH]; intros i nf stops s0 stop img htl Hn; [reflexivity|].
    cbn [heap_loop iter_loop fold_left app length] in *.
    destruct (stop <=? Z.of_nat i).
    - destruct (Nat.ltb (i + 1) nf).
      + destruct (nth_error stops (S s0)) as [stop'|] eqn:En.
        * specialize (IH (i + 1)%nat nf stops (S s0) stop' (op img f) (htl ++ [fresh i (op img f)])).
          destruct (heap_loop op fresh (i + 1) nf stops (S s0) stop' _ rest) as [ys' hf'].
          destruct (iter_loop op fresh (i + 1) nf stops (S s0) stop' _ rest) as [ys2 e2].
          cbn [fst snd] in *. apply IH; auto.
        * cbn in Hn. discriminate.
      + specialize (IH (i + 1)%nat nf stops s0 stop (op img f) (htl ++ [fresh i (op img f)])).
        destruct (heap_loop op fresh (i + 1) nf stops s0 stop _ rest) as [ys' hf'].
        destruct (iter_loop op fresh (i + 1) nf stops s0 stop _ rest) as [ys2 e2].
        cbn [fst snd] in *. apply IH; auto.
    - apply IH; auto.
  Qed.

  (** yields of the heap model are the yields of the pure model *)
  Lemma heap_iter_values copies ims nchunk nframes :
    map (@y_val B) (fst (heap_iter init op fresh copies ims nchunk nframes))
    = fst (stat_iter init op fresh (fun b => b) ims nchunk nframes).
  Proof.
    unfold heap_iter, stat_iter. destruct (chunk_stops _ _) as [stops|e]; [|reflexivity].
    destruct stops as [|stop tl]; [reflexivity|]. destruct ims as [|f0 rest]; [reflexivity|].
    set (nf := nframes_used _ _). set (frames := firstn (nf - 1) rest).
    assert (G : forall s0 st htl,
      map (@y_val B) (fst (heap_loop op fresh 1 nf (stop :: tl) s0 st (init f0 :: htl) frames))
      = fst (iter_loop op fresh 1 nf (stop :: tl) s0 st (init f0) frames)).
    { intros s0 st htl. destruct (heap_loop _ _ _ _ _ _ _ _ _) as [ys hf] eqn:E.
      apply heap_loop_spec in E. apply E. }
    destruct (stop =? 0).
    - destruct (Nat.ltb 1 nf).
      + destruct (nth_error (stop :: tl) 1) as [stop'|]; [|reflexivity].
        specialize (G 1%nat stop' (if copies then [init f0] else [])).
        destruct copies;
        destruct (heap_loop _ _ _ _ _ _ _ _ _), (iter_loop _ _ _ _ _ _ _ _ _); cbn in *; rewrite G; reflexivity.
      + specialize (G 0%nat stop (if copies then [init f0] else [])).
        destruct copies;
        destruct (heap_loop _ _ _ _ _ _ _ _ _), (iter_loop _ _ _ _ _ _ _ _ _); cbn in *; rewrite G; reflexivity.
    - apply G.
  Qed.

  Lemma sum_iter_stable_lemma ims nchunk nframes :
    stable (heap_iter init op fresh true ims nchunk nframes).
  Proof.
    unfold heap_iter. destruct (chunk_stops _ _) as [stops|e]; [|intros y []].
    destruct stops as [|stop tl]; [intros y []|]. destruct ims as [|f0 rest]; [intros y []|].
    set (nf := nframes_used _ _). set (frames := firstn (nf - 1) rest).
    assert (G : forall s0 st,
      stable (let (ys, hf) := heap_loop op fresh 1 nf (stop :: tl) s0 st [init f0; init f0] frames in
              ({| y_loc := 1; y_val := init f0 |} :: ys, hf))).
    { intros s0 st. destruct (heap_loop _ _ _ _ _ _ _ _ _) as [ys hf] eqn:E.
      apply heap_loop_spec in E as (H1 & H2 & _). intros y [<-|Hy]; cbn in *.
      - apply (H1 0%nat). reflexivity.
      - apply H2; auto. }
    destruct (stop =? 0).
    - destruct (Nat.ltb 1 nf); [|apply G].
      destruct (nth_error (stop :: tl) 1); [apply G|intros y []].
    - destruct (heap_loop _ _ _ _ _ _ _ _ _) as [ys hf] eqn:E.
      apply heap_loop_spec in E as (H1 & H2 & _). intros y Hy. apply H2; auto.
  Qed.

  Lemma first_stop_zero n k : 1 <= k -> k < n -> 0 < stop_at n k 0.
  Proof.
    intros H1 H2. unfold stop_at. pose proof (Z.mod_pos_bound n k ltac:(lia)) as Hm.
    pose proof (Z.div_mod n k ltac:(lia)) as Hd.
    assert (Hq : 1 <= n / k) by (apply Z.div_le_lower_bound; lia).
    revert Hm Hd Hq. generalize (n / k) (n mod k). intros q r Hm Hd Hq.
    destruct (Z.eq_dec q 1) as [->|]; lia.
  Qed.

  Lemma average_iter_stable_lemma ims nchunk nframes :
    nchunk < Z.of_nat (nframes_used (length ims) nframes) ->
    stable (heap_iter init op fresh false ims nchunk nframes).
  Proof.
    unfold heap_iter. set (nf := nframes_used _ _). intros Hk.
    destruct (chunk_stops _ _) as [stops|e] eqn:Ec; [|intros y []].
    destruct stops as [|stop tl]; [intros y []|]. destruct ims as [|f0 rest]; [intros y []|].
    assert (stop <> 0).
    { destruct (Z.leb_spec 1 nchunk).
      - rewrite chunk_stops_closed in Ec by lia. rewrite zrange_cons in Ec by lia.
        cbn in Ec. injection Ec as <- _. pose proof (first_stop_zero (Z.of_nat nf) nchunk). lia.
      - exfalso. unfold chunk_stops in Ec. destruct (nchunk >? Z.of_nat nf); [discriminate|].
        destruct (Z.eqb_spec nchunk 0); [discriminate|]. destruct (Z.ltb_spec nchunk 0); [discriminate|lia]. }
    destruct (Z.eqb_spec stop 0); [contradiction|].
    destruct (heap_loop _ _ _ _ _ _ _ _ _) as [ys hf] eqn:E.
    apply heap_loop_spec in E as (H1 & H2 & _). intros y Hy. apply H2; auto.
  Qed.

  (** one chunk per frame, more than one frame: the first image handed out by
      average_iter ends up holding the running sum of all the frames *)
  Lemma average_iter_first_overwritten f0 rest nframes :
    let nf := nframes_used (length (f0 :: rest)) nframes in
    (1 < nf)%nat ->
    exists y ys h, heap_iter init op fresh false (f0 :: rest) (Z.of_nat nf) nframes = (y :: ys, h) /\
      y_val y = init f0 /\
      nth_error h (y_loc y) = Some (fold_left op (firstn (nf - 1) rest) (init f0)).
  Proof.
    cbn zeta. set (nf := nframes_used _ _). intros H1.
    destruct (chunk_stops_correct (Z.of_nat nf) (Z.of_nat nf) ltac:(lia)) as (stops & E & L & S & F & La).
    unfold heap_iter. fold nf. rewrite E.
    pose proof E as E'. rewrite chunk_stops_closed in E' by lia. injection E' as E'.
    rewrite zrange_cons in E' by lia. cbn [map] in E'. rewrite zrange_cons in E' by lia. cbn [map] in E'.
    set (st0 := stop_at (Z.of_nat nf) (Z.of_nat nf) 0) in *.
    assert (Hst : st0 = 0).
    { unfold st0, stop_at. rewrite Z.div_same, Z_mod_same_full by lia. lia. }
    destruct stops as [|stop tl]; [discriminate|]. destruct tl as [|stop' tl']; [discriminate|].
    clearbody st0. subst st0. injection E' as E0 E1 E2. clear E1 E2. subst stop. cbn [Z.eqb].
    destruct (Nat.ltb_spec 1 nf); [|lia]. cbn [nth_error].
    destruct (heap_loop _ _ _ _ _ _ _ _ _) as [ys hf] eqn:Eh.
    do 3 eexists. split; [reflexivity|]. split; [reflexivity|]. cbn [y_loc nth_error].
    pose proof (heap_loop_acc (firstn (nf - 1) rest) 1 nf (0 :: stop' :: tl') 1 stop' (init f0) []) as Ha.
    rewrite Eh in Ha. cbn [snd] in Ha.
    assert (Hlen : (nf - 1 <= length rest)%nat).
    { unfold nf, nframes_used. cbn [length]. destruct (0 <? nframes); lia. }
    inversion S as [|? ? S' Hf]; subst. inversion Hf; subst.
    assert (Hn : snd (iter_loop op fresh 1 nf (0 :: stop' :: tl') 1 stop' (init f0) (firstn (nf - 1) rest)) = None).
    { rewrite (iter_loop_spec op fresh (firstn (nf - 1) rest) 1 nf (0 :: stop' :: tl') 1 stop' tl');
        auto; try lia. rewrite firstn_length. lia. }
    apply Ha in Hn. destruct hf; [discriminate|]. exact Hn.
  Qed.
End HeapProofs.

Lemma chunk_stops_errors n k : 0 <= n ->
  (k > n -> chunk_stops n k = Err ValueError) /\
  (k = 0 -> chunk_stops n k = Err ZeroDivisionError) /\
  (k < 0 -> chunk_stops n k = Err ValueError).
Proof.
  intros H. unfold chunk_stops. repeat split; intros Hk.
  - destruct (Z.gtb_spec k n); [reflexivity|lia].
  - subst. destruct (Z.gtb_spec 0 n); [lia|reflexivity].
  - destruct (Z.gtb_spec k n); [lia|]. destruct (Z.eqb_spec k 0); [lia|].
    destruct (Z.ltb_spec k 0); [reflexivity|lia].
Qed.

Lemma last_chunk_is_one_shot (A B : Type) (init : A -> B) (op : B -> A -> B) (ims : list A) (nchunk nframes : Z) (d : B) :
    1 <= nchunk <= Z.of_nat (nframes_used (length ims) nframes) ->
    exists img ys, stat_once init op ims nframes = Ok img /\
      stat_iter init op (fun _ b => b) (fun b => b) ims nchunk nframes = (ys, None) /\
      Z.of_nat (length ys) = nchunk /\ last ys d = img.
Proof.
  intros H.
  exact (stat_iter_last init op (fun _ b => b) (fun b => b) ims nchunk nframes d (fun _ => eq_refl) H).
Qed.

Lemma last_average_is_one_shot (A B : Type) (init : A -> B) (op : B -> A -> B) (avg : nat -> B -> B)
         (ims : list A) (nchunk nframes : Z) (d : B) :
    (forall b, avg 1%nat b = b) ->
    1 <= nchunk <= Z.of_nat (nframes_used (length ims) nframes) ->
    exists img ys, stat_once init op ims nframes = Ok img /\
      stat_iter init op (fun i b => avg (i + 1)%nat b) (fun b => b) ims nchunk nframes = (ys, None) /\
      Z.of_nat (length ys) = nchunk /\
      last ys d = avg (nframes_used (length ims) nframes) img.
Proof.
  intros Ha H.
  destruct (stat_iter_last init op (fun i b => avg (i + 1)%nat b) (fun b => b) ims nchunk nframes d
     (fun b => eq_sym (Ha b)) H) as (img & ys & E1 & E2 & E3 & E4).
  exists img, ys. repeat split; auto. rewrite E4. f_equal. lia.
Qed.

Lemma average_iter_refuted_lemma :
  exists (ims : list Z) (nchunk nframes : Z),
    1 <= nchunk <= Z.of_nat (nframes_used (length ims) nframes) /\
    ~ stable (heap_iter (fun x => x) Z.add (fun i b => b / Z.of_nat (i + 1)) false ims nchunk nframes).
Proof.
  exists [2; 4; 6], 3, 0. split; [vm_compute; split; discriminate|].
  intros H. specialize (H {| y_loc := 0; y_val := 2 |} (or_introl eq_refl)). vm_compute in H. discriminate.
Qed.
