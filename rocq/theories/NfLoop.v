From Coq Require Import Permutation.
From Verif Require Import Prelude NfModel NfSpec.
Local Open Scope Z_scope.

Lemma nth_combine : forall (A B : Type) (l : list A) (m : list B) k, nth_error (combine l m) k = match nth_error l k, nth_error m k with Some a, Some b => Some (a, b) | _, _ => None end.
Proof. intros A B. induction l as [|a l IH]; intros [|b m] [|k]; cbn; auto. - now destruct (nth_error l k). Qed.
Lemma nth_map : forall (A B : Type) (f : A -> B) l k, nth_error (map f l) k = match nth_error l k with Some a => Some (f a) | None => None end.
Proof. intros A B f. induction l as [|a l IH]; intros [|k]; cbn; auto. Qed.
Lemma nth_zrange : forall a b k, (k < Z.to_nat (b - a))%nat -> nth_error (zrange a b) k = Some (a + Z.of_nat k).
Proof. intros a b k H. unfold zrange. rewrite nth_map, (nth_error_nth' _ 0%nat) by (now rewrite seq_length). now rewrite seq_nth. Qed.

(** writing a stretch of a row *)
Definition put {A} (lo hi : nat) (row vals : list A) : list A := (firstn lo row ++ vals ++ skipn hi row)%list.
Lemma put_length : forall (A : Type) lo hi (row vals : list A), (lo <= hi <= length row)%nat -> length vals = (hi - lo)%nat -> length (put lo hi row vals) = length row.
Proof. intros. unfold put. rewrite !app_length, firstn_length, skipn_length. lia. Qed.
Lemma put_nth : forall (A : Type) lo hi (row vals : list A) k, (lo <= hi <= length row)%nat -> length vals = (hi - lo)%nat ->
  nth_error (put lo hi row vals) k = if (lo <=? k)%nat && (k <? hi)%nat then nth_error vals (k - lo) else nth_error row k.
Proof.
  intros A lo hi row vals k H L. unfold put. destruct (lo <=? k)%nat eqn:E1; cbn [andb].
  - rewrite nth_error_app2 by (rewrite firstn_length; lia). rewrite firstn_length, Nat.min_l by lia. destruct (k <? hi)%nat eqn:E2.
    + rewrite nth_error_app1 by lia. reflexivity.
    + rewrite nth_error_app2 by lia. rewrite L. replace (k - lo - (hi - lo))%nat with (k - hi)%nat by lia.
      rewrite <- (firstn_skipn hi row) at 2. rewrite nth_error_app2 by (rewrite firstn_length; lia). f_equal. rewrite firstn_length. lia.
  - rewrite nth_error_app1 by (rewrite firstn_length; lia). rewrite <- (firstn_skipn lo row) at 2. rewrite nth_error_app1; auto. rewrite firstn_length. lia.
Qed.

Lemma range_in : forall start stop step l ch, 0 < step -> py_range start stop step = Ok l -> In ch l -> start <= ch < stop.
Proof.
  intros start stop step l ch Hs. unfold py_range. destruct (step =? 0) eqn:E; [lia|]. destruct (0 <? step) eqn:E2; [|lia]. intros H. injection H as <-. rewrite in_map_iff. intros (k & <- & K).
  apply in_zrange in K. split; [nia|]. assert (k * step <= (stop - start + step - 1) / step * step - step) by nia. pose proof (Z.mul_div_le (stop - start + step - 1) step). nia.
Qed.
Lemma range_cover : forall start stop step l c, 0 < step -> py_range start stop step = Ok l -> start <= c < stop -> exists ch, In ch l /\ ch <= c < ch + step.
Proof.
  intros start stop step l c Hs. unfold py_range. destruct (step =? 0) eqn:E; [lia|]. destruct (0 <? step) eqn:E2; [|lia]. intros H Hc. injection H as <-.
  set (k := (c - start) / step). pose proof (Z.mul_div_le (c - start) step Hs). pose proof (Z.mul_succ_div_gt (c - start) step Hs). assert (0 <= k) by (apply Z.div_pos; lia).
  exists (start + k * step). split; [apply in_map_iff; exists k; split; auto; apply in_zrange; split; auto|unfold k in *; nia].
  apply Z.lt_le_trans with (k + 1); [lia|]. unfold k. rewrite <- Z.div_add by lia. apply Z.div_le_mono; lia.
Qed.
Lemma range_ok : forall start stop step, 0 < step -> exists l, py_range start stop step = Ok l.
Proof. intros. unfold py_range. destruct (step =? 0) eqn:E; [lia|eauto]. Qed.

Section Loop.
Context {A : Type}.
Variable conf : Z -> Z -> A.
Variables (n_grains len_crds : Z).
Hypothesis Hg : 0 <= n_grains.

Definition wf (size : Z) (m : list (list (option A))) : Prop := Z.of_nat (length m) = n_grains /\ Forall (fun r => Z.of_nat (length r) = size) m.

Lemma inner_ok : forall start stop, start <= Z.min stop len_crds ->
  grand_loop_inner conf n_grains len_crds start (Some stop) = Ok ((start, Z.min stop len_crds), map (fun g => map (conf g) (zrange start (Z.min stop len_crds))) (zrange 0 n_grains)).
Proof. intros. unfold grand_loop_inner. destruct (_ <? 0) eqn:E; [lia|reflexivity]. Qed.

Lemma store_lemma : forall offset size m a b, 0 <= size -> wf size m -> offset <= a <= b -> b <= offset + size ->
  exists m', store offset size m ((a, b), map (fun g => map (conf g) (zrange a b)) (zrange 0 n_grains)) = Ok m' /\ wf size m' /\
    forall g c, 0 <= g < n_grains -> 0 <= c < size -> entry m' g c = if (a - offset <=? c) && (c <? b - offset) then Some (Some (conf g (offset + c))) else entry m g c.
Proof.
  intros offset size m a b Hs [W1 W2] H1 H2. unfold store, set_columns, slice_pos.
  destruct (a - offset <? 0) eqn:E1; [lia|]. destruct (b - offset <? 0) eqn:E2; [lia|].
  rewrite (Z.min_l (a - offset)), (Z.min_l (b - offset)), Z.max_r by lia. destruct (_ =? _) eqn:E3; [|lia].
  set (lo := Z.to_nat (a - offset)). set (hi := Z.to_nat (b - offset)).
  assert (LV : forall g, length (map Some (map (conf g) (zrange a b))) = (hi - lo)%nat) by (intros; rewrite !map_length, zrange_length; lia).
  eexists. split; [reflexivity|]. split; [split|].
  - rewrite map_length, combine_length, map_length, zrange_length. lia.
  - apply Forall_forall. intros r R. apply in_map_iff in R. destruct R as ((row & vals) & <- & R). cbn [fst snd]. pose proof (in_combine_l _ _ _ _ R) as Rl. pose proof (in_combine_r _ _ _ _ R) as Rr.
    apply in_map_iff in Rr. destruct Rr as (g & <- & _). rewrite Forall_forall in W2. pose proof (W2 _ Rl) as LR. change (Z.of_nat (length (put lo hi row (map Some (map (conf g) (zrange a b))))) = size). rewrite put_length; auto. lia.
  - intros g c G C. unfold entry. rewrite nth_map, nth_combine, nth_map, nth_zrange by lia.
    destruct (nth_error m (Z.to_nat g)) as [row|] eqn:N; [|apply nth_error_None in N; lia]. cbn [fst snd].
    change (firstn lo row ++ ?v ++ skipn hi row)%list with (put lo hi row v).
    rewrite Forall_forall in W2. pose proof (W2 _ (nth_error_In _ _ N)) as LR. cbv beta in LR. rewrite put_nth by (auto; lia).
    destruct (a - offset <=? c) eqn:F1; destruct (c <? b - offset) eqn:F2; cbn [andb];
      (destruct (lo <=? Z.to_nat c)%nat eqn:G1; destruct (Z.to_nat c <? hi)%nat eqn:G2; cbn [andb]; try lia; auto).
    rewrite !nth_map, nth_zrange by lia. do 3 f_equal; lia.
Qed.

(** a list of tasks in any order *)
Lemma tasks_lemma : forall offset size (task : Z -> result ((Z * Z) * list (list A))) (e : Z -> Z) l m, 0 <= size ->
  (forall ch, In ch l -> offset <= ch <= e ch /\ e ch <= offset + size /\ task ch = Ok ((ch, e ch), map (fun g => map (conf g) (zrange ch (e ch))) (zrange 0 n_grains))) ->
  wf size m ->
  exists m', fold_left (fun acc ch => do m <- acc; do r <- task ch; store offset size m r) l (Ok m) = Ok m' /\ wf size m' /\
    forall g c, 0 <= g < n_grains -> 0 <= c < size ->
      ((exists ch, In ch l /\ ch <= offset + c < e ch) -> entry m' g c = Some (Some (conf g (offset + c)))) /\
      (entry m g c = Some (Some (conf g (offset + c))) -> entry m' g c = Some (Some (conf g (offset + c)))).
Proof.
  intros offset size task e l. induction l as [|ch l IH]; intros m Hs T W.
  - exists m. split; [reflexivity|]. split; auto. intros g c G C. split; auto. intros (ch & [] & _).
  - destruct (T ch (or_introl eq_refl)) as (T1 & T2 & T3). destruct (store_lemma offset size m ch (e ch) Hs W T1 T2) as (m1 & S1 & W1 & E1).
    destruct (IH m1 Hs (fun c Hc => T c (or_intror Hc)) W1) as (m' & F & W' & E'). exists m'. split; [cbn [fold_left rbind]; rewrite T3; cbn [rbind]; rewrite S1; exact F|]. split; auto.
    intros g c G C. destruct (E' g c G C) as [Ea Eb]. pose proof (E1 g c G C) as E0. split.
    + intros (ch' & [<-|Hin] & R); [|apply Ea; exists ch'; auto]. apply Eb. rewrite E0. destruct (ch - offset <=? c) eqn:X1; destruct (c <? e ch - offset) eqn:X2; cbn [andb]; auto; lia.
    + intros H. apply Eb. rewrite E0. destruct (_ && _); auto.
Qed.

Lemma wf0 : forall size, 0 <= size -> wf size (repeat (repeat None (Z.to_nat size)) (Z.to_nat n_grains)).
Proof. intros size H. split; [rewrite repeat_length; lia|]. apply Forall_forall. intros r R. apply repeat_spec in R. subst. rewrite repeat_length. lia. Qed.
End Loop.

(** the points of a rank *)
Lemma offset_size : forall world rank n, 0 < world -> 0 <= rank < world -> 0 <= n ->
  get_offset_size (Some (rank, world)) n = (fst (block_of world n rank), snd (block_of world n rank) - fst (block_of world n rank)) /\
  0 <= fst (block_of world n rank) <= snd (block_of world n rank) /\ snd (block_of world n rank) <= n.
Proof.
  intros world rank n Hw Hr Hn. unfold get_offset_size, block_of. cbn [fst snd]. pose proof (Z.mul_div_le n world Hw). pose proof (Z.div_pos n world Hn Hw). set (q := n / world) in *.
  destruct (rank =? world - 1) eqn:E.
  - split; [reflexivity|]. split; [|lia]. split; nia.
  - split; [f_equal; lia|]. split; [split; nia|]. assert (rank + 1 <= world - 1) by lia. nia.
Qed.
(** one run: tasks are carried out in the order [order], and reach no further than the points of the rank *)
Section Run.
Context {A : Type}.
Variable conf : Z -> Z -> A.
Lemma run_lemma : forall mpi n_grains len_crds limit chunk_size ncpus order offset size, 0 < n_grains -> limit len_crds <> 0 -> 0 < chunk_size -> reorders order ->
  get_offset_size mpi (limit len_crds) = (offset, size) -> 0 <= offset -> 0 <= size -> offset + size <= len_crds ->
  (let reach := if 1 <? Z.min ncpus (Z.of_nat (length (zrange 0 ((size + chunk_size - 1) / chunk_size)))) then let '(o, s) := get_offset_size mpi len_crds in o + s else limit len_crds in
   offset + size <= reach /\ (forall k, 0 <= k -> k * chunk_size < size -> Z.min reach (offset + k * chunk_size + chunk_size) <= offset + size)) ->
  exists m, test_orientations conf mpi n_grains len_crds limit chunk_size ncpus order = Ok m /\ complete conf n_grains offset size m.
Proof.
  intros mpi n_grains len_crds limit chunk_size ncpus order offset size Hg0 Hz Hc Ho GO O0 S0 L H. assert (Hg : 0 <= n_grains) by lia. unfold test_orientations, finish. destruct (n_grains =? 0) eqn:Eg; [lia|]. cbn [rbind]. destruct (limit len_crds =? 0) eqn:Ez; [lia|]. rewrite GO.
  destruct (range_ok offset (offset + size) chunk_size Hc) as (chunks & HC). rewrite HC. cbn [rbind]. destruct (size <? 0) eqn:E; [lia|].
  assert (LC : Z.of_nat (length chunks) = Z.of_nat (length (zrange 0 ((size + chunk_size - 1) / chunk_size)))).
  { unfold py_range in HC. destruct (chunk_size =? 0) eqn:E1; [lia|]. destruct (0 <? chunk_size) eqn:E2; [|lia]. injection HC as <-. rewrite map_length. do 4 f_equal. lia. }
  assert (KC : forall ch, In ch chunks -> exists k, 0 <= k /\ ch = offset + k * chunk_size /\ k * chunk_size < size).
  { intros ch Hch. pose proof (range_in _ _ _ _ _ Hc HC Hch) as R. unfold py_range in HC. destruct (chunk_size =? 0) eqn:E1; [lia|]. destruct (0 <? chunk_size) eqn:E2; [|lia]. injection HC as <-. apply in_map_iff in Hch.
    destruct Hch as (k & K1 & K2). apply in_zrange in K2. exists k. lia. }
  rewrite <- LC in H. cbv zeta in H.
  assert (Fin : forall reach l, offset + size <= reach -> (forall k, 0 <= k -> k * chunk_size < size -> Z.min reach (offset + k * chunk_size + chunk_size) <= offset + size) -> Permutation l chunks ->
    exists m, fold_left (fun acc ch => do m <- acc; do r <- grand_loop_inner conf n_grains len_crds ch (Some (Z.min reach (ch + chunk_size))); store offset size m r) l
                (Ok (repeat (repeat None (Z.to_nat size)) (Z.to_nat n_grains))) = Ok m /\ complete conf n_grains offset size m).
  { intros reach l R1 R2 Pm.
    destruct (tasks_lemma conf n_grains offset size (fun ch => grand_loop_inner conf n_grains len_crds ch (Some (Z.min reach (ch + chunk_size)))) (fun ch => Z.min (offset + size) (ch + chunk_size)) l
                (repeat (repeat None (Z.to_nat size)) (Z.to_nat n_grains)) S0) as (m & F & [W1 W2] & En).
    - intros ch Hch. apply (Permutation_in _ Pm) in Hch. destruct (KC ch Hch) as (k & K0 & K1 & K2). specialize (R2 k K0 K2). subst ch.
      assert (Em : Z.min (Z.min reach (offset + k * chunk_size + chunk_size)) len_crds = Z.min (offset + size) (offset + k * chunk_size + chunk_size)) by lia.
      split; [lia|]. split; [lia|]. rewrite inner_ok by lia. now rewrite Em.
    - now apply wf0.
    - exists m. split; [exact F|]. split; auto. split; auto. intros g c G C. destruct (En g c G C) as [En1 _]. apply En1. destruct (range_cover _ _ _ _ (offset + c) Hc HC) as (ch & Ch1 & Ch2); [lia|].
      exists ch. split; [apply (Permutation_in _ (Permutation_sym Pm)), Ch1|lia]. }
  destruct (1 <? Z.min ncpus (Z.of_nat (length chunks))) eqn:E3.
  - unfold multiproc_inner_loop. destruct (get_offset_size mpi len_crds) as [o s] eqn:G2. destruct H as [H1 H2]. destruct (Fin (o + s) (order chunks) H1 H2 (Ho chunks)) as (m & F & C). exists m. rewrite F. cbn [rbind]. split; auto.
  - destruct H as [H1 H2]. destruct (Fin (limit len_crds) chunks H1 H2 (Permutation_refl _)) as (m & F & C). exists m. rewrite F. cbn [rbind]. split; auto.
Qed.
End Run.
