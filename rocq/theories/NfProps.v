(** Near field reconstruction: the confidence of an orientation (C143), independence of chunks and processes (C144), distribution over
    ranks (C145), the grain map (C146) *)
From Coq Require Import QArith Lqa Permutation.
From Verif Require Import Prelude NfModel NfSpec NfProofs NfLoop NfGather NfMap.
Local Open Scope Q_scope.

(** ** C143 *)
(** The confidence is the number of reflections found among those that are seen, divided by the number of those that are seen. *)
Theorem C143_confidence : forall s image pts, proper s -> stack_shape s image -> (forall p, In p pts -> seen s p -> in_scan s p) ->
  exists sel hit c, quant_and_clip_confidence image (of_setup s) pts = Ok c /\ marks (seen s) pts sel /\ marks (found s image) pts hit /\
    (how_many sel = 0%Z -> c == 0) /\ (how_many sel <> 0%Z -> c * inject_Z (how_many sel) == inject_Z (how_many hit)).
Proof.
  intros s image pts Pr Sh Sc. destruct (loop_lemma s image pts 0 0 Pr Sh Sc) as (sel & hit & M1 & M2 & F). unfold quant_and_clip_confidence. rewrite F. cbn [rbind fst snd]. rewrite !Z.add_0_l.
  exists sel, hit. eexists. split; [reflexivity|]. split; auto. split; auto. destruct (how_many sel =? 0)%Z eqn:E; split; intros H; try lia; try reflexivity. field. intros X. apply H. unfold Qeq in X. cbn in X. lia.
Qed.
Print Assumptions C143_confidence.
(** It lies between 0 and 1; it is 1 when every reflection that is seen is found, and only then. *)
Theorem C143_bounds : forall s image pts c, proper s -> stack_shape s image -> (forall p, In p pts -> seen s p -> in_scan s p) ->
  quant_and_clip_confidence image (of_setup s) pts = Ok c ->
  0 <= c <= 1 /\ (c == 1 <-> (exists p, In p pts /\ seen s p) /\ (forall p, In p pts -> seen s p -> found s image p)).
Proof.
  intros s image pts c Pr Sh Sc E. destruct (C143_confidence s image pts Pr Sh Sc) as (sel & hit & c' & E' & M1 & M2 & Z0 & Z1). rewrite E' in E. injection E as <-.
  pose proof (marks_le _ _ _ _ _ _ (found_seen s image) M2 M1) as LE. assert (0 <= how_many hit)%Z by (unfold how_many; lia).
  assert (IFF : how_many sel <> 0%Z <-> exists p, In p pts /\ seen s p).
  { clear - M1. unfold marks in M1. induction M1 as [|p b pts sel Hb M1 IH]; [split; [intros H; destruct H; reflexivity|intros (p & [] & _)]|]. unfold how_many in *. cbn [filter]. destruct b; cbn [length].
    - split; intros; [exists p; split; [now left|now apply Hb]|lia].
    - rewrite IH. split; intros (q & Q1 & Q2); exists q; [split; auto; now right|]. destruct Q1 as [<-|Q1]; [apply Hb in Q2; discriminate|auto]. }
  assert (ALL : how_many hit = how_many sel <-> (forall p, In p pts -> seen s p -> found s image p)).
  { clear - M1 M2. revert hit M2. unfold marks in M1. induction M1 as [|p b pts sel Hb M1 IH]; intros hit M2; inversion M2; subst; [split; intros; [contradiction|reflexivity]|].
    pose proof (marks_le _ _ _ _ _ _ (found_seen s image) H3 M1) as LE. specialize (IH _ H3). unfold how_many in *. cbn [filter]. destruct b, y; cbn [length].
    - split; [intros E q [<-|Q] S; [now apply H1|apply IH; auto; lia]|]. intros X. assert (X2 := proj2 IH (fun q Q => X q (or_intror Q))). lia.
    - split; [intros E; lia|]. intros X. assert (false = true) by (apply H1, X; [now left|now apply Hb]). discriminate.
    - assert (false = true) by (apply Hb, (found_seen s image), H1; reflexivity). discriminate.
    - rewrite IH. split; intros X q; [intros [<-|Q] S; [apply Hb in S; discriminate|auto]|intros; apply X; auto; now right]. }
  destruct (Z.eq_dec (how_many sel) 0) as [N|N].
  - rewrite (Z0 N). split; [lra|]. split; [intros; lra|]. intros [A _]. apply IFF in A. contradiction.
  - specialize (Z1 N). assert (P : 0 < inject_Z (how_many sel)) by (change 0 with (inject_Z 0); rewrite <- Zlt_Qlt; unfold how_many in *; lia).
    assert (B : inject_Z (how_many hit) <= inject_Z (how_many sel)) by (rewrite <- Zle_Qle; auto). assert (B0 : 0 <= inject_Z (how_many hit)) by (change 0 with (inject_Z 0); rewrite <- Zle_Qle; auto).
    split; [split; nra|]. rewrite <- ALL. split; [intros C|intros [_ C]].
    + split; [now apply IFF|]. rewrite C in Z1. apply inject_Z_injective. lra.
    + rewrite C in Z1. nra.
Qed.
Print Assumptions C143_bounds.
(** The order of the reflections does not matter. *)
Theorem C143_order : forall s image pts pts' c, proper s -> stack_shape s image -> (forall p, In p pts -> seen s p -> in_scan s p) -> Permutation pts pts' ->
  quant_and_clip_confidence image (of_setup s) pts = Ok c -> quant_and_clip_confidence image (of_setup s) pts' = Ok c.
Proof.
  intros s image pts pts' c Pr Sh Sc Pm. destruct (loop_lemma s image pts 0 0 Pr Sh Sc) as (sel & hit & M1 & M2 & F).
  destruct (loop_lemma s image pts' 0 0 Pr Sh) as (sel' & hit' & M1' & M2' & F'); [intros p I; apply Sc; apply (Permutation_in _ (Permutation_sym Pm)), I|].
  unfold quant_and_clip_confidence. rewrite F, F'. cbn [rbind fst snd]. now rewrite (marks_perm _ _ _ _ _ _ Pm M1 M1'), (marks_perm _ _ _ _ _ _ Pm M2 M2').
Qed.
Print Assumptions C143_order.
(** A reflection that misses the panel, hits the beam stop or has no position (NaN) has no influence, whatever its omega. *)
Theorem C143_unseen : forall s image pts1 p pts2, proper s -> stack_shape s image -> ~ seen s p ->
  quant_and_clip_confidence image (of_setup s) (pts1 ++ p :: pts2) = quant_and_clip_confidence image (of_setup s) (pts1 ++ pts2).
Proof.
  intros s image pts1 p pts2 Pr Sh N. unfold quant_and_clip_confidence. rewrite !fold_left_app. cbn [fold_left]. f_equal. f_equal.
  destruct (fold_left _ pts1 _) as [st|e]; [|reflexivity]. cbn [rbind]. destruct (step_lemma s image p st Pr Sh) as (b & h & E & Eb & Eh); [intros; contradiction|]. rewrite E.
  destruct b; [destruct N; now apply Eb|]. destruct h; [destruct N; apply (found_seen s image); now apply Eh|]. now destruct st.
Qed.
Print Assumptions C143_unseen.
(** Refuted: a reflection at the very end of the scan is looked up outside of the stack of frames; *)
Theorem C143_end_refuted : exists s image p, proper s /\ stack_shape s image /\ seen s p /\ f_ome p == s_o0 s + inject_Z (s_frames s) * s_do s /\
  quant_and_clip_confidence image (of_setup s) [p] = Err IndexError.
Proof.
  exists (SETUP 0 0 0 1 1 1 1 1 2 10 1), [[[true]]; [[true]]], (REFL (Some (1 # 2)) (Some (1 # 2)) 2).
  split; [repeat split; intros H; cbn in H; lra|]. split; [split; [reflexivity|repeat constructor]|]. split.
  - exists 0%Z, 0%Z, (1 # 2), (1 # 2). cbn. repeat split; try lia; [left; split; [reflexivity|split; cbn; unfold Qle, Qlt; cbn; lia]..|]. intros [A _]. unfold Qlt in A. cbn in A. lia.
  - split; reflexivity.
Qed.
Print Assumptions C143_end_refuted.
(** and one just before its beginning is compared with the last frame. *)
Theorem C143_start_refuted : exists s image p, proper s /\ stack_shape s image /\ seen s p /\ ~ in_scan s p /\ bright image (s_frames s - 1) 0 0 /\ ~ bright image 0 0 0 /\
  f_ome p < s_o0 s /\ quant_and_clip_confidence image (of_setup s) [p] = Ok 1.
Proof.
  exists (SETUP 0 0 0 1 1 1 1 1 2 10 1), [[[false]]; [[true]]], (REFL (Some (1 # 2)) (Some (1 # 2)) (-1 # 2)).
  split; [repeat split; intros H; cbn in H; lra|]. split; [split; [reflexivity|repeat constructor]|]. split; [|split; [|split; [|split; [|split; reflexivity]]]].
  - exists 0%Z, 0%Z, (1 # 2), (1 # 2). cbn. repeat split; try lia; [left; split; [reflexivity|split; cbn; unfold Qle, Qlt; cbn; lia]..|]. intros [A _]. unfold Qlt in A. cbn in A. lia.
  - intros (z & Hz & [[_ [A _]]|[A _]]); cbn in *; unfold Qle, Qlt in A; cbn in A; lia.
  - exists [[true]], [true]. repeat split.
  - intros (f & r & A & B & C). cbn in *. injection A as <-. injection B as <-. discriminate.
Qed.
Print Assumptions C143_start_refuted.
Example C143_ex : let s := SETUP (-2) 2 0 1 (-1) 1 4 4 2 0 1 in
  let image := [[[false; false; true; false]; [false; true; false; false]; [false; false; false; false]; [false; false; false; false]];
                [[false; false; false; false]; [true; false; false; false]; [false; false; false; true]; [false; false; false; false]]] in
  quant_and_clip_confidence image (of_setup s)
    [REFL (Some (1 # 2)) (Some (3 # 2)) (1 # 2); REFL (Some (-3 # 2)) (Some (3 # 4)) (3 # 2); REFL (Some (1 # 2)) (Some (1 # 4)) 0; REFL None None 0; REFL (Some 9) (Some 0) 1; REFL (Some (-3 # 2)) (Some (-3 # 2)) 0]
  = Ok (2 / 3).
Proof. reflexivity. Qed.

Close Scope Q_scope.
Open Scope Z_scope.
(** ** C144 *)
(** Without a limit on the points, the table is complete whatever the size of the chunks, the number of processes and the order in which
    the results come back. *)
Theorem C144_complete : forall (A : Type) (conf : Z -> Z -> A) n_grains n chunk_size ncpus order, 0 < n_grains -> 0 < n -> 0 < chunk_size -> reorders order ->
  exists m, test_orientations conf None n_grains n (fun k => k) chunk_size ncpus order = Ok m /\ complete conf n_grains 0 n m.
Proof.
  intros A conf n_grains n chunk_size ncpus order Hg Hn Hc Ho. apply run_lemma; auto; try lia. cbn [get_offset_size]. destruct (1 <? _); split; intros; lia.
Qed.
Print Assumptions C144_complete.
(** So two runs agree. *)
Theorem C144_same : forall (A : Type) (conf : Z -> Z -> A) n_grains n c1 c2 p1 p2 o1 o2, 0 < n_grains -> 0 < n -> 0 < c1 -> 0 < c2 -> reorders o1 -> reorders o2 ->
  test_orientations conf None n_grains n (fun k => k) c1 p1 o1 = test_orientations conf None n_grains n (fun k => k) c2 p2 o2.
Proof.
  intros A conf n_grains n c1 c2 p1 p2 o1 o2 Hg Hn H1 H2 O1 O2. destruct (C144_complete A conf n_grains n c1 p1 o1) as (m1 & E1 & C1); auto. destruct (C144_complete A conf n_grains n c2 p2 o2) as (m2 & E2 & C2); auto.
  rewrite E1, E2. f_equal. rewrite (complete_eq _ _ _ _ _ _ (Z.lt_le_incl _ _ Hg) (Z.lt_le_incl _ _ Hn) C1), (complete_eq _ _ _ _ _ _ (Z.lt_le_incl _ _ Hg) (Z.lt_le_incl _ _ Hn) C2). reflexivity.
Qed.
Print Assumptions C144_same.
(** With a limit, the first points are tested, if there is one process. *)
Theorem C144_limit : forall (A : Type) (conf : Z -> Z -> A) n_grains n limit chunk_size ncpus order, 0 < n_grains -> 0 < limit n <= n -> 0 < chunk_size -> reorders order -> ncpus <= 1 ->
  exists m, test_orientations conf None n_grains n limit chunk_size ncpus order = Ok m /\ complete conf n_grains 0 (limit n) m.
Proof.
  intros A conf n_grains n limit chunk_size ncpus order Hg Hn Hc Ho Hp. apply run_lemma; auto; try lia. cbv zeta. destruct (1 <? _) eqn:E; [lia|]. split; intros; lia.
Qed.
Print Assumptions C144_limit.
(** With more processes this holds if the limit is a multiple of the chunk size or does not cut anything off; *)
Theorem C144_limit_partial : forall (A : Type) (conf : Z -> Z -> A) n_grains n limit chunk_size ncpus order, 0 < n_grains -> 0 < limit n <= n -> 0 < chunk_size -> reorders order ->
  ((chunk_size | limit n) \/ limit n = n) ->
  exists m, test_orientations conf None n_grains n limit chunk_size ncpus order = Ok m /\ complete conf n_grains 0 (limit n) m.
Proof.
  intros A conf n_grains n limit chunk_size ncpus order Hg Hn Hc Ho Hd. apply run_lemma; auto; try lia. cbn [get_offset_size]. cbv zeta. destruct (1 <? _) eqn:E; [|split; intros; lia].
  split; [lia|]. intros k K0 K1. destruct Hd as [(q & Hq)|Hd]; [|lia]. assert (k < q) by nia. nia.
Qed.
Print Assumptions C144_limit_partial.
(** otherwise the last chunk does not fit. *)
Theorem C144_limit_refuted : forall (A : Type) (conf : Z -> Z -> A), test_orientations conf None 1 5 (fun k => Z.min k 3) 2 2 (fun l => l) = Err ValueError /\
  (exists m, test_orientations conf None 1 5 (fun k => Z.min k 3) 2 1 (fun l => l) = Ok m /\ complete conf 1 0 3 m).
Proof.
  intros. split; [reflexivity|]. apply (C144_limit A conf 1 5 (fun k => Z.min k 3) 2 1 (fun l => l)); try lia. intros l. apply Permutation_refl.
Qed.
Print Assumptions C144_limit_refuted.
(** A negative chunk size is accepted, and no cell of the table is filled. *)
Theorem C144_negative_refuted : forall (A : Type) (conf : Z -> Z -> A) n_grains n chunk_size ncpus order, 0 < n_grains -> 0 < n -> chunk_size < 0 ->
  test_orientations conf None n_grains n (fun k => k) chunk_size ncpus order = Ok (repeat (repeat None (Z.to_nat n)) (Z.to_nat n_grains)).
Proof.
  intros A conf n_grains n chunk_size ncpus order Hg Hn Hc. unfold test_orientations, finish, py_range. destruct (n_grains =? 0) eqn:Eg; [lia|]. cbn [rbind get_offset_size]. destruct (n =? 0) eqn:Ez; [lia|]. destruct (chunk_size =? 0) eqn:E0; [lia|]. destruct (0 <? chunk_size) eqn:E1; [lia|]. cbn [rbind].
  rewrite zrange_nil. 2: { assert ((0 - (0 + n) - chunk_size - 1) / - chunk_size < 1); [|lia]. apply Z.div_lt_upper_bound; lia. } cbn [map length Z.of_nat]. destruct (n <? 0) eqn:E2; [lia|]. destruct (1 <? _) eqn:E3; [lia|]. reflexivity.
Qed.
Print Assumptions C144_negative_refuted.
(** Nothing to test is an error. *)
Theorem C144_nothing : forall (A : Type) (conf : Z -> Z -> A) n_grains n chunk_size ncpus order, 0 <= n -> 0 <= n_grains -> n_grains = 0 \/ n = 0 -> 0 < chunk_size -> reorders order ->
  test_orientations conf None n_grains n (fun k => k) chunk_size ncpus order = Err ZeroDivisionError.
Proof.
  intros A conf n_grains n chunk_size ncpus order Hn Hg H Hc Ho. unfold test_orientations, finish. destruct (n_grains =? 0) eqn:Eg; [reflexivity|]. cbn [rbind get_offset_size]. assert (n = 0) by lia. subst n.
  unfold py_range. destruct (chunk_size =? 0) eqn:E0; [lia|]. destruct (0 <? chunk_size) eqn:E1; [|lia]. cbn [rbind]. replace (0 + 0 - 0 + chunk_size - 1) with (chunk_size - 1) by lia. rewrite Z.div_small by lia. cbn [zrange map length seq Z.to_nat Z.of_nat Z.sub Z.add Z.opp].
  rewrite Z.min_comm. destruct (1 <? _) eqn:E; [lia|]. reflexivity.
Qed.
Print Assumptions C144_nothing.
Example C144_ex : test_orientations (fun g c => 10 * g + c) None 2 5 (fun k => k) 2 3 (@rev Z) = Ok [[Some 0; Some 1; Some 2; Some 3; Some 4]; [Some 10; Some 11; Some 12; Some 13; Some 14]] /\ reorders (@rev Z).
Proof. split; [reflexivity|]. intros l. apply Permutation_sym, Permutation_rev. Qed.

(** ** C145 *)
(** Every point belongs to exactly one rank; the last rank takes what is left over. *)
Theorem C145_partition : forall world n, 0 < world -> 0 <= n ->
  (forall rank, 0 <= rank < world -> let '(offset, size) := get_offset_size (Some (rank, world)) n in block_of world n rank = (offset, offset + size) /\ 0 <= size) /\
  (forall c, 0 <= c < n -> exists rank, (0 <= rank < world /\ fst (block_of world n rank) <= c < snd (block_of world n rank)) /\
     forall r, 0 <= r < world -> fst (block_of world n r) <= c < snd (block_of world n r) -> r = rank) /\
  snd (block_of world n (world - 1)) = n.
Proof.
  intros world n Hw Hn. split; [|split].
  - intros rank Hr. destruct (offset_size world rank n Hw Hr Hn) as (E & B1 & B2). rewrite E. split; [|lia]. destruct (block_of world n rank). cbn [fst snd]. f_equal. lia.
  - intros c Hc. pose proof (Z.mul_div_le n world Hw) as M. pose proof (Z.div_pos n world Hn Hw) as P. set (q := n / world) in *.
    assert (D : exists rank, 0 <= rank < world /\ fst (block_of world n rank) <= c < snd (block_of world n rank)).
    { destruct (Z_lt_le_dec c ((world - 1) * q)) as [L|L].
      - assert (0 < q) by nia. exists (c / q). assert (c / q < world - 1) by (apply Z.div_lt_upper_bound; lia). assert (0 <= c / q) by (apply Z.div_pos; lia). split; [lia|]. unfold block_of. cbn [fst snd]. fold q.
        pose proof (Z.mul_div_le c q). pose proof (Z.mul_succ_div_gt c q). destruct (c / q =? world - 1) eqn:E; [lia|]. nia.
      - exists (world - 1). split; [lia|]. unfold block_of. cbn [fst snd]. rewrite Z.eqb_refl. fold q. lia. }
    destruct D as (rank & R1 & R2). exists rank. split; auto. intros r Hr H. unfold block_of in *. cbn [fst snd] in *. fold q in H, R2.
    destruct (r =? world - 1) eqn:E1; destruct (rank =? world - 1) eqn:E2; try lia.
    + assert ((rank + 1) * q <= (world - 1) * q) by nia. assert (r = world - 1) by lia. subst r. lia.
    + assert ((r + 1) * q <= (world - 1) * q) by nia. assert (rank = world - 1) by lia. subst rank. lia.
    + destruct (Z.lt_trichotomy r rank) as [T|[T|T]]; auto; exfalso; [assert ((r + 1) * q <= rank * q) by nia; lia|assert ((rank + 1) * q <= r * q) by nia; lia].
  - unfold block_of. cbn [snd]. now rewrite Z.eqb_refl.
Qed.
Print Assumptions C145_partition.
(** When the chunk size divides the share of a rank, or every rank has more than one chunk and process, rank 0 hands the complete table
    over, and every rank has the table of its own points. *)
Theorem C145_gather_partial : forall (A : Type) (conf : Z -> Z -> A) world n_grains n chunk_size ncpus order, 0 < world -> 0 < n_grains -> 0 < n -> 0 < chunk_size ->
  (forall r, reorders (order r)) -> ((chunk_size | n / world) \/ (1 < ncpus /\ chunk_size < n / world)) ->
  exists parts whole, mpi_run conf world n_grains n (fun k => k) chunk_size ncpus order = Ok (parts, whole) /\ complete conf n_grains 0 n whole /\ Z.of_nat (length parts) = world /\
    forall r m, nth_error parts r = Some m -> let '(a, b) := block_of world n (Z.of_nat r) in complete conf n_grains a (b - a) m.
Proof.
  intros A conf world n_grains n chunk_size ncpus order Hw Hg Hn Hc Ho Hd.
  exists (map (fun r => table conf n_grains (fst (block_of world n r)) (snd (block_of world n r))) (zrange 0 world)), (table conf n_grains 0 n).
  unfold mpi_run. rewrite (all_ok_map _ _ _ (fun r => table conf n_grains (fst (block_of world n r)) (snd (block_of world n r)))).
  - cbn [rbind]. rewrite gather_lemma by lia. cbn [rbind]. split; [reflexivity|]. split; [apply (table_complete A conf n_grains 0 n); lia|]. split; [rewrite map_length, zrange_length; lia|].
    intros r m E. rewrite nth_map in E. destruct (nth_error (zrange 0 world) r) as [x|] eqn:N; [|discriminate]. assert (R : (r < Z.to_nat world)%nat). { pose proof (nth_error_Some (zrange 0 world) r) as Q. rewrite N, zrange_length in Q. assert (Some x <> None) by discriminate. apply Q in H. lia. }
    rewrite nth_zrange, Z.add_0_l in N by lia. injection N as <-. assert (Em : m = table conf n_grains (fst (block_of world n (Z.of_nat r))) (snd (block_of world n (Z.of_nat r)))) by congruence. subst m. clear E. destruct (offset_size world (Z.of_nat r) n) as (_ & B1 & B2); try lia. destruct (block_of world n (Z.of_nat r)) as [a b]. cbn [fst snd] in *.
    pose proof (table_complete A conf n_grains a (b - a)) as Q. replace (a + (b - a)) with b in Q by lia. apply Q; lia.
  - intros r R. apply in_zrange in R. destruct (offset_size world r n) as (E & B1 & B2); auto; try lia.
    destruct (run_lemma conf (Some (r, world)) n_grains n (fun k => k) chunk_size ncpus (order r) (fst (block_of world n r)) (snd (block_of world n r) - fst (block_of world n r))) as (m & T & C); auto; try lia.
    + cbv zeta. rewrite E. replace (fst (block_of world n r) + (snd (block_of world n r) - fst (block_of world n r))) with (snd (block_of world n r)) by lia.
      destruct (1 <? _) eqn:X; [split; intros; lia|]. split; [lia|]. intros k K0 K1. unfold block_of in *. cbn [fst snd] in *. destruct (r =? world - 1) eqn:Er; [lia|].
      destruct Hd as [(q & Hq)|[D1 D2]]; [rewrite Hq in *; assert (k < q) by nia; nia|]. exfalso. rewrite zrange_length, Z.sub_0_r in X. try rewrite Er in X.
      assert (2 <= ((r + 1) * (n / world) - r * (n / world) + chunk_size - 1) / chunk_size) as Y by (apply Z.div_le_lower_bound; lia). set (z := _ / chunk_size) in *. clearbody z. lia.
    + rewrite T. f_equal. apply complete_eq in C; [|lia|lia]. rewrite C. f_equal. lia.
Qed.
Print Assumptions C145_gather_partial.
(** Refuted: with a single process for each rank, a chunk that crosses the end of the share of a rank is an error. *)
Theorem C145_gather_refuted : forall (A : Type) (conf : Z -> Z -> A), mpi_run conf 2 1 6 (fun k => k) 2 1 (fun _ l => l) = Err ValueError /\
  (exists m, test_orientations conf None 1 6 (fun k => k) 2 1 (fun l => l) = Ok m /\ complete conf 1 0 6 m).
Proof. intros. split; [reflexivity|]. apply C144_complete; try lia. intros l. apply Permutation_refl. Qed.
Print Assumptions C145_gather_refuted.
(** Refuted: what the call returns on rank 0 is not the whole table, only the controller gets that. *)
Theorem C145_returned_refuted : forall (A : Type) (conf : Z -> Z -> A), exists parts whole first, mpi_run conf 2 1 4 (fun k => k) 1 1 (fun _ l => l) = Ok (parts, whole) /\
  complete conf 1 0 4 whole /\ nth_error parts 0 = Some first /\ ~ complete conf 1 0 4 first.
Proof.
  intros A conf. destruct (C145_gather_partial A conf 2 1 4 1 1 (fun _ l => l)) as (parts & whole & E & C & _); try lia; [intros r l; apply Permutation_refl|left; exists 2; reflexivity|].
  pose proof E as E'. cbv in E'. injection E' as Ep Ew. exists parts, whole. eexists. split; [exact E|]. split; [exact C|]. split; [rewrite <- Ep; reflexivity|].
  intros (_ & F & _). inversion F as [|x l Hx Hl]. cbn in Hx. lia.
Qed.
Print Assumptions C145_returned_refuted.
Example C145_ex : mpi_run (fun g c => 10 * g + c) 3 2 7 (fun k => k) 1 2 (fun _ => @rev Z) =
  Ok ([[[Some 0; Some 1]; [Some 10; Some 11]]; [[Some 2; Some 3]; [Some 12; Some 13]]; [[Some 4; Some 5; Some 6]; [Some 14; Some 15; Some 16]]],
      [[Some 0; Some 1; Some 2; Some 3; Some 4; Some 5; Some 6]; [Some 10; Some 11; Some 12; Some 13; Some 14; Some 15; Some 16]]).
Proof. reflexivity. Qed.

(** ** C146 *)
(** Every point is given the first grain with the largest confidence, or -1 if that is not above the threshold; and that confidence. *)
Theorem C146_best : forall raw n shape thresh, raw <> [] -> (forall s, shape = Some s -> fold_left Z.mul s 1 = Z.of_nat n) ->
  exists gm cm, process_raw_confidence raw n shape None thresh = Ok (gm, cm) /\ length gm = n /\ length cm = n /\
    forall j, (j < n)%nat -> exists g v, best_at raw j g v /\ nth_error cm j = Some v /\
      ((thresh < v)%Q -> nth_error gm j = Some g) /\ ((v <= thresh)%Q -> nth_error gm j = Some (-1)).
Proof.
  intros raw n shape thresh Hr Hs. unfold process_raw_confidence.
  set (B := fun j => match best_of (column raw j) with Ok b => b | Err _ => (0, 0%Q) end).
  assert (HB : forall j, best_of (column raw j) = Ok (B j) /\ best_at raw j (fst (B j)) (snd (B j))). { intros j. destruct (best_lemma raw j Hr) as (g & v & E & Bt). unfold B. rewrite E. auto. }
  rewrite (all_ok_map _ _ _ B) by (intros; apply HB). cbn [rbind].
  assert (Sh : (match shape with Some s => if fold_left Z.mul s 1 =? Z.of_nat n then Ok tt else Err ValueError | None => Ok tt end) = Ok tt). { destruct shape as [s|]; auto. rewrite (Hs s eq_refl), Z.eqb_refl. reflexivity. }
  rewrite Sh. cbn [rbind]. eexists. eexists. split; [reflexivity|]. rewrite !map_length, seq_length. split; auto. split; auto. intros j Hj. destruct (HB j) as [_ Bt].
  assert (Nj : nth_error (seq 0 n) j = Some j) by (rewrite (nth_error_nth' _ 0%nat) by (now rewrite seq_length); now rewrite seq_nth).
  exists (fst (B j)), (snd (B j)). split; [exact Bt|]. rewrite !nth_map, Nj. split; [reflexivity|]. split; intros T.
  - destruct (Qle_bool _ _) eqn:E; [apply Qle_bool_iff in E; lra|reflexivity].
  - apply Qle_bool_iff in T. now rewrite T.
Qed.
Print Assumptions C146_best.
(** The first grain with the largest confidence is unique. *)
Theorem C146_unique : forall raw j g1 v1 g2 v2, best_at raw j g1 v1 -> best_at raw j g2 v2 -> g1 = g2 /\ (v1 == v2)%Q.
Proof. exact best_unique. Qed.
Print Assumptions C146_unique.
(** With a table of names: points without a grain keep -1, a grain is given its name if a higher numbered grain occurs in the map; and the
    highest numbered grain of the map keeps its number. *)
Theorem C146_remap_partial : forall raw n shape thresh ids gm cm, process_raw_confidence raw n shape None thresh = Ok (gm, cm) -> gm <> [] ->
  (forall g, In g gm -> g <= Z.of_nat (length ids)) ->
  exists out, process_raw_confidence raw n shape (Some ids) thresh = Ok (out, cm) /\ length out = length gm /\
    forall j g, nth_error gm j = Some g ->
      (g < 0 -> nth_error out j = Some g) /\
      (0 <= g -> (exists h, In h gm /\ g < h) -> nth_error out j = nth_error ids (Z.to_nat g)) /\
      ((forall h, In h gm -> h <= g) -> nth_error out j = Some g).
Proof.
  intros raw n shape thresh ids gm cm H Hne Hl. unfold process_raw_confidence in *. destruct (all_ok _) as [best|]; [|discriminate]. cbn [rbind] in *. destruct (match shape with Some _ => _ | None => _ end); [|discriminate]. cbn [rbind] in *.
  injection H as <- <-. set (gm := map (fun b => if Qle_bool (snd b) thresh then -1 else fst b) best) in *. destruct (zmax_ok gm Hne) as (top & T). rewrite T. cbn [rbind]. destruct (zmax_lemma _ _ T) as [T1 T2].
  assert (G : forall t, t <= Z.of_nat (length ids) -> remap_loop gm ids t = Ok (map (renamed ids t) gm)).
  { intros t Ht. destruct (Z_lt_le_dec t 0) as [L|L]; [|rewrite <- (Z2Nat.id t L); apply remap_lemma; lia]. unfold remap_loop. rewrite zrange_nil by lia. cbn [fold_left]. f_equal. rewrite <- (map_id gm) at 1. apply map_ext.
    intros g. unfold renamed. destruct (0 <=? g) eqn:A1; destruct (g <? t) eqn:A2; cbn [andb]; auto; lia. }
  rewrite G by auto. cbn [rbind]. eexists. split; [reflexivity|]. split; [now rewrite map_length|]. intros j g E. rewrite nth_map, E. pose proof (T2 g (nth_error_In _ _ E)) as Gt. unfold renamed. split; [|split].
  - intros N. destruct (0 <=? g) eqn:A1; [lia|reflexivity].
  - intros P (h & H1 & H2). pose proof (T2 h H1). destruct (0 <=? g) eqn:A1; [|lia]. destruct (g <? top) eqn:A2; [|lia]. cbn [andb]. pose proof (Hl top T1). destruct (nth_error ids (Z.to_nat g)) eqn:A3; auto. apply nth_error_None in A3. lia.
  - intros M. pose proof (M top T1). destruct (g <? top) eqn:A2; [lia|]. now rewrite andb_false_r.
Qed.
Print Assumptions C146_remap_partial.
(** Refuted: two grains with different names can end up with the same one, since the highest one is not renamed. *)
Theorem C146_remap_refuted : exists raw ids gm cm out, process_raw_confidence raw 2 None None 0 = Ok (gm, cm) /\ process_raw_confidence raw 2 None (Some ids) 0 = Ok (out, cm) /\
  NoDup ids /\ length ids = length raw /\ nth_error gm 0 = Some 0 /\ nth_error gm 1 = Some 1 /\ nth_error ids 1 = Some 0 /\ nth_error out 0 = Some 1 /\ nth_error out 1 = Some 1.
Proof.
  exists [[1; 0]; [0; 1]]%Q, [1; 0]. do 3 eexists. split; [reflexivity|]. split; [reflexivity|]. split; [repeat constructor; cbn; intuition lia|]. repeat split.
Qed.
Print Assumptions C146_remap_refuted.
(** A table of names that is too short is an error. *)
Theorem C146_short : forall raw n shape thresh ids gm cm, process_raw_confidence raw n shape None thresh = Ok (gm, cm) ->
  (exists g, In g gm /\ Z.of_nat (length ids) < g) -> process_raw_confidence raw n shape (Some ids) thresh = Err IndexError.
Proof.
  intros raw n shape thresh ids gm cm H (g & G1 & G2). unfold process_raw_confidence in *. destruct (all_ok _) as [best|]; [|discriminate]. cbn [rbind] in *. destruct (match shape with Some _ => _ | None => _ end); [|discriminate]. cbn [rbind] in *.
  injection H as <- <-. set (gm := map (fun b => if Qle_bool (snd b) thresh then -1 else fst b) best) in *. destruct (zmax_ok gm) as (top & T); [intros X; rewrite X in G1; destruct G1|]. rewrite T. cbn [rbind].
  destruct (zmax_lemma _ _ T) as [_ T2]. rewrite remap_short; [reflexivity|]. specialize (T2 g G1). lia.
Qed.
Print Assumptions C146_short.
Example C146_ex : process_raw_confidence [[1 # 2; 1 # 4; 0; 1 # 3]; [1 # 4; 1 # 4; 0; 1]; [1 # 2; 0; 0; 1]]%Q 4 (Some [2; 2]) (Some [7; 8]) 0 = Ok ([7; 7; -1; 1], [1 # 2; 1 # 4; 0; 1]%Q).
Proof. reflexivity. Qed.
