(** Lemmas on the average of three or more orientations, and on clustering. *)
From Coq Require Import Reals List Lia Lra ZArith Psatz Permutation.
From Verif Require Import Prelude Lin TensorModel TensorProofs RotModel RotSpec RotProofs RotProofs2 FibModel FibProofs FibProps CluModel CluSpec CluProofs CluPair.
Import ListNotations.
Local Open Scope R_scope.
Local Notation length := List.length.

Lemma w_from_trace : forall p k, unitq p -> 0 <= qw p -> 0 <= k -> 4 * (k * k) - 1 <= tr (rotMatOfQuat p) -> k <= qw p.
Proof. intros p k U P K H. rewrite trace_unit in H by assumption. destruct (Rle_dec k (qw p)); auto. exfalso. nra. Qed.
Lemma cos_half : forall u, cos u = 2 * (cos (u / 2) * cos (u / 2)) - 1.
Proof. intros u. replace u with (2 * (u / 2)) at 1 by field. rewrite cos_2a_cos. ring. Qed.
Lemma many_lemma : forall q0 q1 q2 qs qsym, Forall unitq (q0 :: q1 :: q2 :: qs) -> Forall unitq qsym -> is_group (rots qsym) -> ten_epsf * INR (length (q0 :: q1 :: q2 :: qs)) < 1 ->
  exists r m reps, quatAverageCluster (q0 :: q1 :: q2 :: qs) qsym = Ok r /\ unitq r /\ 0 <= qw r /\ (forall c, In c (rots qsym) -> tr (mm (rotMatOfQuat r) c) <= tr (rotMatOfQuat r)) /\
  Forall2 (represents (rots qsym) q0) (q0 :: q1 :: q2 :: qs) reps /\ unitq m /\ (forall p, unitq p -> total (qdot p) reps <= total (qdot m) reps) /\
  equivalent_or (rots qsym) (mm (rotMatOfQuat q0) (rotMatOfQuat m)) (rotMatOfQuat r) /\
  forall t, 0 <= t <= PI -> Forall (fun q => within (rots qsym) t (rotMatOfQuat q0) (rotMatOfQuat q)) (q0 :: q1 :: q2 :: qs) ->
    within (rots qsym) t (rotMatOfQuat q0) (rotMatOfQuat r).
Proof.
  intros q0 q1 q2 qs qsym FU Fs GR SM. set (l := q0 :: q1 :: q2 :: qs) in *. set (G := rots qsym) in *.
  assert (U0 : unitq q0) by (inversion FU; assumption). destruct (inv_lemma q0 U0) as (Ui & _ & Ri).
  assert (Nq : qsym <> []) by (intros ->; destruct GR as [[] _]).
  destruct GR as (G1 & G2 & G3).
  assert (ML : map unitVector4 l = l). { clear - FU. induction FU as [|x r U _ IH]; [reflexivity|]. cbn [map]. now rewrite unit4_id, IH. }
  set (g := fun q => mat4_apply (qprod_left (invertQuat q0)) q).
  assert (Gg : forall q, unitq q -> unitq (g q) /\ rotMatOfQuat (g q) = mm (mt (rotMatOfQuat q0)) (rotMatOfQuat q)). { intros q U. unfold g. rewrite left_mul. split; [now apply hmul_unit|]. now rewrite rot_hmul, Ri. }
  assert (R : forall q, unitq q -> exists p, toFundamentalRegion (g q) qsym = Ok p /\ represents G q0 q p).
  { intros q U. destruct (Gg q U) as [Ug Rg]. destruct (fr_lemma (g q) qsym Ug Fs Nq) as (p & E & Up & Pp & (c & C & Rc) & Mx). exists p. split; [exact E|].
    split; [exact Up|]. split; [exact Pp|]. split; [exists c; split; [exact C|now rewrite Rc, Rg]|]. intros c' C'. rewrite <- Rg. now apply Mx. }
  destruct (map_res_2 (fun q => toFundamentalRegion q qsym) (map g l)) as (reps & MR & F2).
  { intros x X. apply in_map_iff in X as (q & <- & Q). rewrite Forall_forall in FU. destruct (R q (FU q Q)) as (p & E & _). now exists p. }
  assert (FR : Forall2 (represents G q0) l reps).
  { clear ML MR SM. remember (map g l) as gl eqn:Egl. revert Egl FU. clearbody l. revert l. induction F2 as [|x y lx ly E F2 IH]; intros l El FU.
    - destruct l; [constructor|discriminate].
    - destruct l as [|q l]; [discriminate|]. cbn [map] in El. injection El as -> ->. inversion FU as [|? ? U FU']; subst. destruct (R q U) as (p & E' & Rp). assert (y = p) by congruence. subst y. constructor; auto. }
  assert (FUr : Forall unitq reps). { clear - FR. induction FR as [|? ? ? ? (U & _)]; constructor; auto. }
  assert (Ln : length reps = length l). { clear - FR. induction FR; cbn; congruence. }
  (* the first representative has real part one *)
  assert (W0 : exists p0 rr, reps = p0 :: rr /\ qw p0 = 1).
  { unfold l in FR. inversion FR as [|? p0 ? rr (Up & Pp & _ & Mx)]; subst. exists p0, rr. split; [reflexivity|]. specialize (Mx mI G1).
    rewrite (unit_orth q0 U0), mm_mI in Mx. assert (tr mI = 3) by (unfold tr, mI; cbn; ring). assert (1 <= qw p0) by (apply w_from_trace; auto; lra).
    assert (qw p0 <= 1) by (clear - Up; destruct p0 as [a b c d]; unfold unitq in Up; cbn [qw qx qy qz] in *; nra). lra. }
  assert (PW : Forall (fun q => 0 <= qw q) reps). { clear - FR. induction FR as [|? ? ? ? (_ & P & _)]; constructor; auto. }
  assert (WS : ten_epsf * INR (length reps) < qw (fold_right qadd qzero reps)).
  { rewrite Ln. destruct W0 as (p0 & rr & -> & W0). cbn [fold_right qadd qw]. inversion PW as [|? ? _ PW']; subst. pose proof (sum_w 0 rr PW') as SW. rewrite Rmult_0_r in SW. lra. }
  assert (Nr : reps <> []) by (destruct W0 as (p0 & rr & -> & _); discriminate).
  destruct (mean_lemma reps FUr Nr WS) as (Um & Mm & Km). set (m := unitVector4 (qaverage reps)) in *.
  assert (Uq : unitq (mat4_apply (qprod_left q0) m)) by (rewrite left_mul; now apply hmul_unit).
  destruct (fr_lemma _ qsym Uq Fs Nq) as (r & E & Ur & Pr & (c & C & Rc) & Mx). rewrite left_mul, rot_hmul in Rc, Mx. fold G in C, Mx.
  exists r, m, reps. split. { unfold quatAverageCluster. rewrite ML. unfold l at 1. fold l. fold g. rewrite MR. cbn [rbind]. fold m. exact E. }
  split; [exact Ur|]. split; [exact Pr|]. split. { intros c' C'. rewrite Rc at 1. rewrite <- mm_assoc. apply Mx. now apply G3. }
  split; [exact FR|]. split; [exact Um|]. split; [exact Mm|]. split; [exists c; auto|].
  intros t T W. assert (K0 : 0 <= cos (t / 2)) by (apply cos_ge_0; lra).
  assert (KW : cos (t / 2) <= qw m).
  { apply Km; auto. clear - FR W T K0. induction FR as [|q p lq lp (Up & Pp & _ & Mp) F IH]; [constructor|]. inversion W as [|? ? (d & u & D & [UB UC] & UT) W']; subst. constructor; auto.
    apply w_from_trace; auto. specialize (Mp d D). rewrite mm_assoc in UC. assert (cos t <= cos u) by (apply cos_decr_1; lra). rewrite (cos_half t) in H. lra. }
  destruct (G2 c C) as [[Oc _] Ct]. exists (mt c), (2 * acos (qw m)). split; [exact Ct|].
  assert (RM : mm (mt (rotMatOfQuat q0)) (mm (rotMatOfQuat r) (mt c)) = rotMatOfQuat m).
  { rewrite Rc, <- !mm_assoc, (orth_both c Oc), mm_mI, mm_assoc, (unit_orth q0 U0), mI_mm. reflexivity. }
  rewrite RM. assert (P0 : 0 <= qw m) by lra. split; [now apply acos_angle|].
  assert (M1 : qw m <= 1) by (clear - Um; clearbody m; destruct m as [a b d e]; unfold unitq in Um; cbn [qw qx qy qz] in *; nra).
  apply Rmult_le_reg_l with (/ 2); [lra|]. replace (/ 2 * (2 * acos (qw m))) with (acos (qw m)) by field. replace (/ 2 * t) with (t / 2) by field.
  pose proof (acos_bound (qw m)). assert (CA : cos (acos (qw m)) = qw m) by (apply cos_acos; lra).
  destruct (Rle_dec (acos (qw m)) (t / 2)); auto. exfalso. assert (cos (acos (qw m)) < cos (t / 2)) by (apply cos_decreasing_1; lra). lra.
Qed.

(** ** clustering *)
Lemma above_eq : forall thr compl l, map snd (filter (fun p => if Rlt_dec thr (fst p) then true else false) (combine compl l)) = above thr compl l.
Proof.
  intros thr; induction compl as [|c cs IH]; intros [|q qs]; try reflexivity. cbn [combine filter above fst]. destruct (Rlt_dec thr c); cbn [map snd]; rewrite IH; reflexivity.
Qed.
Lemma with_label_eq : forall k cl l, with_label k cl l = members k cl l.
Proof.
  intros k; induction cl as [|z zs IH]; intros [|q qs]; try reflexivity. unfold with_label in *. cbn [combine filter members fst]. specialize (IH qs).
  destruct (Z.eq_dec z k) as [->|N]; [rewrite Z.eqb_refl; cbn [map snd]; now rewrite IH|]. apply Z.eqb_neq in N. rewrite N. exact IH.
Qed.
Lemma members_shift : forall k labels l, (k <> -2)%Z -> (k <> -1)%Z -> (forall z, In z labels -> (-1 <= z)%Z) -> members (k + 1) (one_based labels) l = members k labels l.
Proof.
  intros k labels; induction labels as [|z zs IH]; intros [|q qs] K2 K H; try reflexivity. cbn [one_based map members]. fold (one_based zs).
  rewrite IH by (auto; intros; apply H; now right). specialize (H z (or_introl eq_refl)).
  destruct (Z.eqb_spec z (-1)); destruct (Z.eq_dec _ (k + 1)); destruct (Z.eq_dec z k); try reflexivity; exfalso; lia.
Qed.
Lemma members_none : forall k labels l, ~ In k labels -> members k labels l = [].
Proof.
  intros k labels; induction labels as [|z zs IH]; intros [|q qs] H; try reflexivity. cbn [members]. destruct (Z.eq_dec z k) as [->|_]; [exfalso; apply H; now left|]. apply IH. intros I. apply H. now right.
Qed.
Lemma members_some : forall k labels l, length labels = length l -> In k labels -> members k labels l <> [].
Proof.
  intros k labels; induction labels as [|z zs IH]; intros [|q qs] L H; try discriminate; [destruct H|]. cbn [members]. destruct (Z.eq_dec z k) as [->|N]; [discriminate|]. apply IH; [cbn in L; lia|]. now destruct H.
Qed.
Lemma nodup_count : forall (first : Z) n l, (forall z, In z l -> (first <= z < first + Z.of_nat n)%Z) -> (forall i, (i < n)%nat -> In (first + Z.of_nat i)%Z l) -> length (nodup Z.eq_dec l) = n.
Proof.
  intros first n l A B. set (c := map (fun i => (first + Z.of_nat i)%Z) (seq 0 n)).
  assert (Nc : NoDup c). { unfold c. apply FinFun.Injective_map_NoDup; [intros x y; lia|apply seq_NoDup]. }
  assert (P : Permutation (nodup Z.eq_dec l) c).
  { apply NoDup_Permutation; auto; [apply NoDup_nodup|]. intros z. rewrite nodup_In. unfold c. rewrite in_map_iff. split.
    - intros I. apply A in I as I'. exists (Z.to_nat (z - first)). split; [lia|]. apply in_seq. lia.
    - intros (i & <- & I). apply B. apply in_seq in I. lia. }
  apply Permutation_length in P. rewrite P. unfold c. now rewrite map_length, seq_length.
Qed.
Lemma blobs_dbscan : forall n labels, labels_clusters true 0 n labels -> n_blobs (one_based labels) = n.
Proof.
  intros n labels (A & B). unfold n_blobs, n_labels.
  assert (O : forall z, In z (one_based labels) <-> (exists i, (i < n)%nat /\ z = (1 + Z.of_nat i)%Z) \/ z = (-1)%Z /\ In (-1)%Z labels).
  { intros z. unfold one_based. rewrite in_map_iff. split.
    - intros (y & <- & Y). destruct (Z.eqb_spec y (-1)) as [->|N]; [right; auto|]. left. destruct (A y Y) as [?|[_ ?]]; [|contradiction]. exists (Z.to_nat y). split; lia.
    - intros [(i & I & ->)|[-> I]].
      + exists (0 + Z.of_nat i)%Z. split; [|now apply B]. destruct (Z.eqb_spec (0 + Z.of_nat i) (-1)); lia.
      + exists (-1)%Z. split; [reflexivity|exact I]. }
  destruct (existsb (Z.eqb (-1)) (one_based labels)) eqn:E.
  - apply existsb_exists in E as (z & Z1 & Z2). apply Z.eqb_eq in Z2. subst z. apply O in Z1 as [(i & I & H)|[_ Z1]]; [lia|].
    assert (P : Permutation (nodup Z.eq_dec (one_based labels)) ((-1)%Z :: map (fun i => (1 + Z.of_nat i)%Z) (seq 0 n))).
    { apply NoDup_Permutation; [apply NoDup_nodup| |].
      - constructor; [rewrite in_map_iff; intros (i & H & _); lia|]. apply FinFun.Injective_map_NoDup; [intros x y; lia|apply seq_NoDup].
      - intros z. rewrite nodup_In, O. cbn [In]. rewrite in_map_iff. split.
        + intros [(i & I & ->)|[-> _]]; [right; exists i; split; auto; apply in_seq; lia|now left].
        + intros [<-|(i & <- & I)]; [right; auto|]. left. exists i. apply in_seq in I. split; lia. }
    apply Permutation_length in P. rewrite P. cbn [length]. rewrite map_length, seq_length. lia.
  - apply nodup_count with (first := 1%Z).
    + intros z I. apply O in I as I'. destruct I' as [(i & I' & ->)|[-> _]]; [lia|]. assert (existsb (Z.eqb (-1)) (one_based labels) = true) by (apply existsb_exists; exists (-1)%Z; auto). congruence.
    + intros i I. apply O. left. now exists i.
Qed.
Lemma blobs_fcluster : forall n labels, labels_clusters false 1 n labels -> n_blobs labels = n /\ n_labels labels = n.
Proof.
  intros n labels (A & B). assert (A' : forall z, In z labels -> (1 <= z < 1 + Z.of_nat n)%Z) by (intros z I; destruct (A z I) as [|[H _]]; [assumption|discriminate]).
  assert (C : n_labels labels = n) by (now apply nodup_count with (first := 1%Z)). unfold n_blobs. destruct (existsb (Z.eqb (-1)) labels) eqn:E; auto.
  apply existsb_exists in E as (z & Z1 & Z2). apply Z.eqb_eq in Z2. subst z. apply A' in Z1. lia.
Qed.
(** the clusters and the noise make up the whole *)
Lemma split_label : forall z q n first, (first <= z < first + Z.of_nat n)%Z -> forall zs qs,
  Permutation (concat (clusters first n (z :: zs) (q :: qs))) (q :: concat (clusters first n zs qs)).
Proof.
  intros z q n first H zs qs. unfold clusters. assert (G : forall s k, (forall i, In i (seq s k) -> (s <= i)%nat) ->
    ((first + Z.of_nat s <= z < first + Z.of_nat (s + k))%Z -> Permutation (concat (map (fun i => members (first + Z.of_nat i) (z :: zs) (q :: qs)) (seq s k))) (q :: concat (map (fun i => members (first + Z.of_nat i) zs qs) (seq s k)))) /\
    ((z < first + Z.of_nat s)%Z -> concat (map (fun i => members (first + Z.of_nat i) (z :: zs) (q :: qs)) (seq s k)) = concat (map (fun i => members (first + Z.of_nat i) zs qs) (seq s k)))).
  { intros s k; revert s; induction k as [|k IH]; intros s _; [split; [lia|reflexivity]|]. destruct (IH (S s)) as [I1 I2]; [intros i I; apply in_seq in I; lia|].
    cbn [seq map concat]. split.
    - intros Hz. cbn [members]. destruct (Z.eq_dec z (first + Z.of_nat s)) as [E|E].
      + rewrite <- app_comm_cons. apply perm_skip. cbn [members] in I2. rewrite I2 by lia. reflexivity.
      + etransitivity; [apply Permutation_app_head; apply I1; lia|]. symmetry. apply Permutation_middle.
    - intros Hz. cbn [members]. destruct (Z.eq_dec z (first + Z.of_nat s)) as [E|E]; [lia|]. f_equal. cbn [members] in I2. apply I2. lia. }
  destruct (G 0%nat n) as [G1 _]; [intros; lia|]. apply G1. cbn. lia.
Qed.
Lemma clusters_skip : forall z q n first, (forall i, (i < n)%nat -> z <> (first + Z.of_nat i)%Z) -> forall zs qs, clusters first n (z :: zs) (q :: qs) = clusters first n zs qs.
Proof.
  intros z q n first H zs qs. unfold clusters. apply map_ext_in. intros i I. apply in_seq in I. cbn [members]. destruct (Z.eq_dec z (first + Z.of_nat i)) as [E|_]; [exfalso; apply (H i); [lia|exact E]|reflexivity].
Qed.
Lemma concat_nil : forall first n, concat (clusters first n [] []) = [].
Proof. intros first n. unfold clusters. induction (seq 0 n) as [|i r IH]; [reflexivity|]. cbn [map members concat app]. exact IH. Qed.
Lemma whole : forall first n, (0 <= first)%Z -> forall labels l, length labels = length l -> (forall z, In z labels -> (first <= z < first + Z.of_nat n)%Z \/ z = (-1)%Z) ->
  Permutation (concat (clusters first n labels l) ++ members (-1) labels l) l.
Proof.
  intros first n F labels; induction labels as [|z zs IH]; intros [|q qs] L H; try discriminate; [rewrite concat_nil; reflexivity|].
  assert (IH' : Permutation (concat (clusters first n zs qs) ++ members (-1) zs qs) qs) by (apply IH; [cbn in L; lia|intros; apply H; now right]).
  destruct (H z (or_introl eq_refl)) as [B|B].
  - etransitivity; [apply Permutation_app_tail, split_label, B|]. cbn [app members]. destruct (Z.eq_dec z (-1)); [lia|]. now apply perm_skip.
  - subst z. rewrite clusters_skip by (intros; lia). cbn [members]. destruct (Z.eq_dec (-1) (-1)); [|congruence]. etransitivity; [symmetry; apply Permutation_middle|]. now apply perm_skip.
Qed.
(** the averages computed are those of the clusters *)
Lemma averages_ok : forall n cl q qsym out groups, averages n cl q qsym = Ok out -> groups = map (fun i => with_label (Z.of_nat i + 1) cl q) (seq 0 n) -> (forall g, In g groups -> g <> []) -> averages_of qsym groups out.
Proof.
  intros n cl q qsym out groups H -> N. unfold averages in H. apply map_res_inv in H. unfold averages_of. remember (seq 0 n) as s. clear Heqs.
  induction H as [|i y li ly E F IH]; [constructor|]. cbn [map]. constructor; [split; [apply N; now left|exact E]|]. apply IH. intros g I. apply N. now right.
Qed.
