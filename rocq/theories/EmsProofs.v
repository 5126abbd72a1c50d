From Coq Require Import Reals List ZArith QArith Permutation Sorted Lra Lia Bool.
From Verif Require Import Prelude Lin TensorModel RotModel FibModel PlaneModel PlaneSpec PlaneProofs EomModel EmsModel EmsSpec.
Import ListNotations.
Local Close Scope Q_scope.
Local Open Scope nat_scope.
Local Notation length := List.length.

(** ** choice *)
Lemma no_dup_iff l : no_dup l = true <-> NoDup l.
Proof.
  induction l as [|x t IH]; cbn [no_dup]; [split; [constructor|reflexivity]|].
  rewrite andb_true_iff, negb_true_iff, IH. rewrite <- not_true_iff_false, existsb_exists. split.
  - intros [H1 H2]. constructor; auto. intros Hx. apply H1. exists x. split; auto. apply Nat.eqb_refl.
  - intros H. inversion H; subst. split; auto. intros (y & Hy & E). apply Nat.eqb_eq in E. subst. auto.
Qed.
Lemma in_active active ids : forallb (fun k => existsb (Nat.eqb k) active) ids = true <-> incl ids active.
Proof.
  rewrite forallb_forall. unfold incl. split; intros H k Hk; specialize (H k Hk).
  - apply existsb_exists in H. destruct H as (y & Hy & E). apply Nat.eqb_eq in E. subst. auto.
  - apply existsb_exists. exists k. split; auto. apply Nat.eqb_refl.
Qed.
Lemma matches_one active k i : NoDup active -> nth_error active i = Some k -> matches active (NpId k) = [i].
Proof.
  intros HN Hi. cbn [matches].
  assert (Hl : i < length active) by (apply nth_error_Some; congruence).
  replace (seq 0 (length active)) with (seq 0 i ++ i :: seq (S i) (length active - S i)).
  2:{ replace (length active) with (i + S (length active - S i)) at 2 by lia. rewrite seq_app. reflexivity. }
  rewrite filter_app. cbn [filter]. rewrite (nth_error_nth active i 0 Hi), Nat.eqb_refl.
  assert (F : forall a n, (forall j, a <= j < a + n -> j <> i /\ j < length active) -> filter (fun i => Nat.eqb (nth i active 0) k) (seq a n) = []).
  { intros a n; revert a. induction n as [|n IH]; intros a Hj; [reflexivity|]. cbn [seq filter].
    destruct (Nat.eqb_spec (nth a active 0) k) as [E|E].
    - exfalso. destruct (Hj a) as [Ha Hb]; [lia|]. apply Ha. eapply (NoDup_nth_error active); auto.
      rewrite Hi. rewrite (nth_error_nth' active 0 Hb). f_equal. exact E.
    - apply IH. intros j H. apply Hj. lia. }
  rewrite !F; [reflexivity| |]; intros j Hj; lia.
Qed.
Lemma map_res_forall2 {A B} (f : A -> result B) (P : A -> B -> Prop) l :
  (forall x, In x l -> exists y, f x = Ok y /\ P x y) -> exists r, map_res f l = Ok r /\ Forall2 P l r.
Proof.
  induction l as [|x t IH]; intros H; [exists []; split; [reflexivity|constructor]|].
  destruct (H x (or_introl eq_refl)) as (y & E & Py). destruct IH as (r & Er & Pr); [intros; apply H; right; auto|].
  exists (y :: r). cbn [map_res]. rewrite E. cbn [rbind]. rewrite Er. split; [reflexivity|constructor; auto].
Qed.
Lemma forall2_in_r {A B} (P : A -> B -> Prop) l r y : Forall2 P l r -> In y r -> exists x, In x l /\ P x y.
Proof. induction 1; intros H1; [contradiction|]. destruct H1 as [<-|H1]; [exists x; split; [left|]; auto|]. destruct (IHForall2 H1) as (z & Hz & Pz). exists z. split; [right|]; auto. Qed.
Lemma ranges_lemma {B} (active : list nat) (ranges : list B) ids : NoDup active -> length ranges = length active -> incl ids active ->
  exists rs, chosen_ranges active ranges (Some (map NpId ids)) = Ok rs /\
    Forall2 (fun k r => exists i, nth_error active i = Some k /\ nth_error ranges i = Some r) ids rs.
Proof.
  intros HN HL HI. cbn [chosen_ranges].
  induction ids as [|k t IH]; [exists []; split; [reflexivity|constructor]|].
  destruct IH as (rs & E & F); [intros x Hx; apply HI; right; auto|].
  destruct (In_nth_error active k (HI k (or_introl eq_refl))) as (i & Hi).
  assert (Hl : i < length ranges) by (rewrite HL; apply nth_error_Some; congruence).
  destruct (nth_error ranges i) as [r|] eqn:Er; [|apply nth_error_None in Er; lia].
  exists (r :: rs). cbn [map map_res]. rewrite (matches_one active k i HN Hi). cbn [rbind].
  destruct (map_res _ (map NpId t)) as [idx|e]; [|discriminate E]. cbn [rbind map_res] in *. rewrite Er. cbn [rbind]. rewrite E.
  split; [reflexivity|]. constructor; auto. exists i; auto.
Qed.

(** ** archive *)
Section Arch.
Context {H : Type}.
Lemma fancy_seq {B} (l : list B) : fancy l (seq 0 (length l)) = Ok l.
Proof.
  destruct l as [|x t]; [reflexivity|]. set (l := x :: t). rewrite (fancy_ok l x).
  - f_equal. apply nth_ext with (d := x) (d' := x); [rewrite map_length, seq_length; reflexivity|].
    intros n Hn. rewrite map_length, seq_length in Hn. rewrite nth_map_d with (d := 0) by (rewrite seq_length; auto). rewrite seq_nth by auto. reflexivity.
  - intros i Hi. apply in_seq in Hi. lia.
Qed.
Lemma scatter_seq n : scatter (seq 0 n) = seq 0 n.
Proof.
  apply nth_ext with (d := 0) (d' := 0); [apply scatter_length|]. rewrite scatter_length. intros i Hi. rewrite seq_length in Hi.
  assert (O : ordering (seq 0 n) n) by apply Permutation_refl.
  assert (E : nth_error (seq 0 n) i = Some i) by (rewrite (nth_error_nth' (seq 0 n) 0) by (rewrite seq_length; auto); rewrite seq_nth by auto; reflexivity).
  pose proof (scatter_inv _ _ O i i E) as Q. rewrite (nth_error_nth _ _ 0 Q). rewrite seq_nth by auto. reflexivity.
Qed.
Lemma renumber_length (l : list (option Q * H)) :
  length (map (fun p : nat * (option Q * H) => (fst (snd p), (fst p, snd (snd p)))) (combine (seq 0 (length l)) l)) = length l.
Proof. rewrite map_length, combine_length, seq_length. lia. Qed.
Lemma load_lemma (s : pd (nat * H)) ids srt : reachable s -> srt = seq 0 (length (data s)) ->
  exists a s' ex, save s ids = Ok a /\ load a srt = Ok (s', ids) /\ exclusions s = Ok ex /\ exclusions s' = Ok ex /\ a_excl a = ex /\
    tsort s' = srt /\ tinv s' = srt /\ tmax s' = None /\
    data s' = map (fun p => (fst (snd p), (fst p, snd (snd (snd p))))) (combine (seq 0 (length (data s))) (data s)).
Proof.
  intros R Esrt. pose proof (reach_wf s R) as W. destruct (exclusions_spec s W) as (ex & Eex & Lex & _).
  unfold save. rewrite Eex. cbn [rbind]. eexists. 
  set (raw := map (fun p : nat * (option Q * H) => (fst (snd p), (fst p, snd (snd p))))
     (combine (seq 0 (length (map (fun x : option Q * (nat * H) => (fst x, snd (snd x))) (data s)))) (map (fun x => (fst x, snd (snd x))) (data s)))).
  assert (Lr : length raw = length (data s)) by (unfold raw; rewrite renumber_length, map_length; reflexivity).
  assert (Er : raw = map (fun p : nat * (option Q * (nat * H)) => (fst (snd p), (fst p, snd (snd (snd p))))) (combine (seq 0 (length (data s))) (data s))).
  { unfold raw. rewrite map_length. generalize (seq 0 (length (data s))) as q. generalize (data s) as dl. clear. induction dl as [|x t IH]; intros [|k q]; cbn; try reflexivity. f_equal. apply IH. }
  assert (C : exists n, calc raw srt None None = Ok (Pd raw srt srt None None n)).
  { unfold calc. rewrite Esrt. rewrite <- Lr. rewrite fancy_seq. cbn [rbind]. rewrite scatter_seq.
    match goal with |- context [listed ?x] => assert (Wx : wf x) end.
    { pose (E0 := Ok (Pd raw (seq 0 (length raw)) (scatter (seq 0 (length raw))) None None 0)). unfold wf. cbn [data tsort tinv stored nhkls].
      rewrite scatter_seq. repeat split; try apply Permutation_refl; auto; try discriminate. }
    rewrite (listed_ok _ Wx). cbn [rbind]. eexists; reflexivity. }
  destruct C as (n & C).
  assert (Fe : fancy ex srt = Ok ex) by (rewrite Esrt, <- Lex; apply fancy_seq).
  exists (Pd raw srt srt (Some ex) None (length (filter negb ex))), ex. split; [reflexivity|].
  split. { unfold load. cbn [a_hkls a_excl a_ids]. fold raw. rewrite C. cbn [rbind]. unfold set_exclusions. cbn [data tinv]. rewrite Lex, Lr, Nat.eqb_refl.
    rewrite Fe. reflexivity. }
  split; [reflexivity|]. split. { unfold exclusions. cbn [stored tmax tsort]. rewrite Fe. reflexivity. }
  cbn [a_excl tsort tinv tmax data]. repeat split; auto.
Qed.
Lemma load_same (s : pd (nat * H)) ids srt : reachable s -> numbered s -> tsort s = seq 0 (length (data s)) -> srt = seq 0 (length (data s)) ->
  exists a s', save s ids = Ok a /\ load a srt = Ok (s', ids) /\ data s' = data s /\ exclusions s' = exclusions s /\ tinv s' = tinv s.
Proof.
  intros R N T E. destruct (load_lemma s ids srt R E) as (a & s' & ex & Ea & El & Ex & Ex' & _ & _ & Ti & _ & D).
  exists a, s'. split; auto. split; auto. split; [|split].
  - rewrite D. assert (K : forall l k, (forall r x, nth_error l r = Some x -> fst (snd x) = k + r) ->
      map (fun p : nat * (option Q * (nat * H)) => (fst (snd p), (fst p, snd (snd (snd p))))) (combine (seq k (length l)) l) = l).
    { induction l as [|[t [i h]] l IH]; intros k Hk; [reflexivity|]. cbn [length seq combine map fst snd]. f_equal.
      - specialize (Hk 0 _ eq_refl). cbn in Hk. rewrite Hk. repeat f_equal. lia.
      - apply IH. intros r x Hr. rewrite (Hk (S r) x Hr). lia. }
    apply K. intros r x Hr. cbn. apply (N r x r Hr). rewrite T. rewrite (nth_error_nth' _ 0); [rewrite seq_nth; auto|rewrite seq_length]; apply nth_error_Some; congruence.
  - congruence.
  - rewrite Ti, E. pose proof (reach_wf s R) as W. unfold wf in W. assert (X : tinv s = scatter (tsort s)) by tauto. rewrite X, T, scatter_seq. reflexivity.
Qed.
End Arch.
