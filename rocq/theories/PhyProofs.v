From Coq Require Import String Ascii List QArith Lia.
From Verif Require Import Prelude PhyModel PhySpec.
Import ListNotations.
Local Open Scope string_scope.
Local Open Scope list_scope.
Local Notation length := List.length.

Lemma get_put_eq {A} k (v : A) d : get k (put k v d) = Some v.
Proof. induction d as [|[k' v'] t IH]; cbn [put get]; [now rewrite String.eqb_refl|]. destruct (String.eqb k' k) eqn:E; cbn [get]; rewrite E; auto. Qed.
Lemma get_put_ne {A} k k' (v : A) d : k' <> k -> get k (put k' v d) = get k d.
Proof.
  intros N. induction d as [|[x w] t IH]; cbn [put get].
  - destruct (String.eqb_spec k' k); congruence.
  - destruct (String.eqb_spec x k'); cbn [get]; [subst; destruct (String.eqb_spec k' k); congruence|]. now rewrite IH.
Qed.
Lemma put_keys {A} k (v w : A) d : get k d = Some w -> map fst (put k v d) = map fst d.
Proof. induction d as [|[x u] t IH]; cbn [put get map]; [discriminate|]. destruct (String.eqb x k); cbn [map fst]; [reflexivity|]. intros H. now rewrite (IH H). Qed.
Lemma get_in {A} k (d : dict A) : In k (map fst d) -> exists v, get k d = Some v.
Proof. induction d as [|[x u] t IH]; cbn [map get In fst]; [tauto|]. destruct (String.eqb_spec x k); [eauto|]. intros [H|H]; [congruence|auto]. Qed.

Lemma count_app s t : count_us (s ++ t)%string = (count_us s + count_us t)%nat.
Proof. induction s as [|c s IH]; [reflexivity|]. cbn [count_us append]. rewrite IH. lia. Qed.
Lemma split_join n a : count_us n = 0%nat -> split_us (n ++ "_" ++ a)%string = (n, a).
Proof.
  induction n as [|c n IH]; [reflexivity|]. cbn [count_us append split_us]. destruct (Ascii.eqb c "_"); [discriminate|]. intros H. cbn [Nat.add] in H.
  change (n ++ String "_" a)%string with (n ++ "_" ++ a)%string. now rewrite (IH H).
Qed.
Lemma split_one s : (1 <= count_us s)%nat -> s = (fst (split_us s) ++ "_" ++ snd (split_us s))%string.
Proof.
  induction s as [|c s IH]; cbn [count_us split_us]; [lia|]. destruct (Ascii.eqb_spec c "_") as [->|N]; [reflexivity|]. intros H. cbn [Nat.add] in H. specialize (IH H).
  destruct (split_us s) as [x y]. cbn [fst snd] in *. cbn [append]. now rewrite IH at 1.
Qed.

Definition value (p : package) (n a : string) : option pval := match get n (layers p) with Some l => get a l | None => None end.
Definition holds (p : package) (n a : string) (x : pval) : Prop :=
  value p n a = Some x /\ (get (n ++ "_" ++ a)%string (own p) = None \/ get (n ++ "_" ++ a)%string (own p) = Some x).
Lemma set_layer_kind p k v : pk (set_layer p k v) = pk p.
Proof. unfold set_layer. destruct (Nat.eqb _ _); [|reflexivity]. destruct (split_us k). destruct (get _ _); reflexivity. Qed.
Lemma set_layer_own p k v : own (set_layer p k v) = own p.
Proof. unfold set_layer. destruct (Nat.eqb _ _); [|reflexivity]. destruct (split_us k). destruct (get _ _); reflexivity. Qed.
Lemma set_layer_names p k v : map fst (layers (set_layer p k v)) = map fst (layers p).
Proof. unfold set_layer. destruct (Nat.eqb _ _); [|reflexivity]. destruct (split_us k) as [n a]. destruct (get n _) eqn:E; [|reflexivity]. cbn [layers]. now apply put_keys with (w := d). Qed.
Lemma set_layer_same p n a v : count_us n = 0%nat -> count_us a = 0%nat -> In n (map fst (layers p)) -> value (set_layer p (n ++ "_" ++ a) v) n a = Some v.
Proof.
  intros Hn Ha I. unfold set_layer. rewrite !count_app, Hn, Ha, split_join by exact Hn. cbn. destruct (get_in _ _ I) as [l E]. rewrite E. unfold value. cbn [layers].
  now rewrite !get_put_eq.
Qed.
Lemma set_layer_other p k n a v : count_us n = 0%nat -> k <> (n ++ "_" ++ a)%string -> value (set_layer p k v) n a = value p n a.
Proof.
  intros Hn N. unfold set_layer. destruct (Nat.eqb_spec (count_us k) 1) as [C|C]; [|reflexivity]. pose proof (split_one k ltac:(lia)) as S1. destruct (split_us k) as [n' a'].
  cbn [fst snd] in S1. destruct (get n' (layers p)) as [l|] eqn:E; [|reflexivity]. unfold value. cbn [layers]. destruct (string_dec n' n) as [->|D].
  - rewrite get_put_eq, E. apply get_put_ne. intros ->. congruence.
  - now rewrite get_put_ne by exact D.
Qed.
Lemma holds_layer p k n a v x : count_us n = 0%nat -> k <> (n ++ "_" ++ a)%string -> holds p n a x -> holds (set_layer p k v) n a x.
Proof. intros Hn N [H1 H2]. split; [now rewrite set_layer_other|now rewrite set_layer_own]. Qed.
Lemma holds_other p k n a v x : count_us n = 0%nat -> k <> (n ++ "_" ++ a)%string -> holds p n a x -> holds (plain_set p k v) n a x.
Proof.
  intros Hn N H. destruct (holds_layer p k n a v x Hn N H) as [H1 H2]. split; [exact H1|]. unfold plain_set. cbn [own]. now rewrite get_put_ne.
Qed.
Lemma holds_same p n a v : count_us n = 0%nat -> count_us a = 0%nat -> In n (map fst (layers p)) -> holds (plain_set p (n ++ "_" ++ a) v) n a v.
Proof. intros Hn Ha I. split; [exact (set_layer_same p n a v Hn Ha I)|]. right. unfold plain_set. cbn [own]. apply get_put_eq. Qed.

Definition plain_name (k : kind) (key : string) : bool :=
  andb (negb (String.eqb key "type")) (negb (String.eqb key (match k with HED => "pinhole_radius" | HEDM => "sample_diameter" end))).
Lemma fields_ok k n a : In n (layer_types k) -> In a (fields k n) ->
  count_us n = 0%nat /\ count_us a = 0%nat /\ starts_us (n ++ "_" ++ a) = false /\ plain_name k (n ++ "_" ++ a) = true /\ value (fresh k) n a = Some (initial n a).
Proof.
  assert (H : forallb (fun n => forallb (fun a => andb (andb (Nat.eqb (count_us n) 0) (Nat.eqb (count_us a) 0)) (andb (negb (starts_us (n ++ "_" ++ a)))
     (plain_name k (n ++ "_" ++ a)))) (fields k n)) (layer_types k) = true) by (destruct k; reflexivity).
  intros I J. pose proof (proj1 (forallb_forall _ _) (proj1 (forallb_forall _ _) H n I) a J) as K. cbv beta in K.
  rewrite !andb_true_iff, !Nat.eqb_eq, negb_true_iff in K. destruct K as [[K1 K2] [K3 K4]]. repeat split; try assumption.
  destruct k; repeat (destruct I as [<-|I]; [repeat (destruct J as [<-|J]; [reflexivity|]); contradiction J|]); contradiction I.
Qed.
Lemma plain_get_holds p n a x : count_us n = 0%nat -> count_us a = 0%nat -> starts_us (n ++ "_" ++ a) = false -> holds p n a x -> plain_get p (n ++ "_" ++ a)%string = Ok x.
Proof.
  intros Hn Ha Hs [H1 H2]. unfold plain_get. destruct H2 as [-> | ->]; [|reflexivity]. unfold getattr_missing. rewrite Hs, split_join, !count_app, Hn, Ha by exact Hn. cbn.
  unfold value in H1. destruct (get n (layers p)); [|discriminate]. now rewrite H1.
Qed.
Lemma get_plain p key : plain_name (pk p) key = true -> get_attr p key = plain_get p key.
Proof.
  unfold plain_name, get_attr. rewrite andb_true_iff, !negb_true_iff. intros [H1 H2]. destruct (pk p); now rewrite H1, H2.
Qed.

Definition good (k : kind) (p : package) (val : string -> string -> pval) : Prop :=
  pk p = k /\ map fst (layers p) = layer_types k /\ forall n a, In n (layer_types k) -> In a (fields k n) -> holds p n a (val n a).
Lemma good_fresh k : good k (fresh k) initial.
Proof. split; [reflexivity|]. split; [destruct k; reflexivity|]. intros n a I J. destruct (fields_ok k n a I J) as (_ & _ & _ & _ & H). split; [exact H|now left]. Qed.
Lemma plain_good k p val key v n a : good k p val -> In n (layer_types k) -> In a (fields k n) ->
  holds (plain_set p key v) n a (if String.eqb key (n ++ "_" ++ a) then v else val n a).
Proof.
  intros (K & L & H) I J. destruct (fields_ok k n a I J) as (Hn & Ha & _). destruct (String.eqb_spec key (n ++ "_" ++ a)) as [->|N].
  - apply holds_same; [exact Hn|exact Ha|now rewrite L].
  - now apply holds_other; auto.
Qed.
Lemma good_layer k p val key v : good k p val -> plain_name k key = false -> good k (set_layer p key v) val.
Proof.
  intros (K & L & H) N. split; [now rewrite set_layer_kind|]. split; [now rewrite set_layer_names|]. intros n a I J. destruct (fields_ok k n a I J) as (Hn & Ha & Hs & Hp & _).
  apply holds_layer; auto. intros ->. congruence.
Qed.
Lemma good_step k p val key v : good k p val -> good k (fst (set_attr p key v)) (fun n a => assigned k n a (val n a) (key, v)).
Proof.
  intros G. pose proof G as (K & L & H). unfold set_attr. cbv zeta. rewrite K. unfold assigned. cbn [fst snd].
  assert (Same : plain_name k key = false -> forall n a, In n (layer_types k) -> In a (fields k n) -> String.eqb key (n ++ "_" ++ a)%string = false).
  { intros N n a I J. destruct (fields_ok k n a I J) as (_ & _ & _ & Hp & _). destruct (String.eqb_spec key (n ++ "_" ++ a)%string); [congruence|reflexivity]. }
  assert (Plain : good k (plain_set p key v) (fun n a => if String.eqb key (n ++ "_" ++ a)%string then v else val n a)).
  { split; [unfold plain_set; cbn [pk]; now rewrite set_layer_kind|]. split; [unfold plain_set; cbn [layers]; now rewrite set_layer_names|]. intros n a I J. now apply plain_good with (k := k). }
  destruct (String.eqb_spec key "type") as [->|T].
  { cbn [fst]. destruct (good_layer k p val "type" v G ltac:(destruct k; reflexivity)) as (A & B & C). split; [exact A|]. split; [exact B|]. intros n a I J.
    rewrite (Same ltac:(destruct k; reflexivity) n a I J). replace (match k with HED => _ | HEDM => _ end) with (val n a) by (destruct k, v; reflexivity). now apply C. }
  destruct k.
  - destruct (String.eqb_spec key "pinhole_radius") as [->|N].
    + pose proof (good_layer HED p val "pinhole_radius" v G eq_refl) as G2. destruct v as [|s|r]; cbn [fst].
      1,2: destruct G2 as (A & B & C); split; [exact A|]; split; [exact B|]; intros n a I J; rewrite (Same eq_refl n a I J); now apply C.
      split; [unfold plain_set; cbn [pk]; now rewrite !set_layer_kind|]. split; [unfold plain_set; cbn [layers]; now rewrite !set_layer_names|]. intros n a I J.
      rewrite (Same eq_refl n a I J). cbn [andb]. pose proof (plain_good HED _ val "pinhole_diameter" (PNum (2 * r)) n a G2 I J) as P. rewrite String.eqb_sym. exact P.
    + cbn [fst]. destruct Plain as (A & B & C). split; [exact A|]. split; [exact B|]. intros n a I J. specialize (C n a I J). cbn [andb]. destruct v; exact C.
  - destruct (String.eqb_spec key "sample_diameter") as [->|N].
    + cbn [fst]. destruct (good_layer HEDM p val "sample_diameter" v G eq_refl) as (A & B & C). split; [exact A|]. split; [exact B|]. intros n a I J. rewrite (Same eq_refl n a I J). now apply C.
    + cbn [fst]. exact Plain.
Qed.
Lemma good_run k h : forall p val, good k p val -> good k (run p h) (fun n a => fold_left (assigned k n a) h (val n a)).
Proof.
  induction h as [|[key v] t IH]; intros p val G; [exact G|]. unfold run. cbn [fold_left fst snd]. apply (IH _ _ (good_step k p val key v G)).
Qed.
Lemma good_last k h : good k (run (fresh k) h) (fun n a => last_value k n a h).
Proof. exact (good_run k h _ _ (good_fresh k)). Qed.
Lemma good_get k p val n a : good k p val -> In n (layer_types k) -> In a (fields k n) -> get_attr p (n ++ "_" ++ a)%string = Ok (val n a).
Proof.
  intros (K & L & H) I J. destruct (fields_ok k n a I J) as (Hn & Ha & Hs & Hp & _). rewrite get_plain by (now rewrite K). apply plain_get_holds; auto.
Qed.

Definition names (k : kind) : list (string * string) := flat_map (fun n => map (pair n) (fields k n)) (layer_types k).
Definition join (na : string * string) : string := (fst na ++ "_" ++ snd na)%string.
Lemma in_names k na : In na (names k) <-> In (fst na) (layer_types k) /\ In (snd na) (fields k (fst na)).
Proof.
  unfold names. rewrite in_flat_map. split.
  - intros (n & I & J). apply in_map_iff in J. destruct J as (a & <- & J). now split.
  - intros [I J]. exists (fst na). split; [exact I|]. apply in_map_iff. exists (snd na). split; [now destruct na|exact J].
Qed.
Lemma attributes_names k p : pk p = k -> map fst (layers p) = layer_types k -> attributes_to_serialize p = map join (names k).
Proof.
  intros K L. unfold attributes_to_serialize, names. rewrite K, <- L. clear L. induction (layers p) as [|[n l] t IH]; [reflexivity|]. cbn [map flat_map fst]. rewrite map_app, <- IH. f_equal.
  rewrite map_map. reflexivity.
Qed.
Lemma read_all_good k p val l : good k p val -> (forall na, In na l -> In na (names k)) -> read_all p (map join l) = Ok (map (fun na => (join na, val (fst na) (snd na))) l).
Proof.
  intros G. induction l as [|[n a] t IH]; intros S1; [reflexivity|]. cbn [map read_all]. pose proof (proj1 (in_names k _) (S1 _ (or_introl eq_refl))) as [I J]. cbn [fst snd] in I, J.
  unfold join at 1. cbn [fst snd]. rewrite (good_get k p val n a G I J). cbn [rbind]. rewrite IH by (intros; apply S1; now right). reflexivity.
Qed.
Lemma serialize_good k p val : good k p val -> serialize p = Ok (map (fun na => (join na, val (fst na) (snd na))) (names k)).
Proof. intros G. pose proof G as (K & L & _). unfold serialize. rewrite (attributes_names k p K L). now apply read_all_good with (k := k). Qed.
Lemma set_plain_ok p key v : plain_name (pk p) key = true -> set_attr p key v = (plain_set p key v, None).
Proof. unfold plain_name, set_attr. rewrite andb_true_iff, !negb_true_iff. intros [H1 H2]. rewrite H1. destruct (pk p); now rewrite H2. Qed.
Lemma deserialize_run p k kw : pk p = k -> (forall kv, In kv kw -> plain_name k (fst kv) = true) -> deserialize p kw = (run p kw, None).
Proof.
  revert p. induction kw as [|[key v] t IH]; intros p K H; [reflexivity|]. cbn [deserialize]. pose proof (H _ (or_introl eq_refl)) as P. cbn [fst] in P.
  unfold run. cbn [fold_left fst snd]. rewrite set_plain_ok by (now rewrite K). cbn [fst]. apply IH; [unfold plain_set; cbn [pk]; now rewrite set_layer_kind|].
  intros; apply H; now right.
Qed.
Lemma fold_assigned k n a vals l : In (n, a) l -> NoDup (map join l) -> (forall na, In na l -> plain_name k (join na) = true) ->
  forall old, fold_left (assigned k n a) (map (fun na => (join na, vals na)) l) old = vals (n, a).
Proof.
  assert (E : forall na old, plain_name k (join na) = true -> assigned k n a old (join na, vals na) = if String.eqb (join na) (join (n, a)) then vals na else old).
  { intros na old P. unfold assigned. cbn [fst snd]. change (n ++ "_" ++ a)%string with (join (n, a)). destruct (String.eqb (join na) (join (n, a))); [reflexivity|]. destruct k; [|destruct (vals na); reflexivity].
    unfold plain_name in P. rewrite andb_true_iff, !negb_true_iff in P. destruct P as [_ ->]. destruct (vals na); reflexivity. }
  assert (Out : forall l old, ~ In (join (n, a)) (map join l) -> (forall na, In na l -> plain_name k (join na) = true) ->
     fold_left (assigned k n a) (map (fun na => (join na, vals na)) l) old = old).
  { clear l. induction l as [|na t IH]; intros old N P; [reflexivity|]. cbn [map fold_left]. rewrite E by (apply P; now left). cbn [map In] in N.
    destruct (String.eqb_spec (join na) (join (n, a))); [tauto|]. apply IH; [tauto|]. intros; apply P; now right. }
  induction l as [|na t IH]; intros I D P old; [contradiction|]. cbn [map fold_left]. rewrite E by (apply P; now left). cbn [map] in D. apply NoDup_cons_iff in D. destruct D as [D1 D2].
  destruct I as [->|I].
  - rewrite String.eqb_refl. apply Out; [exact D1|]. intros; apply P; now right.
  - apply IH; auto. intros; apply P; now right.
Qed.
Lemma nodup_names k : NoDup (map join (names k)).
Proof. destruct k; vm_compute; repeat (constructor; [cbn [In]; intuition discriminate|]); constructor. Qed.
Lemma names_plain k na : In na (names k) -> plain_name k (join na) = true.
Proof. intros H. apply in_names in H. destruct H as [I J]. exact (proj1 (proj2 (proj2 (proj2 (fields_ok k _ _ I J))))). Qed.
