From Coq Require Import String Ascii DecimalString DecimalNat DecimalZ DecimalFacts Sorted FinFun.
From Verif Require Import Prelude NamesModel NamesSpec.
Local Notation length := List.length.
Local Open Scope string_scope.
Local Open Scope list_scope.

(** ** strings *)
Lemma app_assoc_s : forall a b c : string, (a +++ b) +++ c = a +++ b +++ c.
Proof. induction a as [|x a IH]; intros; cbn; [reflexivity | rewrite IH; reflexivity]. Qed.
Lemma app_nil_s : forall a : string, a +++ "" = a.
Proof. induction a as [|x a IH]; cbn; [reflexivity | rewrite IH; reflexivity]. Qed.
Lemma app_length_s : forall a b : string, String.length (a +++ b) = String.length a + String.length b.
Proof. induction a as [|x a IH]; intros; cbn; [reflexivity | rewrite IH; reflexivity]. Qed.
Lemma app_cancel_r : forall a b c : string, a +++ c = b +++ c -> a = b.
Proof.
  induction a as [|x a IH]; intros [|y b] c H; [reflexivity | | |].
  - apply (f_equal String.length) in H. cbn in H. rewrite app_length_s in H. lia.
  - apply (f_equal String.length) in H. cbn in H. rewrite app_length_s in H. lia.
  - cbn in H. injection H as -> H. f_equal. exact (IH b c H).
Qed.
Lemma app_cancel_l : forall a b c : string, a +++ b = a +++ c -> b = c.
Proof. induction a as [|x a IH]; intros b c H; [exact H | injection H as H; exact (IH b c H)]. Qed.

Lemma to_uint_nonnil : forall n, Nat.to_uint n <> Decimal.Nil.
Proof.
  intros n H. pose proof (DecimalNat.Unsigned.of_to n) as E. rewrite H in E. cbn in E. subst n. discriminate H.
Qed.
Lemma dec_inj : forall i j, dec i = dec j -> i = j.
Proof.
  intros i j H. unfold dec in H. apply (f_equal NilZero.uint_of_string) in H.
  rewrite !NilZero.usu in H by apply to_uint_nonnil. injection H as H. apply DecimalNat.Unsigned.to_uint_inj; exact H.
Qed.

Lemma mem_in : forall s l, mem s l = true <-> In s l.
Proof.
  intros s l; unfold mem; rewrite existsb_exists; split.
  - intros [x [H E]]. apply String.eqb_eq in E; subst; exact H.
  - intros H; exists s; split; [exact H | apply String.eqb_refl].
Qed.
Lemma mem_notin : forall s l, mem s l = false <-> ~ In s l.
Proof. intros s l; rewrite <- mem_in; destruct (mem s l); split; congruence. Qed.

(** ** renaming *)
Definition cand (name : string) (i : nat) : string := dec i +++ "_" +++ name.
Lemma cand_inj : forall name i j, cand name i = cand name j -> i = j.
Proof. intros name i j H. apply dec_inj. unfold cand in H. eapply app_cancel_r; exact H. Qed.

Lemma first_free_spec : forall fuel i name names,
  (exists j, first_free fuel i name names = Ok j /\ i <= j /\ ~ In (cand name j) names /\ forall k, i <= k < j -> In (cand name k) names) \/
  (first_free fuel i name names = Err OutOfFuel /\ forall k, k < fuel -> In (cand name (i + k)) names).
Proof.
  induction fuel as [|f IH]; intros i name names.
  - right; split; [reflexivity | lia].
  - cbn [first_free]. change (dec i +++ "_" +++ name) with (cand name i).
    destruct (mem (cand name i) names) eqn:E.
    + apply mem_in in E. destruct (IH (i + 1) name names) as [[j [A [B [C D]]]]|[A B]].
      * left; exists j; repeat split; auto; [lia|]. intros k Hk. destruct (Nat.eq_dec k i) as [->|N]; [exact E | apply D; lia].
      * right; split; [exact A|]. intros k Hk. destruct k as [|k]; [rewrite Nat.add_0_r; exact E|].
        replace (i + S k) with (i + 1 + k) by lia. apply B; lia.
    + apply mem_notin in E. left; exists i; repeat split; auto; lia.
Qed.
Lemma first_free_ok : forall name names, exists j, first_free (S (length names)) 1 name names = Ok j /\ 1 <= j /\ ~ In (cand name j) names.
Proof.
  intros name names. destruct (first_free_spec (S (length names)) 1 name names) as [[j [A [B [C D]]]]|[A B]]; [exists j; auto|].
  exfalso.
  assert (N : NoDup (map (cand name) (seq 1 (S (length names))))).
  { apply Injective_map_NoDup; [intros a b; apply cand_inj | apply seq_NoDup]. }
  assert (I : incl (map (cand name) (seq 1 (S (length names)))) names).
  { intros x Hx. apply in_map_iff in Hx. destruct Hx as [k [<- Hk]]. apply in_seq in Hk.
    replace k with (1 + (k - 1)) by lia. apply B; lia. }
  pose proof (NoDup_incl_length N I) as L. rewrite map_length, seq_length in L. lia.
Qed.

Lemma dict_get_set_eq : forall d k v, dict_get (dict_set d k v) k = Some v.
Proof.
  induction d as [|[k' v'] d IH]; intros k v; cbn [dict_set].
  - cbn [dict_get]. rewrite String.eqb_refl. reflexivity.
  - destruct (String.eqb k k') eqn:E; cbn [dict_get]; rewrite E; [reflexivity | apply IH].
Qed.
Lemma dict_get_set_ne : forall d k v x, x <> k -> dict_get (dict_set d k v) x = dict_get d x.
Proof.
  induction d as [|[k' v'] d IH]; intros k v x H; cbn [dict_set].
  - cbn [dict_get]. apply String.eqb_neq in H; rewrite H; reflexivity.
  - destruct (String.eqb_spec k k') as [E|E]; cbn [dict_get].
    + subst k'. apply String.eqb_neq in H; rewrite H; reflexivity.
    + destruct (String.eqb x k'); [reflexivity | apply IH; exact H].
Qed.

Section R.
Context {A : Type}.
Lemma rename_loop_spec : forall (params new : list (string * A)) current mp,
  NoDup (map fst new) -> (forall n, In n (map fst new) -> ~ In n current) ->
  exists out mp', rename_loop current params new mp = Ok (new ++ out, mp') /\
    map snd out = map snd params /\ NoDup (map fst (new ++ out)) /\ (forall n, In n (map fst (new ++ out)) -> ~ In n current) /\
    Forall2 (fun p q => renamed_from dec (fst p) (fst q)) params out /\
    (NoDup (current ++ map fst new ++ map fst params) -> out = params) /\
    (forall x, ~ In x (map fst params) -> dict_get mp' x = dict_get mp x) /\
    (NoDup (map fst params) -> Forall2 (fun p q => dict_get mp' (fst p) = Some (fst q)) params out).
Proof.
  induction params as [|[old a] r IH]; intros new current mp N D.
  - exists [], mp. cbn [rename_loop]. rewrite app_nil_r. repeat split; auto.
  - cbn [rename_loop]. set (names := current ++ map fst new).
    assert (S1 : exists nm, (if mem old names then do i <- first_free (S (length names)) 1 old names; Ok (dec i +++ "_" +++ old) else Ok old) = Ok nm /\
        ~ In nm names /\ renamed_from dec old nm /\ (~ In old names -> nm = old)).
    { destruct (mem old names) eqn:E.
      - destruct (first_free_ok old names) as [j [F [G H]]]. rewrite F. cbn [rbind]. exists (cand old j).
        split; [reflexivity|]. split; [exact H|]. split; [right; exists j; split; [exact G | reflexivity]|].
        apply mem_in in E. tauto.
      - apply mem_notin in E. exists old. split; [reflexivity|]. split; [exact E|]. split; [left; reflexivity | auto]. }
    destruct S1 as [nm [E1 [F1 [R1 K1]]]]. rewrite E1. cbn [rbind].
    unfold names in F1, K1. rewrite in_app_iff in F1.
    destruct (IH (new ++ [(nm, a)]) current (dict_set mp old nm)) as [out [mp' [I1 [I2 [I3 [I4 [I5 [I6 [I7 I8]]]]]]]]].
    + rewrite map_app. cbn [map fst]. apply NoDup_app_snoc; tauto.
    + intros n Hn. rewrite map_app in Hn. apply in_app_or in Hn. destruct Hn as [Hn|[<-|[]]]; [apply D; exact Hn | cbn; tauto].
    + exists ((nm, a) :: out), mp'. rewrite <- app_assoc in I1, I3, I4. cbn [app] in I1, I3, I4.
      split; [exact I1|]. split; [cbn; f_equal; exact I2|]. split; [exact I3|]. split; [exact I4|].
      split; [constructor; [exact R1 | exact I5]|].
      split.
      { intros Nd. rewrite map_cons in Nd. cbn [fst] in Nd.
        assert (Eo : nm = old).
        { apply K1. intros H. rewrite app_assoc in Nd. apply NoDup_remove_2 in Nd. apply Nd. apply in_or_app; left; exact H. }
        subst nm. f_equal. apply I6. rewrite map_app. cbn [map fst]. rewrite <- app_assoc. cbn [app]. exact Nd. }
      split.
      { intros x Hx. cbn [map fst In] in Hx. rewrite I7 by tauto. apply dict_get_set_ne. intros ->. tauto. }
      intros Nd. cbn [map fst] in Nd. inversion Nd as [|? ? Na Nr]; subst. constructor; [|apply I8; exact Nr].
      cbn [fst]. rewrite I7 by exact Na. apply dict_get_set_eq.
Qed.
Theorem rename_lemma : forall params all_params : list (string * A),
  exists new mp, rename_params params all_params = Ok (new, mp) /\
    map snd new = map snd params /\ NoDup (map fst new) /\ (forall n, In n (map fst new) -> ~ In n (map fst all_params)) /\
    pointwise (fun p q => renamed_from dec (fst p) (fst q)) params new /\
    (NoDup (map fst all_params ++ map fst params) -> new = params) /\
    (NoDup (map fst params) -> pointwise (fun p q => dict_get mp (fst p) = Some (fst q)) params new).
Proof.
  intros params all_params. destruct (rename_loop_spec params [] (map fst all_params) []) as [out [mp [H [H1 [H2 [H3 [H4 [H5 [_ H7]]]]]]]]].
  - constructor.
  - intros n [].
  - exists out, mp. cbn [app] in *. repeat split; auto.
Qed.

Lemma dup_names_nil : forall l : list (string * A), duplicate_names l = [] <-> NoDup (map fst l).
Proof.
  induction l as [|[x a] r IH]; [split; [constructor | reflexivity]|].
  assert (F : flat_map (fun y : string * A => if String.eqb x (fst y) then [x] else []) r = [] <-> ~ In x (map fst r)).
  { clear. induction r as [|[y b] r IH]; [cbn; tauto|]. cbn [flat_map map fst In].
    destruct (String.eqb_spec x y) as [E|E]; [subst; split; [discriminate | intros H; exfalso; apply H; left; reflexivity]|].
    cbn [app]. rewrite IH. split; [intros H [C|C]; [apply E; symmetry; exact C | exact (H C)] | tauto]. }
  cbn [duplicate_names map fst]. split.
  - intros H. apply app_eq_nil in H. destruct H as [H1 H2]. constructor; [apply F; exact H1 | apply IH; exact H2].
  - intros H. inversion H as [|? ? Na Nr]; subst. rewrite (proj2 F Na), (proj2 IH Nr). reflexivity.
Qed.
Theorem validate_lemma : forall l : list (string * A), (validate_params l = Ok tt <-> NoDup (map fst l)) /\ (validate_params l = Ok tt \/ validate_params l = Err ValueError).
Proof.
  intros l. rewrite <- dup_names_nil. unfold validate_params. destruct (duplicate_names l); split; auto; split; congruence.
Qed.
Lemma NoDup_app_s : forall l1 l2 : list string, NoDup l1 -> NoDup l2 -> (forall x, In x l2 -> ~ In x l1) -> NoDup (l1 ++ l2).
Proof.
  induction l1 as [|a l1 IH]; intros l2 H1 H2 D; [exact H2|]. inversion H1 as [|? ? Na H1']; subst.
  cbn [app]. constructor.
  - intros K. apply in_app_or in K. destruct K as [K|K]; [contradiction | exact (D a K (or_introl eq_refl))].
  - apply IH; auto. intros x A1 B1; exact (D x A1 (or_intror B1)).
Qed.
Theorem rename_validates_lemma : forall params all_params new : list (string * A), forall mp,
  validate_params all_params = Ok tt -> rename_params params all_params = Ok (new, mp) -> validate_params (all_params ++ new) = Ok tt.
Proof.
  intros params all_params new mp V R. apply validate_lemma. apply validate_lemma in V.
  destruct (rename_lemma params all_params) as [new' [mp' [E [_ [N [D _]]]]]]. rewrite E in R. injection R as <- <-.
  rewrite map_app. apply NoDup_app_s; auto.
Qed.
End R.

(** ** distortion slots *)
Lemma prefixb_app : forall p s, prefixb p (p +++ s) = true.
Proof. induction p as [|c p IH]; intros s; cbn; [reflexivity | rewrite Ascii.eqb_refl; apply IH]. Qed.
Lemma containsb_app : forall p s, containsb p (p +++ s) = true.
Proof. intros p s. destruct (p +++ s) eqn:E; unfold containsb; fold containsb; rewrite <- E, prefixb_app; reflexivity. Qed.
Lemma str_leb_app : forall p a b, str_leb (p +++ a) (p +++ b) = str_leb a b.
Proof. induction p as [|c p IH]; intros a b; [reflexivity|]. cbn [String.append str_leb]. rewrite Nat.ltb_irrefl. apply IH. Qed.

Definition pat (det : string) : string := dash_to_us det +++ "_distortion_param".
Lemma distortion_name_pat : forall det i, distortion_name det i = pat det +++ "_" +++ dec i.
Proof. intros det i. unfold distortion_name, pat. rewrite app_assoc_s. reflexivity. Qed.
Lemma distortion_name_inj : forall det i j, distortion_name det i = distortion_name det j -> i = j.
Proof.
  intros det i j H. rewrite !distortion_name_pat in H. apply app_cancel_l in H. apply (app_cancel_l "_") in H. apply dec_inj; exact H.
Qed.

Lemma ins_min : forall x l, match l with [] => True | y :: _ => str_leb x y = true end -> ins x l = x :: l.
Proof. intros x [|y l] H; [reflexivity|]. cbn [ins]. rewrite H. reflexivity. Qed.
Lemma sort_seq : forall det n i, i + n <= 10 -> np_sort (map (distortion_name det) (seq i n)) = map (distortion_name det) (seq i n).
Proof.
  intros det; induction n as [|n IH]; intros i H; [reflexivity|].
  change (map (distortion_name det) (seq i (S n))) with (distortion_name det i :: map (distortion_name det) (seq (S i) n)).
  change (np_sort (distortion_name det i :: map (distortion_name det) (seq (S i) n)))
    with (ins (distortion_name det i) (np_sort (map (distortion_name det) (seq (S i) n)))).
  rewrite IH by lia. apply ins_min. destruct n as [|n]; [exact Logic.I|]. cbn [seq map].
  rewrite !distortion_name_pat, str_leb_app.
  change (str_leb (dec i) (dec (S i)) = true).
  do 10 (destruct i as [|i]; [reflexivity || lia|]). lia.
Qed.

Section Dist.
Context {V : Type}.
Lemma distortion_params_fst : forall det (vals : list V), map fst (distortion_params det vals) = map (distortion_name det) (seq 0 (length vals)).
Proof.
  intros det vals. unfold distortion_params. rewrite map_map. cbn [fst].
  rewrite <- (map_map fst (distortion_name det)). f_equal. generalize 0. induction vals as [|v r IH]; intros k; [reflexivity|].
  cbn [length seq combine map fst]. f_equal. apply IH.
Qed.
Lemma filter_none : forall (P : string -> bool) l, (forall x, In x l -> P x = false) -> filter P l = [].
Proof. intros P; induction l as [|a l IH]; intros H; [reflexivity|]. cbn. rewrite (H a (or_introl eq_refl)). apply IH. intros; apply H; right; assumption. Qed.
Lemma filter_all : forall (P : string -> bool) l, (forall x, In x l -> P x = true) -> filter P l = l.
Proof. intros P; induction l as [|a l IH]; intros H; [reflexivity|]. cbn. rewrite (H a (or_introl eq_refl)). f_equal. apply IH. intros; apply H; right; assumption. Qed.
Lemma dict_get_app_r : forall (d e : list (string * V)) k, ~ In k (map fst d) -> dict_get (d ++ e) k = dict_get e k.
Proof.
  induction d as [|[k' v] d IH]; intros e k H; [reflexivity|]. cbn [app dict_get]. cbn [map fst In] in H.
  destruct (String.eqb_spec k k') as [E|E]; [subst; exfalso; apply H; left; reflexivity | apply IH; tauto].
Qed.
Definition get_all (params : list (string * V)) := (fix get (l : list string) : result (list V) :=
  match l with
  | [] => Ok []
  | x :: r => match dict_get params x with Some v => do t <- get r; Ok (v :: t) | None => Err KeyError end
  end).
Lemma get_all_cons : forall params x r, get_all params (x :: r) = match dict_get params x with Some v => do t <- get_all params r; Ok (v :: t) | None => Err KeyError end.
Proof. reflexivity. Qed.

Definition block (det : string) (k : nat) (vals : list V) : list (string * V) :=
  map (fun iv : nat * V => (distortion_name det (fst iv), snd iv)) (combine (seq k (length vals)) vals).
Lemma get_block : forall det vals k pre post, (forall p, In p pre -> ~ exists i, k <= i /\ p = distortion_name det i) ->
  forall (prev : list (string * V)), map fst prev = pre ->
  get_all (prev ++ block det k vals ++ post) (map (distortion_name det) (seq k (length vals))) = Ok vals.
Proof.
  intros det; induction vals as [|v r IH]; intros k pre post Hp prev E; [reflexivity|].
  cbn [length seq map]. rewrite get_all_cons.
  rewrite dict_get_app_r by (rewrite E; intros C; apply (Hp _ C); exists k; split; [lia | reflexivity]).
  unfold block at 1. cbn [length seq combine map fst snd app dict_get]. rewrite String.eqb_refl.
  assert (S1 : get_all ((prev ++ [(distortion_name det k, v)]) ++ block det (S k) r ++ post) (map (distortion_name det) (seq (S k) (length r))) = Ok r).
  { apply (IH (S k) (pre ++ [distortion_name det k]) post).
    - intros p Hin [i [Hi Ei]]. apply in_app_or in Hin. destruct Hin as [Hin|[<-|[]]].
      + apply (Hp p Hin). exists i; split; [lia | exact Ei].
      + apply distortion_name_inj in Ei. lia.
    - rewrite map_app, E. reflexivity. }
  rewrite <- app_assoc in S1. cbn [app] in S1.
  change (block det k (v :: r)) with ((distortion_name det k, v) :: block det (S k) r). cbn [app]. rewrite S1. reflexivity.
Qed.

Theorem distortion_roundtrip_lemma : forall det (vals : list V) pre post,
  1 <= length vals <= 10 ->
  (forall p, In p (map fst pre ++ map fst post) -> containsb (pat det) p = false) ->
  update_distortion det (pre ++ distortion_params det vals ++ post) (Some (length vals)) = Ok (Some vals).
Proof.
  intros det vals pre post L H. unfold update_distortion. fold (pat det).
  set (params := pre ++ distortion_params det vals ++ post).
  assert (Blk : forall x, In x (map (distortion_name det) (seq 0 (length vals))) -> containsb (pat det) x = true).
  { intros x Hx. apply in_map_iff in Hx. destruct Hx as [i [<- _]]. rewrite distortion_name_pat. apply containsb_app. }
  assert (Ex : existsb (fun p : string * V => containsb (pat det) (fst p)) params = true).
  { apply existsb_exists. destruct vals as [|v r]; [cbn in L; lia|]. exists (distortion_name det 0, v). split.
    - unfold params. apply in_or_app; right. apply in_or_app; left. left; reflexivity.
    - cbn [fst]. rewrite distortion_name_pat. apply containsb_app. }
  rewrite Ex.
  assert (Fl : filter (containsb (pat det)) (map fst params) = map (distortion_name det) (seq 0 (length vals))).
  { unfold params. rewrite !map_app, !filter_app, distortion_params_fst.
    rewrite (filter_none _ (map fst pre)), (filter_none _ (map fst post)), (filter_all _ _ Blk).
    - rewrite app_nil_r. reflexivity.
    - intros x Hx; apply H; apply in_or_app; right; exact Hx.
    - intros x Hx; apply H; apply in_or_app; left; exact Hx. }
  rewrite Fl, sort_seq by lia. fold (get_all params).
  assert (G : get_all params (map (distortion_name det) (seq 0 (length vals))) = Ok vals).
  { unfold params. apply (get_block det vals 0 (map fst pre) post); [|reflexivity].
    intros p Hp [i [_ Ei]]. assert (K : containsb (pat det) p = false) by (apply H; apply in_or_app; left; exact Hp).
    rewrite Ei, distortion_name_pat, containsb_app in K. discriminate. }
  rewrite G. cbn [rbind]. rewrite Nat.eqb_refl. reflexivity.
Qed.
End Dist.

(** ** hkl strings *)
Fixpoint clean (s : string) : Prop :=
  match s with EmptyString => True | String c r => bracket c = false /\ Ascii.eqb c " " = false /\ clean r end.
Lemma clean_uint : forall d, clean (NilEmpty.string_of_uint d).
Proof. induction d; cbn; repeat split; auto. Qed.
Lemma clean_py_str : forall z, clean (py_str z).
Proof.
  intros z. unfold py_str, NilZero.string_of_int.
  destruct (Z.to_int z) as [d|d]; unfold NilZero.string_of_uint; destruct d; cbn; repeat split; apply clean_uint.
Qed.
Lemma py_str_nonempty : forall z, py_str z <> "".
Proof.
  intros z. unfold py_str, NilZero.string_of_int. destruct (Z.to_int z) as [d|d]; [|discriminate].
  unfold NilZero.string_of_uint; destruct d; discriminate.
Qed.
Lemma to_int_nonnil : forall z, Z.to_int z <> Decimal.Pos Decimal.Nil /\ Z.to_int z <> Decimal.Neg Decimal.Nil.
Proof.
  intros z. pose proof (DecimalZ.of_to z) as E. split; intros H; rewrite H in E; cbn in E; subst z; discriminate H.
Qed.
Lemma py_int_str : forall z, py_int (py_str z) = Ok z.
Proof.
  intros z. unfold py_int, py_str. destruct (to_int_nonnil z) as [A B]. rewrite NilZero.isi by assumption.
  rewrite DecimalZ.of_to. reflexivity.
Qed.
Lemma strip_app : forall a b, strip (a +++ b) = strip a +++ strip b.
Proof. induction a as [|c a IH]; intros b; [reflexivity|]. cbn [String.append strip]. destruct (bracket c); rewrite IH; reflexivity. Qed.
Lemma strip_clean : forall a, clean a -> strip a = a.
Proof. induction a as [|c a IH]; intros H; [reflexivity|]. destruct H as [A [_ C]]. cbn [strip]. rewrite A, IH by exact C. reflexivity. Qed.
Lemma split_clean : forall w s cur, clean w -> split_ws (w +++ s) cur = split_ws s (cur +++ w).
Proof.
  induction w as [|c w IH]; intros s cur H; [cbn; rewrite app_nil_s; reflexivity|].
  destruct H as [_ [B C]]. cbn [String.append split_ws]. rewrite B, IH by exact C. rewrite app_assoc_s. reflexivity.
Qed.
Fixpoint words (l : list Z) : string :=
  match l with [] => "" | [x] => py_str x | x :: r => py_str x +++ " " +++ words r end.
Lemma words_cons : forall x y r, words (x :: y :: r) = py_str x +++ " " +++ words (y :: r).
Proof. reflexivity. Qed.
Lemma join_cons : forall x y r, join_ints (x :: y :: r) = py_str x +++ ", " +++ join_ints (y :: r).
Proof. reflexivity. Qed.
Lemma hkl_words : forall l, hkl_to_str l = words l.
Proof.
  intros l. unfold hkl_to_str, py_str_list. rewrite !strip_app. change (strip "[") with "". change (strip "]") with "".
  cbn [String.append]. rewrite app_nil_s.
  induction l as [|x [|y r] IH]; [reflexivity | apply strip_clean, clean_py_str|].
  rewrite words_cons, join_cons, !strip_app, IH, (strip_clean (py_str x)) by apply clean_py_str. reflexivity.
Qed.
Lemma split_words : forall l, split_ws (words l) "" = map py_str l.
Proof.
  induction l as [|x [|y r] IH]; [reflexivity | |].
  - cbn [words map]. rewrite <- (app_nil_s (py_str x)) at 1. rewrite split_clean by apply clean_py_str. cbn [String.append split_ws].
    destruct (py_str x) eqn:E; [exfalso; exact (py_str_nonempty x E) | reflexivity].
  - rewrite words_cons, split_clean by apply clean_py_str. cbn [String.append]. 
    change (map py_str (x :: y :: r)) with (py_str x :: map py_str (y :: r)). rewrite <- IH.
    cbn [split_ws]. change (Ascii.eqb " " " ") with true. cbv iota.
    destruct (py_str x) eqn:E; [exfalso; exact (py_str_nonempty x E) | reflexivity].
Qed.
Lemma map_int_str : forall l, map_int (map py_str l) = Ok l.
Proof. induction l as [|x r IH]; [reflexivity|]. cbn [map map_int]. rewrite py_int_str. cbn [rbind]. rewrite IH. reflexivity. Qed.
Theorem hkl_roundtrip_lemma : forall l, str_to_hkl (hkl_to_str l) = Ok l.
Proof. intros l. unfold str_to_hkl. rewrite hkl_words, split_words. apply map_int_str. Qed.
Lemma hkl_to_str_inj : forall a b, hkl_to_str a = hkl_to_str b -> a = b.
Proof. intros a b H. apply (f_equal str_to_hkl) in H. rewrite !hkl_roundtrip_lemma in H. injection H as H; exact H. Qed.

(** ** picks *)
Section P.
Context {V : Type}.
Lemma dset_fresh : forall (d : list (string * V)) k v, ~ In k (map fst d) -> dset d k v = d ++ [(k, v)].
Proof.
  induction d as [|[k' v'] d IH]; intros k v H; [reflexivity|]. cbn [dset app]. cbn [map fst In] in H.
  destruct (String.eqb_spec k k') as [E|E]; [subst; exfalso; apply H; left; reflexivity|]. rewrite IH by tauto. reflexivity.
Qed.
Lemma grain_picks_distinct : forall (data : list (list Z * V)) d,
  NoDup (map fst d ++ map (fun p => hkl_to_str (fst p)) data) ->
  fold_left (fun d p => dset d (hkl_to_str (fst p)) (snd p)) data d = d ++ map (fun p => (hkl_to_str (fst p), snd p)) data.
Proof.
  induction data as [|[h v] r IH]; intros d N; [symmetry; apply app_nil_r|].
  cbn [fold_left fst snd map] in *. rewrite dset_fresh.
  - rewrite IH; [rewrite <- app_assoc; reflexivity|]. rewrite map_app, <- app_assoc. exact N.
  - intros C. apply NoDup_remove_2 in N. apply N. apply in_or_app; left; exact C.
Qed.
Theorem grain_roundtrip_lemma : forall data : list (list Z * V), NoDup (map fst data) -> grain_data (grain_picks data) = Ok data.
Proof.
  intros data N. unfold grain_picks. rewrite grain_picks_distinct.
  - cbn [app]. clear N. induction data as [|[h v] r IH]; [reflexivity|]. cbn [map grain_data fst snd].
    rewrite hkl_roundtrip_lemma. cbn [rbind]. rewrite IH. reflexivity.
  - cbn [map app]. rewrite <- (map_map fst hkl_to_str). apply Injective_map_NoDup; [intros a b; apply hkl_to_str_inj | exact N].
Qed.

(** powder *)
Definition keyed (d : list (string * list V)) : Prop := NoDup (map fst d) /\ (forall k l, In (k, l) d -> l <> [] /\ exists h, k = hkl_to_str h).
Lemma dappend_keys : forall (d : list (string * list V)) k v x, In x (map fst (dappend d k v)) <-> In x (map fst d) \/ x = k.
Proof.
  induction d as [|[k' l] d IH]; intros k v x; cbn [dappend map fst In].
  - split; [intros [->|[]]; auto | intros [[]| ->]; auto].
  - destruct (String.eqb_spec k k') as [E|E]; cbn [map fst In].
    + subst. split; [intros [->|H]; auto | intros [[->|H]| ->]; auto].
    + rewrite IH. tauto.
Qed.
Lemma dappend_keyed : forall (d : list (string * list V)) h v, keyed d -> keyed (dappend d (hkl_to_str h) v).
Proof.
  intros d h v [N K]; split.
  - clear K. induction d as [|[k' l] d IH]; cbn [dappend map fst]; [repeat constructor; intros []|].
    cbn [map fst] in N. inversion N as [|? ? Na Nr]; subst.
    destruct (String.eqb_spec (hkl_to_str h) k') as [E|E]; cbn [map fst]; constructor; auto.
    rewrite dappend_keys. intros [C|C]; [contradiction | apply E; symmetry; exact C].
  - clear N. induction d as [|[k' l] d IH]; cbn [dappend]; intros k m H.
    + destruct H as [H|[]]. injection H as <- <-. split; [discriminate | exists h; reflexivity].
    + destruct (String.eqb_spec (hkl_to_str h) k') as [E|E].
      * destruct H as [H|H].
        { injection H as <- <-. split; [intros C; apply app_eq_nil in C; destruct C; discriminate | exists h; symmetry; exact E]. }
        { apply K; right; exact H. }
      * destruct H as [H|H]; [apply K; left; exact H|]. apply IH; [intros; apply K; right; assumption | exact H].
Qed.
Definition entries (d : list (string * list V)) (s : string) : list V :=
  flat_map (fun e : string * list V => if String.eqb s (fst e) then snd e else []) d.
Lemma entries_fresh : forall (d : list (string * list V)) k, ~ In k (map fst d) -> entries d k = [].
Proof.
  induction d as [|[k' l] d IH]; intros k H; [reflexivity|]. cbn [map fst In] in H.
  change (entries ((k', l) :: d) k) with ((if String.eqb k k' then l else []) ++ entries d k).
  destruct (String.eqb_spec k k') as [E|E]; [subst; exfalso; apply H; left; reflexivity|]. cbn [app]. apply IH; tauto.
Qed.
Lemma entries_cons : forall k l (d : list (string * list V)) s, entries ((k, l) :: d) s = (if String.eqb s k then l else []) ++ entries d s.
Proof. reflexivity. Qed.
Lemma entries_dappend : forall (d : list (string * list V)) k v s, NoDup (map fst d) ->
  entries (dappend d k v) s = entries d s ++ (if String.eqb s k then [v] else []).
Proof.
  induction d as [|[k' l] d IH]; intros k v s N; cbn [dappend].
  - rewrite entries_cons. cbn. rewrite app_nil_r. reflexivity.
  - cbn [map fst] in N. inversion N as [|? ? Na Nr]; subst.
    destruct (String.eqb_spec k k') as [E|E]; rewrite !entries_cons.
    + subst k'. destruct (String.eqb_spec s k) as [F|F]; [subst s; rewrite (entries_fresh d k Na), !app_nil_r; reflexivity | rewrite app_nil_r; reflexivity].
    + rewrite IH by exact Nr. rewrite app_assoc. reflexivity.
Qed.
Lemma picks_of_app : forall h (a b : list (list Z * V)), picks_of h (a ++ b) = picks_of h a ++ picks_of h b.
Proof. intros; unfold picks_of; apply flat_map_app. Qed.
Lemma powder_fold : forall (rows done : list (list Z * V)) d, keyed d -> (forall h, entries d (hkl_to_str h) = picks_of h done) ->
  let d' := fold_left (fun d row => dappend d (hkl_to_str (fst row)) (snd row)) rows d in
  keyed d' /\ forall h, entries d' (hkl_to_str h) = picks_of h (done ++ rows).
Proof.
  induction rows as [|[h0 v] r IH]; intros done d K E d'; subst d'.
  - rewrite app_nil_r. cbn [fold_left]. auto.
  - cbn [fold_left fst snd].
    replace (done ++ (h0, v) :: r) with ((done ++ [(h0, v)]) ++ r) by (rewrite <- app_assoc; reflexivity).
    apply IH; [apply dappend_keyed; exact K|].
    intros h. rewrite entries_dappend by apply K. rewrite E, picks_of_app. f_equal. unfold picks_of; cbn [flat_map fst snd].
    destruct (list_eq_dec Z.eq_dec h0 h) as [Q|Q].
    + subst. rewrite String.eqb_refl. reflexivity.
    + destruct (String.eqb_spec (hkl_to_str h) (hkl_to_str h0)) as [C|C]; [exfalso; apply Q; symmetry; apply hkl_to_str_inj; exact C | reflexivity].
Qed.
Lemma picks_of_ring : forall h h' (l : list V), picks_of h (map (fun v => (h', v)) l) = if list_eq_dec Z.eq_dec h' h then l else [].
Proof.
  intros h h' l; unfold picks_of. induction l as [|v l IH]; [destruct (list_eq_dec Z.eq_dec h' h); reflexivity|].
  cbn [map flat_map fst snd]. rewrite IH. destruct (list_eq_dec Z.eq_dec h' h); reflexivity.
Qed.
Lemma powder_data_ok : forall d, (forall k l, In (k, l) d -> l <> [] /\ exists h, k = hkl_to_str h) ->
  exists data, powder_data d = Ok data /\ (forall h, picks_of h (concat data) = entries d (hkl_to_str h)) /\
    Forall2 (fun (e : string * list V) ring => exists h, fst e = hkl_to_str h /\ ring = map (fun v => (h, v)) (snd e)) d data.
Proof.
  induction d as [|[k l] d IH]; intros K.
  - exists []; repeat split; auto.
  - destruct (K k l (or_introl eq_refl)) as [Ln [h0 ->]].
    destruct IH as [data [A [B C]]]; [intros; apply K; right; assumption|].
    destruct l as [|v l]; [congruence|].
    exists (map (fun v => (h0, v)) (v :: l) :: data). cbn [powder_data]. rewrite hkl_roundtrip_lemma. cbn [rbind]. rewrite A.
    split; [reflexivity|]. split.
    + intros h. cbn [concat]. rewrite picks_of_app, B, entries_cons, picks_of_ring. f_equal.
      destruct (list_eq_dec Z.eq_dec h0 h) as [Q|Q].
      * subst. rewrite String.eqb_refl. reflexivity.
      * destruct (String.eqb_spec (hkl_to_str h) (hkl_to_str h0)) as [D|D]; [exfalso; apply Q; symmetry; apply hkl_to_str_inj; exact D | reflexivity].
    + constructor; [exists h0; split; reflexivity | exact C].
Qed.
Theorem powder_roundtrip_lemma : forall data : list (list (list Z * V)),
  exists data', powder_data (powder_picks data) = Ok data' /\ (forall h, picks_of h (concat data') = picks_of h (concat data)) /\
    (forall ring, In ring data' -> ring <> [] /\ exists h, forall row, In row ring -> fst row = h).
Proof.
  intros data. destruct (powder_fold (concat data) [] []) as [K E].
  - split; [constructor | intros k l []].
  - reflexivity.
  - cbv zeta in K, E. fold (powder_picks data) in K, E.
    destruct (powder_data_ok (powder_picks data) (proj2 K)) as [data' [A [B C]]].
    exists data'. split; [exact A|]. split; [intros h; rewrite B, E; reflexivity|].
    destruct K as [_ K]. clear -C K. induction C as [|[k l] ring d data' [h [Ek Er]] C IH]; intros ring' H; [destruct H|].
    destruct H as [<-|H].
    + cbn [fst snd] in *. subst ring. split.
      * destruct (K k l (or_introl eq_refl)) as [Ln _]. destruct l; [congruence | discriminate].
      * exists h. intros row Hr. apply in_map_iff in Hr. destruct Hr as [v [<- _]]. reflexivity.
    + apply IH; [intros; apply K; right; assumption | exact H].
Qed.
End P.
