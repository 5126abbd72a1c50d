(** C21-C23, C60: configuration access, merging, saving. *)
From Coq Require Import String QArith.
From Verif Require Import Prelude ConfigModel ConfigSpec ConfigProofs.
Local Open Scope string_scope.
Local Open Scope list_scope.
Local Notation length := List.length.
Close Scope Q_scope.

(** ** C21 *)
(** get returns what the nested dictionaries hold at the key; if the key is absent it returns the default or
    raises RuntimeError; if a plain value stands where a block is needed it raises. *)
Theorem C21_get_present : forall cfg key v dflt, at_path cfg (split_colon key) = Some v -> cfg_get cfg key dflt = Ok v.
Proof. intros cfg key v dflt H. exact (get_at dflt _ _ _ (split_nonempty key) H). Qed.
Print Assumptions C21_get_present.
Theorem C21_get_absent : forall cfg key dflt, is_dict cfg -> open_to cfg (split_colon key) -> at_path cfg (split_colon key) = None ->
  cfg_get cfg key dflt = match dflt with Some x => Ok x | None => Err RuntimeError end.
Proof. intros cfg key dflt. exact (get_missing dflt _ _ (split_nonempty key)). Qed.
Print Assumptions C21_get_absent.
Theorem C21_get_blocked : forall cfg key dflt, is_dict cfg -> ~ open_to cfg (split_colon key) ->
  cfg_get cfg key dflt = Err TypeError \/ cfg_get cfg key dflt = Err AttributeError.
Proof. intros cfg key dflt. exact (get_blocked dflt _ _). Qed.
Print Assumptions C21_get_blocked.

(** If the enclosing blocks exist, set then get returns the value: the very one, or the value already there when
    Python considers the two equal (then nothing changes and the dirty flag is not raised). *)
Theorem C21_set_get_partial : forall cfg key val, blocks_exist cfg (split_colon key) ->
  exists c b w, cfg_set cfg key val = Ok (c, b) /\ at_path c (split_colon key) = Some w /\
    (w = val \/ (b = false /\ at_path cfg (split_colon key) = Some w /\ py_eq w val = true)) /\ (b = false -> c = cfg).
Proof. intros cfg key val. exact (set_get _ _ _ (split_nonempty key)). Qed.
Print Assumptions C21_set_get_partial.

(** If an enclosing block is missing or null, set raises nothing, marks the configuration dirty and stores
    nothing (finding). *)
Theorem C21_set_lost_refuted : forall cfg key val, block_missing cfg (split_colon key) -> cfg_set cfg key val = Ok (cfg, true).
Proof. intros cfg key val. exact (set_lost _ _ _). Qed.
Print Assumptions C21_set_lost_refuted.
Example C21_set_lost_ex : exists cfg, block_missing cfg (split_colon "a:b") /\ cfg_get cfg "a:b" None = Err RuntimeError /\
  cfg_set cfg "a:b" (YInt 3) = Ok (cfg, true).
Proof.
  exists (YDict [("a", YNone)]). split; [|split; reflexivity]. exists [], "a", ["b"]. repeat split; auto; try discriminate.
  eexists; split; [reflexivity|eexists; reflexivity].
Qed.

(** set never changes what get returns for an unrelated key. *)
Theorem C21_set_frame : forall cfg key val c b other dflt, cfg_set cfg key val = Ok (c, b) ->
  unrelated (split_colon key) (split_colon other) -> cfg_get c other dflt = cfg_get cfg other dflt.
Proof. intros cfg key val c b other dflt. exact (set_unrelated _ _ _ _ _ _ dflt). Qed.
Print Assumptions C21_set_frame.

(** After any history of assignments to this key and unrelated ones, get returns the last value assigned. *)
Theorem C21_last_assignment_wins : forall key l cfg b, blocks_exist cfg (split_colon key) ->
  Forall (fun kv => fst kv = key \/ unrelated (split_colon (fst kv)) (split_colon key)) l ->
  match last_assigned key l with
  | None => forall dflt, cfg_get (fst (cfg_sets (cfg, b) l)) key dflt = cfg_get cfg key dflt
  | Some v => exists w, cfg_get (fst (cfg_sets (cfg, b) l)) key None = Ok w /\ (w = v \/ py_eq w v = true)
  end.
Proof. exact sets_history. Qed.
Print Assumptions C21_last_assignment_wins.

Definition cfg_ex := YDict [("a", YDict [("b", YInt 1); ("c", YStr "x")]); ("d", YNone)].
Example C21_ex : blocks_exist cfg_ex (split_colon "a:b") /\ unrelated (split_colon "a:c") (split_colon "a:b") /\
  cfg_get (fst (cfg_sets (cfg_ex, false) [("a:b", YInt 5); ("a:c", YInt 6); ("d", YInt 7)])) "a:b" None = Ok (YInt 5) /\
  at_path cfg_ex (split_colon "a:z") = None.
Proof.
  split; [|split; [|split; reflexivity]].
  - intros q k r E. destruct q as [|q1 [|q2 [|q3 q]]]; cbn in E; try discriminate; injection E as ? ?; subst;
      eexists; (split; [reflexivity|eexists; reflexivity]).
  - split; intros [r E]; cbn in E; discriminate.
Qed.

(** ** C22 *)
(** Opening a file of several documents: section i+1 is section i updated with document i+1, where ... *)
Theorem C22_sections : forall docs secs, open_docs docs = Ok secs -> length secs = length docs /\
  (forall d, nth_error docs 0 = Some d -> nth_error secs 0 = Some d) /\
  (forall i d s m, nth_error docs (S i) = Some d -> nth_error secs i = Some s -> nth_error secs (S i) = Some m -> merge s d = Ok m).
Proof. exact open_sections. Qed.
Print Assumptions C22_sections.
(** ... a value given by the new document is the section's value, *)
Theorem C22_own_value_wins : forall p a b m v, wf b -> merge a b = Ok m -> at_path b p = Some v -> is_leaf v -> at_path m p = Some v.
Proof. exact merge_own. Qed.
Print Assumptions C22_own_value_wins.
(** a value not given (or null) is inherited, unless the document replaced an enclosing block by a plain value, *)
Theorem C22_inherited : forall p a b m v, wf b -> merge a b = Ok m -> at_path a p = Some v -> v <> YNone ->
  (at_path b p = None \/ at_path b p = Some YNone) -> open_to b p -> at_path m p = Some v.
Proof. exact merge_inherit. Qed.
Print Assumptions C22_inherited.
(** nothing else appears, and no key of the document is lost. *)
Theorem C22_no_invention : forall p a b m v, wf b -> merge a b = Ok m -> at_path m p = Some v -> ~ is_dict v ->
  at_path b p = Some v \/ at_path a p = Some v.
Proof. exact merge_no_invention. Qed.
Print Assumptions C22_no_invention.
Theorem C22_no_key_lost : forall p a b m, wf b -> merge a b = Ok m -> at_path b p <> None -> at_path m p <> None.
Proof. exact merge_keeps_own_keys. Qed.
Print Assumptions C22_no_key_lost.
(** Opening raises exactly when a document has a non-empty block where the previous section has a plain value. *)
Theorem C22_raises_iff_conflict : forall a b, is_dict a -> is_dict b -> wf b -> ((exists m, merge a b = Ok m) <-> ~ conflict a b).
Proof. exact merge_succeeds_iff. Qed.
Print Assumptions C22_raises_iff_conflict.

Definition doc1 := YDict [("a", YDict [("b", YInt 1); ("c", YStr "x")]); ("d", YInt 4)].
Definition doc2 := YDict [("a", YDict [("b", YInt 2); ("c", YNone); ("e", YBool true)]); ("d", YNone); ("f", YDict [("g", YNone)])].
Example C22_ex : wf doc2 /\
  open_docs [doc1; doc2] = Ok [doc1; YDict [("a", YDict [("b", YInt 2); ("c", YStr "x"); ("e", YBool true)]); ("d", YInt 4); ("f", YDict [("g", YNone)])]].
Proof.
  split; [|reflexivity].
  assert (L : forall v, (match v with YDict _ => False | _ => True end) -> wf v).
  { intros v Hv. apply wf_leaf. intros [d ->]. exact Hv. }
  apply wf_dict; [repeat constructor; cbn; intuition discriminate|]. intros k v [E|[E|[E|[]]]]; injection E as <- <-.
  - apply wf_dict; [repeat constructor; cbn; intuition discriminate|]. intros k v [E|[E|[E|[]]]]; injection E as <- <-; apply L; exact I.
  - apply L; exact I.
  - apply wf_dict; [repeat constructor; cbn; intuition discriminate|]. intros k v [E|[]]; injection E as <- <-; apply L; exact I.
Qed.
Example C22_conflict_ex : conflict doc1 (YDict [("d", YDict [("x", YInt 1)])]).
Proof. exists ["d"], ("x", YInt 1), [], (YInt 4). repeat split; try discriminate. intros [? ?]; discriminate. Qed.

(** ** C60 *)
(** A configuration of two or more sections that is opened, saved and opened again is unchanged. *)
Theorem C60_save_reopen_partial : forall docs secs, (2 <= length docs)%nat -> Forall wf docs -> Forall is_dict docs ->
  open_docs docs = Ok secs -> open_docs (save_docs secs) = Ok secs.
Proof. exact save_reopen. Qed.
Print Assumptions C60_save_reopen_partial.
(** With a single section the file holds a list, and every later access raises (finding). *)
Theorem C60_single_section_refuted : forall d key dflt,
  open_docs (save_docs [d]) = Ok [YList [d]] /\
  (cfg_get (YList [d]) key dflt = Err TypeError \/ cfg_get (YList [d]) key dflt = Err AttributeError).
Proof.
  intros d key dflt. split; [reflexivity|]. unfold cfg_get. pose proof (split_nonempty key).
  destruct (split_colon key) as [|k [|k2 r]]; [congruence|left; reflexivity|right; reflexivity].
Qed.
Print Assumptions C60_single_section_refuted.
(** A value cleared (set to null) in a later section comes back from the earlier one (finding). *)
Theorem C60_cleared_value_refuted : exists s1 s2 s2', open_docs (save_docs [s1; s2]) = Ok [s1; s2'] /\
  cfg_get s2 "a" None = Ok YNone /\ cfg_get s2' "a" None = Ok (YInt 1).
Proof. exists (YDict [("a", YInt 1)]), (YDict [("a", YNone)]), (YDict [("a", YInt 1)]). repeat split; reflexivity. Qed.
Print Assumptions C60_cleared_value_refuted.
Example C60_ex : exists secs, open_docs [doc1; doc2] = Ok secs /\ open_docs (save_docs secs) = Ok secs.
Proof. eexists. split; vm_compute; reflexivity. Qed.

(** ** C23 *)
(** The number of processes is between 1 and the number of CPUs, for 'all', 'half', every integer, and for
    anything else when there are at least two CPUs. *)
Theorem C23_process_count_partial : forall ncpus v, (1 <= ncpus)%Z ->
  (is_str "all" v = true \/ is_str "half" v = true \/ int_of v <> None \/ (2 <= ncpus)%Z) -> (1 <= nprocs ncpus v <= ncpus)%Z.
Proof. exact nprocs_range. Qed.
Print Assumptions C23_process_count_partial.
Theorem C23_meaning : forall ncpus m, (1 <= ncpus)%Z ->
  nprocs ncpus (YStr "all") = ncpus /\ nprocs ncpus (YStr "half") = Z.max 1 (ncpus / 2) /\
  ((1 <= m <= ncpus)%Z -> nprocs ncpus (YInt m) = m) /\ ((1 <= m < ncpus)%Z -> nprocs ncpus (YInt (- m)) = (ncpus - m)%Z).
Proof.
  intros ncpus m H. repeat split.
  - unfold nprocs. cbn [is_str]. change (String.eqb "half" "all") with false. change (String.eqb "half" "half") with true. cbv iota zeta.
    destruct (Z.eqb_spec (ncpus / 2) 0); lia.
  - intros Hm. unfold nprocs. cbn [is_str int_of]. destruct (Z.geb_spec m 0); [|lia].
    destruct (Z.gtb_spec m ncpus); [lia|]. destruct (Z.eqb_spec m 0); lia.
  - intros Hm. unfold nprocs. cbn [is_str int_of]. destruct (Z.geb_spec (- m) 0); [lia|]. cbv zeta. destruct (Z.ltb_spec (ncpus + - m) 1); lia.
Qed.
Print Assumptions C23_meaning.
(** An invalid setting on a one-CPU machine gives zero processes (finding). *)
Theorem C23_invalid_setting_refuted : nprocs 1 (YStr "quarter") = 0%Z /\ nprocs 1 (YFloat 2) = 0%Z.
Proof. split; reflexivity. Qed.
Print Assumptions C23_invalid_setting_refuted.
(** A count assigned through the setter can be ignored: the stored float equals it (finding). *)
Theorem C23_setter_ignored_refuted : exists cfg c b, multiprocessing_set 8 cfg (YInt 2) = Ok (c, b) /\ multiprocessing_get 8 c = Ok 7%Z.
Proof. exists (YDict [("multiprocessing", YFloat 2)]). eexists _, _. split; reflexivity. Qed.
Print Assumptions C23_setter_ignored_refuted.
