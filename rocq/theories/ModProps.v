(** C98-C99: old module names.  Print Assumptions at the end. *)
From Coq Require Import String.
From Verif Require Import Prelude ModModel ModSpec ModTable ModProofs ModMore CylModel.
Local Notation length := List.length.

(** ** C98: one module object under both names, nothing lost, what is merged *)

(** After any sequence of imports, importing a name that stands for the new module t succeeds (given enough recursion depth), and both names give the same module object. *)
Theorem C98_same_module : forall rows mmap files root s0 n t, flat rows mmap -> starts mmap files root s0 -> stands_for mmap files root n t ->
  exists depth, forall s fuel, history rows mmap files s0 s -> (depth <= fuel)%nat ->
  exists s' i, import_module rows mmap files fuel s n = (s', Loaded i) /\ module_at s' n i /\ module_at s' t i.
Proof.
  intros rows mmap files root s0 n t HF H0 SF. destruct (bound_of mmap) as [b HB]. exists (length n + b)%nat. intros s fuel H L.
  destruct (history_inv rows mmap files root HF s0 s H0 H) as [I _]. exact (import_succeeds rows mmap files root HF b HB n t SF fuel s I L).
Qed.
(** An import never unbinds a name, never binds it to another object, and never removes or changes an attribute of a module. *)
Theorem C98_nothing_lost : forall rows mmap files root s0 s fuel n s' r, flat rows mmap -> starts mmap files root s0 -> history rows mmap files s0 s ->
  import_module rows mmap files fuel s n = (s', r) -> extends s s' /\ forall i, r = Loaded i -> module_at s' n i.
Proof.
  intros rows mmap files root s0 s fuel n s' r HF H0 H E. destruct (history_inv rows mmap files root HF s0 s H0 H) as [I _]. destruct (import_ok rows mmap files root HF fuel s n s' r I E) as (_ & X & L & _). now split.
Qed.
(** A name once imported gives the same object for ever, and importing it again changes nothing. *)
Theorem C98_again : forall rows mmap files root s0 s n i s2 fuel, flat rows mmap -> starts mmap files root s0 -> history rows mmap files s0 s -> module_at s n i ->
  history rows mmap files s s2 -> import_module rows mmap files fuel s2 n = (s2, Loaded i).
Proof.
  intros rows mmap files root s0 s n i s2 fuel HF H0 H A H2. destruct (history_inv rows mmap files root HF s0 s H0 H) as [I _]. destruct (history_inv rows mmap files root HF s s2 I H2) as [_ (X & _)]. specialize (X n i A). unfold module_at in X. destruct fuel; cbn [import_module]; now rewrite X.
Qed.
(** The modules merged into the one an old name stands for: the other new modules of the table's rows for that name and for the names below it. *)
Theorem C98_merged_modules : forall rows n t c, In c (candidates rows n t) <->
  c <> t /\ exists old new q, In (old, new) rows /\ relevant old = true /\ path_to_module old = Ok (n ++ q)%list /\ path_to_module new = Ok c.
Proof.
  assert (PRE : forall a b, is_prefix a b = true <-> exists q, b = (a ++ q)%list).
  { induction a as [|x a IH]; intros b; cbn [is_prefix]; [split; [intros _; now exists b|reflexivity]|]. destruct b as [|y b]; [split; [discriminate|intros [q [=]]]|]. rewrite andb_true_iff, IH, String.eqb_eq. split.
    - intros [-> [q ->]]. now exists q. - intros [q [= -> ->]]. split; [reflexivity|now exists q]. }
  assert (DD : forall l seen x, In x (dedup seen l) <-> In x l /\ ~ In x seen).
  { induction l as [|y l IH]; intros seen x; cbn [dedup In]; [tauto|]. unfold mem. destruct (existsb (name_eqb y) seen) eqn:E.
    - apply existsb_exists in E. destruct E as (z & Z & Q). apply name_eqb_iff in Q. subst z. rewrite IH. split; [tauto|]. intros [[->|?] ?]; tauto.
    - assert (~ In y seen) as N. { intros Y. rewrite (proj2 (existsb_exists (name_eqb y) seen)) in E; [discriminate|]. exists y. split; [assumption|apply name_eqb_refl]. }
      cbn [In]. rewrite IH. cbn [In]. destruct (list_eq_dec string_dec y x) as [->|D]; tauto. }
  intros rows n t c. unfold candidates. rewrite DD, in_flat_map. split.
  - intros [([old l] & I & C) _]. unfold candidates_of in C. cbn [fst snd] in C. destruct (relevant old) eqn:R; [|destruct C]. destruct (path_to_module old) as [o|] eqn:P; [|destruct C].
    destruct (is_prefix n o) eqn:PR; [|destruct C]. apply PRE in PR. destruct PR as [q ->]. apply in_flat_map in C. destruct C as (p & IP & C). destruct (path_to_module p) as [c'|] eqn:PP; [|destruct C].
    destruct (name_eqb c' t) eqn:CT; [destruct C|]. destruct C as [->|[]]. split; [intros ->; now rewrite name_eqb_refl in CT|]. destruct (file_map_in rows old l I) as [-> _]. unfold news in IP. apply in_map_iff in IP. destruct IP as ([a b] & <- & IP). apply filter_In in IP. destruct IP as [IP Q]. cbn [fst snd] in *. apply name_eqb_iff in Q. subst a.
    exists old, b, q. now repeat split.
  - intros (NE & old & new & q & IR & R & P & PN). split; [|intros []]. assert (IN : In new (news rows old)). { unfold news. apply in_map_iff. exists (old, new). split; [reflexivity|]. apply filter_In. split; [assumption|apply name_eqb_refl]. }
    exists (old, news rows old). split; [apply file_map_has; intros E; rewrite E in IN; destruct IN|]. unfold candidates_of. cbn [fst snd]. rewrite R, P, (proj2 (PRE n (n ++ q)%list)) by now exists q. apply in_flat_map. exists new. split; [assumption|]. rewrite PN, (name_eqb_false _ _ NE). now left.
Qed.
(** What importing an old name does when its package and its new module are there: every attribute of the new module stays, an attribute it did not have comes from the first of the merged
    modules that has it, the six names that describe a module are never copied, and no other module is touched. *)
Theorem C98_merged_names : forall rows mmap files root s0 s n t b i f, flat rows mmap -> starts mmap files root s0 -> history rows mmap files s0 s ->
  alias mmap n = Some t -> module_at s t b -> module_at s (removelast n) i -> m_path (obj s i) <> None -> (forall j, ~ module_at s n j) ->
  let s' := fst (import_module rows mmap files (S f) s n) in
  (forall c, In c (candidates rows n t) -> (exists m, on_disk files root c m /\ (length c <= f)%nat) \/ forall j, ~ module_at s' c j) ->
  snd (import_module rows mmap files (S f) s n) = Loaded b /\
  (forall k, attr (obj s' b) k =
     match attr (obj s b) k with
     | Some v => Some v
     | None => if existsb (String.eqb k) ["__name__"; "__file__"; "__package__"; "__path__"; "__loader__"; "__spec__"]%string then None else first_value s' k (candidates rows n t)
     end) /\
  forall j, (j < length (heap s))%nat -> j <> b -> obj s' j = obj s j.
Proof.
  intros rows mmap files root s0 s n t b i f HF H0 H A T P PP NL s' HC. destruct (history_inv rows mmap files root HF s0 s H0 H) as [I _]. destruct (HF n t A) as (LN & NT & NC).
  assert (BD : (b < length (heap s))%nat) by exact (proj1 (proj2 (proj2 I)) t b T).
  assert (AN : assoc name_eqb n (sys s) = None). { destruct (assoc name_eqb n (sys s)) as [j|] eqn:E; [|reflexivity]. elim (NL j). exact E. }
  assert (EQ : import_module rows mmap files (S f) s n = (bind_name (merge_all (import_module rows mmap files f) s b (candidates rows n t)) n b, Loaded b)).
  { cbn [import_module]. rewrite AN. replace (length n <=? 1)%nat with false by (symmetry; apply Nat.leb_gt; lia).
    replace (import_module rows mmap files f s (parent n)) with (s, Loaded i) by (unfold module_at, parent in *; destruct f; cbn [import_module]; now rewrite P).
    rewrite AN. destruct (m_path (obj s i)) as [d|]; [|now elim PP]. rewrite A. unfold load_module. replace (import_module rows mmap files f s t) with (s, Loaded b) by (unfold module_at in *; destruct f; cbn [import_module]; now rewrite T). reflexivity. }
  set (s1 := merge_all (import_module rows mmap files f) s b (candidates rows n t)) in *. assert (ES : s' = bind_name s1 n b) by (unfold s'; now rewrite EQ). split; [now rewrite EQ|].
  assert (DIFF : forall c, In c (candidates rows n t) -> name_eqb c n = false). { intros c C. apply name_eqb_false. intros ->. specialize (NC n C). pose proof (NC n [] ltac:(now rewrite app_nil_r)). congruence. }
  assert (SAME : forall c, In c (candidates rows n t) -> assoc name_eqb c (sys s') = assoc name_eqb c (sys s1)). { intros c C. rewrite ES. unfold bind_name. cbn [sys assoc]. now rewrite (DIFF c C). }
  assert (FV : forall k l, (forall c, In c l -> assoc name_eqb c (sys s') = assoc name_eqb c (sys s1)) -> first_value s' k l = first_value s1 k l).
  { intros k l. induction l as [|c l IH]; intros Q; [reflexivity|]. cbn [first_value]. rewrite (Q c (or_introl eq_refl)), IH by (intros; apply Q; now right). replace (obj s') with (obj s1) by now rewrite ES. reflexivity. }
  split.
  - intros k. rewrite FV by exact SAME. replace (obj s' b) with (obj s1 b) by now rewrite ES. destruct (bound_of mmap) as [bd HB]. apply (merge_attr rows mmap files root bd HB f k (candidates rows n t) s b I BD NC). intros c C. destruct (HC c C) as [D|D]; [now left|right]. fold s1. rewrite <- (SAME c C). destruct (assoc name_eqb c (sys s')) as [j|] eqn:E; [|reflexivity]. elim (D j). exact E.
  - intros j L NJ. replace (obj s' j) with (obj s1 j) by now rewrite ES. exact (proj2 (proj2 (proj2 (merge_ok rows mmap files root f (candidates rows n t) s b I BD NC))) j L NJ).
Qed.
(** Which new module an old file's name stands for: that of the first new path in a directory "core", and without one that of the first new path. *)
Theorem C98_chosen : forall rows mmap p n, module_map rows = Ok mmap -> relevant p = true -> path_to_module p = Ok n -> (exists q, In (p, q) rows) ->
  (forall p' q, In (p', q) rows -> relevant p' = true -> path_to_module p' = Ok n -> p' = p) ->
  exists pre q post t, rows = (pre ++ (p, q) :: post)%list /\ path_to_module q = Ok t /\ assoc name_eqb n mmap = Some t /\
  ((In "core"%string q /\ forall q', In (p, q') pre -> ~ In "core"%string q') \/ ((forall q', In (p, q') rows -> ~ In "core"%string q') /\ forall q', ~ In (p, q') pre)).
Proof.
  intros rows mmap p n HM R P [q0 Q0] U. assert (IN : forall q, In q (news rows p) <-> In (p, q) rows).
  { intros q. unfold news. rewrite in_map_iff. split. - intros ([a b] & <- & H). apply filter_In in H. cbn [fst snd] in H. destruct H as [H E]. apply name_eqb_iff in E. now subst. - intros H. exists (p, q). split; [reflexivity|]. apply filter_In. split; [assumption|apply name_eqb_refl]. }
  assert (NE : news rows p <> []) by (intros E; apply IN in Q0; rewrite E in Q0; destruct Q0).
  destruct (build_get (file_map rows) [] mmap p (news rows p) n HM (file_map_has rows p NE) R P) as (t & T & A).
  { intros p' l' I' R' P'. destruct (file_map_in rows p' l' I') as [-> NE']. destruct (news rows p') as [|x l] eqn:X; [now elim NE'|]. assert (J : In (p', x) rows). { assert (Y : In x (news rows p')) by (rewrite X; now left). unfold news in Y. apply in_map_iff in Y. destruct Y as ([a b] & <- & Y). apply filter_In in Y. cbn [fst snd] in Y. destruct Y as [Y E]. apply name_eqb_iff in E. now subst. }
    rewrite (U p' x J R' P') in X. now rewrite X. }
  assert (MEM : forall q, mem String.eqb "core"%string q = true <-> In "core"%string q).
  { intros q. unfold mem. rewrite existsb_exists. split; [intros (x & X & E); apply String.eqb_eq in E; now subst|intros X; exists "core"%string; split; [assumption|apply String.eqb_refl]]. }
  assert (SPL : forall q l1 l2 rs, news rs p = (l1 ++ q :: l2)%list -> exists pre post, rs = (pre ++ (p, q) :: post)%list /\ news pre p = l1).
  { intros q l1 l2 rs. revert l1. induction rs as [|r rs IH]; intros l1 E. { destruct l1; discriminate E. } rewrite news_cons in E. destruct (name_eqb (fst r) p) eqn:F.
    - destruct l1 as [|x l1]; cbn [app] in E; injection E as E1 E2.
      + exists [], rs. split; [|reflexivity]. cbn [app]. apply name_eqb_iff in F. destruct r as [a b]. cbn [fst snd] in *. now subst.
      + destruct (IH l1 E2) as (pre & post & -> & N). exists (r :: pre), post. split; [reflexivity|]. rewrite news_cons, F, N. now subst.
    - destruct (IH l1 E) as (pre & post & -> & N). exists (r :: pre), post. split; [reflexivity|]. now rewrite news_cons, F. }
  assert (PRE : forall pre q', In (p, q') pre -> In q' (news pre p)). { intros pre q' H. unfold news. apply in_map_iff. exists (p, q'). split; [reflexivity|]. apply filter_In. split; [assumption|apply name_eqb_refl]. }
  unfold selected in T. destruct (find (mem String.eqb "core"%string) (news rows p)) as [q|] eqn:F.
  - assert (SP : exists l1 l2, news rows p = (l1 ++ q :: l2)%list /\ forall x, In x l1 -> mem String.eqb "core"%string x = false).
    { clear -F. induction (news rows p) as [|x l IH]; [discriminate|]. cbn [find] in F. destruct (mem String.eqb "core"%string x) eqn:M. { injection F as <-. exists [], l. split; [reflexivity|intros ? []]. } destruct (IH F) as (l1 & l2 & -> & H). exists (x :: l1), l2. split; [reflexivity|]. intros y [<-|Y]; auto. }
    destruct SP as (l1 & l2 & SP & NO). destruct (SPL q l1 l2 rows SP) as (pre & post & ER & EN). exists pre, q, post, t. split; [assumption|]. split; [assumption|]. split; [assumption|]. left. apply find_some in F. split; [now apply MEM|].
    intros q' H C. apply PRE in H. rewrite EN in H. apply NO in H. apply MEM in C. congruence.
  - pose proof (find_none _ _ F) as NO. destruct (news rows p) as [|q l] eqn:E; [now elim NE|]. cbn [hd] in T. destruct (SPL q [] l rows E) as (pre & post & ER & EN). exists pre, q, post, t. split; [assumption|]. split; [assumption|]. split; [assumption|]. right. split.
    + intros q' H C. apply IN in H. apply NO in H. apply MEM in C. congruence.
    + intros q' H. apply PRE in H. rewrite EN in H. destruct H.
Qed.

(** ** C99: hexrd's own table and files *)
Local Open Scope string_scope.
(** the names in the table whose new file is not there *)
Definition gone : list name := [["hexrd"; "transforms"; "xf"]; ["hexrd"; "transforms"; "old_xfcapi"]; ["hexrd"; "transforms"; "new_capi"; "xf_new_capi"]; ["hexrd"; "transforms"; "new_capi"; "reference"];
  ["hexrd"; "transforms"; "Makefile"]; ["hexrd"; "transforms"; "cpp_sublibrary"; "Makefile"]; ["hexrd"; "wppf"; "parameters"]; ["hexrd"; "fitting"; "calibration"; "multigrain"]].
Lemma real_bound : forall n t, alias real_map n = Some t -> (length t <= 6)%nat.
Proof.
  intros n t H. apply alias_in in H. destruct H as [H _]. assert (C : forallb (fun e => (length (snd e) <=? 6)%nat) real_map = true) by (vm_compute; reflexivity). rewrite forallb_forall in C. apply C in H. now apply Nat.leb_le in H.
Qed.
Lemma real_stands_b : forallb (fun e => mem name_eqb (fst e) gone || match stands_b real_map 8 (fst e) with Some t => name_eqb t (snd e) | None => false end) real_map = true.
Proof. vm_cast_no_check (eq_refl true). Qed.
Lemma real_len_b : forallb (fun e => (length (fst e) <=? 5)%nat) real_map = true. Proof. vm_cast_no_check (eq_refl true). Qed.
(** The table is read without an error, and whatever hexrd's files define and whatever was imported before, every old name in it except the eight [gone] can be imported and gives the very module object of its new name. *)
Theorem C99_old_names_partial : exists mmap, module_map file_table = Ok mmap /\ length mmap = 148%nat /\
  forall contents s0 s n t fuel, starts mmap (tree_files contents) (tree_root contents) s0 -> history file_table mmap (tree_files contents) s0 s -> In (n, t) mmap -> ~ In n gone -> (11 <= fuel)%nat ->
  exists s' i, import_module file_table mmap (tree_files contents) fuel s n = (s', Loaded i) /\ module_at s' n i /\ module_at s' t i /\ extends s s'.
Proof.
  exists real_map. split; [exact real_map_eq|]. split; [reflexivity|]. intros contents s0 s n t fuel H0 H I NG L.
  destruct (history_inv file_table real_map (tree_files contents) (tree_root contents) real_flat s0 s H0 H) as [IV _].
  pose proof real_stands_b as B. rewrite forallb_forall in B. specialize (B _ I). cbn [fst snd] in B. apply orb_prop in B. destruct B as [B|B].
  { elim NG. unfold mem in B. apply existsb_exists in B. destruct B as (x & X & E). apply name_eqb_iff in E. now subst. }
  destruct (stands_b real_map 8 n) as [u|] eqn:S1; [|discriminate]. apply name_eqb_iff in B. subst u.
  pose proof real_len_b as LB. rewrite forallb_forall in LB. specialize (LB _ I). cbn [fst] in LB. apply Nat.leb_le in LB.
  destruct (import_succeeds file_table real_map (tree_files contents) (tree_root contents) real_flat 6 real_bound n t (stands_b_sound contents real_map 8 n t S1) fuel s IV ltac:(lia)) as (s' & i & E & A & B).
  exists s', i. split; [exact E|]. split; [exact A|]. split; [exact B|]. exact (proj1 (proj2 (import_ok file_table real_map _ _ real_flat fuel s n s' _ IV E))).
Qed.
(** the state of a program that has imported only hexrd *)
Definition just_hexrd (contents : string -> option (list string) * list (string * nat)) : state := St [(["hexrd"], 0%nat)] [tree_root contents].
Lemma just_hexrd_starts : forall contents, starts real_map (tree_files contents) (tree_root contents) (just_hexrd contents).
Proof.
  intros contents. assert (ONE : forall n i, module_at (just_hexrd contents) n i -> n = ["hexrd"] /\ i = 0%nat). { intros n i H. unfold module_at, just_hexrd in H. cbn [sys assoc] in H. destruct (name_eqb n ["hexrd"]) eqn:E; [|discriminate]. apply name_eqb_iff in E. injection H as <-. now split. }
  split; [now exists 0%nat|]. split; [reflexivity|]. split; [|split].
  - intros n i H. apply ONE in H. destruct H as [_ ->]. cbn. lia.
  - intros n i m N D H. apply ONE in H. destruct H as [-> ->]. rewrite (on_disk_fun (tree_files contents) (tree_root contents) _ _ D _ (od_root _ _)). apply grown_refl.
  - intros n t i A H. apply ONE in H. destruct H as [-> _]. now rewrite real_root in A.
Qed.
Definition empty_contents : string -> option (list string) * list (string * nat) := fun _ => (None, []).
Definition fails (r : state * outcome) : bool := match snd r with Fails => true | _ => false end.
Lemma gone_fails : forallb (fun n => mem name_eqb n (map fst real_map) && fails (import_module file_table real_map (tree_files empty_contents) 20 (just_hexrd empty_contents) n)) gone = true.
Proof. vm_cast_no_check (eq_refl true). Qed.
(** "every old name of the table can be imported" is false: the files of eight of them are not there. *)
Theorem C99_gone_refuted : forall n, In n gone -> exists t s', In (n, t) real_map /\ import_module file_table real_map (tree_files empty_contents) 20 (just_hexrd empty_contents) n = (s', Fails).
Proof.
  intros n I. pose proof gone_fails as B. rewrite forallb_forall in B. specialize (B _ I). apply andb_prop in B. destruct B as [A B]. unfold mem in A. apply existsb_exists in A. destruct A as (x & X & E). apply name_eqb_iff in E. subst x. apply in_map_iff in X. destruct X as ([a t] & Q & X). cbn in Q. subst a.
  exists t. destruct (import_module _ _ _ 20 _ n) as [s' r]. unfold fails in B. cbn [snd] in B. exists s'. destruct r; try discriminate. now split.
Qed.
(** "importing an old name has no effect on new modules" is false, and the cylindrical detector shows it.  The contents: hexrd/hedm/xrdutil/utils.py defines the names it defines, hexrd/hed/xrdutil/utils.py among others the projection
    on a cylinder. *)
Definition cyl_contents : string -> option (list string) * list (string * nat) := fun f =>
  if (f =? "hexrd/hedm/xrdutil/utils")%string then (None, map (fun k => (k, 0%nat)) hedm_utils_names)
  else if (f =? "hexrd/hed/xrdutil/utils")%string then (None, [("_project_on_detector_plane", 0%nat); ("_project_on_detector_cylinder", 1%nat); ("_dvecToDetectorXYcylinder", 2%nat)]) else (None, []).
Definition names_of (s : state) (n : name) : list string := match assoc name_eqb n (sys s) with Some i => map fst (m_dict (obj s i)) | None => [] end.
Definition import_cyl (s : state) (n : name) : state := fst (import_module file_table real_map (tree_files cyl_contents) 20 s n).
Definition before : state := import_cyl (just_hexrd cyl_contents) ["hexrd"; "hedm"; "xrdutil"; "utils"].
Definition after : state := import_cyl before ["hexrd"; "xrdutil"; "utils"].
Definition strings_eqb (a b : list string) : bool := name_eqb a b.
Lemma before_names : names_of before ["hexrd"; "hedm"; "xrdutil"; "utils"] = hedm_utils_names.
Proof. apply name_eqb_iff. vm_cast_no_check (eq_refl true). Qed.
Lemma after_names : names_of after ["hexrd"; "hedm"; "xrdutil"; "utils"] = (hedm_utils_names ++ ["_project_on_detector_cylinder"; "_dvecToDetectorXYcylinder"])%list.
Proof. apply name_eqb_iff. vm_cast_no_check (eq_refl true). Qed.
Theorem C99_import_changes_program_refuted : forall c rmat_s tvec_s tvec_c angles,
  (exists s0, starts real_map (tree_files cyl_contents) (tree_root cyl_contents) s0 /\ history file_table real_map (tree_files cyl_contents) s0 before) /\
  cyl_angles_to_cart (names_of before ["hexrd"; "hedm"; "xrdutil"; "utils"]) c rmat_s tvec_s tvec_c angles = Err AttributeError /\
  exists res, cyl_angles_to_cart (names_of after ["hexrd"; "hedm"; "xrdutil"; "utils"]) c rmat_s tvec_s tvec_c angles = Ok res.
Proof.
  intros. split; [|split].
  - exists (just_hexrd cyl_contents). split; [apply just_hexrd_starts|]. apply h_import. apply h_start.
  - rewrite before_names. reflexivity.
  - rewrite after_names. eexists. reflexivity.
Qed.

(** The hypotheses are met: hexrd's table is flat, a program that has imported hexrd starts well, names stand for modules. *)
Example Mod_example : flat file_table real_map /\ starts real_map (tree_files cyl_contents) (tree_root cyl_contents) (just_hexrd cyl_contents) /\
  stands_for real_map (tree_files cyl_contents) (tree_root cyl_contents) ["hexrd"; "xrdutil"; "utils"] ["hexrd"; "hedm"; "xrdutil"; "utils"] /\
  candidates file_table ["hexrd"; "xrdutil"; "utils"] ["hexrd"; "hedm"; "xrdutil"; "utils"] = [["hexrd"; "hed"; "xrdutil"; "utils"]; ["hexrd"; "laue"; "xrdutil"; "utils"]] /\
  (exists b, module_at before ["hexrd"; "hedm"; "xrdutil"; "utils"] b) /\
  assoc name_eqb ["hexrd"; "imageseries"; "omega"] real_map = Some ["hexrd"; "core"; "imageseries"; "omega"].
Proof.
  split; [exact real_flat|]. split; [apply just_hexrd_starts|]. split; [apply (stands_b_sound cyl_contents real_map 8); vm_compute; reflexivity|]. split; [vm_compute; reflexivity|]. split; [|reflexivity].
  exists 3%nat. vm_compute. reflexivity.
Qed.
Print Assumptions C98_same_module.
Print Assumptions C98_nothing_lost.
Print Assumptions C98_again.
Print Assumptions C98_merged_modules.
Print Assumptions C98_merged_names.
Print Assumptions C98_chosen.
Print Assumptions C99_old_names_partial.
Print Assumptions C99_gone_refuted.
Print Assumptions C99_import_changes_program_refuted.
Print Assumptions Mod_example.
