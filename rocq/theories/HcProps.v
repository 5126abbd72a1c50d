(** C154 - C157: settings of a far field analysis *)
From Coq Require Import String Ascii QArith Qabs Qround Lqa.
From Verif Require Import Prelude ConfigModel ConfigSpec ConfigProofs HcModel HcSpec HcProofs.
Local Open Scope string_scope.
Local Notation length := List.length.

(** ** C154: what is read is valid, or reading raises *)
Theorem C154_algorithm : forall cfg r, readable cfg "find_orientations:clustering:algorithm" ->
  (clustering_algorithm cfg = Ok r <->
   exists s t, in_effect cfg "find_orientations:clustering:algorithm" (Some (YStr "dbscan")) (YStr s) /\
     In t ["dbscan"; "ort-dbscan"; "sph-dbscan"; "fclusterdata"] /\ same_but_case s t /\ r = YStr t).
Proof.
  intros cfg r R. unfold clustering_algorithm. destruct (get_dflt cfg _ (YStr "dbscan") R) as (v & E & F). rewrite E. cbn [rbind]. split.
  - destruct v; try discriminate. destruct (existsb _ _) eqn:X; [|discriminate]. intros H. injection H as <-. apply existsb_in in X. exists s, (lower s). repeat split; auto.
    apply same_lower. symmetry. apply (lower_fixed _ (lower s)); auto. cbn in *. tauto.
  - intros (s & t & G & I & C & ->). rewrite (effect_unique _ _ _ _ _ F G). apply same_lower in C.
    assert (L : lower t = t) by (apply (lower_fixed _ t); auto; cbn in *; tauto). rewrite C, L, (proj2 (existsb_in t _) I). reflexivity.
Qed.
Print Assumptions C154_algorithm.
Theorem C154_required : forall cfg key, In key ["find_orientations:clustering:completeness"; "find_orientations:clustering:radius"] -> readable cfg key ->
  let got := if String.eqb key "find_orientations:clustering:radius" then clustering_radius cfg else clustering_completeness cfg in
  (forall v, got = Ok v <-> at_path cfg (split_colon key) = Some v /\ v <> YNone) /\ (forall e, got = Err e -> e = RuntimeError).
Proof.
  intros cfg key I R got. assert (G : got = required cfg key) by (cbn in I; destruct I as [<-|[<-|[]]]; reflexivity). rewrite G. unfold required.
  destruct (get_dflt cfg key YNone R) as (v & E & F). rewrite E. cbn [rbind]. split.
  - intros w. split.
    + intros H. assert (v = w /\ v <> YNone) as [<- N] by (destruct v; try discriminate; injection H as <-; split; congruence). destruct F as [F|[_ F]]; [auto|]. injection F as <-. congruence.
    + intros [A N]. assert (v = w) as -> by (destruct F as [F|[F _]]; congruence). destruct w; congruence.
  - intros e. destruct v; try discriminate. congruence.
Qed.
Print Assumptions C154_required.
(** the period is a list whose first two entries are 360 apart (in either order) *)
Theorem C154_period : forall cfg v, readable cfg "find_orientations:omega:period" ->
  (omega_period cfg = Ok v <->
   in_effect cfg "find_orientations:omega:period" (Some (YList [YFloat (-180); YInt 180])) v /\
   exists a b rest x y, v = YList (a :: b :: rest) /\ number a x /\ number b y /\ (y - x == 360 \/ x - y == 360)%Q).
Proof.
  intros cfg v R. unfold omega_period. destruct (get_dflt cfg _ (YList [YFloat (-180); YInt 180]) R) as (w & E & F). rewrite E. cbn [rbind]. unfold number. split.
  - intros H. destruct w as [| | | |s|[|a [|b rest]]|d]; try discriminate. { destruct s as [|? [|? ?]]; discriminate. }
    destruct (num_of a) as [x|] eqn:X; [|discriminate]. destruct (num_of b) as [y|] eqn:Y; [|discriminate]. destruct (Qeq_bool _ _) eqn:Q; [|discriminate]. injection H as <-.
    split; auto. exists a, b, rest, x, y. repeat split; auto. apply Qeq_bool_eq in Q. destruct (Qlt_le_dec (y - x) 0) as [L|L]; [right|left].
    + rewrite Qabs_neg in Q by lra. lra.
    + rewrite Qabs_pos in Q by lra. lra.
  - intros [G (a & b & rest & x & y & -> & X & Y & D)]. rewrite (effect_unique _ _ _ _ _ F G). rewrite X, Y.
    assert (Q : Qeq_bool (Qabs (y - x)) 360 = true); [|now rewrite Q]. apply Qeq_bool_iff. destruct D as [D|D].
    + rewrite Qabs_pos by lra. lra.
    + rewrite Qabs_neg by lra. lra.
Qed.
Print Assumptions C154_period.
(** a tolerance that is one number stands for two *)
Theorem C154_tolerances : forall cfg which v, In which ["eta"; "omega"; "tth"] -> readable cfg ("fit_grains:tolerance:" ++ which) ->
  (fit_tolerance which cfg = Ok v <-> exists t, at_path cfg (split_colon ("fit_grains:tolerance:" ++ which)) = Some t /\
     ((exists q, number t q) /\ v = YList [t; t] \/ (forall q, ~ number t q) /\ v = t)) /\
  (at_path cfg (split_colon ("fit_grains:tolerance:" ++ which)) = None -> fit_tolerance which cfg = Err RuntimeError).
Proof.
  intros cfg which v _ R. unfold fit_tolerance.
  assert (N : forall t, ((exists q, number t q) /\ doubled t = YList [t; t]) \/ ((forall q, ~ number t q) /\ doubled t = t)).
  { intros t. unfold number, doubled. destruct t; cbn; eauto; right; split; auto; intros q H; discriminate. }
  split.
  - split.
    + intros H. destruct (cfg_get cfg _ None) as [t|] eqn:E; [|discriminate]. cbn [rbind] in H. injection H as <-. exists t.
      apply get_effect in E; auto. destruct E as [E|[_ E]]; [|discriminate]. split; [exact E|apply N].
    + intros (t & A & C). rewrite (proj2 (get_effect cfg _ None t R) (or_introl A)). cbn [rbind]. f_equal.
      destruct (N t) as [[B D]|[B D]], C as [[C ->]|[C ->]]; auto; [destruct B as [q B]; destruct (C q B)|destruct C as [q C]; destruct (B q C)].
  - intros A. destruct R as [D O]. unfold cfg_get. now rewrite (get_missing None _ _ (split_nonempty _) D O A).
Qed.
Print Assumptions C154_tolerances.
Theorem C154_refit : forall cfg v, readable cfg "fit_grains:refit" ->
  (refit cfg = Ok v <-> exists t, in_effect cfg "fit_grains:refit" (Some YNone) t /\
     (t = YNone /\ v = YNone \/ (exists l, t = YList l) /\ v = t \/ (exists q, number t q) /\ v = YList [t; t])) /\
  (forall e, refit cfg = Err e -> e = RuntimeError).
Proof.
  intros cfg v R. unfold refit. destruct (get_dflt cfg _ YNone R) as (t & E & F). rewrite E. cbn [rbind]. unfold number, doubled. split; [split|].
  - intros H. exists t. split; auto. destruct t; cbn in H; try discriminate; injection H as <-;
      first [left; split; reflexivity|right; left; split; [eexists; reflexivity|reflexivity]|right; right; split; [eexists; reflexivity|reflexivity]].
  - intros (t' & G & C). rewrite (effect_unique _ _ _ _ _ F G). destruct C as [[-> ->]|[[(l & ->) ->]|[(q & X) ->]]]; auto. destruct t'; try discriminate; reflexivity.
  - intros e. destruct t; cbn; try discriminate; congruence.
Qed.
Print Assumptions C154_refit.
(** a flag is returned exactly if it equals true or false; what is returned is the value as given, *)
Theorem C154_flags_partial : forall cfg key v, In key ["fit_grains:skip_on_estimate"; "fit_grains:fit_only"] -> readable cfg key ->
  let got := if String.eqb key "fit_grains:fit_only" then fit_only cfg else skip_on_estimate cfg in
  (got = Ok v <-> in_effect cfg key (Some (YBool false)) v /\ exists q, number v q /\ (q == 0 \/ q == 1)%Q).
Proof.
  intros cfg key v I R got. assert (G : got = flag key cfg) by (cbn in I; destruct I as [<-|[<-|[]]]; reflexivity). rewrite G. unfold flag.
  destruct (get_dflt cfg key (YBool false) R) as (t & E & F). rewrite E. cbn [rbind]. unfold number.
  assert (P : forall t, orb (py_eq t (YBool true)) (py_eq t (YBool false)) = true <-> exists q, num_of t = Some q /\ (q == 0 \/ q == 1)%Q).
  { intros t'. rewrite orb_true_iff. split.
    - intros H. destruct t'; cbn in H; try (destruct H; discriminate); rewrite !Qeq_bool_iff in H; cbn; eexists; (split; [reflexivity|]); destruct H; auto.
    - intros (q & N & C). destruct t'; cbn in N |- *; try discriminate; injection N as <-; rewrite !Qeq_bool_iff; tauto. }
  split.
  - destruct (orb _ _) eqn:Q; [|discriminate]. intros H. injection H as <-. split; auto. now apply P.
  - intros [A C]. rewrite (effect_unique _ _ _ _ _ F A). apply P in C. now rewrite C.
Qed.
Print Assumptions C154_flags_partial.
(** which need not be a truth value *)
Theorem C154_flags_refuted : exists cfg, fit_only cfg = Ok (YFloat 1) /\ skip_on_estimate cfg = Ok (YInt 0).
Proof. exists (YDict [("fit_grains", YDict [("fit_only", YFloat 1); ("skip_on_estimate", YInt 0)])]). split; reflexivity. Qed.
Print Assumptions C154_flags_refuted.
Theorem C154_tth_max : forall cfg v, readable cfg "fit_grains:tth_max" ->
  (tth_max cfg = Ok v <-> in_effect cfg "fit_grains:tth_max" (Some (YBool true)) v /\ ((exists b, v = YBool b) \/ exists q, number v q /\ (0 < q)%Q)) /\
  (forall e, tth_max cfg = Err e -> e = RuntimeError).
Proof.
  intros cfg v R. unfold tth_max. destruct (get_dflt cfg _ (YBool true) R) as (t & E & F). rewrite E. cbn [rbind]. unfold number. split; [split|].
  - intros H. destruct t; try discriminate.
    + injection H as <-. eauto.
    + destruct (Z.ltb_spec 0 z) as [L|L]; [|discriminate]. injection H as <-. split; auto. right. eexists. split; [reflexivity|]. change (0 < inject_Z z)%Q with (inject_Z 0 < inject_Z z)%Q. now rewrite <- Zlt_Qlt.
    + destruct (Qlt_le_dec 0 q); [|discriminate]. injection H as <-. split; auto. right. eexists. split; [reflexivity|]. exact q0.
  - intros [G C]. rewrite (effect_unique _ _ _ _ _ F G). destruct C as [[b ->]|(q & N & P)]; auto. destruct v; try discriminate; cbn in N; injection N as <-; auto.
    + change (inject_Z 0 < inject_Z z)%Q in P. rewrite <- Zlt_Qlt in P. now rewrite (proj2 (Z.ltb_lt 0 z) P).
    + destruct (Qlt_le_dec 0 q0); auto. exfalso. apply (Qlt_irrefl q0). eapply Qle_lt_trans; eassumption.
  - intros e. destruct t; try discriminate; try congruence.
    + destruct (0 <? z)%Z; [discriminate|congruence].
    + destruct (Qlt_le_dec 0 q); [discriminate|congruence].
Qed.
Print Assumptions C154_tth_max.
Theorem C154_active_hkls : forall cfg v, readable cfg "find_orientations:orientation_maps:active_hkls" ->
  (active_hkls cfg = Ok v <-> exists t, in_effect cfg "find_orientations:orientation_maps:active_hkls" (Some (YStr "all")) t /\
     (whole t /\ v = YList [t] \/ (t = YStr "all" \/ t = YNone) /\ v = YNone \/ (exists l, t = YList l) /\ v = t)) /\
  (forall e, active_hkls cfg = Err e -> e = AssertionError).
Proof.
  intros cfg v R. unfold active_hkls. destruct (get_dflt cfg _ (YStr "all") R) as (t & E & F). rewrite E. cbn [rbind]. unfold whole. split; [split|].
  - intros H. exists t. split; auto. destruct t; cbn in H; try discriminate; try (injection H as <-; eauto 8).
    destruct (String.eqb_spec s "all") as [->|]; [|discriminate]. injection H as <-. auto.
  - intros (t' & G & C). rewrite (effect_unique _ _ _ _ _ F G).
    destruct C as [[[(z & ->)|(b & ->)] ->]|[[[->| ->] ->]|[(l & ->) ->]]]; reflexivity.
  - intros e. destruct t; cbn; try discriminate; try congruence. destruct (String.eqb s "all"); [discriminate|congruence].
Qed.
Print Assumptions C154_active_hkls.
(** the method of the seed search is a dictionary with one known name; everything else raises, except *)
Theorem C154_method_partial : forall cfg v, readable cfg "find_orientations:seed_search:method" -> v <> YNone ->
  (seed_method cfg = Ok v <-> at_path cfg (split_colon "find_orientations:seed_search:method") = Some v /\
     exists k o t, v = YDict [(k, o)] /\ In t ["label"; "blob_log"; "blob_dog"] /\ same_but_case k t) /\
  (forall e, seed_method cfg = Err e -> e = RuntimeError).
Proof.
  intros cfg v R NV. unfold seed_method. destruct (cfg_get cfg _ None) as [t|x] eqn:E.
  - pose proof (proj1 (get_effect _ _ _ _ R) E) as F. destruct F as [F|[_ F]]; [|discriminate]. rewrite F. split; [split|].
    + intros H. destruct (py_len t) as [[|[|n]]|] eqn:L; try discriminate. destruct t; try (injection H as <-; congruence); try discriminate.
      destruct d as [|[k o] [|? ?]]; try discriminate. destruct (existsb _ _) eqn:X; [|discriminate]. injection H as <-. apply existsb_in in X.
      split; auto. exists k, o, (lower k). repeat split; auto. apply same_lower. symmetry. apply (lower_fixed _ (lower k)); auto. cbn in *. tauto.
    + intros [H (k & o & t' & -> & I & C)]. injection H as ->. cbn [py_len length]. apply same_lower in C. assert (L : lower t' = t') by (apply (lower_fixed _ t'); auto; cbn in *; tauto).
      rewrite C, L, (proj2 (existsb_in t' _) I). reflexivity.
    + intros e. destruct (py_len t) as [[|[|n]]|]; try congruence. destruct t; try discriminate. destruct d as [|[k o] d]; [discriminate|]. destruct (existsb _ _); congruence.
  - split; [split|congruence]. { discriminate. } intros [H _]. rewrite (proj2 (get_effect _ _ None v R) (or_introl H)) in E. discriminate.
Qed.
Print Assumptions C154_method_partial.
(** a list or a string of length one, for which None is returned *)
Theorem C154_method_refuted : forall x, seed_method (YDict [("find_orientations", YDict [("seed_search", YDict [("method", YList [x])])])]) = Ok YNone.
Proof. reflexivity. Qed.
Print Assumptions C154_method_refuted.
(** a file that is returned exists, and is the one named, relative names being taken in the working directory *)
Theorem C154_files : forall isabs join isfile exists_ wdir cfg p,
  let named s := (isabs s = true /\ p = s) \/ (isabs s = false /\ exists w, wdir = Ok w /\ p = join w s) in
  (readable cfg "find_orientations:use_quaternion_grid" -> use_quaternion_grid isabs join isfile wdir cfg = Ok (YStr p) ->
     isfile p = true /\ exists s, at_path cfg (split_colon "find_orientations:use_quaternion_grid") = Some (YStr s) /\ named s) /\
  (readable cfg "fit_grains:estimate" -> estimate isabs join isfile wdir cfg = Ok (YStr p) ->
     isfile p = true /\ exists s, at_path cfg (split_colon "fit_grains:estimate") = Some (YStr s) /\ named s) /\
  (readable cfg "material:definitions" -> definitions isabs join exists_ wdir cfg = Ok (YStr p) ->
     exists_ p = true /\ exists s, at_path cfg (split_colon "material:definitions") = Some (YStr s) /\ named s) /\
  (forall s, check_filename isabs join exists_ wdir s = Ok p <-> exists_ p = true /\ named s).
Proof.
  intros isabs join isfile exists_ wdir cfg p named.
  assert (A : forall s q, absolute isabs join wdir s = Ok q <-> (isabs s = true /\ q = s) \/ (isabs s = false /\ exists w, wdir = Ok w /\ q = join w s)).
  { intros s q. unfold absolute. destruct (isabs s); [split; [intros H; injection H as <-; auto|intros [[_ ->]|[? _]]; congruence]|].
    destruct wdir as [w|e]; cbn [rbind]; split.
    - intros H. injection H as <-. right. split; auto. exists w. auto.
    - intros [[? _]|[_ (w' & E & ->)]]; congruence.
    - discriminate.
    - intros [[? _]|[_ (w' & E & _)]]; discriminate. }
  split; [|split; [|split]].
  - intros R H. unfold use_quaternion_grid in H. destruct (get_dflt cfg _ YNone R) as (t & E & F). rewrite E in H. cbn [rbind] in H. destruct t; try discriminate.
    destruct (absolute isabs join wdir s) as [q|] eqn:Q; [|discriminate]. cbn [rbind] in H. destruct (isfile q) eqn:X; [|discriminate]. injection H as <-. split; auto. exists s.
    split; [destruct F as [F|[_ F]]; [auto|discriminate]|]. now apply A.
  - intros R H. unfold estimate in H. destruct (get_dflt cfg _ YNone R) as (t & E & F). rewrite E in H. cbn [rbind] in H. destruct t; try discriminate.
    destruct (absolute isabs join wdir s) as [q|] eqn:Q; [|discriminate]. cbn [rbind] in H. destruct (isfile q) eqn:X; [|discriminate]. injection H as <-. split; auto. exists s.
    split; [destruct F as [F|[_ F]]; [auto|discriminate]|]. now apply A.
  - intros R H. unfold definitions in H. destruct (cfg_get cfg _ None) as [t|] eqn:E; [|discriminate]. apply get_effect in E; auto. cbn [rbind] in H. destruct t; try discriminate.
    destruct (absolute isabs join wdir s) as [q|] eqn:Q; [|discriminate]. cbn [rbind] in H. destruct (exists_ q) eqn:X; [|discriminate]. injection H as <-. split; auto. exists s.
    split; [destruct E as [F|[_ F]]; [auto|discriminate]|]. now apply A.
  - intros s. unfold check_filename, named. rewrite <- A. destruct (absolute isabs join wdir s) as [q|] eqn:Q; cbn [rbind].
    + destruct (exists_ q) eqn:X; split.
      * intros H. injection H as <-. auto.
      * intros [_ H]. exact H.
      * discriminate.
      * intros [Y H]. injection H as <-. congruence.
    + split; [discriminate|intros [_ H]; discriminate].
Qed.
Print Assumptions C154_files.
(** seeds are required unless a grid of orientations is given *)
Theorem C154_seeds : forall isabs join isfile wdir cfg v, readable cfg "find_orientations:seed_search:hkl_seeds" ->
  hkl_seeds isabs join isfile wdir cfg = Ok v ->
  (exists t, at_path cfg (split_colon "find_orientations:seed_search:hkl_seeds") = Some t /\ (whole t /\ v = YList [t] \/ ~ whole t /\ v = t)) \/
  (at_path cfg (split_colon "find_orientations:seed_search:hkl_seeds") = None /\ v = YNone /\
   exists g, use_quaternion_grid isabs join isfile wdir cfg = Ok g /\ g <> YNone).
Proof.
  intros isabs join isfile wdir cfg v R H. unfold hkl_seeds in H. destruct (cfg_get cfg _ None) as [t|e] eqn:E.
  - left. apply get_effect in E; auto. destruct E as [E|[_ E]]; [|discriminate]. exists t. split; auto. unfold whole.
    destruct t; cbn in H; injection H as <-; eauto 6; right; (split; [|reflexivity]); intros [[? X]|[? X]]; discriminate.
  - right. split.
    + destruct (at_path cfg _) as [t|] eqn:P; auto. rewrite (proj2 (get_effect _ _ None t R) (or_introl P)) in E. discriminate.
    + destruct (use_quaternion_grid _ _ _ _ _) as [g|] eqn:G; [|discriminate]. cbn [rbind] in H. destruct g; try discriminate; injection H as <-; split; auto; eexists; (split; [reflexivity|discriminate]).
Qed.
Print Assumptions C154_seeds.
(** the exclusion parameters are the ones in effect; the minimum structure factor may be given under its old name *)
Theorem C154_exclusions : forall cfg prefix re ps, (forall k, readable cfg (prefix ++ ":" ++ k)) -> exclusion_parameters prefix cfg = Ok (re, ps) ->
  in_effect cfg (prefix ++ ":reset_exclusions") (Some (YBool true)) re /\
  map fst ps = ["dmin"; "dmax"; "tthmin"; "tthmax"; "sfacmin"; "sfacmax"; "pintmin"; "pintmax"] /\
  forall k v, In (k, v) ps -> exists d, in_effect cfg (prefix ++ ":" ++ k) (Some d) v /\
    ((k <> "sfacmin" /\ d = YNone) \/ (k = "sfacmin" /\ in_effect cfg (prefix ++ ":min_sfac_ratio") (Some YNone) d)).
Proof.
  intros cfg prefix re ps R H. unfold exclusion_parameters in H. cbn zeta in H.
  repeat match type of H with (do _ <- cfg_get ?c ?k (Some ?d); _) = _ => let v := fresh "v" in let E := fresh "E" in
    destruct (get_dflt c k d (R _)) as (v & E & ?); rewrite E in H; clear E; cbn [rbind] in H end.
  injection H as <- <-. split; [assumption|]. split; [reflexivity|]. intros k w I. cbn [In] in I.
  repeat (destruct I as [I|I]; [injection I as <- <-; eexists; split; [eassumption|]; (left; split; [discriminate|reflexivity]) || (right; split; [reflexivity|assumption])|]). destruct I.
Qed.
Print Assumptions C154_exclusions.
(** the greatest two-theta of the fit is not among them, and a null under the new name hides the old one *)
Theorem C154_exclusions_refuted :
  (forall cfg v c b, cfg_set cfg "fit_grains:tth_max" v = Ok (c, b) -> exclusion_parameters "fit_grains" c = exclusion_parameters "fit_grains" cfg) /\
  exists cfg re ps, exclusion_parameters "fit_grains" cfg = Ok (re, ps) /\ cfg_get cfg "fit_grains:min_sfac_ratio" None = Ok (YFloat (1 # 20)) /\ In ("sfacmin", YNone) ps.
Proof.
  split.
  - intros cfg v c b S1. unfold exclusion_parameters. cbn zeta.
    assert (G : forall k d, k <> "tth_max" -> free_of ":" k -> cfg_get c ("fit_grains" ++ ":" ++ k) d = cfg_get cfg ("fit_grains" ++ ":" ++ k) d).
    { intros k d N F. apply (set_unrelated _ _ _ _ _ _ d S1). assert (K : forall k, free_of ":" k -> split_colon k = [k]).
      { clear. induction k as [|a k IH]; intros F; cbn [split_colon]; auto. destruct F as [A F]. destruct (Ascii.eqb_spec a ":"); [contradiction|]. now rewrite IH. }
      cbn. rewrite (K k F). split; intros (r & P); cbn in P; injection P; intros; subst; congruence. }
    repeat (rewrite G by (try discriminate; cbn; repeat split; discriminate); match goal with |- (do _ <- ?x; _) = _ => destruct x; cbn [rbind]; [|reflexivity] end). reflexivity.
  - exists (YDict [("fit_grains", YDict [("min_sfac_ratio", YFloat (1 # 20)); ("sfacmin", YNone)])]). eexists _, _. split; [reflexivity|]. split; [reflexivity|]. cbn. tauto.
Qed.
Print Assumptions C154_exclusions_refuted.
Theorem C154_width : forall cfg, readable cfg "material:tth_width" -> exists v, tth_width cfg = Ok v /\ v <> YNone /\
  (at_path cfg (split_colon "material:tth_width") = Some v \/
   (at_path cfg (split_colon "material:tth_width") = None \/ at_path cfg (split_colon "material:tth_width") = Some YNone) /\ v = YFloat (1 # 4)).
Proof.
  intros cfg R. unfold tth_width. destruct (get_dflt cfg _ (YFloat (1 # 4)) R) as (t & E & F). rewrite E. cbn [rbind]. destruct F as [F|[F1 F2]].
  - destruct t; eexists; (split; [reflexivity|]); split; try discriminate; auto.
  - injection F2 as <-. eexists. split; [reflexivity|]. split; [discriminate|auto].
Qed.
Print Assumptions C154_width.
Example C154_ex : clustering_algorithm (YDict [("find_orientations", YDict [("clustering", YDict [("algorithm", YStr "Ort-DBSCAN")])])]) = Ok (YStr "ort-dbscan") /\
  clustering_algorithm (YDict [("find_orientations", YNone)]) = Ok (YStr "dbscan") /\ tth_max (YDict [("fit_grains", YDict [("tth_max", YInt (-3))])]) = Err RuntimeError.
Proof. repeat split. Qed.
Example C154_readable_ex : readable (YDict [("find_orientations", YNone)]) "find_orientations:clustering:algorithm".
Proof.
  split; [eexists; reflexivity|]. intros q k r E x A [N1 N2]. destruct q as [|q1 q]; cbn in E; injection E as E1 E2.
  - injection A as <-. apply N2. eexists. reflexivity.
  - subst q1. cbn in A. destruct q as [|q2 q]; cbn in A; [injection A as <-; congruence|discriminate].
Qed.

(** ** C155: the azimuths searched and the divisions of a fiber *)
Theorem C155_eta : forall cfg mask m, readable cfg "find_orientations:eta:mask" -> in_effect cfg "find_orientations:eta:mask" (Some (YInt 5)) mask -> number mask m ->
  exists rs, eta_range cfg = Ok (Some rs) /\ length rs = 2%nat /\ forall eta, (0 <= m)%Q -> (in_some rs eta <-> clear_of_poles m eta).
Proof.
  intros cfg mask m R F N. unfold eta_range. rewrite (proj2 (get_effect _ _ _ _ R) F). cbn [rbind]. unfold number in N.
  exists [(-(90) + m, 90 - m); (90 + m, 270 - m)]%Q. split; [destruct mask; try discriminate; rewrite N; reflexivity|]. split; [reflexivity|].
  intros eta P. unfold in_some, clear_of_poles. split.
  - intros (r & [<-|[<-|[]]] & A & B); cbn [fst snd] in *.
    + rewrite Qabs_neg by lra. repeat split; lra.
    + rewrite Qabs_pos by lra. repeat split; lra.
  - intros (A & B & C). destruct (Qlt_le_dec eta 90) as [L|L].
    + rewrite Qabs_neg in B by lra. eexists. split; [left; reflexivity|]. cbn [fst snd]. split; lra.
    + rewrite Qabs_pos in B by lra. eexists. split; [right; left; reflexivity|]. cbn [fst snd]. split; lra.
Qed.
Print Assumptions C155_eta.
(** with a mask over 90 degrees both ranges are reversed, and no mask gives no ranges at all *)
Theorem C155_eta_refuted : (forall cfg mask m, readable cfg "find_orientations:eta:mask" -> in_effect cfg "find_orientations:eta:mask" (Some (YInt 5)) mask -> number mask m -> (90 < m)%Q ->
    exists a b c d, eta_range cfg = Ok (Some [(a, b); (c, d)]) /\ (b < a)%Q /\ (d < c)%Q) /\
  exists cfg, eta_range cfg = Ok None.
Proof.
  split.
  - intros cfg mask m R F N L. unfold eta_range. rewrite (proj2 (get_effect _ _ _ _ R) F). cbn [rbind]. unfold number in N. eexists _, _, _, _. split; [destruct mask; try discriminate; rewrite N; reflexivity|]. split; lra.
  - exists (YDict [("find_orientations", YDict [("eta", YDict [("mask", YNone)])])]). reflexivity.
Qed.
Print Assumptions C155_eta_refuted.
(** the number of divisions is the greatest for which the divisions are not finer than the step *)
Theorem C155_divisions : forall cfg st s, readable cfg "find_orientations:seed_search:fiber_step" -> readable cfg "find_orientations:omega:tolerance" ->
  (exists t, in_effect cfg "find_orientations:omega:tolerance" (Some (YFloat (1 # 2))) t /\ in_effect cfg "find_orientations:seed_search:fiber_step" (Some t) st) -> number st s -> (0 < s)%Q ->
  exists n, fiber_ndiv cfg = Ok n /\ (inject_Z n * s <= 360 < inject_Z (n + 1) * s)%Q /\ (forall k, (0 <= k)%Z -> inject_Z k * s == 360 -> n = k)%Q.
Proof.
  intros cfg st s R1 R2 (t & T & S1) N P. unfold fiber_ndiv, fiber_step, omega_tolerance. rewrite (proj2 (get_effect _ _ _ _ R2) T). cbn [rbind]. rewrite (proj2 (get_effect _ _ _ _ R1) S1). cbn [rbind].
  unfold number in N. rewrite N. destruct (Qeq_bool s 0) eqn:Z. { apply Qeq_bool_eq in Z. lra. }
  eexists. split; [reflexivity|]. assert (Q0 : (0 <= 360 / s)%Q). { apply Qle_shift_div_l; auto. lra. }
  destruct (qtrunc_pos (360 / s) Q0) as [A B]. assert (E : (360 / s * s == 360)%Q) by (field; lra). split.
  - split.
    + apply (Qmult_le_compat_r _ _ s) in A; lra.
    + apply (Qmult_lt_compat_r _ _ s) in B; lra.
  - intros k K H. rewrite <- (qtrunc_int k K). apply qtrunc_comp; auto. rewrite <- H. field. lra.
Qed.
Print Assumptions C155_divisions.
(** so the divisions are coarser than the step unless it divides the circle, and there are none for a step over 360 *)
Theorem C155_divisions_refuted : exists cfg cfg', (cfg_get cfg "find_orientations:seed_search:fiber_step" None = Ok (YInt 7) /\ fiber_ndiv cfg = Ok 51%Z /\ (7 < 360 / 51)%Q) /\
  (cfg_get cfg' "find_orientations:seed_search:fiber_step" None = Ok (YInt 400) /\ fiber_ndiv cfg' = Ok 0%Z).
Proof.
  exists (YDict [("find_orientations", YDict [("seed_search", YDict [("fiber_step", YInt 7)])])]), (YDict [("find_orientations", YDict [("seed_search", YDict [("fiber_step", YInt 400)])])]).
  repeat split.
Qed.
Print Assumptions C155_divisions_refuted.
Theorem C155_zero : forall cfg st, readable cfg "find_orientations:seed_search:fiber_step" -> readable cfg "find_orientations:omega:tolerance" ->
  at_path cfg (split_colon "find_orientations:seed_search:fiber_step") = Some st -> number st 0 -> fiber_ndiv cfg = Err ZeroDivisionError.
Proof.
  intros cfg st R1 R2 S1 N. unfold fiber_ndiv, fiber_step, omega_tolerance. destruct (get_dflt cfg _ (YFloat (1 # 2)) R2) as (t & E & _). rewrite E. cbn [rbind].
  rewrite (proj2 (get_effect _ _ (Some t) _ R1) (or_introl S1)). cbn [rbind]. unfold number in N. now rewrite N.
Qed.
Print Assumptions C155_zero.

(** ** C156: where results are put *)
(** the files of one analysis are different *)
Theorem C156_kinds : forall p a b, place p a = place p b -> a = b.
Proof.
  intros p a b H. assert (L : forall x y : string, x = y -> String.length x = String.length y) by (intros; now subst).
  destruct a, b; auto; exfalso; unfold place, analysis_dir, working_dir in H; destruct (pl_new p); try discriminate H; injection H as H; try discriminate H.
  all: try (apply L in H; rewrite ?str_len_app in H; cbn in H; rewrite ?str_len_app in H; cbn in H; lia).
  all: revert H; generalize (analysis_id p) as i; intros i H.
  all: try (apply L in H; rewrite ?str_len_app in H; cbn in H; rewrite ?str_len_app in H; cbn in H; lia).
Qed.
Print Assumptions C156_kinds.
(** with the current placement, analyses in different directories, under different names or of different materials use different files *)
Theorem C156_current : forall p q a b, pl_new p = true -> pl_new q = true -> place p a = place q b ->
  a = b /\ pl_wdir p = pl_wdir q /\ pl_name p = pl_name q /\ (a <> Grains -> clean (pl_material p) = clean (pl_material q)).
Proof.
  intros p q a b P Q H. destruct a, b; unfold place, analysis_dir in H; rewrite ?P, ?Q in H;
    pose proof (f_equal (fun l => nth 0 l "") H) as H1; pose proof (f_equal (fun l => nth 1 l "") H) as H2; pose proof (f_equal (fun l => nth 2 l "") H) as H3; cbn [nth] in H1, H2, H3;
    try discriminate H3; repeat split; auto; intros N; try congruence; clear H N.
  all: apply str_app_inj_l in H3; eapply str_app_inj_r; exact H3.
Qed.
Print Assumptions C156_current.
(** with the old placement, as long as underscores are in the names only or in the materials only *)
Theorem C156_old_partial : forall p q a, pl_new p = false -> pl_new q = false -> a <> Grains ->
  (free_of "_" (pl_name p) /\ free_of "_" (pl_name q) \/ free_of "_" (pl_material p) /\ free_of "_" (pl_material q)) ->
  place p a = place q a -> pl_wdir p = pl_wdir q /\ clean (pl_name p) = clean (pl_name q) /\ clean (pl_material p) = clean (pl_material q).
Proof.
  intros p q a P Q N F H.
  assert (I : pl_wdir p = pl_wdir q /\ analysis_id p = analysis_id q).
  { destruct a; try congruence; unfold place, working_dir in H; rewrite P, Q in H;
      pose proof (f_equal (fun l => nth 0 l "") H) as H1; pose proof (f_equal (fun l => nth 1 l "") H) as H2; cbn [nth] in H1, H2; (split; [exact H1|]);
      [apply str_app_inj_l in H2|apply str_app_inj_l in H2| |apply str_app_inj_l, str_app_inj_l in H2; exact H2]; eapply str_app_inj_r; exact H2. }
  destruct I as [W I]. split; auto. unfold analysis_id in I. cbn [append] in I. destruct F as [[A B]|[A B]]; apply free_clean in A; apply free_clean in B; [eapply split_at|eapply split_at_end]; eassumption.
Qed.
Print Assumptions C156_old_partial.
(** names and materials with underscores, or that differ in blanks only, share their files; the grains do not depend on the material at all *)
Theorem C156_refuted : exists p q p' q', pl_new p = false /\ pl_new q = false /\ pl_name p <> pl_name q /\ pl_material p <> pl_material q /\ (forall a, a <> Grains -> place p a = place q a) /\
  pl_new p' = true /\ pl_new q' = true /\ pl_material p' <> pl_material q' /\ (forall a, place p' a = place q' a) /\
  forall w n m m', place (PLACE w n m true) Grains = place (PLACE w n m' true) Grains.
Proof.
  exists (PLACE "w" "a_b" "c" false), (PLACE "w" "a" "b_c" false), (PLACE "w" "n" "ti a" true), (PLACE "w" "n" "ti-a " true). repeat split; try discriminate.
  - intros [] H; try reflexivity. congruence.
Qed.
Print Assumptions C156_refuted.
Example C156_ex : place (PLACE "w" "run1" "Ti 64" true) Maps = ["w"; "run1"; "eta-ome-maps-Ti-64.npz"] /\ place (PLACE "w" "run1" "Ti 64" false) Maps = ["w"; "run1_Ti-64_eta-ome_maps.npz"].
Proof. split; reflexivity. Qed.

(** ** C157: what is read once stays *)
(** one entry of the list of image series *)
Theorem C157_entry : forall (IMS : Type) open_ims meta_panel file_ok fmt s k (v : IMS), load_one open_ims meta_panel file_ok fmt s = Ok (k, v) ->
  exists d f p args, s = YDict d /\ dget "file" d = Some (YStr f) /\ file_ok f = Ok p /\ dget "args" d = Some (YDict args) /\ open_ims p fmt args = Ok v /\ hashable k = true /\
    (forall l, dget "panel" d = Some (YList l) -> exists ss, l = map YStr ss /\ k = YStr (String.concat "_" ss)) /\
    (forall x, dget "panel" d = Some x -> x <> YNone -> (forall l, x <> YList l) -> k = x) /\
    (dget "panel" d = Some YNone -> k = YStr "SHARED-IMAGES") /\
    (dget "panel" d = None -> meta_panel v = Some k \/ meta_panel v = None /\ k = YStr "SHARED-IMAGES").
Proof.
  intros IMS open_ims meta_panel file_ok fmt s k v H. unfold load_one in H. destruct s as [| | | | | |d]; try discriminate. destruct (dget "file" d) as [[| | | |f| |]|] eqn:F; try discriminate.
  destruct (file_ok f) as [p|] eqn:P; [|discriminate]. cbn [rbind] in H. destruct (dget "args" d) as [[| | | | | |args]|] eqn:A; try discriminate.
  destruct (open_ims p fmt args) as [o|] eqn:O; [|discriminate]. cbn [rbind] in H. exists d, f, p, args.
  match type of H with (do panel <- ?e; _) = _ => destruct e as [pn|] eqn:N; [|discriminate] end. cbn [rbind] in H.
  destruct (hashable pn) eqn:X; [|discriminate]. injection H as <- <-. do 6 (split; [assumption || reflexivity|]). split; [|split; [|split]].
  - intros l E. rewrite E in N. destruct (join_ l) as [t|] eqn:J; [|discriminate]. injection N as <-. clear -J. revert t J. induction l as [|a l IH]; intros t J.
    + injection J as <-. exists []. auto.
    + cbn [join_] in J. destruct a as [| | | |a| |]; try discriminate. destruct l as [|b l].
      * injection J as <-. exists [a]. auto.
      * destruct (join_ (b :: l)) as [u|] eqn:U; [|discriminate]. cbn [rbind] in J. injection J as <-. destruct (IH u eq_refl) as (ss & E & T). injection T as ->. exists (a :: ss). split; [cbn; congruence|].
        destruct ss; [discriminate|reflexivity].
  - intros x E NN NL. rewrite E in N. destruct x; congruence.
  - intros E. rewrite E in N. injection N as <-. reflexivity.
  - intros E. rewrite E in N. destruct (meta_panel o); injection N as <-; auto.
Qed.
Print Assumptions C157_entry.
(** for each panel the first access gives the series that came last in the list; if the panels differ, it gives all of them *)
Theorem C157_images : forall (IMS : Type) open_ims meta_panel file_ok tree fit fmt specs r (d : list (yv * IMS)),
  cfg_get tree "image_series:format" None = Ok fmt -> cfg_get tree "image_series:data" None = Ok (YList specs) ->
  image_series open_ims meta_panel file_ok (ROOT tree fit None) = (r, Ok d) ->
  exists loaded, Forall2 (fun s kv => load_one open_ims meta_panel file_ok fmt s = Ok kv) specs loaded /\
    (forall k, hashable k = true -> iget k d = last_for k loaded) /\ (all_different (map fst loaded) -> d = loaded).
Proof.
  intros IMS open_ims meta_panel file_ok tree fit fmt specs r d F D H. unfold image_series in H. cbn [r_images r_tree] in H. rewrite F, D in H.
  destruct (load_all open_ims meta_panel file_ok fmt specs []) as [d' res] eqn:L. destruct res as [[]|]; [|discriminate]. injection H as _ <-.
  destruct (load_all_spec open_ims meta_panel file_ok fmt specs [] d' (Ok tt)) as (done & loaded & rest & E & A & B & _ & _ & G & Z); [constructor|assumption|].
  rewrite (B eq_refl), app_nil_r in E. subst done. exists loaded. split; auto. split.
  - intros k K. rewrite (G k K). destruct (last_for k loaded); reflexivity.
  - intros AD. rewrite Z. apply (fold_iset_fresh loaded []); [|constructor|exact AD]. clear -A. induction A as [|s [k v] ? ? X]; constructor; auto. eapply load_one_hash; exact X.
Qed.
Print Assumptions C157_images.
(** after an access that raises, the next one returns what had been loaded by then, without an error, whatever has been set in between *)
Theorem C157_failed_refuted : forall (IMS : Type) open_ims meta_panel file_ok tree fit fmt specs r e ops,
  cfg_get tree "image_series:format" None = Ok fmt -> cfg_get tree "image_series:data" None = Ok (YList specs) ->
  image_series open_ims meta_panel file_ok (ROOT tree fit None) = (r, Err e) ->
  exists done s rest (loaded d : list (yv * IMS)), specs = (done ++ s :: rest)%list /\ load_one open_ims meta_panel file_ok fmt s = Err e /\
    Forall2 (fun s kv => load_one open_ims meta_panel file_ok fmt s = Ok kv) done loaded /\ (forall k, hashable k = true -> iget k d = last_for k loaded) /\
    let r' := run open_ims meta_panel file_ok r ops in image_series open_ims meta_panel file_ok r' = (r', Ok d).
Proof.
  intros IMS open_ims meta_panel file_ok tree fit fmt specs r e ops F D H. unfold image_series in H. cbn [r_images r_tree] in H. rewrite F, D in H.
  destruct (load_all open_ims meta_panel file_ok fmt specs []) as [d' res] eqn:L. destruct res as [[]|]; [discriminate|]. cbn [rbind] in H. injection H as <- <-.
  destruct (load_all_spec open_ims meta_panel file_ok fmt specs [] d' (Err e0)) as (done & loaded & rest & E & A & _ & B & _ & G & Z); [constructor|assumption|].
  destruct (B _ eq_refl) as (s & rest' & -> & X). exists done, s, rest', loaded, d'. split; auto. split; auto. split; auto. split.
  - intros k K. rewrite (G k K). destruct (last_for k loaded); reflexivity.
  - cbv zeta. apply images_kept. reflexivity.
Qed.
Print Assumptions C157_failed_refuted.
(** once read, neither changes in any history *)
Theorem C157_kept : forall (IMS : Type) open_ims meta_panel file_ok ops (r : @root IMS),
  let r' := run open_ims meta_panel file_ok r ops in
  (forall d, r_images r = Some d -> image_series open_ims meta_panel file_ok r' = (r', Ok d)) /\
  (forall x, r_fit r = Some x -> fit_grains_exclusions r' = (r', Ok x)).
Proof. intros. split; intros; [now apply images_kept|now apply fit_kept]. Qed.
Print Assumptions C157_kept.
(** the exclusions are those in effect when they were first read without an error; a failed access is tried again *)
Theorem C157_fit : forall (IMS : Type) open_ims meta_panel file_ok tree ops x,
  let at_start : @root IMS := ROOT tree None None in
  (r_fit (run open_ims meta_panel file_ok at_start ops) = Some x <->
   exists before after, ops = (before ++ OpFit :: after)%list /\ exclusion_parameters "fit_grains" (r_tree (run open_ims meta_panel file_ok at_start before)) = Ok x /\
     forall b a, before = (b ++ OpFit :: a)%list -> exists e, exclusion_parameters "fit_grains" (r_tree (run open_ims meta_panel file_ok at_start b)) = Err e) /\
  (forall (r : @root IMS) e, r_fit r = None -> exclusion_parameters "fit_grains" (r_tree r) = Err e -> fit_grains_exclusions r = (r, Err e)).
Proof.
  intros IMS open_ims meta_panel file_ok tree ops x at_start. split; [|intros r e N E; unfold fit_grains_exclusions; now rewrite N, E].
  split.
  - apply fit_first.
  - intros (before & after & -> & E & NF). unfold run. rewrite fold_left_app. cbn [fold_left]. fold (run open_ims meta_panel file_ok at_start before).
    destruct (r_fit (run open_ims meta_panel file_ok at_start before)) as [y|] eqn:Y.
    + exfalso. apply fit_first in Y. destruct Y as (b & a & -> & E' & _). destruct (NF b a eq_refl) as [e Z]. pose proof (eq_trans (eq_sym E') Z) as C. discriminate C.
    + assert (K : r_fit (fst (fit_grains_exclusions (run open_ims meta_panel file_ok at_start before))) = Some x) by (unfold fit_grains_exclusions; now rewrite Y, E).
      exact (fit_state_kept open_ims meta_panel file_ok after _ _ K).
Qed.
Print Assumptions C157_fit.
(** so a setting changed afterwards is not the one in use *)
Theorem C157_stale_refuted : exists (r : @root nat) x y, let r' := run (fun _ _ _ => Ok 0%nat) (fun _ => None) (fun f => Ok f) r [OpFit; OpSet "fit_grains:sfacmin" (YInt 1)] in
  exclusion_parameters "fit_grains" (r_tree r') = Ok x /\ fit_grains_exclusions r' = (r', Ok y) /\ x <> y.
Proof. exists (ROOT (YDict [("fit_grains", YDict [])]) None None). eexists _, _. cbn zeta. split; [reflexivity|]. split; [reflexivity|discriminate]. Qed.
Print Assumptions C157_stale_refuted.
(** and of two series for one panel the first is lost *)
Example C157_ex : let spec (f : string) := YDict [("file", YStr f); ("args", YDict []); ("panel", YStr "ge1")] in
  snd (image_series (fun f _ _ => Ok f) (fun _ => None) (fun f => if String.eqb f "bad" then Err OSError else Ok f)
    (ROOT (YDict [("image_series", YDict [("format", YStr "hdf5"); ("data", YList [spec "a"; spec "b"])])]) None None)) = Ok [(YStr "ge1", "b")] /\
  let r := fst (image_series (fun f _ _ => Ok f) (fun _ => None) (fun f => if String.eqb f "bad" then Err OSError else Ok f)
    (ROOT (YDict [("image_series", YDict [("format", YStr "hdf5"); ("data", YList [spec "a"; spec "bad"])])]) None None)) in
  image_series (fun f _ _ => Ok f) (fun _ => None) (fun f => Ok f) r = (r, Ok [(YStr "ge1", "a")]).
Proof. split; reflexivity. Qed.
