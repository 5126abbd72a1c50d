(** The commands find-orientations and fit-grains, tables of grains, and rotation vectors of accepted orientations *)
From Coq Require Import String List ZArith Reals Lra Psatz Lia.
From Verif Require Import Prelude Lin TensorModel RotModel RotSpec RotProofs RotProofs2 XfModel WrModel WrProps CmdModel CmdSpec CmdProofs.
Import ListNotations.
Local Open Scope string_scope.
Local Open Scope list_scope.
Local Close Scope nat_scope.
Local Notation length := List.length.

(** ** C182: without --force or --clean fit-grains changes no file that exists, at no moment; find-orientations changes no file of
    accepted orientations, and no other file but the table of grains of the same analysis.  [k] is the moment of a crash *)
Theorem C182_fit_keeps : forall (Row : Type) (index : config -> result (list Row)) fit start cfgs (d : @disk Row) k p x, d p = Some x ->
  after d (firstn k (fst (fit_execute index fit start false false cfgs d))) p = Some x.
Proof. intros Row index fit start cfgs d k p x H. rewrite firstn_untouched; [exact H|]. apply execute_keeps. congruence. Qed.
Print Assumptions C182_fit_keeps.
Theorem C182_find_keeps_partial : forall (Row : Type) (index : config -> result (list Row)) start c (d : @disk Row) k p x, d p = Some x -> p <> grains_file c ->
  after d (firstn k (fst (find_execute index start false false c d))) p = Some x.
Proof.
  intros Row index start c d k p x H N. rewrite firstn_untouched; [exact H|]. intros e He T. unfold find_execute in He. cbn [orb negb] in He. rewrite andb_true_r in He.
  destruct (exists_file d (quats_file c)) eqn:E; [contradiction|]. destruct (index c) as [qs|]; [|contradiction]. cbn [fst] in He. apply in_app_or in He.
  destruct He as [He|He]; apply (write_touches _ _ _ _ He) in T; [|congruence]. subst p. unfold exists_file in E. rewrite H in E. discriminate.
Qed.
Print Assumptions C182_find_keeps_partial.
(** but find-orientations does overwrite the table of grains: it only asks for the file of accepted orientations, which has the name of
    the material in it, while the table of grains has not.  Indexing a second material of an analysis destroys the grains fitted to the first *)
Theorem C182_find_keeps_refuted : exists (index : config -> result (list nat)) c d, d (quats_file c) = None /\ d (grains_file c) = Some [7; 8]%nat /\
  after d (fst (find_execute index (fun i q => q) false false c d)) (grains_file c) = Some [1%nat].
Proof.
  exists (fun _ => Ok [1%nat]), (Cfg "accepted_orientations_scan_alpha.dat" "scan/grains.out" None), (fun p => if String.eqb p "scan/grains.out" then Some [7; 8]%nat else None).
  repeat split; reflexivity.
Qed.
Print Assumptions C182_find_keeps_refuted.
(** a run that ends has fitted every analysis: its table of grains holds the fit of the grains promised as a start *)
Theorem C182_fit_starts_partial : forall (Row : Type) (index : config -> result (list Row)) fit start clean force first rest (d : @disk Row),
  let cfgs := first :: rest in
  NoDup (map grains_file cfgs) -> (forall c e, In c cfgs -> estimate c = Some e -> ~ In e (map grains_file cfgs)) ->
  snd (fit_execute index fit start clean force cfgs d) = Finished ->
  forall c, In c cfgs -> exists rows res, starts_from index start clean d first c rows /\ fit c rows = Ok res /\
    after d (fst (fit_execute index fit start clean force cfgs d)) (grains_file c) = Some res.
Proof.
  intros Row index fit start clean force first rest d cfgs ND HE Fin c Hc.
  assert (L : forall qbar, (forall qs, qbar = Some qs -> orientations_of index d first qs) -> fit_execute index fit start clean force cfgs d = fit_loop fit start clean force qbar cfgs d ->
    exists rows res, starts_from index start clean d first c rows /\ fit c rows = Ok res /\ after d (fst (fit_execute index fit start clean force cfgs d)) (grains_file c) = Some res).
  { intros qbar Q E. rewrite E in *. destruct (loop_sources index fit start clean force d qbar cfgs d ND) with (c := c) as (rows & res & A & B & C); [|exact Fin|exact Hc|].
    - intros c2 e H2 E2. split; [reflexivity|]. exact (HE c2 e H2 E2).
    - exists rows, res. split; [|split; assumption]. unfold starts_from. unfold source, current_estimate, exists_file in A. destruct clean.
      + destruct A as (qs & Eq & ->). exists qs. split; [exact (Q qs Eq)|apply (numbered fit)].
      + destruct (estimate c) as [e|]; [destruct (d e) as [x|] eqn:Ed|].
        * congruence.
        * destruct A as (qs & Eq & ->). exists qs. split; [exact (Q qs Eq)|apply (numbered fit)].
        * destruct A as (qs & Eq & ->). exists qs. split; [exact (Q qs Eq)|apply (numbered fit)]. }
  revert Fin L. unfold fit_execute, cfgs. intros Fin L. destruct (orb clean _).
  - destruct (d (quats_file first)) as [qs|] eqn:Ed.
    + apply (L (Some qs)); [|reflexivity]. intros ? [= <-]. now left.
    + destruct (index first) as [qs|] eqn:Ei; [|discriminate Fin]. apply (L (Some qs)); [|reflexivity]. intros ? [= <-]. right. now split.
  - apply (L None); [|reflexivity]. discriminate.
Qed.
Print Assumptions C182_fit_starts_partial.
(** and it does end, if the fits and the search for orientations do, no table exists or it may be overwritten, and the first analysis has
    no estimate or all have one (that exists) *)
Theorem C182_fit_finishes : forall (Row : Type) (index : config -> result (list Row)) fit start clean force first rest (d : @disk Row),
  let cfgs := first :: rest in
  NoDup (map grains_file cfgs) -> (forall c e, In c cfgs -> estimate c = Some e -> ~ In e (map grains_file cfgs)) ->
  (force || clean = true \/ forall c, In c cfgs -> d (grains_file c) = None) ->
  (forall c rows, In c cfgs -> exists res, fit c rows = Ok res) -> (exists qs, index first = Ok qs) ->
  (clean = true \/ estimate first = None \/ forall c, In c cfgs -> exists e x, estimate c = Some e /\ d e = Some x) ->
  snd (fit_execute index fit start clean force cfgs d) = Finished.
Proof.
  intros Row index fit start clean force first rest d cfgs ND HE HX HF (qs & HI) HQ. unfold fit_execute, cfgs. fold cfgs.
  assert (L : forall q, snd (fit_loop fit start clean force (Some q) cfgs d) = Finished) by (intros q; apply loop_finishes; auto; right; discriminate).
  destruct (orb clean _) eqn:B.
  - destruct (d (quats_file first)); [apply L|]. rewrite HI. apply L.
  - apply loop_finishes; auto. left. apply orb_false_iff in B. destruct B as [B1 B2]. intros c Hc. split; [exact B1|].
    destruct HQ as [HQ|[HQ|HQ]]; [congruence| |].
    + exfalso. unfold current_estimate in B2. rewrite HQ in B2. rewrite !andb_true_r in B2. apply orb_false_iff in B2. destruct B2 as [-> B2]. destruct HX as [HX|HX]; [rewrite B1 in HX; discriminate|]. unfold exists_file in B2. rewrite (HX first (or_introl eq_refl)) in B2. discriminate.
    + destruct (HQ c Hc) as (e & x & E1 & E2). unfold current_estimate, exists_file. rewrite E1, E2. discriminate.
Qed.
Print Assumptions C182_fit_finishes.
(** an analysis that was asked to stop, or every one after it, is not begun *)
Theorem C182_fit_refuses : forall (Row : Type) (index : config -> result (list Row)) fit start first rest (d : @disk Row) x,
  d (grains_file first) = Some x -> (exists qs, index first = Ok qs) -> fit_execute index fit start false false (first :: rest) d = ([], Exited).
Proof.
  intros Row index fit start first rest d x H (qs & HI). unfold fit_execute.
  assert (L : forall q, fit_loop fit start false false q (first :: rest) d = ([], Exited)) by (intros q; cbn [fit_loop]; unfold exists_file; now rewrite H).
  destruct (orb false _); [|apply L]. destruct (d (quats_file first)); [apply L|]. rewrite HI. apply L.
Qed.
Print Assumptions C182_fit_refuses.
(** refuted: each analysis starts from its own accepted orientations.  The orientations of the first are used for all of them *)
Theorem C182_own_orientations_refuted : exists (index : config -> result (list nat)) fit c1 c2 d, d (quats_file c2) = Some [5%nat] /\ estimate c2 = None /\
  snd (fit_execute index fit (fun _ q => q) false false [c1; c2] d) = Finished /\ (forall c rows, fit c rows = Ok rows) /\
  after d (fst (fit_execute index fit (fun _ q => q) false false [c1; c2] d)) (grains_file c2) = Some [4%nat].
Proof.
  exists (fun _ => Err RuntimeError), (fun _ rows => Ok rows), (Cfg "q1" "g1" None), (Cfg "q2" "g2" None),
    (fun p => if String.eqb p "q1" then Some [4%nat] else if String.eqb p "q2" then Some [5%nat] else None). repeat split; reflexivity.
Qed.
Print Assumptions C182_own_orientations_refuted.
(** refuted: overwriting with --force leaves either the old or new grains.  If only the first analysis has an estimate, the table of the
    second is emptied and the command ends with UnboundLocalError *)
Theorem C182_unset_refuted : exists (index : config -> result (list nat)) fit c1 c2 d, (forall c rows, fit c rows = Ok rows) /\ (forall c, index c = Ok [1%nat]) /\ d (grains_file c2) = Some [9%nat] /\
  snd (fit_execute index fit (fun _ q => q) false true [c1; c2] d) = Raised "UnboundLocalError" /\
  after d (fst (fit_execute index fit (fun _ q => q) false true [c1; c2] d)) (grains_file c2) = Some [].
Proof.
  exists (fun _ => Ok [1%nat]), (fun _ rows => Ok rows), (Cfg "q1" "g1" (Some "e"%string)), (Cfg "q2" "g2" None),
    (fun p => if String.eqb p "e" then Some [3%nat] else if String.eqb p "g2" then Some [9%nat] else None). repeat split; reflexivity.
Qed.
Print Assumptions C182_unset_refuted.
(** refuted: a table of grains on file has been fitted.  After a fit that failed it holds the orientations it started from, and the next
    run takes that for a finished analysis *)
Theorem C182_fitted_refuted : exists (index : config -> result (list nat)) fit c d, d (grains_file c) = None /\ (forall rows, fit c rows = Err RuntimeError) /\
  let d1 := after d (fst (fit_execute index fit (fun _ q => q) false false [c] d)) in
  d1 (grains_file c) = Some [1%nat] /\ fit_execute index fit (fun _ q => q) false false [c] d1 = ([], Exited).
Proof. exists (fun _ => Ok [1%nat]), (fun _ _ => Err RuntimeError), (Cfg "q" "g" None), (fun _ => None). repeat split; reflexivity. Qed.
Print Assumptions C182_fitted_refuted.
Example C182_ex : let d := fun p => if String.eqb p "q1" then Some [4; 6]%nat else if String.eqb p "e" then Some [3%nat] else None in
  let fit := fun c rows => Ok (map (Nat.add 100) rows) in let cfgs := [Cfg "q1" "g1" None; Cfg "q2" "g2" (Some "e"%string)] in
  let r := fit_execute (fun _ => Ok []) fit (fun i q => (i + q)%nat) false false cfgs d in
  NoDup (map grains_file cfgs) /\ snd r = Finished /\ after d (fst r) "g1" = Some [104; 107]%nat /\ after d (fst r) "g2" = Some [103]%nat /\ after d (firstn 2 (fst r)) "g1" = Some [4%nat].
Proof. repeat split; try reflexivity. repeat constructor; cbn; intuition discriminate. Qed.

(** ** C183: selection keeps the grains that meet the criteria, all of them, whole and in order *)
Theorem C183_select : forall gd lo hi, aligned gd -> exists keep : Z * R * R * list R * list R * list R * list R -> bool,
  (forall id c x e t v s, keep (id, c, x, e, t, v, s) = true <-> (lo <= c)%R /\ match hi with Some m => (x <= m)%R | None => True end) /\
  exists rows, all_grains gd = map Some rows /\ all_grains (select gd lo hi) = map Some (filter keep rows) /\ aligned (select gd lo hi).
Proof.
  intros gd lo hi A. destruct (select_lemma gd lo hi A) as [A' Z]. eexists. split; [|exists (zip gd); split; [exact (all_zip gd A)|split; [rewrite (all_zip _ A'), Z; reflexivity|exact A']]].
  intros id c x e t v s. unfold comp_of, chisq_of, leb_R. cbn [fst snd]. destruct (Rle_dec lo c), hi as [m|]; try destruct (Rle_dec x m); cbn [andb]; intuition; try discriminate.
Qed.
Print Assumptions C183_select.
(** grains written to a table are read back, number, completeness, fit, parameters and strain *)
Theorem C183_round_trip : forall etext ftext logm minv (l : list grain) rows, (forall g, In g l -> length (g_params g) = 12%nat) -> length rows = length l ->
  exists w table n, open_grain_writer false (Some (21%nat, rows)) = Ok w /\ dump_grains etext ftext logm minv w l = Ok (ToArray table n) /\
    aligned (from_array table) /\ length (gd_id (from_array table)) = length l /\ grains_of (from_array table) = l /\
    Forall2 (fun g s => exists u, stretch_inverse (g_params g) u /\ let e := logm (minv u) in s = [m00 e; m11 e; m22 e; m12 e; m02 e; m01 e]) l (gd_ln (from_array table)).
Proof.
  intros etext ftext logm minv l rows L E. destruct (C170_grain_table etext ftext logm minv rows l L) as (w & O & T). rewrite E, Nat.leb_refl in T. destruct T as (new & D & F).
  rewrite skipn_all2, app_nil_r in D by lia. destruct (from_rows logm minv l new L F) as [G A].
  exists w, new, (length l). split; [exact O|]. split; [exact D|]. split; [exact A|]. split; [|split; [exact G|]].
  - unfold from_array. cbn [gd_id]. rewrite map_length. symmetry. now apply Forall2_length in F || (clear -F; induction F; cbn; congruence).
  - unfold from_array. cbn [gd_ln]. clear -F L. induction F as [|g row l rows (u & U & ->) F IH]; [constructor|]. cbn [columns_of map]. constructor; [|apply IH; intros; apply L; now right].
    exists u. split; [exact U|]. cbv zeta. pose proof (L g (or_introl eq_refl)) as Lg. destruct g as [i c x gp]. cbn [g_params] in Lg. unfold grain_numbers. cbn [g_id g_comp g_chisq g_params].
    do 12 (destruct gp as [|? gp]; [discriminate|]). destruct gp; [|discriminate]. reflexivity.
Qed.
Print Assumptions C183_round_trip.
(** a text file is read if it has two grains or more *)
Theorem C183_read_partial : forall rows, (2 <= length rows)%nat -> from_grains_out rows = Ok (from_array rows).
Proof. intros rows H. unfold from_grains_out. now replace (Nat.ltb (length rows) 2) with false by (symmetry; apply Nat.ltb_ge; lia). Qed.
Print Assumptions C183_read_partial.
(** refuted: a text file with a single grain can be read *)
Theorem C183_read_refuted : forall row, from_grains_out [row] = Err IndexError.
Proof. reflexivity. Qed.
Print Assumptions C183_read_refuted.
Example C183_ex : let gd := GD [3; 8; 2]%Z [1; 1 / 2; 1]%R [1; 0; 5]%R [[1]; [2]; [3]]%R [[4]; [5]; [6]]%R [[]; []; []] [[]; []; []] in
  aligned gd /\ select gd (3 / 4) (Some 2%R) = GD [3%Z] [1%R] [1%R] [[1%R]] [[4%R]] [[]] [[]].
Proof.
  split; [repeat split|]. unfold select, leb_R. cbn. destruct (Rle_dec (3 / 4) 1) as [_|n]; [|exfalso; lra]. destruct (Rle_dec (3 / 4) (1 / 2)); [exfalso; lra|].
  destruct (Rle_dec 1 2) as [_|n2]; [|exfalso; lra]. destruct (Rle_dec 5 2); [exfalso; lra|]. destruct (Rle_dec 0 2); reflexivity.
Qed.

(** ** C184: the rotation vector written for an accepted orientation is the same rotation: its quaternion is given back, and so is its
    matrix; its length is the angle of the rotation, from 0 to a whole turn.  The rest of the starting point is the origin and no stretch *)
Theorem C184_start_partial : forall q, unitq q -> (c_epsf < norm (V3 (qx q) (qy q) (qz q)) \/ q = Q4 1 0 0 0)%R ->
  exists e, start_params q = [vx e; vy e; vz e; 0; 0; 0; 1; 1; 1; 0; 0; 0]%R /\ rotMatOfExpMap e = rotMatOfQuat q /\
  (0 <= norm e <= 2 * PI /\ cos (norm e / 2) = qw q)%R.
Proof.
  intros q U H. exists (expmap_of_quat q). split; [reflexivity|].
  destruct (expmap_lemma q U) as [A B]. { destruct H as [H|H]; [now left|right]. rewrite H. cbn [qw qx qy qz]. now split. }
  split; [unfold rotMatOfExpMap; now rewrite A|]. rewrite B. pose proof (acos_bound (qw q)). split; [lra|]. replace (2 * acos (qw q) / 2)%R with (acos (qw q)) by field. apply cos_acos. destruct q as [a b c d]. unfold unitq in U. cbn [qw qx qy qz] in *. split; nra.
Qed.
Print Assumptions C184_start_partial.
Example C184_ex : unitq (Q4 (3 / 5) 0 (4 / 5) 0) /\ (c_epsf < norm (V3 0 (4 / 5) 0))%R.
Proof.
  split; [unfold unitq; cbn [qw qx qy qz]; lra|]. replace (norm (V3 0 (4 / 5) 0)) with (4 / 5)%R. { unfold c_epsf. apply Rlt_le_trans with (/ 2)%R; [|lra]. apply Rinv_lt_contravar; [apply Rmult_lt_0_compat; [lra|apply pow_lt; lra]|]. replace 2%R with (2 ^ 1)%R at 1 by ring. apply Rlt_pow; [lra|lia]. }
  unfold norm. replace (norm2 (V3 0 (4 / 5) 0)) with (Rsqr (4 / 5)) by (lin_unfold; unfold Rsqr; ring). symmetry. apply sqrt_Rsqr. lra.
Qed.
