(** C169-C171: results written to text files, tables and archives can be read back *)
From Coq Require Import String Ascii List ZArith Reals Lia Lra Permutation Decimal DecimalString DecimalNat.
From Verif Require Import Prelude Lin TensorModel NamesModel NamesProofs WrModel WrSpec WrProofs.
Import ListNotations.
Local Open Scope string_scope.
Local Open Scope list_scope.
Local Notation length := List.length.

Definition padded (ws : list nat) (ts : list string) : string := join delim (map (fun wt => ljust (fst wt) (snd wt)) (combine ws ts)).
Lemma padded_line ws : forall ts, Forall word ts -> one_line (padded ws ts).
Proof.
  intros ts F. unfold padded. apply one_line_join. apply Forall_forall. intros x Hx. apply in_map_iff in Hx. destruct Hx as ([w t] & <- & I). apply in_combine_r in I. rewrite Forall_forall in F.
  unfold ljust. cbn [fst snd]. apply one_line_app; [apply one_line_word, (F t I)|apply one_line_spaces].
Qed.
Section Patch.
Context {V : Type}.
Variable etext : option nat -> item V -> string.
Variable ftext : item V -> string.
Variable nan : V.
(** three indices, three angles and two coordinates; a spot that was measured has all of its measured values *)
Definition complete_patch (a : @patch V) : Prop :=
  length (a_hkl a) = 3%nat /\ length (a_pangs a) = 3%nat /\ length (a_pxy a) = 2%nat /\
  forall l, a_mangs a = Some l -> length l = 3%nat /\ exists xy, a_mxy a = Some xy /\ length xy = 2%nat.
(** the seventeen texts of a line: not-a-number for everything measured if nothing was *)
Definition patch_texts (a : @patch V) : list string :=
  let num v := etext (Some 16%nat) (IFlt v) in
  [py_str (a_peak a); py_str (a_hkl_id a)] ++ map py_str (a_hkl a) ++
  (match a_mangs a with
   | Some _ => [etext None (IFlt (a_sum a)); etext None (IFlt (a_max a))]
   | None => [etext None (IFlt nan); etext None (IFlt nan)]
   end) ++ map num (a_pangs a) ++ map num (match a_mangs a with Some l => l | None => [nan; nan; nan] end) ++ map num (a_pxy a) ++
  map num (match a_mangs a, a_mxy a with Some _, Some l => l | _, _ => [nan; nan] end).
Definition patch_widths : list nat := [6; 6; 6; 6; 6; 12; 12; 23; 23; 23; 23; 23; 23; 23; 23; 23; 23]%nat.
Lemma patch_dump file a : complete_patch a -> dump_patch etext ftext nan file a = Ok (file ++ (padded patch_widths (patch_texts a) ++ nl))%string /\ length (patch_texts a) = 17%nat.
Proof.
  destruct a as [pk hid hkl s m pangs mangs pxy mxy]. unfold complete_patch. cbn [a_hkl a_pangs a_pxy a_mangs a_mxy]. intros (L1 & L2 & L3 & H).
  destruct hkl as [|h [|k [|l [|]]]]; try discriminate. destruct pangs as [|p1 [|p2 [|p3 [|]]]]; try discriminate. destruct pxy as [|x1 [|x2 [|]]]; try discriminate.
  destruct mangs as [ml|].
  - destruct (H ml eq_refl) as (L4 & xy & -> & L5). destruct ml as [|m1 [|m2 [|m3 [|]]]]; try discriminate. destruct xy as [|y1 [|y2 [|]]]; try discriminate.
    split; [|reflexivity]. unfold dump_patch, patch_row, patch_line, format_group. cbn [a_peak a_hkl_id a_hkl a_sum a_max a_pangs a_mangs a_pxy a_mxy map app firstn skipn repeat format_all format1 rbind].
    do 2 f_equal. f_equal. unfold padded, patch_texts, patch_widths. cbn [a_peak a_hkl_id a_hkl a_sum a_max a_pangs a_mangs a_pxy a_mxy map app combine join fst snd]. rewrite ?app_ass. reflexivity.
  - split; [|reflexivity]. unfold dump_patch, patch_row, patch_line, format_group. cbn [a_peak a_hkl_id a_hkl a_sum a_max a_pangs a_mangs a_pxy a_mxy map app firstn skipn repeat format_all format1 rbind].
    do 2 f_equal. f_equal. unfold padded, patch_texts, patch_widths. cbn [a_peak a_hkl_id a_hkl a_sum a_max a_pangs a_mangs a_pxy a_mxy map app combine join fst snd]. rewrite ?app_ass. reflexivity.
Qed.
Hypothesis etext_word : forall d x, word (etext d x).
Lemma patch_texts_words a : Forall word (patch_texts a).
Proof.
  unfold patch_texts. repeat (apply Forall_app; split); try (apply Forall_forall; intros x Hx; apply in_map_iff in Hx; destruct Hx as (y & <- & _); first [apply int_word|apply etext_word]).
  - repeat constructor; apply int_word.
  - destruct (a_mangs a); repeat constructor; apply etext_word.
Qed.
End Patch.
(** C169: whatever spots are dumped in whatever order, the file has the header and one line for each of them, and the words of a line are
    the texts of its seventeen values, in the order of the header, however long they are *)
Theorem C169_patch_file : forall V (etext : option nat -> item V -> string) ftext nan, (forall d x, word (etext d x)) ->
  forall l : list (@patch V), (forall a, In a l -> complete_patch a) ->
  exists text rows, dump_patches etext ftext nan patch_open l = Ok text /\ lines text = patch_header :: rows /\
    Forall2 (fun a row => words row = patch_texts etext nan a /\ length (words row) = 17%nat) l rows.
Proof.
  intros V etext ftext nan W l H.
  assert (G : forall file done, (forall s, lines_from "" (file ++ s)%string = done ++ lines_from "" s) -> exists text rows, dump_patches etext ftext nan file l = Ok text /\ lines text = done ++ rows /\
    Forall2 (fun a row => words row = patch_texts etext nan a /\ length (words row) = 17%nat) l rows).
  { induction l as [|a l IH]; intros file done D; cbn [dump_patches].
    - exists file, []. split; [reflexivity|]. split; [|constructor]. unfold lines. rewrite <- (app_nil file), D. cbn [lines_from String.eqb]. reflexivity.
    - destruct (patch_dump etext ftext nan file a (H a (or_introl eq_refl))) as [E L]. rewrite E. cbn [rbind]. pose proof (patch_texts_words etext nan W a) as F.
      destruct (IH (fun b Hb => H b (or_intror Hb)) (file ++ (padded patch_widths (patch_texts etext nan a) ++ nl))%string (done ++ [padded patch_widths (patch_texts etext nan a)])) as (text & rows & E1 & E2 & E3).
      { intros s. rewrite app_ass, D. rewrite app_ass, lines_end by now apply padded_line. now rewrite <- app_assoc. }
      exists text, (padded patch_widths (patch_texts etext nan a) :: rows). split; [exact E1|]. split; [rewrite E2, <- app_assoc; reflexivity|]. constructor; [|exact E3].
      assert (X : words (padded patch_widths (patch_texts etext nan a)) = patch_texts etext nan a) by (apply line_words; [exact F|now rewrite L]). rewrite X. auto. }
  apply (G patch_open [patch_header]). intros s. unfold patch_open. rewrite app_ass, lines_end; [reflexivity|]. cbn. repeat split; discriminate.
Qed.
Print Assumptions C169_patch_file.
(** texts that fit their widths stand under the items of the header *)
Theorem C169_patch_aligned : forall V (etext : option nat -> item V -> string) ftext nan file a, complete_patch a ->
  Forall2 (fun w t => (String.length t <= w)%nat) patch_widths (patch_texts etext nan a) ->
  exists row, dump_patch etext ftext nan file a = Ok (file ++ (row ++ nl))%string /\
    Forall2 (fun k t => stands_at k t row) (columns 0 patch_widths) (patch_texts etext nan a) /\
    Forall2 (fun k t => stands_at k t patch_header) (columns 0 patch_widths) patch_titles.
Proof.
  intros V etext ftext nan file a C F. destruct (patch_dump etext ftext nan file a C) as [E L]. exists (padded patch_widths (patch_texts etext nan a)). split; [exact E|]. split.
  - pose proof (join_positions (patch_texts etext nan a) patch_widths "" ltac:(now rewrite L) F) as P. exact P.
  - cbv [columns patch_widths patch_titles plus]. repeat (constructor; [reflexivity|]). constructor.
Qed.
Print Assumptions C169_patch_aligned.
(** four indices are written without complaint: every later value is one column off and the last one is lost *)
Theorem C169_four_indices_refuted : forall V (etext : option nat -> item V -> string) ftext nan file (p1 p2 p3 m1 m2 m3 x1 x2 y1 y2 s m : V),
  exists row, dump_patch etext ftext nan file (Patch 0 1 [1; 0; -1; 0]%Z s m [p1; p2; p3] (Some [m1; m2; m3]) [x1; x2] (Some [y1; y2])) = Ok (file ++ (row ++ nl))%string /\
    ((forall d x, word (etext d x)) -> words row = ["0"; "1"; "1"; "0"; "-1"; etext None (IInt 0%Z); etext None (IFlt s)] ++ map (fun v => etext (Some 16%nat) (IFlt v)) [m; p1; p2; p3; m1; m2; m3; x1; x2; y1]).
Proof.
  intros. exists (padded patch_widths (["0"; "1"; "1"; "0"; "-1"; etext None (IInt 0%Z); etext None (IFlt s)] ++ map (fun v => etext (Some 16%nat) (IFlt v)) [m; p1; p2; p3; m1; m2; m3; x1; x2; y1])). split.
  - unfold dump_patch, patch_row, patch_line, format_group. cbn [a_peak a_hkl_id a_hkl a_sum a_max a_pangs a_mangs a_pxy a_mxy map app firstn skipn repeat format_all format1 rbind].
    do 2 f_equal. f_equal. unfold padded, patch_widths. cbn [map app combine join fst snd]. rewrite ?app_ass. reflexivity.
  - intros W. apply line_words; [|reflexivity]. cbn [app map]. repeat (apply Forall_cons; [first [apply W|split; [discriminate|cbn; repeat split; intros X; repeat (destruct X as [X|X]; [discriminate X|]); exact X]]|]). apply Forall_nil.
Qed.
Print Assumptions C169_four_indices_refuted.

(** C170: grains *)
Section Grain.
Variable etext : option nat -> item R -> string.
Variable ftext : item R -> string.
Variable logm : m3 -> m3.
Variable minv : m3 -> m3.
(** the symmetric matrix whose six components the grain has, off-diagonal ones times the square root of two *)
Definition stretch_inverse (gp : list R) (u : m3) : Prop :=
  m01 u = m10 u /\ m02 u = m20 u /\ m12 u = m21 u /\ skipn 6 gp = [m00 u; m11 u; m22 u; m12 u * sqrt 2; m02 u * sqrt 2; m01 u * sqrt 2]%R.
(** the twenty-one numbers of a grain, [e] being its strain *)
Definition grain_numbers (g : grain) (e : m3) : list R := [IZR (g_id g); g_comp g; g_chisq g] ++ g_params g ++ [m00 e; m11 e; m22 e; m12 e; m02 e; m01 e].
Definition grain_texts (g : grain) (e : m3) : list string :=
  [py_str (g_id g); ftext (IFlt (g_comp g)); etext None (IFlt (g_chisq g))] ++ map (fun v => etext (Some 16%nat) (IFlt v)) (g_params g ++ [m00 e; m11 e; m22 e; m12 e; m02 e; m01 e]).
Definition strain_of (g : grain) : m3 := logm (minv (vecMVToSymm (v6_of (skipn 6 (g_params g))) true)).
Lemma stretch_is g : length (g_params g) = 12%nat -> stretch_inverse (g_params g) (vecMVToSymm (v6_of (skipn 6 (g_params g))) true) /\ forall u, stretch_inverse (g_params g) u -> u = vecMVToSymm (v6_of (skipn 6 (g_params g))) true.
Proof.
  intros L. assert (S2 : sqrt 2 <> 0%R) by (apply Rgt_not_eq, sqrt_lt_R0; lra). assert (E2 : sqr2 = sqrt 2) by reflexivity.
  destruct g as [id c x gp]. cbn [g_params] in *. do 12 (destruct gp as [|? gp]; [discriminate|]). destruct gp; [|discriminate]. unfold stretch_inverse, vecMVToSymm, v6_of. cbn [skipn nth c0 c1 c2 c3 c4 c5 m00 m01 m02 m10 m11 m12 m20 m21 m22]. rewrite E2. split.
  - do 3 (split; [reflexivity|]). repeat (apply f_equal2; [try reflexivity; field; exact S2|]). reflexivity.
  - intros [u00 u01 u02 u10 u11 u12 u20 u21 u22]. cbn [m00 m01 m02 m10 m11 m12 m20 m21 m22]. intros (A & B & C & E). injection E as E1 E3 E4 E5 E6 E7. subst. f_equal; field; exact S2.
Qed.
Definition grain_widths : list nat := [12; 12; 12] ++ repeat 23%nat 18.
Lemma grain_file text g : length (g_params g) = 12%nat ->
  dump_grain etext ftext logm minv (ToFile text) g = Ok (ToFile (text ++ (padded grain_widths (grain_texts g (strain_of g)) ++ nl))%string) /\ length (grain_texts g (strain_of g)) = 21%nat.
Proof.
  destruct g as [id c x gp]. unfold strain_of, grain_texts. cbn [g_id g_comp g_chisq g_params]. intros L. do 12 (destruct gp as [|? gp]; [discriminate|]). destruct gp; [|discriminate].
  split; [|reflexivity]. unfold dump_grain. cbn [g_params length negb Nat.eqb g_id g_comp g_chisq]. unfold grain_row. set (e := logm (minv _)). unfold symmToVecMV, v6_list. cbn [c0 c1 c2 c3 c4 c5].
  unfold format_group. cbn [map app firstn skipn length Nat.sub repeat format_all format1 rbind]. do 3 f_equal. unfold padded, grain_widths. cbn [map app combine join fst snd repeat]. rewrite ?app_ass. rewrite !Rmult_1_l. reflexivity.
Qed.
End Grain.
(** one line for each grain, with its twenty-one numbers under the names of the header: the strain is the logarithm of the inverse of the
    matrix that the grain's components stand for *)
Theorem C170_grain_file : forall etext ftext logm minv, (forall d x, word (etext d x)) -> (forall x, word (ftext x)) ->
  forall l : list grain, (forall g, In g l -> length (g_params g) = 12%nat) ->
  exists w text rows, open_grain_writer true None = Ok w /\ dump_grains etext ftext logm minv w l = Ok (ToFile text) /\ lines text = grain_header :: rows /\
    Forall2 (fun g row => length (words row) = 21%nat /\ exists u, stretch_inverse (g_params g) u /\ words row = grain_texts etext ftext g (logm (minv u))) l rows /\
    Forall2 (fun k t => stands_at k t grain_header) (columns 0 grain_widths) grain_titles.
Proof.
  intros etext ftext logm minv We Wf l H.
  assert (G : forall file done, (forall s, lines_from "" (file ++ s)%string = done ++ lines_from "" s) -> exists text rows, dump_grains etext ftext logm minv (ToFile file) l = Ok (ToFile text) /\ lines text = done ++ rows /\
    Forall2 (fun g row => length (words row) = 21%nat /\ exists u, stretch_inverse (g_params g) u /\ words row = grain_texts etext ftext g (logm (minv u))) l rows).
  { induction l as [|a l IH]; intros file done D; cbn [dump_grains].
    - exists file, []. split; [reflexivity|]. split; [|constructor]. unfold lines. rewrite <- (app_nil file), D. cbn [lines_from String.eqb]. reflexivity.
    - set (ts := grain_texts etext ftext a (strain_of logm minv a)). destruct (grain_file etext ftext logm minv file a (H a (or_introl eq_refl))) as [E L]. rewrite E. cbn [rbind]. fold ts in L |- *.
      assert (F : Forall word ts).
      { unfold ts, grain_texts. apply Forall_app. split; [repeat constructor; first [apply int_word|apply Wf|apply We]|]. apply Forall_forall. intros x Hx. apply in_map_iff in Hx. destruct Hx as (y & <- & _). apply We. }
      destruct (IH (fun b Hb => H b (or_intror Hb)) (file ++ (padded grain_widths ts ++ nl))%string (done ++ [padded grain_widths ts])) as (text & rows & E1 & E2 & E3).
      { intros s. rewrite app_ass, D. rewrite app_ass, lines_end by now apply padded_line. now rewrite <- app_assoc. }
      exists text, (padded grain_widths ts :: rows). split; [exact E1|]. split; [rewrite E2, <- app_assoc; reflexivity|]. constructor; [|exact E3].
      assert (X : words (padded grain_widths ts) = ts) by (apply line_words; [exact F|rewrite L; reflexivity]). rewrite X. split; [exact L|]. eexists. split; [apply stretch_is, (H a (or_introl eq_refl))|reflexivity]. }
  destruct (G (grain_header ++ nl)%string [grain_header]) as (text & rows & E1 & E2 & E3).
  { intros s. rewrite app_ass, lines_end; [reflexivity|]. cbn. repeat split; discriminate. }
  eexists. exists text, rows. split; [reflexivity|]. split; [exact E1|]. split; [exact E2|]. split; [exact E3|].
  cbv [columns grain_widths grain_titles plus app repeat]. repeat (constructor; [reflexivity|]). constructor.
Qed.
Print Assumptions C170_grain_file.
(** a table gets the grains in the order of the calls, one in each row from the first; rows beyond are left alone, and a grain too many is
    refused *)
Theorem C170_grain_table : forall etext ftext logm minv rows l, (forall g, In g l -> length (g_params g) = 12%nat) ->
  exists w, open_grain_writer false (Some (21%nat, rows)) = Ok w /\
  if Nat.leb (length l) (length rows)
  then exists new, dump_grains etext ftext logm minv w l = Ok (ToArray (new ++ skipn (length l) rows) (length l)) /\
         Forall2 (fun g row => exists u, stretch_inverse (g_params g) u /\ row = grain_numbers g (logm (minv u))) l new
  else dump_grains etext ftext logm minv w l = Err AssertionError.
Proof.
  intros etext ftext logm minv rows l H. eexists. split; [reflexivity|].
  assert (G : forall before rest, if Nat.leb (length l) (length rest)
    then exists new, dump_grains etext ftext logm minv (ToArray (before ++ rest) (length before)) l = Ok (ToArray (before ++ new ++ skipn (length l) rest) (length before + length l)) /\
         Forall2 (fun g row => exists u, stretch_inverse (g_params g) u /\ row = grain_numbers g (logm (minv u))) l new
    else dump_grains etext ftext logm minv (ToArray (before ++ rest) (length before)) l = Err AssertionError).
  { induction l as [|g l IH]; intros before rest; cbn [dump_grains length Nat.leb].
    - exists []. rewrite Nat.add_0_r. split; [reflexivity|constructor].
    - assert (Lg := H g (or_introl eq_refl)).
      assert (Sr : forall (x : list R), set_row (length before) x (before ++ rest) = before ++ match rest with [] => [] | _ :: r => x :: r end).
      { intros x. unfold set_row. rewrite firstn_app, firstn_all, Nat.sub_diag, firstn_O, app_nil_r. rewrite skipn_app, skipn_all, Nat.sub_diag. reflexivity. }
      destruct rest as [|r0 rest].
      + cbn [length]. unfold dump_grain. rewrite Lg. cbn [Nat.eqb negb]. rewrite app_length. cbn [length]. replace (length before <? length before + 0)%nat with false by (symmetry; apply Nat.ltb_ge; lia). reflexivity.
      + cbn [length]. set (row := map to_real (grain_row logm minv (g_id g) (g_comp g) (g_chisq g) (g_params g))).
        assert (D : dump_grain etext ftext logm minv (ToArray (before ++ r0 :: rest) (length before)) g = Ok (ToArray ((before ++ [row]) ++ rest) (length (before ++ [row])))).
        { unfold dump_grain. rewrite Lg. cbn [Nat.eqb negb]. rewrite app_length. cbn [length]. replace (Nat.ltb (length before) (length before + S (length rest))) with true by (symmetry; apply Nat.ltb_lt; lia).
          fold row. rewrite Sr, app_length. cbn [length]. rewrite <- app_assoc. cbn [app]. do 2 f_equal. lia. }
        rewrite D. cbn [rbind]. pose proof (IH (fun b Hb => H b (or_intror Hb)) (before ++ [row]) rest) as I. change (Nat.leb (S (length l)) (S (length rest))) with (Nat.leb (length l) (length rest)).
        destruct (Nat.leb (length l) (length rest)).
        * destruct I as (new & E & F). exists (row :: new). split.
          -- rewrite E. f_equal. rewrite app_length. cbn [length skipn]. rewrite <- !app_assoc. cbn [app]. f_equal. lia.
          -- constructor; [|exact F]. eexists. split; [apply (stretch_is g Lg)|]. unfold row, grain_row, grain_numbers, symmToVecMV, v6_list. cbn [c0 c1 c2 c3 c4 c5]. rewrite !map_app, map_map. cbn [map to_real]. rewrite map_id, !Rmult_1_l. reflexivity.
        * exact I. }
  specialize (G [] rows). cbn [app length plus] in G. exact G.
Qed.
Print Assumptions C170_grain_table.
(** a table with another number of columns is refused, but not with the message meant *)
Theorem C170_columns_refuted : forall filename cols rows, cols <> 21%nat -> open_grain_writer filename (Some (cols, rows)) = Err IndexError.
Proof. intros filename cols rows H. unfold open_grain_writer. destruct (Nat.eqb cols 21) eqn:E; [apply Nat.eqb_eq in E; contradiction|reflexivity]. Qed.
Print Assumptions C170_columns_refuted.

(** C171: spots of an archive *)
Fixpoint value_of (acc : nat) (s : string) : nat := match s with EmptyString => acc | String c r => value_of (10 * acc + (nat_of_ascii c - 48)) r end.
Lemma value_uint d : forall acc, value_of acc (NilEmpty.string_of_uint d) = Nat.of_uint_acc d acc.
Proof. induction d as [|d IH|d IH|d IH|d IH|d IH|d IH|d IH|d IH|d IH|d IH]; intros acc; cbn [NilEmpty.string_of_uint value_of Nat.of_uint_acc]; [reflexivity|..]; rewrite IH; f_equal; rewrite Nat.tail_mul_spec; cbn -[Nat.mul]; lia. Qed.
Lemma value_dec n : value_of 0 (dec n) = n.
Proof.
  unfold dec. assert (E : value_of 0 (NilZero.string_of_uint (Nat.to_uint n)) = Nat.of_uint (Nat.to_uint n)) by (destruct (Nat.to_uint n); [reflexivity|..]; apply (value_uint _ 0)).
  rewrite E. apply Unsigned.of_to.
Qed.
Lemma value_zeros k s : value_of 0 (zeros k ++ s)%string = value_of 0 s.
Proof. induction k as [|k IH]; cbn [zeros append value_of]; [reflexivity|]. exact IH. Qed.
Lemma spot_inj i j : spot_name i = spot_name j -> i = j.
Proof. unfold spot_name. intros H. injection H as H. apply (f_equal (value_of 0)) in H. now rewrite !value_zeros, !value_dec in H. Qed.
(** different spots get different names, in the order given; a spot written twice is refused *)
Theorem C171_spots : forall l, (NoDup l -> create_spots [] l = Ok (map spot_name l) /\ NoDup (map spot_name l)) /\ (~ NoDup l -> create_spots [] l = Err ValueError).
Proof.
  assert (G : forall l before, NoDup before -> (NoDup (before ++ l) -> create_spots (map spot_name before) l = Ok (map spot_name (before ++ l))) /\ (~ NoDup (before ++ l) -> create_spots (map spot_name before) l = Err ValueError)).
  { induction l as [|i l IH]; intros before N; cbn [create_spots]; [rewrite app_nil_r; tauto|]. unfold create_spot.
    assert (M : mem (spot_name i) (map spot_name before) = true <-> In i before).
    { unfold mem. rewrite existsb_exists. split.
      - intros (x & I & E). apply String.eqb_eq in E. subst x. apply in_map_iff in I. destruct I as (j & E & I). apply spot_inj in E. now subst j.
      - intros I. exists (spot_name i). split; [now apply in_map|apply String.eqb_refl]. }
    destruct (mem (spot_name i) (map spot_name before)) eqn:E; cbn [rbind].
    - split; [|reflexivity]. intros X. exfalso. apply NoDup_remove_2 in X. apply X. apply in_or_app. left. now apply M.
    - assert (I : ~ In i before) by (intros X; apply M in X; congruence). replace (map spot_name before ++ [spot_name i]) with (map spot_name (before ++ [i])) by apply map_app.
      replace (before ++ i :: l) with ((before ++ [i]) ++ l) by (now rewrite <- app_assoc). apply IH. apply (Permutation_NoDup (Permutation_cons_append before i)). now constructor. }
  intros l. destruct (G l [] (NoDup_nil _)) as [A B]. cbn [app map] in A, B. split; [|exact B]. intros N. split; [now apply A|]. apply FinFun.Injective_map_NoDup; [|exact N]. exact spot_inj.
Qed.
Print Assumptions C171_spots.

(** a spot of a file with nothing measured, and one measured, texts being those of whole numbers *)
Definition ex_text (_ : option nat) (x : item Z) : string := match x with IInt z | IFlt z => py_str z end.
Definition ex_missed : @patch Z := Patch 0 2 [1; 0; -1]%Z 5%Z 3%Z [10; 20; 30]%Z None [7; 8]%Z None.
Definition ex_seen : @patch Z := Patch 1 2 [1; 1; 1234567]%Z 5%Z 3%Z [10; 20; 30]%Z (Some [11; 21; 31]%Z) [7; 8]%Z (Some [9; -9]%Z).
Example C169_ex : exists text r1 r2, dump_patches ex_text (fun x => ex_text None x) 99%Z patch_open [ex_missed; ex_seen] = Ok text /\ lines text = [patch_header; r1; r2] /\
  words r1 = ["0"; "2"; "1"; "0"; "-1"; "99"; "99"; "10"; "20"; "30"; "99"; "99"; "99"; "7"; "8"; "99"; "99"] /\
  words r2 = ["1"; "2"; "1"; "1"; "1234567"; "5"; "3"; "10"; "20"; "30"; "11"; "21"; "31"; "7"; "8"; "9"; "-9"].
Proof. eexists. eexists. eexists. split; [vm_compute; reflexivity|]. repeat split; vm_compute; reflexivity. Qed.
Print Assumptions C169_ex.
Example C169_ex_hyp : complete_patch ex_missed /\ complete_patch ex_seen /\ (forall d x, word (ex_text d x)) /\ Forall2 (fun w t => (String.length t <= w)%nat) patch_widths (patch_texts ex_text 99%Z ex_missed).
Proof.
  split; [|split; [|split]].
  - repeat split; intros; discriminate.
  - repeat split; cbn in H; injection H as <-; [reflexivity|]. eexists. split; reflexivity.
  - intros d x. destruct x; apply int_word.
  - vm_compute. repeat (constructor; [lia|]). constructor.
Qed.
Print Assumptions C169_ex_hyp.
(** grains of an example: an unstrained one has the identity for its matrix *)
Definition ex_grain (i : Z) : grain := Gr i 1%R 0%R [0; 0; 0; 0; 0; 0; 1; 1; 1; 0; 0; 0]%R.
Example C170_ex : stretch_inverse (g_params (ex_grain 4)) (M3 1 0 0 0 1 0 0 0 1)%R /\ length (g_params (ex_grain 4)) = 12%nat.
Proof. split; [|reflexivity]. unfold stretch_inverse. cbn. rewrite Rmult_0_l. repeat split. Qed.
Print Assumptions C170_ex.
Example C171_ex : create_spots [] [0; 7; 1234]%nat = Ok ["spot_00000"; "spot_00007"; "spot_01234"] /\ create_spots [] [3; 3]%nat = Err ValueError.
Proof. split; vm_compute; reflexivity. Qed.
Print Assumptions C171_ex.
