(** C174, C175: preprocessed images *)
From Coq Require Import String Ascii QArith List ZArith Lia.
From Verif Require Import Prelude OmegaModel OmegaProofs NamesModel NamesProofs HcModel WrProofs ChkModel ChkSpec ChkProofs PpModel PpSpec.
Import ListNotations.
Local Open Scope string_scope.
Local Open Scope list_scope.
Local Notation length := List.length.

Lemma read_seq {A} (raw : list A) n : forall s, read_frames raw (seq s n) = if Nat.leb (s + n) (length raw) then Ok (firstn n (skipn s raw)) else if Nat.eqb n 0 then Ok [] else Err IndexError.
Proof.
  induction n as [|n IH]; intros s; cbn [seq read_frames].
  - rewrite firstn_O. now destruct (Nat.leb (s + 0) (length raw)).
  - rewrite IH. destruct (nth_error raw s) as [x|] eqn:E.
    + assert (L : (s < length raw)%nat) by (apply nth_error_Some; congruence). replace (S s + n)%nat with (s + S n)%nat by lia. destruct (Nat.leb (s + S n) (length raw)) eqn:B.
      * cbn [rbind]. f_equal. assert (X : skipn s raw = x :: skipn (S s) raw).
        { clear - E. revert s E. induction raw as [|y raw IH]; intros [|s] E; cbn in *; try discriminate; [congruence|]. now apply IH. }
        rewrite X. reflexivity.
      * apply Nat.leb_gt in B. destruct n; [lia|]. reflexivity.
    + apply nth_error_None in E. destruct (Nat.leb (s + S n) (length raw)) eqn:B; [apply Nat.leb_le in B; lia|]. reflexivity.
Qed.
Lemma nth_firstn_skipn {A} (l : list A) s n k : (k < n)%nat -> nth_error (firstn n (skipn s l)) k = nth_error l (s + k).
Proof.
  revert n k. induction s as [|s IH] in l |- *; intros n k H.
  - cbn [skipn plus]. revert n k H. induction l as [|x l IHl]; intros [|n] [|k] H; cbn; try lia; try reflexivity. apply IHl. lia.
  - destruct l as [|x l]; [cbn [skipn]; rewrite firstn_nil; now destruct k|]. cbn [skipn plus nth_error]. now apply IH.
Qed.
Lemma wedge_shows a b num : (0 < num)%nat -> exists om, wedges a b num = Ok om /\ length om = num /\
  forall k, (k < num)%nat -> exists lo hi, nth_error om k = Some (lo, hi) /\ (lo == a + inject_Z (Z.of_nat k) * ((b - a) / inject_Z (Z.of_nat num)) /\ hi == a + inject_Z (Z.of_nat (S k)) * ((b - a) / inject_Z (Z.of_nat num)))%Q.
Proof.
  intros P. unfold wedges, omegas, wframes. cbn [map list_sum fold_right o_n]. rewrite Nat.add_0_r, Nat.eqb_refl. cbn [negb]. eexists. split; [reflexivity|]. cbn [flat_map]. rewrite app_nil_r.
  split; [rewrite wedge_rows_length; reflexivity|]. intros k K. eexists. eexists. split; [apply wedge_rows_nth; exact K|]. cbn [o_start o_stop o_n]. split; reflexivity.
Qed.
Section S.
Context {A Op : Type}.
Variable process : list Op -> A -> A.
Lemma processed_lemma raw ops start num : (num <> length raw \/ start = 0%nat) -> (0 < num)%nat ->
  processed process raw ops start num = if Nat.leb (start + num) (length raw) then Ok (map (process ops) (firstn num (skipn start raw))) else Err IndexError.
Proof.
  intros H P. unfold processed, framelist. destruct (Nat.eqb num (length raw)) eqn:E; cbn [negb].
  - apply Nat.eqb_eq in E. destruct H as [H| ->]; [contradiction|]. subst num. cbn [rbind plus skipn]. now rewrite Nat.leb_refl, firstn_all.
  - rewrite read_seq. destruct (Nat.leb (start + num) (length raw)); [reflexivity|]. destruct num; [lia|]. reflexivity.
Qed.
Lemma save_lemma d name style raw ops panel start num a b : (num <> length raw \/ start = 0%nat) -> (0 < num)%nat ->
  if Nat.leb (start + num) (length raw)
  then exists frames om, save_processed process d name style raw ops panel start num (wedges a b num) = Ok (put d (name +++ "-cachefile." +++ style) (Cache frames om panel)) /\ shows (process ops) raw start num a b frames om
  else save_processed process d name style raw ops panel start num (wedges a b num) = Err IndexError.
Proof.
  intros H P. unfold save_processed. rewrite (processed_lemma raw ops start num H P). destruct (Nat.leb (start + num) (length raw)) eqn:B; [|reflexivity]. apply Nat.leb_le in B. cbn [rbind].
  destruct (wedge_shows a b num P) as (om & -> & Lo & Ho). cbn [rbind]. eexists. eexists. split; [reflexivity|]. split; [rewrite map_length, firstn_length, skipn_length; lia|]. split; [exact Lo|].
  intros k K. destruct (Ho k K) as (lo & hi & N & E1 & E2). destruct (nth_error raw (start + k)) as [x|] eqn:X; [|apply nth_error_None in X; lia].
  exists x, lo, hi. split; [reflexivity|]. split; [|auto]. rewrite nth_error_map, (nth_firstn_skipn raw start num k K), X. reflexivity.
Qed.
Lemma lookup_put d k (c : @cache A) k' : lookup (put d k c) k' = if String.eqb k' k then Some c else lookup d k'.
Proof.
  induction d as [|[k0 c0] d IH]; cbn [put lookup]; [reflexivity|]. destruct (String.eqb k k0) eqn:E; cbn [lookup].
  - apply String.eqb_eq in E. subst k0. now destruct (String.eqb k' k).
  - rewrite IH. destruct (String.eqb k' k0) eqn:E0; [|reflexivity]. apply String.eqb_eq in E0. subst k0. rewrite String.eqb_sym, E. reflexivity.
Qed.
End S.
(** C174: the cache has the frames asked for, each at its omega; a range beyond the file is refused *)
Theorem C174_frames_partial : forall A Op (process : list Op -> A -> A) d raw a b num start style output, (num <> length raw \/ start = 0%nat) -> (0 < num)%nat ->
  if Nat.leb (start + num) (length raw)
  then exists d' frames omega, preprocess_eiger process d raw a b num start style output = Ok d' /\ lookup d' (output +++ "-cachefile." +++ style) = Some (Cache frames omega None) /\
         shows (process []) raw start num a b frames omega /\ (forall k, k <> output +++ "-cachefile." +++ style -> lookup d' k = lookup d k)
  else preprocess_eiger process d raw a b num start style output = Err IndexError.
Proof.
  intros A Op process d raw a b num start style output H P. pose proof (save_lemma process d output style raw [] None start num a b H P) as G. unfold preprocess_eiger.
  destruct (Nat.leb (start + num) (length raw)); [|exact G]. destruct G as (frames & om & E & X). exists (put d (output +++ "-cachefile." +++ style) (Cache frames om None)), frames, om.
  split; [exact E|]. split; [rewrite lookup_put, String.eqb_refl; reflexivity|]. split; [exact X|]. intros k K. rewrite lookup_put. destruct (String.eqb k _) eqn:Y; [|reflexivity]. apply String.eqb_eq in Y. contradiction.
Qed.
Print Assumptions C174_frames_partial.
(** as many frames as the file has: the first frame asked for is not looked at, and nothing is said *)
Theorem C174_start_refuted : forall A Op (process : list Op -> A -> A) d raw a b start style output, (0 < length raw)%nat ->
  exists d' frames omega, preprocess_eiger process d raw a b (length raw) start style output = Ok d' /\ lookup d' (output +++ "-cachefile." +++ style) = Some (Cache frames omega None) /\
    shows (process []) raw 0 (length raw) a b frames omega.
Proof.
  intros A Op process d raw a b start style output P. pose proof (C174_frames_partial A Op process d raw a b (length raw) 0 style output (or_intror eq_refl) P) as G. rewrite Nat.leb_refl in G.
  destruct G as (d' & frames & om & E & L & S0 & _). exists d', frames, om. split; [|auto]. rewrite <- E. unfold preprocess_eiger, save_processed, processed. now rewrite Nat.eqb_refl.
Qed.
Print Assumptions C174_start_refuted.

(** C175: one cache for each file *)
Lemma lacks_last s : lacks "/"%char s -> forall acc, last_part acc s = acc +++ s.
Proof.
  induction s as [|c s IH]; intros H acc; cbn [last_part]; [symmetry; apply app_nil|]. destruct H as [H1 H2]. apply Ascii.eqb_neq in H1. rewrite H1, (IH H2). now rewrite app_ass.
Qed.
Lemma last_dir d : forall acc s, last_part acc (d +++ String "/" s) = last_part "" s.
Proof. induction d as [|c d IH]; intros acc s; cbn [append last_part]; [reflexivity|]. destruct (Ascii.eqb c "/"); apply IH. Qed.
Lemma first_stem s : lacks "."%char s -> forall e, first_part (s +++ String "." e) = s.
Proof. induction s as [|c s IH]; intros H e; cbn [append first_part]; [reflexivity|]. destruct H as [H1 H2]. apply Ascii.eqb_neq in H1. rewrite H1. f_equal. now apply IH. Qed.
Lemma keys_none {A Op} (process : list Op -> A -> A) dark_op median samp style scan start num om file l : forall d,
  (forall k o, In (k, o) l -> containsb (lower k) (fst file) = false) -> dexela_keys process dark_op median samp style scan start num om file l d = Ok d.
Proof. induction l as [|[k o] l IH]; intros d H; cbn [dexela_keys]; [reflexivity|]. rewrite (H k o (or_introl eq_refl)). cbn [rbind]. apply IH. intros k' o' I. apply (H k' o'). now right. Qed.
Lemma keys_one {A Op} (process : list Op -> A -> A) dark_op median samp style scan start num om file key opts post pre : forall d,
  (forall k o, In (k, o) (pre ++ post) -> containsb (lower k) (fst file) = false) -> containsb (lower key) (fst file) = true ->
  dexela_keys process dark_op median samp style scan start num om file (pre ++ (key, opts) :: post) d =
  save_processed process d (output_name samp scan (fst file)) style (snd file) (dark_op (dark median (snd file) num) :: opts) (Some key) start num om.
Proof.
  induction pre as [|[k o] pre IH]; intros d H K; cbn [app dexela_keys].
  - rewrite K. destruct (save_processed _ _ _ _ _ _ _ _ _ _) as [d'|]; [|reflexivity]. cbn [rbind]. now apply keys_none.
  - rewrite (H k o (or_introl eq_refl)). cbn [rbind]. apply IH; [|exact K]. intros k' o' I. apply (H k' o'). now right.
Qed.
(** a file: directory, stem, extension and frames *)
Definition raw_file (A : Type) : Type := string * string * string * list A.
Definition path {A} (f : raw_file A) : string := let '(dir, stem, ext, _) := f in dir +++ String "/" (stem +++ String "." ext).
Definition stem_of {A} (f : raw_file A) : string := let '(_, stem, _, _) := f in stem.
Definition frames_of {A} (f : raw_file A) : list A := snd f.
Definition plain {A} (f : raw_file A) : Prop := let '(_, stem, ext, _) := f in lacks "/" stem /\ lacks "." stem /\ lacks "/" ext.
(** the options of the one panel whose name, in small letters, is in the path *)
Definition options_for {A Op} (panel_opts : list (string * list Op)) (f : raw_file A) (key : string) (opts : list Op) : Prop :=
  exists pre post, panel_opts = pre ++ (key, opts) :: post /\ within (lower key) (path f) /\ forall k o, In (k, o) (pre ++ post) -> ~ within (lower k) (path f).
Lemma options_b {A Op} (panel_opts : list (string * list Op)) (f : raw_file A) key opts : options_for panel_opts f key opts ->
  exists pre post, panel_opts = pre ++ (key, opts) :: post /\ containsb (lower key) (path f) = true /\ forall k o, In (k, o) (pre ++ post) -> containsb (lower k) (path f) = false.
Proof.
  intros (pre & post & E & C & F). exists pre, post. split; [exact E|]. split; [now apply containsb_iff|]. intros k o I. destruct (containsb (lower k) (path f)) eqn:X; [|reflexivity]. apply containsb_iff in X. destruct (F k o I X).
Qed.
Lemma output_plain {A} samp scan (f : raw_file A) : plain f -> output_name samp scan (path f) = samp +++ "_" +++ py_str scan +++ "_" +++ stem_of f.
Proof.
  destruct f as [[[dir stem] ext] raw]. cbn [plain path stem_of]. intros (H1 & H2 & H3). unfold output_name. do 4 f_equal. rewrite last_dir, lacks_last; [now apply first_stem|].
  clear H2. induction stem as [|c stem IH]; cbn [append lacks] in *; [split; [discriminate|exact H3]|]. split; [apply H1|]. now apply IH.
Qed.
Theorem C175_panels_partial : forall A Op (process : list Op -> A -> A) dark_op median (files : list (raw_file A)) panel_opts samp style scan a b num start d, (0 < num)%nat ->
  NoDup (map stem_of files) ->
  (forall f, In f files -> plain f /\ (start + num <= length (frames_of f))%nat /\ (num <> length (frames_of f) \/ start = 0%nat) /\ exists key opts, options_for panel_opts f key opts) ->
  exists d', preprocess_dexelas process dark_op median d (map (fun f => (path f, frames_of f)) files) panel_opts samp style scan a b num start = Ok d' /\
    forall f key opts, In f files -> options_for panel_opts f key opts ->
      exists frames omega, lookup d' (samp +++ "_" +++ py_str scan +++ "_" +++ stem_of f +++ "-cachefile." +++ style) = Some (Cache frames omega (Some key)) /\
        shows (process (dark_op (median (firstn (Nat.min 100 num) (frames_of f))) :: opts)) (frames_of f) start num a b frames omega.
Proof.
  intros A Op process dark_op median files panel_opts samp style scan a b num start d P N H.
  assert (U : forall (f : raw_file A) k1 o1 k2 o2, options_for panel_opts f k1 o1 -> options_for panel_opts f k2 o2 -> k1 = k2 /\ o1 = o2).
  { intros f k1 o1 k2 o2 X1 X2. apply options_b in X1, X2. destruct X1 as (pre & post & E & C & F), X2 as (pre' & post' & E' & C' & F').
    assert (I : In (k2, o2) (pre ++ (k1, o1) :: post)) by (rewrite <- E, E'; apply in_or_app; right; now left). apply in_app_or in I.
    destruct I as [I|[I|I]]; [|injection I as -> ->; auto|]; rewrite (F k2 o2) in C'; try discriminate; apply in_or_app; auto. }
  set (name (f : raw_file A) := samp +++ "_" +++ py_str scan +++ "_" +++ stem_of f +++ "-cachefile." +++ style : string).
  assert (NI : forall f g : raw_file A, name f = name g -> stem_of f = stem_of g).
  { intros f g E. unfold name in E. do 4 apply app_cancel_l in E. now apply app_cancel_r in E. }
  assert (G : forall d, exists d', preprocess_dexelas process dark_op median d (map (fun f => (path f, frames_of f)) files) panel_opts samp style scan a b num start = Ok d' /\
    (forall f key opts, In f files -> options_for panel_opts f key opts -> exists frames omega, lookup d' (name f) = Some (Cache frames omega (Some key)) /\
        shows (process (dark_op (median (firstn (Nat.min 100 num) (frames_of f))) :: opts)) (frames_of f) start num a b frames omega) /\
    forall k, (forall f, In f files -> k <> name f) -> lookup d' k = lookup d k).
  { clear d. induction files as [|f files IH]; intros d; unfold preprocess_dexelas in *; cbn [map dexela_files].
    - exists d. split; [reflexivity|]. split; [contradiction|reflexivity].
    - destruct (H f (or_introl eq_refl)) as (Pf & Lf & Sf & key & opts & O). pose proof (options_b _ _ _ _ O) as (pre & post & Ep & C & F). pose proof (keys_one process dark_op median samp style scan start num (wedges a b num) (path f, frames_of f) key opts post pre d F C) as K1. rewrite <- Ep in K1. rewrite K1. cbn [fst snd].
      pose proof (save_lemma process d (output_name samp scan (path f)) style (frames_of f) (dark_op (dark median (frames_of f) num) :: opts) (Some key) start num a b Sf P) as G.
      replace (Nat.leb (start + num) (length (frames_of f))) with true in G by (symmetry; now apply Nat.leb_le). destruct G as (frames & om & E & X). rewrite E. cbn [rbind].
      assert (En : output_name samp scan (path f) +++ "-cachefile." +++ style = name f) by (rewrite (output_plain samp scan f Pf); unfold name; now rewrite !app_ass). rewrite En.
      cbn [map] in N. inversion N as [|? ? N1 N2]; subst.
      destruct (IH N2 (fun g I => H g (or_intror I)) (put d (name f) (Cache frames om (Some key)))) as (d' & E' & F1 & F2). exists d'. split; [exact E'|]. split.
      + intros g k o [<-|I] Og; [|now apply F1]. destruct (U f k o key opts Og O) as [-> ->]. exists frames, om. split.
        * rewrite F2; [rewrite lookup_put, String.eqb_refl; reflexivity|]. intros g I Eg. apply N1. rewrite (NI f g Eg). now apply in_map.
        * unfold dark in X. replace (Nat.eqb (Nat.min 100 num) 0) with false in X by (symmetry; apply Nat.eqb_neq; lia). exact X.
      + intros k K. rewrite F2 by (intros g I; apply K; now right). rewrite lookup_put. destruct (String.eqb k (name f)) eqn:Ek; [|reflexivity]. apply String.eqb_eq in Ek. exfalso. apply (K f (or_introl eq_refl)). exact Ek. }
  destruct (G d) as (d' & E & F & _). exists d'. split; [exact E|exact F].
Qed.
Print Assumptions C175_panels_partial.
(** a name that is in the path of every file, here that of the sample's directory, takes them all: the frames of the first panel are left
    in its cache with the options of the second *)
Theorem C175_panels_refuted : forall A Op (process : list Op -> A -> A) dark_op median o1 o2 (raw : list A), (0 < length raw)%nat ->
  exists d' frames omega, preprocess_dexelas process dark_op median [] [("/data/ff2-test/ff/ff1_0.h5", raw)] [("FF1", o1); ("FF2", o2)] "s" "npz" 1 0 1 (length raw) 0 = Ok d' /\
    lookup d' "s_1_ff1_0-cachefile.npz" = Some (Cache frames omega (Some "FF2")) /\ frames = map (process (dark_op (dark median raw (length raw)) :: o2)) raw.
Proof.
  intros A Op process dark_op median o1 o2 raw P. destruct (wedge_shows 0 1 (length raw) P) as (om & Eo & _). unfold preprocess_dexelas. rewrite Eo. cbn [dexela_files dexela_keys fst snd].
  change (containsb (lower "FF1") "/data/ff2-test/ff/ff1_0.h5") with true. change (containsb (lower "FF2") "/data/ff2-test/ff/ff1_0.h5") with true. cbv iota.
  unfold save_processed, processed. rewrite Nat.eqb_refl. cbn [negb rbind]. eexists. eexists. eexists. split; [reflexivity|]. split; [reflexivity|reflexivity].
Qed.
Print Assumptions C175_panels_refuted.
(** the dark image is the median of all frames if their number is left at zero, otherwise of the first ones: as many as asked for, but at
    most a hundred and no more than there are *)
Theorem C175_dark : forall A (median : list A -> A) raw n, exists first rest, raw = first ++ rest /\ dark median raw n = median first /\
  length first = (if Nat.eqb n 0 then length raw else Nat.min n (Nat.min 100 (length raw))).
Proof.
  intros A median raw n. unfold dark. destruct (Nat.eqb_spec n 0) as [->|N].
  - exists raw, []. rewrite app_nil_r. repeat split.
  - replace (Nat.eqb (Nat.min 100 n) 0) with false by (symmetry; apply Nat.eqb_neq; lia). exists (firstn (Nat.min 100 n) raw), (skipn (Nat.min 100 n) raw).
    split; [now rewrite firstn_skipn|]. split; [reflexivity|]. rewrite firstn_length. lia.
Qed.
Print Assumptions C175_dark.
(** frames are numbers here, and processing adds the operations up *)
Definition ex_process (ops : list nat) (x : nat) : nat := (list_sum ops + x)%nat.
Example C174_ex : exists d', preprocess_eiger ex_process [] [10; 11; 12; 13; 14]%nat 0 3 3 1 "npz" "out" = Ok d' /\ exists om, lookup d' "out-cachefile.npz" = Some (Cache [11; 12; 13]%nat om None).
Proof. eexists. split; [reflexivity|]. eexists. reflexivity. Qed.
Print Assumptions C174_ex.
Example C174_ex_beyond : preprocess_eiger ex_process [] [10; 11; 12; 13; 14]%nat 0 3 3 3 "npz" "out" = Err IndexError.
Proof. reflexivity. Qed.
Definition ex_files : list (raw_file nat) := [("/data/s", "ff1_0", "h5", [10; 11; 12; 13; 14]%nat); ("/data/s", "ff2_0", "h5", [20; 21; 22; 23; 24]%nat)].
Example C175_ex : (forall f, In f ex_files -> plain f /\ (1 + 3 <= length (frames_of f))%nat /\ (3 <> length (frames_of f) \/ 1 = 0)%nat /\ exists key opts, options_for [("FF1", [100%nat]); ("FF2", [200%nat])] f key opts) /\
  NoDup (map stem_of ex_files) /\
  exists d', preprocess_dexelas ex_process (fun x => x) (fun l => hd 0%nat l) [] (map (fun f => (path f, frames_of f)) ex_files) [("FF1", [100%nat]); ("FF2", [200%nat])] "s" "npz" 7 0 1 3 1 = Ok d' /\
    exists om, lookup d' "s_7_ff2_0-cachefile.npz" = Some (Cache [241; 242; 243]%nat om (Some "FF2")).
Proof.
  split; [|split].
  - intros f [<-|[<-|[]]].
    + split; [cbn; repeat split; discriminate|]. split; [cbn; lia|]. split; [left; cbn; lia|]. exists "FF1", [100%nat], [], [("FF2", [200%nat])]. split; [reflexivity|]. split; [apply containsb_iff; reflexivity|]. intros k o [I|[]] X. injection I as <- <-. apply containsb_iff in X. discriminate X.
    + split; [cbn; repeat split; discriminate|]. split; [cbn; lia|]. split; [left; cbn; lia|]. exists "FF2", [200%nat], [("FF1", [100%nat])], []. split; [reflexivity|]. split; [apply containsb_iff; reflexivity|]. intros k o [I|[]] X. injection I as <- <-. apply containsb_iff in X. discriminate X.
  - cbn. repeat constructor; cbn; intros X; repeat destruct X as [X|X]; try discriminate; contradiction.
  - eexists. split; [reflexivity|]. eexists. reflexivity.
Qed.
Print Assumptions C175_ex.
