(** Cards of materials *)
From Coq Require Import Reals String Ascii List Lra Lia.
From Verif Require Import Prelude JcModel JcSpec.
Import ListNotations.
Local Open Scope string_scope.
Local Open Scope list_scope.
Local Close Scope nat_scope.

Section Cards.
Variable to_float : string -> option R.
Variable to_int : string -> option nat.

Lemma read_app l1 : forall l2 c, read_lines to_float to_int c (l1 ++ l2) = do c <- read_lines to_float to_int c l1; read_lines to_float to_int c l2.
Proof. induction l1 as [|l t IH]; intros l2 c; [reflexivity|]. cbn [app read_lines]. destruct (read_line to_float to_int c l); cbn [rbind]; [apply IH|reflexivity]. Qed.
Lemma last_snoc key ls l : last_under key (ls ++ [l]) = match l with k :: _ => if String.eqb k key then Some l else last_under key ls | [] => last_under key ls end.
Proof. unfold last_under. rewrite rev_unit. cbn [find]. destruct l as [|k r]; [reflexivity|]. destruct (String.eqb k key); reflexivity. Qed.
(** the value given under a key *)
Definition given (key : string) (old : R) (lines : list (list string)) : R :=
  match last_under key lines with Some (_ :: w :: _) => match to_float w with Some x => x | None => old end | _ => old end.
Definition given_symmetry (lines : list (list string)) : string := match last_under "SYMMETRY:" lines with Some (_ :: w :: _) => lower w | _ => "" end.
Lemma attr_of_in key n : In (key, n) keys -> attr_of key = Some n /\ key <> "VERSION:" /\ key <> "SYMMETRY:".
Proof. intros I. repeat (destruct I as [I|I]; [injection I as <- <-; repeat split; discriminate|]). contradiction I. Qed.
Lemma attr_of_inj key key' n : In (key, n) keys -> attr_of key' = Some n -> key' = key.
Proof.
  intros I H. unfold attr_of in H. destruct (find _ keys) as [[k m]|] eqn:F; [|discriminate]. cbn [option_map snd] in H. injection H as ->. apply find_some in F. destruct F as [J E]. cbn [fst] in E.
  apply String.eqb_eq in E. subst k. assert (D : NoDup (map snd keys)) by (repeat (constructor; [cbn; intuition discriminate|]); constructor). clear -I J D.
  induction keys as [|[a b] t IH]; [contradiction|]. cbn [map] in D. apply NoDup_cons_iff in D. destruct D as [D1 D2]. cbn [snd] in D1. destruct I as [I|I], J as [J|J].
  - congruence.
  - injection I as -> ->. destruct D1. apply (in_map snd) in J. exact J.
  - injection J as -> ->. destruct D1. apply (in_map snd) in I. exact I.
  - now apply IH.
Qed.
Lemma read_given lines : forall c c', read_lines to_float to_int c lines = Ok c' ->
  (forall key n, In (key, n) keys -> num c' n = given key (num c n) lines) /\ symmetry c' = match last_under "SYMMETRY:" lines with Some (_ :: w :: _) => lower w | _ => symmetry c end.
Proof.
  induction lines as [|l ls IH] using rev_ind; intros c c' H; [injection H as <-; split; reflexivity|]. rewrite read_app in H. destruct (read_lines to_float to_int c ls) as [c1|e] eqn:E1; [|discriminate].
  cbn [rbind read_lines] in H. destruct (read_line to_float to_int c1 l) as [c2|e] eqn:E2; [|discriminate]. cbn [rbind] in H. injection H as <-. destruct (IH c c1 E1) as [I1 I2].
  unfold given. unfold read_line, word, number, integer in E2. destruct l as [|k r]; [discriminate|]. cbn [nth_error rbind] in E2. destruct (String.eqb_spec k "VERSION:") as [->|NV].
  { destruct r as [|w r]; [discriminate|]. cbn in E2. destruct (to_int w); [|discriminate]. injection E2 as <-. rewrite !last_snoc. cbn. split; [|exact I2]. intros key nm I. rewrite last_snoc.
    destruct (attr_of_in key nm I) as (_ & X & _). destruct (String.eqb_spec "VERSION:" key); [congruence|]. now apply I1. }
  destruct (String.eqb_spec k "SYMMETRY:") as [->|NS].
  { destruct r as [|w r]; [discriminate|]. cbn in E2. injection E2 as <-. rewrite !last_snoc. cbn. split; [|reflexivity]. intros key n I. rewrite last_snoc. destruct (attr_of_in key n I) as (_ & _ & X).
    destruct (String.eqb_spec "SYMMETRY:" key); [congruence|]. now apply I1. }
  rewrite last_snoc. destruct (String.eqb_spec k "SYMMETRY:") as [Hk|_]; [congruence|]. destruct (attr_of k) as [n'|] eqn:A.
  - destruct r as [|w r]; [discriminate|]. cbn in E2. destruct (to_float w) as [x|] eqn:W; [|discriminate]. injection E2 as <-. cbn [num symmetry]. split; [|exact I2]. intros key n I. rewrite last_snoc. unfold upd.
    destruct (attr_of_in key n I) as (X & _). destruct (String.eqb_spec k key) as [->|N].
    + rewrite X in A. injection A as ->. rewrite String.eqb_refl. now rewrite W.
    + destruct (String.eqb_spec n n') as [->|M]; [destruct N; exact (attr_of_inj key k n' I A)|now apply I1].
  - injection E2 as <-. split; [|exact I2]. intros key n I. rewrite last_snoc. destruct (attr_of_in key n I) as (X & _). destruct (String.eqb_spec k key) as [->|N]; [congruence|now apply I1].
Qed.
(** a line that can be read *)
Definition readable (l : list string) : Prop := exists key rest, l = key :: rest /\
  (key = "VERSION:" -> exists w t n, rest = w :: t /\ to_int w = Some n) /\ (key = "SYMMETRY:" -> rest <> []) /\
  (In key (map fst keys) -> exists w t x, rest = w :: t /\ to_float w = Some x).
Lemma attr_of_none key : attr_of key = None <-> ~ In key (map fst keys).
Proof.
  unfold attr_of. destruct (find _ keys) as [[k n]|] eqn:F; cbn [option_map].
  - apply find_some in F. destruct F as [I E]. cbn [fst] in E. apply String.eqb_eq in E. subst k. split; [discriminate|]. intros N. destruct N. exact (in_map fst _ _ I).
  - split; [|reflexivity]. intros _ I. apply in_map_iff in I. destruct I as ([k n] & <- & I). pose proof (find_none _ _ F _ I) as E. cbn [fst] in E. rewrite String.eqb_refl in E. discriminate.
Qed.
Lemma line_readable c l : (exists c', read_line to_float to_int c l = Ok c') <-> readable l.
Proof.
  unfold read_line, word, number, integer, readable. destruct l as [|k r]; [split; [intros [c' H]; discriminate|intros (k & r & H & _); discriminate]|]. cbn [nth_error rbind].
  destruct (String.eqb_spec k "VERSION:") as [->|NV].
  { split.
    - intros [c' H]. exists "VERSION:", r. split; [reflexivity|]. split; [|split; [discriminate|intros I; cbn in I; intuition discriminate]]. intros _. destruct r as [|w t]; [discriminate|]. cbn in H.
      destruct (to_int w) as [n|] eqn:W; [|discriminate]. exists w, t, n. now split.
    - intros (k & r' & E & V & _). injection E as <- <-. destruct (V eq_refl) as (w & t & n & -> & W). cbn. rewrite W. cbn. eauto. }
  destruct (String.eqb_spec k "SYMMETRY:") as [->|NS].
  { split.
    - intros [c' H]. exists "SYMMETRY:", r. split; [reflexivity|]. split; [discriminate|]. split; [|intros I; cbn in I; intuition discriminate]. intros _ ->. discriminate.
    - intros (k & r' & E & _ & V & _). injection E as <- <-. destruct r as [|w t]; [now destruct (V eq_refl)|]. cbn. eauto. }
  destruct (attr_of k) as [n|] eqn:A.
  - assert (I : In k (map fst keys)). { destruct (in_dec string_dec k (map fst keys)); [assumption|]. apply attr_of_none in n0. congruence. } split.
    + intros [c' H]. exists k, r. split; [reflexivity|]. split; [congruence|]. split; [congruence|]. intros _. destruct r as [|w t]; [discriminate|]. cbn in H. destruct (to_float w) as [x|] eqn:W; [|discriminate]. exists w, t, x. now split.
    + intros (k' & r' & E & _ & _ & V). injection E as <- <-. destruct (V I) as (w & t & x & -> & W). cbn. rewrite W. cbn. eauto.
  - apply attr_of_none in A. split; [|eauto]. intros _. exists k, r. repeat split; try congruence; tauto.
Qed.
Lemma lines_readable lines : forall c, (exists c', read_lines to_float to_int c lines = Ok c') <-> Forall readable lines.
Proof.
  induction lines as [|l t IH]; intros c; [split; [constructor|cbn; eauto]|]. cbn [read_lines]. split.
  - intros [c' H]. destruct (read_line to_float to_int c l) as [c1|] eqn:E; [|discriminate]. cbn [rbind] in H. constructor; [apply (line_readable c); eauto|]. apply (IH c1). eauto.
  - intros H. inversion H as [|? ? H1 H2]; subst. destruct (proj2 (line_readable c l) H1) as [c1 E]. rewrite E. cbn [rbind]. now apply IH.
Qed.
Lemma complete_lattice sym f : map (complete sym f) lattice_names = cell_by sym (f "a0") (f "b0") (f "c0") (f "alpha0") (f "beta0") (f "gamma0").
Proof. unfold complete, cell_by. repeat (destruct (String.eqb sym _)); reflexivity. Qed.
Lemma complete_other sym f n : In n ["k0"; "k0p"; "dk0dt"; "dk0pdt"; "alpha_t"; "dalpha_t_dt"] -> complete sym f n = f n.
Proof. intros I. unfold complete. repeat (destruct I as [<-|I]; [repeat (destruct (String.eqb sym _)); reflexivity|]). contradiction I. Qed.
End Cards.

(** ** C191: a card is read as the last line under each key says, the cell being completed by the crystal system *)
Theorem C191_keyed : forall to_float to_int first rest c, starts_digit first = false -> has_version first = true ->
  let lines := first :: rest in let val key old := given to_float key old lines in
  read_card to_float to_int lines = Ok c ->
  symmetry c = given_symmetry lines /\
  lattice_params c = cell_by (symmetry c) (val "A:" 0%R) (val "B:" 0%R) (val "C:" 0%R) (val "ALPHA:" 0%R) (val "BETA:" 0%R) (val "GAMMA:" 0%R) /\
  num c "k0" = val "K0:" 100%R /\ num c "k0p" = val "K0P:" 5%R /\ num c "dk0dt" = val "DK0DT:" 0%R /\ num c "dk0pdt" = val "DK0PDT:" 0%R /\
  num c "alpha_t" = val "ALPHAT:" 0%R /\ num c "dalpha_t_dt" = val "DALPHATDT:" 0%R.
Proof.
  intros tf ti first rest c D V lines val H. unfold read_card in H. cbn [line nth_error rbind lines] in H. rewrite D, V in H. fold lines in H. destruct (read_lines tf ti new_card lines) as [c1|] eqn:E; [|discriminate].
  cbn [rbind num symmetry] in H. injection H as <-. destruct (read_given tf ti lines new_card c1 E) as [G S1]. cbn [symmetry num].
  assert (L : lattice_params (Card (upd (complete (symmetry c1) (num c1)) "v0" (volume (complete (symmetry c1) (num c1)))) (symmetry c1)) = map (complete (symmetry c1) (num c1)) lattice_names) by reflexivity.
  rewrite L, complete_lattice. unfold upd. cbn [String.eqb Ascii.eqb Bool.eqb]. rewrite !complete_other by (cbn; tauto).
  rewrite (G "A:" "a0"), (G "B:" "b0"), (G "C:" "c0"), (G "ALPHA:" "alpha0"), (G "BETA:" "beta0"), (G "GAMMA:" "gamma0"), (G "K0:" "k0"), (G "K0P:" "k0p"), (G "DK0DT:" "dk0dt"), (G "DK0PDT:" "dk0pdt"), (G "ALPHAT:" "alpha_t"), (G "DALPHATDT:" "dalpha_t_dt") by (cbn; tauto).
  repeat split. exact S1.
Qed.
Print Assumptions C191_keyed.
(** such a file can be read if and only if each line has a first word, and a number where there must be one *)
Theorem C191_readable : forall to_float to_int first rest, starts_digit first = false -> has_version first = true ->
  (exists c, read_card to_float to_int (first :: rest) = Ok c) <-> Forall (readable to_float to_int) (first :: rest).
Proof.
  intros tf ti first rest D V. rewrite <- (lines_readable tf ti (first :: rest) new_card). unfold read_card. cbn [line nth_error rbind]. rewrite D, V.
  destruct (read_lines tf ti new_card (first :: rest)); cbn [rbind]; split; intros [c' H]; eauto; discriminate.
Qed.
Print Assumptions C191_readable.
(** refuted: blank lines do no harm *)
Theorem C191_blank_refuted : forall to_float to_int first before after, starts_digit first = false -> has_version first = true ->
  ~ exists c, read_card to_float to_int (first :: before ++ [] :: after) = Ok c.
Proof.
  intros tf ti first before after D V H. apply C191_readable in H; [|exact D|exact V]. pose proof (proj1 (Forall_forall _ _) H [] ltac:(right; apply in_or_app; right; now left)) as (k & r & E & _). discriminate.
Qed.
Print Assumptions C191_blank_refuted.
(** the parameters that a crystal system leaves free, as the file with fixed places lists them *)
Definition free (sym : string) (a b c al be ga : R) : list R :=
  if in_dec string_dec sym ["cubic"; "manual"] then [a] else if in_dec string_dec sym ["hexagonal"; "tetragonal"] then [a; c]
  else if string_dec sym "orthorhombic" then [a; b; c] else if string_dec sym "monoclinic" then [a; b; c; be] else [a; b; c; al; be; ga].
Theorem C191_fixed : forall (to_float : string -> option R) (to_int : string -> option nat) version header system k0 k0p more cell rest rest2 thermal c v n, starts_digit [version] = true -> to_int version = Some v -> to_int system = Some n ->
  read_card to_float to_int ([version] :: header :: (system :: k0 :: k0p :: more) :: cell :: (thermal :: rest) :: rest2) = Ok c ->
  (1 <= n <= 7)%nat /\ symmetry c = nth (n - 1) systems "" /\ to_float k0 = Some (num c "k0") /\ to_float k0p = Some (num c "k0p") /\
  (if Nat.eqb v 3 then num c "alpha_t" = 0%R else to_float thermal = Some (num c "alpha_t")) /\
  exists a b d al be ga, lattice_params c = cell_by (symmetry c) a b d al be ga /\
    map to_float (firstn (List.length (free (symmetry c) a b d al be ga)) cell) = map Some (free (symmetry c) a b d al be ga).
Proof.
  intros tf ti version header system k0 k0p more cell rest rest2 thermal c v n D Iv In0 H. unfold read_card in H. cbn [line nth_error rbind] in H. rewrite D in H. unfold read_fixed in H.
  cbn [line nth_error rbind integer number word] in H. rewrite Iv, In0 in H. cbn [rbind] in H. destruct (tf k0) as [x|]; [|discriminate]. cbn [rbind] in H. destruct (tf k0p) as [y|]; [|discriminate]. cbn [rbind] in H.
  destruct (lattice_line tf n cell) as [lat|] eqn:L; [|discriminate]. cbn [rbind] in H.
  destruct (if Nat.eqb v 3 then Ok 0%R else match tf thermal with Some x => Ok x | None => Err ValueError end) as [al|] eqn:T; [|discriminate]. cbn [rbind num symmetry] in H. injection H as <-.
  assert (N : forall i (l : list string) z, number tf i l = Ok z -> exists w, nth_error l i = Some w /\ tf w = Some z).
  { intros i l z Hz. unfold number, word in Hz. destruct (nth_error l i) as [w|]; [|discriminate]. cbn [rbind] in Hz. exists w. split; [reflexivity|]. destruct (tf w); [congruence|discriminate]. }
  assert (Th : if Nat.eqb v 3 then al = 0%R else tf thermal = Some al) by (destruct (Nat.eqb v 3); [congruence|destruct (tf thermal); congruence]).
  unfold lattice_line in L.
  destruct n as [|[|[|[|[|[|[|[|n]]]]]]]]; try discriminate;
  repeat match type of L with (do _ <- ?e; _) = _ => let z := fresh "z" in let E := fresh "E" in destruct e as [z|] eqn:E; [|discriminate]; cbn [rbind] in L; apply N in E; destruct E as (? & E & ?) end;
  injection L as <-; (split; [lia|]); (split; [reflexivity|]); (split; [reflexivity|]); (split; [reflexivity|]); (split; [exact Th|]);
  cbn [symmetry systems nth Nat.sub]; repeat match goal with
    | H : nth_error cell _ = Some _ |- _ => destruct cell as [|? cell]; [discriminate H|]; cbn [nth_error] in *
    | H : match cell with _ => _ end = Some _ |- _ => destruct cell as [|? cell]; [discriminate H|]; cbn [nth_error] in *
    end;
  repeat match goal with H : Some _ = Some _ |- _ => injection H as H; subst end.
  - exists z, 0%R, 0%R, 0%R, 0%R, 0%R. split; [reflexivity|]. cbn. congruence.
  - exists z, 0%R, z0, 0%R, 0%R, 0%R. split; [reflexivity|]. cbn. congruence.
  - exists z, 0%R, z0, 0%R, 0%R, 0%R. split; [reflexivity|]. cbn. congruence.
  - exists z, z0, z1, 0%R, 0%R, 0%R. split; [reflexivity|]. cbn. congruence.
  - exists z, z0, z1, 0%R, z2, 0%R. split; [reflexivity|]. cbn. congruence.
  - exists z, z0, z1, z2, z3, z4. split; [reflexivity|]. cbn. congruence.
  - exists z, 0%R, 0%R, 0%R, 0%R, 0%R. split; [reflexivity|]. cbn. congruence.
Qed.
Print Assumptions C191_fixed.
(** the volume kept is that of the cell *)
Theorem C191_volume : forall to_float to_int lines c, read_card to_float to_int lines = Ok c ->
  let g := gram (num c "a0") (num c "b0") (num c "c0") (cosd (num c "alpha0")) (cosd (num c "beta0")) (cosd (num c "gamma0")) in
  (0 <= g)%R -> (num c "v0" * num c "v0")%R = g /\ ((0 <= num c "a0")%R -> (0 <= num c "b0")%R -> (0 <= num c "c0")%R -> (0 <= num c "v0")%R).
Proof.
  intros tf ti lines c H g G. unfold read_card in H. destruct (line 0 lines) as [first|]; [|discriminate]. cbn [rbind] in H.
  match type of H with (do _ <- ?e; _) = _ => destruct e as [c1|]; [|discriminate] end. cbn [rbind] in H. injection H as <-. subst g. cbn [num] in *. unfold upd, volume in *. cbn [String.eqb Ascii.eqb Bool.eqb] in *.
  set (a := num c1 "a0") in *. set (b := num c1 "b0") in *. set (d := num c1 "c0") in *. set (ca := cosd (num c1 "alpha0")) in *. set (cb := cosd (num c1 "beta0")) in *. set (cg := cosd (num c1 "gamma0")) in *.
  set (f := (1 - ca ^ 2 - cb ^ 2 - cg ^ 2 + 2 * ca * cb * cg)%R). assert (E : gram a b d ca cb cg = ((a * b * d) * (a * b * d) * f)%R) by (unfold gram, f; ring). rewrite E in *. split.
  - destruct (Req_dec (a * b * d) 0) as [Z0|NZ]; [rewrite Z0; ring|]. assert (P : (0 < (a * b * d) * (a * b * d))%R) by (apply Rsqr_pos_lt in NZ; exact NZ).
    assert (F : (0 <= f)%R) by (apply Rmult_le_reg_l with ((a * b * d) * (a * b * d))%R; lra). replace (a * b * d * sqrt f * (a * b * d * sqrt f))%R with ((a * b * d) * (a * b * d) * (sqrt f * sqrt f))%R by ring. now rewrite sqrt_sqrt.
  - intros A B C. apply Rmult_le_pos; [|apply sqrt_pos]. apply Rmult_le_pos; [now apply Rmult_le_pos|exact C].
Qed.
Print Assumptions C191_volume.
Example C191_ex : let tf w := if String.eqb w "2" then Some 2%R else if String.eqb w "160" then Some 160%R else None in let ti w := if String.eqb w "4" then Some 4%nat else None in
  exists c, read_card tf ti [["VERSION:"; "4"]; ["COMMENT:"; "MgO"]; ["K0:"; "160"]; ["SYMMETRY:"; "CUBIC"]; ["A:"; "160"]; ["A:"; "2"]] = Ok c /\
    symmetry c = "cubic" /\ lattice_params c = [2; 2; 2; 90; 90; 90]%R /\ num c "k0" = 160%R.
Proof. cbv zeta. eexists. split; [reflexivity|]. repeat split; reflexivity. Qed.

(** ** C192: a card is written to a material of its own crystal system only, and compared with it *)
Theorem C192_written : forall c m, lattice_type m = symmetry c -> exists m1 m2, write_lattice c m = Ok m1 /\ write_pt c m = Ok m2 /\
  lattice m1 = [num c "a0"; num c "b0"; num c "c0"; num c "alpha0"; num c "beta0"; num c "gamma0"] /\ (forall n, pt m1 n = pt m n) /\ lattice m2 = lattice m /\
  (forall n, pt m2 n = if in_dec string_dec n ["k0"; "k0p"; "dk0dt"; "dk0pdt"; "alpha_t"; "dalpha_t_dt"] then num c n else pt m n) /\ lattice_type m1 = symmetry c /\ lattice_type m2 = symmetry c.
Proof.
  intros c m E. unfold write_lattice, write_pt, verify_symmetry. rewrite E, String.eqb_refl. cbn [rbind]. eexists. eexists. split; [reflexivity|]. split; [reflexivity|]. cbn [lattice pt lattice_type].
  repeat split. intros n. cbn [map set_all fold_left fst snd]. unfold upd. destruct (in_dec _ _ _) as [I|I].
  - repeat (destruct I as [<-|I]; [reflexivity|]). contradiction I.
  - cbn [In] in I. repeat match goal with |- context [String.eqb n ?s] => destruct (String.eqb_spec n s); [exfalso; apply I; auto 10|] end. reflexivity.
Qed.
Print Assumptions C192_written.
Theorem C192_mismatch : forall c m, lattice_type m <> symmetry c -> write_lattice c m = Err ValueError /\ write_pt c m = Err ValueError /\ matches_material c m = Err ValueError.
Proof. intros c m N. unfold write_lattice, write_pt, matches_material, verify_symmetry. destruct (String.eqb_spec (lattice_type m) (symmetry c)); [contradiction|]. repeat split. Qed.
Print Assumptions C192_mismatch.
(** a material that differs is told apart *)
Theorem C192_differs_partial : forall c m, lattice_type m = symmetry c -> (matches_material c m = Ok (Some false) <->
  exists i x y, nth_error (lattice m) i = Some x /\ nth_error (lattice_params c) i = Some y /\ (/ 10 ^ 8 + / 10 ^ 5 * Rabs y < Rabs (x - y))%R).
Proof.
  intros c m E. unfold matches_material, verify_symmetry. rewrite E, String.eqb_refl. cbn [rbind]. assert (X : forall l1 l2, forallb (fun xy => is_close (fst xy) (snd xy)) (combine l1 l2) = false <->
    exists i x y, nth_error l1 i = Some x /\ nth_error l2 i = Some y /\ (/ 10 ^ 8 + / 10 ^ 5 * Rabs y < Rabs (x - y))%R).
  { induction l1 as [|x l1 IH]; intros l2; [split; [discriminate|intros ([|i] & x & y & H & _); discriminate]|]. destruct l2 as [|y l2]; [split; [discriminate|intros ([|i] & u & w & _ & H & _); discriminate]|].
    cbn [combine forallb fst snd]. unfold is_close at 1. destruct (Rle_dec _ _) as [L|L]; cbn [andb].
    - rewrite IH. split; [intros (i & u & w & A & B & C); exists (S i), u, w; auto|]. intros ([|i] & u & w & A & B & C); [cbn in A, B; injection A as <-; injection B as <-; lra|exists i, u, w; auto].
    - split; [intros _|reflexivity]. exists 0%nat, x, y. repeat split. lra. }
  rewrite <- X. destruct (forallb _ _); split; try discriminate; reflexivity.
Qed.
Print Assumptions C192_differs_partial.
(** refuted: a material that is the same matches: the function has no line that returns True *)
Theorem C192_matches_refuted : forall c m, matches_material c m <> Ok (Some true).
Proof. intros c m. unfold matches_material. destruct (verify_symmetry c m); cbn [rbind]; [|discriminate]. destruct (forallb _ _); discriminate. Qed.
Print Assumptions C192_matches_refuted.
Theorem C192_same_refuted : exists c m, lattice_type m = symmetry c /\ lattice m = lattice_params c /\ matches_material c m = Ok None.
Proof.
  exists (Card (fun _ => 1%R) "cubic"), (Mat "cubic" [1; 1; 1; 1; 1; 1]%R (fun _ => 0%R)). repeat split. unfold matches_material. cbn [verify_symmetry lattice_type symmetry String.eqb Ascii.eqb Bool.eqb rbind].
  replace (forallb _ _) with true; [reflexivity|]. symmetry. apply forallb_forall. intros xy I. assert (xy = (1, 1)%R) as -> by (cbn in I; intuition congruence). unfold is_close. cbn [fst snd].
  destruct (Rle_dec _ _) as [L|L]; [reflexivity|]. destruct L. replace (1 - 1)%R with 0%R by lra. rewrite Rabs_R0, Rabs_R1. lra.
Qed.
Print Assumptions C192_same_refuted.
