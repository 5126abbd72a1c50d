From Coq Require Import String Ascii List ZArith Reals Lia Decimal DecimalString DecimalNat.
From Verif Require Import Prelude Lin TensorModel NamesModel NamesProofs WrModel WrSpec.
Import ListNotations.
Local Open Scope string_scope.
Local Open Scope list_scope.
Local Notation length := List.length.

Lemma app_nil (s : string) : (s ++ "")%string = s.
Proof. induction s as [|c s IH]; cbn; [reflexivity|]. now rewrite IH. Qed.
Lemma app_ass (a b c : string) : ((a ++ b) ++ c)%string = (a ++ (b ++ c))%string.
Proof. induction a as [|x a IH]; cbn; [reflexivity|]. now rewrite IH. Qed.
Lemma blank_b c : blankb c = true <-> blank c.
Proof. unfold blankb, blank. rewrite existsb_exists. split; [intros (x & I & E); apply Nat.eqb_eq in E; now subst x|]. intros I. exists (nat_of_ascii c). split; [exact I|apply Nat.eqb_refl]. Qed.
Lemma words_token t : forall cur s, no_blank t -> words_from cur (t ++ s)%string = words_from (cur ++ t)%string s.
Proof.
  induction t as [|c t IH]; intros cur s H; cbn [append]; [now rewrite app_nil|]. destruct H as [H1 H2]. cbn [words_from]. destruct (blankb c) eqn:B; [apply blank_b in B; contradiction|].
  rewrite IH by exact H2. now rewrite app_ass.
Qed.
Lemma words_spaces n : forall s, words_from "" (spaces n ++ s)%string = words_from "" s.
Proof. induction n as [|n IH]; intros s; cbn [spaces append]; [reflexivity|]. cbn [words_from]. change (blankb " ") with true. cbn iota. apply IH. Qed.
Lemma words_end t n s : word t -> words_from "" (t ++ (spaces (S n) ++ s))%string = t :: words_from "" s.
Proof.
  intros [H1 H2]. rewrite words_token by exact H2. cbn [append]. cbn [spaces append words_from]. change (blankb " ") with true. cbn iota.
  destruct (String.eqb t "") eqn:E; [apply String.eqb_eq in E; contradiction|]. now rewrite words_spaces.
Qed.
Lemma spaces_add a b s : (spaces a ++ (spaces b ++ s))%string = (spaces (a + b) ++ s)%string.
Proof. induction a as [|a IH]; cbn [spaces append plus]; [reflexivity|]. now rewrite IH. Qed.
(** a row of padded words, two blanks apart, reads back as the words *)
Lemma join_words l : forall ws s, Forall word l -> length ws = length l -> s = "" \/ (exists n r, s = (spaces (S n) ++ r)%string) ->
  words_from "" (join delim (map (fun wt => ljust (fst wt) (snd wt)) (combine ws l)) ++ s)%string = l ++ words_from "" s.
Proof.
  induction l as [|t l IH]; intros ws s F L E.
  - destruct ws; [|discriminate]. reflexivity.
  - destruct ws as [|w ws]; [discriminate|]. inversion F as [|? ? Ft Fl]; subst. cbn [length] in L. injection L as L. cbn [combine map fst snd join].
    destruct (map (fun wt => ljust (fst wt) (snd wt)) (combine ws l)) as [|y ys] eqn:M.
    + assert (l = []) as -> by (destruct l; [reflexivity|]; destruct ws; discriminate). cbn [app]. unfold ljust. rewrite app_ass. destruct E as [->|(n & r & ->)].
      * rewrite app_nil. destruct (w - String.length t)%nat as [|k].
        -- cbn [spaces]. rewrite words_token by apply Ft. cbn [append words_from String.eqb]. destruct (String.eqb t "") eqn:X; [apply String.eqb_eq in X; exfalso; now apply (proj1 Ft)|reflexivity].
        -- rewrite <- (app_nil (spaces (S k))). rewrite words_end by exact Ft. reflexivity.
      * rewrite spaces_add. replace (w - String.length t + S n)%nat with (S (w - String.length t + n)) by lia. rewrite words_end by exact Ft. f_equal. symmetry. apply words_spaces.
    + rewrite <- M. unfold ljust at 1. rewrite !app_ass. change (delim ++ _)%string with (spaces 2 ++ (join delim (map (fun wt => ljust (fst wt) (snd wt)) (combine ws l)) ++ s))%string.
      rewrite spaces_add. replace (w - String.length t + 2)%nat with (S (w - String.length t + 1)) by lia. rewrite words_end by exact Ft. cbn [app]. f_equal. apply IH; auto.
Qed.
Lemma join_cat a : forall b, a <> [] -> b <> [] -> join delim (a ++ b) = (join delim a ++ (delim ++ join delim b))%string.
Proof.
  induction a as [|x a IH]; intros b A B; [contradiction|]. destruct a as [|y a].
  - cbn [app join]. destruct b; [contradiction|reflexivity].
  - change (join delim ((x :: y :: a) ++ b)) with (x ++ (delim ++ join delim ((y :: a) ++ b)))%string. rewrite IH by (auto; discriminate).
    change (join delim (x :: y :: a)) with (x ++ (delim ++ join delim (y :: a)))%string. now rewrite !app_ass.
Qed.
Lemma line_words l ws : Forall word l -> length ws = length l -> words (join delim (map (fun wt => ljust (fst wt) (snd wt)) (combine ws l))) = l.
Proof. intros F L. unfold words. rewrite <- (app_nil (join _ _)). rewrite join_words by auto. cbn [words_from String.eqb]. apply app_nil_r. Qed.
(** positions *)
Lemma sub_skip a : forall k n s, substring (String.length a + k) n (a ++ s)%string = substring k n s.
Proof. induction a as [|c a IH]; intros k n s; cbn [String.length plus append]; [reflexivity|]. cbn [substring]. apply IH. Qed.
Lemma sub_here t : forall s, substring 0 (String.length t) (t ++ s)%string = t.
Proof. induction t as [|c t IH]; intros s; cbn [String.length append substring]; [destruct s; reflexivity|]. now rewrite IH. Qed.
Lemma len_app (a b : string) : String.length (a ++ b)%string = (String.length a + String.length b)%nat.
Proof. induction a as [|c a IH]; cbn; [reflexivity|]. now rewrite IH. Qed.
Lemma len_spaces n : String.length (spaces n) = n.
Proof. induction n as [|n IH]; cbn; congruence. Qed.
Lemma len_ljust w t : (String.length t <= w)%nat -> String.length (ljust w t) = w.
Proof. intros H. unfold ljust. rewrite len_app, len_spaces. lia. Qed.
Lemma join_positions l : forall ws pre, length ws = length l -> Forall2 (fun w t => (String.length t <= w)%nat) ws l ->
  Forall2 (fun k t => stands_at k t (pre ++ join delim (map (fun wt => ljust (fst wt) (snd wt)) (combine ws l)))%string) (columns (String.length pre) ws) l.
Proof.
  induction l as [|t l IH]; intros ws pre L F; destruct ws as [|w ws]; try discriminate; [constructor|]. inversion F as [|? ? ? ? Ft Fl]; subst. cbn [columns combine map fst snd]. constructor.
  - unfold stands_at. replace (String.length pre) with (String.length pre + 0)%nat by lia. rewrite sub_skip.
    destruct (map (fun wt => ljust (fst wt) (snd wt)) (combine ws l)) as [|y ys]; cbn [join]; unfold ljust; rewrite ?app_ass; apply sub_here.
  - cbn [length] in L. injection L as L. destruct l as [|t' l]; [destruct ws; [constructor|discriminate]|]. destruct ws as [|w' ws]; [discriminate|].
    assert (E : (pre ++ join delim (ljust w t :: map (fun wt => ljust (fst wt) (snd wt)) (combine (w' :: ws) (t' :: l))))%string =
                ((pre ++ (ljust w t ++ delim)) ++ join delim (map (fun wt => ljust (fst wt) (snd wt)) (combine (w' :: ws) (t' :: l))))%string).
    { cbn [combine map fst snd]. rewrite !app_ass. reflexivity. }
    rewrite E. replace (String.length pre + w + 2)%nat with (String.length (pre ++ (ljust w t ++ delim))%string) by (rewrite !len_app, len_ljust by exact Ft; cbn; lia). now apply IH.
Qed.
(** lines *)
Fixpoint one_line (s : string) : Prop := match s with EmptyString => True | String c r => nat_of_ascii c <> 10%nat /\ one_line r end.
Lemma lines_token t : forall cur s, one_line t -> lines_from cur (t ++ s)%string = lines_from (cur ++ t)%string s.
Proof.
  induction t as [|c t IH]; intros cur s H; cbn [append]; [now rewrite app_nil|]. destruct H as [H1 H2]. cbn [lines_from]. destruct (Nat.eqb (nat_of_ascii c) 10) eqn:B; [apply Nat.eqb_eq in B; contradiction|].
  rewrite IH by exact H2. now rewrite app_ass.
Qed.
Lemma lines_end t s : one_line t -> lines_from "" (t ++ (nl ++ s))%string = t :: lines_from "" s.
Proof. intros H. rewrite lines_token by exact H. reflexivity. Qed.
Lemma one_line_app a b : one_line a -> one_line b -> one_line (a ++ b)%string.
Proof. induction a as [|c a IH]; cbn; tauto. Qed.
Lemma one_line_spaces n : one_line (spaces n).
Proof. induction n as [|n IH]; cbn; [exact Logic.I|]. split; [discriminate|exact IH]. Qed.
Lemma one_line_word t : no_blank t -> one_line t.
Proof. induction t as [|c t IH]; cbn [no_blank one_line]; [tauto|]. intros [H1 H2]. split; [|auto]. intros E. apply H1. unfold blank. rewrite E. cbn. tauto. Qed.
Lemma one_line_join l : Forall one_line l -> one_line (join delim l).
Proof. induction l as [|x l IH]; intros F; [exact Logic.I|]. inversion F as [|? ? Fx Fl]; subst. destruct l as [|y l]; [exact Fx|]. change (join delim (x :: y :: l)) with (x ++ (delim ++ join delim (y :: l)))%string. apply one_line_app; [exact Fx|]. apply one_line_app; [cbn; repeat split; discriminate|auto]. Qed.
(** integers are words *)
Lemma digits_word d : no_blank (NilEmpty.string_of_uint d).
Proof. induction d; cbn; try exact Logic.I; (split; [unfold blank; cbn; intros X; repeat (destruct X as [X|X]; [discriminate X|]); exact X|assumption]). Qed.
Lemma dec_word n : word (NilZero.string_of_uint n).
Proof.
  destruct n as [|n|n|n|n|n|n|n|n|n|n]; split; try discriminate; try (exact (digits_word (D0 n)) || exact (digits_word (D1 n)) || exact (digits_word (D2 n)) || exact (digits_word (D3 n)) || exact (digits_word (D4 n)) || exact (digits_word (D5 n)) || exact (digits_word (D6 n)) || exact (digits_word (D7 n)) || exact (digits_word (D8 n)) || exact (digits_word (D9 n))).
  cbn. split; [|exact Logic.I]. unfold blank. cbn. intros X. repeat (destruct X as [X|X]; [discriminate X|]). exact X.
Qed.
Lemma int_word z : word (py_str z).
Proof.
  unfold py_str, NilZero.string_of_int. destruct (Z.to_int z) as [d|d]; [apply dec_word|]. destruct (dec_word d) as [_ H]. split; [discriminate|]. cbn. split; [|exact H].
  unfold blank. cbn. intros X. repeat (destruct X as [X|X]; [discriminate X|]). exact X.
Qed.
