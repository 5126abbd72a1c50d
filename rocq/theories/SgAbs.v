(** Systematic absences: the masks of [Allowed_HKLs] and the extinction
    condition are both unions of clauses "the index lies in a plane, line or
    the whole of Z^3, and a linear form of it is not divisible by m".  Two
    unions of clauses are compared by evaluation on one period of each flat. *)
From Coq Require Import String Ascii.
From Verif Require Import Prelude SgTables SgModel SgSpec SgProofs.
Local Open Scope string_scope.
Local Open Scope Z_scope.

(** ** Flats *)
Record flat := FL { eqs : list ivec; bas : list ivec }.

Definition in_flat (g : ivec) (F : flat) : bool := forallb (fun e => idot e g =? 0) (eqs F).

Fixpoint comb (n : list Z) (B : list ivec) : ivec :=
  match n, B with
  | x :: n, b :: B =>
      let r := comb n B in IV (x * v0 b + v0 r) (x * v1 b + v1 r) (x * v2 b + v2 r)
  | _, _ => IV 0 0 0
  end.

Definition good_flat (F : flat) : Prop :=
  forallb (fun b => in_flat b F) (bas F) = true /\
  forall g, in_flat g F = true -> exists n, List.length n = List.length (bas F) /\ g = comb n (bas F).

Definition e1 := IV 1 0 0. Definition e2 := IV 0 1 0. Definition e3 := IV 0 0 1.

Definition FW := FL [] [e1; e2; e3].
Definition Fh := FL [e1] [e2; e3].
Definition Fk := FL [e2] [e1; e3].
Definition Fl := FL [e3] [e1; e2].
Definition Fhk := FL [IV 1 (-1) 0] [IV 1 1 0; e3].
Definition Fhnk := FL [IV 1 1 0] [IV 1 (-1) 0; e3].
Definition Fhl := FL [IV 1 0 (-1)] [IV 1 0 1; e2].
Definition Fhnl := FL [IV 1 0 1] [IV 1 0 (-1); e2].
Definition Fkl := FL [IV 0 1 (-1)] [IV 0 1 1; e1].
Definition Fknl := FL [IV 0 1 1] [IV 0 1 (-1); e1].
Definition Fh2k := FL [IV 1 2 0] [IV (-2) 1 0; e3].
Definition F2hk := FL [IV 2 1 0] [IV 1 (-2) 0; e3].
Definition L100 := FL [e2; e3] [e1].
Definition L010 := FL [e1; e3] [e2].
Definition L001 := FL [e1; e2] [e3].
Definition L110 := FL [IV 1 (-1) 0; e3] [IV 1 1 0].
Definition L1n10 := FL [IV 1 1 0; e3] [IV 1 (-1) 0].
Definition L101 := FL [IV 1 0 (-1); e2] [IV 1 0 1].
Definition L10n1 := FL [IV 1 0 1; e2] [IV 1 0 (-1)].
Definition L011 := FL [IV 0 1 (-1); e1] [IV 0 1 1].
Definition L01n1 := FL [IV 0 1 1; e1] [IV 0 1 (-1)].
Definition L111 := FL [IV 1 0 (-1); IV 0 1 (-1)] [IV 1 1 1].
Definition L1n11 := FL [IV 1 0 (-1); IV 0 1 1] [IV 1 (-1) 1].
Definition Ln111 := FL [IV 1 0 1; IV 0 1 (-1)] [IV (-1) 1 1].
Definition L11n1 := FL [IV 1 0 1; IV 0 1 1] [IV (-1) (-1) 1].
Definition Ln210 := FL [IV 1 2 0; e3] [IV (-2) 1 0].
Definition L1n20 := FL [IV 2 1 0; e3] [IV 1 (-2) 0].
Definition F0 := FL [e1; e2; e3] [].

Definition flats : list flat :=
  [FW; Fh; Fk; Fl; Fhk; Fhnk; Fhl; Fhnl; Fkl; Fknl; Fh2k; F2hk;
   L100; L010; L001; L110; L1n10; L101; L10n1; L011; L01n1; L111; L1n11; Ln111; L11n1;
   Ln210; L1n20; F0].

Ltac flat_eqs H :=
  repeat (let H1 := fresh in apply andb_true_iff in H; destruct H as [H1 H]; apply Z.eqb_eq in H1).

Lemma good_flats F : In F flats -> good_flat F.
Proof.
  intros H. cbn in H.
  repeat (destruct H as [<-|H]; [split; [reflexivity|intros [g0 g1 g2] H; unfold in_flat, idot in H;
    cbn [FW Fh Fk Fl Fhk Fhnk Fhl Fhnl Fkl Fknl Fh2k F2hk L100 L010 L001 L110 L1n10 L101 L10n1 L011
         L01n1 L111 L1n11 Ln111 L11n1 Ln210 L1n20 F0 eqs bas forallb e1 e2 e3 v0 v1 v2] in H;
    flat_eqs H] |]); try contradiction.
  all: match goal with
       | |- exists n, _ = List.length (bas ?F) /\ _ =>
           let k := eval cbv in (List.length (bas F)) in
           let ok n := (exists n; split; [reflexivity|]; cbn -[Z.mul Z.add Z.opp]; f_equal; lia) in
           match k with
           | 0%nat => ok (@nil Z)
           | 1%nat => first [ok [g0] | ok [g1] | ok [g2] | ok [- g0]]
           | 2%nat => first [ok [g0; g1] | ok [g0; g2] | ok [g1; g2] | ok [g1; g0]]
           | 3%nat => ok [g0; g1; g2]
           end
       end.
Qed.

(** ** Clauses *)
Record clause := CL { cf : flat; cc : ivec; cm : Z }.
Definition holds (g : ivec) (c : clause) : bool :=
  in_flat g (cf c) && negb (idot (cc c) g mod cm c =? 0).
Definition some_holds (cs : list clause) (g : ivec) : bool := existsb (holds g) cs.

(** inclusion of flats *)
Definition flat_le (F G : flat) : bool := forallb (fun b => in_flat b G) (bas F).

Lemma idot_comb e n B : forallb (fun b => idot e b =? 0) B = true -> idot e (comb n B) = 0.
Proof.
  revert n; induction B as [|b B IH]; intros [|x n]; cbn [comb forallb]; try (intros _; unfold idot; cbn; lia).
  rewrite andb_true_iff. intros [H1 H2]. specialize (IH n H2). apply Z.eqb_eq in H1.
  revert H1 IH. generalize (comb n B) as r. intros [p q s]. unfold idot; cbn [v0 v1 v2]. intros.
  transitivity (x * (v0 e * v0 b + v1 e * v1 b + v2 e * v2 b) + (v0 e * p + v1 e * q + v2 e * s)); [ring|rewrite H1, IH; ring].
Qed.

Lemma flat_le_ok F G g : good_flat F -> flat_le F G = true -> in_flat g F = true -> in_flat g G = true.
Proof.
  intros [_ Hg] Hle Hin. destruct (Hg g Hin) as (n & _ & ->).
  unfold in_flat. apply forallb_forall. intros e He. apply Z.eqb_eq, idot_comb.
  unfold flat_le in Hle. rewrite forallb_forall in Hle |- *. intros b Hb. specialize (Hle b Hb).
  unfold in_flat in Hle. rewrite forallb_forall in Hle. now apply Hle.
Qed.

(** one period of the coefficients *)
Fixpoint period (d : nat) : list (list Z) :=
  match d with
  | O => [[]]
  | S d => flat_map (fun n => map (fun x => x :: n) [0;1;2;3;4;5;6;7;8;9;10;11]) (period d)
  end.
Lemma in_period n : In (map (fun x => x mod 12) n) (period (List.length n)).
Proof.
  induction n as [|x n IH]; [now left|].
  change (In (x mod 12 :: map (fun x => x mod 12) n)
    (flat_map (fun n => map (fun x => x :: n) [0;1;2;3;4;5;6;7;8;9;10;11]) (period (List.length n)))).
  apply in_flat_map. exists (map (fun x => x mod 12) n). split; [exact IH|].
  apply in_map with (f := fun y => y :: map (fun x => x mod 12) n).
  pose proof (Z.mod_pos_bound x 12 ltac:(lia)). cbn [In]. lia.
Qed.

Lemma mod_comb c n B m : (m | 12) ->
  idot c (comb n B) mod m = idot c (comb (map (fun x => x mod 12) n) B) mod m.
Proof.
  intros Hm. assert (D : forall x y, (12 | x - y) -> x mod m = y mod m).
  { intros x y [k H]. destruct Hm as [j Hj].
    replace x with (y + (k * j) * m) by (rewrite <- Z.mul_assoc, <- Hj; lia).
    destruct (Z.eq_dec m 0) as [->|]; [lia|]. apply Z.mod_add; auto. }
  apply D. clear D m Hm.
  revert n; induction B as [|b B IH]; intros [|x n]; cbn [comb map]; try (exists 0; lia).
  specialize (IH n). destruct IH as [k Hk]. pose proof (Z.div_mod x 12 ltac:(lia)) as Hx.
  revert Hk. generalize (comb n B) as r, (comb (map (fun x => x mod 12) n) B) as r'.
  intros [p q s] [p' q' s']. unfold idot; cbn [v0 v1 v2]. intros Hk.
  exists (k + (x / 12) * (v0 c * v0 b + v1 c * v1 b + v2 c * v2 b)).
  rewrite Z.mul_add_distr_r, <- Hk. set (u := x mod 12) in *. set (d := x / 12) in *. clearbody u d. subst x. ring.
Qed.

(** does every index that satisfies [c] satisfy one of [cs]? *)
Definition covered (cs : list clause) (c : clause) : bool :=
  let J := filter (fun d => flat_le (cf c) (cf d) && ((12 mod cm d) =? 0)) cs in
  (12 mod cm c =? 0) &&
  forallb (fun n => let g := comb n (bas (cf c)) in
                    (idot (cc c) g mod cm c =? 0) ||
                    existsb (fun d => negb (idot (cc d) g mod cm d =? 0)) J)
          (period (List.length (bas (cf c)))).

Lemma divide_12 m : 12 mod m =? 0 = true -> m <> 0 -> (m | 12).
Proof. intros H Hm. apply Z.eqb_eq in H. now apply Z.mod_divide. Qed.

Lemma covered_ok cs c g : good_flat (cf c) -> covered cs c = true ->
  holds g c = true -> some_holds cs g = true.
Proof.
  unfold covered, holds, some_holds. intros Hg. rewrite !andb_true_iff. intros [Hm Hall] [Hin Hn].
  pose proof Hg as [_ Hex]. destruct (Hex g Hin) as (n & Hlen & E).
  rewrite forallb_forall in Hall. specialize (Hall _ (eq_rect _ (fun d => In _ (period d)) (in_period n) _ Hlen)).
  cbv zeta in Hall.
  assert (Z0 : forall m, m = 0 -> (12 mod m =? 0) = false) by (intros m ->; reflexivity).
  assert (Hc0 : cm c <> 0) by (intros K; rewrite Z0 in Hm; auto; discriminate).
  rewrite <- mod_comb in Hall by now apply divide_12.
  rewrite <- E in Hall. apply negb_true_iff in Hn. rewrite Hn in Hall. cbn [orb] in Hall.
  apply existsb_exists in Hall. destruct Hall as (d & Hd & Hd2).
  apply filter_In in Hd. destruct Hd as [Hd Hd1]. apply andb_true_iff in Hd1. destruct Hd1 as [Hle Hmd].
  assert (Hd0 : cm d <> 0) by (intros K; rewrite Z0 in Hmd; auto; discriminate).
  rewrite <- mod_comb in Hd2 by now apply divide_12. rewrite <- E in Hd2.
  apply existsb_exists. exists d. split; auto. apply andb_true_iff; split; [|exact Hd2].
  eapply flat_le_ok; eassumption.
Qed.

(** ** Clauses of the masks, branch by branch *)
Definition screw_clauses (sgnum : Z) (ax : string) (iax : nat) : list clause :=
  match latticeType sgnum with
  | Ok Monoclinic => [CL L010 e2 2]
  | Ok Orthorhombic =>
      match iax with
      | 0%nat => [CL L100 e1 2] | 1%nat => [CL L010 e2 2] | 2%nat => [CL L001 e3 2] | _ => []
      end
  | Ok Tetragonal =>
      match iax with
      | 0%nat => [CL L001 e3 (if String.eqb ax "4_2" then 2 else 4)]
      | 1%nat => [CL L100 e1 2; CL L010 e2 2]
      | _ => []
      end
  | Ok Trigonal => [CL L001 e3 3]
  | Ok Hexagonal =>
      [CL L001 e3 (if String.eqb ax "6_3" then 2
                   else if String.eqb ax "3_1" || String.eqb ax "3_2" || String.eqb ax "6_2"
                           || String.eqb ax "6_4" then 3 else 6)]
  | Ok Cubic =>
      let m := if String.eqb ax "2_1" || String.eqb ax "4_2" then 2 else 4 in
      [CL L001 e3 m; CL L010 e2 m; CL L100 e1 m]
  | _ => []
  end.

Definition glide_clauses (sgnum : Z) (plane : string) (ip : nat) : list clause :=
  let is (s : string) := String.eqb plane s in
  match latticeType sgnum with
  | Ok Monoclinic =>
      match ip with
      | 1%nat => [CL Fk (if is "c" then e3 else if is "a" then e1 else IV 1 0 1) 2]
      | _ => []
      end
  | Ok Orthorhombic =>
      match ip with
      | 0%nat => if is "b" then [CL Fh e2 2] else if is "c" then [CL Fh e3 2]
                 else if is "n" then [CL Fh (IV 0 1 1) 2] else [CL Fh (IV 0 1 1) 4]
      | 1%nat => if is "c" then [CL Fk e3 2] else if is "a" then [CL Fk e1 2]
                 else if is "n" then [CL Fk (IV 1 0 1) 2] else [CL Fk (IV 1 0 1) 4]
      | 2%nat => if is "a" then [CL Fl e1 2] else if is "b" then [CL Fl e2 2]
                 else if is "n" then [CL Fl (IV 1 1 0) 2] else [CL Fl (IV 1 1 0) 4]
      | _ => []
      end
  | Ok Tetragonal =>
      match ip with
      | 0%nat => if is "a" then [CL Fl e1 2] else if is "b" then [CL Fl e2 2]
                 else if is "n" then [CL Fl (IV 1 1 0) 2] else [CL Fl (IV 1 1 0) 4]
      | 1%nat => if is "a" || is "b" then [CL Fh e2 2; CL Fk e1 2]
                 else if is "c" then [CL Fh e3 2; CL Fk e3 2]
                 else if is "n" then [CL Fh (IV 0 1 1) 2; CL Fk (IV 1 0 1) 2]
                 else [CL Fh (IV 0 1 1) 4; CL Fk (IV 1 0 1) 4]
      | 2%nat => if is "c" || is "n" then [CL Fhk e3 2; CL Fhnk e3 2]
                 else [CL Fhk (IV 2 0 1) 4; CL Fhnk (IV 2 0 1) 4]
      | _ => []
      end
  | Ok Trigonal | Ok Hexagonal =>
      match ip with
      | 1%nat => [CL Fh e3 2; CL Fk e3 2; CL Fhnk e3 2]
      | _ => [CL Fhk e3 2; CL Fh2k e3 2; CL F2hk e3 2]
      end
  | Ok Cubic =>
      match ip with
      | 0%nat =>
          if is "a" then [CL Fh e2 2; CL Fh e3 2; CL Fk e1 2; CL Fk e3 2; CL Fl e1 2]
          else if is "b" then [CL Fh e2 2; CL Fl e2 2]
          else if is "c" then [CL Fh e3 2; CL Fk e3 2]
          else let m := if is "n" then 2 else 4 in
               [CL Fh (IV 0 1 1) m; CL Fk (IV 1 0 1) m; CL Fl (IV 1 1 0) m]
      | 2%nat =>
          if is "a" || is "b" || is "c" || is "n"
          then [CL Fhk e3 2; CL Fhnk e3 2; CL Fkl e1 2; CL Fknl e1 2; CL Fhl e2 2; CL Fhnl e2 2]
          else [CL Fhk (IV 2 0 1) 4; CL Fhnk (IV 2 0 1) 4;
                CL Fkl (IV 1 2 0) 4; CL Fknl (IV 1 2 0) 4;
                CL Fhl (IV 2 1 0) 4; CL Fhnl (IV 2 1 0) 4]
      | _ => []
      end
  | _ => []
  end.

Definition centering_clauses (c : ascii) : list clause :=
  match c with
  | "F" => [CL FW (IV 1 1 0) 2; CL FW (IV 1 0 1) 2; CL FW (IV 0 1 1) 2]
  | "I" => [CL FW (IV 1 1 1) 2]
  | "A" => [CL FW (IV 0 1 1) 2]
  | "B" => [CL FW (IV 1 0 1) 2]
  | "C" => [CL FW (IV 1 1 0) 2]
  | "R" => [CL FW (IV (-1) 1 1) 3]
  | _ => []
  end%char.

Lemma eqb_iff (a b : bool) : (a = true <-> b = true) -> a = b.
Proof. destruct a, b; intuition congruence. Qed.

(** bring the conditions of masks and clauses to a common form, then compare
    them as boolean functions of these conditions *)
Lemma idot_f0 a b c : idot e1 (IV a b c) = a. Proof. unfold idot, e1, e2, e3; cbn [v0 v1 v2]; ring. Qed.
Lemma idot_f1 a b c : idot e2 (IV a b c) = b. Proof. unfold idot, e1, e2, e3; cbn [v0 v1 v2]; ring. Qed.
Lemma idot_f2 a b c : idot e3 (IV a b c) = c. Proof. unfold idot, e1, e2, e3; cbn [v0 v1 v2]; ring. Qed.
Lemma idot_f3 a b c : idot (IV 1 1 0) (IV a b c) = a + b. Proof. unfold idot, e1, e2, e3; cbn [v0 v1 v2]; ring. Qed.
Lemma idot_f4 a b c : idot (IV 1 0 1) (IV a b c) = a + c. Proof. unfold idot, e1, e2, e3; cbn [v0 v1 v2]; ring. Qed.
Lemma idot_f5 a b c : idot (IV 0 1 1) (IV a b c) = b + c. Proof. unfold idot, e1, e2, e3; cbn [v0 v1 v2]; ring. Qed.
Lemma idot_f6 a b c : idot (IV 1 1 1) (IV a b c) = a + b + c. Proof. unfold idot, e1, e2, e3; cbn [v0 v1 v2]; ring. Qed.
Lemma idot_f7 a b c : idot (IV (-1) 1 1) (IV a b c) = - a + b + c. Proof. unfold idot, e1, e2, e3; cbn [v0 v1 v2]; ring. Qed.
Lemma idot_f8 a b c : idot (IV 1 (-1) 0) (IV a b c) = a - b. Proof. unfold idot, e1, e2, e3; cbn [v0 v1 v2]; ring. Qed.
Lemma idot_f9 a b c : idot (IV 1 0 (-1)) (IV a b c) = a - c. Proof. unfold idot, e1, e2, e3; cbn [v0 v1 v2]; ring. Qed.
Lemma idot_f10 a b c : idot (IV 0 1 (-1)) (IV a b c) = b - c. Proof. unfold idot, e1, e2, e3; cbn [v0 v1 v2]; ring. Qed.
Lemma idot_f11 a b c : idot (IV 1 2 0) (IV a b c) = a + 2 * b. Proof. unfold idot, e1, e2, e3; cbn [v0 v1 v2]; ring. Qed.
Lemma idot_f12 a b c : idot (IV 2 1 0) (IV a b c) = 2 * a + b. Proof. unfold idot, e1, e2, e3; cbn [v0 v1 v2]; ring. Qed.
Lemma idot_f13 a b c : idot (IV 2 0 1) (IV a b c) = 2 * a + c. Proof. unfold idot, e1, e2, e3; cbn [v0 v1 v2]; ring. Qed.
Lemma cond_f0 x y : (Z.abs x =? Z.abs y) = (x - y =? 0) || (x + y =? 0). Proof. lia. Qed.
Lemma cond_f1 x y : (x =? - y) = (x + y =? 0). Proof. lia. Qed.
Lemma cond_f2 x y : (x =? -2 * y) = (x + 2 * y =? 0). Proof. lia. Qed.
Lemma cond_f3 x y : (-2 * x =? y) = (2 * x + y =? 0). Proof. lia. Qed.
Lemma mod_f0 x : ((x + 100) mod 2 =? 0) = (x mod 2 =? 0). Proof. lia. Qed.
Lemma mod_f1 x : ((x + 100) mod 4 =? 0) = (x mod 4 =? 0). Proof. lia. Qed.
Lemma mod_f2 x : ((x + 90) mod 3 =? 0) = (x mod 3 =? 0). Proof. lia. Qed.
Lemma mod_f3 x : ((x + 120) mod 6 =? 0) = (x mod 6 =? 0). Proof. lia. Qed.
Local Hint Rewrite idot_f0 idot_f1 idot_f2 idot_f3 idot_f4 idot_f5 idot_f6 idot_f7 idot_f8 idot_f9 idot_f10 idot_f11 idot_f12 idot_f13 cond_f0 cond_f1 cond_f2 cond_f3 mod_f0 mod_f1 mod_f2 mod_f3 : masks.
Lemma eq_form0 (a b : Z) : (a =? b) = (a - b =? 0). Proof. lia. Qed.
Lemma eq_form1 (a b : Z) : (b =? a) = (a - b =? 0). Proof. lia. Qed.
Lemma Ok_inj {A} (a b : A) : Ok a = Ok b -> a = b. Proof. congruence. Qed.

Ltac atoms :=
  repeat match goal with
         | |- context [?a =? ?b] => generalize (a =? b); intro
         end.
Ltac mask_eq :=
  unfold some_holds, holds, in_flat, npmod;
  cbn [existsb forallb cf cc cm eqs FW Fh Fk Fl Fhk Fhnk Fhl Fhnl Fkl Fknl Fh2k F2hk
       L100 L010 L001 v0 v1 v2];
  autorewrite with masks;
  try match goal with
      | g0 : Z, g1 : Z, g2 : Z |- _ =>
          rewrite ?(eq_form0 g0 g1), ?(eq_form1 g0 g1), ?(Z.add_comm g1 g0)
      end;
  atoms;
  repeat match goal with b : bool |- _ => destruct b; try reflexivity end.

Ltac mask_cases :=
  repeat match goal with
       | |- context [if ?c then _ else _] =>
           match c with context [String.eqb ?a ?b] => destruct (String.eqb a b); cbn [negb orb] end
       | |- context [if Nat.eqb ?a ?b then _ else _] => destruct (Nat.eqb a b)
       | |- match ?i with _ => _ end = _ -> _ => is_var i; destruct i
       end; try discriminate.

Lemma screw_mask_clauses sgnum ax iax keep : screw_mask sgnum ax iax = Ok keep ->
  forall g, keep g = negb (some_holds (screw_clauses sgnum ax iax) g).
Proof.
  unfold screw_mask, screw_clauses.
  destruct (latticeType sgnum) as [[]|]; cbn [rbind]; [..|discriminate]; cbv zeta.
  all: mask_cases.
  all: intros K; apply Ok_inj in K; subst keep; intros g; destruct g as [g0 g1 g2]; try reflexivity; mask_eq.
Qed.

Lemma glide_mask_clauses sgnum pl ip keep : glide_mask sgnum pl ip = Ok keep ->
  forall g, keep g = negb (some_holds (glide_clauses sgnum pl ip) g).
Proof.
  unfold glide_mask, glide_clauses.
  destruct (latticeType sgnum) as [[]|]; cbn [rbind]; [..|discriminate]; cbv zeta.
  all: mask_cases.
  all: intros K; apply Ok_inj in K; subst keep; intros g; destruct g as [g0 g1 g2]; try reflexivity;
       mask_eq.
Qed.

Lemma centering_mask_clauses c keep : centering_mask c = Ok keep ->
  forall g, keep g = negb (some_holds (centering_clauses c) g).
Proof.
  intros K [g0 g1 g2]. unfold centering_mask in K.
  destruct c as [[] [] [] [] [] [] [] []]; try discriminate K; apply Ok_inj in K; subst keep;
    cbn [centering_clauses]; try reflexivity;
    unfold some_holds, holds, in_flat, npmod; cbn [existsb forallb cf cc cm eqs FW v0 v1 v2];
    autorewrite with masks; first [apply eqb_iff; lia | idtac].
Qed.

(** *** All masks of a space group *)
Fixpoint each_ok (mask : Z -> string -> nat -> result (ivec -> bool)) sgnum i ps : bool :=
  match ps with
  | [] => true
  | p :: ps => (String.eqb p "" || is_ok (mask sgnum p i)) && each_ok mask sgnum (S i) ps
  end.
Fixpoint each_clauses (cl : Z -> string -> nat -> list clause) sgnum i ps : list clause :=
  match ps with
  | [] => []
  | p :: ps => ((if String.eqb p "" then [] else cl sgnum p i) ++ each_clauses cl sgnum (S i) ps)%list
  end.

Lemma filter_filter {A} (p q : A -> bool) l : filter p (filter q l) = filter (fun x => q x && p x) l.
Proof. induction l as [|x l IH]; cbn; auto. destruct (q x); cbn; [destruct (p x)|]; now rewrite IH. Qed.

Lemma some_holds_app a b g : some_holds (a ++ b)%list g = some_holds a g || some_holds b g.
Proof. apply existsb_app. Qed.

Lemma omit_each_clauses f mask cl :
  (forall sgnum l p i, f sgnum l p i = do keep <- mask sgnum p i; Ok (filter keep l)) ->
  (forall sgnum p i keep, mask sgnum p i = Ok keep -> forall g, keep g = negb (some_holds (cl sgnum p i) g)) ->
  forall sgnum ps i l, each_ok mask sgnum i ps = true ->
  omit_each f sgnum l i ps = Ok (filter (fun g => negb (some_holds (each_clauses cl sgnum i ps) g)) l).
Proof.
  intros Hf Hm sgnum. induction ps as [|p ps IH]; intros i l H; cbn [each_ok omit_each each_clauses] in *.
  - f_equal. cbn. induction l as [|x l IHl]; cbn; now rewrite <- ?IHl.
  - apply andb_true_iff in H. destruct H as [H1 H2].
    destruct (String.eqb p "") eqn:E.
    + rewrite IH by auto. reflexivity.
    + rewrite Hf. destruct (mask sgnum p i) as [keep|] eqn:Ek; cbn [orb is_ok] in H1; [|discriminate].
      cbn [rbind]. rewrite IH by auto. f_equal. rewrite filter_filter. apply filter_ext. intros g.
      rewrite (Hm _ _ _ _ Ek), some_holds_app, negb_orb. reflexivity.
Qed.

Definition mask_clauses (sgnum : Z) : option (list clause) :=
  match (do sym <- py_index pstr_spacegroup (sgnum - 1); strip_head sym) with
  | Ok c =>
      if is_ok (centering_mask c) then
        if in_list sgnum sgnum_symmorphic then Some (centering_clauses c)
        else match zassoc sgnum SYS_AB with
             | Ok ab =>
                 if each_ok glide_mask sgnum 0 (fst ab) && each_ok screw_mask sgnum 0 (snd ab)
                 then Some (centering_clauses c ++ each_clauses glide_clauses sgnum 0 (fst ab)
                            ++ each_clauses screw_clauses sgnum 0 (snd ab))%list
                 else None
             | Err _ => None
             end
      else None
  | Err _ => None
  end.

Lemma Allowed_HKLs_clauses sgnum cs l : mask_clauses sgnum = Some cs ->
  Allowed_HKLs sgnum l = Ok (filter (fun g => negb (some_holds cs g)) l).
Proof.
  unfold mask_clauses, Allowed_HKLs.
  destruct (py_index pstr_spacegroup (sgnum - 1)) as [sym|]; cbn [rbind]; [|discriminate].
  destruct (strip_head sym) as [c|]; cbn [rbind]; [|discriminate].
  destruct (centering_mask c) as [keep|] eqn:Ek; cbn [is_ok rbind]; [|discriminate].
  pose proof (centering_mask_clauses _ _ Ek) as Hk.
  destruct (in_list sgnum sgnum_symmorphic).
  - intros [= <-]. f_equal. apply filter_ext. auto.
  - unfold NonSymmorphicAbsences. destruct (zassoc sgnum SYS_AB) as [ab|]; cbn [rbind]; [|discriminate].
    destruct (each_ok glide_mask sgnum 0 (fst ab)) eqn:E1; cbn [andb]; [|discriminate].
    destruct (each_ok screw_mask sgnum 0 (snd ab)) eqn:E2; [|discriminate].
    intros K; injection K as <-.
    rewrite (omit_each_clauses omitglideplaneabsences glide_mask glide_clauses) by
      (auto; apply glide_mask_clauses). cbn [rbind].
    rewrite (omit_each_clauses omitscrewaxisabsences screw_mask screw_clauses) by
      (auto; apply screw_mask_clauses).
    f_equal. rewrite !filter_filter. apply filter_ext. intros g.
    rewrite !some_holds_app, !negb_orb, Hk, andb_assoc. reflexivity.
Qed.

(** ** Clauses of the extinction condition *)

(** the indices fixed by each rotation part that occurs *)
Definition fixed_table : list (imat * flat) :=
  [(IM (IV (-1) 0 0) (IV (-1) 1 0) (IV 0 0 (-1)), L1n20);
   (IM (IV (-1) 0 0) (IV (-1) 1 0) (IV 0 0 1), F2hk);
   (IM (IV (-1) 0 0) (IV 0 (-1) 0) (IV 0 0 (-1)), F0);
   (IM (IV (-1) 0 0) (IV 0 (-1) 0) (IV 0 0 1), L001);
   (IM (IV (-1) 0 0) (IV 0 0 (-1)) (IV 0 (-1) 0), L01n1);
   (IM (IV (-1) 0 0) (IV 0 0 (-1)) (IV 0 1 0), F0);
   (IM (IV (-1) 0 0) (IV 0 0 1) (IV 0 (-1) 0), F0);
   (IM (IV (-1) 0 0) (IV 0 0 1) (IV 0 1 0), L011);
   (IM (IV (-1) 0 0) (IV 0 1 0) (IV 0 0 (-1)), L010);
   (IM (IV (-1) 0 0) (IV 0 1 0) (IV 0 0 1), Fh);
   (IM (IV (-1) 1 0) (IV (-1) 0 0) (IV 0 0 (-1)), F0);
   (IM (IV (-1) 1 0) (IV (-1) 0 0) (IV 0 0 1), L001);
   (IM (IV (-1) 1 0) (IV 0 1 0) (IV 0 0 (-1)), L010);
   (IM (IV (-1) 1 0) (IV 0 1 0) (IV 0 0 1), Fh);
   (IM (IV 0 (-1) 0) (IV (-1) 0 0) (IV 0 0 (-1)), L1n10);
   (IM (IV 0 (-1) 0) (IV (-1) 0 0) (IV 0 0 1), Fhnk);
   (IM (IV 0 (-1) 0) (IV 0 0 (-1)) (IV (-1) 0 0), F0);
   (IM (IV 0 (-1) 0) (IV 0 0 (-1)) (IV 1 0 0), L1n11);
   (IM (IV 0 (-1) 0) (IV 0 0 1) (IV (-1) 0 0), Ln111);
   (IM (IV 0 (-1) 0) (IV 0 0 1) (IV 1 0 0), F0);
   (IM (IV 0 (-1) 0) (IV 1 (-1) 0) (IV 0 0 (-1)), F0);
   (IM (IV 0 (-1) 0) (IV 1 (-1) 0) (IV 0 0 1), L001);
   (IM (IV 0 (-1) 0) (IV 1 0 0) (IV 0 0 (-1)), F0);
   (IM (IV 0 (-1) 0) (IV 1 0 0) (IV 0 0 1), L001);
   (IM (IV 0 0 (-1)) (IV (-1) 0 0) (IV 0 (-1) 0), F0);
   (IM (IV 0 0 (-1)) (IV (-1) 0 0) (IV 0 1 0), Ln111);
   (IM (IV 0 0 (-1)) (IV 0 (-1) 0) (IV (-1) 0 0), L10n1);
   (IM (IV 0 0 (-1)) (IV 0 (-1) 0) (IV 1 0 0), F0);
   (IM (IV 0 0 (-1)) (IV 0 1 0) (IV (-1) 0 0), Fhnl);
   (IM (IV 0 0 (-1)) (IV 0 1 0) (IV 1 0 0), L010);
   (IM (IV 0 0 (-1)) (IV 1 0 0) (IV 0 (-1) 0), L11n1);
   (IM (IV 0 0 (-1)) (IV 1 0 0) (IV 0 1 0), F0);
   (IM (IV 0 0 1) (IV (-1) 0 0) (IV 0 (-1) 0), L1n11);
   (IM (IV 0 0 1) (IV (-1) 0 0) (IV 0 1 0), F0);
   (IM (IV 0 0 1) (IV 0 (-1) 0) (IV (-1) 0 0), F0);
   (IM (IV 0 0 1) (IV 0 (-1) 0) (IV 1 0 0), L101);
   (IM (IV 0 0 1) (IV 0 1 0) (IV (-1) 0 0), L010);
   (IM (IV 0 0 1) (IV 0 1 0) (IV 1 0 0), Fhl);
   (IM (IV 0 0 1) (IV 1 0 0) (IV 0 (-1) 0), F0);
   (IM (IV 0 0 1) (IV 1 0 0) (IV 0 1 0), L111);
   (IM (IV 0 1 0) (IV (-1) 0 0) (IV 0 0 (-1)), F0);
   (IM (IV 0 1 0) (IV (-1) 0 0) (IV 0 0 1), L001);
   (IM (IV 0 1 0) (IV (-1) 1 0) (IV 0 0 (-1)), F0);
   (IM (IV 0 1 0) (IV (-1) 1 0) (IV 0 0 1), L001);
   (IM (IV 0 1 0) (IV 0 0 (-1)) (IV (-1) 0 0), L11n1);
   (IM (IV 0 1 0) (IV 0 0 (-1)) (IV 1 0 0), F0);
   (IM (IV 0 1 0) (IV 0 0 1) (IV (-1) 0 0), F0);
   (IM (IV 0 1 0) (IV 0 0 1) (IV 1 0 0), L111);
   (IM (IV 0 1 0) (IV 1 0 0) (IV 0 0 (-1)), L110);
   (IM (IV 0 1 0) (IV 1 0 0) (IV 0 0 1), Fhk);
   (IM (IV 1 (-1) 0) (IV 0 (-1) 0) (IV 0 0 (-1)), Ln210);
   (IM (IV 1 (-1) 0) (IV 0 (-1) 0) (IV 0 0 1), Fh2k);
   (IM (IV 1 (-1) 0) (IV 1 0 0) (IV 0 0 (-1)), F0);
   (IM (IV 1 (-1) 0) (IV 1 0 0) (IV 0 0 1), L001);
   (IM (IV 1 0 0) (IV 0 (-1) 0) (IV 0 0 (-1)), L100);
   (IM (IV 1 0 0) (IV 0 (-1) 0) (IV 0 0 1), Fk);
   (IM (IV 1 0 0) (IV 0 0 (-1)) (IV 0 (-1) 0), Fknl);
   (IM (IV 1 0 0) (IV 0 0 (-1)) (IV 0 1 0), L100);
   (IM (IV 1 0 0) (IV 0 0 1) (IV 0 (-1) 0), L100);
   (IM (IV 1 0 0) (IV 0 0 1) (IV 0 1 0), Fkl);
   (IM (IV 1 0 0) (IV 0 1 0) (IV 0 0 (-1)), Fl);
   (IM (IV 1 0 0) (IV 0 1 0) (IV 0 0 1), FW);
   (IM (IV 1 0 0) (IV 1 (-1) 0) (IV 0 0 (-1)), L100);
   (IM (IV 1 0 0) (IV 1 (-1) 0) (IV 0 0 1), Fk)].

Lemma fixed_table_ok R F : In (R, F) fixed_table ->
  In F flats /\ forall g, row_act g R = g <-> in_flat g F = true.
Proof.
  intros H. split.
  - cbn [fixed_table In] in H.
    repeat (destruct H as [H|H]; [injection H as <- <-; unfold flats; cbn [In]; tauto|]); contradiction.
  - intros [g0 g1 g2]. cbn [fixed_table In] in H.
    repeat (destruct H as [H|H]; [injection H as <- <-;
      unfold row_act, in_flat, idot;
      cbn [FW Fh Fk Fl Fhk Fhnk Fhl Fhnl Fkl Fknl Fh2k F2hk L100 L010 L001 L110 L1n10 L101 L10n1 L011
         L01n1 L111 L1n11 Ln111 L11n1 Ln210 L1n20 F0 eqs bas forallb e1 e2 e3 v0 v1 v2 r0 r1 r2];
      (split; [intros K; injection K as K0 K1 K2; lia|intros K; f_equal; lia])|]); contradiction.
Qed.

Fixpoint flat_of (R : imat) (t : list (imat * flat)) : option flat :=
  match t with
  | [] => None
  | (R', F) :: t => if im_eqb R R' then Some F else flat_of R t
  end.
Lemma flat_of_in R t F : flat_of R t = Some F -> In (R, F) t.
Proof.
  induction t as [|[R' F'] t IH]; cbn [flat_of]; [discriminate|].
  destruct (im_eqb R R') eqn:E; [|right; auto].
  apply im_eqb_eq in E. intros [= <-]. left. now subst.
Qed.

Definition half (t : ivec) : ivec := IV (v0 t / 2) (v1 t / 2) (v2 t / 2).
Definition evenv (t : ivec) : bool := (v0 t mod 2 =? 0) && (v1 t mod 2 =? 0) && (v2 t mod 2 =? 0).

(** never satisfied *)
Definition trivial (c : clause) : bool := forallb (fun b => idot (cc c) b mod 12 =? 0) (bas (cf c)).

Fixpoint op_clauses (ops : list symop) : option (list clause) :=
  match ops with
  | [] => Some []
  | op :: ops =>
      match flat_of (op_r op) fixed_table, op_clauses ops with
      | Some F, Some cs =>
          let c := CL F (half (op_t op)) 12 in
          if evenv (op_t op) then Some (if trivial c then cs else c :: cs) else None
      | _, _ => None
      end
  end.

Lemma trivial_ok c n : trivial c = true -> idot (cc c) (comb n (bas (cf c))) mod 12 = 0.
Proof.
  unfold trivial. generalize (bas (cf c)) as B. revert n. intros n B; revert n.
  induction B as [|b B IH]; intros [|x n] H; cbn [comb forallb] in *;
    try (unfold idot; cbn [v0 v1 v2]; rewrite !Z.mul_0_r; reflexivity).
  apply andb_true_iff in H. destruct H as [H1 H2]. specialize (IH n H2). apply Z.eqb_eq in H1.
  revert IH. generalize (comb n B) as r. intros [p q s] IH.
  replace (idot (cc c) _) with (x * idot (cc c) b + idot (cc c) (IV p q s))
    by (unfold idot; cbn [v0 v1 v2]; ring).
  rewrite Z.add_mod, Z.mul_mod, H1, IH, Z.mul_0_r by lia. reflexivity.
Qed.

Lemma half_idot g t : evenv t = true -> idot g t = 2 * idot (half t) g.
Proof.
  unfold evenv. rewrite !andb_true_iff, !Z.eqb_eq. intros [[H0 H1] H2].
  destruct t as [t0 t1 t2]. unfold idot, half. cbn [v0 v1 v2] in *.
  replace t0 with (2 * (t0 / 2)) at 1 by lia. replace t1 with (2 * (t1 / 2)) at 1 by lia.
  replace t2 with (2 * (t2 / 2)) at 1 by lia. ring.
Qed.

Lemma half_div x : ~ (24 | 2 * x) <-> negb (x mod 12 =? 0) = true.
Proof.
  rewrite negb_true_iff, Z.eqb_neq, <- (Z.mod_divide (2 * x) 24) by lia. lia.
Qed.

Lemma op_clauses_ok ops : forall cs, op_clauses ops = Some cs ->
  Forall (fun c => In (cf c) flats) cs /\
  forall g, some_holds cs g = true <-> absent ops g.
Proof.
  induction ops as [|op ops IH]; intros cs; cbn [op_clauses].
  - intros [= <-]. split; [constructor|]. intros g. cbn. split; [discriminate|intros (? & [] & _)].
  - destruct (flat_of (op_r op) fixed_table) as [F|] eqn:EF; [|discriminate].
    destruct (op_clauses ops) as [cs'|]; [|discriminate].
    destruct (evenv (op_t op)) eqn:Ev; [|discriminate].
    specialize (IH _ eq_refl). destruct IH as [IH1 IH2].
    destruct (fixed_table_ok _ _ (flat_of_in _ _ _ EF)) as [HF Hfix].
    set (c := CL F (half (op_t op)) 12).
    assert (Hc : forall g, holds g c = true <-> row_act g (op_r op) = g /\ ~ (24 | idot g (op_t op))).
    { intros g. unfold holds, c. cbn [cf cc cm]. rewrite andb_true_iff, <- Hfix.
      rewrite (half_idot g _ Ev), half_div. reflexivity. }
    assert (Habs : forall g, absent (op :: ops) g <-> holds g c = true \/ absent ops g).
    { intros g. rewrite Hc. unfold absent. split.
      - intros (o & [<-|Ho] & H); [left; exact H|right; exists o; auto].
      - intros [H|(o & Ho & H)]; [exists op|exists o]; cbn [In]; auto. }
    intros K. destruct (trivial c) eqn:Et.
    + injection K as <-. split; auto. intros g. rewrite Habs, <- IH2.
      assert (N : holds g c = false).
      { unfold holds. destruct (in_flat g (cf c)) eqn:Ei; auto. cbn [andb].
        destruct (proj2 (good_flats F HF) g Ei) as (n & _ & E).
        cbn [cm]. change F with (cf c) in E. rewrite E.
        change (cm c) with 12. rewrite trivial_ok by auto. reflexivity. }
      rewrite N. intuition discriminate.
    + injection K as <-. split; [constructor; auto|]. intros g.
      unfold some_holds. cbn [existsb]. rewrite orb_true_iff, Habs. fold (some_holds cs' g). now rewrite IH2.
Qed.

Lemma all_covered cs ds : Forall (fun c => In (cf c) flats) cs ->
  forallb (covered ds) cs = true -> forall g, some_holds cs g = true -> some_holds ds g = true.
Proof.
  intros Hg Hc g H. apply existsb_exists in H. destruct H as (c & Hin & Hh).
  rewrite Forall_forall in Hg. rewrite forallb_forall in Hc.
  eapply covered_ok; eauto. apply good_flats; auto.
Qed.

Definition flat_eqb (F G : flat) : bool :=
  match list_eq_dec (fun a b => match bool_dec (iv_eqb a b) true with
                                | left e => left (proj1 (iv_eqb_eq a b) e)
                                | right n => right (fun e => n (proj2 (iv_eqb_eq a b) e))
                                end) (eqs F) (eqs G),
        list_eq_dec (fun a b => match bool_dec (iv_eqb a b) true with
                                | left e => left (proj1 (iv_eqb_eq a b) e)
                                | right n => right (fun e => n (proj2 (iv_eqb_eq a b) e))
                                end) (bas F) (bas G)
  with left _, left _ => true | _, _ => false end.
Lemma flat_eqb_eq F G : flat_eqb F G = true -> F = G.
Proof.
  unfold flat_eqb. destruct F as [a b], G as [c d]; cbn [eqs bas].
  destruct (list_eq_dec _ a c) as [->|]; [|discriminate].
  destruct (list_eq_dec _ b d) as [->|]; [reflexivity|discriminate].
Qed.
Definition known (c : clause) : bool := existsb (flat_eqb (cf c)) flats.
Lemma known_ok cs : forallb known cs = true -> Forall (fun c => In (cf c) flats) cs.
Proof.
  rewrite forallb_forall, Forall_forall. intros H c Hc. specialize (H c Hc).
  apply existsb_exists in H. destruct H as (F & HF & E). apply flat_eqb_eq in E. now rewrite E.
Qed.

(** [both = false] for the one space group where the code drops too much *)
Definition check_abs (both : bool) (sgnum : Z) : bool :=
  match mask_clauses sgnum, GenerateSGSym sgnum 0 with
  | Some ms, Ok (sg, _, _, _, _) =>
      match op_clauses sg with
      | Some cs => forallb known ms && forallb (covered ms) cs && (negb both || forallb (covered cs) ms)
      | None => false
      end
  | _, _ => false
  end.

Lemma check_abs_ok both sgnum : check_abs both sgnum = true -> exists ms,
  (forall l, Allowed_HKLs sgnum l = Ok (filter (fun g => negb (some_holds ms g)) l)) /\
  forall ops pg laue c s, GenerateSGSym sgnum 0 = Ok (ops, pg, laue, c, s) ->
    forall g, (absent ops g -> some_holds ms g = true) /\
              (both = true -> some_holds ms g = true -> absent ops g).
Proof.
  unfold check_abs. destruct (mask_clauses sgnum) as [ms|] eqn:Em; [|discriminate].
  destruct (GenerateSGSym sgnum 0) as [[[[[sg pg] laue] c] s]|] eqn:Eg; [|discriminate].
  destruct (op_clauses sg) as [cs|] eqn:Ec; [|discriminate].
  rewrite !andb_true_iff. intros [[Hk H1] H2].
  destruct (op_clauses_ok _ _ Ec) as [Hcs Habs].
  exists ms. split; [intros; now apply Allowed_HKLs_clauses|].
  intros ops pg' laue' c' s' E g. injection E as <- _ _ _ _.
  split.
  - intros H. apply Habs in H. eapply all_covered; eauto.
  - intros -> H. apply Habs. eapply all_covered; [apply known_ok; exact Hk|exact H2|exact H].
Qed.

Lemma check_abs_all : forallb (fun n => check_abs (negb (n =? 205)) n) (zrange 1 231) = true.
Proof. vm_compute. reflexivity. Qed.
