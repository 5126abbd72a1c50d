(** Proofs about tomography and rings *)
From Coq Require Import String Ascii DecimalString DecimalNat Reals QArith Qabs Qround List Bool ZArith Lia Lra.
From Verif Require Import Prelude NamesModel NamesProofs HcProofs DetModel DetProofs ChkProofs TmModel TmSpec.
Import ListNotations.
Local Open Scope string_scope.
Local Open Scope list_scope.
Local Notation length := List.length.

(** names *)
Definition val (s : string) : option nat := option_map Nat.of_uint (NilEmpty.uint_of_string s).
Lemma val_zero s : val (String "0"%char s) = val s.
Proof. unfold val. cbn [NilEmpty.uint_of_string]. destruct (NilEmpty.uint_of_string s); reflexivity. Qed.
Lemma val_zeros n s : val (zeros n +++ s) = val s.
Proof. induction n as [|n IH]; [reflexivity|]. cbn [zeros]. change (String "0"%char (zeros n) +++ s) with (String "0"%char (zeros n +++ s)). now rewrite val_zero. Qed.
Lemma val_dec n : val (dec n) = Some n.
Proof.
  unfold val, dec. assert (E : NilZero.string_of_uint (Nat.to_uint n) = NilEmpty.string_of_uint (Nat.to_uint n) \/ Nat.to_uint n = Decimal.Nil) by (destruct (Nat.to_uint n); auto).
  destruct E as [E|E].
  - rewrite E, NilEmpty.usu. cbn. f_equal. apply Unsigned.of_to.
  - pose proof (Unsigned.of_to n) as X. rewrite E in X. cbn in X. subst n. reflexivity.
Qed.
Lemma zfill_inj w i j : zfill w (dec i) = zfill w (dec j) -> i = j.
Proof. intros H. apply (f_equal val) in H. unfold zfill in H. rewrite !val_zeros, !val_dec in H. congruence. Qed.
Lemma image_name_inj folder stem nd ext i j : image_name folder stem nd ext i = image_name folder stem nd ext j -> i = j.
Proof. unfold image_name. intros H. apply app_cancel_l in H. apply app_cancel_l in H. apply app_cancel_r in H. now apply zfill_inj in H. Qed.

Lemma nth_combine {A B} (l : list A) (m : list B) k : nth_error (combine l m) k = match nth_error l k, nth_error m k with Some a, Some b => Some (a, b) | _, _ => None end.
Proof. revert m k. induction l as [|a l IH]; intros [|b m] [|k]; cbn; try reflexivity. - now destruct (nth_error l k). - apply IH. Qed.
Lemma nth_map' {A B} (f : A -> B) l k : nth_error (map f l) k = option_map f (nth_error l k).
Proof. revert k. induction l as [|a l IH]; intros [|k]; cbn; auto. Qed.
Lemma attenuate_at tbf tdf im r c : at_ (attenuate tbf tdf im) r c =
  match at_ im r c, at_ tbf r c, at_ tdf r c with Some i, Some b, Some d => Some (attenuation i b d) | _, _, _ => None end.
Proof.
  unfold at_, attenuate. rewrite nth_map', !nth_combine. destruct (nth_error im r) as [ri|]; [|reflexivity].
  destruct (nth_error tbf r) as [rb|]; [|cbn; now destruct (nth_error ri c)]. destruct (nth_error tdf r) as [rd|]; cbn [option_map fst snd].
  - rewrite nth_map', !nth_combine. destruct (nth_error ri c), (nth_error rb c), (nth_error rd c); reflexivity.
  - destruct (nth_error ri c), (nth_error rb c); reflexivity.
Qed.

(** pieces *)
Local Open Scope Z_scope.
Lemma nth_skipn' {A} (l : list A) n k : nth_error (skipn n l) k = nth_error l (n + k)%nat.
Proof. revert l. induction n as [|n IH]; intros l; [reflexivity|]. destruct l as [|a l]; [now destruct k|]. apply IH. Qed.
Lemma firstn_skipn_piece {A} (l : list A) o w : 0 <= o -> 0 <= w -> o + w <= Z.of_nat (length l) -> piece l (firstn (Z.to_nat w) (skipn (Z.to_nat o) l)) o w.
Proof.
  intros O W L. split; [auto|]. split. { rewrite firstn_length, skipn_length. lia. }
  intros k K. rewrite nth_firstn. destruct (Nat.ltb_spec k (Z.to_nat w)); [|lia]. apply nth_skipn'.
Qed.
Lemma trim_piece {A} d (l : list A) : 0 < d -> 2 * d <= Z.of_nat (length l) -> piece l (trim d l) d (Z.of_nat (length l) - 2 * d).
Proof.
  intros D L. unfold trim, slice_at. destruct (Z.ltb_spec d 0); [lia|]. destruct (Z.ltb_spec (- d) 0); [|lia].
  rewrite Z.min_l, Z.max_r by lia. replace (- d + Z.of_nat (length l) - d) with (Z.of_nat (length l) - 2 * d) by lia. apply firstn_skipn_piece; lia.
Qed.
Lemma trim_zero {A} (l : list A) : trim 0 l = [].
Proof. unfold trim, slice_at. cbn. now rewrite Z.sub_diag. Qed.
Lemma cut_axis_piece {A} r (l : list A) : 2 * Z.abs r <= Z.of_nat (length l) -> piece l (cut_axis r l) (if 0 <=? r then 2 * r else 0) (Z.of_nat (length l) - 2 * Z.abs r).
Proof.
  intros L. unfold cut_axis. destruct (Z.leb_spec 0 r) as [R0|R0].
  - rewrite <- (firstn_all (skipn (Z.to_nat (2 * r)) l)). rewrite skipn_length. replace (length l - Z.to_nat (2 * r))%nat with (Z.to_nat (Z.of_nat (length l) - 2 * Z.abs r)) by lia. apply firstn_skipn_piece; lia.
  - replace (Z.max 0 (Z.of_nat (length l) + 2 * r)) with (Z.of_nat (length l) - 2 * Z.abs r) by lia. apply (firstn_skipn_piece l 0); lia.
Qed.
Lemma piece_trans {A} (l m k : list A) o w o2 w2 : piece l m o w -> piece m k o2 w2 -> piece l k (o + o2) w2.
Proof.
  intros ((O & W & L) & M & H) ((O2 & W2 & L2) & M2 & H2). rewrite M in L2. split; [lia|]. split; [exact M2|]. intros j J. rewrite H2 by exact J.
  replace (Z.to_nat (o + o2) + j)%nat with (Z.to_nat o + (Z.to_nat o2 + j))%nat by lia. apply H. lia.
Qed.
Lemma half_round n : -1 <= n - 2 * qround (qz n / 2) <= 1.
Proof.
  pose proof (qround_near (qz n / 2)) as H. set (q := qround (qz n / 2)) in *. clearbody q. apply Qabs_Qle_condition in H. destruct H as [H1 H2]. unfold qz, Qle, Qdiv, Qminus, Qplus, Qmult, Qinv, Qopp, inject_Z in H1, H2. cbn in H1, H2. lia.
Qed.

(** labels *)
Lemma size_pixels labels k : size_of labels k = pixels labels k.
Proof.
  unfold size_of, pixels. induction labels as [|a l IH]; [reflexivity|]. cbn [filter count_occ]. destruct (Nat.eqb_spec k a) as [->|N].
  - destruct (Nat.eq_dec a a); [cbn; now rewrite IH|congruence].
  - destruct (Nat.eq_dec a k); [congruence|exact IH].
Qed.
Lemma paint_nth labels k v b i l p : nth_error labels i = Some l -> nth_error b i = Some p -> nth_error (paint labels k v b) i = Some (if Nat.eqb l k then v else p).
Proof. intros L B. unfold paint. rewrite nth_map', nth_combine, B, L. reflexivity. Qed.
Lemma paint_length labels k v b : length labels = length b -> length (paint labels k v b) = length b.
Proof. intros L. unfold paint. rewrite map_length, combine_length. lia. Qed.
Lemma paint_all labels v (cond : nat -> bool) : forall ks b, length labels = length b ->
  length (fold_left (fun b ii => if cond ii then paint labels ii v b else b) ks b) = length b /\
  forall i l p, nth_error labels i = Some l -> nth_error b i = Some p ->
    nth_error (fold_left (fun b ii => if cond ii then paint labels ii v b else b) ks b) i = Some (if existsb (fun k => Nat.eqb l k && cond k) ks then v else p).
Proof.
  induction ks as [|k ks IH]; intros b L; cbn [fold_left existsb]; [auto|]. destruct (cond k) eqn:C.
  - destruct (IH (paint labels k v b)) as [A B]; [now rewrite paint_length|]. split; [rewrite A; now apply paint_length|]. intros i l p Hl Hp.
    rewrite (B i l (if Nat.eqb l k then v else p) Hl) by (now apply paint_nth). rewrite andb_true_r. destruct (Nat.eqb l k), (existsb _ ks); reflexivity.
  - destruct (IH b L) as [A B]. split; [exact A|]. intros i l p Hl Hp. rewrite (B i l p Hl Hp). now rewrite andb_false_r.
Qed.
Lemma existsb_range l n (cond : nat -> bool) : existsb (fun k => Nat.eqb l k && cond k) (seq 1 (n - 1)) = true <-> (1 <= l < n)%nat /\ cond l = true.
Proof.
  rewrite existsb_exists. split.
  - intros (x & X & E). apply andb_true_iff in E. destruct E as [E C]. apply Nat.eqb_eq in E. subst x. apply in_seq in X. split; [lia|exact C].
  - intros [R C]. exists l. split; [apply in_seq; lia|]. now rewrite Nat.eqb_refl, C.
Qed.
Lemma changed labels n v (cond : nat -> bool) (small : nat -> Prop) b : length labels = length b -> (forall k i, nth_error labels i = Some k -> cond k = true <-> small (pixels labels k)) ->
  small_changed labels n small v b (fold_left (fun b ii => if cond ii then paint labels ii v b else b) (seq 1 (n - 1)) b).
Proof.
  intros L C. destruct (paint_all labels v cond (seq 1 (n - 1)) b L) as [A B]. split; [exact A|]. intros i k p Hk Hp. rewrite (B i k p Hk Hp). specialize (C k i Hk). split.
  - intros R0 S0. rewrite (proj2 (existsb_range k n cond)); [reflexivity|]. tauto.
  - intros N. destruct (existsb (fun k0 => Nat.eqb k k0 && cond k0) (seq 1 (n - 1))) eqn:E; [|reflexivity]. apply existsb_range in E. tauto.
Qed.

(** indices *)
Lemma mapi_nth {A B} (f : nat -> A -> B) l i : nth_error (mapi f l) i = option_map (f i) (nth_error l i).
Proof.
  unfold mapi. rewrite nth_map', nth_combine, nth_seq. destruct (Nat.ltb_spec i (length l)) as [L|L].
  - now destruct (nth_error l i).
  - apply nth_error_None in L. now rewrite L.
Qed.
