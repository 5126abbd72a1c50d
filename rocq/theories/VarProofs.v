From Coq Require Import Reals List Lra Lia Permutation Bool.
From Verif Require Import Prelude Lin VarModel VarSpec.
Import ListNotations.
Local Open Scope R_scope.
Local Notation length := List.length.

(** ** counting *)
Section Count.
Local Open Scope nat_scope.
Fixpoint lsum (l : list nat) : nat := match l with [] => 0 | x :: t => x + lsum t end.
Definition b2n (b : bool) : nat := if b then 1 else 0.
Lemma lsum_app l m : lsum (l ++ m) = lsum l + lsum m.
Proof. induction l; cbn; lia. Qed.
Lemma lsum_perm l m : Permutation l m -> lsum l = lsum m.
Proof. induction 1; cbn; lia. Qed.
Lemma count_filter {A} (f : A -> bool) l : length (filter f l) = lsum (map (fun x => b2n (f x)) l).
Proof. induction l as [|x t IH]; [reflexivity|]. cbn [filter map lsum]. destruct (f x); cbn [length b2n]; rewrite IH; reflexivity. Qed.
Lemma lsum_add {A} (f g : A -> nat) l : lsum (map (fun x => f x + g x) l) = lsum (map f l) + lsum (map g l).
Proof. induction l as [|x t IH]; cbn; lia. Qed.
Lemma lsum_zero {A} (l : list A) : lsum (map (fun _ => 0) l) = 0.
Proof. induction l; cbn; auto. Qed.
Lemma lsum_ext {A} (f g : A -> nat) l : (forall x, In x l -> f x = g x) -> lsum (map f l) = lsum (map g l).
Proof. intros H. f_equal. apply map_ext_in. exact H. Qed.
Lemma double {A B} (f : A -> B -> nat) l m : lsum (map (fun x => lsum (map (f x) m)) l) = lsum (map (fun y => lsum (map (fun x => f x y) l)) m).
Proof.
  induction l as [|x t IH]; cbn [map lsum].
  - symmetry. apply lsum_zero.
  - rewrite IH. rewrite <- lsum_add. reflexivity.
Qed.
Lemma lsum_const {A} (f : A -> nat) l k : (forall x, In x l -> f x = k) -> lsum (map f l) = length l * k.
Proof. induction l as [|x t IH]; intros H; [reflexivity|]. cbn [map lsum length]. rewrite (H x (or_introl eq_refl)). rewrite IH; [lia|]. intros; apply H; right; auto. Qed.
Lemma count_one {A} (f : A -> bool) l : (exists x, In x l /\ f x = true) -> (forall x y, In x l -> In y l -> f x = true -> f y = true -> x = y) -> NoDup l -> length (filter f l) = 1.
Proof.
  intros (x & Hx & Fx) U N. assert (I : In x (filter f l)) by (apply filter_In; auto).
  pose proof (NoDup_filter f N) as NF.
  destruct (filter f l) as [|a [|b t]] eqn:E; [contradiction|reflexivity|exfalso].
  assert (In a (filter f l)) by (rewrite E; left; auto). assert (In b (filter f l)) by (rewrite E; right; left; auto).
  apply filter_In in H. apply filter_In in H0. inversion NF; subst. apply H3. left. apply U; tauto.
Qed.
Lemma count_none {A} (f : A -> bool) l : (forall x, In x l -> f x = false) -> length (filter f l) = 0.
Proof. induction l as [|x t IH]; intros H; [reflexivity|]. cbn [filter]. rewrite (H x (or_introl eq_refl)). apply IH. intros; apply H; right; auto. Qed.

(** ** picking representatives greedily *)
Variable A : Type.
Variable e : A -> A -> bool.
Definition greedy (l acc : list A) : list A := fold_left (fun acc x => if existsb (fun r => e x r) acc then acc else acc ++ [x]) l acc.
Variable G : list A.
Hypothesis e_refl : forall x, In x G -> e x x = true.
Hypothesis e_sym : forall x y, In x G -> In y G -> e x y = true -> e y x = true.
Hypothesis e_trans : forall x y z, In x G -> In y G -> In z G -> e x y = true -> e y z = true -> e x z = true.
Definition apart_list (acc : list A) : Prop := ForallOrdPairs (fun x y => e y x = false) acc.
Lemma apart_app acc x : apart_list acc -> existsb (fun r => e x r) acc = false -> apart_list (acc ++ [x]).
Proof.
  intros H. induction H as [|a l HF HL IH]; intros E; cbn [app].
  - constructor; [constructor|constructor].
  - cbn [existsb] in E. apply orb_false_iff in E. destruct E as [E1 E2]. constructor; [|apply IH; auto].
    apply Forall_app. split; auto.
Qed.
Lemma greedy_inv : forall l acc, incl l G -> incl acc G -> apart_list acc ->
  incl acc (greedy l acc) /\ incl (greedy l acc) G /\ apart_list (greedy l acc) /\ (forall x, In x l -> exists r, In r (greedy l acc) /\ e x r = true).
Proof.
  induction l as [|x t IH]; intros acc Hl Ha HA; cbn [greedy fold_left].
  - split; [apply incl_refl|]. split; auto. split; auto. intros x [].
  - change (fold_left _ t ?a) with (greedy t a). destruct (existsb (fun r => e x r) acc) eqn:E.
    + destruct (IH acc) as (I1 & I2 & I3 & I4); auto; [intros y Hy; apply Hl; right; auto|].
      split; auto. split; auto. split; auto. intros y [<-|Hy]; [|auto]. apply existsb_exists in E. destruct E as (r & Hr & Er). exists r. split; auto.
    + destruct (IH (acc ++ [x])) as (I1 & I2 & I3 & I4); auto.
      * intros y Hy; apply Hl; right; auto.
      * intros y Hy. apply in_app_or in Hy. destruct Hy as [Hy|[<-|[]]]; [auto|apply Hl; left; auto].
      * apply apart_app; auto.
      * split; [intros y Hy; apply I1, in_or_app; auto|]. split; auto. split; auto. intros y [<-|Hy]; [|auto].
        exists x. split; [apply I1, in_or_app; right; left; auto|apply e_refl, Hl; left; auto].
Qed.
Lemma apart_pair acc x y : apart_list acc -> incl acc G -> In x acc -> In y acc -> e x y = true -> x = y.
Proof.
  intros H. induction H as [|a l HF HL IH]; intros I Hx Hy Ee; [contradiction|]. rewrite Forall_forall in HF.
  destruct Hx as [<-|Hx], Hy as [<-|Hy]; auto.
  - specialize (HF _ Hy). apply e_sym in Ee; [congruence| |]; apply I; [left|right]; auto.
  - specialize (HF _ Hx). congruence.
  - apply IH; auto. intros z Hz. apply I. right; auto.
Qed.
Lemma apart_nodup acc : apart_list acc -> incl acc G -> NoDup acc.
Proof.
  intros H. induction H as [|a l HF HL IH]; intros I; constructor; [|apply IH; intros z Hz; apply I; right; auto].
  intros C. rewrite Forall_forall in HF. specialize (HF _ C). rewrite e_refl in HF; [discriminate|apply I; left; auto].
Qed.
Lemma greedy_one x : In x G -> length (filter (fun r => e x r) (greedy G [])) = 1.
Proof.
  intros Hx. destruct (greedy_inv G []) as (_ & I2 & I3 & I4); [apply incl_refl|intros y []|constructor|].
  apply count_one; [apply I4; auto| |apply apart_nodup; auto].
  intros r r' Hr Hr' Er Er'. apply (apart_pair _ _ _ I3 I2 Hr Hr'). apply (e_trans r x r'); auto.
Qed.
Lemma greedy_count k : (forall r, In r G -> length (filter (fun x => e x r) G) = k) -> length (greedy G []) * k = length G.
Proof.
  intros H. destruct (greedy_inv G []) as (_ & I2 & I3 & I4); [apply incl_refl|intros y []|constructor|].
  rewrite <- (lsum_const (fun r => length (filter (fun x => e x r) G)) (greedy G []) k) by (intros; apply H, I2; auto).
  rewrite (lsum_ext _ (fun r => lsum (map (fun x => b2n (e x r)) G))) by (intros; apply count_filter).
  rewrite double. rewrite (lsum_const _ G 1); [lia|]. intros x Hx. rewrite <- count_filter. apply greedy_one; auto.
Qed.
End Count.

(** ** matrices *)
Lemma absdiff_dist a b : dist2 a b <= absdiff a b * absdiff a b.
Proof.
  unfold absdiff, dist2. set (d := msub a b). destruct d as [a1 a2 a3 a4 a5 a6 a7 a8 a9]. lin_unfold. cbn [m00 m01 m02 m10 m11 m12 m20 m21 m22].
  rewrite <- (Rabs_pos_eq (a1 * a1)), <- (Rabs_pos_eq (a2 * a2)), <- (Rabs_pos_eq (a3 * a3)), <- (Rabs_pos_eq (a4 * a4)), <- (Rabs_pos_eq (a5 * a5)), <- (Rabs_pos_eq (a6 * a6)), <- (Rabs_pos_eq (a7 * a7)), <- (Rabs_pos_eq (a8 * a8)), <- (Rabs_pos_eq (a9 * a9)) by nra.
  rewrite !Rabs_mult.
  pose proof (Rabs_pos a1). pose proof (Rabs_pos a2). pose proof (Rabs_pos a3). pose proof (Rabs_pos a4). pose proof (Rabs_pos a5). pose proof (Rabs_pos a6). pose proof (Rabs_pos a7). pose proof (Rabs_pos a8). pose proof (Rabs_pos a9).
  generalize dependent (Rabs a1). generalize dependent (Rabs a2). generalize dependent (Rabs a3). generalize dependent (Rabs a4). generalize dependent (Rabs a5). generalize dependent (Rabs a6). generalize dependent (Rabs a7). generalize dependent (Rabs a8). generalize dependent (Rabs a9).
  clear. intros x9 H9 x8 H8 x7 H7 x6 H6 x5 H5 x4 H4 x3 H3 x2 H2 x1 H1.
  assert (K : forall s q x, 0 <= s -> 0 <= x -> q <= s * s -> q + x * x <= (s + x) * (s + x)) by (intros; nra).
  cut (x1 * x1 + x2 * x2 + x3 * x3 + x4 * x4 + x5 * x5 + x6 * x6 + x7 * x7 + x8 * x8 + x9 * x9 <= (x1 + x2 + x3 + x4 + x5 + x6 + x7 + x8 + x9) * (x1 + x2 + x3 + x4 + x5 + x6 + x7 + x8 + x9)); [lra|].
  do 8 (apply K; [lra|lra|]). lra.
Qed.
Lemma absdiff_refl a : absdiff a a = 0.
Proof. unfold absdiff. assert (E : msub a a = mzero) by lin. rewrite E. cbn. rewrite Rabs_R0. lra. Qed.
Lemma absdiff_pos a b : 0 <= absdiff a b.
Proof. unfold absdiff. repeat match goal with |- context [Rabs ?x] => pose proof (Rabs_pos x); generalize dependent (Rabs x); intros end. lra. Qed.
Lemma close_eq a b : a = b \/ (1 / 1000000) * (1 / 1000000) <= dist2 a b -> (close a b = true <-> a = b).
Proof.
  intros H. unfold close. destruct (Rlt_dec (absdiff a b) (1 / 1000000)) as [L|L]; split; intros E; try discriminate; auto.
  - destruct H as [H|H]; auto. exfalso. pose proof (absdiff_dist a b). pose proof (absdiff_pos a b).
    assert (absdiff a b * absdiff a b < 1 / 1000000 * (1 / 1000000)) by (apply Rmult_le_0_lt_compat; lra). lra.
  - subst. rewrite absdiff_refl in L. lra.
Qed.
Lemma tr_comm a b : tr (mm a b) = tr (mm b a). Proof. lin. Qed.
Lemma mm_sub_l u a b : msub (mm u a) (mm u b) = mm u (msub a b). Proof. lin. Qed.
Lemma mm_sub_r u a b : msub (mm a u) (mm b u) = mm (msub a b) u. Proof. lin. Qed.
Lemma dist_l u a b : orthogonal u -> dist2 (mm u a) (mm u b) = dist2 a b.
Proof. intros O. unfold dist2. rewrite mm_sub_l. set (d := msub a b). rewrite mt_mm, <- mm_assoc, (mm_assoc (mt u)), O, mm_I_l. reflexivity. Qed.
Lemma dist_r u a b : orthogonal u -> dist2 (mm a u) (mm b u) = dist2 a b.
Proof.
  intros O. unfold dist2. rewrite mm_sub_r. set (d := msub a b). rewrite mt_mm, tr_comm, <- mm_assoc, (mm_assoc u), (orth_both u O), mm_I_l, tr_comm. reflexivity.
Qed.
Lemma rot_cross t a b : rotation t -> mv t (cross a b) = cross (mv t a) (mv t b).
Proof.
  intros [O D]. apply (orth_inj (mt t)); [apply orth_mt; auto|]. rewrite <- mv_mm, O, mv_I.
  assert (C : mv (mt t) (cross (mv t a) (mv t b)) = vscale (det t) (cross a b)) by lin. rewrite C, D. lin.
Qed.
Lemma get_rmats_orth p d : norm2 p = 1 -> norm2 d = 1 -> dot p d = 0 -> rotation (get_rmats p d).
Proof.
  intros Hp Hd H.
  assert (Hc : norm2 (cross p d) = 1).
  { assert (L : norm2 (cross p d) = norm2 p * norm2 d - dot p d * dot p d) by lin. rewrite L, Hp, Hd, H. ring. }
  split.
  - apply orth_of_eqs; unfold get_rmats; [replace (Lin.col0 _) with d by lin|replace (Lin.col1 _) with (cross p d) by lin|replace (Lin.col2 _) with p by lin
    |replace (Lin.col0 _) with d by lin; replace (Lin.col1 _) with (cross p d) by lin
    |replace (Lin.col0 _) with d by lin; replace (Lin.col2 _) with p by lin
    |replace (Lin.col1 _) with (cross p d) by lin; replace (Lin.col2 _) with p by lin]; auto.
    + lin. 
    + rewrite dot_comm; auto.
    + lin.
  - assert (L : det (get_rmats p d) = norm2 (cross p d)) by (unfold get_rmats; lin). rewrite L; auto.
Qed.
Lemma align_rmats t p1 p2 d1 d2 : rotation t -> mv t p2 = p1 -> mv t d2 = d1 -> mm t (get_rmats p2 d2) = get_rmats p1 d1.
Proof.
  intros R <- <-. unfold get_rmats. rewrite <- (rot_cross t p2 d2 R). generalize (cross p2 d2) as c. clear. lin.
Qed.
