(** C127: phase transformation variants. *)
From Coq Require Import Reals List Lra Lia Permutation Bool.
From Verif Require Import Prelude Lin VarModel VarSpec VarProofs.
Import ListNotations.
Local Open Scope R_scope.
Local Notation length := List.length.

Section Main.
Variables (t r1 r2 : m3) (G1 G2 : list m3).
Hypothesis P1 : point_group G1.
Hypothesis P2 : point_group G2.
Hypothesis Ht : orthogonal t.
Hypothesis Hr : mm r1 (mt r2) = t.
Hypothesis HD : distinct_ops t G1 G2.

(** the operation g of the parent is one of the child *)
Definition hit (g : m3) : bool := existsb (fun s => close (seen t s) g) G2.
Lemma hit_iff g : In g G1 -> (hit g = true <-> exists s, In s G2 /\ seen t s = g).
Proof.
  intros Hg. unfold hit. rewrite existsb_exists. split; intros (s & Hs & E); exists s; (split; [auto|]); apply close_eq; auto.
Qed.
Lemma G1_closed : forall a b, In a G1 -> In b G1 -> In (mm (mt a) b) G1.
Proof. destruct P1 as (_ & _ & C & T & _). intros. apply C; auto. Qed.
Lemma seen_mm a b : seen t (mm a b) = mm (seen t a) (seen t b).
Proof. unfold seen. rewrite <- !mm_assoc. do 2 f_equal. rewrite (mm_assoc (mt t) t), Ht, mm_I_l. reflexivity. Qed.
Lemma seen_mt a : seen t (mt a) = mt (seen t a).
Proof. unfold seen. rewrite !mt_mm, mt_mt, mm_assoc. reflexivity. Qed.
Lemma seen_inj a b : seen t a = seen t b -> a = b.
Proof.
  intros E. apply (f_equal (fun x => mm (mt t) (mm x t))) in E. unfold seen in E. rewrite <- !mm_assoc in E. rewrite !Ht, !mm_I_r in E.
  rewrite !(mm_assoc (mt t) t), !Ht, !mm_I_l in E. exact E.
Qed.
Definition e (a b : m3) : bool := hit (mm (mt a) b).
Lemma orth1 a : In a G1 -> orthogonal a. Proof. destruct P1 as (_ & _ & _ & _ & O). auto. Qed.
Lemma e_iff a b : In a G1 -> In b G1 -> (e a b = true <-> exists s, In s G2 /\ seen t s = mm (mt a) b).
Proof. intros Ha Hb. apply hit_iff, G1_closed; auto. Qed.
Lemma e_iff' a b : In a G1 -> In b G1 -> (e a b = true <-> same_variant G2 (mm a t) (mm b t)).
Proof.
  intros Ha Hb. rewrite (e_iff a b Ha Hb). unfold same_variant. split; intros (s & Hs & E); exists s; (split; [auto|]).
  - unfold seen in E. assert (E' : mm a (mm t (mm s (mt t))) = b) by (rewrite E, mm_assoc, (orth_both a (orth1 a Ha)), mm_I_l; reflexivity).
    rewrite <- E'. rewrite <- !mm_assoc, Ht, mm_I_r. reflexivity.
  - unfold seen. apply (f_equal (fun x => mm (mt a) (mm x (mt t)))) in E. rewrite <- (mm_assoc b), (orth_both t Ht), mm_I_r in E. rewrite E.
    rewrite <- !mm_assoc, !(mm_assoc (mt a) a), (orth1 a Ha), mm_I_l. reflexivity.
Qed.
Lemma e_refl a : In a G1 -> e a a = true.
Proof.
  intros Ha. apply e_iff; auto. exists mI. destruct P2 as (_ & I & _). split; auto. unfold seen. rewrite mm_I_l, (orth_both t Ht). symmetry. exact (orth1 a Ha).
Qed.
Lemma e_sym a b : In a G1 -> In b G1 -> e a b = true -> e b a = true.
Proof.
  intros Ha Hb E. apply e_iff in E; auto. destruct E as (s & Hs & E). apply e_iff; auto. exists (mt s). destruct P2 as (_ & _ & _ & T & _). split; auto.
  rewrite seen_mt, E, mt_mm, mt_mt. reflexivity.
Qed.
Lemma e_trans a b c : In a G1 -> In b G1 -> In c G1 -> e a b = true -> e b c = true -> e a c = true.
Proof.
  intros Ha Hb Hc E E'. apply e_iff in E; auto. apply e_iff in E'; auto. destruct E as (s & Hs & E). destruct E' as (s' & Hs' & E').
  apply e_iff; auto. exists (mm s s'). destruct P2 as (_ & _ & C & _). split; auto. rewrite seen_mm, E, E'.
  rewrite <- mm_assoc, (mm_assoc b), (orth_both b (orth1 b Hb)), mm_I_l. reflexivity.
Qed.
(** the model's comparisons *)
Lemma close_e a b s : In a G1 -> In b G1 -> In s G2 -> close (mm s (mt (mm b t))) (mt (mm a t)) = close (seen t s) (mm (mt a) b).
Proof.
  intros Ha Hb Hs. assert (Hg : In (mm (mt a) b) G1) by (apply G1_closed; auto). pose proof (HD s (mm (mt a) b) Hs Hg) as H.
  assert (X1 : mm (mm t (mm s (mt (mm b t)))) b = seen t s).
  { unfold seen. rewrite mt_mm, <- !mm_assoc, (orth1 b Hb), mm_I_r. reflexivity. }
  assert (X2 : mm (mm t (mt (mm a t))) b = mm (mt a) b).
  { rewrite mt_mm, mm_assoc, (orth_both t Ht), mm_I_l. reflexivity. }
  assert (D : dist2 (mm s (mt (mm b t))) (mt (mm a t)) = dist2 (seen t s) (mm (mt a) b)).
  { rewrite <- X1, <- X2. rewrite (dist_r b) by (apply orth1; auto). rewrite (dist_l t) by auto. reflexivity. }
  assert (Q : mm s (mt (mm b t)) = mt (mm a t) <-> seen t s = mm (mt a) b).
  { split; intros E.
    - rewrite <- X1, E, X2. reflexivity.
    - rewrite <- X1, <- X2 in E. apply (f_equal (fun x => mm (mt t) (mm x (mt b)))) in E.
      rewrite <- !mm_assoc, (orth_both b (orth1 b Hb)), !mm_I_r, !(mm_assoc (mt t) t), !Ht, !mm_I_l in E. exact E. }
  assert (H' : mm s (mt (mm b t)) = mt (mm a t) \/ 1 / 1000000 * (1 / 1000000) <= dist2 (mm s (mt (mm b t))) (mt (mm a t))) by (rewrite D, Q; exact H).
  apply eq_iff_eq_true. rewrite (close_eq _ _ H), (close_eq _ _ H'). exact Q.
Qed.
Lemma m_of a : mm r2 (mt (mm a r1)) = mt (mm a t).
Proof. rewrite <- Hr, !mt_mm, mt_mt, mm_assoc. reflexivity. Qed.
Lemma isnew_e a acc : In a G1 -> incl acc G1 -> isnew (mt (mm a t)) (map (fun b => mt (mm b t)) acc) G2 = negb (existsb (fun b => e a b) acc).
Proof.
  intros Ha HI. unfold isnew. f_equal. induction acc as [|b l IH]; [reflexivity|]. cbn [map existsb]. rewrite IH by (intros x Hx; apply HI; right; auto).
  f_equal. unfold e, hit. assert (Hb : In b G1) by (apply HI; left; auto).
  assert (K : forall l, incl l G2 -> existsb (fun s => close (mm s (mt (mm b t))) (mt (mm a t))) l = existsb (fun s => close (seen t s) (mm (mt a) b)) l).
  { induction l0 as [|s q IHl]; intros Hl; [reflexivity|]. cbn [existsb]. rewrite (close_e a b s) by (auto; apply Hl; left; auto).
    rewrite IHl by (intros x Hx; apply Hl; right; auto). reflexivity. }
  apply K, incl_refl.
Qed.
Lemma fold_greedy : forall l acc, incl l G1 -> incl acc G1 ->
  fold_left (fun rmat sa => let m := mm r2 (mt (mm sa r1)) in if isnew m rmat G2 then (rmat ++ [m])%list else rmat) l (map (fun b => mt (mm b t)) acc)
  = map (fun b => mt (mm b t)) (greedy m3 e l acc).
Proof.
  induction l as [|a l IH]; intros acc Hl Ha; [reflexivity|]. unfold greedy. cbn [fold_left]. rewrite m_of.
  assert (H1 : In a G1) by (apply Hl; left; auto). assert (H2 : incl l G1) by (intros x Hx; apply Hl; right; auto).
  cbv zeta. rewrite (isnew_e a acc H1 Ha). destruct (existsb (fun b => e a b) acc); cbn [negb].
  - apply IH; auto.
  - assert (MA : (map (fun b => mt (mm b t)) acc ++ [mt (mm a t)])%list = map (fun b => mt (mm b t)) (acc ++ [a])) by (rewrite map_app; reflexivity).
    rewrite MA. apply IH; auto. intros x Hx. apply in_app_or in Hx. destruct Hx as [Hx|[<-|[]]]; auto.
Qed.
Lemma getOR_greedy : getOR r1 r2 G1 G2 = map (fun a => mm a t) (greedy m3 e G1 []).
Proof.
  unfold getOR. pose proof (fold_greedy G1 [] (incl_refl _) ltac:(intros x [])) as F. cbn [map] in F. rewrite F. rewrite map_map. apply map_ext. intros a. apply mt_mt.
Qed.
(** the count of common operations *)
Definition cnt (g : m3) : nat := length (filter (fun s => close (seen t s) g) G2).
Lemma cnt_hit g : In g G1 -> cnt g = b2n (hit g).
Proof.
  intros Hg. unfold cnt. destruct (hit g) eqn:E; cbn [b2n].
  - pose proof E as E'. unfold hit in E'. apply existsb_exists in E'. apply count_one; auto.
    + intros x y Hx Hy Fx Fy. apply close_eq in Fx; auto. apply close_eq in Fy; auto. apply seen_inj. congruence.
    + destruct P2 as (N & _). exact N.
  - apply count_none. intros s Hs. unfold hit in E. destruct (close (seen t s) g) eqn:C; auto. rewrite <- E. symmetry. apply existsb_exists. exists s. auto.
Qed.
Lemma fold_count : forall (f : m3 -> bool) l n, fold_left (fun ctr s1 => if f s1 then S ctr else ctr) l n = (n + length (filter f l))%nat.
Proof. intros f; induction l as [|x l IH]; intros n; cbn [fold_left filter]; [cbn; lia|]. rewrite IH. destruct (f x); cbn [length]; lia. Qed.
Lemma count_eq : count_common t G1 G2 = lsum (map (fun g => b2n (hit g)) G1).
Proof.
  unfold count_common.
  assert (F : forall l n, fold_left (fun ctr s2 => fold_left (fun ctr s1 => if close (mm t (mm s2 (mt t))) s1 then S ctr else ctr) G1 ctr) l n
     = (n + lsum (map (fun s => length (filter (close (seen t s)) G1)) l))%nat).
  { induction l as [|s l IH]; intros n; cbn [fold_left map lsum]; [lia|]. rewrite fold_count, IH. unfold seen. lia. }
  rewrite F. cbn [plus].
  rewrite (lsum_ext _ (fun s => lsum (map (fun g => b2n (close (seen t s) g)) G1))) by (intros; apply count_filter).
  rewrite double. apply lsum_ext. intros g Hg. rewrite <- (cnt_hit g Hg). unfold cnt. rewrite count_filter. reflexivity.
Qed.
Lemma count_pos : (0 < count_common t G1 G2)%nat.
Proof.
  rewrite count_eq, <- count_filter. assert (I : In mI (filter hit G1)).
  { apply filter_In. destruct P1 as (_ & I & _). split; auto. assert (E : e mI mI = true) by (apply e_refl; auto). unfold e in E. rewrite mt_I, mm_I_l in E. exact E. }
  destruct (filter hit G1); [contradiction|cbn; lia].
Qed.
Lemma coset b : In b G1 -> Permutation (map (fun a => mm (mt a) b) G1) G1.
Proof.
  intros Hb. destruct P1 as (N & _ & C & T & O). apply NoDup_Permutation_bis.
  - assert (K : forall l, NoDup l -> incl l G1 -> NoDup (map (fun a => mm (mt a) b) l)).
    { induction 1 as [|x l Hx Hl IH]; intros HI; cbn [map]; constructor; [|apply IH; intros y Hy; apply HI; right; auto].
      intros Hin. apply in_map_iff in Hin. destruct Hin as (y & E & Hy). apply Hx. replace x with y; auto.
      apply (f_equal (fun z => mm z (mt b))) in E. rewrite <- !mm_assoc, (orth_both b (O b Hb)), !mm_I_r in E. apply (f_equal mt) in E. rewrite !mt_mt in E. auto. }
    apply K; auto. apply incl_refl.
  - rewrite map_length. lia.
  - intros x Hx. apply in_map_iff in Hx. destruct Hx as (a & <- & Ha). apply C; auto.
Qed.
Lemma class_size b : In b G1 -> length (filter (fun a => e a b) G1) = count_common t G1 G2.
Proof.
  intros Hb. rewrite count_filter, count_eq. unfold e. rewrite <- (map_map (fun a => mm (mt a) b) (fun g => b2n (hit g))).
  apply lsum_perm, Permutation_map, coset; auto.
Qed.
Lemma or_count : (length (getOR r1 r2 G1 G2) * count_common t G1 G2 = length G1)%nat.
Proof. rewrite getOR_greedy, map_length. apply greedy_count; [apply e_refl|apply e_sym|apply e_trans|intros; apply class_size; auto]. Qed.
Lemma number : expected_num r1 r2 G1 G2 = Ok (length (getOR r1 r2 G1 G2)).
Proof.
  unfold expected_num. rewrite Hr. pose proof count_pos as CP. pose proof or_count as OC. cbv zeta. destruct (count_common t G1 G2) as [|k]; [lia|].
  f_equal. rewrite <- OC. apply Nat.div_mul. lia.
Qed.
Lemma or_member v : In v (getOR r1 r2 G1 G2) -> exists a, In a G1 /\ v = mm a t.
Proof.
  rewrite getOR_greedy. intros H. apply in_map_iff in H. destruct H as (a & <- & Ha). exists a. split; auto.
  destruct (greedy_inv m3 e G1 e_refl G1 []) as (_ & I & _); [apply incl_refl|intros x []|constructor|]. apply I; auto.
Qed.
Lemma or_unique a : In a G1 -> exists v, In v (getOR r1 r2 G1 G2) /\ same_variant G2 (mm a t) v /\
  forall w, In w (getOR r1 r2 G1 G2) -> same_variant G2 (mm a t) w -> w = v.
Proof.
  intros Ha. rewrite getOR_greedy. destruct (greedy_inv m3 e G1 e_refl G1 []) as (_ & I & Ap & Cv); [apply incl_refl|intros x []|constructor|].
  destruct (Cv a Ha) as (b & Hb & E). exists (mm b t). split; [apply in_map_iff; exists b; auto|]. split; [apply e_iff'; auto|].
  intros w Hw HS. apply in_map_iff in Hw. destruct Hw as (c & <- & Hc). f_equal. apply (e_iff' a c) in HS; auto.
  apply (apart_pair m3 e G1 e_sym _ c b Ap I); auto. apply (e_trans c a b); auto. apply e_sym; auto.
Qed.
Lemma or_nodup : NoDup (getOR r1 r2 G1 G2).
Proof.
  rewrite getOR_greedy. destruct (greedy_inv m3 e G1 e_refl G1 []) as (_ & I & Ap & _); [apply incl_refl|intros x []|constructor|].
  pose proof (apart_nodup m3 e G1 e_refl _ Ap I) as N. clear -N Ht. induction N as [|x l Hx Hl IH]; cbn [map]; constructor; auto.
  intros H. apply in_map_iff in H. destruct H as (y & E & Hy). apply Hx. replace x with y; auto.
  apply (f_equal (fun z => mm z (mt t))) in E. rewrite <- !mm_assoc, (orth_both t Ht), !mm_I_r in E. auto.
Qed.
End Main.

Lemma unit_norm v : v <> vzero -> norm2 (unit_vec v) = 1.
Proof.
  intros H. unfold unit_vec. assert (N : 0 < norm v) by (apply norm_gt0; auto).
  assert (E : norm2 (vscale (/ norm v) v) = / norm v * / norm v * norm2 v) by (generalize (/ norm v) as k; lin). rewrite E, <- norm_sq. field. lra.
Qed.
Lemma unit_perp a b : dot a b = 0 -> dot (unit_vec a) (unit_vec b) = 0.
Proof. intros H. unfold unit_vec. assert (E : forall k l, dot (vscale k a) (vscale l b) = k * l * dot a b) by (intros; lin). rewrite E, H. ring. Qed.

(** For a direction lying in the plane, in both phases, the variants are the copies by the parent's operations of the rotation
    that aligns plane and direction: one for each class of copies that differ only by operations of the child.  Their number is
    the one the formula predicts, the order of the parent's group divided by the number of common operations. *)
Theorem C127_variants : forall p1 p2 d1 d2 G1 G2 t, point_group G1 -> point_group G2 ->
  p1 <> vzero -> d1 <> vzero -> p2 <> vzero -> d2 <> vzero -> dot p1 d1 = 0 -> dot p2 d2 = 0 ->
  aligns t p1 p2 d1 d2 -> distinct_ops t G1 G2 ->
  exists vs, variants p1 p2 d1 d2 G1 G2 = Ok (vs, length vs) /\ NoDup vs /\
    (forall h, common t G1 G2 h -> (length vs * length h = length G1)%nat) /\
    (forall v, In v vs -> exists g, In g G1 /\ v = mm g t /\ mv v (direction p2) = mv g (direction p1) /\ mv v (direction d2) = mv g (direction d1)) /\
    (forall g, In g G1 -> exists v, In v vs /\ same_variant G2 (mm g t) v /\ forall w, In w vs -> same_variant G2 (mm g t) w -> w = v).
Proof.
  intros p1 p2 d1 d2 G1 G2 t P1 P2 Np1 Nd1 Np2 Nd2 H1 H2 (Rt & Tp & Td) HD.
  set (r1 := get_rmats (unit_vec p1) (unit_vec d1)). set (r2 := get_rmats (unit_vec p2) (unit_vec d2)).
  assert (R2 : rotation r2) by (apply get_rmats_orth; auto using unit_norm, unit_perp).
  assert (Ht : orthogonal t) by (destruct Rt; auto).
  assert (Hr : mm r1 (mt r2) = t).
  { assert (A : mm t r2 = r1) by (apply align_rmats; auto). rewrite <- A, <- mm_assoc. rewrite (orth_both r2) by (destruct R2; auto). apply mm_I_r. }
  exists (getOR r1 r2 G1 G2). split; [|split; [|split; [|split]]].
  - unfold variants. fold r1 r2. rewrite (number t r1 r2 G1 G2 P1 P2 Ht Hr HD). reflexivity.
  - apply (or_nodup t r1 r2 G1 G2 P1 P2 Ht Hr HD).
  - intros h (Nh & Hh). etransitivity; [|apply (or_count t r1 r2 G1 G2 P1 P2 Ht Hr HD)]. f_equal. erewrite count_eq by eauto. rewrite <- count_filter.
    apply Permutation_length, NoDup_Permutation; auto; [apply NoDup_filter; destruct P1; auto|]. intros g. rewrite filter_In, Hh. split.
    + intros [Hg Hs]. split; auto. eapply hit_iff; eauto.
    + intros [Hg Hs]. split; auto. eapply hit_iff in Hs; eauto.
  - intros v Hv. destruct (or_member t r1 r2 G1 G2 P1 P2 Ht Hr HD v Hv) as (g & Hg & ->). exists g. split; auto. split; auto. rewrite !mv_mm, Tp, Td. auto.
  - intros g Hg. apply (or_unique t r1 r2 G1 G2 P1 P2 Ht Hr HD g Hg).
Qed.
Print Assumptions C127_variants.
(** There always is such a rotation, exactly one. *)
Theorem C127_aligned : forall p1 p2 d1 d2, p1 <> vzero -> d1 <> vzero -> p2 <> vzero -> d2 <> vzero -> dot p1 d1 = 0 -> dot p2 d2 = 0 ->
  exists t, aligns t p1 p2 d1 d2 /\ forall t', aligns t' p1 p2 d1 d2 -> t' = t.
Proof.
  intros p1 p2 d1 d2 Np1 Nd1 Np2 Nd2 H1 H2.
  set (r1 := get_rmats (unit_vec p1) (unit_vec d1)). set (r2 := get_rmats (unit_vec p2) (unit_vec d2)).
  assert (R1 : rotation r1) by (apply get_rmats_orth; auto using unit_norm, unit_perp).
  assert (R2 : rotation r2) by (apply get_rmats_orth; auto using unit_norm, unit_perp).
  assert (C : forall p d, mv (get_rmats p d) (V3 0 0 1) = p /\ mv (get_rmats p d) (V3 1 0 0) = d) by (intros; unfold get_rmats; split; lin).
  exists (mm r1 (mt r2)). split.
  - split; [apply rot_mm; auto; apply rot_mt; auto|]. fold (unit_vec p1) (unit_vec p2) (unit_vec d1) (unit_vec d2). unfold direction.
    fold (unit_vec p1) (unit_vec p2) (unit_vec d1) (unit_vec d2). destruct (C (unit_vec p2) (unit_vec d2)) as [C1 C2]. destruct (C (unit_vec p1) (unit_vec d1)) as [C3 C4].
    fold r2 in C1, C2. fold r1 in C3, C4. rewrite <- C1, <- C2. rewrite !mv_mm, <- !(mv_mm (mt r2) r2). destruct R2 as [O2 _]. rewrite O2, !mv_I. auto.
  - intros t' (Rt & Tp & Td). assert (A : mm t' r2 = r1) by (apply align_rmats; auto). rewrite <- A, <- mm_assoc. rewrite (orth_both r2) by (destruct R2; auto). symmetry. apply mm_I_r.
Qed.
Print Assumptions C127_aligned.
(** Finding: a direction that does not lie in the plane is not noticed; the matrices are then no rotations and the count of
    common operations can be zero. *)
Theorem C127_not_in_plane_refuted : point_group [mI] /\ variants (V3 0 0 1) (V3 0 0 1) (V3 (6 / 10) 0 (8 / 10)) (V3 1 0 0) [mI] [mI] = Err ZeroDivisionError /\
  exists v, getOR (get_rmats (V3 0 0 1) (V3 (6 / 10) 0 (8 / 10))) (get_rmats (V3 0 0 1) (V3 1 0 0)) [mI] [mI] = [v] /\ ~ orthogonal v.
Proof.
  assert (U : forall x y z, x * x + y * y + z * z = 1 -> unit_vec (V3 x y z) = V3 x y z).
  { intros x y z H. unfold unit_vec. rewrite norm2_norm1 by (unfold norm2, dot; cbn; lra). rewrite Rinv_1. lin. }
  split; [|split].
  - split; [repeat constructor; auto|]. split; [left; auto|]. split; [intros a b [<-|[]] [<-|[]]; left; rewrite mm_I_l; auto|]. split; [intros a [<-|[]]; left; auto|].
    intros a [<-|[]]. apply rot_I.
  - unfold variants. rewrite !U by lra. unfold expected_num, count_common. cbn [fold_left].
    match goal with |- context [close ?a ?b] => replace (close a b) with false; [reflexivity|] end.
    symmetry. unfold close. destruct (Rlt_dec _ _) as [L|]; [|reflexivity]. exfalso. revert L. apply Rle_not_lt.
    unfold absdiff, get_rmats. lin_unfold. cbn [m00 m01 m02 m10 m11 m12 m20 m21 m22].
    match goal with |- _ <= Rabs ?a + Rabs ?b + Rabs ?c + Rabs ?d + Rabs ?e + Rabs ?f + Rabs ?g + Rabs ?h + Rabs ?i =>
      pose proof (Rabs_pos a); pose proof (Rabs_pos b); pose proof (Rabs_pos c); pose proof (Rabs_pos d); pose proof (Rle_abs (- e)); pose proof (Rabs_pos f); pose proof (Rabs_pos g); pose proof (Rabs_pos h); pose proof (Rabs_pos i); rewrite (Rabs_Ropp e) in * end. lra.
  - eexists. unfold getOR. cbn [fold_left]. unfold isnew at 1. cbn [existsb negb app map]. split; [reflexivity|].
    intros O. apply orth_eqs in O. revert O. unfold get_rmats. lin_unfold. cbn. intros O. lra.
Qed.
Print Assumptions C127_not_in_plane_refuted.
(** A parent with the three twofold axes, a child with the one along x: two variants. *)
Definition d2 : list m3 := [mI; diag 1 (-1) (-1); diag (-1) 1 (-1); diag (-1) (-1) 1].
Definition c2 : list m3 := [mI; diag 1 (-1) (-1)].
Ltac find_in := first [left; solve [lin] | right; find_in].
Lemma d2_group : point_group d2.
Proof.
  split; [repeat constructor; cbn; intros H; repeat (destruct H as [H|H]); try contradiction; injection H; intros; lra|]. split; [left; auto|].
  split; [|split].
  - intros a b Ha Hb. cbn in Ha, Hb. repeat (destruct Ha as [<-|Ha]); try contradiction; repeat (destruct Hb as [<-|Hb]); try contradiction; unfold d2, In; find_in.
  - intros a Ha. cbn in Ha. repeat (destruct Ha as [<-|Ha]); try contradiction; unfold d2, In; find_in.
  - intros a Ha. cbn in Ha. repeat (destruct Ha as [<-|Ha]); try contradiction; unfold orthogonal; lin.
Qed.
Lemma c2_group : point_group c2.
Proof.
  split; [repeat constructor; cbn; intros H; repeat (destruct H as [H|H]); try contradiction; injection H; intros; lra|]. split; [left; auto|].
  split; [|split].
  - intros a b Ha Hb. cbn in Ha, Hb. repeat (destruct Ha as [<-|Ha]); try contradiction; repeat (destruct Hb as [<-|Hb]); try contradiction; unfold c2, In; find_in.
  - intros a Ha. cbn in Ha. repeat (destruct Ha as [<-|Ha]); try contradiction; unfold c2, In; find_in.
  - intros a Ha. cbn in Ha. repeat (destruct Ha as [<-|Ha]); try contradiction; unfold orthogonal; lin.
Qed.
Example C127_ex : exists vs, variants e2 e2 e0 e0 d2 c2 = Ok (vs, 2%nat) /\ length vs = 2%nat.
Proof.
  assert (E : forall v, mv mI v = v) by apply mv_I.
  assert (S1 : forall s, seen mI s = s) by (intros; unfold seen; rewrite mt_I, mm_I_l, mm_I_r; reflexivity).
  assert (NZ : e2 <> vzero /\ e0 <> vzero) by (split; intros H; injection H; lra). destruct NZ as [NZ1 NZ2].
  assert (HD : distinct_ops mI d2 c2).
  { intros s g Hs Hg. rewrite S1. cbn in Hs, Hg. repeat (destruct Hs as [<-|Hs]); try contradiction; repeat (destruct Hg as [<-|Hg]); try contradiction; first [left; reflexivity|right; unfold dist2; lin_unfold; lra]. }
  destruct (C127_variants e2 e2 e0 e0 d2 c2 mI d2_group c2_group NZ1 NZ2 NZ1 NZ2) as (vs & EV & _ & HC & _); auto; try lin.
  - split; [apply rot_I|]. split; apply E.
  - specialize (HC c2). assert (L : (length vs * 2 = 4)%nat).
    { apply HC. split; [destruct c2_group; auto|]. intros g. split.
      - intros Hg. split; [cbn in Hg; repeat (destruct Hg as [<-|Hg]); try contradiction; unfold d2, In; find_in|]. exists g. split; auto.
      - intros (_ & s & Hs & <-). rewrite S1. exact Hs. }
    exists vs. assert (L2 : length vs = 2%nat) by lia. rewrite L2 in EV. auto.
Qed.
