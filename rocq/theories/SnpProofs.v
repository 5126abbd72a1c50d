From Coq Require Import Reals List ZArith Lra Lia Bool.
From Verif Require Import Prelude Lin TensorModel RotModel FibModel EomModel SnpModel SnpSpec.
Import ListNotations.
Local Open Scope R_scope.
Local Notation length := List.length.

Lemma rsum_app l m : rsum (l ++ m) = rsum l + rsum m.
Proof. unfold rsum. induction l as [|x t IH]; cbn [fold_right app]; lra. Qed.
Lemma rsum_cons x l : rsum (x :: l) = x + rsum l. Proof. reflexivity. Qed.
Lemma rsum_nil : rsum [] = 0. Proof. reflexivity. Qed.
Lemma rsum_seq n g : rsum (map g (seq 0 n)) = sum_to n g.
Proof. induction n as [|n IH]; [reflexivity|]. rewrite seq_S, map_app, rsum_app, IH. cbn. lra. Qed.
Lemma sum_ext n g h : (forall k, (k < n)%nat -> g k = h k) -> sum_to n g = sum_to n h.
Proof. induction n as [|n IH]; intros H; [reflexivity|]. cbn [sum_to]. rewrite IH, (H n); auto; intros; apply H; lia. Qed.
Lemma list_seq {A} (l : list A) d : l = map (fun k => nth k l d) (seq 0 (length l)).
Proof.
  apply nth_ext with (d := d) (d' := d); [rewrite map_length, seq_length; reflexivity|]. intros k Hk.
  rewrite nth_indep with (d' := (fun k => nth k l d) 0%nat) (l := map _ _) by (rewrite map_length, seq_length; auto).
  rewrite (map_nth (fun k => nth k l d)), seq_nth by auto. reflexivity.
Qed.
Lemma combine_seq {A B} (l : list A) (m : list B) d e : length l = length m -> combine l m = map (fun k => (nth k l d, nth k m e)) (seq 0 (length l)).
Proof.
  intros H. rewrite (list_seq (combine l m) (d, e)). rewrite combine_length, <- H, Nat.min_id. apply map_ext. intros k. apply combine_nth; auto.
Qed.
Lemma kernel_sum_rsum ker : rsum ker = kernel_sum ker.
Proof. unfold kernel_sum. rewrite <- rsum_seq. f_equal. apply list_seq. Qed.
Lemma sum_rev n g : sum_to n (fun k => g (n - 1 - k)%nat) = sum_to n g.
Proof.
  assert (S0 : forall n g, sum_to (S n) g = g 0%nat + sum_to n (fun k => g (S k))).
  { clear. induction n as [|n IH]; intros g; [cbn; lra|]. change (sum_to (S (S n)) g) with (sum_to (S n) g + g (S n)). rewrite IH. cbn [sum_to]. lra. }
  revert g. induction n as [|n IH]; intros g; [reflexivity|]. rewrite S0. cbn [sum_to].
  rewrite (sum_ext n _ (fun k => g (n - 1 - k)%nat)) by (intros; f_equal; lia). rewrite IH. replace (S n - 1 - 0)%nat with n by lia. lra.
Qed.
(** ** windows *)
Lemma map_flat {A B C} (g : B -> C) (f : A -> list B) l : map g (flat_map f l) = flat_map (fun x => map g (f x)) l.
Proof. induction l as [|x t IH]; [reflexivity|]. cbn [flat_map]. rewrite map_app, IH. reflexivity. Qed.
Lemma flat_of_map {A B C} (g : A -> B) (f : B -> list C) l : flat_map f (map g l) = flat_map (fun x => f (g x)) l.
Proof. induction l as [|x t IH]; [reflexivity|]. cbn [map flat_map]. rewrite IH. reflexivity. Qed.
Lemma plain_lemma (win : list cell) ker : length win = length ker -> (forall c, In c win -> c <> None) ->
  window_plain win ker = Some (sum_to (length ker) (fun k => match nth k win None with Some x => x * nth (length ker - 1 - k) ker 0 | None => 0 end)).
Proof.
  intros L N. unfold window_plain. rewrite (@combine_seq cell R win (rev ker) None 0) by (rewrite rev_length; auto). rewrite map_map, L.
  assert (K : forall l, (forall k, In k l -> (k < length ker)%nat) ->
    osum (map (fun x => match fst (nth x win None, nth x (rev ker) 0) with Some x0 => Some (x0 * snd (nth x win None, nth x (rev ker) 0)) | None => None end) l)
    = Some (rsum (map (fun k => match nth k win None with Some x => x * nth (length ker - 1 - k) ker 0 | None => 0 end) l))).
  { induction l as [|k t IH]; intros Hl; [reflexivity|]. unfold osum in *. cbn [map fold_right fst snd rsum] in *. rewrite IH by (intros; apply Hl; right; auto).
    assert (Hk : (k < length ker)%nat) by (apply Hl; left; auto).
    destruct (nth k win None) as [x|] eqn:E; [|exfalso; apply (N None); auto; rewrite <- E; apply nth_In; lia]. cbn [oadd]. rewrite rev_nth by auto.
    do 2 f_equal. replace (length ker - S k)%nat with (length ker - 1 - k)%nat by lia. reflexivity. }
  rewrite K by (intros k Hk; apply in_seq in Hk; lia). rewrite rsum_seq. reflexivity.
Qed.
Lemma nan_lemma (win : list cell) ker mid : length win = length ker ->
  window_nan win ker mid =
    let top := sum_to (length ker) (fun k => match nth k win None with Some x => x * nth (length ker - 1 - k) ker 0 | None => 0 end) in
    let bot := sum_to (length ker) (fun k => match nth k win None with Some x => nth (length ker - 1 - k) ker 0 | None => 0 end) in
    if Req_EM_T bot 0 then mid else Some (top / bot).
Proof.
  intros L. unfold window_nan. rewrite (@combine_seq cell R win (rev ker) None 0) by (rewrite rev_length; auto). rewrite flat_of_map, L. cbn [fst snd].
  assert (K : forall l, (forall k, In k l -> (k < length ker)%nat) ->
    let use := flat_map (fun x => match nth x win None with Some x0 => [(x0, nth x (rev ker) 0)] | None => [] end) l in
    rsum (map (fun p => fst p * snd p) use) = rsum (map (fun k => match nth k win None with Some x => x * nth (length ker - 1 - k) ker 0 | None => 0 end) l) /\
    rsum (map snd use) = rsum (map (fun k => match nth k win None with Some x => nth (length ker - 1 - k) ker 0 | None => 0 end) l)).
  { induction l as [|k t IH]; intros Hl; [split; reflexivity|]. destruct IH as [I1 I2]; [intros; apply Hl; right; auto|]. cbv zeta in *.
    assert (Hk : (k < length ker)%nat) by (apply Hl; left; auto). cbn [flat_map map]. rewrite !map_app, !rsum_app, I1, I2.
    destruct (nth k win None) as [x|]; cbn [map fst snd]; rewrite ?rsum_cons, ?rsum_nil; [|split; lra]. rewrite rev_nth by auto.
    replace (length ker - S k)%nat with (length ker - 1 - k)%nat by lia. split; lra. }
  destruct (K (seq 0 (length ker))) as [K1 K2]; [intros k Hk; apply in_seq in Hk; lia|]. cbv zeta in *. rewrite K1, K2, !rsum_seq. reflexivity.
Qed.

(** ** the border *)
Lemma at_nth (a : list cell) i : at_index a (Z.of_nat i) = nth i a None.
Proof. unfold at_index. rewrite Nat2Z.id. reflexivity. Qed.
Lemma ext_in b fill (a : list cell) i : (i < length a)%nat -> extended b fill a (Z.of_nat i) = nth i a None.
Proof. intros H. unfold extended. rewrite (proj2 (Z.leb_le _ _)), (proj2 (Z.ltb_lt _ _)) by lia. apply at_nth. Qed.
Lemma ext_low b fill (a : list cell) j : (j < 0)%Z -> extended b fill a j =
  match b with BFill => Some fill | BExtend => at_index a 0 | BWrap => at_index a (j mod Z.of_nat (length a)) | BNone => None end.
Proof. intros H. unfold extended. rewrite (proj2 (Z.leb_gt 0 j)) by lia. cbn [andb]. destruct b; auto. rewrite (proj2 (Z.ltb_lt _ _)) by lia. reflexivity. Qed.
Lemma ext_high b fill (a : list cell) j : (Z.of_nat (length a) <= j)%Z -> extended b fill a j =
  match b with BFill => Some fill | BExtend => at_index a (Z.of_nat (length a) - 1) | BWrap => at_index a (j mod Z.of_nat (length a)) | BNone => None end.
Proof.
  intros H. unfold extended. rewrite (proj2 (Z.ltb_ge j _)) by lia. rewrite andb_false_r. destruct b; auto. rewrite (proj2 (Z.ltb_ge j 0)) by lia. reflexivity.
Qed.
Lemma last_nth {A} (l : list A) d : last l d = nth (length l - 1) l d.
Proof. induction l as [|x t IH]; [reflexivity|]. destruct t as [|y t]; [reflexivity|]. change (last (x :: y :: t) d) with (last (y :: t) d). rewrite IH. cbn [length]. replace (S (S (length t)) - 1)%nat with (S (S (length t) - 1)) by lia. reflexivity. Qed.
Lemma three_nth {A} (u v : A) w a d j : (j < w + length a + w)%nat ->
  nth j (repeat u w ++ a ++ repeat v w) d = if (j <? w)%nat then u else if (j <? w + length a)%nat then nth (j - w) a d else v.
Proof.
  intros H. destruct (Nat.ltb_spec j w) as [L|L].
  - rewrite app_nth1 by (rewrite repeat_length; auto). rewrite nth_indep with (d' := u) by (rewrite repeat_length; auto). apply nth_repeat.
  - rewrite app_nth2 by (rewrite repeat_length; auto). rewrite repeat_length. destruct (Nat.ltb_spec j (w + length a)) as [M|M].
    + apply app_nth1. lia.
    + rewrite app_nth2 by lia. rewrite nth_indep with (d' := v) by (rewrite repeat_length; lia). apply nth_repeat.
Qed.
Lemma pad_lemma b fill w a : a <> [] -> b <> BNone -> exists f, padded b fill w a = Ok f /\ length f = (length a + 2 * w)%nat /\
  forall j, (j < length a + 2 * w)%nat -> nth j f None = extended b fill a (Z.of_nat j - Z.of_nat w).
Proof.
  intros Ha Hb. assert (Hn : (0 < length a)%nat) by (destruct a; [congruence|cbn; lia]). destruct b; [congruence| | |].
  - eexists. split; [reflexivity|]. split; [rewrite !app_length, !repeat_length; lia|]. intros j Hj. rewrite three_nth by lia.
    destruct (Nat.ltb_spec j w); [rewrite ext_low by lia; reflexivity|]. destruct (Nat.ltb_spec j (w + length a)); [|rewrite ext_high by lia; reflexivity].
    replace (Z.of_nat j - Z.of_nat w)%Z with (Z.of_nat (j - w)) by lia. rewrite ext_in by lia. reflexivity.
  - destruct a as [|x t]; [congruence|]. set (a := x :: t) in *. exists (repeat x w ++ a ++ repeat (last a x) w)%list. split; [reflexivity|].
    split; [rewrite !app_length, !repeat_length; lia|]. intros j Hj. rewrite three_nth by lia.
    destruct (Nat.ltb_spec j w); [rewrite ext_low by lia; reflexivity|]. destruct (Nat.ltb_spec j (w + length a)).
    + replace (Z.of_nat j - Z.of_nat w)%Z with (Z.of_nat (j - w)) by lia. rewrite ext_in by lia. reflexivity.
    + rewrite ext_high by lia. rewrite last_nth. replace (Z.of_nat (length a) - 1)%Z with (Z.of_nat (length a - 1)) by lia. rewrite at_nth. apply nth_indep. lia.
  - destruct a as [|x t]; [congruence|]. set (a := x :: t) in *. eexists. split; [reflexivity|]. split; [rewrite map_length, seq_length; lia|].
    intros j Hj. set (g := fun j => nth ((j + (length a - w mod length a)) mod length a) a None).
    rewrite nth_indep with (d' := g 0%nat) by (rewrite map_length, seq_length; lia). rewrite (map_nth g), seq_nth by lia. unfold g. cbn [plus].
    assert (M : ((Z.of_nat j - Z.of_nat w) mod Z.of_nat (length a))%Z = Z.of_nat ((j + (length a - w mod length a)) mod length a)).
    { rewrite Nat2Z.inj_mod. rewrite Nat2Z.inj_add, Nat2Z.inj_sub, Nat2Z.inj_mod by (pose proof (Nat.mod_upper_bound w (length a)); lia).
      set (N := Z.of_nat (length a)). assert (0 < N)%Z by (unfold N; lia).
      rewrite (Z.mod_eq (Z.of_nat w) N) by lia.
      replace (Z.of_nat j + (N - (Z.of_nat w - N * (Z.of_nat w / N))))%Z with (Z.of_nat j - Z.of_nat w + (1 + Z.of_nat w / N) * N)%Z by ring.
      rewrite Z.mod_add by lia. reflexivity. }
    destruct (Z.ltb_spec (Z.of_nat j - Z.of_nat w) 0); [rewrite ext_low by lia; rewrite M, at_nth; reflexivity|].
    destruct (Z.ltb_spec (Z.of_nat j - Z.of_nat w) (Z.of_nat (length a))); [|rewrite ext_high by lia; rewrite M, at_nth; reflexivity].
    rewrite Z.mod_small in M by lia. rewrite M. rewrite ext_in; [reflexivity|]. apply Nat.mod_upper_bound. lia.
Qed.
Lemma ext_number b fill a j : a <> [] -> b <> BNone -> no_nan a -> extended b fill a j <> None.
Proof.
  intros Ha Hb N. assert (Hn : (0 < length a)%nat) by (destruct a; [congruence|cbn; lia]).
  assert (K : forall i, (0 <= i < Z.of_nat (length a))%Z -> at_index a i <> None) by (intros i Hi; apply N; unfold at_index; apply nth_In; lia).
  unfold extended. destruct ((0 <=? j)%Z && (j <? Z.of_nat (length a))%Z) eqn:E.
  - apply andb_true_iff in E. destruct E as [E1 E2]. apply Z.leb_le in E1. apply Z.ltb_lt in E2. apply K; lia.
  - destruct b; [congruence|discriminate| |].
    + destruct (j <? 0)%Z; apply K; lia.
    + apply K. apply Z.mod_pos_bound. lia.
Qed.

(** ** the routine in C on a bordered array *)
Lemma window_nth (f : list cell) i nk k : (k < nk)%nat -> nth k (firstn nk (skipn i f)) None = nth (i + k) f None.
Proof.
  intros H. revert nk k H f. induction i as [|i IH]; intros nk k H f.
  - cbn [skipn plus]. revert k H f. induction nk as [|nk IHn]; intros k H f; [lia|]. destruct f as [|x f]; cbn [firstn]; [destruct k; reflexivity|].
    destruct k as [|k]; [reflexivity|]. cbn [nth]. apply IHn. lia.
  - destruct f as [|x f]; cbn [skipn plus nth]; [|apply IH; auto]. destruct nk, k; reflexivity.
Qed.
Lemma window_len (f : list cell) i nk : (i + nk <= length f)%nat -> length (firstn nk (skipn i f)) = nk.
Proof. intros H. rewrite firstn_length, skipn_length. lia. Qed.
Lemma odd_length (ker : list R) : Nat.even (length ker) = false -> length ker = (2 * (length ker / 2) + 1)%nat.
Proof. intros H. rewrite <- Nat.negb_odd in H. apply negb_false_iff in H. apply Nat.odd_spec in H. destruct H as [m H]. rewrite H. replace ((2 * m + 1) / 2)%nat with m; [reflexivity|]. symmetry. rewrite Nat.mul_comm. rewrite Nat.div_add_l by lia. change (1 / 2)%nat with 0%nat. lia. Qed.
Definition plain_at (g : Z -> cell) ker i : cell := Some (weighted g ker i).
Definition nan_at (g : Z -> cell) ker i : cell := if Req_EM_T (weight g ker i) 0 then g (Z.of_nat i) else Some (weighted g ker i / weight g ker i).
Lemma conv_c_lemma interp (g : Z -> cell) s (f : list cell) ker : Nat.even (length ker) = false ->
  (forall j, (j < length f)%nat -> nth j f None = g (Z.of_nat (j + s) - Z.of_nat (length ker / 2))%Z) ->
  (interp = true \/ no_nan f) ->
  convolve_c interp f ker = map (fun i => if interp then nan_at g ker (i + s) else plain_at g ker (i + s)) (seq 0 (length f - 2 * (length ker / 2))).
Proof.
  intros Ho Nf HN. set (w := (length ker / 2)%nat) in *. pose proof (odd_length ker Ho) as Lk. fold w in Lk.
  unfold convolve_c. fold w. apply map_ext_in. intros i Hi. apply in_seq in Hi.
  assert (Lw : length (firstn (length ker) (skipn i f)) = length ker) by (apply window_len; lia).
  assert (Nw : forall k, (k < length ker)%nat -> nth k (firstn (length ker) (skipn i f)) None = g (Z.of_nat (i + s + k) - Z.of_nat w)%Z).
  { intros k Hk. rewrite window_nth by auto. rewrite Nf by lia. f_equal. lia. }
  destruct interp.
  - rewrite nan_lemma by auto. cbv zeta.
    assert (T : sum_to (length ker) (fun k => match nth k (firstn (length ker) (skipn i f)) None with Some x => x * nth (length ker - 1 - k) ker 0 | None => 0 end) = weighted g ker (i + s))
      by (unfold weighted; apply sum_ext; intros k Hk; rewrite Nw by auto; reflexivity).
    assert (B : sum_to (length ker) (fun k => match nth k (firstn (length ker) (skipn i f)) None with Some x => nth (length ker - 1 - k) ker 0 | None => 0 end) = weight g ker (i + s))
      by (unfold weight; apply sum_ext; intros k Hk; rewrite Nw by auto; reflexivity).
    rewrite T, B. unfold nan_at. destruct (Req_EM_T _ 0); [|reflexivity]. rewrite Nf by lia. f_equal. lia.
  - destruct HN as [HN|HN]; [discriminate|]. rewrite plain_lemma; auto.
    + unfold plain_at. f_equal. unfold weighted. apply sum_ext. intros k Hk. rewrite Nw by auto. reflexivity.
    + intros c Hc. apply HN. apply (In_nth _ _ (None : cell)) in Hc. destruct Hc as (k & Hk & <-). rewrite Lw in Hk. rewrite window_nth by auto. apply nth_In. lia.
Qed.

(** ** the whole function *)
Definition fillnan (o : options) (c : cell) : cell := match c with None => if o_nan_fill o then Some (o_fill o) else None | Some x => Some x end.
Lemma nth_mapseq {A} (g : nat -> A) n i d : (i < n)%nat -> nth i (map g (seq 0 n)) d = g i.
Proof. intros H. rewrite nth_indep with (d' := g 0%nat) by (rewrite map_length, seq_length; auto). rewrite (map_nth g), seq_nth by auto. reflexivity. Qed.
Lemma masked_seen o a : mask_fits o a -> masked (o_mask o) a = map (seen o a) (seq 0 (length a)).
Proof.
  intros H. unfold mask_fits, masked in *. destruct (o_mask o) as [m|] eqn:E.
  - rewrite (@combine_seq bool cell m a false None) by auto. rewrite map_map, H. apply map_ext. intros i. unfold seen. rewrite E. reflexivity.
  - transitivity (map (fun i => nth i a (None : cell)) (seq 0 (length a))); [apply list_seq|]. apply map_ext. intros i. unfold seen. rewrite E. reflexivity.
Qed.
Lemma gap_dec o a : mask_fits o a -> negb (o_nan_fill o) && existsb is_nan (map (seen o a) (seq 0 (length a))) = true <-> has_gap o a.
Proof.
  intros _. split.
  - intros H. apply andb_true_iff in H. destruct H as [H1 H2]. apply negb_true_iff in H1. apply existsb_exists in H2. destruct H2 as (c & Hc & Nc).
    apply in_map_iff in Hc. destruct Hc as (i & <- & Hi). apply in_seq in Hi. exists i. split; [lia|]. unfold used. destruct (seen o a i); [discriminate|]. rewrite H1. reflexivity.
  - intros (i & Hi & E). unfold used in E. destruct (seen o a i) eqn:F; [discriminate|]. destruct (o_nan_fill o); [discriminate|]. cbn [negb andb]. apply existsb_exists.
    exists (seen o a i). split; [apply in_map; apply in_seq; lia|]. rewrite F. reflexivity.
Qed.
Lemma used_list o a : (if o_nan_fill o then map (fun c : cell => match c with None => Some (o_fill o) | Some x => Some x end) (map (seen o a) (seq 0 (length a))) else map (seen o a) (seq 0 (length a)))
  = map (used o a) (seq 0 (length a)).
Proof.
  unfold used. destruct (o_nan_fill o).
  - rewrite map_map. apply map_ext. intros i. destruct (seen o a i); reflexivity.
  - apply map_ext. intros i. destruct (seen o a i); reflexivity.
Qed.
Lemma rlt_false_le x y : rlt x y = false -> y <= x.
Proof. unfold rlt. destruct (Rlt_dec x y); [discriminate|]. intros _. lra. Qed.
Lemma rlt_le_false x y : y <= x -> rlt x y = false.
Proof. unfold rlt. destruct (Rlt_dec x y); [lra|]. auto. Qed.
Lemma rlt_lt x y : rlt x y = true <-> x < y.
Proof. unfold rlt. destruct (Rlt_dec x y); split; auto; try lra; discriminate. Qed.
Lemma map_nth_lt {A B} (f : A -> B) l i d e : (i < length l)%nat -> nth i (map f l) d = f (nth i l e).
Proof. intros H. rewrite nth_indep with (d' := f e) by (rewrite map_length; auto). apply map_nth. Qed.
Lemma boundary_none b : {b = BNone} + {b <> BNone}.
Proof. destruct b; (left; reflexivity) || (right; discriminate). Qed.
Lemma body_lemma interp o ker a : a <> [] -> Nat.odd (length ker) = true -> (o_boundary o = BNone -> (length ker <= length a)%nat) ->
  (interp = true \/ ~ has_gap o a) ->
  exists f, padded (o_boundary o) (o_fill o) (length ker / 2) (map (used o a) (seq 0 (length a))) = Ok f /\
  let body := convolve_c interp f ker in
  let r : list cell := match o_boundary o with BNone => (repeat (Some 0 : cell) (length ker / 2) ++ body ++ repeat (Some 0 : cell) (length ker / 2))%list | _ => body end in
  length r = length a /\
  forall i, (i < length a)%nat ->
    (inside o ker a i -> nth i r None = if interp then nan_at (field o a) ker i else plain_at (field o a) ker i) /\
    (~ inside o ker a i -> nth i r None = Some 0).
Proof.
  intros Ha Ho Hs HN. assert (Ho' : Nat.even (length ker) = false) by (rewrite <- Nat.negb_odd, Ho; reflexivity).
  set (u := map (used o a) (seq 0 (length a))). assert (Lu : length u = length a) by (unfold u; rewrite map_length, seq_length; reflexivity).
  assert (Hu : u <> []) by (intros E; rewrite E in Lu; destruct a; [congruence|discriminate]).
  assert (Nu : interp = true \/ no_nan u).
  { destruct HN as [HN|HN]; [left; auto|right]. intros c Hc ->. apply HN. unfold u in Hc. apply in_map_iff in Hc. destruct Hc as (i & E & Hi). apply in_seq in Hi. exists i. split; [lia|auto]. }
  pose proof (odd_length ker Ho') as Lk. set (w := (length ker / 2)%nat) in *.
  destruct (boundary_none (o_boundary o)) as [B|B].
  - exists u. split; [rewrite B; reflexivity|]. cbv zeta. rewrite B. specialize (Hs B).
    assert (C : convolve_c interp u ker = map (fun i => if interp then nan_at (field o a) ker (i + w) else plain_at (field o a) ker (i + w)) (seq 0 (length u - 2 * w))).
    { apply conv_c_lemma; auto. intros j Hj. unfold field. fold u. replace (Z.of_nat (j + w) - Z.of_nat (length ker / 2))%Z with (Z.of_nat j) by (fold w; lia). rewrite ext_in by auto. reflexivity. }
    rewrite C. assert (Lb : forall (F : nat -> cell), length (map F (seq 0 (length u - 2 * w))) = (length a - 2 * w)%nat) by (intros F; rewrite map_length, seq_length, Lu; reflexivity).
    split; [rewrite !app_length, !repeat_length, Lb; lia|]. intros i Hi. rewrite three_nth by (rewrite Lb; lia). rewrite Lb. unfold inside. fold w. split.
    + intros I. destruct (I B) as [I1 I2]. rewrite (proj2 (Nat.ltb_ge i w)), (proj2 (Nat.ltb_lt i _)) by lia. rewrite nth_mapseq by lia. replace (i - w + w)%nat with i by lia. reflexivity.
    + intros I. destruct (Nat.ltb_spec i w); [reflexivity|]. destruct (Nat.ltb_spec i (w + (length a - 2 * w))); [|reflexivity]. exfalso. apply I. intros _. lia.
  - destruct (pad_lemma (o_boundary o) (o_fill o) w u Hu B) as (f & Ef & Lf & Nf). exists f. split; [exact Ef|].
    assert (C : convolve_c interp f ker = map (fun i => if interp then nan_at (field o a) ker (i + 0) else plain_at (field o a) ker (i + 0)) (seq 0 (length f - 2 * w))).
    { apply conv_c_lemma; auto.
      - intros j Hj. rewrite Nf by lia. unfold field. fold u. fold w. rewrite Nat.add_0_r. reflexivity.
      - destruct Nu as [Nu|Nu]; [left; auto|right]. intros c Hc. apply (In_nth _ _ (None : cell)) in Hc. destruct Hc as (k & Hk & <-). rewrite Nf by lia. apply ext_number; auto. }
    cbv zeta. replace (match o_boundary o with BNone => _ | _ => convolve_c interp f ker end) with (convolve_c interp f ker) by (destruct (o_boundary o); [congruence|reflexivity..]).
    rewrite C. replace (length f - 2 * w)%nat with (length a) by lia. split; [rewrite map_length, seq_length; reflexivity|]. intros i Hi. split.
    + intros _. rewrite nth_mapseq by auto. rewrite Nat.add_0_r. reflexivity.
    + intros I. exfalso. apply I. intros E. congruence.
Qed.

Lemma convolve_lemma o ker a : a <> [] -> mask_fits o a -> kernel_fits o ker a ->
  exists r, convolve o ker a = Ok r /\ length r = length a /\
  forall i, (i < length a)%nat ->
    (o_preserve o = true -> seen o a i = None -> nth i r None = None) /\
    (o_preserve o = false \/ seen o a i <> None ->
       (inside o ker a i -> convolved o ker a i (nth i r None)) /\ (~ inside o ker a i -> nth i r None = Some 0)).
Proof.
  intros Ha Hm (Ho & Hs & Hk). unfold convolve.
  replace (match o_mask o with Some m => negb (Nat.eqb (length m) (length a)) | None => false end) with false
    by (unfold mask_fits in Hm; destruct (o_mask o); [rewrite Hm, Nat.eqb_refl|]; reflexivity).
  assert (Ho' : Nat.even (length ker) = false) by (rewrite <- Nat.negb_odd, Ho; reflexivity). rewrite Ho'. cbv zeta.
  rewrite (masked_seen o a Hm). rewrite map_length, seq_length. pose proof (odd_length ker Ho') as Lk.
  replace (match o_boundary o with BNone => Nat.leb (length a) (2 * (length ker / 2)) | _ => false end) with false
    by (destruct (o_boundary o) eqn:B; auto; symmetry; apply Nat.leb_gt; specialize (Hs eq_refl); lia).
  pose proof (gap_dec o a Hm) as G. set (interp := negb (o_nan_fill o) && existsb is_nan (map (seen o a) (seq 0 (length a)))) in *.
  rewrite kernel_sum_rsum.
  assert (Hk' : (o_normalize o || interp) && rlt (kernel_sum ker) (1 / 100) = false).
  { destruct (o_normalize o || interp) eqn:E; [|reflexivity]. cbn [andb]. apply rlt_le_false. apply Hk. apply orb_true_iff in E. rewrite G in E. exact E. }
  rewrite Hk', used_list.
  assert (HN : interp = true \/ ~ has_gap o a) by (destruct interp; [left; auto|right; rewrite <- G; discriminate]).
  destruct (body_lemma interp o ker a Ha Ho Hs HN) as (f & Ef & Lr & Nr). rewrite Ef. cbn [rbind]. cbv zeta in Lr, Nr.
  set (r := match o_boundary o with BNone => _ | _ => _ end) in *.
  set (r1 := if o_normalize o then if interp then r else map (scale_cell (/ kernel_sum ker)) r else if interp then map (scale_cell (kernel_sum ker)) r else r).
  assert (L1 : length r1 = length a) by (unfold r1; destruct (o_normalize o), interp; rewrite ?map_length; auto).
  assert (N1 : forall i, (i < length a)%nat -> (inside o ker a i -> convolved o ker a i (nth i r1 None)) /\ (~ inside o ker a i -> nth i r1 None = Some 0)).
  { intros i Hi. destruct (Nr i Hi) as [Nin Nout]. split.
    - intros I. specialize (Nin I).
      assert (GI : has_gap o a <-> interp = true) by (symmetry; exact G).
      assert (Fi : field o a (Z.of_nat i) = used o a i).
      { unfold field. rewrite ext_in by (rewrite map_length, seq_length; auto). rewrite nth_mapseq by auto. reflexivity. }
      unfold convolved. cbv zeta. rewrite GI. unfold r1. destruct interp; destruct (o_normalize o);
        (split; [|split; [|split; [|split; [|split]]]]); intros; try congruence;
        try rewrite (map_nth_lt _ _ _ _ (None : cell)) by lia; rewrite Nin; unfold nan_at, plain_at;
        try (destruct (Req_EM_T (weight (field o a) ker i) 0); [|try congruence; reflexivity]; try congruence; rewrite Fi; try reflexivity);
        try reflexivity.
    - intros I. specialize (Nout I). unfold r1. destruct (o_normalize o), interp; try rewrite (map_nth_lt _ _ _ _ (None : cell)) by lia; rewrite Nout; cbn [scale_cell]; try reflexivity; f_equal; lra. }
  destruct (o_preserve o).
  - eexists. split; [reflexivity|]. assert (Lc : length (combine (map (seen o a) (seq 0 (length a))) r1) = length a) by (rewrite combine_length, map_length, seq_length, L1; lia).
    split; [rewrite map_length; exact Lc|]. intros i Hi.
    rewrite (@map_nth_lt (cell * cell) cell _ _ _ _ (None, None)) by (exact (eq_ind_r (fun n => (i < n)%nat) Hi Lc)). rewrite combine_nth by (rewrite map_length, seq_length; auto). cbn [fst snd]. rewrite nth_mapseq by auto. split.
    + intros _ ->. reflexivity.
    + intros [|H]; [discriminate|]. destruct (seen o a i); [|congruence]. cbn [is_nan]. apply N1. auto.
  - exists r1. split; [reflexivity|]. split; [exact L1|]. intros i Hi. split; [discriminate|]. intros _. apply N1. auto.
Qed.
