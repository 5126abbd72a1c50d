(** Lemmas for C24, C25, C61. *)
From Coq Require Import String.
From Verif Require Import Prelude H5Model H5Spec.
Local Notation length := List.length.

Scheme shows_min := Minimality for shows Sort Prop
  with shows_entries_min := Minimality for shows_entries Sort Prop.
Combined Scheme shows_ind2 from shows_min, shows_entries_min.

Lemma shows_frame h h1 :
  (forall id d ids, shows h id d ids -> (forall i, In i ids -> nth_error h1 i = nth_error h i) -> shows h1 id d ids) /\
  (forall o d ids, shows_entries h o d ids -> (forall i, In i ids -> nth_error h1 i = nth_error h i) -> shows_entries h1 o d ids).
Proof.
  apply shows_ind2.
  - intros id o d ids Ho He IH Hni Hf. econstructor; eauto.
    + rewrite Hf by (left; auto). exact Ho.
    + apply IH. intros i Hi. apply Hf. right; auto.
  - constructor.
  - intros. constructor. auto.
  - intros k id o sub d ids1 ids2 H1 IH1 H2 IH2 Hd Hf. constructor; auto.
    + apply IH1. intros i Hi. apply Hf. apply in_or_app; auto.
    + apply IH2. intros i Hi. apply Hf. apply in_or_app; auto.
Qed.

Lemma entries_set_nth h id o o' : nth_error h id = Some o -> entries (set_nth id o' h) + length o = entries h + length o'.
Proof.
  unfold entries. revert id. induction h as [|x h IH]; intros [|id] H; cbn [nth_error] in H; try discriminate.
  - injection H as ->. cbn [set_nth map]. cbn [list_sum fold_right]. lia.
  - cbn [set_nth map list_sum fold_right]. specialize (IH id H). unfold list_sum in IH. lia.
Qed.

Lemma in_set_nth {A} (l : list A) i x y : In y (set_nth i x l) -> y = x \/ In y l.
Proof.
  revert i. induction l as [|z l IH]; intros [|i] H; cbn in *; auto; try tauto.
  - destruct H as [->|H]; auto.
  - destruct H as [->|H]; auto. destruct (IH i H); auto.
Qed.

Section Str.
Variable array_str : list string -> string.

Lemma to_h5_total : forall fuel h id, entries h < fuel -> no_dangling h -> id < length h ->
  exists h' g, to_h5 array_str fuel h id = Some (h', g) /\ entries h' <= entries h /\ length h' = length h /\ no_dangling h' /\
    nth_error h' id = Some [].
Proof.
  induction fuel as [|f IH]; intros h id Hf Hd Hid; [lia|]. cbn [to_h5].
  destruct (nth_error h id) as [[|[key it] rest]|] eqn:Eo; [|cbv zeta|apply nth_error_None in Eo; lia].
  - exists h, []. auto.
  - pose proof (entries_set_nth h id _ rest Eo) as He. cbn [length] in He.
    assert (Hd1 : no_dangling (set_nth id rest h)).
    { intros o k i Ho Hi. rewrite set_nth_length. apply in_set_nth in Ho as [->|Ho]; [|eapply Hd; eauto].
      apply nth_error_In in Eo. apply (Hd _ k i Eo). right; auto. }
    assert (L1 : length (set_nth id rest h) = length h) by apply set_nth_length.
    destruct it as [l|id2].
    + destruct (IH (set_nth id rest h) id ltac:(lia) Hd1 ltac:(lia)) as (h' & g & E & H1 & H2 & H3 & H4). rewrite E.
      destruct (write_leaf array_str l); eexists _, _; (split; [reflexivity|]); repeat split; auto; lia.
    + assert (Hid2 : id2 < length h). { apply nth_error_In in Eo. apply (Hd _ key id2 Eo). left; auto. }
      destruct (IH (set_nth id rest h) id2 ltac:(lia) Hd1 ltac:(lia)) as (h2 & g2 & E & H1 & H2 & H3 & H4). rewrite E.
      destruct (IH h2 id ltac:(lia) H3 ltac:(lia)) as (h' & g & E' & H1' & H2' & H3' & H4'). rewrite E'.
      eexists _, _; (split; [reflexivity|]); repeat split; auto; lia.
Qed.

(** The group written for a tree. *)
Fixpoint to_group (t : tree) : option h5 :=
  match t with
  | TLeaf l => option_map H5Set (write_leaf array_str l)
  | TDict d => Some (H5Group ((fix go (d : list (string * tree)) :=
        match d with
        | [] => []
        | (k, x) :: r => match to_group x with Some y => (k, y) :: go r | None => go r end
        end) d))
  end.
Fixpoint to_entries (d : list (string * tree)) : list (string * h5) :=
  match d with
  | [] => []
  | (k, x) :: r => match to_group x with Some y => (k, y) :: to_entries r | None => to_entries r end
  end.
Lemma to_group_dict d : to_group (TDict d) = Some (H5Group (to_entries d)).
Proof. reflexivity. Qed.
Fixpoint norm_entries (d : list (string * tree)) : list (string * tree) :=
  match d with
  | [] => []
  | (k, x) :: r => match norm array_str x with Some y => (k, y) :: norm_entries r | None => norm_entries r end
  end.
Lemma norm_dict d : norm array_str (TDict d) = Some (TDict (norm_entries d)).
Proof. reflexivity. Qed.
Fixpoint from_entries (g : list (string * h5)) : list (string * tree) :=
  match g with [] => [] | (k, y) :: r => (k, from_h5 y) :: from_entries r end.
Lemma from_group g : from_h5 (H5Group g) = TDict (from_entries g).
Proof. reflexivity. Qed.

Lemma leaf_round l : option_map read_dset (write_leaf array_str l) = norm_leaf array_str l.
Proof.
  destruct l as [|s|z|shape data|l|l]; try reflexivity. destruct shape as [|[|[|n]] [|m r]]; destruct data as [|z d]; reflexivity.
Qed.

Fixpoint tsize (t : tree) : nat :=
  match t with
  | TLeaf _ => 1
  | TDict d => S ((fix go (d : list (string * tree)) := match d with [] => 0 | (_, x) :: r => tsize x + go r end) d)
  end.
Fixpoint esize (d : list (string * tree)) : nat := match d with [] => 0 | (_, x) :: r => tsize x + esize r end.
Lemma tsize_dict d : tsize (TDict d) = S (esize d).
Proof. reflexivity. Qed.

Lemma round_aux n : forall t, tsize t < n -> option_map from_h5 (to_group t) = norm array_str t.
Proof.
  induction n as [|n IH]; intros t Hn; [lia|]. destruct t as [l|d].
  - cbn [to_group norm]. rewrite <- leaf_round. destruct (write_leaf array_str l); reflexivity.
  - rewrite to_group_dict, norm_dict. cbn [option_map]. rewrite from_group. f_equal. f_equal. rewrite tsize_dict in Hn.
    induction d as [|[k x] d IHd]; cbn [to_entries norm_entries esize] in *; auto.
    assert (1 <= tsize x) by (destruct x; cbn; lia).
    rewrite <- (IH x) by lia. destruct (to_group x); cbn [option_map from_entries]; rewrite IHd by lia; reflexivity.
Qed.
Lemma round_trip d : from_h5 (H5Group (to_entries d)) = TDict (norm_entries d).
Proof. pose proof (round_aux (S (tsize (TDict d))) (TDict d) (Nat.lt_succ_diag_r _)) as H. rewrite to_group_dict, norm_dict in H. cbn [option_map] in H. congruence. Qed.

Lemma to_h5_shows : forall fuel h id d ids h' g, shows h id d ids -> to_h5 array_str fuel h id = Some (h', g) ->
  g = to_entries d /\ length h' = length h /\ (forall i, In i ids -> nth_error h' i = Some []) /\ (forall i, ~ In i ids -> nth_error h' i = nth_error h i).
Proof.
  induction fuel as [|f IH]; intros h id d ids h' g Hs H; [discriminate|]. cbn [to_h5] in H.
  inversion Hs as [? o ? ids' Ho He Hni]; subst. rewrite Ho in H.
  assert (Lid : id < length h) by (apply nth_error_Some; congruence).
  inversion He as [|k l o' d' ? He'|k id2 o' sub d' ids1 ids2 Hsub He' Hdis]; subst; cbv zeta in H.
  - injection H as <- <-. cbn. split; auto. split; auto. split; auto. intros i [->|[]]; auto.
  - set (h1 := set_nth id o' h) in *.
    assert (F : forall i, i <> id -> nth_error h1 i = nth_error h i) by (intros i Hi; unfold h1; apply set_nth_ne; auto).
    assert (S1 : shows h1 id d' (id :: ids')).
    { econstructor; eauto; [unfold h1; apply set_nth_eq; auto|]. apply (proj2 (shows_frame h h1)); auto. intros i Hi. apply F. congruence. }
    destruct (to_h5 array_str f h1 id) as [[h3 g3]|] eqn:E; [|discriminate].
    destruct (IH _ _ _ _ _ _ S1 E) as (-> & L & A & B).
    assert (R : h' = h3 /\ g = to_entries ((k, TLeaf l) :: d')).
    { cbn [to_entries to_group]. destruct (write_leaf array_str l); cbn [option_map]; injection H as <- <-; auto. }
    destruct R as [-> ->]. split; auto. split; [unfold h1 in L; rewrite set_nth_length in L; auto|]. split; auto.
    intros i Hi. rewrite B by auto. apply F. intros ->. apply Hi. left; auto.
  - set (h1 := set_nth id o' h) in *.
    assert (F : forall i, i <> id -> nth_error h1 i = nth_error h i) by (intros i Hi; unfold h1; apply set_nth_ne; auto).
    assert (Hni1 : ~ In id ids1) by (intros Hi; apply Hni, in_or_app; auto).
    assert (Hni2 : ~ In id ids2) by (intros Hi; apply Hni, in_or_app; auto).
    assert (S1 : shows h1 id2 sub ids1).
    { apply (proj1 (shows_frame h h1)); auto. intros i Hi. apply F. congruence. }
    destruct (to_h5 array_str f h1 id2) as [[h2 g2]|] eqn:E; [|discriminate].
    destruct (IH _ _ _ _ _ _ S1 E) as (-> & L & A & B).
    assert (S2 : shows h2 id d' (id :: ids2)).
    { econstructor; eauto; [rewrite B by auto; unfold h1; apply set_nth_eq; auto|].
      apply (proj2 (shows_frame h h2)); auto. intros i Hi. rewrite B by (intros Hi1; apply (Hdis i Hi1 Hi)). apply F. congruence. }
    destruct (to_h5 array_str f h2 id) as [[h3 g3]|] eqn:E3; [|discriminate]. injection H as <- <-.
    destruct (IH _ _ _ _ _ _ S2 E3) as (-> & L3 & A3 & B3).
    split; [cbn [to_entries]; rewrite to_group_dict; reflexivity|].
    split; [unfold h1 in L; rewrite set_nth_length in L; lia|]. split.
    + intros i [->|Hi]; [apply A3; left; auto|]. apply in_app_or in Hi as [Hi|Hi]; [|apply A3; right; auto].
      rewrite B3; [apply A; auto|]. intros [->|Hi2]; [auto|]. apply (Hdis i Hi Hi2).
    + intros i Hi. rewrite B3; [|intros [->|Hi2]; apply Hi; [left; auto|right; apply in_or_app; auto]].
      rewrite B; [|intros Hi1; apply Hi; right; apply in_or_app; auto]. apply F. intros ->. apply Hi. left; auto.
Qed.

Lemma store_read fuel h id d ids h' g : shows h id d ids -> to_h5 array_str fuel h id = Some (h', g) ->
  norm array_str (TDict d) = Some (from_h5 (H5Group g)).
Proof. intros Hs H. destruct (to_h5_shows _ _ _ _ _ _ _ Hs H) as (-> & _). rewrite round_trip. reflexivity. Qed.

(** ** the caller's metadata *)
Lemma shows_lt h id d ids : shows h id d ids -> id < length h.
Proof. intros H. inversion H as [? o ? ? Ho]; subst. apply nth_error_Some. congruence. Qed.

Lemma shows_entries_lt h : (forall id d ids, shows h id d ids -> forall i, In i ids -> i < length h) /\
  (forall o d ids, shows_entries h o d ids -> forall i, In i ids -> i < length h).
Proof.
  apply shows_ind2.
  - intros id o d ids Ho He IH Hni i [->|Hi]; auto. apply nth_error_Some. congruence.
  - intros i [].
  - auto.
  - intros k id o sub d ids1 ids2 H1 IH1 H2 IH2 Hd i Hi. apply in_app_or in Hi as [Hi|Hi]; auto.
Qed.

Lemma shows_hollow h h' : forall o d ids, shows_entries h o d ids -> (forall i, In i ids -> nth_error h' i = Some []) ->
  exists ids', shows_entries h' o (hollow d) ids' /\ forall i, In i ids' -> In i ids.
Proof.
  induction 1 as [|k l o d ids H IH|k id o sub d ids1 ids2 H1 H2 IH Hdis]; intros He.
  - exists []. split; [constructor|auto].
  - destruct (IH He) as (ids' & Hs & Hi). exists ids'. split; auto. cbn. constructor. exact Hs.
  - destruct IH as (ids' & Hs & Hi); [intros i Hi; apply He, in_or_app; auto|].
    assert (Hin : In id ids1) by (inversion H1; left; auto).
    exists ([id] ++ ids'). split.
    + cbn [hollow map fst snd]. apply shows_ref; auto.
      * apply shows_dict with (o := []); [apply He, in_or_app; auto|constructor|intros []].
      * intros i [<-|[]] Hi2. apply (Hdis id Hin (Hi _ Hi2)).
    + intros i [<-|Hi2]; apply in_or_app; auto.
Qed.

Lemma save_meta_effect fuel h meta d ids h' g : shows h meta d ids -> save_meta array_str fuel h meta = Some (h', g) ->
  norm array_str (TDict d) = Some (from_h5 (H5Group g)) /\ exists ids', shows h' meta (hollow d) ids'.
Proof.
  intros Hs H. inversion Hs as [? o ? ids0 Ho He Hni]; subst. unfold save_meta in H. rewrite Ho in H.
  set (n := length h) in *.
  assert (F : forall i, i < n -> nth_error (h ++ [o]) i = nth_error h i) by (intros i Hi; apply nth_error_app1; auto).
  assert (Lt : forall i, In i ids0 -> i < n) by (apply (proj2 (shows_entries_lt h) _ _ _ He)).
  assert (Sn : shows (h ++ [o]) n d (n :: ids0)).
  { econstructor; eauto.
    - rewrite nth_error_app2 by (unfold n; lia). replace (n - length h) with 0 by (unfold n; lia). reflexivity.
    - apply (proj2 (shows_frame h (h ++ [o]))); auto.
    - intros Hi. specialize (Lt n Hi). lia. }
  split; [eapply store_read; eauto|].
  destruct (to_h5_shows _ _ _ _ _ _ _ Sn H) as (_ & _ & A & B).
  destruct (shows_hollow h h' _ _ _ He) as (ids' & Hs' & Hi'); [intros i Hi; apply A; right; auto|].
  exists (meta :: ids'). econstructor; eauto. pose proof (shows_lt _ _ _ _ Hs) as Lm.
  rewrite B; [rewrite F by auto; exact Ho|]. intros [E|Hi]; [unfold n in E; lia|auto].
Qed.
End Str.

Lemma hollow_flat d : (forall k t, In (k, t) d -> match t with TDict sub => sub = [] | _ => True end) -> hollow d = d.
Proof.
  induction d as [|[k t] d IH]; intros H; [reflexivity|].
  assert (IH' : hollow d = d) by (apply IH; intros; eapply H; right; eauto).
  specialize (H k t (or_introl eq_refl)). unfold hollow in *. cbn [map fst snd]. rewrite IH'.
  destruct t; [reflexivity|]. subst. reflexivity.
Qed.
