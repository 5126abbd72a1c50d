From Coq Require Import Permutation.
From Verif Require Import Prelude NfModel NfSpec NfLoop.
Local Open Scope Z_scope.

Lemma list_same : forall (A : Type) (l m : list A), (forall k, nth_error l k = nth_error m k) -> l = m.
Proof. intros A. induction l as [|a l IH]; intros [|b m] H; auto; [specialize (H 0%nat); discriminate..|]. f_equal; [specialize (H 0%nat); now injection H|]. apply IH. intros k. apply (H (S k)). Qed.
Lemma map_positions : forall (A B : Type) (l : list A) (F : nat -> B) (G : A -> B), (forall j a, nth_error l j = Some a -> F j = G a) -> map F (seq 0 (length l)) = map G l.
Proof.
  intros A B. induction l as [|a l IH]; intros F G H; cbn [length seq map]; auto. f_equal; [apply (H 0%nat); reflexivity|]. rewrite <- seq_shift, map_map. apply IH. intros j b E. apply (H (S j)). exact E.
Qed.
Lemma columns_tab : forall (A B C : Type) (h : A -> B -> C) (la : list A) (lb : list B),
  columns (map (fun a => map (h a) lb) la) (length lb) = map (fun b => map (fun a => h a b) la) lb.
Proof.
  intros A B C h la lb. unfold columns. apply map_positions. intros j b E. induction la as [|a la IH]; cbn [map flat_map]; auto. rewrite nth_map, E. cbn [app]. f_equal. exact IH.
Qed.
Lemma blocks_tab : forall (B C : Type) (G : B -> list C) k lb, (forall b, In b lb -> length (G b) = k) -> blocks_of k (length lb) (concat (map G lb)) = map G lb.
Proof.
  intros B C G k lb H. unfold blocks_of. apply map_positions. revert H. induction lb as [|b lb IH]; intros H j a E; [destruct j; discriminate|]. destruct j as [|j]; cbn [nth_error] in E.
  - injection E as <-. cbn [map concat Nat.mul skipn]. rewrite firstn_app, firstn_all2, (H b) by (rewrite ?(H b); auto; now left). rewrite Nat.sub_diag. cbn [firstn]. now rewrite app_nil_r.
  - cbn [map concat Nat.mul]. rewrite skipn_app, skipn_all2 by (rewrite (H b); [lia|now left]). cbn [app]. rewrite (H b) by (now left). replace (k + j * k - k)%nat with (j * k)%nat by lia. apply IH; auto. intros. apply H. now right.
Qed.

Definition table {A} (conf : Z -> Z -> A) (n_grains a b : Z) : list (list (option A)) := map (fun g => map (fun c => Some (conf g c)) (zrange a b)) (zrange 0 n_grains).
Lemma complete_eq : forall (A : Type) (conf : Z -> Z -> A) ng a n m, 0 <= ng -> 0 <= n -> complete conf ng a n m -> m = table conf ng a (a + n).
Proof.
  intros A conf ng a n m Hg Hn (L & F & E). unfold table. apply list_same. intros k. rewrite nth_map. destruct (Nat.lt_ge_cases k (length m)) as [K|K].
  - rewrite nth_zrange by lia. destruct (nth_error m k) as [r|] eqn:N; [|apply nth_error_None in N; lia]. f_equal. rewrite Forall_forall in F. pose proof (F r (nth_error_In _ _ N)) as LR. cbv beta in LR.
    apply list_same. intros j. rewrite nth_map. destruct (Nat.lt_ge_cases j (length r)) as [J|J].
    + rewrite nth_zrange by lia. specialize (E (Z.of_nat k) (Z.of_nat j)). unfold entry in E. rewrite !Nat2Z.id, N in E. rewrite E by lia. cbn. reflexivity.
    + rewrite (proj2 (nth_error_None r j)) by lia. rewrite (proj2 (nth_error_None (zrange a (a + n)) j)) by (rewrite zrange_length; lia). reflexivity.
  - rewrite (proj2 (nth_error_None m k)) by lia. rewrite (proj2 (nth_error_None (zrange 0 ng) k)) by (rewrite zrange_length; lia). reflexivity.
Qed.
Lemma table_complete : forall (A : Type) (conf : Z -> Z -> A) ng a n, 0 <= ng -> 0 <= n -> complete conf ng a n (table conf ng a (a + n)).
Proof.
  intros A conf ng a n Hg Hn. unfold complete, table. split; [rewrite map_length, zrange_length; lia|]. split.
  - apply Forall_forall. intros r R. apply in_map_iff in R. destruct R as (g & <- & _). rewrite map_length, zrange_length. lia.
  - intros g c G C. unfold entry. rewrite nth_map, nth_zrange by lia. rewrite nth_map, nth_zrange by lia. do 3 f_equal; lia.
Qed.

(** what a rank sends: its points one after the other *)
Definition points {A} (conf : Z -> Z -> A) (ng : Z) (l : list Z) : list (option A) := concat (map (fun c => map (fun g => Some (conf g c)) (zrange 0 ng)) l).
Lemma sent : forall (A : Type) (conf : Z -> Z -> A) ng a b,
  concat (columns (table conf ng a b) (match table conf ng a b with [] => 0 | row :: _ => length row end)%nat) = points conf ng (zrange a b).
Proof.
  intros A conf ng a b. assert (E : (exists t, zrange 0 ng = 0 :: t) \/ zrange 0 ng = []).
  { destruct (zrange 0 ng) as [|x t] eqn:Z; auto. left. exists t. pose proof (nth_zrange 0 ng 0) as N. rewrite Z in N. cbn in N. f_equal. enough (Some x = Some 0) as [= H]; auto. apply N.
    assert (length (zrange 0 ng) = S (length t)) by (rewrite Z; reflexivity). rewrite zrange_length in H. lia. }
  destruct E as [(t & E)|E].
  - assert (LE : match table conf ng a b with [] => 0 | row :: _ => length row end%nat = length (zrange a b)). { unfold table. rewrite E. cbn [map]. apply map_length. }
    rewrite LE. unfold table, points. rewrite (columns_tab _ _ _ (fun g c => Some (conf g c))). reflexivity.
  - unfold table, points. rewrite E. cbn [map length columns seq concat]. induction (zrange a b) as [|x l IH]; cbn; auto.
Qed.
Lemma points_app : forall (A : Type) (conf : Z -> Z -> A) ng l m, points conf ng (l ++ m) = (points conf ng l ++ points conf ng m)%list.
Proof. intros. unfold points. now rewrite map_app, concat_app. Qed.
Lemma points_length : forall (A : Type) (conf : Z -> Z -> A) ng l, 0 <= ng -> Z.of_nat (length (points conf ng l)) = Z.of_nat (length l) * ng.
Proof. intros A conf ng l H. induction l as [|x l IH]; [cbn; lia|]. change (x :: l) with ([x] ++ l)%list. rewrite points_app, app_length. unfold points at 1. cbn [map concat]. rewrite app_nil_r, map_length, zrange_length. cbn [app length]. lia. Qed.
(** the blocks of the ranks, one after the other, are all the points *)
Lemma tile : forall world n, 0 < world -> 0 <= n -> concat (map (fun r => zrange (fst (block_of world n r)) (snd (block_of world n r))) (zrange 0 world)) = zrange 0 n.
Proof.
  intros world n Hw Hn. pose proof (Z.mul_div_le n world Hw) as M. pose proof (Z.div_pos n world Hn Hw) as P.
  assert (G : forall k, (k < Z.to_nat world)%nat -> concat (map (fun r => zrange (fst (block_of world n r)) (snd (block_of world n r))) (zrange 0 (Z.of_nat k))) = zrange 0 (Z.of_nat k * (n / world))).
  { induction k as [|k IH]; intros K; [reflexivity|]. rewrite <- (zrange_app 0 (Z.of_nat k) (Z.of_nat (S k))) by lia. rewrite map_app, concat_app, IH by lia.
    replace (Z.of_nat (S k)) with (Z.of_nat k + 1) by lia. replace (zrange (Z.of_nat k) (Z.of_nat k + 1)) with [Z.of_nat k] by (unfold zrange; replace (Z.to_nat _) with 1%nat by lia; cbn; f_equal; lia).
    cbn [map concat]. rewrite app_nil_r. unfold block_of. cbn [fst snd]. destruct (Z.of_nat k =? world - 1) eqn:E; [lia|]. apply zrange_app. split; nia. }
  specialize (G (Z.to_nat (world - 1))). rewrite <- (zrange_app 0 (world - 1) world) by lia. rewrite map_app, concat_app. rewrite Z2Nat.id in G by lia. rewrite G by lia.
  replace (zrange (world - 1) world) with [world - 1] by (unfold zrange; replace (Z.to_nat _) with 1%nat by lia; cbn; f_equal; lia). cbn [map concat]. rewrite app_nil_r. unfold block_of. cbn [fst snd].
  rewrite Z.eqb_refl. apply zrange_app. split; nia.
Qed.
Lemma gather_lemma : forall (A : Type) (conf : Z -> Z -> A) ng n world, 0 <= ng -> 0 <= n -> 0 < world ->
  gather_confidence ng n world (map (fun r => table conf ng (fst (block_of world n r)) (snd (block_of world n r))) (zrange 0 world)) = Ok (table conf ng 0 n).
Proof.
  intros A conf ng n world Hg Hn Hw. unfold gather_confidence. rewrite map_map. erewrite (map_ext _ (fun r => points conf ng (zrange (fst (block_of world n r)) (snd (block_of world n r))))) by (intros; apply sent).
  destruct (negb _) eqn:E.
  { exfalso. apply negb_true_iff in E. apply Bool.not_true_iff_false in E. apply E. apply forallb_forall. intros (l, k) I. cbn [fst snd]. unfold send_counts in I.
    assert (G : forall rs, In (l, k) (combine (map (fun r => points conf ng (zrange (fst (block_of world n r)) (snd (block_of world n r)))) rs)
      (map (fun r => if r =? world - 1 then (n - n / world * (world - 1)) * ng else n / world * ng) rs)) -> exists r, In r rs /\ l = points conf ng (zrange (fst (block_of world n r)) (snd (block_of world n r))) /\ k = if r =? world - 1 then (n - n / world * (world - 1)) * ng else n / world * ng).
    { induction rs as [|r rs IH]; intros H; [destruct H|]. destruct H as [H|H]; [injection H as <- <-; exists r; cbn; auto|]. destruct (IH H) as (r' & R1 & R2). exists r'. cbn. auto. }
    destruct (G _ I) as (r & R & -> & ->). apply in_zrange in R. destruct (offset_size world r n Hw R Hn) as (_ & B1 & B2). rewrite points_length, zrange_length by auto. unfold block_of in *. cbn [fst snd] in *.
    destruct (r =? world - 1) eqn:Er; apply Z.eqb_eq; rewrite Z2Nat.id by lia; [assert (r = world - 1) by lia; subst r; ring|ring]. }
  assert (C : concat (map (fun r => points conf ng (zrange (fst (block_of world n r)) (snd (block_of world n r)))) (zrange 0 world)) = points conf ng (zrange 0 n)).
  { clear E. rewrite <- (tile world n Hw Hn). induction (zrange 0 world) as [|r l IH]; [reflexivity|]. cbn [map concat]. now rewrite points_app, IH. }
  rewrite C. clear C. f_equal. unfold points. replace (Z.to_nat n) with (length (zrange 0 n)) by (rewrite zrange_length; lia).
  rewrite blocks_tab by (intros; rewrite map_length, zrange_length; lia). replace (Z.to_nat ng) with (length (zrange 0 ng)) by (rewrite zrange_length; lia).
  apply (columns_tab _ _ _ (fun c g => Some (conf g c))).
Qed.
Lemma all_ok_map : forall (X B : Type) (f : X -> result B) (g : X -> B) l, (forall x, In x l -> f x = Ok (g x)) -> all_ok (map f l) = Ok (map g l).
Proof. intros X B f g. induction l as [|x l IH]; intros H; [reflexivity|]. cbn [map all_ok]. rewrite (H x (or_introl eq_refl)). cbn [rbind]. rewrite IH by (intros; apply H; now right). reflexivity. Qed.
