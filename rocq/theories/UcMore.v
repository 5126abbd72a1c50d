(** Proofs about the reflection lists, last part: the size of a star, when the object can be built, and the cells whose
    list is too short. *)
From Coq Require Import Reals String Lra Psatz Permutation Sorted Lia.
From Verif Require Import Prelude SgModel SgSpec SgProofs SgProps Lin LatModel LatSpec LatProofs LatCell LatSpace UcModel UcSpec UcSym UcList UcProofs UcComplete.
Import ListNotations.
Local Open Scope R_scope.

(** ** orbit and stabiliser *)
Lemma ls_cons : forall {X} (f : X -> nat) x l, list_sum (map f (x :: l)) = (f x + list_sum (map f l))%nat.
Proof. reflexivity. Qed.
Section Orbit.
Context {X G : Type} (P : X -> G -> bool).
Lemma one_hit : forall g l, NoDup l -> (exists x, In x l /\ P x g = true) -> (forall x y, P x g = true -> P y g = true -> x = y) ->
  list_sum (map (fun x => if P x g then 1 else 0)%nat l) = 1%nat.
Proof.
  intros g l N (x & I & Q) U. induction l as [|y l IH]; [destruct I|]. inversion_clear N as [|? ? NI N']. rewrite ls_cons.
  destruct (P y g) eqn:E.
  - enough (list_sum (map (fun x => if P x g then 1 else 0)%nat l) = 0%nat) as -> by reflexivity.
    assert (Z : forall z, In z l -> P z g = false). { intros z Z. destruct (P z g) eqn:F; [|reflexivity]. exfalso. apply NI. now rewrite (U y z E F). }
    clear - Z. induction l as [|z l IH]; [reflexivity|]. rewrite ls_cons, Z by now left. apply IH. intros w W. apply Z. now right.
  - destruct I as [->|I]; [congruence|]. now rewrite (IH N' I).
Qed.
Lemma sum_add : forall (f k : X -> nat) l, list_sum (map (fun x => f x + k x)%nat l) = (list_sum (map f l) + list_sum (map k l))%nat.
Proof. induction l as [|x l IH]; [reflexivity|]. rewrite !ls_cons, IH. lia. Qed.
Lemma count_split : forall l, NoDup l -> forall ops, (forall g, In g ops -> exists x, In x l /\ P x g = true) ->
  (forall g x y, In g ops -> P x g = true -> P y g = true -> x = y) ->
  List.length ops = list_sum (map (fun x => List.length (filter (P x) ops)) l).
Proof.
  intros l N. induction ops as [|g ops IH]; intros A U.
  - cbn [filter List.length]. clear. induction l; [reflexivity|]. rewrite ls_cons. exact IHl.
  - cbn [List.length]. rewrite IH; [|intros g' I; apply A; now right|intros g' x y I; apply U; now right].
    rewrite <- Nat.add_1_r. rewrite <- (one_hit g l N (A g (or_introl eq_refl)) (fun x y => U g x y (or_introl eq_refl))).
    rewrite Nat.add_comm, <- sum_add. f_equal. apply map_ext. intros x. cbn [filter]. destruct (P x g); reflexivity.
Qed.
Lemma sum_const : forall (f : X -> nat) c l, (forall x, In x l -> f x = c) -> list_sum (map f l) = (List.length l * c)%nat.
Proof. intros f c l H. induction l as [|x l IH]; [reflexivity|]. rewrite ls_cons. cbn [List.length]. rewrite (H x) by now left. rewrite IH by (intros; apply H; now right). reflexivity. Qed.
End Orbit.

Lemma mm1 : forall g, matmul one g = g.
Proof. intros [[a b c] [d e f] [g h i]]. unfold matmul, one, row_act. cbn [v0 v1 v2 r0 r1 r2]. repeat f_equal; ring. Qed.
Lemma star_size : forall ops h l stab, matrix_group ops -> NoDup l -> (forall x, In x l <-> equivalent ops h x) ->
  NoDup stab -> (forall g, In g stab <-> In g ops /\ carries g h h) -> (List.length l * List.length stab = List.length ops)%nat.
Proof.
  intros ops h l stab G N Q NS S. set (P := fun x g => iv_eqb (row_act x g) h).
  assert (PE : forall x g, P x g = true <-> row_act x g = h) by (intros; apply iv_eqb_eq).
  symmetry. rewrite (count_split P l N).
  - apply sum_const. intros x I. apply Q in I. destruct I as (g0 & G0 & C0). apply carries_row in C0.
    destruct (mg_inv _ G g0 G0) as (b & B & GB & BG).
    assert (RX : row_act h b = x) by (rewrite <- C0, <- row_matmul, GB; apply row_one).
    rewrite <- (map_length (matmul b)). apply Permutation_length. apply NoDup_Permutation.
    + apply NoDup_map_inv with (f := matmul g0). rewrite map_map. erewrite map_ext; [rewrite map_id; apply NoDup_filter; apply (mg_nodup _ G)|].
      intros g. cbv beta. rewrite <- matmul_assoc, GB. apply mm1.
    + exact NS.
    + intros g. rewrite in_map_iff. split.
      * intros (y & <- & Y). apply filter_In in Y. destruct Y as [Y1 Y2]. apply PE in Y2. apply S. split; [now apply (mg_mul _ G)|]. apply carries_row. rewrite row_matmul, RX. exact Y2.
      * intros I. apply S in I. destruct I as [I C]. apply carries_row in C. exists (matmul g0 g). split; [rewrite <- matmul_assoc, BG; apply mm1|].
        apply filter_In. split; [now apply (mg_mul _ G)|]. apply PE. rewrite row_matmul, C0. exact C.
  - intros g I. destruct (mg_inv _ G g I) as (b & B & GB & BG). exists (row_act h b). split; [apply Q; exists g; split; [exact I|]; apply carries_row|apply PE]; rewrite <- row_matmul, BG; apply row_one.
  - intros g x y I X Y. apply PE in X, Y. destruct (mg_inv _ G g I) as (b & B & GB & BG).
    rewrite <- (row_one x), <- (row_one y), <- GB, !row_matmul, X, Y. reflexivity.
Qed.

(** ** the search for the largest indices *)
Lemma max_index_ends : forall u dmin axis g, 0 < g -> 0 < dmin -> (forall i, (1 <= i)%Z -> CalcLength u (axis i) "r" = Ok (IZR i * g)) ->
  exists F, forall fuel, (F <= fuel)%nat -> exists n, max_index fuel u dmin axis 1 = Ok n.
Proof.
  intros u dmin axis g P D A. destruct (archimed (1 / (dmin * g))) as [K _]. set (N := up (1 / (dmin * g))) in *.
  assert (DG : 0 < dmin * g) by (apply Rmult_lt_0_compat; assumption).
  assert (NP : (0 < N)%Z). { apply lt_IZR. apply Rlt_trans with (1 / (dmin * g)); [apply Rdiv_lt_0_compat; lra|exact K]. }
  assert (St : forall k i fuel, (1 <= i)%Z -> (N <= i + Z.of_nat k)%Z -> (k < fuel)%nat -> exists n, max_index fuel u dmin axis i = Ok n).
  { induction k as [|k IH]; intros i [|fuel] I NI F; try lia; cbn [max_index]; rewrite (A i I); cbn [rbind].
    - destruct (Rlt_dec dmin (1 / (IZR i * g))) as [L|L]; [exfalso|eauto]. assert (1 <= IZR i) by (now apply IZR_le). assert (IZR N <= IZR i) by (apply IZR_le; lia).
      assert (IG : 0 < IZR i * g) by (apply Rmult_lt_0_compat; lra). apply (Rmult_lt_compat_r _ _ _ IG) in L. unfold Rdiv in L. rewrite Rmult_assoc, Rinv_l in L by lra.
      assert (1 / (dmin * g) < IZR i) by lra. apply (Rmult_lt_compat_r _ _ _ DG) in H1. unfold Rdiv in H1. rewrite Rmult_assoc, Rinv_l in H1 by lra. lra.
    - destruct (Rlt_dec dmin (1 / (IZR i * g))) as [L|L]; [|eauto]. apply IH; lia. }
  exists (Datatypes.S (Z.to_nat N)). intros fuel F. apply (St (Z.to_nat N)); lia.
Qed.
Lemma max_index_loops : forall u dmin axis g, 0 < g -> dmin <= 0 -> (forall i, (1 <= i)%Z -> CalcLength u (axis i) "r" = Ok (IZR i * g)) ->
  forall fuel i, (1 <= i)%Z -> max_index fuel u dmin axis i = Err OutOfFuel.
Proof.
  intros u dmin axis g P D A. induction fuel as [|fuel IH]; intros i I; cbn [max_index]; [reflexivity|]. rewrite (A i I). cbn [rbind].
  destruct (Rlt_dec dmin (1 / (IZR i * g))) as [L|L]; [apply IH; lia|]. exfalso. apply L. apply Rle_lt_trans with 0; [exact D|]. apply Rdiv_lt_0_compat; [lra|]. apply Rmult_lt_0_compat; [|exact P]. apply IZR_lt. lia.
Qed.
Lemma norm_vscale : forall k v, norm (vscale k v) = Rabs k * norm v.
Proof. intros k v. unfold norm. replace (norm2 (vscale k v)) with (Rsqr k * norm2 v) by (destruct v; unfold Rsqr; lin_unfold; ring). rewrite sqrt_mult_alt by apply Rle_0_sqr. now rewrite sqrt_Rsqr_abs. Qed.
Lemma gvector_scale : forall L e i, (1 <= i)%Z -> norm (gvector L (IV (i * v0 e) (i * v1 e) (i * v2 e))) = IZR i * norm (gvector L e).
Proof.
  intros L [x y z] i I. cbn [v0 v1 v2]. replace (gvector L (IV (i * x) (i * y) (i * z))) with (vscale (IZR i) (gvector L (IV x y z))).
  - rewrite norm_vscale. rewrite Rabs_right; [reflexivity|]. apply Rle_ge. apply IZR_le. lia.
  - unfold gvector. cbn [v0 v1 v2]. rewrite !mult_IZR. destruct (l_B L). lin_unfold. f_equal; ring.
Qed.
Lemma axis_length : forall u L e axis, u_rmt u = mm (mt (l_B L)) (l_B L) -> (forall i, axis i = rvec (IV (i * v0 e) (i * v1 e) (i * v2 e))) ->
  forall i, (1 <= i)%Z -> CalcLength u (axis i) "r" = Ok (IZR i * norm (gvector L e)).
Proof. intros u L e axis E A i I. rewrite A, (length_g _ _ _ E), gvector_scale by exact I. reflexivity. Qed.
Lemma axes : (forall i, V3 (IZR i) 0 0 = rvec (IV (i * 1) (i * 0) (i * 0))) /\ (forall i, V3 0 (IZR i) 0 = rvec (IV (i * 0) (i * 1) (i * 0))) /\ (forall i, V3 0 0 (IZR i) = rvec (IV (i * 0) (i * 0) (i * 1))).
Proof. split; [|split]; intros i; unfold rvec; cbn [v0 v1 v2]; rewrite Z.mul_1_r, Z.mul_0_r; reflexivity. Qed.
Lemma calcmax_ends : forall u L dmin, u_rmt u = mm (mt (l_B L)) (l_B L) -> det (l_B L) <> 0 -> 0 < dmin ->
  exists F, forall fuel, (F <= fuel)%nat -> exists m, CalcMaxGIndex fuel u dmin = Ok m.
Proof.
  intros u L dmin E D P. destruct axes as (A1 & A2 & A3).
  assert (Q : forall e, e <> zero_index -> 0 < norm (gvector L e)). { intros e N. apply norm_gt0. intros X. apply (gvector_zero L e D) in X. auto. }
  destruct (max_index_ends u dmin (fun i => V3 (IZR i) 0 0) (norm (gvector L (IV 1 0 0))) (Q (IV 1 0 0) ltac:(discriminate)) P (axis_length u L (IV 1 0 0) _ E A1)) as [F1 H1].
  destruct (max_index_ends u dmin (fun i => V3 0 (IZR i) 0) (norm (gvector L (IV 0 1 0))) (Q (IV 0 1 0) ltac:(discriminate)) P (axis_length u L (IV 0 1 0) _ E A2)) as [F2 H2].
  destruct (max_index_ends u dmin (fun i => V3 0 0 (IZR i)) (norm (gvector L (IV 0 0 1))) (Q (IV 0 0 1) ltac:(discriminate)) P (axis_length u L (IV 0 0 1) _ E A3)) as [F3 H3].
  exists (F1 + F2 + F3)%nat. intros fuel F. destruct (H1 fuel ltac:(lia)) as [n1 N1]. destruct (H2 fuel ltac:(lia)) as [n2 N2]. destruct (H3 fuel ltac:(lia)) as [n3 N3].
  unfold CalcMaxGIndex. rewrite N1, N2, N3. cbn [rbind]. eauto.
Qed.
Lemma calcmax_loops : forall u L dmin, u_rmt u = mm (mt (l_B L)) (l_B L) -> det (l_B L) <> 0 -> dmin <= 0 ->
  forall fuel, CalcMaxGIndex fuel u dmin = Err OutOfFuel.
Proof.
  intros u L dmin E D P fuel. destruct axes as (A1 & _). unfold CalcMaxGIndex.
  rewrite (max_index_loops u dmin (fun i => V3 (IZR i) 0 0) (norm (gvector L (IV 1 0 0)))); [reflexivity| |exact P|apply (axis_length u L (IV 1 0 0) _ E A1)|lia].
  apply norm_gt0. intros X. apply (gvector_zero L _ D) in X. discriminate.
Qed.
Lemma new_ends : forall len deg sgnum setting dmin, cell_of sgnum len deg -> (1 <= sgnum <= 230)%Z -> 0 < dmin ->
  exists F, forall fuel, (F <= fuel)%nat -> exists uc, new_unitcell fuel len deg sgnum setting dmin = Ok uc /\ uc_dmin uc = dmin.
Proof.
  intros len deg n st dmin C H P. destruct (cell_metric n len deg C) as (L & t & DV & W & T & _ & _ & B & _). cbv zeta in B.
  destruct (calcmax_ends _ L dmin (eq_sym B) (wf_detB _ _ _ W) P) as [F Q]. exists F. intros fuel LE. destruct (Q fuel LE) as [[[ih ik] il] M].
  destruct (C85_space_group_operations n st H) as (gs & gens & cs & sg & pg & laue & c & s & _ & _ & E & _).
  destruct (sym_facts_of n st sg pg laue c s H E) as (t' & _ & SF). pose proof (sf_hd _ _ _ SF) as HD.
  unfold new_unitcell. rewrite M. cbn [rbind]. replace ((n <? 1) || (230 <? n))%Z%bool with false by (symmetry; apply orb_false_iff; lia). rewrite E. cbn [rbind].
  unfold GenerateRecipPGSym. destruct pg as [|e pg]; [discriminate|]. cbn [rbind fst snd]. eexists. split; reflexivity.
Qed.
Lemma new_loops : forall len deg sgnum setting dmin fuel, cell_of sgnum len deg -> dmin <= 0 -> new_unitcell fuel len deg sgnum setting dmin = Err OutOfFuel.
Proof.
  intros len deg n st dmin fuel C P. destruct (cell_metric n len deg C) as (L & t & DV & W & T & _ & _ & B & _). cbv zeta in B.
  unfold new_unitcell. rewrite (calcmax_loops _ L dmin (eq_sym B) (wf_detB _ _ _ W) P). reflexivity.
Qed.
Lemma set_ends : forall len deg sgnum setting uc dmin, unitcell_object len deg sgnum setting uc -> cell_of sgnum len deg -> 0 < dmin ->
  exists F, forall fuel, (F <= fuel)%nat -> exists uc', set_dmin fuel uc dmin = Ok uc' /\ uc_dmin uc' = dmin.
Proof.
  intros len deg n st uc dmin U C P. destruct (object_geom_of _ _ _ _ _ U C) as (L & t & sg & O).
  destruct (calcmax_ends _ L dmin (og_rmt _ _ _ _ _ _ _ _ O) (og_det _ _ _ _ _ _ _ _ O) P) as [F Q]. exists F. intros fuel LE. destruct (Q fuel LE) as [[[ih ik] il] M].
  unfold set_dmin. destruct (Req_EM_T (uc_dmin uc) dmin) as [E|NE]; [eauto|]. rewrite M. cbn [rbind]. eexists. split; reflexivity.
Qed.
