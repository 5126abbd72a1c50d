(** Proofs about the symmetric reflections, third part: the integer groups. *)
From Coq Require Import Reals List String ZArith Lra Lia Psatz Permutation.
From Verif Require Import Prelude Lin TensorModel TensorSpec TensorProofs RotModel RotSpec RotProofs RotProofs2 RotGroups StfGroups LatModel LatSpec LatProofs LatCell SgModel SgSpec SgProofs SgProps UcModel UcSpec UcSym UcList UcProofs UcComplete UcMore UcProps OrbModel OrbSpec OrbProofs OrbMain.
Import ListNotations.
Local Open Scope R_scope.
Local Notation length := List.length.

Definition all_laue : list laue := [Ci; C2h; D2h; C4h; D4h; C3i; D3d; C6h; D6h; Th; Oh].
Lemma all_laue_in : forall g, In g all_laue. Proof. destruct g; cbn; tauto. Qed.
Definition pure (g : laue) : list imat := map imt (index_mats g).
Definition full (g : laue) : list imat := map imt (index_mats g) ++ map negm (map imt (index_mats g)).
Lemma groups_ok : forallb (fun g => check_mg (pure g) && check_mg (full g)) all_laue = true.
Proof. vm_cast_no_check (eq_refl true). Qed.
Lemma pure_group : forall g, matrix_group (pure g).
Proof. intros g. apply check_mg_ok. pose proof groups_ok as H. rewrite forallb_forall in H. specialize (H g (all_laue_in g)). apply andb_true_iff in H. tauto. Qed.
Lemma full_group : forall g, matrix_group (full g).
Proof. intros g. apply check_mg_ok. pose proof groups_ok as H. rewrite forallb_forall in H. specialize (H g (all_laue_in g)). apply andb_true_iff in H. tauto. Qed.
Lemma row_imt : forall M h, row_act h (imt M) = imv M h.
Proof. intros [[a11 a12 a13] [a21 a22 a23] [a31 a32 a33]] [x y z]. unfold row_act, imt, imv, ivdot, idot. cbn [v0 v1 v2 r0 r1 r2]. f_equal; ring. Qed.
Lemma negv_inv : forall a, negv (negv a) = a. Proof. intros [x y z]. unfold negv. cbn [v0 v1 v2]. f_equal; ring. Qed.
Lemma row_neg : forall h m, row_act h (negm m) = negv (row_act h m).
Proof. intros [x y z] [[a11 a12 a13] [a21 a22 a23] [a31 a32 a33]]. unfold row_act, negm, negv. cbn [v0 v1 v2 r0 r1 r2]. f_equal; ring. Qed.
Lemma equivalent_image : forall ops h x, matrix_group ops -> (equivalent ops h x <-> exists m, In m ops /\ row_act h m = x).
Proof.
  intros ops h x G. split.
  - intros E. apply equivalent_sym in E; [|exact G]. destruct E as (m & I & C). apply carries_row in C. eauto.
  - intros (m & I & C). apply equivalent_sym; [exact G|]. exists m. split; [exact I|]. now apply carries_row.
Qed.
Lemma pure_images : forall g h x, In x (images g h) <-> equivalent (pure g) h x.
Proof.
  intros g h x. rewrite (equivalent_image _ _ _ (pure_group g)). unfold images, pure. rewrite in_map_iff. split.
  - intros (M & <- & I). exists (imt M). split; [now apply in_map|apply row_imt].
  - intros (m & I & <-). apply in_map_iff in I. destruct I as (M & <- & I). exists M. split; [symmetry; apply row_imt|exact I].
Qed.
Lemma full_images : forall g h x, In x (images g h ++ map negv (images g h)) <-> equivalent (full g) h x.
Proof.
  intros g h x. rewrite (equivalent_image _ _ _ (full_group g)). unfold full. rewrite in_app_iff. split.
  - intros [I|I].
    + apply pure_images, equivalent_image in I; [|apply pure_group]. destruct I as (m & I & E). exists m. rewrite in_app_iff. auto.
    + apply in_map_iff in I. destruct I as (y & <- & I). apply pure_images, equivalent_image in I; [|apply pure_group]. destruct I as (m & I & E).
      exists (negm m). rewrite in_app_iff. split; [right; now apply in_map|]. now rewrite row_neg, E.
  - intros (m & I & E). rewrite in_app_iff in I. destruct I as [I|I].
    + left. apply pure_images, equivalent_image; [apply pure_group|]. eauto.
    + right. apply in_map_iff in I. destruct I as (m' & <- & I). apply in_map_iff. exists (row_act h m'). rewrite row_neg in E. split; [exact E|].
      apply pure_images, equivalent_image; [apply pure_group|]. eauto.
Qed.
Lemma full_neg : forall g h, equivalent (full g) h (negv h).
Proof.
  intros g h. apply full_images, in_app_iff. right. apply in_map. apply pure_images. apply equivalent_refl, pure_group.
Qed.

Section Lists.
Variables (g : laue) (lparms : list R) (L : lattice).
Hypothesis LW : lattice_with g lparms L.
Lemma turned_images : forall h x, turned g L h x <-> In x (images g h).
Proof.
  destruct LW as (len & ang & P & PC & E & _). assert (LF : lattice_for g lparms len ang L) by (split; [exact P|split; assumption]).
  intros h x. unfold turned, rots. split.
  - intros (r & I & Q). apply in_map_iff in I. destruct I as (q & <- & I).
    assert (J : In (gvector L x) (map (gvector L) (images g h))).
    { rewrite <- (all_gv _ _ _ _ _ LF). rewrite Q. apply in_map_iff. exists q. split; [reflexivity|exact I]. }
    apply in_map_iff in J. destruct J as (y & Y & J). apply (gv_inj _ _ _ _ _ LF) in Y. now subst.
  - intros I. assert (J : In (gvector L x) (map (gvector L) (images g h))) by now apply in_map.
    rewrite <- (all_gv _ _ _ _ _ LF) in J. apply in_map_iff in J. destruct J as (q & Q & J). exists (rotMatOfQuat q). split; [now apply in_map|now symmetry].
Qed.
Lemma family_images : forall h x, family g L h x <-> equivalent (full g) h x.
Proof.
  intros h x. rewrite <- full_images. unfold family. rewrite !turned_images, in_app_iff, in_map_iff. split.
  - intros [I|I]; [now left|]. right. exists (negv x). split; [apply negv_inv|exact I].
  - intros [I|(y & <- & I)]; [now left|]. right. now rewrite negv_inv.
Qed.
Lemma turned_pure : forall h x, turned g L h x <-> equivalent (pure g) h x.
Proof. intros h x. rewrite turned_images. apply pure_images. Qed.

Lemma made : forall s wl i h d, d = make_hkl L (quatOfLaueGroup g) s wl i h ->
  NoDup (hd_sym d) /\ (forall x, In x (hd_sym d) <-> equivalent (full g) h x) /\
  hd_normals d = map (fun x => unitVector (gvector L x)) (hd_sym d) /\ (hd_centrosym d = true <-> equivalent (pure g) h (negv h)).
Proof.
  destruct LW as (len & ang & P & PC & E & SM). assert (LF : lattice_for g lparms len ang L) by (split; [exact P|split; assumption]).
  intros s wl i h d ->. unfold make_hkl. cbn [hd_sym hd_normals hd_centrosym]. change (mv (l_B L) (rvec h)) with (gvector L h).
  destruct (sym_list _ _ _ _ _ LF SM h true) as (ND & EQ & IN). destruct (sym_list _ _ _ _ _ LF SM h false) as (NDM & EQM & INM). cbv zeta in *.
  set (hs := map (fun v => round_vec (mv (mt (l_F L)) v)) (applySym (gvector L h) (quatOfLaueGroup g) true false sqrt_epsf)) in *.
  set (hm := map (fun v => round_vec (mv (mt (l_F L)) v)) (applySym (gvector L h) (quatOfLaueGroup g) false false sqrt_epsf)) in *.
  assert (IN' : forall x, In x hs <-> equivalent (full g) h x) by (intros x; rewrite IN; apply full_images).
  assert (INM' : forall x, In x hm <-> equivalent (pure g) h x) by (intros x; rewrite INM, app_nil_r; apply pure_images).
  split; [exact ND|]. split; [exact IN'|]. split; [rewrite EQ, map_map; reflexivity|].
  rewrite EQ, EQM, !map_length, Nat.eqb_eq.
  assert (SUB : incl hm hs) by (intros x X; apply IN; rewrite INM, app_nil_r in X; apply in_app_iff; now left). split.
  - intros LE. assert (K : incl hs hm) by (apply (NoDup_length_incl NDM); [lia|exact SUB]). apply INM', K, IN', full_neg.
  - intros C. apply Nat.le_antisymm; apply NoDup_incl_length; auto. intros x X. apply IN in X. apply in_app_iff in X. apply INM'. destruct X as [X|X]; [now apply pure_images|].
    apply in_map_iff in X. destruct X as (y & <- & Y). apply pure_images in Y.
    apply equivalent_trans with (negv h); [apply pure_group|exact C|]. destruct Y as (m & M & Y). exists m. split; [exact M|].
    apply carries_row in Y. apply carries_row. rewrite <- Y. clear. destruct m as [[a11 a12 a13] [a21 a22 a23] [a31 a32 a33]], y as [x y z]. unfold row_act, negv. cbn [v0 v1 v2 r0 r1 r2]. f_equal; ring.
Qed.
End Lists.
