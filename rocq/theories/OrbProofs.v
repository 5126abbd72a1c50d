(** Proofs about the symmetric reflections, first part: duplicates, and the rotations of the Laue groups as integer matrices. *)
From Coq Require Import Reals List String ZArith Lra Lia Psatz Permutation.
From Verif Require Import Prelude Lin TensorModel TensorSpec TensorProofs RotModel RotSpec RotProofs RotProofs2 RotGroups StfModel StfSpec StfProofs StfGroups LatModel LatSpec LatProofs LatCell SgModel SgSpec UcModel UcSpec UcSym OrbModel.
Import ListNotations.
Local Open Scope R_scope.
Local Notation length := List.length.

(** ** duplicates *)
Section Dup.
Variables (tol : R) (pm : bool) (vecs : list v3).
Notation close i j := (dup_close3 tol pm (nth i vecs vzero) (nth j vecs vzero)).
Lemma mem_nat : forall x l, existsb (Nat.eqb x) l = true <-> In x l.
Proof. intros x l. rewrite existsb_exists. split; [intros (y & I & E); apply Nat.eqb_eq in E; now subst|]. intros I. exists x. split; [exact I|apply Nat.eqb_refl]. Qed.
Lemma row_in : forall ii master jj, In jj (master ++ dup_row3 tol pm vecs ii master) <->
  In jj master \/ (ii < jj < length vecs)%nat /\ close ii jj = true.
Proof.
  intros ii master jj. rewrite in_app_iff. unfold dup_row3. rewrite filter_In, in_seq, andb_true_iff, negb_true_iff.
  split.
  - intros [H|(A & _ & C)]; [now left|]. right. split; [lia|exact C].
  - intros [H|(A & C)]; [now left|]. destruct (existsb (Nat.eqb jj) master) eqn:E; [left; now apply mem_nat|]. right. split; [lia|]. split; [reflexivity|exact C].
Qed.
Lemma loop_in : forall iis master jj, In jj (dup_loop3 tol pm vecs iis master) <->
  In jj master \/ exists ii, In ii iis /\ (ii < jj < length vecs)%nat /\ close ii jj = true.
Proof.
  induction iis as [|i r IH]; intros master jj; cbn [dup_loop3].
  - split; [now left|]. intros [H|(ii & [] & _)]; exact H.
  - rewrite IH, row_in. split.
    + intros [[H|H]|(ii & I & H)]; [now left| |]; right; [exists i|exists ii]; cbn [In]; tauto.
    + intros [H|(ii & [->|I] & H)]; [now left; left|now left; right|]. right. now exists ii.
Qed.
Lemma unique_in : forall u, In u (unique_ids tol pm vecs) <-> (u < length vecs)%nat /\ forall i, (i < u)%nat -> close i u = false.
Proof.
  intros u. unfold unique_ids. rewrite filter_In, in_seq, negb_true_iff. split.
  - intros [A B]. split; [lia|]. intros i L. destruct (close i u) eqn:E; [|reflexivity]. exfalso.
    assert (In u (dup_loop3 tol pm vecs (seq 0 (length vecs)) [])) as I.
    { apply loop_in. right. exists i. rewrite in_seq. repeat split; try lia; exact E. }
    apply mem_nat in I. congruence.
  - intros [A B]. split; [lia|]. destruct (existsb _ _) eqn:E; [|reflexivity]. exfalso. apply mem_nat in E. apply loop_in in E.
    destruct E as [[]|(i & _ & L & C)]. rewrite B in C by lia. discriminate.
Qed.
Lemma unique_nodup : NoDup (unique_ids tol pm vecs).
Proof. unfold unique_ids. apply NoDup_filter, seq_NoDup. Qed.
End Dup.

Lemma v3_eq_dec : forall a b : v3, {a = b} + {a <> b}.
Proof. decide equality; apply Req_EM_T. Qed.
Lemma sum_abs_same : forall a, sum_abs a a = 0.
Proof. intros a. unfold sum_abs. rewrite !Rminus_diag_eq, Rabs_R0 by reflexivity. ring. Qed.
(** vectors that are equal or far apart: every vector is kept once *)
Lemma unique_spec : forall tol vecs, 0 < tol -> (forall x y, In x vecs -> In y vecs -> sum_abs x y < tol -> x = y) ->
  let out := map (fun u => nth u vecs vzero) (unique_ids tol false vecs) in
  NoDup out /\ forall v, In v out <-> In v vecs.
Proof.
  intros tol vecs T S out. split.
  - unfold out. pose proof (unique_nodup tol false vecs) as N.
    assert (K : forall u, In u (unique_ids tol false vecs) -> (u < length vecs)%nat /\ forall i, (i < u)%nat -> dup_close3 tol false (nth i vecs vzero) (nth u vecs vzero) = false)
      by (intros u; apply unique_in).
    assert (J : forall u w, In u (unique_ids tol false vecs) -> In w (unique_ids tol false vecs) -> nth u vecs vzero = nth w vecs vzero -> u = w).
    { intros u w U W E. destruct (Nat.lt_trichotomy u w) as [L|[L|L]]; [|exact L|]; exfalso.
      - apply K in W. destruct W as [_ W]. specialize (W u L). unfold dup_close3 in W. rewrite E, sum_abs_same in W. destruct (Rlt_dec 0 tol); [discriminate|lra].
      - apply K in U. destruct U as [_ U]. specialize (U w L). unfold dup_close3 in U. rewrite E, sum_abs_same in U. destruct (Rlt_dec 0 tol); [discriminate|lra]. }
    clear K. induction (unique_ids tol false vecs) as [|u r IH]; cbn [map]; [constructor|]. inversion N as [|? ? NI NR]; subst. constructor.
    + intros H. apply in_map_iff in H. destruct H as (w & E & W). apply NI. rewrite (J u w); [exact W|now left|now right|now symmetry].
    + apply IH; [exact NR|]. intros a b A B. apply J; now right.
  - intros v. unfold out. rewrite in_map_iff. split.
    + intros (u & <- & U). apply unique_in in U. apply nth_In. tauto.
    + intros I. destruct (In_nth _ _ vzero I) as (n & L & E).
      assert (M : exists u, (u < length vecs)%nat /\ nth u vecs vzero = v /\ forall i, (i < u)%nat -> nth i vecs vzero <> v).
      { clear - L E. revert E L. induction n as [n IH] using lt_wf_ind. intros E L.
        destruct (Exists_dec (fun i => nth i vecs vzero = v) (seq 0 n)) as [X|X].
        - intros i. destruct (v3_eq_dec (nth i vecs vzero) v); [now left|now right].
        - apply Exists_exists in X. destruct X as (i & I & Q). apply in_seq in I. apply (IH i); [lia|exact Q|lia].
        - exists n. repeat split; [exact L|exact E|]. intros i Li Q. apply X, Exists_exists. exists i. rewrite in_seq. split; [lia|exact Q]. }
      destruct M as (u & Lu & Eu & Fu). exists u. split; [exact Eu|]. apply unique_in. split; [exact Lu|]. intros i Li.
      unfold dup_close3. destruct (Rlt_dec (sum_abs (nth i vecs vzero) (nth u vecs vzero)) tol) as [C|C]; [|reflexivity]. exfalso.
      apply (Fu i Li). rewrite <- Eu. apply S; [apply nth_In; lia|apply nth_In; lia|exact C].
Qed.

(** ** the rotations as integer matrices acting on the indices of planes *)
Definition index_mats (g : laue) : list imat :=
  match g with
  | Ci => [IM (IV 1 0 0) (IV 0 1 0) (IV 0 0 1)]
  | C2h => [IM (IV 1 0 0) (IV 0 1 0) (IV 0 0 1);
      IM (IV (-1) 0 0) (IV 0 1 0) (IV 0 0 (-1))]
  | D2h => [IM (IV 1 0 0) (IV 0 1 0) (IV 0 0 1);
      IM (IV 1 0 0) (IV 0 (-1) 0) (IV 0 0 (-1));
      IM (IV (-1) 0 0) (IV 0 1 0) (IV 0 0 (-1));
      IM (IV (-1) 0 0) (IV 0 (-1) 0) (IV 0 0 1)]
  | C4h => [IM (IV 1 0 0) (IV 0 1 0) (IV 0 0 1);
      IM (IV 0 (-1) 0) (IV 1 0 0) (IV 0 0 1);
      IM (IV (-1) 0 0) (IV 0 (-1) 0) (IV 0 0 1);
      IM (IV 0 1 0) (IV (-1) 0 0) (IV 0 0 1)]
  | D4h => [IM (IV 1 0 0) (IV 0 1 0) (IV 0 0 1);
      IM (IV 0 (-1) 0) (IV 1 0 0) (IV 0 0 1);
      IM (IV (-1) 0 0) (IV 0 (-1) 0) (IV 0 0 1);
      IM (IV 0 1 0) (IV (-1) 0 0) (IV 0 0 1);
      IM (IV 1 0 0) (IV 0 (-1) 0) (IV 0 0 (-1));
      IM (IV (-1) 0 0) (IV 0 1 0) (IV 0 0 (-1));
      IM (IV 0 1 0) (IV 1 0 0) (IV 0 0 (-1));
      IM (IV 0 (-1) 0) (IV (-1) 0 0) (IV 0 0 (-1))]
  | C3i => [IM (IV 1 0 0) (IV 0 1 0) (IV 0 0 1);
      IM (IV (-1) (-1) 0) (IV 1 0 0) (IV 0 0 1);
      IM (IV 0 1 0) (IV (-1) (-1) 0) (IV 0 0 1)]
  | D3d => [IM (IV 1 0 0) (IV 0 1 0) (IV 0 0 1);
      IM (IV (-1) (-1) 0) (IV 1 0 0) (IV 0 0 1);
      IM (IV 0 1 0) (IV (-1) (-1) 0) (IV 0 0 1);
      IM (IV 1 0 0) (IV (-1) (-1) 0) (IV 0 0 (-1));
      IM (IV (-1) (-1) 0) (IV 0 1 0) (IV 0 0 (-1));
      IM (IV 0 1 0) (IV 1 0 0) (IV 0 0 (-1))]
  | C6h => [IM (IV 1 0 0) (IV 0 1 0) (IV 0 0 1);
      IM (IV 0 (-1) 0) (IV 1 1 0) (IV 0 0 1);
      IM (IV (-1) (-1) 0) (IV 1 0 0) (IV 0 0 1);
      IM (IV (-1) 0 0) (IV 0 (-1) 0) (IV 0 0 1);
      IM (IV 0 1 0) (IV (-1) (-1) 0) (IV 0 0 1);
      IM (IV 1 1 0) (IV (-1) 0 0) (IV 0 0 1)]
  | D6h => [IM (IV 1 0 0) (IV 0 1 0) (IV 0 0 1);
      IM (IV 0 (-1) 0) (IV 1 1 0) (IV 0 0 1);
      IM (IV (-1) (-1) 0) (IV 1 0 0) (IV 0 0 1);
      IM (IV (-1) 0 0) (IV 0 (-1) 0) (IV 0 0 1);
      IM (IV 0 1 0) (IV (-1) (-1) 0) (IV 0 0 1);
      IM (IV 1 1 0) (IV (-1) 0 0) (IV 0 0 1);
      IM (IV 1 0 0) (IV (-1) (-1) 0) (IV 0 0 (-1));
      IM (IV (-1) (-1) 0) (IV 0 1 0) (IV 0 0 (-1));
      IM (IV 0 1 0) (IV 1 0 0) (IV 0 0 (-1));
      IM (IV 1 1 0) (IV 0 (-1) 0) (IV 0 0 (-1));
      IM (IV (-1) 0 0) (IV 1 1 0) (IV 0 0 (-1));
      IM (IV 0 (-1) 0) (IV (-1) 0 0) (IV 0 0 (-1))]
  | Th => [IM (IV 1 0 0) (IV 0 1 0) (IV 0 0 1);
      IM (IV 1 0 0) (IV 0 (-1) 0) (IV 0 0 (-1));
      IM (IV (-1) 0 0) (IV 0 1 0) (IV 0 0 (-1));
      IM (IV (-1) 0 0) (IV 0 (-1) 0) (IV 0 0 1);
      IM (IV 0 0 1) (IV 1 0 0) (IV 0 1 0);
      IM (IV 0 1 0) (IV 0 0 1) (IV 1 0 0);
      IM (IV 0 (-1) 0) (IV 0 0 1) (IV (-1) 0 0);
      IM (IV 0 0 (-1)) (IV (-1) 0 0) (IV 0 1 0);
      IM (IV 0 0 (-1)) (IV 1 0 0) (IV 0 (-1) 0);
      IM (IV 0 1 0) (IV 0 0 (-1)) (IV (-1) 0 0);
      IM (IV 0 (-1) 0) (IV 0 0 (-1)) (IV 1 0 0);
      IM (IV 0 0 1) (IV (-1) 0 0) (IV 0 (-1) 0)]
  | Oh => [IM (IV 1 0 0) (IV 0 1 0) (IV 0 0 1);
      IM (IV 1 0 0) (IV 0 0 (-1)) (IV 0 1 0);
      IM (IV 1 0 0) (IV 0 (-1) 0) (IV 0 0 (-1));
      IM (IV 1 0 0) (IV 0 0 1) (IV 0 (-1) 0);
      IM (IV 0 0 1) (IV 0 1 0) (IV (-1) 0 0);
      IM (IV (-1) 0 0) (IV 0 1 0) (IV 0 0 (-1));
      IM (IV 0 0 (-1)) (IV 0 1 0) (IV 1 0 0);
      IM (IV 0 (-1) 0) (IV 1 0 0) (IV 0 0 1);
      IM (IV (-1) 0 0) (IV 0 (-1) 0) (IV 0 0 1);
      IM (IV 0 1 0) (IV (-1) 0 0) (IV 0 0 1);
      IM (IV 0 0 1) (IV 1 0 0) (IV 0 1 0);
      IM (IV 0 1 0) (IV 0 0 1) (IV 1 0 0);
      IM (IV 0 (-1) 0) (IV 0 0 1) (IV (-1) 0 0);
      IM (IV 0 0 (-1)) (IV (-1) 0 0) (IV 0 1 0);
      IM (IV 0 0 (-1)) (IV 1 0 0) (IV 0 (-1) 0);
      IM (IV 0 1 0) (IV 0 0 (-1)) (IV (-1) 0 0);
      IM (IV 0 (-1) 0) (IV 0 0 (-1)) (IV 1 0 0);
      IM (IV 0 0 1) (IV (-1) 0 0) (IV 0 (-1) 0);
      IM (IV 0 1 0) (IV 1 0 0) (IV 0 0 (-1));
      IM (IV 0 (-1) 0) (IV (-1) 0 0) (IV 0 0 (-1));
      IM (IV 0 0 1) (IV 0 (-1) 0) (IV 1 0 0);
      IM (IV (-1) 0 0) (IV 0 0 1) (IV 0 1 0);
      IM (IV 0 0 (-1)) (IV 0 (-1) 0) (IV (-1) 0 0);
      IM (IV (-1) 0 0) (IV 0 0 (-1)) (IV 0 (-1) 0)]
  end%Z.
Definition matches (F : m3) (r : m3) (M : imat) : Prop := mm (mt F) r = mm (rmat M) (mt F).
Definition frame_of (g : laue) (F : m3) : Prop :=
  match g with
  | Ci => True
  | C2h => exists a b x z, F = M3 a 0 x 0 b 0 0 0 z
  | D2h => exists a b c, F = M3 a 0 0 0 b 0 0 0 c
  | C4h | D4h => exists a c, F = M3 a 0 0 0 a 0 0 0 c
  | C3i | D3d | C6h | D6h => exists a c, F = M3 a (- (a / 2)) 0 0 (a * (sqrt 3 / 2)) 0 0 0 c
  | Th | Oh => exists a, F = M3 a 0 0 0 a 0 0 0 a
  end.
Ltac entries := unfold matches, rmat; cbn [v0 v1 v2 r0 r1 r2]; lin_unfold; f_equal; try ring; try lra.
Lemma frame_matches : forall g F, frame_of g F -> Forall2 (matches F) (laue_mats g) (index_mats g).
Proof.
  intros g F H. pose proof s3 as Q. destruct g; cbn [frame_of] in H; cbn [laue_mats index_mats].
  - destruct F. repeat constructor; entries.
  - destruct H as (a & b & x & z & ->). repeat constructor; entries.
  - destruct H as (a & b & c & ->). repeat constructor; entries.
  - destruct H as (a & c & ->). repeat constructor; entries.
  - destruct H as (a & c & ->). repeat constructor; entries.
  - destruct H as (a & c & ->). set (u := sqrt 3) in *. clearbody u. repeat constructor; entries; field [Q].
  - destruct H as (a & c & ->). set (u := sqrt 3) in *. clearbody u. repeat constructor; entries; field [Q].
  - destruct H as (a & c & ->). set (u := sqrt 3) in *. clearbody u. repeat constructor; entries; field [Q].
  - destruct H as (a & c & ->). set (u := sqrt 3) in *. clearbody u. repeat constructor; entries; field [Q].
  - destruct H as (a & ->). repeat constructor; entries.
  - destruct H as (a & ->). repeat constructor; entries.
Qed.
Lemma right_frame : forall a b c, cell_frame (Cell (V3 a b c) (V3 (PI / 2) (PI / 2) (PI / 2))) = M3 a 0 0 0 b 0 0 0 c.
Proof.
  intros a b c. unfold cell_frame, cosineXform. cbn [c_len c_ang vx vy vz]. rewrite cos_PI2, sin_PI2.
  replace ((0 * 0 - 0) / (1 * 1)) with 0 by field. replace (1 - 0 * 0) with 1 by ring. rewrite sqrt_1. lin_unfold. f_equal; ring.
Qed.
Lemma mono_frame : forall a b c be, exists x z, cell_frame (Cell (V3 a b c) (V3 (PI / 2) be (PI / 2))) = M3 a 0 x 0 b 0 0 0 z.
Proof.
  intros a b c be. unfold cell_frame, cosineXform. cbn [c_len c_ang vx vy vz]. rewrite cos_PI2, sin_PI2.
  replace ((cos be * 0 - 0) / (sin be * 1)) with 0 by (unfold Rdiv; ring). replace (1 - 0 * 0) with 1 by ring. rewrite sqrt_1.
  exists (c * cos be), (c * sin be). lin_unfold. f_equal; ring.
Qed.
Lemma hex_frame : forall a c, cell_frame (Cell (V3 a a c) (V3 (PI / 2) (PI / 2) (2 * PI / 3))) = M3 a (- (a / 2)) 0 0 (a * (sqrt 3 / 2)) 0 0 0 c.
Proof.
  intros a c. unfold cell_frame, cosineXform. cbn [c_len c_ang vx vy vz]. rewrite cos_PI2, sin_PI2.
  replace (2 * PI / 3) with (2 * (PI / 3)) by field. rewrite cos_2PI3, sin_2PI3.
  replace ((0 * (-1 / 2) - 0) / (1 * (sqrt 3 / 2))) with 0 by (unfold Rdiv; ring).
  replace (1 - 0 * 0) with 1 by ring. rewrite sqrt_1. lin_unfold. f_equal; lra.
Qed.
(** a lattice that has the parameters of the lattice type of the group *)
Definition lattice_for (g : laue) (l : list R) (len ang : v3) (L : lattice) : Prop :=
  parameters_of (PI / 180) (ltypeOfLaueGroup g) l len ang /\ possible_cell len ang /\ latticeVectors l (ltypeOfLaueGroup g) false = Ok L.
Lemma lattice_for_eq : forall g l len ang L, lattice_for g l len ang L -> L = lattice_of (Cell len ang).
Proof. intros g l len ang L (H & P & E). unfold latticeVectors in E. rewrite (params_cell false _ _ _ _ H) in E. now injection E as <-. Qed.
Lemma lattice_for_frame : forall g l len ang L, lattice_for g l len ang L -> frame_of g (l_F L).
Proof.
  intros g l len ang L H. pose proof (lattice_for_eq _ _ _ _ _ H) as ->. destruct H as (H & P & _). cbn [lattice_of l_F].
  destruct g; cbn [ltypeOfLaueGroup frame_of] in *; inversion H; subst; cbn [lattice_of l_F]; try exact I;
    rewrite ?right_frame, ?hex_frame; eauto 6.
  destruct (mono_frame a b c (PI / 180 * be)) as (x & z & ->). eauto 6.
Qed.
Lemma lattice_for_dual : forall g l len ang L, lattice_for g l len ang L -> mm (mt (l_F L)) (l_B L) = mI.
Proof. intros g l len ang L H. rewrite (lattice_for_eq _ _ _ _ _ H). destruct H as (_ & P & _). exact (wf_dual _ _ _ (lattice_wf len ang P)). Qed.
