(** Sampling: the map on the whole cube, the rows, the schedule, the object. *)
From Coq Require Import Reals List ZArith Lra Psatz Permutation.
From Verif Require Import Prelude Lin TensorModel TensorSpec TensorProofs RotModel RotSpec RotProofs RotProofs2 RotGroups UcModel RfzModel RfzSpec RfzProofs RfzZone RfzMap.
Local Open Scope R_scope.

Lemma norm_sq : forall v, norm v * norm v = norm2 v.
Proof. intros v. unfold norm. apply sqrt_sqrt. unfold norm2, dot. nra. Qed.
Lemma maxabs_scale : forall k v, 0 <= k -> vmaxabs (vscale k v) = k * vmaxabs v.
Proof.
  intros k v K. unfold vmaxabs, vscale. cbn [vx vy vz]. rewrite !Rabs_mult, (Rabs_right k) by lra. rewrite !RmaxRmult by exact K. reflexivity.
Qed.
Lemma maxabs_rot : forall a b c, vmaxabs (V3 b c a) = vmaxabs (V3 a b c).
Proof. intros. apply maxabs_shell. destruct (proj2 (maxabs_shell (V3 a b c) _) eq_refl) as (A & B & C & D). cbn [vx vy vz] in *. unfold shell. cbn [vx vy vz]. repeat split; try assumption. tauto. Qed.
Lemma norm2_rot : forall a b c, norm2 (V3 b c a) = norm2 (V3 a b c). Proof. intros. unfold norm2, dot. cbn [vx vy vz]. ring. Qed.
Lemma maxabs_pos : forall v, 0 <= vmaxabs v.
Proof. intros v. destruct (proj2 (maxabs_shell v _) eq_refl) as (A & _). pose proof (Rabs_pos (vx v)). lra. Qed.
Lemma pref_pos : 0 <= pref. Proof. apply sqrt_pos. Qed.
Lemma axis_case : forall v, vmaxabs v = Rabs (vz v) -> tol8 <= vmaxabs v -> norm (lambert v) = pref * vmaxabs v.
Proof.
  intros v M T. destruct (proj2 (maxabs_shell v _) eq_refl) as (A & B & C & _). pose proof tol8_pos. pose proof pref_pos.
  unfold norm. rewrite lambert_norm; [| rewrite <- M; assumption | rewrite <- M; assumption |].
  - replace (pref * vz v * (pref * vz v)) with ((pref * vmaxabs v) * (pref * vmaxabs v)).
    + apply sqrt_square. pose proof (maxabs_pos v). nra.
    + rewrite M. assert (S : Rabs (vz v) * Rabs (vz v) = vz v * vz v) by (rewrite <- Rabs_mult; apply Rabs_right; nra). transitivity (pref * pref * (Rabs (vz v) * Rabs (vz v))); [ring|]. rewrite S. ring.
  - intros E. rewrite M, E, Rabs_R0 in T. lra.
Qed.
Lemma cu2ho_lemma : forall cu, vmaxabs cu <= cuA_2 -> exists ho, cu2ho cu = Ok ho /\
  (sc * vmaxabs cu < tol8 -> ho = vzero) /\ (tol8 <= sc * vmaxabs cu -> norm ho = pref * (sc * vmaxabs cu)).
Proof.
  intros cu H. unfold cu2ho. destruct (Rle_dec (vmaxabs cu) cuA_2); [|contradiction]. destruct (pyramid_spec cu) as (p & EP & CASES). rewrite EP.
  pose proof sc_pos as SP.
  assert (K : forall w, vmaxabs w = vmaxabs cu -> vmaxabs w = Rabs (vz w) ->
    (sc * vmaxabs cu < tol8 -> vmaxabs (vscale sc w) < tol8) /\ (tol8 <= sc * vmaxabs cu -> ~ vmaxabs (vscale sc w) < tol8 /\ norm (lambert (vscale sc w)) = pref * (sc * vmaxabs cu))).
  { intros w W1 W2. rewrite maxabs_scale by lra. rewrite W1. split; [auto|]. intros T. split; [lra|]. rewrite axis_case.
    - rewrite maxabs_scale by lra. now rewrite W1.
    - rewrite maxabs_scale by lra. unfold vscale. cbn [vz]. rewrite Rabs_mult, (Rabs_right sc) by lra. now rewrite W2.
    - rewrite maxabs_scale by lra. now rewrite W1. }
  destruct CASES as [(P & M)|[(P & M)|(P & M)]].
  - destruct (K cu eq_refl M) as (K1 & K2). destruct P as [-> | ->]; cbn [rbind]; destruct (Rlt_dec (vmaxabs (vscale sc cu)) tol8) as [L|L]; (eexists; split; [reflexivity|]);
      split; intros T; try reflexivity; try (exfalso; apply L; now apply K1); destruct (K2 T); try contradiction; assumption.
  - assert (W1 : vmaxabs (V3 (vy cu) (vz cu) (vx cu)) = vmaxabs cu) by (rewrite maxabs_rot; now destruct cu).
    destruct (K (V3 (vy cu) (vz cu) (vx cu)) W1) as (K1 & K2); [rewrite W1; exact M|].
    destruct P as [-> | ->]; cbn [rbind]; destruct (Rlt_dec (vmaxabs (vscale sc (V3 (vy cu) (vz cu) (vx cu)))) tol8) as [L|L]; (eexists; split; [reflexivity|]);
      split; intros T; try reflexivity; try (exfalso; apply L; now apply K1); destruct (K2 T) as (A & B); try contradiction; rewrite <- B; unfold norm; rewrite <- norm2_rot; destruct (lambert _); reflexivity.
  - assert (W1 : vmaxabs (V3 (vz cu) (vx cu) (vy cu)) = vmaxabs cu) by (rewrite <- maxabs_rot; now destruct cu).
    destruct (K (V3 (vz cu) (vx cu) (vy cu)) W1) as (K1 & K2); [rewrite W1; exact M|].
    destruct P as [-> | ->]; cbn [rbind]; destruct (Rlt_dec (vmaxabs (vscale sc (V3 (vz cu) (vx cu) (vy cu)))) tol8) as [L|L]; (eexists; split; [reflexivity|]);
      split; intros T; try reflexivity; try (exfalso; apply L; now apply K1); destruct (K2 T) as (A & B); try contradiction; rewrite <- B; unfold norm; rewrite norm2_rot; destruct (lambert _); reflexivity.
Qed.

(** ** oddness *)
Definition opp (v : v3) : v3 := V3 (- vx v) (- vy v) (- vz v).
Lemma maxabs_opp : forall v, vmaxabs (opp v) = vmaxabs v. Proof. intros. unfold vmaxabs, opp. cbn [vx vy vz]. now rewrite !Rabs_Ropp. Qed.
Lemma lambert_opp : forall v, lambert (opp v) = opp (lambert v).
Proof.
  intros v. unfold lambert, opp. cbn [vx vy vz]. rewrite !Rabs_Ropp. destruct (Rlt_dec _ tol8) as [L|L]; [cbn [vx vy vz]; f_equal; ring|].
  destruct (Rle_dec (Rabs (vy v)) (Rabs (vx v))) as [M|M].
  - assert (NX : vx v <> 0) by (intros E; apply L; rewrite Rmax_left by exact M; rewrite E, Rabs_R0; apply tol8_pos).
    replace (PI / 12 * - vy v / - vx v) with (PI / 12 * vy v / vx v) by (field; exact NX).
    replace (prek * - vx v / sqrt (sqrt 2 - cos (PI / 12 * vy v / vx v))) with (- (prek * vx v / sqrt (sqrt 2 - cos (PI / 12 * vy v / vx v)))) by (unfold Rdiv; ring).
    set (q := prek * vx v / _). set (c := cos _). set (s := sin _). cbn [vx vy vz].
    replace (((sqrt 2 * c - 1) * - q) ^ 2 + (sqrt 2 * s * - q) ^ 2) with (((sqrt 2 * c - 1) * q) ^ 2 + (sqrt 2 * s * q) ^ 2) by ring.
    replace ((- vz v) ^ 2) with (vz v ^ 2) by ring. f_equal; try ring. unfold Rdiv. rewrite Rinv_opp. ring.
  - assert (NY : vy v <> 0) by (intros E; apply M; rewrite E, Rabs_R0; apply Rabs_pos).
    replace (PI / 12 * - vx v / - vy v) with (PI / 12 * vx v / vy v) by (field; exact NY).
    replace (prek * - vy v / sqrt (sqrt 2 - cos (PI / 12 * vx v / vy v))) with (- (prek * vy v / sqrt (sqrt 2 - cos (PI / 12 * vx v / vy v)))) by (unfold Rdiv; ring).
    set (q := prek * vy v / _). set (c := cos _). set (s := sin _). cbn [vx vy vz].
    replace ((sqrt 2 * s * - q) ^ 2 + ((sqrt 2 * c - 1) * - q) ^ 2) with ((sqrt 2 * s * q) ^ 2 + ((sqrt 2 * c - 1) * q) ^ 2) by ring.
    replace ((- vz v) ^ 2) with (vz v ^ 2) by ring. f_equal; try ring. unfold Rdiv. rewrite Rinv_opp. ring.
Qed.
Definition face (p : nat) : nat := match p with 1%nat | 2%nat => 1%nat | 3%nat | 4%nat => 2%nat | 5%nat | 6%nat => 3%nat | _ => 0%nat end.
Lemma pick_face : forall b1 b2 b3 b4 b5 b6 : bool,
  face (if b2 then 1 else if b1 then 2 else if b4 then 3 else if b3 then 4 else if b6 then 5 else if b5 then 6 else 0) =
  face (if b1 then 1 else if b2 then 2 else if b3 then 3 else if b4 then 4 else if b5 then 5 else if b6 then 6 else 0).
Proof. intros [] [] [] [] [] []; reflexivity. Qed.
Lemma face_opp : forall v, face (getPyramid (opp v)) = face (getPyramid v).
Proof. intros v. unfold getPyramid, opp. cbn [vx vy vz]. rewrite !Rabs_Ropp, !Ropp_involutive. apply pick_face. Qed.
(** the map by the face on which the point lies *)
Definition turned (f : nat) (v : v3) : v3 := match f with 1%nat => v | 2%nat => V3 (vy v) (vz v) (vx v) | _ => V3 (vz v) (vx v) (vy v) end.
Definition turned_back (f : nat) (v : v3) : v3 := match f with 1%nat => v | 2%nat => V3 (vz v) (vx v) (vy v) | _ => V3 (vy v) (vz v) (vx v) end.
Lemma cu2ho_face : forall cu, cu2ho cu =
  if Rle_dec (vmaxabs cu) cuA_2 then
    let f := face (getPyramid cu) in
    match f with
    | 0%nat => Err LookupError
    | _ => if Rlt_dec (vmaxabs (vscale sc (turned f cu))) tol8 then Ok vzero else Ok (turned_back f (lambert (vscale sc (turned f cu))))
    end
  else Err AssertionError.
Proof.
  intros cu. unfold cu2ho. destruct (Rle_dec (vmaxabs cu) cuA_2); [|reflexivity]. destruct (getPyramid cu) as [|[|[|[|[|[|[|p]]]]]]]; cbn [face rbind turned turned_back]; reflexivity.
Qed.
Lemma turned_opp : forall f v, turned f (opp v) = opp (turned f v). Proof. intros [|[|[|f]]] v; reflexivity. Qed.
Lemma back_opp : forall f v, turned_back f (opp v) = opp (turned_back f v). Proof. intros [|[|[|f]]] v; reflexivity. Qed.
Lemma scale_opp : forall k v, vscale k (opp v) = opp (vscale k v). Proof. intros. unfold vscale, opp. cbn [vx vy vz]. f_equal; ring. Qed.
Lemma opp_zero : opp vzero = vzero. Proof. unfold opp, vzero. cbn [vx vy vz]. f_equal; ring. Qed.
Lemma cu2ho_opp : forall cu ho, cu2ho cu = Ok ho -> cu2ho (opp cu) = Ok (opp ho).
Proof.
  intros cu ho. rewrite !cu2ho_face, maxabs_opp, face_opp. destruct (Rle_dec (vmaxabs cu) cuA_2); [|discriminate]. cbv zeta.
  rewrite turned_opp, scale_opp, maxabs_opp, lambert_opp, back_opp. destruct (face (getPyramid cu)) as [|f]; [discriminate|].
  destruct (Rlt_dec _ tol8); intros E; injection E as <-; [now rewrite opp_zero|reflexivity].
Qed.
Lemma norm_opp : forall v, norm (opp v) = norm v. Proof. intros. unfold norm, norm2, dot, opp. cbn [vx vy vz]. f_equal. ring. Qed.

(** ** Rodrigues vectors of cubochoric points *)
Lemma ho2ro_unit : forall ho, norm2 (r_ax (ho2ro ho)) = 1.
Proof.
  intros ho. assert (U : norm2 (V3 0 0 1) = 1) by (unfold norm2, dot; cbn [vx vy vz]; ring).
  assert (A : norm2 (a_ax (ho2ax ho)) = 1).
  { unfold ho2ax. destruct (Rlt_dec (norm ho ^ 2) tol8) as [L|L]; [exact U|]. pose proof tol8_pos. pose proof (norm_sq ho) as NS. replace (norm ho ^ 2) with (norm2 ho) in * by (rewrite <- NS; ring).
    assert (E : norm2 (V3 (vx ho / sqrt (norm2 ho)) (vy ho / sqrt (norm2 ho)) (vz ho / sqrt (norm2 ho))) = 1).
    { unfold norm2 at 1, dot. cbn [vx vy vz]. assert (P : 0 < sqrt (norm2 ho)) by (apply sqrt_lt_R0; lra). assert (Q : sqrt (norm2 ho) * sqrt (norm2 ho) = norm2 ho) by (apply sqrt_sqrt; lra).
      transitivity ((vx ho * vx ho + vy ho * vy ho + vz ho * vz ho) / (sqrt (norm2 ho) * sqrt (norm2 ho))); [field; lra|]. rewrite Q. unfold norm2, dot in *. field. lra. }
    destruct (Rlt_dec _ tol8); exact E. }
  unfold ho2ro, ax2ro. destruct (Rlt_dec _ tol8); [exact U|]. destruct (Rlt_dec _ tol8); exact A.
Qed.
Lemma ho2ro_opp : forall ho, ro2qu (ho2ro (opp ho)) = Q4 (qw (ro2qu (ho2ro ho))) (- qx (ro2qu (ho2ro ho))) (- qy (ro2qu (ho2ro ho))) (- qz (ro2qu (ho2ro ho))) /\
  forall pg, insideFZ (ho2ro (opp ho)) pg = insideFZ (ho2ro ho) pg.
Proof.
  intros ho. assert (C : (ho2ro (opp ho) = ho2ro ho /\ r_t (ho2ro ho) = Some 0) \/ ho2ro (opp ho) = ROD (opp (r_ax (ho2ro ho))) (r_t (ho2ro ho))).
  { unfold ho2ro, ho2ax. rewrite norm_opp. destruct (Rlt_dec (norm ho ^ 2) tol8) as [L|L].
    - left. split; [reflexivity|]. unfold ax2ro. cbn [a_ang]. rewrite Rabs_R0. destruct (Rlt_dec 0 tol8) as [K|K]; [reflexivity|]. pose proof tol8_pos. lra.
    - unfold opp. cbn [vx vy vz]. destruct (Rlt_dec (Rabs (2 * acos (fit_poly (norm ho ^ 2)) - PI)) tol8) as [M|M]; unfold ax2ro; cbn [a_ang a_ax].
      + destruct (Rlt_dec (Rabs PI) tol8) as [K|K]; [left; split; reflexivity|]. destruct (Rlt_dec (Rabs (PI - PI)) tol8); right; cbn [r_ax r_t vx vy vz]; f_equal; f_equal; unfold Rdiv; ring.
      + destruct (Rlt_dec (Rabs (2 * acos (fit_poly (norm ho ^ 2)))) tol8) as [K|K]; [left; split; reflexivity|]. destruct (Rlt_dec (Rabs (2 * acos (fit_poly (norm ho ^ 2)) - PI)) tol8); right; cbn [r_ax r_t vx vy vz]; f_equal; f_equal; unfold Rdiv; ring. }
  pose proof (ho2ro_unit ho) as U. destruct C as [(C & T)|C]; rewrite C.
  - split; [|reflexivity]. destruct (ho2ro ho) as [ax t]. cbn [r_t] in T. subst t. rewrite ro2qu_small by (rewrite Rabs_R0; apply tol8_pos). unfold qone. cbn [qw qx qy qz]. f_equal; ring.
  - destruct (ho2ro ho) as [ax t]. cbn [r_ax r_t] in *. assert (U' : norm2 (opp ax) = 1) by (rewrite <- U; unfold norm2, dot, opp; cbn [vx vy vz]; ring). split.
    + destruct t as [t|].
      * destruct (Rlt_le_dec (Rabs t) tol8) as [L|L]; [rewrite !ro2qu_small by exact L; unfold qone; cbn [qw qx qy qz]; f_equal; ring|].
        rewrite !ro2qu_big by assumption. unfold opp. cbn [qw qx qy qz vx vy vz]. f_equal; ring.
      * rewrite !ro2qu_inf. unfold opp. cbn [qw qx qy qz vx vy vz]. f_equal; ring.
    + intros pg. unfold insideFZ. destruct (getFZtypeandOrder pg) as [[ty o]|e]; [|reflexivity]. cbn [rbind]. assert (M : forall a b, - a * b = - (a * b)) by (intros; ring).
      assert (A1 : forall a b c d, Rabs (c * - a + d * - b) = Rabs (c * a + d * b)) by (intros; rewrite <- (Rabs_Ropp (c * a + d * b)); f_equal; ring).
      assert (A2 : forall a b c d, Rabs (c * - a - d * - b) = Rabs (c * a - d * b)) by (intros; rewrite <- (Rabs_Ropp (c * a - d * b)); f_equal; ring).
      assert (A3 : forall a b, Rabs (- a + - b) = Rabs (a + b)) by (intros; rewrite <- (Rabs_Ropp (a + b)); f_equal; ring).
      assert (A4 : forall a b, Rabs (- a - - b) = Rabs (a - b)) by (intros; rewrite <- (Rabs_Ropp (a - b)); f_equal; ring).
      assert (CY : insideCyclicFZ (ROD (opp ax) t) o = insideCyclicFZ (ROD ax t) o).
      { unfold insideCyclicFZ. cbn [r_t r_ax opp vx vy vz]. destruct t as [t|]; [rewrite !M, !Rabs_Ropp; reflexivity|]. unfold opp. cbn [vx vy vz].
        destruct (o =? 2)%Z; [destruct (Req_EM_T (- vy ax) 0), (Req_EM_T (vy ax) 0)|destruct (Req_EM_T (- vz ax) 0), (Req_EM_T (vz ax) 0)]; auto; exfalso; lra. }
      assert (DI : forall t, insideDihedralFZ (opp ax) t o = insideDihedralFZ ax t o) by (intros t0; unfold insideDihedralFZ, opp; cbn [vx vy vz]; rewrite !M, !A1, !A2, !A3, !A4, !Rabs_Ropp; reflexivity).
      assert (CU : forall t b, insideCubicFZ (opp ax) t b = insideCubicFZ ax t b) by (intros t0 b0; unfold insideCubicFZ, opp; cbn [vx vy vz]; rewrite !M, !Rabs_Ropp; reflexivity).
      rewrite CY. cbn [r_t r_ax]. destruct t as [t|]; [rewrite DI, !CU|]; reflexivity.
Qed.
