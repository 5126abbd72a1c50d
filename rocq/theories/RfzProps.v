(** C140: fundamental zones.  C141: the cubochoric map and the sampling.  C142: the sampler object. *)
From Coq Require Import Reals List ZArith Lra Psatz Permutation String.
From Verif Require Import Prelude Lin TensorModel TensorSpec TensorProofs RotModel RotSpec RotProofs RotProofs2 RotGroups UcModel RfzModel RfzSpec RfzProofs RfzZone RfzMap RfzSample RfzGrid.
Local Open Scope R_scope.

(** * C140 *)
(** the quaternion of a Rodrigues vector is the rotation it names; angles with a tangent below 1e-8 become the identity *)
Theorem C140_quaternion : forall ax t, norm2 ax = 1 ->
  match t with
  | Some x => (/ 10 ^ 8 <= Rabs x -> stands_for ax t (ro2qu (ROD ax t))) /\ (Rabs x < / 10 ^ 8 -> ro2qu (ROD ax t) = Q4 1 0 0 0)
  | None => stands_for ax t (ro2qu (ROD ax t))
  end.
Proof.
  intros ax [t|] N.
  - split; intros H; [rewrite ro2qu_big by assumption; now apply stands_big|now apply ro2qu_small].
  - apply ro2qu_inf.
Qed.
Print Assumptions C140_quaternion.

(** For 25 of the 32 point groups the zone test is right, up to one part in 10^8: what it accepts is a smallest equivalent rotation, and an orientation whose
    equivalents are all clearly larger is accepted. *)
Theorem C140_inside_partial : forall pg g ro, laue_of pg = Some g -> g <> D2h -> g <> D3d -> pg <> 31%Z -> norm2 (r_ax ro) = 1 ->
  exists b, insideFZ ro pg = Ok (Some b) /\
    (b = true -> smallest (/ 10 ^ 8) (quatOfLaueGroup g) (ro2qu ro)) /\
    (clearly_smallest (/ 10 ^ 8) (quatOfLaueGroup g) (ro2qu ro) -> b = true).
Proof. exact zone_lemma. Qed.
Print Assumptions C140_inside_partial.

(** Orthorhombic groups (6, 7, 8): no orientation at all is accepted, the identity included. *)
Theorem C140_ortho_refuted : forall ro pg, (6 <= pg <= 8)%Z -> laue_of pg = Some D2h /\ insideFZ ro pg <> Ok (Some true).
Proof.
  intros ro pg H. assert (C : (pg = 6 \/ pg = 7 \/ pg = 8)%Z) by lia. split; [destruct C as [-> |[-> | ->]]; reflexivity|].
  assert (Q : getFZtypeandOrder pg = Ok (2, 2)%Z) by (destruct C as [-> |[-> | ->]]; reflexivity). unfold insideFZ. rewrite Q. cbn [rbind Z.eqb Pos.eqb].
  destruct (r_t ro) as [t|]; [|discriminate]. unfold insideDihedralFZ. cbn [Z.eqb Pos.eqb]. destruct (rleb (sqrt 3) (Rabs t)); [discriminate|]. destruct (rleb _ _); discriminate.
Qed.
Print Assumptions C140_ortho_refuted.

(** what acceptance by the trigonal zone implies *)
Lemma trigonal_bounds : forall ax t, norm2 ax = 1 -> insideDihedralFZ ax t 3 = Some true -> let q := ro2qu (ROD ax (Some t)) in
  0 < qw q /\ Rabs (qz q) <= bp 2 * qw q /\ Rabs (qy q) <= qw q /\ Rabs (sqrt 3 / 2 * qx q + / 2 * qy q) <= qw q /\ Rabs (sqrt 3 / 2 * qx q - / 2 * qy q) <= qw q.
Proof.
  intros ax t N H q. unfold q. clear q. destruct bp_vals as (_ & B2 & _). rewrite B2. destruct (Rlt_le_dec (Rabs t) tol8) as [L|L].
  { rewrite ro2qu_small by exact L. unfold qone. cbn [qw qx qy qz]. repeat split; try (apply abs_le; lra). lra. }
  rewrite ro2qu_big by assumption. cbn [qw qx qy qz]. destruct (cos_atan t) as [C _]. set (c := cos (atan t)) in *. clearbody c.
  unfold insideDihedralFZ in H. cbn [Z.eqb Pos.eqb] in H. change (3 - 1)%Z with 2%Z in H. rewrite B2 in H. destruct (rleb (sqrt 3) (Rabs t)); [discriminate|]. destruct (rleb _ (577350269189626 / 10 ^ 15)) eqn:E; [|discriminate].
  injection H as H. rewrite !andb_true_iff, !rleb_true in H. apply rleb_true in E. destruct H as (H1 & H2 & H3).
  assert (K : forall a b, Rabs a <= b -> Rabs (c * a) <= b * c) by (intros a b A; rewrite Rabs_mult, (Rabs_right c) by lra; nra).
  split; [exact C|]. repeat split.
  - replace (c * (t * vz ax)) with (c * (vz ax * t)) by ring. now apply K.
  - replace (c * (t * vy ax)) with (c * (vy ax * t)) by ring. rewrite <- (Rmult_1_l c) at 2. now apply K.
  - replace (sqrt 3 / 2 * (c * (t * vx ax)) + / 2 * (c * (t * vy ax))) with (c * (sqrt 3 / 2 * (vx ax * t) + / 2 * (vy ax * t))) by ring. rewrite <- (Rmult_1_l c) at 2. now apply K.
  - replace (sqrt 3 / 2 * (c * (t * vx ax)) - / 2 * (c * (t * vy ax))) with (c * (sqrt 3 / 2 * (vx ax * t) - / 2 * (vy ax * t))) by ring. rewrite <- (Rmult_1_l c) at 2. now apply K.
Qed.
(** Trigonal groups 18, 19, 20: the zone is that of a group with other two-fold axes.  A rotation by twice arctan 1.1 about x is accepted although
    the two-fold axis along x brings it closer, *)
Theorem C140_trigonal_refuted : forall pg, (18 <= pg <= 20)%Z ->
  let ro := ROD (V3 1 0 0) (Some (11 / 10)) in
  laue_of pg = Some D3d /\ insideFZ ro pg = Ok (Some true) /\ ~ smallest (/ 20) (quatOfLaueGroup D3d) (ro2qu ro).
Proof.
  intros pg H ro. assert (C : (pg = 18 \/ pg = 19 \/ pg = 20)%Z) by lia. split; [destruct C as [-> |[-> | ->]]; reflexivity|].
  assert (Q : getFZtypeandOrder pg = Ok (2, 3)%Z) by (destruct C as [-> |[-> | ->]]; reflexivity). pose proof s3_close as S3. pose proof s3_pos as S3p. destruct bp_vals as (_ & B2 & _). split.
  - unfold insideFZ. rewrite Q. cbn [rbind Z.eqb Pos.eqb ro r_t r_ax]. unfold insideDihedralFZ. cbn [Z.eqb Pos.eqb vx vy vz]. rewrite sq3_false by lra.
    change (3 - 1)%Z with 2%Z. rewrite B2. rewrite (proj2 (rleb_true _ _)) by (apply abs_le; lra). f_equal. f_equal. rewrite !andb_true_iff, !rleb_true. repeat split; apply abs_le; split; nra.
  - intros S. unfold ro in S. rewrite ro2qu_big in S; [|unfold norm2, dot; cbn [vx vy vz]; ring|rewrite tol8_val, Rabs_right; lra]. cbn [vx vy vz] in S. destruct (cos_atan (11 / 10)) as [C0 _].
    pose proof (proj1 (smallest_turn (/ 20) D3d _ _ _ _ C0) S) as F. rewrite Forall_forall in F. specialize (F (Zq 0 2 0 0) ltac:(cbn [table In]; tauto)). turns_in F. apply abs_le in F. lra.
Qed.
Print Assumptions C140_trigonal_refuted.
(** and some orientations have no equivalent in the zone at all, so that the sampling cannot come near them. *)
Theorem C140_trigonal_missing_refuted : forall pg, (18 <= pg <= 20)%Z ->
  exists ax t, norm2 ax = 1 /\ unitq (ro2qu (ROD ax (Some t))) /\
    forall ro, norm2 (r_ax ro) = 1 -> equivalent (quatOfLaueGroup D3d) (ro2qu ro) (ro2qu (ROD ax (Some t))) -> insideFZ ro pg <> Ok (Some true).
Proof.
  intros pg H. assert (C : (pg = 18 \/ pg = 19 \/ pg = 20)%Z) by lia.
  assert (Q : getFZtypeandOrder pg = Ok (2, 3)%Z) by (destruct C as [-> |[-> | ->]]; reflexivity). pose proof s3_close as S3. pose proof s3_pos as S3p. pose proof s3 as SS3. destruct bp_vals as (_ & B2 & _).
  exists (V3 0 (12 / 13) (5 / 13)), (13 / 10). assert (N : norm2 (V3 0 (12 / 13) (5 / 13)) = 1) by (unfold norm2, dot; cbn [vx vy vz]; field). split; [exact N|].
  assert (BIG : tol8 <= Rabs (13 / 10)) by (rewrite tol8_val, Rabs_right; lra). pose proof (stands_big _ (13 / 10) N) as ST. rewrite ro2qu_big by assumption. split; [apply ST|].
  destruct (cos_atan (13 / 10)) as [C0 _]. set (c := cos (atan (13 / 10))) in *. clearbody c. cbn [vx vy vz]. intros [ax t] N' (s & I & E) F. cbn [r_ax] in N'.
  unfold insideFZ in F. rewrite Q in F. cbn [rbind Z.eqb Pos.eqb r_t r_ax] in F. destruct t as [t|]; [|discriminate]. injection F as F. destruct (trigonal_bounds ax t N' F) as (W & Z & Y & P & M). rewrite B2 in Z.
  set (p := ro2qu (ROD ax (Some t))) in *. clearbody p. apply abs_le in Z, Y, P, M.
  rewrite table_ok in I. apply in_map_iff in I. destruct I as (zq & <- & I). cbn [table In] in I.
  repeat destruct I as [I|I]; try contradiction I; subst zq; unfold negq, hmul in E; turns_in E; destruct E as [-> | ->]; cbn [qw qx qy qz] in *; try nra.
Qed.
Print Assumptions C140_trigonal_missing_refuted.

(** Point group 31 (-43m): the zone used is that of the tetrahedral rotations ... *)
Theorem C140_43m_partial : forall ro, norm2 (r_ax ro) = 1 -> exists b, insideFZ ro 31 = Ok (Some b) /\
    (b = true -> smallest (/ 10 ^ 8) (quatOfLaueGroup Th) (ro2qu ro)) /\
    (clearly_smallest (/ 10 ^ 8) (quatOfLaueGroup Th) (ro2qu ro) -> b = true).
Proof. intros ro N. destruct (zone_lemma 28 Th ro eq_refl) as (b & A & B); try discriminate; [exact N|]. exists b. split; [|exact B]. rewrite <- A. reflexivity. Qed.
Print Assumptions C140_43m_partial.
(** ... although its Laue group is m-3m, as for 30 and 32: two equivalent orientations are both accepted *)
Theorem C140_43m_refuted : let p := ROD (V3 (-1) 0 0) (Some (1 / 2)) in let q := ROD (V3 1 0 0) (Some (1 / 3)) in
  laue_of 31 = Some Oh /\ insideFZ p 31 = Ok (Some true) /\ insideFZ q 31 = Ok (Some true) /\ equivalent (quatOfLaueGroup Oh) (ro2qu q) (ro2qu p) /\ ~ smallest (/ 100) (quatOfLaueGroup Oh) (ro2qu p).
Proof.
  intros p q. split; [reflexivity|]. pose proof tol8_pos as TP. pose proof tol8_val as TV.
  assert (IN : forall a t, -1 <= a * t <= 1 -> insideFZ (ROD (V3 a 0 0) (Some t)) 31 = Ok (Some true)).
  { intros a t A. unfold insideFZ. change (getFZtypeandOrder 31) with (Ok (3, 0)%Z). cbn [rbind Z.eqb Pos.eqb r_t r_ax]. f_equal. f_equal. unfold insideCubicFZ. cbn [vx vy vz andb]. apply rleb_true. rewrite !Rmult_0_l, !Rabs_R0.
    assert (Rabs (a * t) <= 1) by (apply abs_le; lra). lra. }
  split; [apply IN; lra|]. split; [apply IN; lra|].
  pose proof (stands_big (V3 (-1) 0 0) (1 / 2) ltac:(unfold norm2, dot; cbn [vx vy vz]; ring)) as SP. pose proof (stands_big (V3 1 0 0) (1 / 3) ltac:(unfold norm2, dot; cbn [vx vy vz]; ring)) as SQ.
  unfold p, q. rewrite !ro2qu_big by (first [unfold norm2, dot; cbn [vx vy vz]; ring | rewrite tol8_val, Rabs_right; lra]).
  destruct (cos_atan (1 / 2)) as [C1 _]. destruct (cos_atan (1 / 3)) as [C2 _]. cbn [vx vy vz] in *. destruct SP as (UP & _). destruct SQ as (UQ & _). set (c := cos (atan (1 / 2))) in *. set (d := cos (atan (1 / 3))) in *. clearbody c d.
  unfold unitq in UP, UQ. cbn [qw qx qy qz] in UP, UQ. pose proof s2 as SS2. pose proof s2_pos as S2p. pose proof s2_close as S2c.
  assert (CD : d = 3 * sqrt 2 / 4 * c).
  { assert (Z : (d - 3 * sqrt 2 / 4 * c) * (d + 3 * sqrt 2 / 4 * c) = 0) by (transitivity (d * d - 9 / 16 * (sqrt 2 * sqrt 2) * (c * c)); [field|]; rewrite SS2; lra). apply Rmult_integral in Z. destruct Z as [Z|Z]; [lra|nra]. }
  split.
  - exists (qval (ZQ (RotGroups.r2 1) (RotGroups.r2 1) (zi 0) (zi 0))). split; [rewrite table_ok; apply in_map; cbn [table In]; tauto|]. left. unfold hmul, qval, zval, RotGroups.r2, zi. cbn [zw zx zy zz za zb zc zd qw qx qy qz]. rewrite CD. f_equal; field.
  - intros S. rewrite Rmult_0_r in S. pose proof (proj1 (smallest_turn (/ 100) Oh c _ _ _ C1) S) as F. rewrite Forall_forall in F. specialize (F (ZQ (RotGroups.r2 1) (RotGroups.r2 1) (zi 0) (zi 0)) ltac:(cbn [table In]; tauto)).
    unfold turn, qval, zval, RotGroups.r2, zi in F. cbn [zw zx zy zz za zb zc zd qw qx qy qz] in F. apply abs_le in F. lra.
Qed.
Print Assumptions C140_43m_refuted.

(** the identity is accepted, and a rotation of 58 degrees about z is not, for a tetragonal crystal *)
Example C140_ex : insideFZ (ROD (V3 0 0 1) (Some 0)) 15 = Ok (Some true) /\ insideFZ (ROD (V3 0 0 1) (Some (1 / 2))) 9 = Ok (Some false) /\ norm2 (r_ax (ROD (V3 0 0 1) (Some (1 / 2)))) = 1.
Proof.
  destruct bp_vals as (_ & _ & B3 & _). pose proof s3_close. split; [|split].
  - unfold insideFZ. change (getFZtypeandOrder 15) with (Ok (2, 4)%Z). cbn [rbind Z.eqb Pos.eqb r_t r_ax]. unfold insideDihedralFZ. cbn [Z.eqb Pos.eqb vx vy vz]. change (4 - 1)%Z with 3%Z. rewrite B3, sq3_false by lra. rewrite !Rmult_0_r, Rplus_0_r, Rminus_0_r, Rabs_R0, Rmult_0_r.
    rewrite !(proj2 (rleb_true 0 _)) by lra. reflexivity.
  - unfold insideFZ. change (getFZtypeandOrder 9) with (Ok (1, 4)%Z). cbn [rbind Z.eqb Pos.eqb]. unfold insideCyclicFZ. cbn [r_t r_ax vz Z.eqb Pos.eqb]. change (4 - 1)%Z with 3%Z. rewrite B3. unfold rleb. destruct (Rle_dec _ _) as [L|L]; [|reflexivity]. apply abs_le in L. lra.
  - unfold norm2, dot. cbn [r_ax vx vy vz]. ring.
Qed.

(** * C141 *)
(** The cubochoric map carries the surface of each cube to the surface of a sphere, in proportion; the whole cube (half edge pi^(2/3)/2) goes to the
    ball of radius (3 pi/4)^(1/3).  Points closer than 2e-8 to the centre may go to the centre. *)
Theorem C141_shells : forall v m, shell v m -> m <= Rpower PI (2 / 3) / 2 -> exists ho, cu2ho v = Ok ho /\
  (2 / 10 ^ 8 <= m -> norm ho = m / (Rpower PI (2 / 3) / 2) * Rpower (3 * PI / 4) (1 / 3)) /\
  (m < 2 / 10 ^ 8 -> norm ho = m / (Rpower PI (2 / 3) / 2) * Rpower (3 * PI / 4) (1 / 3) \/ ho = vzero).
Proof.
  intros v m S M. apply maxabs_shell in S. subst m. assert (H : vmaxabs v <= cuA_2) by (unfold cuA_2; lra). destruct (cu2ho_lemma v H) as (ho & E & Z & NZ). exists ho. split; [exact E|].
  pose proof sc_half as SH. pose proof tol8_val as TV. pose proof (rp_pos PI (2 / 3)) as PP.
  assert (V : pref * (sc * vmaxabs v) = vmaxabs v / (Rpower PI (2 / 3) / 2) * Rpower (3 * PI / 4) (1 / 3)) by (rewrite <- Rmult_assoc, radius_val; unfold cuA_2; field; lra). rewrite <- V. split.
  - intros B. apply NZ. rewrite TV. nra.
  - intros _. destruct (Rlt_le_dec (sc * vmaxabs v) tol8) as [L|L]; [right; now apply Z|left; now apply NZ].
Qed.
Print Assumptions C141_shells.
(** a point outside the cube is refused *)
Theorem C141_outside : forall v m, shell v m -> Rpower PI (2 / 3) / 2 < m -> cu2ho v = Err AssertionError.
Proof. intros v m S M. apply maxabs_shell in S. subst m. unfold cu2ho. destruct (Rle_dec (vmaxabs v) cuA_2) as [L|L]; [unfold cuA_2 in L; lra|reflexivity]. Qed.
Print Assumptions C141_outside.
(** opposite points are opposite rotations, and both or neither are in a zone *)
Theorem C141_opposite : forall x y z ho, cu2ho (V3 x y z) = Ok ho ->
  cu2ho (V3 (- x) (- y) (- z)) = Ok (V3 (- vx ho) (- vy ho) (- vz ho)) /\
  exists r s, cu2ro (V3 x y z) = Ok r /\ cu2ro (V3 (- x) (- y) (- z)) = Ok s /\ (forall pg, insideFZ s pg = insideFZ r pg) /\
    ro2qu s = Q4 (qw (ro2qu r)) (- qx (ro2qu r)) (- qy (ro2qu r)) (- qz (ro2qu r)).
Proof.
  intros x y z ho H. pose proof (cu2ho_opp _ _ H) as O. change (opp (V3 x y z)) with (V3 (- x) (- y) (- z)) in O. split; [exact O|]. unfold cu2ro. rewrite H, O. cbn [rbind].
  destruct (ho2ro_opp ho) as (A & B). eexists. eexists. split; [reflexivity|]. split; [reflexivity|]. split; [exact B|exact A].
Qed.
Print Assumptions C141_opposite.

(** The rows written do not depend on how the iterations are scheduled, and are the points of the grid in the zone. *)
Definition good_schedule (sched : Z -> list (Z * Z * Z)) : Prop :=
  forall N, NoDup (sched N) /\ forall i j k, In (i, j, k) (sched N) <-> (- N <= i <= N)%Z /\ (- N <= j <= N)%Z /\ (- N <= k <= N)%Z.
Lemma nodup_flat : forall (A B : Type) (f : A -> list B) l, NoDup l -> (forall a, In a l -> NoDup (f a)) -> (forall a b x, In a l -> In b l -> In x (f a) -> In x (f b) -> a = b) -> NoDup (flat_map f l).
Proof.
  intros A B f l. induction l as [|a l IH]; intros N F D; [constructor|]. inversion N as [|? ? NI NL]; subst. cbn [flat_map].
  assert (K : forall l1 l2 : list B, NoDup l1 -> NoDup l2 -> (forall x, In x l1 -> In x l2 -> False) -> NoDup (l1 ++ l2)).
  { intros l1. induction l1 as [|x l1 IH1]; intros l2 N1 N2 DJ; [exact N2|]. inversion N1; subst. cbn. constructor; [intros I; apply in_app_or in I; destruct I; [contradiction|apply (DJ x); [now left|assumption]]|]. apply IH1; auto. intros y Y1 Y2. apply (DJ y); [now right|assumption]. }
  apply K; [apply F; now left|apply IH; auto; intros; [apply F; now right|apply (D a0 b x); auto; now right]|]. intros x X1 X2. apply in_flat_map in X2. destruct X2 as (b & IB & XB). apply NI. rewrite (D a b x); auto; [now left|now right].
Qed.
Lemma triples_nodup : forall N, NoDup (triples N).
Proof.
  intros N. unfold triples. apply nodup_flat; [apply zrange_nodup| |].
  - intros i _. apply nodup_flat; [apply zrange_nodup| |].
    + intros j _. apply FinFun.Injective_map_NoDup; [intros a b E; now injection E|apply zrange_nodup].
    + intros a b x _ _ X Y. apply in_map_iff in X, Y. destruct X as (k & <- & _). destruct Y as (k' & E & _). now injection E.
  - intros a b x _ _ X Y. apply in_flat_map in X, Y. destruct X as (j & _ & X). destruct Y as (j' & _ & Y). apply in_map_iff in X, Y. destruct X as (k & <- & _). destruct Y as (k' & E & _). now injection E.
Qed.
Lemma schedule_perm : forall sched N, good_schedule sched -> Permutation (sched N) (triples N).
Proof.
  intros sched N G. destruct (G N) as (ND & I). apply NoDup_Permutation; [exact ND|apply triples_nodup|]. intros ((i, j), k). rewrite I. symmetry. apply in_triples.
Qed.
Theorem C141_schedule : forall s1 s2 pg N delta shift, (0 <= N)%Z -> (1 <= pg <= 32)%Z -> good_schedule s1 -> good_schedule s2 ->
  sample_rows (s1 N) pg N delta shift (Rpower PI (2 / 3) / 2) = sample_rows (s2 N) pg N delta shift (Rpower PI (2 / 3) / 2).
Proof. intros s1 s2 pg N delta shift HN HP G1 G2. replace (Rpower PI (2 / 3) / 2) with cuA_2 by (unfold cuA_2; field). rewrite !rows_lemma; auto using schedule_perm. Qed.
Print Assumptions C141_schedule.

Lemma rint_close : forall x, Rabs (IZR (rint x) - x) <= 1 / 2.
Proof.
  intros x. unfold rint. destruct (base_Int_part x) as [A B]. apply abs_le. destruct (Rlt_dec _ _); [lra|]. destruct (Rlt_dec _ _); [rewrite plus_IZR; lra|]. destruct (Z.even _); [lra|rewrite plus_IZR; lra].
Qed.
Lemma rint_nonneg : forall x, 0 < x -> (0 <= rint x)%Z.
Proof.
  intros x H. pose proof (rint_close x) as C. apply abs_le in C. apply Z.lt_succ_r. apply lt_IZR. unfold Z.succ. rewrite plus_IZR. lra.
Qed.
Definition kinds (st : string) (shift a b : R) : Prop :=
  (st = "default"%string /\ shift = 0 /\ a = 13197049 / 100000 /\ b = 3732 / 100000) \/ (st = "special"%string /\ shift = 1 / 2 /\ a = 12570471 / 100000 /\ b = 7127 / 100000).
Lemma sample_unfold : forall lower sched st shift a b pg ang, lower "default"%string = "default"%string -> lower "special"%string = "special"%string -> kinds st shift a b -> ang <> b ->
  sample lower sched pg st ang = let N := rint (a / (ang - b)) in if (N =? 0)%Z then Ok [] else do rows <- sample_rows (sched N) pg N (cuA_2 / IZR N) shift cuA_2; Ok (keep_rows rows).
Proof.
  intros lower sched st shift a b pg ang L1 L2 [(-> & -> & -> & ->)|(-> & -> & -> & ->)] H; unfold sample, sampling_N, shift_of; rewrite ?L1, ?L2; cbn [String.eqb Ascii.eqb Bool.eqb].
  - destruct (Req_EM_T (ang - 3732 / 100000) 0); [lra|]. reflexivity.
  - destruct (Req_EM_T (ang - 7127 / 100000) 0); [lra|]. cbn [rbind]. replace (1 / 2) with (/ 2) by field. reflexivity.
Qed.
(** The whole sampling: with N the nearest integer of a/(spacing - b), the orientations returned are exactly those of the grid points in the zone, however the
    threads are scheduled. *)
Theorem C141_sample : forall lower sched st shift a b pg ang, lower "default"%string = "default"%string -> lower "special"%string = "special"%string -> good_schedule sched ->
  kinds st shift a b -> b < ang -> (1 <= pg <= 32)%Z ->
  exists N l, Rabs (IZR N - a / (ang - b)) <= 1 / 2 /\ sample lower sched pg st ang = Ok l /\ (N = 0%Z -> l = []) /\
    ((0 < N)%Z -> forall q, In q l <-> sampled pg N (Rpower PI (2 / 3) / 2 / IZR N) shift (Rpower PI (2 / 3) / 2) q).
Proof.
  intros lower sched st shift a b pg ang L1 L2 G K H HP. rewrite (sample_unfold lower sched st shift a b pg ang L1 L2 K ltac:(lra)). cbv zeta. set (N := rint (a / (ang - b))).
  assert (AP : 0 < a / (ang - b)) by (apply Rmult_lt_0_compat; [destruct K as [(_ & _ & -> & _)|(_ & _ & -> & _)]; lra|apply Rinv_0_lt_compat; lra]).
  assert (HN : (0 <= N)%Z) by now apply rint_nonneg. assert (CL : Rabs (IZR N - a / (ang - b)) <= 1 / 2) by apply rint_close. clearbody N. replace (Rpower PI (2 / 3) / 2) with cuA_2 by (unfold cuA_2; field).
  destruct (N =? 0)%Z eqn:Z0; [apply Z.eqb_eq in Z0; exists N, []; repeat split; auto; lia|]. rewrite rows_lemma by auto using schedule_perm. cbn [rbind].
  exists N, (keep_rows (map (cell pg (cuA_2 / IZR N) shift) (triples N))). split; [exact CL|]. split; [reflexivity|]. split; [intros ->; discriminate|]. intros _ q. rewrite keep_in. now apply cell_sampled.
Qed.
Print Assumptions C141_sample.
(** Every orientation returned is a unit quaternion and the smallest of its equivalents, for the groups whose zone is right. *)
Theorem C141_in_zone_partial : forall lower sched st shift a b pg g ang l q, lower "default"%string = "default"%string -> lower "special"%string = "special"%string -> good_schedule sched ->
  kinds st shift a b -> b < ang -> laue_of pg = Some g -> g <> D2h -> g <> D3d -> pg <> 31%Z ->
  sample lower sched pg st ang = Ok l -> In q l -> unitq q /\ smallest (/ 10 ^ 8) (quatOfLaueGroup g) q.
Proof.
  intros lower sched st shift a b pg g ang l q L1 L2 G K H LG G1 G2 P E I.
  assert (HP : (1 <= pg <= 32)%Z).
  { unfold laue_of in LG. destruct (Z_lt_le_dec pg 1) as [A|A]; [rewrite (proj2 (Z.ltb_lt _ _) A) in LG; discriminate|]. destruct (Z_lt_le_dec pg 33) as [B|B]; [split; [exact A|apply Z.lt_succ_r; exact B]|].
    rewrite (proj2 (Z.ltb_ge _ _) A) in LG. repeat match type of LG with context [(?x <=? ?k)%Z] => rewrite (proj2 (Z.leb_gt x k)) in LG by (apply Z.lt_le_trans with 33%Z; [reflexivity|exact B]) end. discriminate. }
  destruct (C141_sample lower sched st shift a b pg ang L1 L2 G K H HP) as (N & l' & CL & E' & Z0 & S). rewrite E in E'. injection E' as <-.
  assert (HN : (0 <= N)%Z).
  { assert (AP : 0 < a / (ang - b)) by (apply Rmult_lt_0_compat; [destruct K as [(_ & _ & -> & _)|(_ & _ & -> & _)]; lra|apply Rinv_0_lt_compat; lra]). apply abs_le in CL. apply Z.lt_succ_r. apply lt_IZR. unfold Z.succ. rewrite plus_IZR. lra. }
  destruct (Z.eq_dec N 0) as [NZ|NZ]; [rewrite (Z0 NZ) in I; destruct I|]. apply S in I; [|lia]. destruct I as (i & j & k & ro & _ & _ & _ & B1 & B2 & B3 & CU & F & ->).
  assert (U : norm2 (r_ax ro) = 1).
  { assert (M : vmaxabs (V3 ((IZR i + shift) * (Rpower PI (2 / 3) / 2 / IZR N)) ((IZR j + shift) * (Rpower PI (2 / 3) / 2 / IZR N)) ((IZR k + shift) * (Rpower PI (2 / 3) / 2 / IZR N))) <= cuA_2)
      by (replace cuA_2 with (Rpower PI (2 / 3) / 2) by (unfold cuA_2; field); unfold vmaxabs; cbn [vx vy vz]; repeat apply Rmax_lub; assumption).
    destruct (cu2ro_ok _ M) as (ro' & E1 & U). rewrite CU in E1. now injection E1 as <-. }
  split.
  - destruct ro as [ax t]. cbn [r_ax] in U. destruct t as [t|].
    + destruct (Rlt_le_dec (Rabs t) tol8) as [T|T]; [rewrite ro2qu_small by exact T; unfold unitq, qone; cbn [qw qx qy qz]; ring|]. rewrite ro2qu_big by assumption. now apply stands_big.
    + rewrite ro2qu_inf. unfold unitq. cbn [qw qx qy qz]. unfold norm2, dot in U. lra.
  - destruct (zone_lemma pg g ro LG G1 G2 P U) as (bb & F' & Z & _). rewrite F in F'. injection F' as <-. now apply Z.
Qed.
Print Assumptions C141_in_zone_partial.
(** The inverse of every orientation returned is returned too, for both kinds of grid and for every group. *)
Theorem C141_inverse : forall lower sched st shift a b pg ang l q, lower "default"%string = "default"%string -> lower "special"%string = "special"%string -> good_schedule sched ->
  kinds st shift a b -> b < ang -> (1 <= pg <= 32)%Z -> sample lower sched pg st ang = Ok l -> In q l -> In (Q4 (qw q) (- qx q) (- qy q) (- qz q)) l.
Proof.
  intros lower sched st shift a b pg ang l q L1 L2 G K H HP E I.
  destruct (C141_sample lower sched st shift a b pg ang L1 L2 G K H HP) as (N & l' & CL & E' & Z0 & S). rewrite E in E'. injection E' as <-.
  assert (HN : (0 <= N)%Z).
  { assert (AP : 0 < a / (ang - b)) by (apply Rmult_lt_0_compat; [destruct K as [(_ & _ & -> & _)|(_ & _ & -> & _)]; lra|apply Rinv_0_lt_compat; lra]). apply abs_le in CL. apply Z.lt_succ_r. apply lt_IZR. unfold Z.succ. rewrite plus_IZR. lra. }
  destruct (Z.eq_dec N 0) as [NZ|NZ]; [rewrite (Z0 NZ) in I; destruct I|]. assert (NP : (0 < N)%Z) by lia. apply (S NP) in I. apply (S NP). destruct I as (i & j & k & ro & Hi & Hj & Hk & B1 & B2 & B3 & CU & F & ->).
  set (he := Rpower PI (2 / 3) / 2) in *. set (delta := he / IZR N) in *. pose proof (rp_pos PI (2 / 3)) as PP. assert (HE : 0 < he) by (unfold he; lra). assert (IN : 1 <= IZR N) by (apply IZR_le; lia).
  assert (DP : 0 < delta) by (apply Rmult_lt_0_compat; [exact HE|apply Rinv_0_lt_compat; lra]). assert (ND : IZR N * delta = he) by (unfold delta; field; lra).
  assert (MIR : forall n : Z, (- N <= n <= N)%Z -> Rabs ((IZR n + shift) * delta) <= he -> exists n', (- N <= n' <= N)%Z /\ (IZR n' + shift) * delta = - ((IZR n + shift) * delta)).
  { intros n Hn Bn. destruct K as [(_ & -> & _)|(_ & -> & _)].
    - exists (- n)%Z. split; [lia|]. rewrite opp_IZR. ring.
    - exists (- n - 1)%Z. split.
      + assert (n <> N); [|lia]. intros ->. apply abs_le in Bn. nra.
      + rewrite minus_IZR, opp_IZR. field. }
  destruct (MIR i Hi B1) as (i' & Hi' & Ei). destruct (MIR j Hj B2) as (j' & Hj' & Ej). destruct (MIR k Hk B3) as (k' & Hk' & Ek).
  unfold cu2ro in CU. destruct (cu2ho _) as [ho|] eqn:HO in CU; [|discriminate]. destruct (C141_opposite _ _ _ _ HO) as (_ & r & s & R1 & R2 & FF & QQ). unfold cu2ro in R1. rewrite HO in R1. cbn [rbind] in R1, CU. rewrite CU in R1. injection R1 as <-.
  exists i', j', k', s. rewrite Ei, Ej, Ek, !Rabs_Ropp. rewrite FF. rewrite QQ. tauto.
Qed.
Print Assumptions C141_inverse.
(** The default grid always returns the identity, except for the orthorhombic groups, ... *)
Lemma cu2ro_zero : cu2ro (V3 0 0 0) = Ok (ROD (V3 0 0 1) (Some 0)).
Proof.
  assert (M : vmaxabs (V3 0 0 0) = 0) by (apply maxabs_shell; unfold shell; cbn [vx vy vz]; rewrite Rabs_R0; repeat split; try lra; tauto). pose proof (rp_pos PI (2 / 3)). pose proof tol8_pos.
  destruct (cu2ho_lemma (V3 0 0 0)) as (ho & E & Z & _); [rewrite M; unfold cuA_2; lra|]. unfold cu2ro. rewrite E, Z by (rewrite M; lra). cbn [rbind]. f_equal. unfold ho2ro, ho2ax.
  replace (norm vzero ^ 2) with 0 by (unfold norm, norm2, dot, vzero; cbn [vx vy vz]; replace (0 * 0 + 0 * 0 + 0 * 0) with 0 by ring; rewrite sqrt_0; ring). destruct (Rlt_dec 0 tol8) as [L|L]; [|lra].
  unfold ax2ro. cbn [a_ang]. rewrite Rabs_R0. destruct (Rlt_dec 0 tol8); [reflexivity|lra].
Qed.
Lemma id_inside : forall pg, (1 <= pg <= 32)%Z -> (pg < 6 \/ 8 < pg)%Z -> insideFZ (ROD (V3 0 0 1) (Some 0)) pg = Ok (Some true).
Proof.
  intros pg H1 H2. destruct bp_vals as (B1 & B2 & B3 & B5). pose proof s3_pos. pose proof tol8_pos.
  assert (CY : forall o, (o = 2 \/ o = 3 \/ o = 4 \/ o = 6)%Z -> insideCyclicFZ (ROD (V3 0 0 1) (Some 0)) o = true).
  { intros o O. unfold insideCyclicFZ. cbn [r_t r_ax vx vy vz]. rewrite !Rmult_0_r, Rabs_R0. destruct O as [-> |[-> |[-> | ->]]]; cbn [Z.eqb Pos.eqb]; apply rleb_true;
      [change (2 - 1)%Z with 1%Z; rewrite B1|change (3 - 1)%Z with 2%Z; rewrite B2|change (4 - 1)%Z with 3%Z; rewrite B3|change (6 - 1)%Z with 5%Z; rewrite B5]; lra. }
  assert (DI : forall o, (o = 3 \/ o = 4 \/ o = 6)%Z -> insideDihedralFZ (V3 0 0 1) 0 o = Some true).
  { intros o O. unfold insideDihedralFZ. rewrite sq3_false by lra. cbn [vx vy vz]. rewrite !Rmult_0_r, !Rplus_0_r, !Rminus_0_r, Rabs_R0, Rmult_0_r.
    assert (R0 : forall x, 0 <= x -> rleb 0 x = true) by (intros; now apply rleb_true). assert (R1 : rltb 0 1 = true) by (apply rltb_true; lra).
    destruct O as [-> |[-> | ->]]; cbn [Z.eqb Pos.eqb]; [change (3 - 1)%Z with 2%Z; rewrite B2|change (4 - 1)%Z with 3%Z; rewrite B3|change (6 - 1)%Z with 5%Z; rewrite B5]; rewrite !R0 by lra; rewrite ?R1; reflexivity. }
  assert (CU : forall b, insideCubicFZ (V3 0 0 1) 0 b = true).
  { intros b. unfold insideCubicFZ. cbn [vx vy vz]. rewrite !Rmult_0_r, Rabs_R0, B3. rewrite (Rmax_left 0 0) by lra. rewrite (Rmax_left 0 0) by lra. apply andb_true_iff. split; [destruct b; [|reflexivity]|]; apply rleb_true; lra. }
  assert (I : In pg (zrange 1 33)) by (apply in_zrange; lia). let l := eval vm_compute in (zrange 1 33) in change (In pg l) in I. cbn [In] in I.
  repeat destruct I as [I|I]; try contradiction I; subst pg; try (exfalso; lia);
  match goal with |- context [insideFZ _ ?n] => let r := eval vm_compute in (getFZtypeandOrder n) in assert (Q : getFZtypeandOrder n = r) by reflexivity end;
  unfold insideFZ; rewrite Q; cbn [rbind Z.eqb Pos.eqb r_t r_ax]; rewrite ?CU; rewrite ?CY by tauto; rewrite ?DI by tauto; reflexivity.
Qed.
Theorem C141_identity : forall lower sched pg ang l, lower "default"%string = "default"%string -> lower "special"%string = "special"%string -> good_schedule sched ->
  3732 / 100000 < ang < 263 -> (1 <= pg <= 32)%Z -> laue_of pg <> Some D2h -> sample lower sched pg "default" ang = Ok l -> In (Q4 1 0 0 0) l.
Proof.
  intros lower sched pg ang l L1 L2 G H HP LG E.
  destruct (C141_sample lower sched "default" 0 (13197049 / 100000) (3732 / 100000) pg ang L1 L2 G) as (N & l' & CL & E' & Z0 & S); auto; [left; auto|lra|]. rewrite E in E'. injection E' as <-.
  assert (NP : (0 < N)%Z).
  { assert (XA : 13197049 / 100000 / (ang - 3732 / 100000) * (ang - 3732 / 100000) = 13197049 / 100000) by (field; lra). set (x := 13197049 / 100000 / (ang - 3732 / 100000)) in *. clearbody x. apply abs_le in CL.
    assert (HALF : 1 / 2 < x) by (apply Rmult_lt_reg_r with (ang - 3732 / 100000); lra). apply lt_IZR. lra. }
  apply (S NP). exists 0%Z, 0%Z, 0%Z, (ROD (V3 0 0 1) (Some 0)). pose proof (rp_pos PI (2 / 3)).
  assert (ZZ : (0 + 0) * (Rpower PI (2 / 3) / 2 / IZR N) = 0) by ring. rewrite ZZ, Rabs_R0. repeat split; try lia; try lra.
  - apply cu2ro_zero.
  - apply id_inside; [exact HP|]. destruct (Z_lt_le_dec pg 6) as [A|A]; [now left|]. right. destruct (Z_lt_le_dec 8 pg) as [B|B]; [exact B|exfalso]. apply LG. now apply (C140_ortho_refuted (ROD (V3 0 0 1) None)).
  - now rewrite ro2qu_small by (rewrite Rabs_R0; apply tol8_pos).
Qed.
Print Assumptions C141_identity.
(** ... for which it returns nothing whatever the spacing. *)
Theorem C141_ortho_refuted : forall lower sched st shift a b pg ang l, lower "default"%string = "default"%string -> lower "special"%string = "special"%string -> good_schedule sched ->
  kinds st shift a b -> b < ang -> (6 <= pg <= 8)%Z -> sample lower sched pg st ang = Ok l -> l = [].
Proof.
  intros lower sched st shift a b pg ang l L1 L2 G K H HP E. destruct (C141_sample lower sched st shift a b pg ang L1 L2 G K H ltac:(lia)) as (N & l' & CL & E' & Z0 & S). rewrite E in E'. injection E' as <-.
  assert (HN : (0 <= N)%Z).
  { assert (AP : 0 < a / (ang - b)) by (apply Rmult_lt_0_compat; [destruct K as [(_ & _ & -> & _)|(_ & _ & -> & _)]; lra|apply Rinv_0_lt_compat; lra]). apply abs_le in CL. apply Z.lt_succ_r. apply lt_IZR. unfold Z.succ. rewrite plus_IZR. lra. }
  destruct (Z.eq_dec N 0) as [NZ|NZ]; [now apply Z0|]. destruct l as [|q l]; [reflexivity|exfalso]. assert (I : In q (q :: l)) by now left. apply S in I; [|lia]. destruct I as (i & j & k & ro & _ & _ & _ & _ & _ & _ & _ & F & _). now apply (C140_ortho_refuted ro pg HP).
Qed.
Print Assumptions C141_ortho_refuted.
Example C141_schedule_ex : good_schedule triples /\ good_schedule (fun N => rev (triples N)).
Proof.
  split; intros N; (split; [|intros i j k]).
  - apply triples_nodup.
  - apply in_triples.
  - apply NoDup_rev, triples_nodup.
  - rewrite <- in_rev. apply in_triples.
Qed.

(** * C142 *)
(** After an assignment that succeeds, with all three settings present, the orientations are those of the current settings. *)
Theorem C142_current : forall lower sched s a s' pg st ang, set_attr lower sched s a = (s', Ok tt) -> s_pg s' = Some pg -> s_type s' = Some st -> s_ang s' = Some ang ->
  exists l, sample lower sched pg st ang = Ok l /\ s_ori s' = Some l.
Proof.
  intros lower sched s a s' pg st ang. unfold set_attr. set (s0 := match a with SetPg _ => _ | _ => _ end). clearbody s0. unfold sample_if_possible.
  destruct (s_pg s0) as [p|] eqn:E1; [|intros E; injection E as <-; congruence]. destruct (s_type s0) as [t|] eqn:E2; [|intros E; injection E as <-; congruence]. destruct (s_ang s0) as [x|] eqn:E3; [|intros E; injection E as <-; congruence].
  destruct (sample lower sched p t x) as [l|] eqn:S; [|discriminate]. intros E. injection E as <-. cbn [s_pg s_type s_ang s_ori]. intros A B C. injection A as <-. injection B as <-. injection C as <-. now exists l.
Qed.
Print Assumptions C142_current.
(** The constructor samples once, with its arguments. *)
Theorem C142_constructor : forall lower sched pg st ang,
  new_sampler lower sched pg st ang = match sample lower sched pg st ang with Ok l => Ok (SAMPLER (Some pg) (Some st) (Some ang) (Some l)) | Err e => Err e end.
Proof. intros. unfold new_sampler, set_attr, sample_if_possible. cbn [blank s_pg s_type s_ang s_ori rbind]. destruct (sample lower sched pg st ang); reflexivity. Qed.
Print Assumptions C142_constructor.
(** Changing one setting keeps the others. *)
Theorem C142_others : forall lower sched s a s' r, set_attr lower sched s a = (s', r) ->
  match a with
  | SetPg n => s_pg s' = Some n /\ s_type s' = s_type s /\ s_ang s' = s_ang s
  | SetType t => s_pg s' = s_pg s /\ s_type s' = Some t /\ s_ang s' = s_ang s
  | SetAng x => s_pg s' = s_pg s /\ s_type s' = s_type s /\ s_ang s' = Some x
  end.
Proof.
  intros lower sched s a s' r. unfold set_attr, sample_if_possible. destruct a; cbn [s_pg s_type s_ang s_ori];
    repeat match goal with |- context [match ?x with _ => _ end] => destruct x eqn:? end; intros E; injection E as <- <-; cbn [s_pg s_type s_ang]; repeat split; congruence.
Qed.
Print Assumptions C142_others.
(** The kind of grid is read in lower case for the number of steps but not for the shift: "Default" raises TypeError, for every group and spacing, ... *)
Theorem C142_case_refuted : forall lower sched pg ang, lower "Default"%string = "default"%string -> ang <> 3732 / 100000 -> sample lower sched pg "Default" ang = Err TypeError.
Proof.
  intros lower sched pg ang L H. unfold sample, sampling_N. rewrite L. cbn [String.eqb Ascii.eqb Bool.eqb]. destruct (Req_EM_T (ang - 3732 / 100000) 0); [lra|]. reflexivity.
Qed.
Print Assumptions C142_case_refuted.
(** ... and leaves an object whose settings no longer agree with its orientations. *)
Theorem C142_stale_refuted : forall lower sched pg st ang s, lower "Default"%string = "default"%string -> ang <> 3732 / 100000 -> new_sampler lower sched pg st ang = Ok s ->
  exists s' l, set_attr lower sched s (SetType "Default") = (s', Err TypeError) /\ s_type s' = Some "Default"%string /\ s_ori s' = Some l /\ s_ori s = Some l.
Proof.
  intros lower sched pg st ang s L H E. rewrite C142_constructor in E. destruct (sample lower sched pg st ang) as [l|] eqn:S; [|discriminate]. injection E as <-.
  unfold set_attr, sample_if_possible. cbn [s_pg s_type s_ang s_ori]. rewrite C142_case_refuted by assumption. eexists. exists l. split; [reflexivity|]. cbn [s_type s_ori]. auto.
Qed.
Print Assumptions C142_stale_refuted.
(** Any other kind of grid is a TypeError too; a spacing below the offset gives a negative number of steps and a ValueError. *)
Theorem C142_refused : forall lower sched pg st ang, lower st <> "default"%string -> lower st <> "special"%string -> sample lower sched pg st ang = Err TypeError.
Proof.
  intros lower sched pg st ang A B. unfold sample, sampling_N. rewrite (proj2 (String.eqb_neq _ _) A), (proj2 (String.eqb_neq _ _) B). reflexivity.
Qed.
Print Assumptions C142_refused.
Theorem C142_too_fine : forall lower sched st shift a b pg ang, lower "default"%string = "default"%string -> lower "special"%string = "special"%string ->
  kinds st shift a b -> 0 <= ang < b -> sample lower sched pg st ang = Err ValueError.
Proof.
  intros lower sched st shift a b pg ang L1 L2 K H. rewrite (sample_unfold lower sched st shift a b pg ang L1 L2 K ltac:(lra)). cbv zeta. set (N := rint (a / (ang - b))).
  assert (AP : a / (ang - b) < - 1).
  { replace (a / (ang - b)) with (- (a / (b - ang))) by (field; split; lra). assert (P1 : 1 < a / (b - ang)); [|lra]. apply Rmult_lt_reg_r with (b - ang); [lra|]. unfold Rdiv. rewrite Rmult_assoc, Rinv_l by lra. destruct K as [(_ & _ & -> & ->)|(_ & _ & -> & ->)]; lra. }
  assert (CL : Rabs (IZR N - a / (ang - b)) <= 1 / 2) by apply rint_close. apply abs_le in CL. assert (NN : (N < 0)%Z) by (apply lt_IZR; lra). clearbody N.
  destruct (N =? 0)%Z eqn:Z0; [lia|]. unfold sample_rows. assert (M3 : ((2 * N + 1) ^ 3 < 0)%Z) by (replace ((2 * N + 1) ^ 3)%Z with ((2 * N + 1) * ((2 * N + 1) * (2 * N + 1)))%Z by ring; apply Z.mul_neg_pos; [lia|apply Z.mul_neg_neg; lia]). rewrite (proj2 (Z.ltb_lt _ _) M3). reflexivity.
Qed.
Print Assumptions C142_too_fine.
