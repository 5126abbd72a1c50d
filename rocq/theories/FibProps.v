(** C116: orientations on a fiber.  C117: the distance to a fiber.  C118: unique vectors. *)
From Coq Require Import Reals List ZArith Lra Lia Psatz.
From Verif Require Import Prelude Lin TensorModel TensorProofs RotModel RotSpec RotProofs RotProofs2 RotGroups RotProps XfModel XfSpec XfTrig XfRay XfProps OrbModel OrbProofs FibModel FibSpec FibProofs FibUnique.
Import ListNotations.
Local Open Scope R_scope.
Local Notation length := List.length.

(** ** C116 *)
Lemma fiber_length : forall ns c s n, length (fiber_quats ns c s n) = n.
Proof. intros. unfold fiber_quats. now rewrite map_length, seq_length. Qed.
Lemma close_enough : forall c s, norm2 (direction c) = 1 -> forall r, rotation r -> nearly_opposite sqrt_epsf s c -> mv r (direction c) = vneg (direction c) -> nearly_carries sqrt_epsf r c s.
Proof.
  intros c s N r R O E. unfold nearly_carries, nearly_opposite in *. rewrite E. replace (norm _) with (norm (vadd (direction s) (direction c))); [assumption|].
  unfold norm. f_equal. generalize (direction s) (direction c). clear. lin.
Qed.
Lemma carried_near : forall r c s, carries r c s -> nearly_carries sqrt_epsf r c s.
Proof.
  intros r c s E. unfold nearly_carries. rewrite E. replace (vsub (direction s) (direction s)) with vzero by (generalize (direction s); clear; lin).
  pose proof sqrt_epsf_pos. replace (norm vzero) with 0 by (symmetry; apply norm_zero_iff; reflexivity). lra.
Qed.
Section Members.
Variables (ns : v3 -> v3) (c s : v3).
Hypothesis NS : finds_perpendicular ns.
Hypothesis (HC : norm2 (direction c) = 1) (HS : norm2 (direction s) = 1).
Let ax := fiber_axis ns (direction c) (direction s).
Let mem t := hmul (Q4 0 (vx ax) (vy ax) (vz ax)) (sp_from_rotvec (vscale t (direction c))).
Lemma mem_unit : forall t, unitq (mem t).
Proof. intros t. unfold mem. exact (member_unit ns NS (direction c) (direction s) HC t). Qed.
Lemma mem_acts : forall t x, mv (rotMatOfQuat (mem t)) x = flipped ax (rotated (direction c) t x).
Proof. intros t x. exact (member_acts ns NS (direction c) (direction s) HC t x). Qed.
Lemma mem_near : forall t, nearly_carries sqrt_epsf (rotMatOfQuat (mem t)) c s.
Proof.
  intros t. destruct (Rlt_dec sqrt_epsf (norm (vadd (direction s) (direction c)))) as [L|L].
  - apply carried_near. unfold carries. rewrite mem_acts, axis_fixed by assumption. now apply axis_exact.
  - apply close_enough; [assumption|apply unit_rot, mem_unit|unfold nearly_opposite; lra|]. rewrite mem_acts, axis_fixed by assumption. apply axis_opposite; [assumption|assumption|lra].
Qed.
Lemma mem_exact : opposite s c \/ ~ nearly_opposite sqrt_epsf s c -> forall t, carries (rotMatOfQuat (mem t)) c s.
Proof.
  intros O t. unfold carries. rewrite mem_acts, axis_fixed by assumption. destruct (Rlt_dec sqrt_epsf (norm (vadd (direction s) (direction c)))) as [L|L]; [now apply axis_exact|].
  destruct O as [O|O]; [|unfold nearly_opposite in O; lra]. rewrite O. apply axis_opposite; [assumption|assumption|]. lra.
Qed.
Lemma mem_shift : forall t x, mv (rotMatOfQuat (mem t)) x = mv (rotMatOfQuat (mem 0)) (rotated (direction c) t x).
Proof. intros t x. rewrite !mem_acts, rotated_add by assumption. now rewrite Rplus_0_l. Qed.
Lemma mem_complete : (opposite s c \/ ~ nearly_opposite sqrt_epsf s c) -> forall r n, rotation r -> carries r c s -> (0 < n)%nat ->
  exists j t, (j < n)%nat /\ Rabs t <= PI / INR n /\ forall x, mv r x = mv (rotMatOfQuat (mem (INR j * (2 * PI / INR n)))) (rotated (direction c) t x).
Proof.
  intros O r n R E N. set (m0 := rotMatOfQuat (mem 0)). assert (R0 : rotation m0) by apply unit_rot, mem_unit.
  assert (K : mv (mm (mt m0) r) (direction c) = direction c).
  { rewrite mv_mm. unfold carries in E. rewrite E. rewrite <- (mem_exact O 0). fold m0. rewrite <- mv_mm. destruct R0 as [R0 _]. unfold orthogonal in R0. rewrite R0. apply mv_I. }
  destruct (keeps_axis (mm (mt m0) r) (direction c) (rot_mm _ _ (rot_mt _ R0) R) HC K) as (t & T).
  destruct (nearest_division t n N) as (j & e & k & J & EB & TE). exists j, e. split; [assumption|]. split; [assumption|]. intros x.
  rewrite mem_shift, rotated_add by assumption. fold m0. rewrite <- (rotated_turns _ _ _ k), <- TE, <- T, <- mv_mm, mm_assoc, (orth_both m0) by apply R0. now rewrite mm_I_l.
Qed.
End Members.

(** without a symmetry: [ndiv] unit quaternions with nonnegative scalar part.  Every one turns the crystal direction B.c into the
    sample direction s (to within sqrt_epsf, and exactly unless the two are nearly but not exactly opposite); each is the first one
    preceded by a turn about the crystal direction, in even steps *)
Theorem C116_fiber : forall ns c s B ndiv, finds_perpendicular ns -> ten_epsf < norm (mv B c) -> ten_epsf < norm s -> (0 < ndiv)%nat ->
  exists out, discreteFiber ns c s B ndiv None = Ok out /\ length out = ndiv /\
  (forall q, In q out -> unitq q /\ 0 <= qw q /\ nearly_carries sqrt_epsf (rotMatOfQuat q) (mv B c) s /\
     (opposite s (mv B c) \/ ~ nearly_opposite sqrt_epsf s (mv B c) -> carries (rotMatOfQuat q) (mv B c) s)) /\
  (forall j q q0, nth_error out j = Some q -> nth_error out 0 = Some q0 ->
     forall x, mv (rotMatOfQuat q) x = mv (rotMatOfQuat q0) (rotated (direction (mv B c)) (INR j * (2 * PI / INR ndiv)) x)).
Proof.
  intros ns c s B ndiv NS HC HS P. destruct (unitVector_dir _ HC) as [EC UC]. destruct (unitVector_dir _ HS) as [ES US].
  unfold discreteFiber. rewrite EC, ES. destruct ndiv as [|n]; [lia|]. eexists. split; [reflexivity|]. split; [now rewrite map_length, fiber_length|].
  assert (M : forall j q, nth_error (map fixQuat (fiber_quats ns (direction (mv B c)) (direction s) (S n))) j = Some q -> (j < S n)%nat /\
     q = fixQuat (hmul (Q4 0 (vx (fiber_axis ns (direction (mv B c)) (direction s))) (vy (fiber_axis ns (direction (mv B c)) (direction s))) (vz (fiber_axis ns (direction (mv B c)) (direction s))))
       (sp_from_rotvec (vscale (INR j * (2 * PI / INR (S n))) (direction (mv B c)))))).
  { intros j q E. assert (L : (j < S n)%nat). { rewrite <- (fiber_length ns (direction (mv B c)) (direction s) (S n)), <- (map_length fixQuat). apply nth_error_Some. congruence. }
    split; [assumption|]. rewrite nth_error_map, (fiber_nth ns _ _ UC _ j L) in E. cbn [option_map] in E. congruence. }
  split.
  - intros q I. apply In_nth_error in I. destruct I as (j & E). apply M in E. destruct E as [_ ->].
    set (t := INR j * _). pose proof (mem_unit ns (mv B c) s NS UC t) as U. destruct (fix_unit _ U) as (A1 & A2 & _). rewrite (fix_rot _ U).
    split; [assumption|]. split; [assumption|]. split; [now apply (mem_near ns (mv B c) s NS UC US)|]. intros O. now apply (mem_exact ns (mv B c) s NS UC US).
  - intros j q q0 E E0 x. apply M in E, E0. destruct E as [_ ->]. destruct E0 as [_ ->].
    rewrite !fix_rot by apply (mem_unit ns (mv B c) s NS UC). rewrite (mem_shift ns (mv B c) s NS UC).
    replace (INR 0 * (2 * PI / INR (S n))) with 0 by (simpl; ring). reflexivity.
Qed.
Print Assumptions C116_fiber.
(** every orientation that turns the one direction into the other is within pi/ndiv of one of those returned *)
Theorem C116_complete : forall ns c s B ndiv out r, finds_perpendicular ns -> ten_epsf < norm (mv B c) -> ten_epsf < norm s ->
  opposite s (mv B c) \/ ~ nearly_opposite sqrt_epsf s (mv B c) -> discreteFiber ns c s B ndiv None = Ok out -> rotation r -> carries r (mv B c) s ->
  exists q t, In q out /\ Rabs t <= PI / INR ndiv /\ forall x, mv r x = mv (rotMatOfQuat q) (rotated (direction (mv B c)) t x).
Proof.
  intros ns c s B ndiv out r NS HC HS O E R K. destruct (unitVector_dir _ HC) as [EC UC]. destruct (unitVector_dir _ HS) as [ES US].
  unfold discreteFiber in E. rewrite EC, ES in E. destruct ndiv as [|n]; [discriminate|]. injection E as <-.
  destruct (mem_complete ns (mv B c) s NS UC US O r (S n) R K ltac:(lia)) as (j & t & J & T & X).
  pose proof (nth_error_In _ _ (fiber_nth ns _ (direction s) UC (S n) j J)) as I. eexists; exists t. split; [exact (in_map fixQuat _ _ I)|]. split; [exact T|].
  - intros x. rewrite fix_rot by apply (mem_unit ns (mv B c) s NS UC). apply X.
Qed.
Print Assumptions C116_complete.

Lemma map_res_ok : forall {A B} (f : A -> result B) l, (forall x, In x l -> exists y, f x = Ok y) -> exists out, map_res f l = Ok out /\ length out = length l /\
  (forall y, In y out -> exists x, In x l /\ f x = Ok y) /\ (forall x, In x l -> exists y, In y out /\ f x = Ok y).
Proof.
  intros A B f l; induction l as [|x r IH]; intros H; [exists []; repeat split; intros ? []|]. destruct (H x (or_introl eq_refl)) as (y & Y).
  destruct IH as (out & O1 & O2 & O3 & O4); [intros z Z; apply H; now right|]. exists (y :: out). cbn [map_res]. rewrite Y, O1. cbn [rbind length].
  split; [reflexivity|]. split; [now rewrite O2|]. split.
  - intros z [<-|Z]; [exists x; split; [now left|assumption]|]. destruct (O3 z Z) as (w & W1 & W2). exists w. split; [now right|assumption].
  - intros z [<-|Z]; [exists y; split; [now left|assumption]|]. destruct (O4 z Z) as (w & W1 & W2). exists w. split; [now right|assumption].
Qed.
(** with a crystal symmetry: every quaternion turns a symmetry-equivalent of the crystal direction into s and has the least angle
    among its equivalents; and every orientation on the fiber is equivalent to one within pi/ndiv of one of those returned *)
Theorem C116_symmetry : forall ns c s B ndiv crys, finds_perpendicular ns -> ten_epsf < norm (mv B c) -> ten_epsf < norm s -> (2 <= ndiv)%nat ->
  Forall unitq crys -> is_group (rots crys) ->
  exists out, discreteFiber ns c s B ndiv (Some crys) = Ok out /\ length out = ndiv /\
  (forall q, In q out -> unitq q /\ 0 <= qw q /\ (forall g, In g (rots crys) -> tr (mm (rotMatOfQuat q) g) <= tr (rotMatOfQuat q)) /\
     exists g, In g (rots crys) /\ nearly_carries sqrt_epsf (mm (rotMatOfQuat q) g) (mv B c) s /\
     (opposite s (mv B c) \/ ~ nearly_opposite sqrt_epsf s (mv B c) -> carries (mm (rotMatOfQuat q) g) (mv B c) s)) /\
  (forall r, opposite s (mv B c) \/ ~ nearly_opposite sqrt_epsf s (mv B c) -> rotation r -> carries r (mv B c) s ->
     exists q g t, In q out /\ In g (rots crys) /\ Rabs t <= PI / INR ndiv /\ forall x, mv r x = mv (rotMatOfQuat q) (mv g (rotated (direction (mv B c)) t x))).
Proof.
  intros ns c s B ndiv crys NS HC HS P F G. destruct (unitVector_dir _ HC) as [EC UC]. destruct (unitVector_dir _ HS) as [ES US].
  assert (NE : crys <> []). { intros ->. destruct G as [[] _]. }
  unfold discreteFiber. rewrite EC, ES. destruct ndiv as [|[|n]]; [lia|lia|]. set (N := S (S n)) in *.
  assert (IN : forall q, In q (fiber_quats ns (direction (mv B c)) (direction s) N) -> exists j, (j < N)%nat /\
     q = hmul (Q4 0 (vx (fiber_axis ns (direction (mv B c)) (direction s))) (vy (fiber_axis ns (direction (mv B c)) (direction s))) (vz (fiber_axis ns (direction (mv B c)) (direction s))))
       (sp_from_rotvec (vscale (INR j * (2 * PI / INR N)) (direction (mv B c))))).
  { intros q I. apply In_nth_error in I. destruct I as (j & E). assert (L : (j < N)%nat). { rewrite <- (fiber_length ns (direction (mv B c)) (direction s) N). apply nth_error_Some. congruence. }
    exists j. split; [assumption|]. rewrite (fiber_nth ns _ _ UC _ j L) in E. congruence. }
  assert (UN : forall q, In q (fiber_quats ns (direction (mv B c)) (direction s) N) -> unitq q).
  { intros q I. destruct (IN q I) as (j & _ & ->). apply (mem_unit ns (mv B c) s NS UC). }
  destruct (map_res_ok (fun q => toFundamentalRegion q crys) (fiber_quats ns (direction (mv B c)) (direction s) N)) as (out & O1 & O2 & O3 & O4).
  { intros q I. destruct (fr_lemma q crys (UN q I) F NE) as (r & E & _). now exists r. }
  rewrite O1. exists out. split; [reflexivity|]. split; [now rewrite O2, fiber_length|]. destruct G as (_ & GI & GM). split.
  - intros q I. destruct (O3 q I) as (p & PI' & E). destruct (fr_lemma p crys (UN p PI') F NE) as (q' & E' & U & W & (g & G1 & G2) & BEST). rewrite E in E'. injection E' as <-.
    split; [assumption|]. split; [assumption|]. split.
    { intros h H. rewrite G2, <- mm_assoc, <- G2. apply BEST. now apply GM. }
    exists (mt g). destruct (GI g G1) as [GR GT]. split; [assumption|]. rewrite G2, <- mm_assoc, (orth_both g) by apply GR. rewrite mm_I_r.
    destruct (IN p PI') as (j & _ & ->). split; [now apply (mem_near ns (mv B c) s NS UC US)|]. intros O. now apply (mem_exact ns (mv B c) s NS UC US).
  - intros r O R K. destruct (mem_complete ns (mv B c) s NS UC US O r N R K ltac:(lia)) as (j & t & J & T & X).
    pose proof (nth_error_In _ _ (fiber_nth ns _ (direction s) UC N j J)) as I. destruct (O4 _ I) as (q & Q & E).
    destruct (fr_lemma _ crys (UN _ I) F NE) as (q' & E' & U & W & (g & G1 & G2) & _). rewrite E in E'. injection E' as <-. destruct (GI g G1) as [GR GT].
    exists q, (mt g), t. split; [assumption|]. split; [assumption|]. split; [assumption|]. intros x. rewrite X, <- mv_mm, G2, <- mm_assoc, (orth_both g) by apply GR. now rewrite mm_I_r.
Qed.
Print Assumptions C116_symmetry.

(** ** C116 for a spot *)
(** the orientations of a spot at two-theta, eta, omega: each brings some plane equivalent to hkl into position to send the beam to
    that spot; and every orientation in which hkl itself sends the beam there is covered *)
Theorem C116_spot : forall ns hkl tth eta ome chi B crys ndiv b e tol rb, finds_perpendicular ns -> ten_epsf < norm (mv B hkl) -> (2 <= ndiv)%nat -> 0 <= tol ->
  Forall unitq crys -> is_group (rots crys) -> b <> vzero -> beam_frame b e rb ->
  let g0 := angles_to_gvec b e chi mI tth eta ome in opposite g0 (mv B hkl) \/ ~ nearly_opposite sqrt_epsf g0 (mv B hkl) ->
  exists out, discretefiber_reduced ns hkl tth eta ome chi B crys ndiv b e tol = Ok out /\
  (forall w, In w out -> exists q g, w = [qw q; qx q; qy q; qz q] /\ unitq q /\ In g (rots crys) /\
     let n := mv (sample_turn chi ome) (mv (rotMatOfQuat q) (mv g (direction (mv B hkl)))) in
     dot (direction b) n = - sin (tth / 2) /\ mirrored n (direction b) = scattered rb tth eta) /\
  (forall r, rotation r -> let n := mv (sample_turn chi ome) (mv r (direction (mv B hkl))) in
     dot (direction b) n = - sin (tth / 2) -> mirrored n (direction b) = scattered rb tth eta -> sin (tth / 2) <> 0 ->
     exists q g t w, In w out /\ unitq q /\ In g (rots crys) /\ Rabs t <= PI / INR ndiv /\
       (forall x, mv r x = mv (rotMatOfQuat q) (mv g (rotated (direction (mv B hkl)) t x))) /\
       forall k, (k < 4)%nat -> Rabs (nth k [qw q; qx q; qy q; qz q] 0 - nth k w 0) <= (INR ndiv - 1) * tol).
Proof.
  intros ns hkl tth eta ome chi B crys ndiv b e tol rb NS HC P T F G NB BF g0 O.
  pose proof (C75_gvec b e chi mI tth eta ome rb NB BF rot_I) as K. cbv zeta in K. rewrite mv_I in K. fold g0 in K. destruct K as (GU & GD & GM).
  assert (RS : rotation (sample_turn chi ome)) by apply turn_rot.
  assert (N1 : norm2 g0 = 1). { unfold unit, norm2 in GU. rewrite orth_dot in GU by apply RS. exact GU. }
  assert (D1 : direction g0 = g0). { unfold direction. rewrite (norm2_norm1 _ N1), Rinv_1. generalize g0. clear. lin. }
  assert (HS : ten_epsf < norm g0). { rewrite (norm2_norm1 _ N1). pose proof ten_epsf_small. lra. }
  destruct (C116_symmetry ns hkl g0 B ndiv crys NS HC HS P F G) as (qs & Q1 & Q2 & Q3 & Q4).
  unfold discretefiber_reduced. fold g0. rewrite Q1. cbn [rbind].
  destruct (unique_vectors_lemma 4 (map quat_col qs) tol T) as (out & U1 & U2 & U3 & _); [rewrite map_length; lia|]. rewrite U1. exists out. split; [reflexivity|]. split.
  - intros w W. apply U2 in W. apply in_map_iff in W. destruct W as (q & <- & Q). destruct (Q3 q Q) as (A1 & _ & _ & g & A2 & _ & A3). exists q, g.
    split; [reflexivity|]. split; [assumption|]. split; [assumption|]. specialize (A3 O). unfold carries in A3. rewrite mv_mm, D1 in A3. rewrite A3. auto.
  - intros r R. set (n := mv (sample_turn chi ome) (mv r (direction (mv B hkl)))). intros ND NM NZ. destruct (Q4 r O R) as (q & g & t & I & GI & TB & X).
    { unfold carries. rewrite D1. apply (orth_inj (sample_turn chi ome)); [apply RS|]. fold n. rewrite <- NM in GM. unfold mirrored in GM. rewrite GD, ND in GM.
      set (g1 := mv (sample_turn chi ome) g0) in *. clearbody g1 n. revert GM NZ. generalize (direction b) (sin (tth / 2)). clear. intros [x y z] k. destruct n as [n1 n2 n3], g1 as [g1 g2 g3].
      lin_unfold. intros E NZ. injection E as E1 E2 E3. f_equal; nra. }
    destruct (U3 (quat_col q) (in_map quat_col _ _ I)) as (w & W1 & W2). rewrite map_length, Q2 in W2. exists q, g, t, w.
    split; [assumption|]. split; [apply (Q3 q I)|]. split; [assumption|]. split; [assumption|]. split; [assumption|exact W2].
Qed.
Print Assumptions C116_spot.

(** ** C117 *)
Lemma sum_abs_tri : forall a b c, sum_abs a c <= sum_abs a b + sum_abs b c.
Proof.
  intros [a1 a2 a3] [b1 b2 b3] [c1 c2 c3]. unfold sum_abs. cbn [vx vy vz].
  assert (T : forall x y z, Rabs (x - z) <= Rabs (x - y) + Rabs (y - z)) by (intros; replace (x - z) with ((x - y) + (y - z)) by ring; apply Rabs_triang).
  pose proof (T a1 b1 c1). pose proof (T a2 b2 c2). pose proof (T a3 b3 c3). lra.
Qed.
Lemma sum_abs_sym : forall a b, sum_abs a b = sum_abs b a.
Proof. intros. unfold sum_abs. rewrite (Rabs_minus_sym (vx a)), (Rabs_minus_sym (vy a)), (Rabs_minus_sym (vz a)). reflexivity. Qed.
Lemma sum_abs_0 : forall a, sum_abs a a = 0.
Proof. intros. unfold sum_abs, Rminus. rewrite !Rplus_opp_r, Rabs_R0. ring. Qed.
Lemma norm_le_sum : forall a b, norm (vsub a b) <= sum_abs a b.
Proof.
  intros [a1 a2 a3] [b1 b2 b3]. unfold norm, norm2, dot, vsub, sum_abs. cbn [vx vy vz]. set (x := a1 - b1). set (y := a2 - b2). set (z := a3 - b3).
  pose proof (Rabs_pos x). pose proof (Rabs_pos y). pose proof (Rabs_pos z). rewrite <- (sqrt_square (Rabs x + Rabs y + Rabs z)) by lra. apply sqrt_le_1_alt.
  assert (S : forall u, u * u = Rabs u * Rabs u) by (intros; rewrite <- Rabs_mult; symmetry; apply Rabs_right; nra). rewrite (S x), (S y), (S z). nra.
Qed.
Lemma kept_near : forall tol vecs, 0 < tol -> forall n i, (i <= n)%nat -> (i < length vecs)%nat -> exists u, In u (unique_ids tol false vecs) /\
  sum_abs (nth i vecs vzero) (nth u vecs vzero) <= INR i * tol.
Proof.
  intros tol vecs T. induction n as [|n IH]; intros i L H.
  - assert (i = 0)%nat as -> by lia. exists 0%nat. split; [apply unique_in; split; [assumption|lia]|]. rewrite sum_abs_0. simpl. lra.
  - destruct (in_dec Nat.eq_dec i (unique_ids tol false vecs)) as [I|I].
    + exists i. split; [assumption|]. rewrite sum_abs_0. apply Rmult_le_pos; [apply pos_INR|lra].
    + assert (X : exists j, (j < i)%nat /\ dup_close3 tol false (nth j vecs vzero) (nth i vecs vzero) = true).
      { destruct (existsb (fun j => dup_close3 tol false (nth j vecs vzero) (nth i vecs vzero)) (seq 0 i)) eqn:E.
        - apply existsb_exists in E. destruct E as (j & J & E). apply in_seq in J. exists j. split; [lia|assumption].
        - exfalso. apply I. apply unique_in. split; [assumption|]. intros j J. destruct (dup_close3 _ _ _ _) eqn:D; [|reflexivity]. rewrite <- E. symmetry. apply existsb_exists. exists j. split; [apply in_seq; lia|assumption]. }
      destruct X as (j & J & D). unfold dup_close3 in D. destruct (Rlt_dec _ _) as [LT|]; [|discriminate]. destruct (IH j) as (u & U & V); [lia|lia|].
      exists u. split; [assumption|]. pose proof (sum_abs_tri (nth i vecs vzero) (nth j vecs vzero) (nth u vecs vzero)) as TR. rewrite (sum_abs_sym (nth i vecs vzero) (nth j vecs vzero)) in TR.
      assert (INR j + 1 <= INR i) by (rewrite <- S_INR; apply le_INR; lia). nra.
Qed.
Lemma dot_diff : forall s r v w, norm2 s = 1 -> rotation r -> dot s (mv r v) - dot s (mv r w) <= norm (vsub v w).
Proof.
  intros s r v w U R. replace (dot s (mv r v) - dot s (mv r w)) with (dot s (mv r (vsub v w))) by (generalize r s v w; clear; lin).
  pose proof (cauchy s (mv r (vsub v w))) as C. rewrite U, Rmult_1_l in C. unfold norm2 in C at 1. rewrite orth_dot in C by apply R. fold (norm2 (vsub v w)) in C.
  pose proof (norm_pos (vsub v w)). rewrite <- norm_sq in C. destruct (Rle_dec (dot s (mv r (vsub v w))) (norm (vsub v w))); [assumption|]. nra.
Qed.
Section Distance.
Variables (c s : v3) (B : m3) (q : q4) (qsym : list q4) (cs : bool).
Hypothesis (HC : ten_epsf < norm (mv B c)) (HS : ten_epsf < norm s) (UQ : unitq q) (FU : Forall unitq qsym) (NE : qsym <> []).
Let all := let a := map (fun g => mv (rotMatOfQuat g) (direction (mv B c))) qsym in if cs then a ++ map vneg a else a.
Lemma all_in : forall v, In v all <-> equivalent_dir (rots qsym) cs (mv B c) v.
Proof.
  intros v. unfold all, equivalent_dir, rots. assert (M : In v (map (fun g => mv (rotMatOfQuat g) (direction (mv B c))) qsym) <-> exists g, In g (map rotMatOfQuat qsym) /\ v = mv g (direction (mv B c))).
  { rewrite in_map_iff. split; [intros (g & <- & G); exists (rotMatOfQuat g); split; [now apply in_map|reflexivity]|]. intros (g & G & ->). apply in_map_iff in G. destruct G as (p & <- & G). now exists p. }
  destruct cs.
  - rewrite in_app_iff, M. split.
    + intros [(g & G & E)|H]; [exists g; tauto|]. apply in_map_iff in H. destruct H as (w & <- & H). apply in_map_iff in H. destruct H as (g & <- & G). exists (rotMatOfQuat g). split; [now apply in_map|]. right. tauto.
    + intros (g & G & [E|[_ E]]); [left; now exists g|]. right. apply in_map_iff in G. destruct G as (p & <- & G). subst v. apply in_map, in_map_iff. now exists p.
  - rewrite M. split; [intros (g & G & E); exists g; tauto|]. intros (g & G & [E|[E _]]); [now exists g|discriminate].
Qed.
Lemma all_len : (length all <= 2 * length qsym)%nat.
Proof. unfold all. destruct cs; rewrite ?app_length, ?map_length; lia. Qed.
Lemma all_unit : forall v, In v all -> norm2 v = 1.
Proof.
  intros v I. apply all_in in I. destruct I as (g & G & E). unfold rots in G. apply in_map_iff in G. destruct G as (p & <- & G). rewrite Forall_forall in FU.
  pose proof (unit_rot p (FU p G)) as [O _]. destruct (unitVector_dir _ HC) as [_ UC].
  assert (K : norm2 (mv (rotMatOfQuat p) (direction (mv B c))) = 1) by (unfold norm2; rewrite orth_dot; assumption).
  destruct E as [->|[_ ->]]; [assumption|]. rewrite <- K. generalize (mv (rotMatOfQuat p) (direction (mv B c))). clear. lin.
Qed.
Lemma distance_lemma : exists d, distanceToFiber c s q qsym cs B = Ok d /\
  (exists v, equivalent_dir (rots qsym) cs (mv B c) v /\ angle_between (direction s) (mv (rotMatOfQuat q) v) d) /\
  (forall v, equivalent_dir (rots qsym) cs (mv B c) v -> dot (direction s) (mv (rotMatOfQuat q) v) <= cos d + INR (2 * length qsym) * sqrt_epsf) /\
  (well_separated sqrt_epsf (rots qsym) cs (mv B c) -> forall v, equivalent_dir (rots qsym) cs (mv B c) v -> dot (direction s) (mv (rotMatOfQuat q) v) <= cos d).
Proof.
  destruct (unitVector_dir _ HC) as [EC UC]. destruct (unitVector_dir _ HS) as [ES US]. unfold distanceToFiber. rewrite EC, ES. cbv zeta.
  unfold applySym. fold all. set (ids := unique_ids sqrt_epsf false all). set (r := rotMatOfQuat q). assert (R : rotation r) by now apply unit_rot.
  pose proof sqrt_epsf_pos as [EP _]. rewrite !map_map. set (f := fun u => dot (direction s) (mv r (nth u all vzero))).
  assert (NA : (0 < length all)%nat). { unfold all. destruct qsym; [contradiction|]. destruct cs; cbn [map app length]; lia. }
  assert (NI : map f ids <> []). { destruct (kept_near sqrt_epsf all EP 0 0) as (u & U & _); [lia|assumption|]. intros Z. apply map_eq_nil in Z. unfold ids in Z. rewrite Z in U. destruct U. }
  destruct (rmax_lemma _ NI) as (m & M1 & M2 & M3). rewrite M1. cbn [rbind]. apply in_map_iff in M2. destruct M2 as (u & MU & UI).
  assert (UA : In (nth u all vzero) all). { apply nth_In. now apply unique_in in UI. }
  assert (B1 : -1 <= m <= 1).
  { rewrite <- MU. unfold f. pose proof (cauchy (direction s) (mv r (nth u all vzero))) as CC. rewrite US in CC. unfold norm2 in CC. rewrite orth_dot in CC by apply R. fold (norm2 (nth u all vzero)) in CC. rewrite (all_unit _ UA) in CC. nra. }
  unfold arccosSafe. destruct (Rlt_dec _ _) as [L|_]; [exfalso; revert L; unfold Rabs; destruct (Rcase_abs m); lra|].
  rewrite Rmax_right, Rmin_right by lra. exists (acos m). split; [reflexivity|]. assert (CA : cos (acos m) = m) by (apply cos_acos; lra). rewrite CA. split; [|split].
  - exists (nth u all vzero). split; [now apply all_in|]. split; [pose proof (acos_bound m); lra|]. rewrite CA. now symmetry.
  - intros v V. apply all_in in V. destruct (In_nth all v vzero V) as (i & I & <-). destruct (kept_near sqrt_epsf all EP i i) as (w & W & D); [lia|assumption|].
    pose proof (M3 (f w) (in_map f _ _ W)). unfold f in H at 1. pose proof (dot_diff (direction s) r (nth i all vzero) (nth w all vzero) US R) as DD.
    pose proof (norm_le_sum (nth i all vzero) (nth w all vzero)). assert (INR i <= INR (2 * length qsym)) by (apply le_INR; pose proof all_len; lia). nra.
  - intros WS v V. apply all_in in V. assert (SEP : forall x y, In x all -> In y all -> sum_abs x y < sqrt_epsf -> x = y).
    { intros x y X Y L. apply all_in in X, Y. destruct (WS x y X Y) as [E|E]; [assumption|]. pose proof (norm_le_sum x y). lra. }
    destruct (unique_spec sqrt_epsf all EP SEP) as [_ SP]. apply SP in V. apply in_map_iff in V. destruct V as (w & <- & W). apply (M3 (f w) (in_map f _ _ W)).
Qed.
End Distance.
(** the angle from s to the nearest direction that the orientation gives to an equivalent of B.c: it is attained, and no other is
    nearer (up to the tolerance with which equal directions are recognised, exactly if the equivalents are separated) *)
Theorem C117_distance : forall c s B q qsym cs, ten_epsf < norm (mv B c) -> ten_epsf < norm s -> unitq q -> Forall unitq qsym -> qsym <> [] ->
  exists d, distanceToFiber c s q qsym cs B = Ok d /\
  (exists v, equivalent_dir (rots qsym) cs (mv B c) v /\ angle_between (direction s) (mv (rotMatOfQuat q) v) d) /\
  (forall v t, equivalent_dir (rots qsym) cs (mv B c) v -> angle_between (direction s) (mv (rotMatOfQuat q) v) t -> cos t <= cos d + INR (2 * length qsym) * sqrt_epsf) /\
  (well_separated sqrt_epsf (rots qsym) cs (mv B c) ->
     (forall v t, equivalent_dir (rots qsym) cs (mv B c) v -> angle_between (direction s) (mv (rotMatOfQuat q) v) t -> d <= t) /\
     (d = 0 <-> exists v, equivalent_dir (rots qsym) cs (mv B c) v /\ mv (rotMatOfQuat q) v = direction s)).
Proof.
  intros c s B q qsym cs HC HS UQ FU NE. destruct (distance_lemma c s B q qsym cs HC HS UQ FU NE) as (d & D1 & (v & V1 & V2) & D3 & D4). exists d. split; [assumption|].
  split; [now exists v|]. split; [intros w t W [_ T]; rewrite T; now apply D3|]. intros WS. specialize (D4 WS). destruct V2 as [V2 VC]. split.
  - intros w t W [T1 T2]. apply Rnot_lt_le. intros L. pose proof (cos_decreasing_1 t d) as CD. specialize (D4 w W). rewrite <- T2 in D4. lra.
  - destruct (unitVector_dir _ HS) as [_ US]. split.
    + intros ->. exists v. split; [assumption|]. rewrite cos_0 in VC. pose proof (all_unit c B qsym cs HC FU v) as AU. rewrite all_in in AU. specialize (AU V1).
      destruct (unit_rot q UQ) as [O _]. assert (N : norm2 (mv (rotMatOfQuat q) v) = 1) by (unfold norm2; rewrite orth_dot; assumption).
      revert VC N US. generalize (mv (rotMatOfQuat q) v) (direction s). clear. intros [a b e] [x y z]. lin_unfold. intros.
      assert (Z : norm2 (vsub (V3 a b e) (V3 x y z)) = 0) by (lin_unfold; lra). apply norm2_zero in Z. unfold vsub, vzero in Z. cbn [vx vy vz] in Z. injection Z as Z1 Z2 Z3. f_equal; lra.
    + intros (w & W & E). specialize (D4 w W). rewrite E in D4. unfold norm2 in US. rewrite US in D4. pose proof (COS_bound d). assert (C1 : cos d = 1) by lra.
      rewrite <- cos_0 in C1. apply cos_inj in C1; lra.
Qed.
Print Assumptions C117_distance.
(** the orientations of a fiber have distance zero to it *)
Theorem C117_members : forall ns c s B ndiv crys out q, finds_perpendicular ns -> ten_epsf < norm (mv B c) -> ten_epsf < norm s ->
  Forall unitq crys -> is_group (rots crys) -> opposite s (mv B c) \/ ~ nearly_opposite sqrt_epsf s (mv B c) -> well_separated sqrt_epsf (rots crys) false (mv B c) ->
  discreteFiber ns c s B ndiv (Some crys) = Ok out -> In q out -> distanceToFiber c s q crys false B = Ok 0.
Proof.
  intros ns c s B ndiv crys out q NS HC HS F G O WS E I. assert (P : (2 <= ndiv)%nat). { unfold discreteFiber in E. destruct ndiv as [|[|n]]; [discriminate|discriminate|lia]. }
  assert (NE : crys <> []) by (intros ->; destruct G as [[] _]).
  destruct (C116_symmetry ns c s B ndiv crys NS HC HS P F G) as (out' & E' & _ & M & _). rewrite E in E'. injection E' as <-. destruct (M q I) as (U & _ & _ & g & G1 & _ & G2).
  destruct (C117_distance c s B q crys false HC HS U F NE) as (d & D1 & _ & _ & D4). destruct (D4 WS) as [_ Z]. rewrite D1. f_equal. apply Z.
  exists (mv g (direction (mv B c))). split; [exists g; split; [assumption|now left]|]. specialize (G2 O). unfold carries in G2. now rewrite mv_mm in G2.
Qed.
Print Assumptions C117_members.

(** ** C118 *)
(** every vector kept is one of those given; every one given is near one kept; the ones kept differ by more than the tolerance in
    some coordinate and are in order, the last coordinate first *)
Theorem C118_unique_vectors : forall d v tol, 0 <= tol -> (2 <= length v)%nat -> exists out, uniqueVectors d v tol = Ok out /\ (forall u, In u out -> In u v) /\
  (forall u, In u v -> exists w, In w out /\ forall k, (k < d)%nat -> Rabs (nth k u 0 - nth k w 0) <= (INR (length v) - 1) * tol) /\
  (forall i j u w, (i < j)%nat -> nth_error out i = Some u -> nth_error out j = Some w ->
     exists k, (k < d)%nat /\ nth k u 0 + tol < nth k w 0 /\ forall m, (k < m < d)%nat -> Rabs (nth m u 0 - nth m w 0) <= (INR (length v) - 1) * tol).
Proof. intros d v tol T L. exact (unique_vectors_lemma d v tol T L). Qed.
Print Assumptions C118_unique_vectors.
(** with no tolerance: exactly the vectors given, once each, in strict dictionary order *)
Theorem C118_exact : forall d v, (2 <= length v)%nat -> Forall (fun c => length c = d) v -> exists out, uniqueVectors d v 0 = Ok out /\ NoDup out /\ (forall u, In u out <-> In u v) /\
  (forall i j u w, (i < j)%nat -> nth_error out i = Some u -> nth_error out j = Some w ->
     exists k, (k < d)%nat /\ nth k u 0 < nth k w 0 /\ forall m, (k < m < d)%nat -> nth m u 0 = nth m w 0).
Proof.
  intros d v L F. destruct (unique_vectors_lemma d v 0 (Rle_refl 0) L) as (out & U1 & U2 & U3 & U4). exists out. rewrite Forall_forall in F.
  assert (Z : forall x y, Rabs (x - y) <= (INR (length v) - 1) * 0 -> x = y). { intros x y H. rewrite Rmult_0_r in H. pose proof (Rabs_pos (x - y)). assert (E : Rabs (x - y) = 0) by lra. destruct (Req_dec (x - y) 0); [lra|]. now apply Rabs_no_R0 in H1. }
  assert (ORD : forall i j u w, (i < j)%nat -> nth_error out i = Some u -> nth_error out j = Some w -> exists k, (k < d)%nat /\ nth k u 0 < nth k w 0 /\ forall m, (k < m < d)%nat -> nth m u 0 = nth m w 0).
  { intros i j u w IJ I J. destruct (U4 i j u w IJ I J) as (k & K1 & K2 & K3). exists k. split; [assumption|]. split; [lra|]. intros m M. now apply Z, K3. }
  split; [assumption|]. split; [|split; [|exact ORD]].
  - apply NoDup_nth_error. intros i j IL E. destruct (Nat.lt_trichotomy i j) as [LT|[EQ|GT]]; [exfalso|assumption|exfalso].
    + destruct (nth_error out i) as [u|] eqn:I; [|apply nth_error_None in I; lia]. destruct (ORD i j u u LT I (eq_sym E)) as (k & _ & K & _). lra.
    + destruct (nth_error out i) as [u|] eqn:I; [|apply nth_error_None in I; lia]. destruct (ORD j i u u GT (eq_sym E) I) as (k & _ & K & _). lra.
  - intros u. split; [apply U2|]. intros V. destruct (U3 u V) as (w & W & K). assert (u = w) as ->; [|assumption]. apply (nth_ext u w 0 0); [now rewrite (F u V), (F w (U2 w W))|].
    intros k H. rewrite (F u V) in H. now apply Z, K.
Qed.
Print Assumptions C118_exact.
(** a single vector is an error *)
Theorem C118_single_refuted : forall d x tol, uniqueVectors d [x] tol = Err IndexError.
Proof. reflexivity. Qed.
Print Assumptions C118_single_refuted.
Example C118_ex : exists out, uniqueVectors 2 [[1; 2]; [3; 4]; [1; 2]; [5; 0]] 0 = Ok out /\ out = [[5; 0]; [1; 2]; [3; 4]].
Proof.
  destruct (C118_exact 2 [[1; 2]; [3; 4]; [1; 2]; [5; 0]]) as (out & E & ND & IN & ORD); [cbn [List.length]; lia|repeat constructor|]. exists out. split; [exact E|].
  assert (I1 : In [5; 0] out) by (apply IN; cbn [In]; tauto). assert (I2 : In [1; 2] out) by (apply IN; cbn [In]; tauto). assert (I3 : In [3; 4] out) by (apply IN; cbn [In]; tauto).
  apply In_nth_error in I1, I2, I3. destruct I1 as (a & A), I2 as (b & B), I3 as (c & C).
  assert (IV : forall u, In u out -> u = [5; 0] \/ u = [1; 2] \/ u = [3; 4]). { intros u U. apply IN in U. cbn [In] in U. intuition auto. }
  assert (K : forall i j u w, nth_error out i = Some u -> nth_error out j = Some w -> nth 1 u 0 < nth 1 w 0 -> (i < j)%nat).
  { intros i j u w I J L. destruct (Nat.lt_trichotomy i j) as [LT|[EQ|GT]]; [assumption| |].
    - subst j. rewrite I in J. injection J as <-. lra.
    - destruct (ORD j i w u GT J I) as (k & K1 & K2 & K3). exfalso. destruct k as [|[|k]]; [|lra|lia]. specialize (K3 1%nat ltac:(lia)). lra. }
  assert (ab : (a < b)%nat) by (apply (K a b _ _ A B); cbn [nth]; lra). assert (bc : (b < c)%nat) by (apply (K b c _ _ B C); cbn [nth]; lra).
  assert (LE : (length out <= 3)%nat). { apply (NoDup_incl_length ND (l' := [[5; 0]; [1; 2]; [3; 4]])). intros u U. destruct (IV u U) as [->|[->| ->]]; cbn [In]; tauto. }
  assert (CL : (c < length out)%nat) by (apply nth_error_Some; congruence). assert (a = 0 /\ b = 1 /\ c = 2)%nat as (-> & -> & ->) by lia.
  destruct out as [|x [|y [|z [|]]]]; cbn [List.length] in LE, CL; try lia. cbn [nth_error] in *. congruence.
Qed.

(** nearly but not exactly opposite directions: no orientation returned turns the one exactly into the other *)
Theorem C116_near_opposite_refuted : forall ns c s B ndiv out q, finds_perpendicular ns -> ten_epsf < norm (mv B c) -> ten_epsf < norm s ->
  nearly_opposite sqrt_epsf s (mv B c) -> ~ opposite s (mv B c) -> discreteFiber ns c s B ndiv None = Ok out -> In q out -> ~ carries (rotMatOfQuat q) (mv B c) s.
Proof.
  intros ns c s B ndiv out q NS HC HS NO O E I K. destruct (unitVector_dir _ HC) as [EC UC]. destruct (unitVector_dir _ HS) as [ES US].
  unfold discreteFiber in E. rewrite EC, ES in E. destruct ndiv as [|n]; [discriminate|]. assert (OE : map fixQuat (fiber_quats ns (direction (mv B c)) (direction s) (S n)) = out) by congruence. subst out. apply O. unfold opposite. rewrite <- K.
  apply in_map_iff in I. destruct I as (p & <- & I). apply In_nth_error in I. destruct I as (j & J). assert (L : (j < S n)%nat). { rewrite <- (fiber_length ns (direction (mv B c)) (direction s) (S n)). apply nth_error_Some. congruence. }
  rewrite (fiber_nth ns _ _ UC _ j L) in J. injection J as <-. rewrite fix_rot by apply (mem_unit ns (mv B c) s NS UC). rewrite (mem_acts ns (mv B c) s NS UC), axis_fixed by assumption.
  apply axis_opposite; [assumption|assumption|]. unfold nearly_opposite in NO. lra.
Qed.
Print Assumptions C116_near_opposite_refuted.
(** one division with a symmetry, or none at all, is an error *)
Theorem C116_one_division_refuted : forall ns c s B crys, discreteFiber ns c s B 1 (Some crys) = Err IndexError /\ forall g, discreteFiber ns c s B 0 g = Err ZeroDivisionError.
Proof. intros. split; [reflexivity|]. intros []; reflexivity. Qed.
Print Assumptions C116_one_division_refuted.
Definition some_perpendicular (c : v3) : v3 :=
  let n := sqrt (vx c * vx c + vy c * vy c) in if Req_EM_T n 0 then V3 1 0 0 else V3 (- vy c / n) (vx c / n) 0.
Lemma some_perpendicular_ok : finds_perpendicular some_perpendicular.
Proof.
  intros [x y z] U. unfold some_perpendicular. cbn [vx vy vz]. unfold norm2, dot in *. cbn [vx vy vz] in *.
  assert (P : 0 <= x * x + y * y) by nra. pose proof (sqrt_sqrt _ P) as SS. destruct (Req_EM_T _ 0) as [E|E]; cbn [vx vy vz].
  - rewrite E in SS. assert (x = 0) as -> by nra. split; ring.
  - set (n := sqrt _) in *. clearbody n. split; [|field; assumption].
    replace (- y / n * (- y / n) + x / n * (x / n) + 0 * 0) with ((x * x + y * y) / (n * n)) by (field; assumption). rewrite <- SS. field. assumption.
Qed.
(** a cubic crystal, the direction 110 along the z axis, 120 divisions *)
Example C116_ex : exists ns, finds_perpendicular ns /\ ten_epsf < norm (mv mI (V3 1 1 0)) /\ ten_epsf < norm (V3 0 0 1) /\ (2 <= 120)%nat /\
  Forall unitq (quatOfLaueGroup Oh) /\ is_group (rots (quatOfLaueGroup Oh)) /\ ~ nearly_opposite sqrt_epsf (V3 0 0 1) (mv mI (V3 1 1 0)) /\
  (V3 0 0 (-1) <> vzero /\ beam_frame (V3 0 0 (-1)) (V3 1 0 0) mI).
Proof.
  exists some_perpendicular. split; [exact some_perpendicular_ok|]. pose proof ten_epsf_small as TE. pose proof sqrt_epsf_pos as SE.
  assert (S2 : 1 <= sqrt 2) by (rewrite <- sqrt_1 at 1; apply sqrt_le_1_alt; lra). pose proof (sqrt_sqrt 2 ltac:(lra)) as SQ.
  assert (N1 : norm (mv mI (V3 1 1 0)) = sqrt 2) by (rewrite mv_I; unfold norm, norm2, dot; cbn [vx vy vz]; f_equal; ring).
  assert (N2 : norm (V3 0 0 1) = 1) by (apply norm2_norm1; lin_unfold; ring).
  split; [lra|]. split; [lra|]. split; [lia|]. split; [apply C34_no_repeats|]. split; [apply C34_laue_group|]. split; [|exact C75_ex].
  unfold nearly_opposite, direction. rewrite N1, N2, mv_I. intros K. assert (NN : norm2 (vadd (vscale (/ 1) (V3 0 0 1)) (vscale (/ sqrt 2) (V3 1 1 0))) = 2).
  { unfold norm2, dot, vadd, vscale. cbn [vx vy vz]. transitivity (1 + 2 * (/ sqrt 2 * / sqrt 2)); [rewrite Rinv_1; ring|]. rewrite <- Rinv_mult, SQ. field. }
  unfold norm in K. rewrite NN in K. lra.
Qed.
Lemma qone_rot : rotMatOfQuat qone = mI.
Proof. unfold rotMatOfQuat, qone, mI. cbn [qw qx qy qz]. f_equal; ring. Qed.
(** the z axis under a half turn about y: two equivalent directions *)
Example C117_ex : let crys := [qone; Q4 0 0 1 0] in ten_epsf < norm (mv mI (V3 0 0 2)) /\ ten_epsf < norm (V3 3 0 0) /\ unitq qone /\ Forall unitq crys /\ is_group (rots crys) /\
  well_separated sqrt_epsf (rots crys) false (mv mI (V3 0 0 2)) /\ exists d, distanceToFiber (V3 0 0 2) (V3 3 0 0) qone crys false mI = Ok d /\ d = PI / 2.
Proof.
  intros crys. pose proof ten_epsf_small as TE. pose proof sqrt_epsf_pos as SE.
  assert (N1 : norm (mv mI (V3 0 0 2)) = 2) by (rewrite mv_I; unfold norm, norm2, dot; cbn [vx vy vz]; replace (0 * 0 + 0 * 0 + 2 * 2) with (2 * 2) by ring; apply sqrt_square; lra).
  assert (N2 : norm (V3 3 0 0) = 3) by (unfold norm, norm2, dot; cbn [vx vy vz]; replace (3 * 3 + 0 * 0 + 0 * 0) with (3 * 3) by ring; apply sqrt_square; lra).
  assert (D1 : direction (mv mI (V3 0 0 2)) = V3 0 0 1) by (unfold direction; rewrite N1, mv_I; unfold vscale; cbn [vx vy vz]; f_equal; field).
  assert (D2 : direction (V3 3 0 0) = V3 1 0 0) by (unfold direction; rewrite N2; unfold vscale; cbn [vx vy vz]; f_equal; field).
  assert (RY : rotMatOfQuat (Q4 0 0 1 0) = M3 (-1) 0 0 0 1 0 0 0 (-1)) by (unfold rotMatOfQuat; cbn [qw qx qy qz]; f_equal; ring).
  assert (H1 : ten_epsf < norm (mv mI (V3 0 0 2))) by lra. assert (H2 : ten_epsf < norm (V3 3 0 0)) by lra.
  assert (U1 : unitq qone) by (unfold unitq, qone; cbn [qw qx qy qz]; ring).
  assert (F : Forall unitq crys) by (repeat constructor; unfold unitq, qone; cbn [qw qx qy qz]; ring).
  assert (RR : rots crys = [mI; M3 (-1) 0 0 0 1 0 0 0 (-1)]) by (unfold rots, crys; cbn [map]; now rewrite qone_rot, RY).
  assert (EQ : forall v, equivalent_dir (rots crys) false (mv mI (V3 0 0 2)) v -> v = V3 0 0 1 \/ v = V3 0 0 (-1)).
  { intros v (g & G & [E|[E _]]); [|discriminate]. rewrite RR in G. rewrite D1 in E. subst v. destruct G as [<-|[<-|[]]]; [left|right]; unfold mv, row0, row1, row2, dot, mI; cbn [vx vy vz m00 m01 m02 m10 m11 m12 m20 m21 m22]; f_equal; ring. }
  assert (WS : well_separated sqrt_epsf (rots crys) false (mv mI (V3 0 0 2))).
  { intros v w V W. apply EQ in V, W. assert (P : norm2 (vsub (V3 0 0 1) (V3 0 0 (-1))) = 4 /\ norm2 (vsub (V3 0 0 (-1)) (V3 0 0 1)) = 4) by (split; lin_unfold; ring). destruct P as [P1 P2].
    assert (S4 : sqrt 4 = 2) by (replace 4 with (2 * 2) by ring; apply sqrt_square; lra).
    destruct V as [-> | ->], W as [-> | ->]; [now left| | |now left]; right; unfold norm; rewrite ?P1, ?P2, S4; lra. }
  split; [assumption|]. split; [assumption|]. split; [assumption|]. split; [assumption|]. split.
  { rewrite RR. split; [now left|]. split.
    - intros a [<-|[<-|[]]]; (split; [|]).
      + apply rot_I. + left. reflexivity. + split; lin. + right. left. unfold mt. cbn [m00 m01 m02 m10 m11 m12 m20 m21 m22]. reflexivity.
    - intros a b [<-|[<-|[]]] [<-|[<-|[]]]; rewrite ?mm_I_l, ?mm_I_r; cbn [In]; auto. left. lin. }
  split; [exact WS|]. destruct (C117_distance (V3 0 0 2) (V3 3 0 0) mI qone crys false H1 H2 U1 F ltac:(discriminate)) as (d & D & (v & V & A) & _). exists d. split; [exact D|].
  destruct A as [A1 A2]. rewrite qone_rot, mv_I, D2 in A2. apply cos_inj; [lra|pose proof PI_RGT_0; lra|]. rewrite A2, cos_PI2. destruct (EQ v V) as [-> | ->]; lin_unfold; ring.
Qed.
