From Coq Require Import Reals List ZArith Lra Psatz.
From Verif Require Import Prelude Lin TensorModel TensorSpec TensorProofs RotModel RotSpec RotProofs RotProofs2 RotGroups RfzModel RfzSpec RfzProofs.
Local Open Scope R_scope.

Definition zone_is (g : laue) (ro : rod) (b : bool) : Prop :=
  (b = true -> smallest (/ 10 ^ 8) (quatOfLaueGroup g) (ro2qu ro)) /\ (clearly_smallest (/ 10 ^ 8) (quatOfLaueGroup g) (ro2qu ro) -> b = true).

Lemma one_smallest : forall g, smallest (/ 10 ^ 8) (quatOfLaueGroup g) qone.
Proof.
  intros g s I. pose proof (group_units g) as U. rewrite Forall_forall in U. specialize (U s I). unfold unitq in U.
  replace (qw (hmul qone s)) with (qw s) by (unfold hmul, qone; cbn [qw qx qy qz]; ring). unfold qone. cbn [qw]. rewrite Rabs_R1. apply abs_le. split; nra.
Qed.
Lemma finite_zone : forall g ax t b, norm2 ax = 1 ->
  (b = true -> Forall (fun p => Rabs (turn (qval p) (vx ax * t) (vy ax * t) (vz ax * t)) <= 1 + / 10 ^ 8) (table g)) ->
  (Forall (fun p => qw (qval p) * qw (qval p) <> 1 -> Rabs (turn (qval p) (vx ax * t) (vy ax * t) (vz ax * t)) <= 1 - / 10 ^ 8) (table g) -> b = true) ->
  (Rabs t < tol8 -> b = true) -> zone_is g (ROD ax (Some t)) b.
Proof.
  intros g ax t b N I O Z. destruct (Rlt_le_dec (Rabs t) tol8) as [S|S].
  - unfold zone_is. rewrite (ro2qu_small _ _ S). split; [intros _; apply one_smallest|intros _; now apply Z].
  - unfold zone_is. rewrite (ro2qu_big _ _ N S). destruct (cos_atan t) as [C _]. rewrite !(Rmult_comm t). split.
    + intros B. apply smallest_turn; [exact C|]. now apply I.
    + intros K. apply O. now apply (clearly_turn _ _ (cos (atan t))).
Qed.
(** the half turns *)
Lemma half_hmul : forall ax s, qw (hmul (Q4 0 (vx ax) (vy ax) (vz ax)) s) = - (vx ax * qx s + vy ax * qy s + vz ax * qz s).
Proof. intros. unfold hmul. cbn [qw qx qy qz]. ring. Qed.
Lemma inf_zone : forall g ax b,
  (b = true -> Forall (fun p => vx ax * qx (qval p) + vy ax * qy (qval p) + vz ax * qz (qval p) = 0) (table g)) ->
  (Forall (fun p => qw (qval p) * qw (qval p) <> 1 -> vx ax * qx (qval p) + vy ax * qy (qval p) + vz ax * qz (qval p) = 0) (table g) -> b = true) ->
  zone_is g (ROD ax None) b.
Proof.
  intros g ax b I O. unfold zone_is. rewrite ro2qu_inf. split.
  - intros B s IN. rewrite table_ok in IN. apply in_map_iff in IN. destruct IN as (p & <- & IN). specialize (I B). rewrite Forall_forall in I. specialize (I p IN). cbv beta in I.
    rewrite half_hmul, I. cbn [qw]. rewrite Ropp_0, Rabs_R0. lra.
  - intros K. apply O. rewrite Forall_forall. intros p IN W. specialize (K (qval p)). rewrite table_ok in K. specialize (K (in_map _ _ _ IN) W).
    rewrite half_hmul in K. cbn [qw] in K. rewrite Rabs_R0, Rmult_0_r, Rabs_Ropp in K. apply abs_le in K. lra.
Qed.

Lemma part_small : forall a t, Rabs a <= 1 -> Rabs t < tol8 -> Rabs (a * t) <= tol8.
Proof. intros a t A T. rewrite Rabs_mult. pose proof (Rabs_pos a). pose proof (Rabs_pos t). nra. Qed.
Lemma parts : forall ax, norm2 ax = 1 -> Rabs (vx ax) <= 1 /\ Rabs (vy ax) <= 1 /\ Rabs (vz ax) <= 1.
Proof. intros ax N. unfold norm2, dot in N. repeat split; apply abs_le; split; nra. Qed.

Ltac turns' := unfold qval, zval, Zq, zi, r2, r3; cbn [zw zx zy zz za zb zc zd qw qx qy qz].

Lemma zone_Ci : forall ro, zone_is Ci ro true.
Proof.
  intros ro. split; [|reflexivity]. intros _ s I. rewrite table_ok in I. destruct I as [<-|[]].
  replace (qval (Zq 2 0 0 0)) with qone by (turns'; unfold qone; f_equal; field).
  replace (qw (hmul (ro2qu ro) qone)) with (qw (ro2qu ro)) by (unfold hmul, qone; cbn [qw qx qy qz]; ring). pose proof (Rabs_pos (qw (ro2qu ro))). nra.
Qed.
Lemma zone_C2h : forall ro, norm2 (r_ax ro) = 1 -> zone_is C2h ro (insideCyclicFZ ro 2).
Proof.
  intros [ax [t|]] N; cbn [r_ax] in N.
  - unfold insideCyclicFZ. cbn [r_t r_ax Z.eqb Pos.eqb]. destruct (parts _ N) as (PX & PY & PZ). destruct bp_vals as (B1 & _). change (2 - 1)%Z with 1%Z. rewrite B1. apply finite_zone; [exact N| | |].
    + intros H. apply rleb_true in H. apply in_C2h; [lra|exact H].
    + intros H. apply rleb_true. exact (out_C2h _ _ _ H).
    + intros H. apply rleb_true. pose proof (part_small _ _ PY H). rewrite tol8_val in *. lra.
  - unfold insideCyclicFZ. cbn [r_t r_ax Z.eqb Pos.eqb]. apply inf_zone.
    + destruct (Req_EM_T (vy ax) 0) as [E|E]; [|discriminate]. intros _. cbn [table]. repeat (apply Forall_cons; [turns'; rewrite ?E; field|]); apply Forall_nil.
    + intros H. destruct (Req_EM_T (vy ax) 0) as [E|E]; [reflexivity|exfalso; apply E]. cbn [table] in H. apply Forall_inv_tail, Forall_inv in H. turns_in H.
      assert (H' : (0 + 0 * sqrt 2 + 0 * sqrt 3 + 0 * (sqrt 2 * sqrt 3)) / 2 * ((0 + 0 * sqrt 2 + 0 * sqrt 3 + 0 * (sqrt 2 * sqrt 3)) / 2) <> 1) by lra. specialize (H H'). lra.
Qed.
Lemma zone_Cz : forall g o ro, (g = C4h /\ o = 4 \/ g = C3i /\ o = 3 \/ g = C6h /\ o = 6)%Z -> norm2 (r_ax ro) = 1 -> zone_is g ro (insideCyclicFZ ro o).
Proof.
  intros g o [ax [t|]] G N; cbn [r_ax] in N.
  - assert (O2 : (o =? 2)%Z = false) by (destruct G as [(_ & ->)|[(_ & ->)|(_ & ->)]]; reflexivity).
    unfold insideCyclicFZ. cbn [r_t r_ax]. rewrite O2. destruct (parts _ N) as (PX & PY & PZ). destruct bp_vals as (B1 & B2 & B3 & B5). apply finite_zone; [exact N| | |].
    + intros H. apply rleb_true in H. destruct G as [(-> & ->)|[(-> & ->)|(-> & ->)]]; [apply in_C4h|apply in_C3i|apply in_C6h]; exact H.
    + intros H. apply rleb_true. destruct G as [(-> & ->)|[(-> & ->)|(-> & ->)]]; [exact (out_C4h _ _ _ H)|exact (out_C3i _ _ _ H)|exact (out_C6h _ _ _ H)].
    + intros H. apply rleb_true. pose proof (part_small _ _ PZ H). rewrite tol8_val in *.
      destruct G as [(-> & ->)|[(-> & ->)|(-> & ->)]]; [change (4 - 1)%Z with 3%Z; rewrite B3|change (3 - 1)%Z with 2%Z; rewrite B2|change (6 - 1)%Z with 5%Z; rewrite B5]; lra.
  - assert (O2 : (o =? 2)%Z = false) by (destruct G as [(_ & ->)|[(_ & ->)|(_ & ->)]]; reflexivity).
    unfold insideCyclicFZ. cbn [r_t r_ax]. rewrite O2. apply inf_zone.
    + destruct (Req_EM_T (vz ax) 0) as [E|E]; [|discriminate]. intros _. destruct G as [(-> & ->)|[(-> & ->)|(-> & ->)]]; cbn [table]; repeat (apply Forall_cons; [turns'; rewrite ?E; field|]); apply Forall_nil.
    + intros H. destruct (Req_EM_T (vz ax) 0) as [E|E]; [reflexivity|exfalso; apply E]. pose proof s2 as SS2. pose proof s3 as SS3. pose proof s2_pos. pose proof s3_pos.
      destruct G as [(-> & ->)|[(-> & ->)|(-> & ->)]]; cbn [table] in H; apply Forall_inv_tail, Forall_inv in H; turns_in H;
        (match type of H with ?a <> 1 -> _ => assert (H' : a <> 1) by (intros HH; nra); specialize (H H') end); nra.
Qed.
Lemma rod_sq : forall ax t, norm2 ax = 1 -> (vx ax * t) * (vx ax * t) + (vy ax * t) * (vy ax * t) + (vz ax * t) * (vz ax * t) = t * t.
Proof. intros ax t N. unfold norm2, dot in N. transitivity ((vx ax * vx ax + vy ax * vy ax + vz ax * vz ax) * (t * t)); [ring|]. rewrite N. ring. Qed.
Lemma sq3_false : forall t, t * t < 3 -> rleb (sqrt 3) (Rabs t) = false.
Proof.
  intros t H. unfold rleb. destruct (Rle_dec (sqrt 3) (Rabs t)) as [L|L]; [|reflexivity]. exfalso. pose proof s3 as SS3. pose proof s3_pos.
  assert (Rabs t * Rabs t = t * t) by (rewrite <- Rabs_mult; apply Rabs_right; nra). nra.
Qed.
Lemma no_axis : forall ax, norm2 ax = 1 -> vx ax = 0 -> vy ax = 0 -> vz ax = 0 -> False.
Proof. intros ax N X Y Z. unfold norm2, dot in N. rewrite X, Y, Z in N. lra. Qed.
(** a half turn is never in a zone with axes along x, y and z *)
Lemma inf_never : forall g ax, norm2 ax = 1 -> In (Zq 0 2 0 0) (table g) -> In (Zq 0 0 2 0) (table g) -> In (Zq 0 0 0 2) (table g) -> zone_is g (ROD ax None) false.
Proof.
  intros g ax N X Y Z. apply inf_zone; [discriminate|]. intros H. exfalso. rewrite Forall_forall in H.
  pose proof (H _ X) as HX. pose proof (H _ Y) as HY. pose proof (H _ Z) as HZ. clear H. turns_in HX. turns_in HY. turns_in HZ.
  assert (W : (0 + 0 * sqrt 2 + 0 * sqrt 3 + 0 * (sqrt 2 * sqrt 3)) / 2 * ((0 + 0 * sqrt 2 + 0 * sqrt 3 + 0 * (sqrt 2 * sqrt 3)) / 2) <> 1) by lra.
  specialize (HX W). specialize (HY W). specialize (HZ W). apply (no_axis ax N); lra.
Qed.
Lemma zone_D4h : forall ax t, norm2 ax = 1 -> exists b, insideDihedralFZ ax t 4 = Some b /\ zone_is D4h (ROD ax (Some t)) b.
Proof.
  intros ax t N. destruct (parts _ N) as (PX & PY & PZ). destruct bp_vals as (B1 & B2 & B3 & B5). pose proof (rod_sq ax t N) as RS. pose proof s2_pos as P2.
  assert (F : exists b, insideDihedralFZ ax t 4 = Some b /\ (b = true <-> rleb (sqrt 3) (Rabs t) = false /\ Rabs (vz ax * t) <= bp 3 /\ Rabs (vx ax * t) <= 1 /\ Rabs (vy ax * t) <= 1 /\
      1 / sqrt 2 * Rabs (vx ax * t + vy ax * t) <= 1 /\ 1 / sqrt 2 * Rabs (vx ax * t - vy ax * t) <= 1)).
  { unfold insideDihedralFZ. cbn [Z.eqb Pos.eqb]. change (4 - 1)%Z with 3%Z. destruct (rleb (sqrt 3) (Rabs t)) eqn:E1; [exists false; split; [reflexivity|]; split; [discriminate|intros (H & _); discriminate]|].
    destruct (rleb (Rabs (vz ax * t)) (bp 3)) eqn:E2; [|exists false; split; [reflexivity|]; split; [discriminate|intros (_ & H & _); apply rleb_true in H; congruence]].
    eexists. split; [reflexivity|]. rewrite !andb_true_iff, !rleb_true. apply rleb_true in E2. tauto. }
  destruct F as (b & F1 & F2). exists b. split; [exact F1|]. apply finite_zone; [exact N| | |].
  - intros H. apply F2 in H. destruct H as (_ & H). now apply in_D4h.
  - intros H. apply out_D4h in H. apply F2. split; [|tauto]. apply sq3_false. destruct H as (A & B & C & _). rewrite B3 in A. apply abs_le in A, B, C. nra.
  - intros H. apply F2. pose proof (part_small _ _ PX H) as SX. pose proof (part_small _ _ PY H) as SY. pose proof (part_small _ _ PZ H) as SZ. rewrite tol8_val, ?B3 in *. pose proof s2_close.
    split; [apply sq3_false; apply abs_lt in H; nra|]. split; [lra|]. split; [lra|]. split; [lra|]. apply abs_le in SX, SY. rewrite half_sqrt2. split; apply scaled_abs; try lra; split; nra.
Qed.
Lemma zone_D6h : forall ax t, norm2 ax = 1 -> exists b, insideDihedralFZ ax t 6 = Some b /\ zone_is D6h (ROD ax (Some t)) b.
Proof.
  intros ax t N. destruct (parts _ N) as (PX & PY & PZ). destruct bp_vals as (B1 & B2 & B3 & B5). pose proof (rod_sq ax t N) as RS. pose proof s3_pos as P3.
  assert (F : exists b, insideDihedralFZ ax t 6 = Some b /\ (b = true <-> rleb (sqrt 3) (Rabs t) = false /\ Rabs (vz ax * t) <= bp 5 /\ Rabs (vx ax * t) <= 1 /\ Rabs (vy ax * t) <= 1 /\
      Rabs (/ 2 * (vx ax * t) + sqrt 3 / 2 * (vy ax * t)) < 1 /\ Rabs (sqrt 3 / 2 * (vx ax * t) + / 2 * (vy ax * t)) < 1 /\
      Rabs (/ 2 * (vx ax * t) - sqrt 3 / 2 * (vy ax * t)) < 1 /\ Rabs (sqrt 3 / 2 * (vx ax * t) - / 2 * (vy ax * t)) < 1)).
  { unfold insideDihedralFZ. cbn [Z.eqb Pos.eqb]. change (6 - 1)%Z with 5%Z. destruct (rleb (sqrt 3) (Rabs t)) eqn:E1; [exists false; split; [reflexivity|]; split; [discriminate|intros (H & _); discriminate]|].
    destruct (rleb (Rabs (vz ax * t)) (bp 5)) eqn:E2; [|exists false; split; [reflexivity|]; split; [discriminate|intros (_ & H & _); apply rleb_true in H; congruence]].
    eexists. split; [reflexivity|]. rewrite !andb_true_iff, !rleb_true, !rltb_true. apply rleb_true in E2. tauto. }
  destruct F as (b & F1 & F2). exists b. split; [exact F1|]. apply finite_zone; [exact N| | |].
  - intros H. apply F2 in H. destruct H as (_ & A & B & C & D & E & F & G). now apply in_D6h.
  - intros H. apply out_D6h in H. apply F2. split; [|tauto]. apply sq3_false. destruct H as (A & B & C & _). rewrite B5 in A. apply abs_le in A, B, C. nra.
  - intros H. apply F2. pose proof (part_small _ _ PX H) as SX. pose proof (part_small _ _ PY H) as SY. pose proof (part_small _ _ PZ H) as SZ. rewrite tol8_val, ?B5 in *. pose proof s3_close.
    split; [apply sq3_false; apply abs_lt in H; nra|]. apply abs_le in SX, SY, SZ. repeat split; first [apply abs_le; lra | apply abs_lt; split; nra].
Qed.
Lemma zone_Th : forall ax t, norm2 ax = 1 -> zone_is Th (ROD ax (Some t)) (insideCubicFZ ax t false).
Proof.
  intros ax t N. destruct (parts _ N) as (PX & PY & PZ). unfold insideCubicFZ. cbn [andb]. apply finite_zone; [exact N| | |].
  - intros H. apply rleb_true in H. now apply in_Th.
  - intros H. apply rleb_true. apply out_Th in H. pose proof tol8_pos. lra.
  - intros H. apply rleb_true. pose proof (part_small _ _ PX H). pose proof (part_small _ _ PY H). pose proof (part_small _ _ PZ H). rewrite tol8_val in *. lra.
Qed.
Lemma zone_Oh : forall ax t, norm2 ax = 1 -> zone_is Oh (ROD ax (Some t)) (insideCubicFZ ax t true).
Proof.
  intros ax t N. destruct (parts _ N) as (PX & PY & PZ). destruct bp_vals as (B1 & B2 & B3 & B5). unfold insideCubicFZ. apply finite_zone; [exact N| | |].
  - intros H. apply andb_true_iff in H. rewrite !rleb_true in H. destruct H. now apply in_Oh.
  - intros H. apply andb_true_iff. rewrite !rleb_true. apply out_Oh in H. destruct H as (A & B & C & D). pose proof tol8_pos. split; [|lra].
    assert (Rmax (Rmax (Rabs (vx ax * t)) (Rabs (vy ax * t))) (Rabs (vz ax * t)) <= bp 3) by (repeat apply Rmax_lub; assumption). lra.
  - intros H. apply andb_true_iff. rewrite !rleb_true. pose proof (part_small _ _ PX H) as A. pose proof (part_small _ _ PY H) as B. pose proof (part_small _ _ PZ H) as C. rewrite B3, tol8_val in *. split; [|lra].
    assert (Rmax (Rmax (Rabs (vx ax * t)) (Rabs (vy ax * t))) (Rabs (vz ax * t)) <= / 100000000) by (repeat apply Rmax_lub; assumption). lra.
Qed.
Lemma zone_lemma : forall pg g ro, laue_of pg = Some g -> g <> D2h -> g <> D3d -> pg <> 31%Z -> norm2 (r_ax ro) = 1 ->
  exists b, insideFZ ro pg = Ok (Some b) /\ zone_is g ro b.
Proof.
  intros pg g ro L G1 G2 P N.
  assert (C : In pg (zrange 1 33)).
  { apply in_zrange. destruct (Z_lt_le_dec pg 1) as [A|A]; [unfold laue_of in L; rewrite (proj2 (Z.ltb_lt _ _) A) in L; discriminate|].
    destruct (Z_lt_le_dec pg 33) as [B|B]; [split; assumption|]. unfold laue_of in L. rewrite (proj2 (Z.ltb_ge _ _) A) in L.
    repeat match type of L with context [(?x <=? ?k)%Z] => rewrite (proj2 (Z.leb_gt x k)) in L by (apply Z.lt_le_trans with 33%Z; [reflexivity|exact B]) end. discriminate. }
  let l := eval vm_compute in (zrange 1 33) in change (In pg l) in C. cbn [In] in C.
  destruct ro as [ax t]. cbn [r_ax] in N.
  repeat destruct C as [C|C]; try contradiction C; subst pg; vm_compute in L; injection L as <-; try congruence;
  match goal with |- context [insideFZ _ ?n] => let r := eval vm_compute in (getFZtypeandOrder n) in assert (Q : getFZtypeandOrder n = r) by reflexivity end;
  unfold insideFZ; rewrite Q; cbn [rbind Z.eqb Pos.eqb r_t r_ax];
  first
  [ exists true; split; [reflexivity|apply zone_Ci]
  | eexists; split; [reflexivity|]; first [apply zone_C2h; exact N | apply zone_Cz; [tauto|exact N]]
  | destruct t as [t|];
    [ first [ destruct (zone_D4h ax t N) as (b & A & B); exists b; rewrite A; split; [reflexivity|exact B]
            | destruct (zone_D6h ax t N) as (b & A & B); exists b; rewrite A; split; [reflexivity|exact B]
            | eexists; split; [reflexivity|]; first [apply zone_Th; exact N | apply zone_Oh; exact N] ]
    | exists false; split; [reflexivity|apply inf_never; [exact N|cbn [table In]; tauto|cbn [table In]; tauto|cbn [table In]; tauto]] ] ].
Qed.
