From Coq Require Import QArith Qround Qabs Lqa Qfield.
From Verif Require Import Prelude GridModel GridSpec.
Local Open Scope Q_scope.

Definition aff (al be ga : Q) (p : point) : Q := al * fst p + be * snd p + ga.

Lemma turn_aff : forall a b p, turn a b p == aff (- (snd b - snd a)) (fst b - fst a) ((snd b - snd a) * fst a - (fst b - fst a) * snd a) p.
Proof. intros; unfold turn, aff; ring. Qed.
Lemma cross_turn : forall b p, cross_z p b == turn (e_prev b) (e_curr b) p.
Proof. intros; unfold cross_z, turn; ring. Qed.

Lemma Qle_bool_false : forall x y, Qle_bool x y = false <-> y < x.
Proof.
  intros x y; split; intros H.
  - apply Qnot_le_lt; intros L; apply Qle_bool_iff in L; congruence.
  - destruct (Qle_bool x y) eqn:E; [apply Qle_bool_iff in E; lra | reflexivity].
Qed.
Lemma isinside_true : forall p b, isinside p b = true <-> left_of (e_prev b) (e_curr b) p.
Proof.
  intros p b; unfold isinside, left_of; rewrite <- cross_turn.
  destruct (Qle_bool (cross_z p b) 0) eqn:E; cbn [negb].
  - destruct (Qle_bool 0 (cross_z p b)) eqn:F; cbn [negb].
    + apply Qle_bool_iff in F; tauto.
    + apply Qle_bool_false in F; split; [discriminate | lra].
  - apply Qle_bool_false in E; split; [lra | reflexivity].
Qed.
Lemma isinside_false : forall p b, isinside p b = false <-> turn (e_prev b) (e_curr b) p < 0.
Proof.
  intros p b; destruct (isinside p b) eqn:E; split; intros H; try discriminate; try reflexivity.
  - apply isinside_true in E; unfold left_of in E; lra.
  - apply Qnot_le_lt; intros L; apply isinside_true in L; congruence.
Qed.

(** ** the intersection point *)
Notation fb b p := (turn (e_prev b) (e_curr b) p).
Definition crossing (b : edge) (u w x : point) : Prop :=
  forall al be ga, aff al be ga x * (fb b u - fb b w) == fb b u * aff al be ga w - fb b w * aff al be ga u.

Lemma isect_spec : forall b curr prev, ~ fb b prev == fb b curr ->
  exists x, isect_out curr prev b = Ok [x] /\ crossing b prev curr x.
Proof.
  intros b [x1 y1] [x2 y2] H; unfold isect_out, intersection; destruct b as [[x3 y3] [x4 y4]]; cbn in *.
  destruct (Qeq_bool _ 0) eqn:E.
  - apply Qeq_bool_iff in E; exfalso; apply H; unfold turn; cbn. lra.
  - assert (D : ~ (x1 - x2) * (y3 - y4) - (y1 - y2) * (x3 - x4) == 0) by (intros C; apply Qeq_bool_iff in C; congruence).
    eexists; split; [reflexivity|].
    intros al be ga; unfold aff, turn; cbn. field. exact D.
Qed.
Lemma crossing_sym : forall b u w x, crossing b u w x -> crossing b w u x.
Proof.
  intros b u w x H al be ga; specialize (H al be ga).
  assert (E : aff al be ga x * (fb b w - fb b u) == - (aff al be ga x * (fb b u - fb b w))) by ring.
  rewrite E, H; ring.
Qed.
Lemma crossing_zero : forall b u w x, crossing b u w x -> ~ fb b u == fb b w -> fb b x == 0.
Proof.
  intros b u w x H N; pose proof (H (- (snd (e_curr b) - snd (e_prev b))) (fst (e_curr b) - fst (e_prev b))
    ((snd (e_curr b) - snd (e_prev b)) * fst (e_prev b) - (fst (e_curr b) - fst (e_prev b)) * snd (e_prev b))) as K.
  rewrite <- !turn_aff in K.
  assert (M : fb b x * (fb b u - fb b w) == 0) by (rewrite K; ring).
  destruct (Qmult_integral _ _ M) as [Z|Z]; [exact Z | exfalso; apply N; lra].
Qed.
(** any functional that is non-negative at both ends is non-negative at the crossing *)
Lemma crossing_nonneg : forall b u w x al be ga, crossing b u w x -> fb b u < 0 -> 0 <= fb b w ->
  0 <= aff al be ga u -> 0 <= aff al be ga w -> 0 <= aff al be ga x.
Proof.
  intros b u w x al be ga H U W A B; specialize (H al be ga).
  apply Qnot_lt_le; intros L.
  assert (0 < aff al be ga x * (fb b u - fb b w)) by nra. nra.
Qed.

(** ** one clipping edge *)
Lemma clip_loop_cons : forall b prev curr r, clip_loop b prev (curr :: r) =
  (do o <- (if isinside curr b
            then do x <- (if negb (isinside prev b) then isect_out curr prev b else Ok []); Ok (x ++ [curr])
            else if isinside prev b then isect_out curr prev b else Ok []);
   do t <- clip_loop b curr r; Ok (o ++ t)).
Proof. reflexivity. Qed.

(** the output of the inner loop as a relation *)
Inductive clipped (b : edge) : point -> list point -> list point -> Prop :=
| cl_nil : forall v, clipped b v [] []
| cl_ii : forall v c r o, 0 <= fb b v -> 0 <= fb b c -> clipped b c r o -> clipped b v (c :: r) (c :: o)
| cl_oi : forall v c r o x, fb b v < 0 -> 0 <= fb b c -> crossing b v c x -> clipped b c r o -> clipped b v (c :: r) (x :: c :: o)
| cl_io : forall v c r o x, 0 <= fb b v -> fb b c < 0 -> crossing b v c x -> clipped b c r o -> clipped b v (c :: r) (x :: o)
| cl_oo : forall v c r o, fb b v < 0 -> fb b c < 0 -> clipped b c r o -> clipped b v (c :: r) o.

Lemma clip_loop_ok : forall b l v, exists o, clip_loop b v l = Ok o /\ clipped b v l o.
Proof.
  intros b; induction l as [|c r IH]; intros v.
  { exists []; split; [reflexivity | constructor]. }
  destruct (IH c) as [o [E C]]. rewrite clip_loop_cons.
  destruct (isinside c b) eqn:Ic; destruct (isinside v b) eqn:Iv; cbn [negb].
  - apply isinside_true in Ic, Iv. exists (c :: o); cbn [rbind]; rewrite E; split; [reflexivity | constructor; assumption].
  - apply isinside_true in Ic; apply isinside_false in Iv; unfold left_of in Ic.
    destruct (isect_spec b c v) as [x [Ex Cx]]; [lra|].
    exists (x :: c :: o); rewrite Ex; cbn [rbind]; rewrite E; split; [reflexivity | constructor; assumption].
  - apply isinside_true in Iv; apply isinside_false in Ic; unfold left_of in Iv.
    destruct (isect_spec b c v) as [x [Ex Cx]]; [lra|].
    exists (x :: o); rewrite Ex; cbn [rbind]; rewrite E; split; [reflexivity | constructor; assumption].
  - apply isinside_false in Ic, Iv. exists o; cbn [rbind]; rewrite E; split; [reflexivity | constructor 5; assumption].
Qed.

Lemma clip_edge_ok : forall b l, exists o, clip_edge b l = Ok o /\ clipped b (last l (0, 0)) l o.
Proof.
  intros b [|c r].
  - exists []; split; [reflexivity | constructor].
  - apply clip_loop_ok.
Qed.

Lemma last_cons_in : forall A (l : list A) d, l <> [] -> In (last l d) l.
Proof.
  intros A; induction l as [|x [|y l] IH]; intros d H; [congruence | left; reflexivity | right; apply IH; discriminate].
Qed.

(** soundness: any half-plane containing the input contains the output; and the clip half-plane does *)
Lemma clipped_nonneg : forall b v l o al be ga, clipped b v l o -> 0 <= aff al be ga v ->
  (forall p, In p l -> 0 <= aff al be ga p) -> forall p, In p o -> 0 <= aff al be ga p.
Proof.
  intros b v l o al be ga C; induction C as [v|v c r o Hv Hc C IH|v c r o x Hv Hc X C IH|v c r o x Hv Hc X C IH|v c r o Hv Hc C IH];
    intros V L p Hp.
  - destruct Hp.
  - assert (Lc : 0 <= aff al be ga c) by (apply L; left; reflexivity).
    destruct Hp as [<-|Hp]; [exact Lc | apply IH; auto; intros; apply L; right; assumption].
  - assert (Lc : 0 <= aff al be ga c) by (apply L; left; reflexivity).
    destruct Hp as [<-|[<-|Hp]]; [eapply crossing_nonneg; eassumption | exact Lc | apply IH; auto; intros; apply L; right; assumption].
  - assert (Lc : 0 <= aff al be ga c) by (apply L; left; reflexivity).
    destruct Hp as [<-|Hp]; [eapply crossing_nonneg; [apply crossing_sym; exact X|..]; assumption | apply IH; auto; intros; apply L; right; assumption].
  - assert (Lc : 0 <= aff al be ga c) by (apply L; left; reflexivity).
    apply IH; auto; intros; apply L; right; assumption.
Qed.
Lemma clipped_inside : forall b v l o, clipped b v l o -> forall p, In p o -> 0 <= fb b p.
Proof.
  intros b v l o C; induction C as [v|v c r o Hv Hc C IH|v c r o x Hv Hc X C IH|v c r o x Hv Hc X C IH|v c r o Hv Hc C IH]; intros p Hp.
  - destruct Hp.
  - destruct Hp as [<-|Hp]; auto.
  - destruct Hp as [<-|[<-|Hp]]; auto. rewrite (crossing_zero b v c x X); lra.
  - destruct Hp as [<-|Hp]; auto. rewrite (crossing_zero b v c x X); lra.
  - auto.
Qed.
Lemma clipped_same : forall b v l o, clipped b v l o -> 0 <= fb b v -> (forall p, In p l -> 0 <= fb b p) -> o = l.
Proof.
  intros b v l o C; induction C as [v|v c r o Hv Hc C IH|v c r o x Hv Hc X C IH|v c r o x Hv Hc X C IH|v c r o Hv Hc C IH]; intros V L.
  - reflexivity.
  - f_equal; apply IH; auto; intros; apply L; right; assumption.
  - lra.
  - specialize (L c (or_introl eq_refl)); lra.
  - lra.
Qed.
Lemma clipped_in_kept : forall b v l o, clipped b v l o -> forall p, In p l -> 0 <= fb b p -> In p o.
Proof.
  intros b v l o C; induction C as [v|v c r o Hv Hc C IH|v c r o x Hv Hc X C IH|v c r o x Hv Hc X C IH|v c r o Hv Hc C IH]; intros p Hp F.
  - destruct Hp.
  - destruct Hp as [<-|Hp]; [left; reflexivity | right; auto].
  - destruct Hp as [<-|Hp]; [right; left; reflexivity | right; right; auto].
  - destruct Hp as [<-|Hp]; [lra | right; auto].
  - destruct Hp as [<-|Hp]; [lra | auto].
Qed.

(** edges met along the loop *)
Lemma clipped_entry : forall b v l o, clipped b v l o -> fb b v < 0 -> forall p, In p l -> 0 <= fb b p ->
  exists u w x, In (u, w) (combine (v :: l) l) /\ fb b u < 0 /\ 0 <= fb b w /\ crossing b u w x /\ In x o.
Proof.
  intros b v l o C; induction C as [v|v c r o Hv Hc C IH|v c r o x Hv Hc X C IH|v c r o x Hv Hc X C IH|v c r o Hv Hc C IH]; intros V p Hp F.
  - destruct Hp.
  - lra.
  - exists v, c, x; repeat split; auto; left; reflexivity.
  - lra.
  - destruct Hp as [<-|Hp]; [lra|]. destruct (IH Hc p Hp F) as [u [w [x [A [B [D [E G]]]]]]].
    exists u, w, x; repeat split; auto; right; exact A.
Qed.
Lemma clipped_exit : forall b v l o, clipped b v l o -> 0 <= fb b v -> forall p, In p l -> fb b p < 0 ->
  exists u w x, In (u, w) (combine (v :: l) l) /\ 0 <= fb b u /\ fb b w < 0 /\ crossing b u w x /\ In x o.
Proof.
  intros b v l o C; induction C as [v|v c r o Hv Hc C IH|v c r o x Hv Hc X C IH|v c r o x Hv Hc X C IH|v c r o Hv Hc C IH]; intros V p Hp F.
  - destruct Hp.
  - destruct Hp as [<-|Hp]; [lra|]. destruct (IH Hc p Hp F) as [u [w [x [A [B [D [E G]]]]]]].
    exists u, w, x; repeat split; auto; right; assumption.
  - lra.
  - exists v, c, x; repeat split; auto; left; reflexivity.
  - lra.
Qed.
Lemma last_default : forall A (l : list A) d d', l <> [] -> last l d = last l d'.
Proof.
  intros A; induction l as [|x [|y l] IH]; intros d d' H; [congruence | reflexivity | exact (IH d d' ltac:(discriminate))].
Qed.
Lemma last_step : forall A (l : list A) c v, last (c :: l) v = last l c.
Proof. intros A [|a l] c v; [reflexivity|]. exact (last_default _ (a :: l) v c ltac:(discriminate)). Qed.

Lemma clipped_exit_back : forall b v l o, clipped b v l o -> fb b v < 0 -> fb b (last l v) < 0 -> forall p, In p l -> 0 <= fb b p ->
  exists u w x, In (u, w) (combine (v :: l) l) /\ 0 <= fb b u /\ fb b w < 0 /\ crossing b u w x /\ In x o.
Proof.
  intros b v l o C; induction C as [v|v c r o Hv Hc C IH|v c r o x Hv Hc X C IH|v c r o x Hv Hc X C IH|v c r o Hv Hc C IH]; intros V La p Hp F;
    try rewrite last_step in La.
  - destruct Hp.
  - lra.
  - destruct r as [|a r]; [cbn in La; lra|].
    destruct (clipped_exit _ _ _ _ C Hc (last (a :: r) c)) as [u [w [y [A [B [D [E G]]]]]]];
      [apply last_cons_in; discriminate | exact La |].
    exists u, w, y; repeat split; auto; right; [exact A | right; exact G].
  - lra.
  - destruct Hp as [<-|Hp]; [lra|].
    destruct (IH Hc La p Hp F) as [u [w [x [A [B [D [E G]]]]]]].
    exists u, w, x; repeat split; auto; right; exact A.
Qed.
Lemma clipped_entry_back : forall b v l o, clipped b v l o -> 0 <= fb b v -> 0 <= fb b (last l v) -> forall p, In p l -> fb b p < 0 ->
  exists u w x, In (u, w) (combine (v :: l) l) /\ fb b u < 0 /\ 0 <= fb b w /\ crossing b u w x /\ In x o.
Proof.
  intros b v l o C; induction C as [v|v c r o Hv Hc C IH|v c r o x Hv Hc X C IH|v c r o x Hv Hc X C IH|v c r o Hv Hc C IH]; intros V La p Hp F;
    try rewrite last_step in La.
  - destruct Hp.
  - destruct Hp as [<-|Hp]; [lra|].
    destruct (IH Hc La p Hp F) as [u [w [x [A [B [D [E G]]]]]]].
    exists u, w, x; repeat split; auto; right; assumption.
  - lra.
  - destruct r as [|a r]; [cbn in La; lra|].
    destruct (clipped_entry _ _ _ _ C Hc (last (a :: r) c)) as [u [w [y [A [B [D [E G]]]]]]];
      [apply last_cons_in; discriminate | exact La |].
    exists u, w, y; repeat split; auto; right; assumption.
  - lra.
Qed.

(** a polygon with vertices on both sides has an edge entering and an edge leaving *)
Lemma clipped_edges : forall b l o u0 w0, clipped b (last l (0, 0)) l o -> In u0 l -> 0 <= fb b u0 -> In w0 l -> fb b w0 < 0 ->
  (exists u w x, In (u, w) (poly_edges l) /\ fb b u < 0 /\ 0 <= fb b w /\ crossing b u w x /\ In x o) /\
  (exists u w x, In (u, w) (poly_edges l) /\ 0 <= fb b u /\ fb b w < 0 /\ crossing b u w x /\ In x o).
Proof.
  intros b l o u0 w0 C Hu Fu Hw Fw. unfold poly_edges. set (v := last l (0, 0)) in *.
  assert (V : last l v = v). { apply last_default; intros ->; destruct Hu. }
  destruct (Qlt_le_dec (fb b v) 0) as [N|N].
  - split; [exact (clipped_entry _ _ _ _ C N u0 Hu Fu) | refine (clipped_exit_back _ _ _ _ C N _ u0 Hu Fu); rewrite V; exact N].
  - split; [refine (clipped_entry_back _ _ _ _ C N _ w0 Hw Fw); rewrite V; exact N | exact (clipped_exit _ _ _ _ C N w0 Hw Fw)].
Qed.

(** the hull, in terms of [aff] *)
Lemma hull_turn : forall l p a b, hull l p -> (forall v, In v l -> 0 <= turn a b v) -> 0 <= turn a b p.
Proof.
  intros l p a b H K; rewrite turn_aff; apply H; intros v Hv. specialize (K v Hv); rewrite turn_aff in K; exact K.
Qed.
Lemma hull_in : forall l p, In p l -> hull l p.
Proof. intros l p H al be ga K; apply K; exact H. Qed.

(** ** Plucker identity for the turn along the clip line *)
Lemma turn_key : forall b u w x1 x2 p, 0 <= fb b u -> fb b w < 0 -> crossing b u w x1 -> fb b x2 == 0 ->
  0 <= turn u w x2 -> 0 <= fb b p -> 0 <= turn x1 x2 p.
Proof.
  intros b u w x1 x2 p U W C1 Z2 L P.
  assert (Z1 : fb b x1 == 0) by (eapply crossing_zero; [exact C1 | lra]).
  (* x1 is on the line u w *)
  assert (Lx : turn u w x1 == 0).
  { pose proof (C1 (- (snd w - snd u)) (fst w - fst u) ((snd w - snd u) * fst u - (fst w - fst u) * snd u)) as K.
    rewrite <- !turn_aff in K.
    assert (E : turn u w x1 * (fb b u - fb b w) == 0). { rewrite K; unfold turn; ring. }
    destruct (Qmult_integral _ _ E); [assumption | lra]. }
  assert (I : turn x1 x2 p * (fb b w - fb b u) ==
    (fb b p - fb b x1) * - (turn u w x2 - turn u w x1) - (fb b x2 - fb b x1) * ((fst p - fst x1) * (snd w - snd u) - (snd p - snd x1) * (fst w - fst u))).
  { unfold turn; ring. }
  rewrite Z1, Z2, Lx in I.
  apply Qnot_lt_le; intros N.
  assert (0 < turn x1 x2 p * (fb b w - fb b u)) by nra. nra.
Qed.

(** coordinate along the clip line *)
Definition tpar (b : edge) (p : point) : Q :=
  (fst (e_curr b) - fst (e_prev b)) * (fst p - fst (e_prev b)) + (snd (e_curr b) - snd (e_prev b)) * (snd p - snd (e_prev b)).
Definition tnorm (b : edge) : Q :=
  (fst (e_curr b) - fst (e_prev b)) * (fst (e_curr b) - fst (e_prev b)) + (snd (e_curr b) - snd (e_prev b)) * (snd (e_curr b) - snd (e_prev b)).

Lemma aff_tpar : forall b p al be ga, fb b p == 0 ->
  tnorm b * aff al be ga p == tnorm b * aff al be ga (e_prev b)
     + tpar b p * (al * (fst (e_curr b) - fst (e_prev b)) + be * (snd (e_curr b) - snd (e_prev b))).
Proof.
  intros b p al be ga Z.
  assert (E : tnorm b * aff al be ga p == tnorm b * aff al be ga (e_prev b)
     + tpar b p * (al * (fst (e_curr b) - fst (e_prev b)) + be * (snd (e_curr b) - snd (e_prev b)))
     + fb b p * (be * (fst (e_curr b) - fst (e_prev b)) - al * (snd (e_curr b) - snd (e_prev b)))).
  { unfold tnorm, aff, tpar, turn; ring. }
  rewrite E, Z; ring.
Qed.
Lemma turn_tpar : forall b u w x p, fb b p == 0 -> fb b x == 0 ->
  tnorm b * (turn u w p - turn u w x) == (tpar b p - tpar b x) * (fb b u - fb b w).
Proof.
  intros b u w x p Zp Zx.
  assert (E : tnorm b * (turn u w p - turn u w x) == (tpar b p - tpar b x) * (fb b u - fb b w)
     + (fb b p - fb b x) * ((fst w - fst u) * (fst (e_curr b) - fst (e_prev b)) + (snd w - snd u) * (snd (e_curr b) - snd (e_prev b)))).
  { unfold tnorm, tpar, turn; ring. }
  rewrite E, Zp, Zx; ring.
Qed.
Lemma sq_nonneg : forall a, 0 <= a * a.
Proof. intros a; destruct (Qlt_le_dec a 0); nra. Qed.
Lemma tnorm_pos : forall b u w, ~ fb b u == fb b w -> 0 < tnorm b.
Proof.
  intros b u w H. unfold tnorm.
  set (dx := fst (e_curr b) - fst (e_prev b)). set (dy := snd (e_curr b) - snd (e_prev b)).
  pose proof (sq_nonneg dx); pose proof (sq_nonneg dy).
  apply Qnot_le_lt; intros L.
  assert (X : dx * dx == 0) by lra. assert (Y : dy * dy == 0) by lra.
  assert (X0 : dx == 0) by (destruct (Qmult_integral _ _ X); assumption).
  assert (Y0 : dy == 0) by (destruct (Qmult_integral _ _ Y); assumption).
  apply H; unfold turn; fold dx; fold dy; rewrite X0, Y0; ring.
Qed.
Lemma crossing_on : forall b u w x, crossing b u w x -> ~ fb b u == fb b w -> turn u w x == 0.
Proof.
  intros b u w x C N.
  pose proof (C (- (snd w - snd u)) (fst w - fst u) ((snd w - snd u) * fst u - (fst w - fst u) * snd u)) as K.
  rewrite <- !turn_aff in K.
  assert (E : turn u w x * (fb b u - fb b w) == 0). { rewrite K; unfold turn; ring. }
  destruct (Qmult_integral _ _ E); [assumption | exfalso; apply N; lra].
Qed.

(** a point of the clip line between an exit and an entry satisfies what both satisfy *)
Lemma between : forall b u w x1 u' w' x2 p al be ga, fb b p == 0 ->
  0 <= fb b u -> fb b w < 0 -> crossing b u w x1 -> 0 <= turn u w p ->
  fb b u' < 0 -> 0 <= fb b w' -> crossing b u' w' x2 -> 0 <= turn u' w' p ->
  0 <= aff al be ga x1 -> 0 <= aff al be ga x2 -> 0 <= aff al be ga p.
Proof.
  intros b u w x1 u' w' x2 p al be ga Zp U W C1 L1 U' W' C2 L2 G1 G2.
  assert (N1 : ~ fb b u == fb b w) by lra. assert (N2 : ~ fb b u' == fb b w') by lra.
  pose proof (tnorm_pos b u w N1) as T.
  pose proof (crossing_zero _ _ _ _ C1 N1) as Z1. pose proof (crossing_zero _ _ _ _ C2 N2) as Z2.
  pose proof (turn_tpar b u w x1 p Zp Z1) as E1. pose proof (turn_tpar b u' w' x2 p Zp Z2) as E2.
  rewrite (crossing_on _ _ _ _ C1 N1) in E1. rewrite (crossing_on _ _ _ _ C2 N2) in E2.
  pose proof (aff_tpar b p al be ga Zp) as Gp. pose proof (aff_tpar b x1 al be ga Z1) as Gx1. pose proof (aff_tpar b x2 al be ga Z2) as Gx2.
  set (K := al * (fst (e_curr b) - fst (e_prev b)) + be * (snd (e_curr b) - snd (e_prev b))) in *.
  set (A := tnorm b * aff al be ga (e_prev b)) in *.
  assert (T1 : tpar b x1 <= tpar b p).
  { apply Qnot_lt_le; intros C. assert (0 <= tnorm b * (turn u w p - 0)) by nra.
    assert ((tpar b p - tpar b x1) * (fb b u - fb b w) < 0) by nra. lra. }
  assert (T2 : tpar b p <= tpar b x2).
  { apply Qnot_lt_le; intros C. assert (0 <= tnorm b * (turn u' w' p - 0)) by nra.
    assert ((tpar b p - tpar b x2) * (fb b u' - fb b w') < 0) by nra. lra. }
  assert (P1 : 0 <= A + tpar b x1 * K) by (rewrite <- Gx1; nra).
  assert (P2 : 0 <= A + tpar b x2 * K) by (rewrite <- Gx2; nra).
  assert (P : 0 <= tnorm b * aff al be ga p). { rewrite Gp. destruct (Qlt_le_dec K 0); nra. }
  apply Qnot_lt_le; intros C. nra.
Qed.

(** ** completeness for one edge *)
(** a multiplier that dominates every bound from the outside vertices and is dominated at the inside vertices *)
Lemma multiplier : forall (l : list point) (f g : point -> Q),
  (forall u, In u l -> 0 <= f u -> 0 <= g u) ->
  (forall u w, In u l -> In w l -> 0 <= f u -> f w < 0 -> 0 <= f u * g w - f w * g u) ->
  (exists u, In u l /\ 0 <= f u) ->
  exists la, 0 <= la /\ forall v, In v l -> 0 <= g v - la * f v.
Proof.
  intros l f g Hin Hpair _.
  (* la = max(0, max over outside w of g w / f w) *)
  assert (K : forall l', (forall v, In v l' -> In v l) -> exists la, 0 <= la /\ (forall w, In w l' -> f w < 0 -> 0 <= g w - la * f w) /\
     (la == 0 \/ exists w, In w l' /\ f w < 0 /\ la * f w == g w)).
  { induction l' as [|w l' IH]; intros S.
    - exists 0; repeat split; [lra | intros w [] | left; reflexivity].
    - destruct IH as [la [P [Q1 Q2]]]; [intros; apply S; right; assumption|].
      destruct (Qlt_le_dec (f w) 0) as [F|F].
      + destruct (Qlt_le_dec (g w - la * f w) 0) as [G|G].
        * exists (g w / f w).
          assert (E : g w / f w * f w == g w) by (field; lra).
          assert (Lt : la <= g w / f w). { apply Qnot_lt_le; intros C. assert (g w / f w * f w >= la * f w) by nra. lra. }
          repeat split; [lra | | right; exists w; repeat split; [left; reflexivity | exact F | exact E]].
          intros v [<-|Hv] Fv; [rewrite E; lra | specialize (Q1 v Hv Fv); nra].
        * exists la; repeat split; [exact P | | destruct Q2 as [Q2|[v [A [B C]]]]; [left; exact Q2 | right; exists v; repeat split; auto; right; exact A]].
          intros v [<-|Hv] Fv; [exact G | apply Q1; assumption].
      + exists la; repeat split; [exact P | | destruct Q2 as [Q2|[v [A [B C]]]]; [left; exact Q2 | right; exists v; repeat split; auto; right; exact A]].
        intros v [<-|Hv] Fv; [lra | apply Q1; assumption]. }
  destruct (K l (fun v H => H)) as [la [P [Q1 Q2]]].
  exists la; split; [exact P|]. intros v Hv.
  destruct (Qlt_le_dec (f v) 0) as [F|F]; [apply Q1; assumption|].
  destruct Q2 as [Z|[w [Hw [Fw E]]]].
  - rewrite Z. specialize (Hin v Hv F). lra.
  - specialize (Hpair v w Hv Hw F Fw). rewrite <- E in Hpair.
    assert (0 <= - f w * (g v - la * f v)) by lra. apply Qnot_lt_le; intros C. nra.
Qed.

Lemma clip_complete : forall b l o p, convex l -> clipped b (last l (0, 0)) l o -> hull l p -> 0 <= fb b p -> hull o p.
Proof.
  intros b l o p Cv C H F al be ga K.
  change (0 <= aff al be ga p).
  assert (Dec : (exists u, In u l /\ 0 <= fb b u) \/ forall u, In u l -> fb b u < 0).
  { clear. induction l as [|a l [[u [A B]]|N]]; [right; intros u [] | left; exists u; split; [right; exact A | exact B] |].
    destruct (Qlt_le_dec (fb b a) 0); [right; intros u [<-|Hu]; auto | left; exists a; split; [left; reflexivity | assumption]]. }
  destruct Dec as [Ex|N].
  - destruct (multiplier l (fun v => fb b v) (aff al be ga)) as [la [P M]].
    + intros u Hu Fu. apply K. exact (clipped_in_kept _ _ _ _ C u Hu Fu).
    + intros u w Hu Hw Fu Fw.
      destruct (clipped_edges b l o u w C Hu Fu Hw Fw) as [[u2 [w2 [x2 [E2 [A2 [B2 [C2 O2]]]]]]] [u1 [w1 [x1 [E1 [A1 [B1 [C1 O1]]]]]]]].
      set (D := fb b u - fb b w).
      set (X := ((fb b u * fst w - fb b w * fst u) / D, (fb b u * snd w - fb b w * snd u) / D)).
      assert (Dp : ~ D == 0) by (unfold D; lra).
      assert (Cx : crossing b u w X). { intros a1 a2 a3; unfold aff, X; cbn [fst snd]; fold D; unfold D; field; exact Dp. }
      assert (Zx : fb b X == 0) by (eapply crossing_zero; [exact Cx | lra]).
      assert (LX : forall a c, In (a, c) (poly_edges l) -> 0 <= turn a c X).
      { intros a c Hac. rewrite turn_aff. eapply (crossing_nonneg b w u); [apply crossing_sym; exact Cx | exact Fw | exact Fu | |]; rewrite <- turn_aff; eapply Cv; eassumption. }
      assert (G : 0 <= aff al be ga X).
      { eapply (between b u1 w1 x1 u2 w2 x2); try eassumption; [apply LX; exact E1 | apply LX; exact E2 | apply K; exact O1 | apply K; exact O2]. }
      rewrite <- (Cx al be ga). apply Qmult_le_0_compat; [exact G | lra].
    + exact Ex.
    + assert (L : 0 <= aff al be ga p - la * fb b p).
      { set (A := - (snd (e_curr b) - snd (e_prev b))). set (B := fst (e_curr b) - fst (e_prev b)).
        set (G := (snd (e_curr b) - snd (e_prev b)) * fst (e_prev b) - (fst (e_curr b) - fst (e_prev b)) * snd (e_prev b)).
        assert (E : forall q, aff al be ga q - la * fb b q == aff (al - la * A) (be - la * B) (ga - la * G) q).
        { intros q; unfold A, B, G, aff, turn; ring. }
        rewrite E. apply H. intros v Hv. specialize (M v Hv). cbv beta in M. rewrite E in M. exact M. }
      nra.
  - (* every vertex strictly outside: contradiction with p inside *)
    exfalso.
    assert (Ep : exists ep, 0 < ep /\ forall u, In u l -> fb b u <= - ep).
    { clear - N. induction l as [|a l IH]; [exists 1; split; [lra | intros u []]|].
      destruct IH as [ep [P Q1]]; [intros; apply N; right; assumption|].
      pose proof (N a (or_introl eq_refl)) as Na.
      destruct (Qlt_le_dec ep (- fb b a)).
      - exists ep; split; [exact P|]. intros u [<-|Hu]; [lra | auto].
      - exists (- fb b a); split; [lra|]. intros u [<-|Hu]; [lra | specialize (Q1 u Hu); lra]. }
    destruct Ep as [ep [P Q1]].
    set (A := - (snd (e_curr b) - snd (e_prev b))). set (B := fst (e_curr b) - fst (e_prev b)).
    set (G := (snd (e_curr b) - snd (e_prev b)) * fst (e_prev b) - (fst (e_curr b) - fst (e_prev b)) * snd (e_prev b)).
    assert (E : forall q, - fb b q - ep == aff (- A) (- B) (- G - ep) q).
    { intros q; unfold A, B, G, aff, turn; ring. }
    assert (L : 0 <= - fb b p - ep).
    { rewrite E. apply H. intros v Hv. specialize (Q1 v Hv). change (0 <= aff (- A) (- B) (- G - ep) v). rewrite <- E. lra. }
    lra.
Qed.

(** ** the output of clipping a convex polygon is convex *)
Section Convex.
Variables (b : edge) (E : list (point * point)).
Definition pos (x v : point) : Prop :=
  (0 <= fb b v /\ x = v) \/ (fb b v < 0 /\ exists u w, In (u, w) E /\ 0 <= fb b u /\ fb b w < 0 /\ crossing b u w x).
Definition good (y z : point) : Prop := forall p, (forall a c, In (a, c) E -> 0 <= turn a c p) -> 0 <= fb b p -> 0 <= turn y z p.

Lemma good_tail : forall v c x, In (v, c) E -> 0 <= fb b v -> fb b c < 0 -> crossing b v c x -> good v x.
Proof.
  intros v c x I V C X p H F.
  assert (K : turn v x p * (fb b v - fb b c) == fb b v * turn v c p).
  { pose proof (X (- (snd v - snd p)) (fst v - fst p) ((snd v - snd p) * fst p - (fst v - fst p) * snd p)) as K.
    rewrite <- !turn_aff in K.
    assert (K1 : turn v x p == turn p v x) by (unfold turn; ring). rewrite K1, K. unfold turn; ring. }
  pose proof (H v c I). apply Qnot_lt_le; intros N.
  assert (turn v x p * (fb b v - fb b c) < 0) by nra. nra.
Qed.
Lemma good_head : forall v c x, In (v, c) E -> fb b v < 0 -> 0 <= fb b c -> crossing b v c x -> good x c.
Proof.
  intros v c x I V C X p H F.
  assert (K : turn x c p * (fb b v - fb b c) == - (fb b c * turn v c p)).
  { pose proof (X (- (snd p - snd c)) (fst p - fst c) ((snd p - snd c) * fst c - (fst p - fst c) * snd c)) as K.
    rewrite <- !turn_aff in K.
    assert (K1 : turn x c p == turn c p x) by (unfold turn; ring). rewrite K1, K. unfold turn; ring. }
  pose proof (H v c I). apply Qnot_lt_le; intros N.
  assert (0 < turn x c p * (fb b v - fb b c)) by nra. nra.
Qed.

Lemma clipped_pos : forall v l o, clipped b v l o -> (forall e, In e (combine (v :: l) l) -> In e E) -> forall x, pos x v -> pos (last o x) (last l v).
Proof.
  intros v l o C; induction C as [v|v c r o Hv Hc C IH|v c r o x Hv Hc X C IH|v c r o x Hv Hc X C IH|v c r o Hv Hc C IH]; intros S y P;
    try rewrite (last_step _ r c v).
  - exact P.
  - rewrite last_step. apply IH; [intros; apply S; right; assumption | left; auto].
  - rewrite !last_step. apply IH; [intros; apply S; right; assumption | left; auto].
  - rewrite last_step. apply IH; [intros; apply S; right; assumption | right; split; [exact Hc|]].
    exists v, c; repeat split; auto. apply S; left; reflexivity.
  - apply IH; [intros; apply S; right; assumption|].
    destruct P as [[P _]|[_ P]]; [lra | right; split; [exact Hc | exact P]].
Qed.
Lemma clipped_pos_none : forall v l o, clipped b v l o -> (forall e, In e (combine (v :: l) l) -> In e E) -> fb b v < 0 ->
  forall d, o = [] \/ pos (last o d) (last l v).
Proof.
  intros v l o C; induction C as [v|v c r o Hv Hc C IH|v c r o x Hv Hc X C IH|v c r o x Hv Hc X C IH|v c r o Hv Hc C IH]; intros S V y;
    try rewrite (last_step _ r c v).
  - left; reflexivity.
  - lra.
  - right. rewrite !last_step. apply (clipped_pos _ _ _ C); [intros; apply S; right; assumption | left; auto].
  - lra.
  - apply IH; [intros; apply S; right; assumption | exact Hc].
Qed.

Lemma clipped_chain : forall v l o, clipped b v l o -> (forall e, In e (combine (v :: l) l) -> In e E) ->
  (forall a c z, In (a, c) E -> In z (v :: l) -> 0 <= turn a c z) ->
  forall x, pos x v -> forall y z, In (y, z) (combine (x :: o) o) -> good y z.
Proof.
  intros v l o C; induction C as [v|v c r o Hv Hc C IH|v c r o x Hv Hc X C IH|v c r o x Hv Hc X C IH|v c r o Hv Hc C IH]; intros S L x0 P y z Hyz.
  - destruct Hyz.
  - destruct Hyz as [Q1|Hyz].
    + injection Q1 as <- <-. destruct P as [[_ ->]|[P _]]; [|lra].
      intros p H F; apply H, S; left; reflexivity.
    + apply (IH (fun e He => S e (or_intror He)) (fun a d w Ha Hw => L a d w Ha (or_intror Hw)) c); [left; auto | exact Hyz].
  - destruct Hyz as [Q1|[Q1|Hyz]].
    + injection Q1 as <- <-. destruct P as [[P _]|[_ [u [w [I1 [U [W X1]]]]]]]; [lra|].
      intros p H F. apply (turn_key b u w); auto.
      * eapply crossing_zero; [exact X | lra].
      * rewrite turn_aff. eapply crossing_nonneg; [exact X | exact Hv | exact Hc | |]; rewrite <- turn_aff; apply L; auto; [left; reflexivity | right; left; reflexivity].
    + injection Q1 as <- <-. eapply good_head; [apply S; left; reflexivity | exact Hv | exact Hc | exact X].
    + apply (IH (fun e He => S e (or_intror He)) (fun a d w Ha Hw => L a d w Ha (or_intror Hw)) c); [left; auto | exact Hyz].
  - assert (I0 : In (v, c) E) by (apply S; left; reflexivity).
    destruct Hyz as [Q1|Hyz].
    + injection Q1 as <- <-. destruct P as [[_ ->]|[P _]]; [|lra]. eapply good_tail; [exact I0 | exact Hv | exact Hc | exact X].
    + apply (IH (fun e He => S e (or_intror He)) (fun a d w Ha Hw => L a d w Ha (or_intror Hw)) x); [|exact Hyz].
      right; split; [exact Hc|]. exists v, c; repeat split; auto.
  - apply (IH (fun e He => S e (or_intror He)) (fun a d w Ha Hw => L a d w Ha (or_intror Hw)) x0); [|exact Hyz].
    destruct P as [[P _]|[_ P]]; [lra | right; split; [exact Hc | exact P]].
Qed.
End Convex.

Lemma last_in_l : forall (l : list point) d, l <> [] -> In (last l d) l.
Proof. intros; apply last_cons_in; assumption. Qed.

Lemma clip_convex : forall b l o, convex l -> clipped b (last l (0, 0)) l o -> convex o.
Proof.
  intros b l o Cv C y z w Hyz Hw.
  assert (On : o <> []) by (intros ->; destruct Hw).
  assert (Ln : l <> []) by (intros ->; inversion C; congruence).
  set (v := last l (0, 0)) in *.
  assert (V : last l v = v) by (apply last_default; exact Ln).
  assert (P : pos b (poly_edges l) (last o (0, 0)) v).
  { destruct (Qlt_le_dec (fb b v) 0) as [N|N].
    - destruct (clipped_pos_none b (poly_edges l) _ _ _ C (fun e H => H) N (0, 0)) as [->|P]; [congruence|]. rewrite V in P; exact P.
    - rewrite (last_default _ o (0, 0) v On).
      pose proof (clipped_pos b (poly_edges l) _ _ _ C (fun e H => H) v (or_introl (conj N eq_refl))) as P. rewrite V in P; exact P. }
  assert (G : good b (poly_edges l) y z).
  { eapply clipped_chain; [exact C | intros e He; exact He | | exact P | exact Hyz].
    intros a c q Ha [<-|Hq]; apply (Cv a c); auto. apply last_in_l; exact Ln. }
  apply G.
  - intros a c Hac. rewrite turn_aff.
    eapply clipped_nonneg; [exact C | | | exact Hw].
    + rewrite <- turn_aff. apply (Cv a c); auto. apply last_in_l; exact Ln.
    + intros q Hq. rewrite <- turn_aff. apply (Cv a c); auto.
  - eapply clipped_inside; eassumption.
Qed.

Lemma clip_hull_sound : forall b l o p, clipped b (last l (0, 0)) l o -> hull o p -> hull l p /\ 0 <= fb b p.
Proof.
  intros b l o p C H; split.
  - intros al be ga K. apply H. intros v Hv.
    destruct l as [|a l]; [inversion C; subst; destruct Hv|].
    refine (clipped_nonneg _ _ _ _ al be ga C _ K v Hv). apply K, last_in_l; discriminate.
  - eapply hull_turn; [exact H|]. intros v Hv; eapply clipped_inside; eassumption.
Qed.

(** ** all the clip edges *)
Lemma clip_edges_sound : forall clip prev l, exists o, clip_edges prev clip l = Ok o /\
  (forall p, hull o p -> hull l p /\ forall a c, In (a, c) (combine (prev :: clip) clip) -> left_of a c p).
Proof.
  induction clip as [|c r IH]; intros prev l.
  - exists l; split; [reflexivity|]. intros p H; split; [exact H | intros a c []].
  - destruct (clip_edge_ok {| e_curr := c; e_prev := prev |} l) as [o1 [E1 C1]].
    destruct (IH c o1) as [o [E O]].
    exists o; split; [cbn; rewrite E1; cbn; exact E|].
    intros p H. destruct (O p H) as [H1 A]. destruct (clip_hull_sound _ _ _ _ C1 H1) as [H2 F].
    split; [exact H2|]. intros a d [Q1|Had]; [injection Q1 as <- <-; exact F | apply A; exact Had].
Qed.
Lemma clip_edges_exact : forall clip prev l, convex l -> exists o, clip_edges prev clip l = Ok o /\ convex o /\
  (forall p, hull o p <-> hull l p /\ forall a c, In (a, c) (combine (prev :: clip) clip) -> left_of a c p).
Proof.
  induction clip as [|c r IH]; intros prev l Cv.
  - exists l; split; [reflexivity|]. split; [exact Cv|]. intros p; split; [intros H; split; [exact H | intros a c []] | tauto].
  - destruct (clip_edge_ok {| e_curr := c; e_prev := prev |} l) as [o1 [E1 C1]].
    destruct (IH c o1 (clip_convex _ _ _ Cv C1)) as [o [E [Co O]]].
    exists o; split; [cbn; rewrite E1; cbn; exact E|]. split; [exact Co|].
    intros p; rewrite O; split.
    + intros [H1 A]. destruct (clip_hull_sound _ _ _ _ C1 H1) as [H2 F].
      split; [exact H2|]. intros a d [Q1|Had]; [injection Q1 as <- <-; exact F | apply A; exact Had].
    + intros [H A]; split.
      * eapply clip_complete; [exact Cv | exact C1 | exact H | apply (A prev c); left; reflexivity].
      * intros a d Had; apply A; right; exact Had.
Qed.
Lemma clip_edges_same : forall clip prev l, (forall p a c, In p l -> In (a, c) (combine (prev :: clip) clip) -> left_of a c p) ->
  clip_edges prev clip l = Ok l.
Proof.
  induction clip as [|c r IH]; intros prev l H; [reflexivity|].
  destruct (clip_edge_ok {| e_curr := c; e_prev := prev |} l) as [o1 [E1 C1]].
  assert (S : o1 = l).
  { destruct l as [|a l]; [inversion C1; reflexivity|].
    eapply clipped_same; [exact C1 | |]; intros; (apply H; [|left; reflexivity]); [apply last_in_l; discriminate | assumption]. }
  subst o1. cbn; rewrite E1; cbn. apply IH. intros p a d Hp Had; apply H; [exact Hp | right; exact Had].
Qed.

Theorem clip_exact_lemma : forall subject clip, clip <> [] -> convex subject ->
  exists o, sutherland_hodgman subject clip = Ok o /\ convex o /\ forall p, hull o p <-> (hull subject p /\ inside_all clip p).
Proof.
  intros s [|c r] H Cv; [congruence|]. unfold sutherland_hodgman, inside_all, poly_edges. apply clip_edges_exact; exact Cv.
Qed.
Theorem clip_sound_lemma : forall subject clip, clip <> [] ->
  exists o, sutherland_hodgman subject clip = Ok o /\ forall p, hull o p -> hull subject p /\ inside_all clip p.
Proof.
  intros s [|c r] H; [congruence|]. unfold sutherland_hodgman, inside_all, poly_edges. apply clip_edges_sound.
Qed.
Theorem clip_same_lemma : forall subject clip, clip <> [] -> (forall p, In p subject -> inside_all clip p) ->
  sutherland_hodgman subject clip = Ok subject.
Proof.
  intros s [|c r] H K; [congruence|]. unfold sutherland_hodgman. apply clip_edges_same. intros p a d Hp Had; apply (K p Hp); exact Had.
Qed.
(** weighted means of the vertices are in the hull *)
Lemma hull_mean : forall l ws, length ws = length l -> (forall w, In w ws -> 0 <= w) -> qsum ws == 1 ->
  hull l (qsum (map (fun wp => fst wp * fst (snd wp)) (combine ws l)), qsum (map (fun wp => fst wp * snd (snd wp)) (combine ws l))).
Proof.
  intros l ws Len Pos Sum al be ga K; cbn [fst snd].
  assert (G : forall ws l, length ws = length l ->
    al * qsum (map (fun wp => fst wp * fst (snd wp)) (combine ws l)) + be * qsum (map (fun wp => fst wp * snd (snd wp)) (combine ws l)) + ga * qsum ws
    == qsum (map (fun wp => fst wp * (al * fst (snd wp) + be * snd (snd wp) + ga)) (combine ws l))).
  { clear. induction ws as [|w ws IH]; intros [|a l] E; try discriminate.
    - cbn; ring.
    - injection E as E. cbn [combine map qsum fold_right fst snd]. fold qsum.
      change (fold_right Qplus 0 ?x) with (qsum x). rewrite <- (IH l E). ring. }
  assert (E : ga == ga * qsum ws) by (rewrite Sum; ring).
  rewrite E, (G ws l Len).
  assert (N : forall ws l, length ws = length l -> (forall w, In w ws -> 0 <= w) -> (forall v, In v l -> 0 <= al * fst v + be * snd v + ga) ->
    0 <= qsum (map (fun wp => fst wp * (al * fst (snd wp) + be * snd (snd wp) + ga)) (combine ws l))).
  { clear. induction ws as [|w ws IH]; intros [|a l] E P K; try (discriminate E); [cbn; lra|].
    injection E as E. cbn [combine map fst snd]. change (qsum (?x :: ?y)) with (x + qsum y).
    assert (0 <= w * (al * fst a + be * snd a + ga)) by (apply Qmult_le_0_compat; [apply P; left; reflexivity | apply K; left; reflexivity]).
    assert (0 <= qsum (map (fun wp => fst wp * (al * fst (snd wp) + be * snd (snd wp) + ga)) (combine ws l)))
      by (apply (IH l E); intros z Hz; [apply (P z) | apply (K z)]; right; exact Hz).
    lra. }
  apply N; assumption.
Qed.
