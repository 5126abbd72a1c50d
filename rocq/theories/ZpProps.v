(** Maps of directions on a plane *)
From Coq Require Import Reals String List Lra Psatz.
From Verif Require Import Prelude Lin TensorModel TensorSpec TensorProofs XfModel XfSpec XfTrig XfMats XfRay ZpModel ZpSpec.
Import ListNotations.
Local Open Scope R_scope.
Local Notation length := List.length.

Lemma default_frame : beam_frame (V3 0 0 (-1)) (V3 1 0 0) mI.
Proof.
  assert (U : norm (V3 0 0 (-1)) = 1). { unfold norm. replace (norm2 (V3 0 0 (-1))) with 1 by (lin_unfold; ring). apply sqrt_1. }
  unfold beam_frame, direction. rewrite U. split; [split; [unfold orthogonal; lin_unfold; f_equal; ring|lin_unfold; ring]|]. rewrite mt_I || idtac. repeat split; lin_unfold; try (f_equal; field); try ring; try lra.
Qed.
Lemma default_nonzero : V3 0 0 (-1) <> vzero.
Proof. intros H. injection H. lra. Qed.
Lemma meant_lemma src chi a : forall l, Forall2 (meant src chi) (a :: l) (directions src chi (a :: l)) <-> meant src chi a (hd vzero (directions src chi [a])) /\ Forall2 (meant src chi) l (directions src chi l).
Proof. intros l. destruct src; cbn [directions map hd]; split; try (intros H; inversion H; subst; now split); intros []; now constructor. Qed.
Lemma meant_all src chi : forall l, Forall2 (meant src chi) l (directions src chi l).
Proof.
  induction l as [|a l IH]; [destruct src; constructor|]. apply meant_lemma. split; [|exact IH]. destruct src; cbn [directions map hd meant]; [| |reflexivity].
  - unfold angles_to_dvec. rewrite (angles_vec false _ _ chi mI (vx a) (vy a) (vz a) mI default_nonzero default_frame). rewrite mt_I, !mv_I. apply rot_back, turn_rot.
  - unfold angles_to_gvec. rewrite (angles_vec true _ _ chi mI (vx a) (vy a) (vz a) mI default_nonzero default_frame). rewrite mt_I, !mv_I. rewrite rot_back by apply turn_rot. reflexivity.
Qed.
(** the direction is unique *)
Lemma seen_all rmat inv l : Forall2 (seen rmat inv) l (let s := match rmat with Some r => map (mv r) l | None => l end in if inv then map flip_z s else s).
Proof. induction l as [|a l IH]; destruct rmat, inv; cbn in *; constructor; try (repeat split; reflexivity); exact IH. Qed.
Lemma Forall2_compose {A B C} (P : A -> B -> Prop) (Q : B -> C -> Prop) : forall l m n, Forall2 P l m -> Forall2 Q m n -> Forall2 (fun a c => exists b, P a b /\ Q b c) l n.
Proof. intros l m n H. revert n. induction H as [|a b l m H1 H2 IH]; intros n G; inversion G; subst; constructor; eauto. Qed.
Lemma stereo_lemma s : vz s <> 1 -> stereographic_image s (stereographic s).
Proof. intros H. exists (/ (1 - vz s)). destruct s as [x y z]. cbn [vz] in H. unfold stereographic. lin_unfold. cbn [vx vy vz fst snd]. f_equal; field; lra. Qed.
Lemma area_lemma s : ten_epsf < norm (V3 (vx s) (vy s) 0) \/ s = V3 0 0 (-1) -> equal_area_image s (equal_area s).
Proof.
  intros H. assert (E0 : 0 < ten_epsf) by (unfold ten_epsf; apply Rdiv_lt_0_compat; [lra|apply pow_lt; lra]). unfold equal_area_image, equal_area.
  assert (C : vadd s (V3 0 0 1) = vsub s (V3 0 0 (-1))) by (destruct s; lin_unfold; f_equal; ring). rewrite C.
  assert (X : vx (vsub s (V3 0 0 (-1))) = vx s) by (destruct s; lin_unfold; ring). assert (Y : vy (vsub s (V3 0 0 (-1))) = vy s) by (destruct s; lin_unfold; ring). cbv zeta. rewrite X, Y. cbn [fst snd].
  set (c := vsub s (V3 0 0 (-1))) in *. assert (N2 : norm c * norm c = norm2 c) by (unfold norm; apply sqrt_sqrt; destruct c; lin_unfold; nra). assert (N0 : 0 <= norm c) by apply sqrt_pos.
  destruct H as [H|H].
  - destruct (unit_vector_norm _ H) as [U V]. set (u := unitVector (V3 (vx s) (vy s) 0)) in *. set (n := norm (V3 (vx s) (vy s) 0)) in *.
    assert (U2 : norm2 u = 1). { assert (Z : 0 <= norm2 u) by (destruct u; lin_unfold; nra). unfold norm in U. rewrite <- (sqrt_sqrt _ Z). rewrite U. ring. }
    assert (V1 : vx s = n * vx u) by exact (f_equal vx V). assert (V2 : vy s = n * vy u) by exact (f_equal vy V). assert (Vz : 0 = n * vz u) by exact (f_equal vz V). assert (W : vz u = 0) by (apply Rmult_eq_reg_l with n; lra). clear V. split.
    + replace (vx u * norm c * (vx u * norm c) + vy u * norm c * (vy u * norm c)) with (norm2 u * (norm c * norm c)) by (unfold norm2, dot; rewrite W; ring). rewrite U2, N2. ring.
    + exists (norm c / n). split; [apply Rmult_le_pos; [exact N0|left; apply Rinv_0_lt_compat; lra]|]. split; [rewrite V1|rewrite V2]; field; lra.
  - subst s. assert (Z : norm c = 0). { subst c. unfold norm. replace (norm2 _) with 0 by (lin_unfold; ring). apply sqrt_0. } rewrite <- N2, Z. split; [ring|]. exists 0. split; [lra|]. split; ring.
Qed.

(** ** C185: each direction goes to its image under the method, in order; with a mask those with z <= 0 only, and the mask tells which *)
Theorem C185_projected : forall invecs chi method src use_mask invert rmat, In method ["stereographic"; "equal-area"]%string ->
  exists dirs pts mask, fst (zproject invecs chi method src use_mask invert rmat) = Ok (pts, mask) /\
  Forall2 (fun a s => exists t, meant src chi a t /\ seen rmat invert t s) invecs dirs /\
  exists low : v3 -> bool, (forall s, low s = true <-> vz s <= 0) /\ mask = (if use_mask then Some (map low dirs) else None) /\
  Forall2 (fun s p => if String.eqb method "stereographic" then vz s <> 1 -> stereographic_image s p
                      else ten_epsf < norm (V3 (vx s) (vy s) 0) \/ s = V3 0 0 (-1) -> equal_area_image s p)
          (if use_mask then filter low dirs else dirs) pts.
Proof.
  intros invecs chi method src use_mask invert rmat M.
  set (dirs := let s := match rmat with Some r => map (mv r) (directions src chi invecs) | None => directions src chi invecs end in if invert then map flip_z s else s).
  assert (L : forall s, lower_half s = true <-> vz s <= 0) by (intros s; unfold lower_half; destruct (Rle_dec (vz s) 0); intuition; discriminate).
  assert (D : Forall2 (fun a s => exists t, meant src chi a t /\ seen rmat invert t s) invecs dirs) by (eapply Forall2_compose; [apply meant_all|apply seen_all]).
  assert (G : forall (f : v3 -> R * R) (Q : v3 -> R * R -> Prop) l, (forall s, Q s (f s)) -> Forall2 Q l (map f l)) by (intros f Q l H; induction l; cbn; constructor; auto).
  unfold zproject. cbn [fst]. fold dirs. destruct M as [<-|[<-|[]]]; cbn [String.eqb Ascii.eqb Bool.eqb].
  - exists dirs. eexists. eexists. split; [reflexivity|]. split; [exact D|]. exists lower_half. split; [exact L|]. split; [reflexivity|]. apply G. exact stereo_lemma.
  - exists dirs. eexists. eexists. split; [reflexivity|]. split; [exact D|]. exists lower_half. split; [exact L|]. split; [reflexivity|]. apply G. exact area_lemma.
Qed.
Print Assumptions C185_projected.
(** other methods are refused *)
Theorem C185_method : forall invecs chi method src use_mask invert rmat, ~ In method ["stereographic"; "equal-area"]%string ->
  fst (zproject invecs chi method src use_mask invert rmat) = Err RuntimeError.
Proof.
  intros invecs chi method src use_mask invert rmat H. unfold zproject. cbn [fst]. destruct (String.eqb_spec method "stereographic") as [->|]; [exfalso; apply H; now left|].
  destruct (String.eqb_spec method "equal-area") as [->|]; [exfalso; apply H; right; now left|reflexivity].
Qed.
Print Assumptions C185_method.
(** no two directions share an image, the pole (0, 0, 1) left out; discs of the equal-area map have the area of the cap, and directions
    with z <= 0 go to the unit disc of the stereographic map *)
Theorem C185_one_to_one_partial : forall s t p, norm2 s = 1 -> norm2 t = 1 -> vz s <> 1 -> vz t <> 1 ->
  (stereographic_image s p -> stereographic_image t p -> s = t) /\ (equal_area_image s p -> equal_area_image t p -> s = t).
Proof.
  intros [x y z] [x' y' z'] [a b] S T Zs Zt. lin_unfold. cbn [vx vy vz fst snd] in *. split.
  - unfold stereographic_image. lin_unfold. cbn [vx vy vz fst snd]. intros [k A] [k' B]. cbn [vx vy vz] in *. injection A as A1 A2 A3. injection B as B1 B2 B3.
    assert (kz : k * (1 - z) = 1) by nra. assert (kz' : k' * (1 - z') = 1) by nra.
    assert (Q : a * a + b * b = 2 * k - 1). { transitivity (k * k * (x * x + y * y)); [rewrite A1, A2; ring|]. replace (x * x + y * y) with ((1 - z) * (1 + z)) by nra. transitivity (k * (1 - z) * (k * (1 + z))); [ring|]. rewrite kz. replace (k * (1 + z)) with (2 * k - k * (1 - z)) by ring. rewrite kz. ring. }
    assert (Q' : a * a + b * b = 2 * k' - 1). { transitivity (k' * k' * (x' * x' + y' * y')); [rewrite B1, B2; ring|]. replace (x' * x' + y' * y') with ((1 - z') * (1 + z')) by nra. transitivity (k' * (1 - z') * (k' * (1 + z'))); [ring|]. rewrite kz'. replace (k' * (1 + z')) with (2 * k' - k' * (1 - z')) by ring. rewrite kz'. ring. }
    assert (KK : k' = k) by lra. subst k'. assert (k <> 0) by (intros E; rewrite E in kz; lra). f_equal; apply Rmult_eq_reg_l with k; auto; lra.
  - unfold equal_area_image. lin_unfold. cbn [vx vy vz fst snd]. intros [A (k & K0 & K1 & K2)] [B (l & L0 & L1 & L2)]. cbn [vx vy vz] in *.
    assert (ZZ : z' = z) by nra. subst z'. assert (R1 : k * k * ((1 - z) * (1 + z)) = 2 * (1 + z)) by (transitivity (a * a + b * b); [rewrite K1, K2; transitivity (k * k * (x * x + y * y)); [f_equal; nra|ring]|nra]).
    assert (R2 : l * l * ((1 - z) * (1 + z)) = 2 * (1 + z)) by (transitivity (a * a + b * b); [rewrite L1, L2; transitivity (l * l * (x' * x' + y' * y')); [f_equal; nra|ring]|nra]).
    destruct (Req_dec z (-1)) as [->|N].
    + assert (x = 0) by nra. assert (y = 0) by nra. assert (x' = 0) by nra. assert (y' = 0) by nra. subst. reflexivity.
    + assert (P : k * k = l * l) by (apply Rmult_eq_reg_r with ((1 - z) * (1 + z)); [lra|apply Rmult_integral_contrapositive_currified; lra]). assert (E : l = k) by (apply Rsqr_inj; unfold Rsqr; auto). subst l.
      assert (k <> 0). { intros ->. assert (1 + z = 0) by lra. lra. } f_equal; apply Rmult_eq_reg_l with k; auto; lra.
Qed.
Print Assumptions C185_one_to_one_partial.
Theorem C185_area : forall s p, norm2 s = 1 ->
  (equal_area_image s p -> PI * (fst p * fst p + snd p * snd p) = cap_area (vz s)) /\
  (vz s <> 1 -> stereographic_image s p -> (vz s <= 0 <-> fst p * fst p + snd p * snd p <= 1)).
Proof.
  intros [x y z] [a b] S. unfold cap_area. split.
  - intros [A _]. rewrite A. lin_unfold. cbn [vx vy vz] in *. replace ((x - 0) * (x - 0) + (y - 0) * (y - 0) + (z - -1) * (z - -1)) with (x * x + y * y + z * z + 2 * z + 1) by ring. rewrite S. ring.
  - intros Z [k A]. lin_unfold. cbn [vx vy vz fst snd] in *. injection A as A1 A2 A3. assert (kz : k * (1 - z) = 1) by nra.
    assert (Q : a * a + b * b = 2 * k - 1). { transitivity (k * k * (x * x + y * y)); [rewrite A1, A2; ring|]. replace (x * x + y * y) with ((1 - z) * (1 + z)) by nra. transitivity (k * (1 - z) * (k * (1 + z))); [ring|]. rewrite kz. replace (k * (1 + z)) with (2 * k - k * (1 - z)) by ring. rewrite kz. ring. }
    assert (z < 1) by nra. assert (0 < k) by nra. rewrite Q. split; intros; nra.
Qed.
Print Assumptions C185_area.
(** refuted: the equal-area map is one to one.  Both poles go to the middle *)
Theorem C185_poles_refuted : exists out, zproject [V3 0 0 1; V3 0 0 (-1)] 0 "equal-area" SrcG false false None = (Ok ([out; out], None), [V3 0 0 1; V3 0 0 (-1)]).
Proof. exists (0, 0). unfold zproject, equal_area, unitVector. cbn. repeat f_equal; unfold Rdiv; ring. Qed.
Print Assumptions C185_poles_refuted.
(** refuted: the mask keeps the hemisphere of positive z, as its description says *)
Theorem C185_mask_refuted : exists pts, fst (zproject [V3 0 0 1; V3 0 0 (-1)] 0 "stereographic" SrcG true false None) = Ok (pts, Some [false; true]) /\ length pts = 1%nat.
Proof. unfold zproject, directions, lower_half. cbn. destruct (Rle_dec 1 0); [lra|]. destruct (Rle_dec (-1) 0); [|lra]. eexists. split; reflexivity. Qed.
Print Assumptions C185_mask_refuted.
(** the caller's array is left alone if z is not inverted, or angles are given, or a matrix *)
Theorem C185_input_partial : forall invecs chi method src use_mask invert rmat, invert = false \/ src <> SrcG \/ rmat <> None ->
  snd (zproject invecs chi method src use_mask invert rmat) = invecs.
Proof. intros invecs chi method src use_mask invert rmat H. unfold zproject. cbn [snd]. destruct src, rmat, invert; try reflexivity. destruct H as [H|[H|H]]; congruence. Qed.
Print Assumptions C185_input_partial.
(** refuted: it is left alone in any case; a second call gives another result *)
Theorem C185_input_refuted : exists invecs, snd (zproject invecs 0 "stereographic" SrcG false true None) <> invecs /\
  fst (zproject (snd (zproject invecs 0 "stereographic" SrcG false true None)) 0 "stereographic" SrcG false true None) <> fst (zproject invecs 0 "stereographic" SrcG false true None).
Proof.
  exists [V3 (3 / 5) 0 (4 / 5)]. unfold zproject, stereographic, flip_z. cbn. split.
  - intros E. injection E. lra.
  - intros E. injection E. intros _ F. assert (3 / 5 / (1 - - - (4 / 5)) = 3) by field. assert (3 / 5 / (1 - - (4 / 5)) = 1 / 3) by field. lra.
Qed.
Print Assumptions C185_input_refuted.
(** the diffracted beam at 2theta and eta is mapped to the point at the distance tan(theta) and the azimuth eta *)
Theorem C185_beam : forall tth eta, 0 <= tth < PI ->
  fst (zproject [V3 tth eta 0] 0 "stereographic" SrcD false false None) = Ok ([(tan (tth / 2) * cos eta, tan (tth / 2) * sin eta)], None).
Proof.
  intros tth eta H. pose proof (meant_all SrcD 0 [V3 tth eta 0]) as M. unfold zproject. cbn [fst]. destruct (directions SrcD 0 [V3 tth eta 0]) as [|s [|s2 l]]; inversion M as [|? ? ? ? M1 M2]; subst; [|inversion M2].
  cbn [map rbind String.eqb Ascii.eqb Bool.eqb]. assert (E : s = V3 (sin tth * cos eta) (sin tth * sin eta) (- cos tth)).
  { unfold meant in M1. cbn [vx vy vz] in M1. rewrite <- M1. unfold sample_turn, rot_x, rot_y. rewrite cos_0, sin_0. destruct s. lin_unfold. f_equal; ring. }
  subst s. unfold stereographic. cbn [vx vy vz].
  set (u := tth / 2). assert (C : 0 < cos u) by (apply cos_gt_0; unfold u; lra). assert (T : tth = 2 * u) by (unfold u; field). rewrite T, sin_2a, cos_2a_cos. unfold tan. do 4 f_equal; field; split; nra.
Qed.
Print Assumptions C185_beam.
Example C185_ex : norm2 (V3 (3 / 5) 0 (- (4 / 5))) = 1 /\ stereographic (V3 (3 / 5) 0 (- (4 / 5))) = (1 / 3, 0).
Proof. split; [lin_unfold; field|]. unfold stereographic. cbn [vx vy vz]. f_equal; field. Qed.
