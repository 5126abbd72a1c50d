(** Lemmas on the averaging of orientations. *)
From Coq Require Import Reals List Lia Lra ZArith Psatz.
From Verif Require Import Prelude Lin TensorModel TensorProofs RotModel RotSpec RotProofs RotProofs2 FibModel FibProofs FibProps CluModel CluSpec.
Import ListNotations.
Local Open Scope R_scope.
Local Notation length := List.length.

Lemma map_res_2 : forall {A B} (f : A -> result B) l, (forall x, In x l -> exists y, f x = Ok y) -> exists out, map_res f l = Ok out /\ Forall2 (fun x y => f x = Ok y) l out.
Proof.
  intros A B f l; induction l as [|x r IH]; intros H; [exists []; split; [reflexivity|constructor]|]. destruct (H x (or_introl eq_refl)) as (y & Y).
  destruct IH as (out & O & F); [intros; apply H; now right|]. exists (y :: out). cbn [map_res]. rewrite Y. cbn [rbind]. rewrite O. cbn [rbind]. split; [reflexivity|now constructor].
Qed.
Lemma map_res_inv : forall {A B} (f : A -> result B) l out, map_res f l = Ok out -> Forall2 (fun x y => f x = Ok y) l out.
Proof.
  intros A B f l; induction l as [|x r IH]; intros out H; cbn [map_res] in H; [injection H as <-; constructor|].
  destruct (f x) as [y|] eqn:Y; cbn [rbind] in H; [|discriminate]. destruct (map_res f r) as [t|] eqn:T; cbn [rbind] in H; [|discriminate]. injection H as <-. constructor; auto.
Qed.
Lemma qadd_dot : forall p a b, qdot p (qadd a b) = qdot p a + qdot p b.
Proof. intros [a b c d] [e f g h] [i j k l]. unfold qdot, qadd. cbn [qw qx qy qz]. ring. Qed.
Lemma total_dot : forall p l, total (qdot p) l = qdot p (fold_right qadd qzero l).
Proof.
  intros p; induction l as [|q r IH]; cbn [total fold_right]; [unfold qdot, qzero; cbn [qw qx qy qz]; ring|]. rewrite qadd_dot, IH. reflexivity.
Qed.
Lemma cauchy4 : forall p s, unitq p -> qdot p s * qdot p s <= dot4 s s.
Proof.
  intros [a b c d] [e f g h] U. unfold unitq in U. unfold qdot, dot4. cbn [qw qx qy qz] in *.
  assert (E : (a * e + b * f + c * g + d * h) * (a * e + b * f + c * g + d * h) =
    (a * a + b * b + c * c + d * d) * (e * e + f * f + g * g + h * h) - ((a * f - b * e) * (a * f - b * e) + (a * g - c * e) * (a * g - c * e) + (a * h - d * e) * (a * h - d * e)
     + (b * g - c * f) * (b * g - c * f) + (b * h - d * f) * (b * h - d * f) + (c * h - d * g) * (c * h - d * g))) by ring.
  rewrite E, U. pose proof (Rle_0_sqr (a * f - b * e)); pose proof (Rle_0_sqr (a * g - c * e)); pose proof (Rle_0_sqr (a * h - d * e));
  pose proof (Rle_0_sqr (b * g - c * f)); pose proof (Rle_0_sqr (b * h - d * f)); pose proof (Rle_0_sqr (c * h - d * g)). unfold Rsqr in *. lra.
Qed.
Lemma cauchy4' : forall p s, unitq p -> qdot p s <= norm4 s.
Proof.
  intros p s U. pose proof (cauchy4 p s U) as C. assert (N : 0 <= norm4 s) by apply sqrt_pos. rewrite <- norm4_sq in C.
  destruct (Rle_dec (qdot p s) (norm4 s)); auto. exfalso. nra.
Qed.
Lemma norm4_scale : forall k q, 0 <= k -> norm4 (qscale k q) = k * norm4 q.
Proof.
  intros k q H. unfold norm4. replace (dot4 (qscale k q) (qscale k q)) with ((k * k) * dot4 q q) by (destruct q as [a b c d]; unfold dot4, qscale; cbn [qw qx qy qz]; ring).
  rewrite sqrt_mult_alt by nra. f_equal. now apply sqrt_square.
Qed.
Lemma norm4_tri : forall a b, norm4 (qadd a b) <= norm4 a + norm4 b.
Proof.
  intros a b. destruct (Rle_dec (norm4 (qadd a b)) ten_epsf) as [L|L].
  - destruct (Req_dec (norm4 (qadd a b)) 0) as [Z|Z]; [rewrite Z; pose proof (sqrt_pos (dot4 a a)); pose proof (sqrt_pos (dot4 b b)); unfold norm4 in *; lra|].
    assert (P : 0 < norm4 (qadd a b)) by (pose proof (sqrt_pos (dot4 (qadd a b) (qadd a b))); unfold norm4 in *; lra).
    set (n := norm4 (qadd a b)) in *. set (p := qscale (/ n) (qadd a b)).
    assert (U : unitq p). { pose proof (norm4_sq (qadd a b)) as E. fold n in E. unfold unitq, p. unfold dot4 in E. destruct (qadd a b) as [e f g h]. unfold qscale. cbn [qw qx qy qz] in *.
      replace (/ n * e * (/ n * e) + / n * f * (/ n * f) + / n * g * (/ n * g) + / n * h * (/ n * h)) with ((e * e + f * f + g * g + h * h) / (n * n)) by (field; lra). rewrite <- E. field. lra. }
    assert (D : qdot p (qadd a b) = n). { pose proof (norm4_sq (qadd a b)) as E. fold n in E. unfold qdot, p. unfold dot4 in E. destruct (qadd a b) as [e f g h]. unfold qscale. cbn [qw qx qy qz] in *.
      replace (/ n * e * e + / n * f * f + / n * g * g + / n * h * h) with ((e * e + f * f + g * g + h * h) / n) by (field; lra). rewrite <- E. field. lra. }
    rewrite qadd_dot in D. pose proof (cauchy4' p a U). pose proof (cauchy4' p b U). lra.
  - destruct (unit4_lemma (qadd a b)) as (U & E); [lra|]. set (p := unitVector4 (qadd a b)) in *.
    assert (D : qdot p (qadd a b) = norm4 (qadd a b)). { rewrite E at 1. unfold unitq in U. destruct p as [e f g h]. unfold qdot, qscale. cbn [qw qx qy qz] in *. set (k := norm4 _). transitivity (k * (e * e + f * f + g * g + h * h)); [ring|rewrite U; ring]. }
    rewrite qadd_dot in D. pose proof (cauchy4' p a U). pose proof (cauchy4' p b U). lra.
Qed.
Lemma sum_norm : forall l, Forall unitq l -> norm4 (fold_right qadd qzero l) <= INR (length l).
Proof.
  induction l as [|q r IH]; intros F.
  - cbn. replace (norm4 qzero) with 0; [lra|]. unfold norm4, qzero, dot4. cbn [qw qx qy qz]. replace (0 * 0 + 0 * 0 + 0 * 0 + 0 * 0) with 0 by ring. now rewrite sqrt_0.
  - inversion F as [|? ? U F']; subst. cbn [fold_right length]. rewrite S_INR. pose proof (norm4_tri q (fold_right qadd qzero r)). rewrite (norm4_unit q U) in H. specialize (IH F'). lra.
Qed.
Lemma sum_w : forall k l, Forall (fun q => k <= qw q) l -> INR (length l) * k <= qw (fold_right qadd qzero l).
Proof.
  induction l as [|q r IH]; intros F; [cbn; lra|]. inversion F as [|? ? U F']; subst. cbn [fold_right length]. rewrite S_INR. specialize (IH F'). cbn [qadd qw]. lra.
Qed.
Lemma w_norm : forall q, qw q <= norm4 q.
Proof.
  intros q. pose proof (norm4_sq q) as E. assert (0 <= norm4 q) by apply sqrt_pos. destruct q as [a b c d]. unfold dot4 in E. cbn [qw qx qy qz] in *. set (n := norm4 _) in *. clearbody n.
  destruct (Rle_dec a n); auto. exfalso. nra.
Qed.
(** the normalised mean of unit quaternions with a large enough real part *)
Lemma mean_lemma : forall l, Forall unitq l -> l <> [] -> ten_epsf * INR (length l) < qw (fold_right qadd qzero l) ->
  let m := unitVector4 (qaverage l) in
  unitq m /\ (forall p, unitq p -> total (qdot p) l <= total (qdot m) l) /\ forall k, 0 <= k -> Forall (fun q => k <= qw q) l -> k <= qw m.
Proof.
  intros l F N T m. set (s := fold_right qadd qzero l) in *. assert (L : 0 < INR (length l)) by (apply lt_0_INR; destruct l; [congruence|cbn; lia]).
  assert (NS : norm4 (qaverage l) = norm4 s / INR (length l)). { unfold qaverage. fold s. rewrite norm4_scale; [unfold Rdiv; ring|]. apply Rlt_le, Rinv_0_lt_compat, L. }
  assert (PS : ten_epsf * INR (length l) < norm4 s) by (pose proof (w_norm s); lra).
  assert (B : ten_epsf < norm4 (qaverage l)). { rewrite NS. apply Rmult_lt_reg_r with (INR (length l)); auto. unfold Rdiv. rewrite Rmult_assoc, Rinv_l by lra. lra. }
  destruct (unit4_lemma _ B) as (U & E). fold m in U, E. split; [exact U|].
  pose proof ten_epsf_small as TE. assert (P0 : 0 < norm4 s) by nra.
  assert (SE : s = qscale (norm4 s) m).
  { rewrite NS in E. unfold qaverage in E. fold s in E. set (n := norm4 s) in *. clearbody n. clear T NS PS B U. clearbody s m. destruct s as [a b c d], m as [e f g h]. unfold qscale in *. cbn [qw qx qy qz] in *.
    set (k := INR (length l)) in *. clearbody k. injection E as E1 E2 E3 E4.
    assert (G : forall x y, / k * x = n / k * y -> x = n * y). { intros x y H. apply Rmult_eq_reg_l with (/ k); [|apply Rinv_neq_0_compat; lra]. rewrite H. unfold Rdiv. ring. }
    f_equal; apply G; assumption. }
  split.
  - intros p Up. rewrite !total_dot. fold s. pose proof (cauchy4' p s Up). replace (qdot m s) with (norm4 s); auto.
    rewrite SE at 2. unfold unitq in U. set (n := norm4 s). clearbody m n. destruct m as [e f g h]. unfold qdot, qscale. cbn [qw qx qy qz] in *. transitivity (n * (e * e + f * f + g * g + h * h)); [rewrite U; ring|ring].
  - intros k K0 K. pose proof (sum_w k l K) as W. fold s in W. pose proof (sum_norm l F) as SN. fold s in SN.
    assert (W2 : qw s = norm4 s * qw m) by (rewrite SE at 1; reflexivity). rewrite W2 in W. destruct (Rle_dec k (qw m)); auto. exfalso. nra.
Qed.
