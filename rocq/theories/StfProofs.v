(** The matrices built from the constants are the elastically symmetric ones. *)
From Coq Require Import Reals List Arith Bool Lra Lia Psatz Nsatz.
From Verif Require Import Prelude Lin RotModel RotSpec RotProofs RotGroups StfModel StfSpec.
Import ListNotations.
Local Open Scope R_scope.

(** ** the energy is a quadratic form of the six strain components *)
Definition quad (c11 c12 c13 c14 c15 c16 c22 c23 c24 c25 c26 c33 c34 c35 c36 c44 c45 c46 c55 c56 c66 : R) (a b d e f g : R) : R :=
  c11*a*a + 2*c12*a*b + 2*c13*a*d + 2*c14*a*(2*e) + 2*c15*a*(2*f) + 2*c16*a*(2*g) + c22*b*b + 2*c23*b*d + 2*c24*b*(2*e) + 2*c25*b*(2*f) + 2*c26*b*(2*g) + c33*d*d + 2*c34*d*(2*e) + 2*c35*d*(2*f) + 2*c36*d*(2*g) + c44*(2*e)*(2*e) + 2*c45*(2*e)*(2*f) + 2*c46*(2*e)*(2*g) + c55*(2*f)*(2*f) + 2*c56*(2*f)*(2*g) + c66*(2*g)*(2*g).
Definition strain (a b d e f g : R) : m3 := M3 a g f g b e f e d.
Lemma strain_sym : forall a b d e f g, symmetric (strain a b d e f g). Proof. now intros. Qed.
Lemma sym_strain : forall e, symmetric e -> e = strain (m00 e) (m11 e) (m22 e) (m12 e) (m02 e) (m01 e).
Proof. intros [p00 p01 p02 p10 p11 p12 p20 p21 p22] H. unfold symmetric, mt in H. cbn [m00 m01 m02 m10 m11 m12 m20 m21 m22] in *. injection H as H1 H2 H3 H4 H5 H6. subst. reflexivity. Qed.
Lemma same_energy : forall c d e, same6 c d -> elastic_energy c e = elastic_energy d e.
Proof. intros c d e H. unfold elastic_energy, sum6. rewrite !H by lia. reflexivity. Qed.
Lemma same_symmetry : forall c d r, same6 c d -> elastic_symmetry c r -> elastic_symmetry d r.
Proof. intros c d r H S e E. now rewrite <- !(same_energy c d _ H), S. Qed.

Definition quad_of (c : mat) : R -> R -> R -> R -> R -> R -> R := quad (c 0%nat 0%nat) (c 0%nat 1%nat) (c 0%nat 2%nat) (c 0%nat 3%nat) (c 0%nat 4%nat) (c 0%nat 5%nat) (c 1%nat 1%nat) (c 1%nat 2%nat) (c 1%nat 3%nat) (c 1%nat 4%nat) (c 1%nat 5%nat) (c 2%nat 2%nat) (c 2%nat 3%nat) (c 2%nat 4%nat) (c 2%nat 5%nat) (c 3%nat 3%nat) (c 3%nat 4%nat) (c 3%nat 5%nat) (c 4%nat 4%nat) (c 4%nat 5%nat) (c 5%nat 5%nat).
Lemma energy_quad : forall c a b d e f g, symmetric6 c -> elastic_energy c (strain a b d e f g) = / 2 * quad_of c a b d e f g.
Proof.
  intros c a b d e f g S. unfold elastic_energy, sum6, voigt, strain, quad_of, quad. cbn [m00 m01 m02 m10 m11 m12 m20 m21 m22].
  rewrite (S 1%nat 0%nat), (S 2%nat 0%nat), (S 2%nat 1%nat), (S 3%nat 0%nat), (S 3%nat 1%nat), (S 3%nat 2%nat), (S 4%nat 0%nat), (S 4%nat 1%nat), (S 4%nat 2%nat), (S 4%nat 3%nat), (S 5%nat 0%nat), (S 5%nat 1%nat), (S 5%nat 2%nat), (S 5%nat 3%nat), (S 5%nat 4%nat) by lia. ring.
Qed.
(** the strain turned by r *)
Definition turned (r : m3) (k : R -> R -> R -> R -> R -> R -> R) (a b d e f g : R) : R :=
  let x := mm r (mm (strain a b d e f g) (mt r)) in k (m00 x) (m11 x) (m22 x) (m12 x) (m02 x) (m01 x).
Lemma turned_sym : forall r e, symmetric e -> symmetric (mm r (mm e (mt r))).
Proof. intros r e E. rewrite (sym_strain e E). clear E. generalize (m00 e) (m11 e) (m22 e) (m12 e) (m02 e) (m01 e). intros. destruct r. unfold strain. lin_unfold. f_equal; ring. Qed.
Lemma symmetry_quad : forall c r, symmetric6 c -> (elastic_symmetry c r <-> forall a b d e f g, turned r (quad_of c) a b d e f g = quad_of c a b d e f g).
Proof.
  intros c r S. split.
  - intros H a b d e f g. specialize (H (strain a b d e f g) (strain_sym _ _ _ _ _ _)). rewrite (sym_strain _ (turned_sym r _ (strain_sym a b d e f g))), !energy_quad in H by assumption.
    unfold turned. lra.
  - intros H.
    assert (G : forall a b d e f g, elastic_energy c (mm r (mm (strain a b d e f g) (mt r))) = elastic_energy c (strain a b d e f g)).
    { intros a b d e f g. rewrite (sym_strain _ (turned_sym r _ (strain_sym a b d e f g))), !energy_quad by assumption. f_equal. apply H. }
    intros e E. rewrite (sym_strain e E). apply G.
Qed.

(** ** what each generator forces *)
Ltac pure_turn := unfold turned, quad, strain; lin_unfold.
Definition quarter_z : m3 := M3 0 (-1) 0 1 0 0 0 0 1.
Definition third_z : m3 := M3 (- (1 / 2)) (- (sqrt 3 / 2)) 0 (sqrt 3 / 2) (- (1 / 2)) 0 0 0 1.
Definition third_111 : m3 := M3 0 0 1 1 0 0 0 1 0.
Section Gen.
Variables c11 c12 c13 c14 c15 c16 c22 c23 c24 c25 c26 c33 c34 c35 c36 c44 c45 c46 c55 c56 c66 : R.
Let k := quad c11 c12 c13 c14 c15 c16 c22 c23 c24 c25 c26 c33 c34 c35 c36 c44 c45 c46 c55 c56 c66.
Ltac inst H a b d e f g := let E := fresh "E" in pose proof (H a b d e f g) as E; unfold k in E; unfold turned, quad, strain, half_turn_x, half_turn_y, half_turn_z, quarter_z, third_z, third_111 in E; lin_unfold.
Lemma gen_x : (forall a b d e f g, turned half_turn_x k a b d e f g = k a b d e f g) ->
  c15 = 0 /\ c16 = 0 /\ c25 = 0 /\ c26 = 0 /\ c35 = 0 /\ c36 = 0 /\ c45 = 0 /\ c46 = 0.
Proof.
  intros H. inst H 1 0 0 0 1 0. inst H 1 0 0 0 0 1. inst H 0 1 0 0 1 0. inst H 0 1 0 0 0 1. inst H 0 0 1 0 1 0. inst H 0 0 1 0 0 1. inst H 0 0 0 1 1 0. inst H 0 0 0 1 0 1.
  clear H. repeat split; lra.
Qed.
Lemma gen_y : (forall a b d e f g, turned half_turn_y k a b d e f g = k a b d e f g) ->
  c14 = 0 /\ c16 = 0 /\ c24 = 0 /\ c26 = 0 /\ c34 = 0 /\ c36 = 0 /\ c45 = 0 /\ c56 = 0.
Proof.
  intros H. inst H 1 0 0 1 0 0. inst H 1 0 0 0 0 1. inst H 0 1 0 1 0 0. inst H 0 1 0 0 0 1. inst H 0 0 1 1 0 0. inst H 0 0 1 0 0 1. inst H 0 0 0 1 1 0. inst H 0 0 0 0 1 1.
  clear H. repeat split; lra.
Qed.
Lemma gen_z : (forall a b d e f g, turned half_turn_z k a b d e f g = k a b d e f g) ->
  c14 = 0 /\ c15 = 0 /\ c24 = 0 /\ c25 = 0 /\ c34 = 0 /\ c35 = 0 /\ c46 = 0 /\ c56 = 0.
Proof.
  intros H. inst H 1 0 0 1 0 0. inst H 1 0 0 0 1 0. inst H 0 1 0 1 0 0. inst H 0 1 0 0 1 0. inst H 0 0 1 1 0 0. inst H 0 0 1 0 1 0. inst H 0 0 0 1 0 1. inst H 0 0 0 0 1 1.
  clear H. repeat split; lra.
Qed.
(** with the half turn it contains *)
Lemma gen_4 : (forall a b d e f g, turned quarter_z k a b d e f g = k a b d e f g) -> c14 = 0 /\ c15 = 0 /\ c24 = 0 /\ c25 = 0 /\ c34 = 0 /\ c35 = 0 /\ c46 = 0 /\ c56 = 0 ->
  c22 = c11 /\ c23 = c13 /\ c36 = 0 /\ c26 = - c16 /\ c45 = 0 /\ c55 = c44.
Proof.
  intros H (-> & -> & -> & -> & -> & -> & -> & ->). inst H 1 0 0 0 0 0. inst H 1 0 1 0 0 0. inst H 0 0 1 0 0 1. inst H 1 0 0 0 0 1. inst H 0 0 0 1 0 0. inst H 0 0 0 1 1 0. inst H 0 0 0 0 0 1. inst H 0 0 1 0 0 0.
  inst H 0 1 0 0 0 0.
  clear H. repeat split; lra.
Qed.
Lemma gen_111 : (forall a b d e f g, turned third_111 k a b d e f g = k a b d e f g) ->
  c22 = c11 /\ c33 = c11 /\ c13 = c12 /\ c23 = c12 /\ c55 = c44 /\ c66 = c44.
Proof.
  intros H. inst H 1 0 0 0 0 0. inst H 0 1 0 0 0 0. inst H 0 0 0 1 0 0. inst H 0 0 0 0 1 0. inst H 0 0 1 0 0 0. inst H 1 1 0 0 0 0. inst H 1 0 1 0 0 0. inst H 0 1 1 0 0 0. inst H 0 0 0 0 0 1.
  clear H. repeat split; lra.
Qed.

Lemma third_k : forall a b d e f g, turned third_z k a b d e f g =
  k ((a + 3 * b) / 4 + sqrt 3 / 2 * g) ((3 * a + b) / 4 - sqrt 3 / 2 * g) d (sqrt 3 / 2 * f - e / 2) (- f / 2 - sqrt 3 / 2 * e) (- (sqrt 3 / 4) * (a - b) - g / 2).
Proof.
  intros. unfold turned, strain, third_z. lin_unfold. assert (s : sqrt 3 * sqrt 3 = 3) by (apply sqrt_sqrt; lra). set (t := sqrt 3) in *. clearbody t.
  f_equal; field [s].
Qed.
Ltac inst3 H a b d e f g := let E := fresh "E" in pose proof (H a b d e f g) as E; rewrite third_k in E; unfold k, quad in E.
Lemma gen_3 : (forall a b d e f g, turned third_z k a b d e f g = k a b d e f g) ->
  c23 = c13 /\ c36 = 0 /\ c34 = 0 /\ c35 = 0 /\ c55 = c44 /\ c45 = 0 /\
  c24 = - c14 /\ c25 = - c15 /\ c46 = - c15 /\ c56 = c14 /\ c22 = c11 /\ c16 = 0 /\ c26 = 0 /\ c66 = (c11 - c12) / 2.
Proof.
  intros H. inst3 H 1 0 0 0 0 0. inst3 H 1 1 0 0 0 0. inst3 H 1 0 1 0 0 0. inst3 H 1 0 0 1 0 0. inst3 H 1 0 0 0 1 0. inst3 H 1 0 0 0 0 1. inst3 H 0 1 0 0 0 0. inst3 H 0 1 1 0 0 0. inst3 H 0 1 0 1 0 0. inst3 H 0 1 0 0 1 0. inst3 H 0 1 0 0 0 1. inst3 H 0 0 1 0 0 0. inst3 H 0 0 1 1 0 0. inst3 H 0 0 1 0 1 0. inst3 H 0 0 1 0 0 1. inst3 H 0 0 0 1 0 0. inst3 H 0 0 0 1 1 0. inst3 H 0 0 0 1 0 1. inst3 H 0 0 0 0 1 0. inst3 H 0 0 0 0 1 1. inst3 H 0 0 0 0 0 1. clear H.
  assert (s : sqrt 3 * sqrt 3 = 3) by (apply sqrt_sqrt; lra). set (t := sqrt 3) in *. clearbody t. clear k.
  assert (Sc11 : t * t * c11 = 3 * c11) by (rewrite s; ring).
  assert (Sc12 : t * t * c12 = 3 * c12) by (rewrite s; ring).
  assert (Sc13 : t * t * c13 = 3 * c13) by (rewrite s; ring).
  assert (Sc14 : t * t * c14 = 3 * c14) by (rewrite s; ring).
  assert (Sc15 : t * t * c15 = 3 * c15) by (rewrite s; ring).
  assert (Sc16 : t * t * c16 = 3 * c16) by (rewrite s; ring).
  assert (Sc22 : t * t * c22 = 3 * c22) by (rewrite s; ring).
  assert (Sc23 : t * t * c23 = 3 * c23) by (rewrite s; ring).
  assert (Sc24 : t * t * c24 = 3 * c24) by (rewrite s; ring).
  assert (Sc25 : t * t * c25 = 3 * c25) by (rewrite s; ring).
  assert (Sc26 : t * t * c26 = 3 * c26) by (rewrite s; ring).
  assert (Sc33 : t * t * c33 = 3 * c33) by (rewrite s; ring).
  assert (Sc34 : t * t * c34 = 3 * c34) by (rewrite s; ring).
  assert (Sc35 : t * t * c35 = 3 * c35) by (rewrite s; ring).
  assert (Sc36 : t * t * c36 = 3 * c36) by (rewrite s; ring).
  assert (Sc44 : t * t * c44 = 3 * c44) by (rewrite s; ring).
  assert (Sc45 : t * t * c45 = 3 * c45) by (rewrite s; ring).
  assert (Sc46 : t * t * c46 = 3 * c46) by (rewrite s; ring).
  assert (Sc55 : t * t * c55 = 3 * c55) by (rewrite s; ring).
  assert (Sc56 : t * t * c56 = 3 * c56) by (rewrite s; ring).
  assert (Sc66 : t * t * c66 = 3 * c66) by (rewrite s; ring).
  assert (A1 : 1*c13*1*4 + 1*c23*3*4 + 2*c36*(-t)*4 = 16*(1*c13)) by lra.
  assert (A2 : 1*c13*3*4 + 1*c23*1*4 + 2*c36*t*4 = 16*(1*c23)) by lra.
  assert (A3 : 1*c13*(2*t)*4 + 1*c23*(-(2*t))*4 + 2*c36*(-2)*4 = 16*(2*c36)) by lra.
  assert (A4 : 2*c34*(-2)*4 + 2*c35*(-(2*t))*4 = 16*(2*c34)) by lra.
  assert (A5 : 2*c34*(2*t)*4 + 2*c35*(-2)*4 = 16*(2*c35)) by lra.
  assert (A6 : 4*c44*(-2)*(-2) + 4*c45*(-2)*(-(2*t)) + 4*c45*(-(2*t))*(-2) + 4*c55*(-(2*t))*(-(2*t)) = 16*(4*c44)) by lra.
  assert (A7 : 4*c44*(-2)*(2*t) + 4*c45*(-2)*(-2) + 4*c45*(-(2*t))*(2*t) + 4*c55*(-(2*t))*(-2) = 16*(4*c45)) by lra.
  assert (A8 : 4*c44*(2*t)*(2*t) + 4*c45*(2*t)*(-2) + 4*c45*(-2)*(2*t) + 4*c55*(-2)*(-2) = 16*(4*c55)) by lra.
  assert (A9 : 2*c14*1*(-2) + 2*c15*1*(-(2*t)) + 2*c24*3*(-2) + 2*c25*3*(-(2*t)) + 4*c46*(-t)*(-2) + 4*c56*(-t)*(-(2*t)) = 16*(2*c14)) by lra.
  assert (A10 : 2*c14*1*(2*t) + 2*c15*1*(-2) + 2*c24*3*(2*t) + 2*c25*3*(-2) + 4*c46*(-t)*(2*t) + 4*c56*(-t)*(-2) = 16*(2*c15)) by lra.
  assert (A11 : 2*c14*3*(-2) + 2*c15*3*(-(2*t)) + 2*c24*1*(-2) + 2*c25*1*(-(2*t)) + 4*c46*t*(-2) + 4*c56*t*(-(2*t)) = 16*(2*c24)) by lra.
  assert (A12 : 2*c14*3*(2*t) + 2*c15*3*(-2) + 2*c24*1*(2*t) + 2*c25*1*(-2) + 4*c46*t*(2*t) + 4*c56*t*(-2) = 16*(2*c25)) by lra.
  assert (A13 : 2*c14*(2*t)*(-2) + 2*c15*(2*t)*(-(2*t)) + 2*c24*(-(2*t))*(-2) + 2*c25*(-(2*t))*(-(2*t)) + 4*c46*(-2)*(-2) + 4*c56*(-2)*(-(2*t)) = 16*(4*c46)) by lra.
  assert (A14 : 2*c14*(2*t)*(2*t) + 2*c15*(2*t)*(-2) + 2*c24*(-(2*t))*(2*t) + 2*c25*(-(2*t))*(-2) + 4*c46*(-2)*(2*t) + 4*c56*(-2)*(-2) = 16*(4*c56)) by lra.
  assert (A15 : 1*c11*1*1 + 1*c12*1*3 + 2*c16*1*(-t) + 1*c12*3*1 + 1*c22*3*3 + 2*c26*3*(-t) + 2*c16*(-t)*1 + 2*c26*(-t)*3 + 4*c66*(-t)*(-t) = 16*(1*c11)) by lra.
  assert (A16 : 1*c11*1*3 + 1*c12*1*1 + 2*c16*1*t + 1*c12*3*3 + 1*c22*3*1 + 2*c26*3*t + 2*c16*(-t)*3 + 2*c26*(-t)*1 + 4*c66*(-t)*t = 16*(1*c12)) by lra.
  assert (A17 : 1*c11*1*(2*t) + 1*c12*1*(-(2*t)) + 2*c16*1*(-2) + 1*c12*3*(2*t) + 1*c22*3*(-(2*t)) + 2*c26*3*(-2) + 2*c16*(-t)*(2*t) + 2*c26*(-t)*(-(2*t)) + 4*c66*(-t)*(-2) = 16*(2*c16)) by lra.
  assert (A18 : 1*c11*3*3 + 1*c12*3*1 + 2*c16*3*t + 1*c12*1*3 + 1*c22*1*1 + 2*c26*1*t + 2*c16*t*3 + 2*c26*t*1 + 4*c66*t*t = 16*(1*c22)) by lra.
  assert (A19 : 1*c11*3*(2*t) + 1*c12*3*(-(2*t)) + 2*c16*3*(-2) + 1*c12*1*(2*t) + 1*c22*1*(-(2*t)) + 2*c26*1*(-2) + 2*c16*t*(2*t) + 2*c26*t*(-(2*t)) + 4*c66*t*(-2) = 16*(2*c26)) by lra.
  assert (A20 : 1*c11*(2*t)*(2*t) + 1*c12*(2*t)*(-(2*t)) + 2*c16*(2*t)*(-2) + 1*c12*(-(2*t))*(2*t) + 1*c22*(-(2*t))*(-(2*t)) + 2*c26*(-(2*t))*(-2) + 2*c16*(-2)*(2*t) + 2*c26*(-2)*(-(2*t)) + 4*c66*(-2)*(-2) = 16*(4*c66)) by lra.
  assert (B1 : c23 = c13 /\ c36 = 0) by (clear - s A1 A2 A3; split; nsatz).
  assert (B2 : c34 = 0 /\ c35 = 0) by (clear - s A4 A5; split; nsatz).
  assert (B3 : c55 = c44 /\ c45 = 0) by (clear - s A6 A7 A8; split; nsatz).
  assert (B4 : c24 = - c14 /\ c25 = - c15 /\ c46 = - c15 /\ c56 = c14) by (clear - s A9 A10 A11 A12 A13 A14; repeat split; nsatz).
  assert (B5 : c22 = c11 /\ c16 = 0 /\ c26 = 0 /\ 2 * c66 = c11 - c12) by (clear - s A15 A16 A17 A18 A19 A20; repeat split; nsatz).
  assert (B6 : c66 = (c11 - c12) / 2) by lra. tauto.
Qed.
End Gen.
