(** The rotations of the eleven Laue groups as explicit matrices. *)
From Coq Require Import Reals List Arith Bool Lra Lia.
From Verif Require Import Prelude Lin TensorModel TensorSpec TensorProofs RotModel RotSpec RotProofs RotProofs2 RotGroups StfModel StfSpec StfProofs.
Import ListNotations.
Local Open Scope R_scope.

Definition laue_mats (g : laue) : list m3 :=
  match g with
  | Ci => [M3 1 0 0 0 1 0 0 0 1]
  | C2h => [M3 1 0 0 0 1 0 0 0 1;
      M3 (-1) 0 0 0 1 0 0 0 (-1)]
  | D2h => [M3 1 0 0 0 1 0 0 0 1;
      M3 1 0 0 0 (-1) 0 0 0 (-1);
      M3 (-1) 0 0 0 1 0 0 0 (-1);
      M3 (-1) 0 0 0 (-1) 0 0 0 1]
  | C4h => [M3 1 0 0 0 1 0 0 0 1;
      M3 0 (-1) 0 1 0 0 0 0 1;
      M3 (-1) 0 0 0 (-1) 0 0 0 1;
      M3 0 1 0 (-1) 0 0 0 0 1]
  | D4h => [M3 1 0 0 0 1 0 0 0 1;
      M3 0 (-1) 0 1 0 0 0 0 1;
      M3 (-1) 0 0 0 (-1) 0 0 0 1;
      M3 0 1 0 (-1) 0 0 0 0 1;
      M3 1 0 0 0 (-1) 0 0 0 (-1);
      M3 (-1) 0 0 0 1 0 0 0 (-1);
      M3 0 1 0 1 0 0 0 0 (-1);
      M3 0 (-1) 0 (-1) 0 0 0 0 (-1)]
  | C3i => [M3 1 0 0 0 1 0 0 0 1;
      M3 (- (1 / 2)) (- (sqrt 3 / 2)) 0 (sqrt 3 / 2) (- (1 / 2)) 0 0 0 1;
      M3 (- (1 / 2)) (sqrt 3 / 2) 0 (- (sqrt 3 / 2)) (- (1 / 2)) 0 0 0 1]
  | D3d => [M3 1 0 0 0 1 0 0 0 1;
      M3 (- (1 / 2)) (- (sqrt 3 / 2)) 0 (sqrt 3 / 2) (- (1 / 2)) 0 0 0 1;
      M3 (- (1 / 2)) (sqrt 3 / 2) 0 (- (sqrt 3 / 2)) (- (1 / 2)) 0 0 0 1;
      M3 1 0 0 0 (-1) 0 0 0 (-1);
      M3 (- (1 / 2)) (- (sqrt 3 / 2)) 0 (- (sqrt 3 / 2)) (1 / 2) 0 0 0 (-1);
      M3 (- (1 / 2)) (sqrt 3 / 2) 0 (sqrt 3 / 2) (1 / 2) 0 0 0 (-1)]
  | C6h => [M3 1 0 0 0 1 0 0 0 1;
      M3 (1 / 2) (- (sqrt 3 / 2)) 0 (sqrt 3 / 2) (1 / 2) 0 0 0 1;
      M3 (- (1 / 2)) (- (sqrt 3 / 2)) 0 (sqrt 3 / 2) (- (1 / 2)) 0 0 0 1;
      M3 (-1) 0 0 0 (-1) 0 0 0 1;
      M3 (- (1 / 2)) (sqrt 3 / 2) 0 (- (sqrt 3 / 2)) (- (1 / 2)) 0 0 0 1;
      M3 (1 / 2) (sqrt 3 / 2) 0 (- (sqrt 3 / 2)) (1 / 2) 0 0 0 1]
  | D6h => [M3 1 0 0 0 1 0 0 0 1;
      M3 (1 / 2) (- (sqrt 3 / 2)) 0 (sqrt 3 / 2) (1 / 2) 0 0 0 1;
      M3 (- (1 / 2)) (- (sqrt 3 / 2)) 0 (sqrt 3 / 2) (- (1 / 2)) 0 0 0 1;
      M3 (-1) 0 0 0 (-1) 0 0 0 1;
      M3 (- (1 / 2)) (sqrt 3 / 2) 0 (- (sqrt 3 / 2)) (- (1 / 2)) 0 0 0 1;
      M3 (1 / 2) (sqrt 3 / 2) 0 (- (sqrt 3 / 2)) (1 / 2) 0 0 0 1;
      M3 1 0 0 0 (-1) 0 0 0 (-1);
      M3 (- (1 / 2)) (- (sqrt 3 / 2)) 0 (- (sqrt 3 / 2)) (1 / 2) 0 0 0 (-1);
      M3 (- (1 / 2)) (sqrt 3 / 2) 0 (sqrt 3 / 2) (1 / 2) 0 0 0 (-1);
      M3 (1 / 2) (sqrt 3 / 2) 0 (sqrt 3 / 2) (- (1 / 2)) 0 0 0 (-1);
      M3 (-1) 0 0 0 1 0 0 0 (-1);
      M3 (1 / 2) (- (sqrt 3 / 2)) 0 (- (sqrt 3 / 2)) (- (1 / 2)) 0 0 0 (-1)]
  | Th => [M3 1 0 0 0 1 0 0 0 1;
      M3 1 0 0 0 (-1) 0 0 0 (-1);
      M3 (-1) 0 0 0 1 0 0 0 (-1);
      M3 (-1) 0 0 0 (-1) 0 0 0 1;
      M3 0 0 1 1 0 0 0 1 0;
      M3 0 1 0 0 0 1 1 0 0;
      M3 0 (-1) 0 0 0 1 (-1) 0 0;
      M3 0 0 (-1) (-1) 0 0 0 1 0;
      M3 0 0 (-1) 1 0 0 0 (-1) 0;
      M3 0 1 0 0 0 (-1) (-1) 0 0;
      M3 0 (-1) 0 0 0 (-1) 1 0 0;
      M3 0 0 1 (-1) 0 0 0 (-1) 0]
  | Oh => [M3 1 0 0 0 1 0 0 0 1;
      M3 1 0 0 0 0 (-1) 0 1 0;
      M3 1 0 0 0 (-1) 0 0 0 (-1);
      M3 1 0 0 0 0 1 0 (-1) 0;
      M3 0 0 1 0 1 0 (-1) 0 0;
      M3 (-1) 0 0 0 1 0 0 0 (-1);
      M3 0 0 (-1) 0 1 0 1 0 0;
      M3 0 (-1) 0 1 0 0 0 0 1;
      M3 (-1) 0 0 0 (-1) 0 0 0 1;
      M3 0 1 0 (-1) 0 0 0 0 1;
      M3 0 0 1 1 0 0 0 1 0;
      M3 0 1 0 0 0 1 1 0 0;
      M3 0 (-1) 0 0 0 1 (-1) 0 0;
      M3 0 0 (-1) (-1) 0 0 0 1 0;
      M3 0 0 (-1) 1 0 0 0 (-1) 0;
      M3 0 1 0 0 0 (-1) (-1) 0 0;
      M3 0 (-1) 0 0 0 (-1) 1 0 0;
      M3 0 0 1 (-1) 0 0 0 (-1) 0;
      M3 0 1 0 1 0 0 0 0 (-1);
      M3 0 (-1) 0 (-1) 0 0 0 0 (-1);
      M3 0 0 1 0 (-1) 0 1 0 0;
      M3 (-1) 0 0 0 0 1 0 1 0;
      M3 0 0 (-1) 0 (-1) 0 (-1) 0 0;
      M3 (-1) 0 0 0 0 (-1) 0 (-1) 0]
  end.
Lemma m3_ext : forall a b c d e f g h i a' b' c' d' e' f' g' h' i', a = a' -> b = b' -> c = c' -> d = d' -> e = e' -> f = f' -> g = g' -> h = h' -> i = i' ->
  M3 a b c d e f g h i = M3 a' b' c' d' e' f' g' h' i'.
Proof. now intros; subst. Qed.
Ltac mat_row := unfold rotMatOfQuat, qval, zval, Zq, zi, r2, r3, Rdiv; cbn [zw zx zy zz za zb zc zd qw qx qy qz]; pose proof s2 as A; pose proof s3 as B; set (u := sqrt 2) in *; set (v := sqrt 3) in *; clearbody u v;
  apply m3_ext; field [A B].
Lemma laue_mats_ok : forall g, rots (quatOfLaueGroup g) = laue_mats g.
Proof. intros g. rewrite rots_table. destruct g; cbn [table laue_mats map]; repeat (apply cons_ext; [mat_row|]); reflexivity. Qed.
