(** What the extinction theorems talk about: the sum of the phases of all the
    images of a point, with real coordinates. *)
From Coq Require Import Reals.
From Verif Require Import Prelude SgModel SgSpec.
Local Open Scope R_scope.

(** the phase, in turns, that the image of the point (x, y, z) under [op]
    contributes to the reflection [h] *)
Definition phase (h : ivec) (op : symop) (x y z : R) : R :=
  let coord (r : ivec) (t : Z) := IZR (v0 r) * x + IZR (v1 r) * y + IZR (v2 r) * z + IZR t / 24 in
  IZR (v0 h) * coord (r0 (op_r op)) (v0 (op_t op))
  + IZR (v1 h) * coord (r1 (op_r op)) (v1 (op_t op))
  + IZR (v2 h) * coord (r2 (op_r op)) (v2 (op_t op)).

Fixpoint rsum {A} (f : A -> R) (l : list A) : R :=
  match l with [] => 0 | a :: l => f a + rsum f l end.

(** real and imaginary part of the sum of exp(2 pi i h.x') over the images x' *)
Definition sf_re (ops : list symop) (h : ivec) (x y z : R) : R :=
  rsum (fun op => cos (2 * PI * phase h op x y z)) ops.
Definition sf_im (ops : list symop) (h : ivec) (x y z : R) : R :=
  rsum (fun op => sin (2 * PI * phase h op x y z)) ops.

(** atoms anywhere in the cell, with any scattering factors, contribute nothing *)
Definition extinguished (ops : list symop) (h : ivec) : Prop :=
  forall x y z, sf_re ops h x y z = 0 /\ sf_im ops h x y z = 0.
