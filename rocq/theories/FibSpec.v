(** Vocabulary for the properties of orientation fibers. *)
From Coq Require Import Reals List.
From Verif Require Import Prelude Lin RotModel RotSpec XfSpec.
Import ListNotations.
Local Open Scope R_scope.

(** what is asked of the singular value decomposition: a unit vector perpendicular to the given one *)
Definition finds_perpendicular (f : v3 -> v3) : Prop := forall c, norm2 c = 1 -> norm2 (f c) = 1 /\ dot (f c) c = 0.
(** two directions are opposite, exactly *)
Definition opposite (a b : v3) : Prop := direction a = vneg (direction b).
(** two directions are within eps of being opposite *)
Definition nearly_opposite (eps : R) (a b : v3) : Prop := norm (vadd (direction a) (direction b)) <= eps.
(** the orientation r turns the direction of c into that of s *)
Definition carries (r : m3) (c s : v3) : Prop := mv r (direction c) = direction s.
(** ... up to a distance of eps *)
Definition nearly_carries (eps : R) (r : m3) (c s : v3) : Prop := norm (vsub (mv r (direction c)) (direction s)) <= eps.
(** v is one of the directions that the symmetry G (and, if [cs], the inversion) makes out of that of c *)
Definition equivalent_dir (G : list m3) (cs : bool) (c v : v3) : Prop :=
  exists g, In g G /\ (v = mv g (direction c) \/ cs = true /\ v = vneg (mv g (direction c))).
(** t is the angle between the unit vectors a and b *)
Definition angle_between (a b : v3) (t : R) : Prop := 0 <= t <= PI /\ cos t = dot a b.
(** two equivalent directions are the same or at least eps apart *)
Definition well_separated (eps : R) (G : list m3) (cs : bool) (c : v3) : Prop :=
  forall v w, equivalent_dir G cs c v -> equivalent_dir G cs c w -> v = w \/ eps <= norm (vsub v w).
