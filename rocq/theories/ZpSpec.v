(** Vocabulary for maps of the sphere *)
From Coq Require Import Reals List String.
From Verif Require Import Prelude Lin XfSpec ZpModel.
Import ListNotations.
Local Open Scope R_scope.

(** the direction meant by a row: a diffracted beam or a scattering vector seen in the lab frame at 2theta and eta, brought back into
    the sample frame by the tilt chi and the rotation omega; or the row itself *)
Definition meant (src : source) (chi : R) (a s : v3) : Prop :=
  match src with
  | SrcD => mv (sample_turn chi (vz a)) s = V3 (sin (vx a) * cos (vy a)) (sin (vx a) * sin (vy a)) (- cos (vx a))
  | SrcQ => mv (sample_turn chi (vz a)) s = V3 (cos (vx a / 2) * cos (vy a)) (cos (vx a / 2) * sin (vy a)) (sin (vx a / 2))
  | SrcG => s = a
  end.
(** turned by the matrix given, and upside down if asked for *)
Definition seen (rmat : option m3) (invert : bool) (s s' : v3) : Prop :=
  let t := match rmat with Some r => mv r s | None => s end in
  vx s' = vx t /\ vy s' = vy t /\ vz s' = (if invert then - vz t else vz t).
(** the point of the plane z = 0 on the line through the pole (0, 0, 1) and s *)
Definition stereographic_image (s : v3) (p : R * R) : Prop :=
  exists t, V3 (fst p) (snd p) 0 = vadd (V3 0 0 1) (vscale t (vsub s (V3 0 0 1))).
(** the point in the direction of s around the pole (0, 0, -1), as far from the middle as s is from that pole *)
Definition equal_area_image (s : v3) (p : R * R) : Prop :=
  fst p * fst p + snd p * snd p = norm2 (vsub s (V3 0 0 (-1))) /\ exists k, 0 <= k /\ fst p = k * vx s /\ snd p = k * vy s.
(** the area of the unit sphere below the height z *)
Definition cap_area (z : R) : R := 2 * PI * (1 + z).
