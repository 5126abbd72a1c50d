(** Vocabulary for a detector sheet bent around a cylinder. *)
From Coq Require Import Reals List.
From Verif Require Import Prelude Lin XfSpec.
Local Open Scope R_scope.

(** coordinates of a lab point in the frame of the panel *)
Definition in_panel_frame (rmat : m3) (t p : v3) : v3 := mv (mt rmat) (vsub p t).
(** the tube of radius r that the sheet lies on: its axis runs along the panel's y axis at the distance r before the panel's origin *)
Definition on_tube (rmat : m3) (t : v3) (r : R) (p : v3) : Prop :=
  let q := in_panel_frame rmat t p in vx q ^ 2 + (vz q - r) ^ 2 = r ^ 2.
Definition inside_tube (rmat : m3) (t : v3) (r : R) (p : v3) : Prop :=
  let q := in_panel_frame rmat t p in vx q ^ 2 + (vz q - r) ^ 2 < r ^ 2.
(** the lab position of the point (x, y) of the sheet: y is the height, x the length of arc *)
Definition bent_point (rmat : m3) (t : v3) (r x y : R) : v3 := vadd t (mv rmat (V3 (r * sin (x / r)) y (r - r * cos (x / r)))).
(** the coordinates run once around the tube *)
Definition once_around (r x : R) : Prop := - PI < x / r <= PI.
(** the derivative of a moving point *)
Definition velocity (p : R -> v3) (x : R) (v : v3) : Prop :=
  derivable_pt_lim (fun s => vx (p s)) x (vx v) /\ derivable_pt_lim (fun s => vy (p s)) x (vy v) /\ derivable_pt_lim (fun s => vz (p s)) x (vz v).
(** the ray from o in direction d meets the tube, in front of o, at the point (x, y) of the sheet *)
Definition meets_tube (rmat : m3) (t : v3) (r : R) (o d : v3) (x y : R) : Prop :=
  once_around r x /\ exists s, 0 < s /\ bent_point rmat t r x y = vadd o (vscale s d).
(** the part of the tube that the panel of width w and height h covers *)
Definition on_sheet (w h x y : R) : Prop := Rabs x < w / 2 /\ Rabs y <= h / 2.
(** d is clearly not parallel to the axis of the tube *)
Definition not_axial (rmat : m3) (d : v3) : Prop := 1 / 10 ^ 10 <= 1 - dot d (mv rmat (V3 0 1 0)) ^ 2.
