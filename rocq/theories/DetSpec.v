(** Vocabulary for the detector panel theorems: pixels as rectangles, the sensor, and bilinear interpolation. *)
From Coq Require Import QArith Qabs.
From Verif Require Import Prelude DetModel.
Local Open Scope Q_scope.

(** a panel with at least one pixel, of positive size *)
Definition sound (p : panel) : Prop := (1 <= p_rows p)%Z /\ (1 <= p_cols p)%Z /\ 0 < p_psr p /\ 0 < p_psc p.
(** pixel (i, j) exists *)
Definition in_shape (p : panel) (i j : Z) : Prop := (0 <= i < p_rows p)%Z /\ (0 <= j < p_cols p)%Z.

(** the centre of pixel (i, j): the panel is centred on the origin, columns run along x and rows against y *)
Definition centre_x (p : panel) (j : Z) : Q := p_psc p * (inject_Z j - (inject_Z (p_cols p) - 1) / 2).
Definition centre_y (p : panel) (i : Z) : Q := p_psr p * ((inject_Z (p_rows p) - 1) / 2 - inject_Z i).
(** the rectangle of pixel (i, j), without and with its border *)
Definition inside_pixel (p : panel) (i j : Z) (pt : Q * Q) : Prop :=
  Qabs (fst pt - centre_x p j) < p_psc p / 2 /\ Qabs (snd pt - centre_y p i) < p_psr p / 2.
Definition touches_pixel (p : panel) (i j : Z) (pt : Q * Q) : Prop :=
  Qabs (fst pt - centre_x p j) <= p_psc p / 2 /\ Qabs (snd pt - centre_y p i) <= p_psr p / 2.
(** the sensitive area, less a border of bx on the left and right and by_ above and below *)
Definition within_border (p : panel) (bx by_ : Q) (pt : Q * Q) : Prop :=
  Qabs (fst pt) <= inject_Z (p_cols p) * p_psc p / 2 - bx /\ Qabs (snd pt) <= inject_Z (p_rows p) * p_psr p / 2 - by_.
Definition same_point (a b : Q * Q) : Prop := fst a == fst b /\ snd a == snd b.

(** the entry of a table, 0 or false outside it *)
Definition mask_value (m : list (list bool)) (i j : Z) : bool := nth (Z.to_nat j) (nth (Z.to_nat i) m []) false.
Definition image_value (img : list (list Q)) (i j : Z) : Q := nth (Z.to_nat j) (nth (Z.to_nat i) img []) 0.
Definition table_shape {A} (t : list (list A)) (rows cols : Z) : Prop :=
  Z.of_nat (length t) = rows /\ forall r, In r t -> Z.of_nat (length r) = cols.

(** the entries of a list at the positions where the mask is true *)
Definition selected {A} (mask : list bool) (l : list A) : list A := map fst (filter snd (combine l mask)).

(** the image continued past its border by its nearest border pixel *)
Definition nearest_index (n i : Z) : Z := Z.max 0 (Z.min (n - 1) i).
Definition continued (p : panel) (img : list (list Q)) (i j : Z) : Q :=
  image_value img (nearest_index (p_rows p) i) (nearest_index (p_cols p) j).
Definition lerp (t a b : Q) : Q := (1 - t) * a + t * b.
(** the point at fraction t of the way from row i to row i+1 and s from column j to column j+1, and the blend of the four pixels there *)
Definition between (p : panel) (i j : Z) (t s : Q) (pt : Q * Q) : Prop :=
  0 <= t <= 1 /\ 0 <= s <= 1 /\ fst pt == centre_x p j + s * p_psc p /\ snd pt == centre_y p i - t * p_psr p.
Definition blend (p : panel) (img : list (list Q)) (i j : Z) (t s : Q) : Q :=
  lerp t (lerp s (continued p img i j) (continued p img i (j + 1))) (lerp s (continued p img (i + 1) j) (continued p img (i + 1) (j + 1))).
(** the point is not in the strip of width ztol beyond the last column of centres or the last row of centres *)
Definition off_last_strip (ztol : Q) (p : panel) (pt : Q * Q) : Prop :=
  (fst pt <= centre_x p (p_cols p - 1) \/ centre_x p (p_cols p - 1) + ztol <= fst pt) /\
  (centre_y p (p_rows p - 1) <= snd pt \/ snd pt < centre_y p (p_rows p - 1) - ztol).
