(** Vocabulary for the polar view theorems *)
From Coq Require Import QArith Qabs String.
From Verif Require Import Prelude DetModel DetSpec PolModel.
Local Open Scope Q_scope.
Local Notation length := List.length.

(** ranges that are not empty, pixels that have a size *)
Definition proper_view (v : view) : Prop := tth_min v < tth_max v /\ eta_min v < eta_max v /\ 0 < tth_pixel_size v /\ 0 < eta_pixel_size v.
(** the k-th of the intervals of length [step] that follow each other from [lo] *)
Definition in_interval (lo step : Q) (k : nat) (x : Q) : Prop := lo + inject_Z (Z.of_nat k) * step <= x < lo + (inject_Z (Z.of_nat k) + 1) * step.
Definition middle (lo step : Q) (k : nat) : Q := lo + (inject_Z (Z.of_nat k) + (1 # 2)) * step.
(** the entry of a table *)
Definition entry {A} (m : list (list A)) (i j : nat) : option A := match nth_error m i with Some r => nth_error r j | None => None end.
(** the direction (eta, tth) meets the panel of a detector at [pt], in the part that is used *)
Definition meets (load : string -> result (list (list bool))) (d : detector) (q : Q * Q) (pt : Q * Q) : Prop :=
  d_project d (snd q) (fst q) = Some pt /\ clip_to_panel load (d_panel d) [pt] true = Ok ([pt], [true]).
(** a measured image: no NaN *)
Definition measured (img : list (list Q)) : oimage := map (map Some) img.
(** what one detector adds in one direction: the interpolated image, or nothing *)
Definition adds (load : string -> result (list (list bool))) (q : Q * Q) (d : detector) (img : list (list Q)) (c : Q) : Prop :=
  (exists pt, meets load d q pt /\ (exists i j t s, between (d_panel d) i j t s pt) /\
              forall i j t s, between (d_panel d) i j t s pt -> c == blend (d_panel d) img i j t s) \/
  (~ (exists pt, meets load d q pt) /\ c == 0).
Definition total (l : list Q) : Q := fold_right Qplus 0 l.
(** panels on which interpolation works: see C94.  Borders are not negative, a mask has the shape of the panel *)
Definition usable (load : string -> result (list (list bool))) (ztol : Q) (v : view) (d : detector) : Prop :=
  let p := d_panel d in
  sound p /\ (2 <= p_rows p)%Z /\ (2 <= p_cols p)%Z /\ 0 < ztol /\ 2 * ztol < p_psr p /\ 2 * ztol < p_psc p /\
  (forall bx by_, p_buffer p = BBorders bx by_ -> 0 <= bx /\ 0 <= by_) /\
  (forall m, p_buffer p = BMask m -> table_shape m (p_rows p) (p_cols p)) /\
  (forall n, p_buffer p = BName n -> exists m, panel_buffer_from_str load n p = Ok m) /\
  (forall i j q pt, entry (angular_grid v) i j = Some q -> meets load d q pt -> off_last_strip ztol p pt).
(** pixel (a, c) of a panel is closer to a point than one pixel in both directions, or at most that far *)
Definition near (p : panel) (a c : Z) (pt : Q * Q) : Prop := Qabs (fst pt - centre_x p c) < p_psc p /\ Qabs (snd pt - centre_y p a) < p_psr p.
Definition nearby (p : panel) (a c : Z) (pt : Q * Q) : Prop := Qabs (fst pt - centre_x p c) <= p_psc p /\ Qabs (snd pt - centre_y p a) <= p_psr p.
(** no pixel of those is excluded *)
Definition all_good (P : panel -> Z -> Z -> Q * Q -> Prop) (load : string -> result (list (list bool))) (p : panel) (pt : Q * Q) : Prop :=
  exists b, panel_buffer_as_2d_array load p = Ok b /\ forall a c, in_shape p a c -> P p a c pt -> mask_value b a c = true.
(** the mean of some values *)
Definition mean_of (l : list Q) (m : Q) : Prop := l <> [] /\ m * inject_Z (Z.of_nat (length l)) == total l.
(** images given by name: one measured image of the right shape for each detector *)
Definition given (imgs : images) (parts : list (string * (detector * list (list Q)))) : Prop :=
  NoDup (map fst imgs) /\
  forall n d img, In (n, (d, img)) parts -> In (n, measured img) imgs /\ table_shape img (p_rows (d_panel d)) (p_cols (d_panel d)).
Definition detectors_of (parts : list (string * (detector * list (list Q)))) : list (string * detector) := map (fun q => (fst q, fst (snd q))) parts.
(** the value in row r and column j, if it is not NaN *)
Definition has_value (pv : list (list (option Q))) (r j : nat) : Prop := exists x, entry pv r j = Some (Some x).
Definition value (pv : list (list (option Q))) (r j : nat) : Q := match entry pv r j with Some (Some x) => x | _ => 0 end.
