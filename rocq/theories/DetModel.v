(** Model of the pixel geometry of a detector panel: hexrd/core/instrument/detector.py (cartToPixel, pixelToCart,
    clip_to_panel, interpolate_nearest, interpolate_bilinear) and hexrd/core/utils/panel_buffer.py.
    Exact rationals stand for floating point numbers; NaN in an output is [None].  Points are pairs (x, y). *)
From Coq Require Import QArith Qround String.
From Verif Require Import Prelude GridModel.
Local Open Scope Q_scope.
Local Notation length := List.length.

(** [panel_buffer]: absent, two borders in mm, a mask of the panel's shape, or the name of a stored mask,
    detector.py:390-400 and 1070-1074 *)
Inductive buffer :=
| BNone
| BBorders (bx by_ : Q)
| BMask (mask : list (list bool))
| BName (name : string).
(** detector.py:204-325, the fields used here.  [p_roi] is None or ((r0, r1), (c0, c1)). *)
Record panel := Panel {
  p_rows : Z; p_cols : Z;
  p_psr : Q; p_psc : Q;
  p_buffer : buffer;
  p_roi : option ((Z * Z) * (Z * Z))
}.
Definition qz (z : Z) : Q := inject_Z z.

(** detector.py:416-431, the roi setter *)
Definition set_roi (p : panel) (v : option (list Z)) : result panel :=
  match v with
  | None => Ok (Panel (p_rows p) (p_cols p) (p_psr p) (p_psc p) (p_buffer p) None)
  | Some [r; c] => Ok (Panel (p_rows p) (p_cols p) (p_psr p) (p_psc p) (p_buffer p) (Some ((r, (r + p_rows p)%Z), (c, (c + p_cols p)%Z))))
  | Some _ => Err ValueError
  end.

(** detector.py:435-441 *)
Definition row_dim (p : panel) : Q := qz (p_rows p) * p_psr p.
Definition col_dim (p : panel) : Q := qz (p_cols p) * p_psc p.
(** detector.py:443-458 and 2055-2060 *)
Definition row_pixel_vec (p : panel) : list Q := map (fun k => p_psr p * ((1 # 2) * (qz (p_rows p) - 1) - qz k)) (zrange 0 (p_rows p)).
Definition row_edge_vec (p : panel) : list Q := map (fun k => p_psr p * ((1 # 2) * qz (p_rows p) - qz k)) (zrange 0 (p_rows p + 1)).
Definition col_pixel_vec (p : panel) : list Q := map (fun k => p_psc p * (qz k - (1 # 2) * (qz (p_cols p) - 1))) (zrange 0 (p_cols p)).
Definition col_edge_vec (p : panel) : list Q := map (fun k => p_psc p * (qz k - (1 # 2) * qz (p_cols p))) (zrange 0 (p_cols p + 1)).
(** detector.py:459-465 *)
Definition corner_ul (p : panel) : Q * Q := (- (1 # 2) * col_dim p, (1 # 2) * row_dim p).
Definition corner_ll (p : panel) : Q * Q := (- (1 # 2) * col_dim p, - (1 # 2) * row_dim p).

(** [np.round]: to the nearest integer, halves to even *)
Definition qround (x : Q) : Z :=
  let f := Qfloor x in
  match (x - qz f ?= 1 # 2)%Q with
  | Lt => f
  | Gt => (f + 1)%Z
  | Eq => if Z.even f then f else (f + 1)%Z
  end.

(** detector.py:953-994 for one point, without distortion *)
Definition cartToPixel (p : panel) (xy : Q * Q) : Q * Q :=
  let dx := fst xy - fst (corner_ul p) in
  let dy := snd xy - snd (corner_ul p) in
  (- dy / p_psr p - (1 # 2), dx / p_psc p - (1 # 2)).
Definition cartToPixel_discrete (p : panel) (xy : Q * Q) : Z * Z :=
  let ij := cartToPixel p xy in (qround (fst ij), qround (snd ij)).
(** detector.py:996-1006 *)
Definition pixelToCart (p : panel) (ij : Q * Q) : Q * Q :=
  ((snd ij + (1 # 2)) * p_psc p + fst (corner_ll p), (qz (p_rows p) - fst ij - (1 # 2)) * p_psr p + snd (corner_ll p)).

(** ** panel_buffer.py *)
Definition mask_shape (m : list (list bool)) (rows cols : Z) : bool :=
  (Z.of_nat (length m) =? rows)%Z && forallb (fun r => (Z.of_nat (length r) =? cols)%Z) m.
(** [l[a:b]] for 0 <= a <= b *)
Definition slice {A} (a b : Z) (l : list A) : list A := firstn (Z.to_nat b - Z.to_nat a) (skipn (Z.to_nat a) l).
Section Buffers.
(** panel_buffer.py:88-102: the stored masks, read from disk *)
Context (load : string -> result (list (list bool))).
(** panel_buffer.py:49-76.  A region of interest with negative ends is not modelled (Python would count from the end). *)
Definition panel_buffer_from_str (name : string) (p : panel) : result (list (list bool)) :=
  do b <- load name;
  if mask_shape b (p_rows p) (p_cols p) then Ok b
  else match p_roi p with
  | None => Err RuntimeError
  | Some ((r0, r1), (c0, c1)) =>
      let b' := map (slice c0 c1) (slice r0 r1 b) in
      if mask_shape b' (p_rows p) (p_cols p) then Ok b' else Err RuntimeError
  end.
(** the two ends of a slice [a:b] of a sequence of n entries: negative ends count from the end *)
Definition slice_start (n a : Z) : Z := if (a <? 0)%Z then Z.max 0 (n + a) else a.
Definition slice_stop (n b : Z) : Z := if (b <? 0)%Z then Z.max 0 (n + b) else b.
(** panel_buffer.py:15-46; np.zeros and then a rectangle of True *)
Definition panel_buffer_as_2d_array (p : panel) : result (list (list bool)) :=
  let grid f := map (fun i => map (f i) (zrange 0 (p_cols p))) (zrange 0 (p_rows p)) in
  match p_buffer p with
  | BNone => Ok (grid (fun _ _ => true))
  | BName n => panel_buffer_from_str n p
  | BBorders bx by_ =>
      let bi := qround (by_ / p_psr p) in
      let bj := qround (bx / p_psc p) in
      Ok (grid (fun i j => (slice_start (p_rows p) bi <=? i)%Z && (i <? slice_stop (p_rows p) (p_rows p - bi))%Z &&
                           ((slice_start (p_cols p) bj <=? j)%Z && (j <? slice_stop (p_cols p) (p_cols p - bj))%Z)))
  | BMask m => Ok m
  end.

(** ** clip_to_panel, detector.py:1056-1096 *)
Definition within (xlim ylim : Q) (xy : Q * Q) : bool :=
  Qle_bool (- xlim) (fst xy) && Qle_bool (fst xy) xlim && (Qle_bool (- ylim) (snd xy) && Qle_bool (snd xy) ylim).
Definition mask_at (m : list (list bool)) (p : panel) (xy : Q * Q) : bool :=
  let (i, j) := cartToPixel_discrete p xy in
  if (i <? 0)%Z || (p_rows p <=? i)%Z || ((j <? 0)%Z || (p_cols p <=? j)%Z) then false
  else nth (Z.to_nat j) (nth (Z.to_nat i) m []) false.
Fixpoint pick {A} (mask : list bool) (l : list A) : list A :=
  match mask, l with
  | b :: bs, x :: xs => if b then x :: pick bs xs else pick bs xs
  | _, _ => []
  end.
(** A mask is assumed to have the panel's shape (a smaller one raises IndexError at some points). *)
Definition clip_to_panel (p : panel) (xy : list (Q * Q)) (buffer_edges : bool) : result (list (Q * Q) * list bool) :=
  let xlim := (1 # 2) * col_dim p in
  let ylim := (1 # 2) * row_dim p in
  do on <- (if buffer_edges then
              match p_buffer p with
              | BNone => Ok (within xlim ylim)
              | BBorders bx by_ => Ok (within (xlim - bx) (ylim - by_))
              | BMask m => Ok (mask_at m p)
              | BName n => do m <- panel_buffer_from_str n p; Ok (mask_at m p)
              end
            else Ok (within xlim ylim));
  let on_panel := map on xy in
  Ok (pick on_panel xy, on_panel).

(** ** interpolation *)
(** [img[i, j]] with Python's negative indices *)
Definition image := list (list Q).
Definition pixel (img : image) (i j : Z) : result Q := do r <- py_index img i; py_index r j.
Definition image_shape (img : image) (rows cols : Z) : bool :=
  (Z.of_nat (length img) =? rows)%Z && forallb (fun r => (Z.of_nat (length r) =? cols)%Z) img.
Fixpoint all_ok {A} (l : list (result A)) : result (list A) :=
  match l with
  | [] => Ok []
  | x :: t => do a <- x; do r <- all_ok t; Ok (a :: r)
  end.
(** [out = full(len(xy), fill); out[on_panel] = vals] *)
Fixpoint place {A} (mask : list bool) (vals : list A) (fill : A) : list A :=
  match mask with
  | [] => []
  | true :: bs => match vals with v :: vs => v :: place bs vs fill | [] => fill :: place bs [] fill end
  | false :: bs => fill :: place bs vals fill
  end.
Definition fill_value (pad_with_nans : bool) : option Q := if pad_with_nans then None else Some 0.

(** detector.py:1098-1126 *)
Definition interpolate_nearest (ztol : Q) (p : panel) (xy : list (Q * Q)) (img : image) (pad_with_nans : bool) : result (list (option Q)) :=
  if negb (image_shape img (p_rows p) (p_cols p)) then Err AssertionError else
  do c <- clip_to_panel p xy true;
  do i_src <- all_ok (map (fun q => cell_index ztol (row_pixel_vec p) (snd q)) (fst c));
  do j_src <- all_ok (map (fun q => cell_index ztol (col_pixel_vec p) (fst q)) (fst c));
  do vals <- all_ok (map (fun ij => pixel img (fst ij) (snd ij)) (combine i_src j_src));
  Ok (place (snd c) (map Some vals) (fill_value pad_with_nans)).

(** detector.py:2046-2052 *)
Definition fix_index (lo hi idx : Z) : Z := if (idx <? lo)%Z then lo else if (hi <? idx)%Z then hi else idx.
(** detector.py:1171-1218 and 2095-2120 for one point *)
Definition bilinear_at (ztol : Q) (p : panel) (img : image) (xy : Q * Q) : result Q :=
  let (i_frac, j_frac) := cartToPixel p xy in
  do i_floor <- cell_index ztol (row_pixel_vec p) (snd xy);
  do j_floor <- cell_index ztol (col_pixel_vec p) (fst xy);
  let i_floor_img := fix_index 0 (p_rows p - 1) i_floor in
  let j_floor_img := fix_index 0 (p_cols p - 1) j_floor in
  let i_ceil := (i_floor + 1)%Z in
  let i_ceil_img := fix_index 0 (p_rows p - 1) i_ceil in
  let j_ceil := (j_floor + 1)%Z in
  let j_ceil_img := fix_index 0 (p_cols p - 1) j_ceil in
  let j_ceil_sub := qz j_ceil - j_frac in
  let j_floor_sub := j_frac - qz j_floor in
  let i_ceil_sub := qz i_ceil - i_frac in
  let i_floor_sub := i_frac - qz i_floor in
  do a <- pixel img i_floor_img j_floor_img;
  do b <- pixel img i_floor_img j_ceil_img;
  do c <- pixel img i_ceil_img j_floor_img;
  do d <- pixel img i_ceil_img j_ceil_img;
  Ok (j_ceil_sub * i_ceil_sub * a + j_floor_sub * i_ceil_sub * b + j_ceil_sub * i_floor_sub * c + j_floor_sub * i_floor_sub * d).
(** detector.py:2078-2120: the values are accumulated in an array with the type of the image, so those of an
    integer image are cut to an integer, towards zero ([qtrunc]). *)
Definition store (integer_image : bool) (v : Q) : Q := if integer_image then qz (qtrunc v) else v.
(** detector.py:1128-1169 *)
Definition interpolate_bilinear (ztol : Q) (p : panel) (xy : list (Q * Q)) (img : image) (integer_image pad_with_nans : bool) :
  result (list (option Q)) :=
  do c <- clip_to_panel p xy true;
  do vals <- all_ok (map (bilinear_at ztol p img) (fst c));
  Ok (place (snd c) (map (fun v => Some (store integer_image v)) vals) (fill_value pad_with_nans)).
End Buffers.
