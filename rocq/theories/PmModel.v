(** Model of mapping points of a panel to another plane (core/instrument/detector.py:1532-1578) and of the angular size of pixels
    (hedm/xrdutil/utils.py:711-801).  Real numbers stand for floats.  A division by zero gives infinities in the code; here its value
    is not specified, and no theorem is about it. *)
From Coq Require Import Reals List.
From Verif Require Import Prelude Lin.
Import ListNotations.
Local Open Scope R_scope.

(** detector.py:1558-1578 for one point: the panel's rotation and translation, those of the plane, and the point *)
Definition map_to_plane (self_rmat : m3) (self_tvec : v3) (rmat : m3) (tvec : v3) (pt : R * R) : R * R :=
  let nvec_map_lab := col2 rmat in
  let pts_det := V3 (fst pt) (snd pt) 0 in
  let pts_lab := vadd (mv self_rmat pts_det) self_tvec in
  let u := dot nvec_map_lab tvec / dot nvec_map_lab pts_lab in
  let pts_map_lab := vscale u pts_lab in
  let res := mv (mt rmat) (vsub pts_map_lab tvec) in
  (vx res, vy res).

(** xrdutil/utils.py:711-729 *)
Definition expand_pixels (original : list (R * R)) (w h : R) : list (R * R) :=
  let hw := (1 / 2) * w in let hh := (1 / 2) * h in
  flat_map (fun xy => let '(x, y) := xy in [(x - hw, y - hh); (x + hw, y - hh); (x + hw, y + hh); (x - hw, y + hh)]) original.
(** numpy.remainder for a positive period *)
Definition remainder (x p : R) : R := x - p * IZR (Int_part (x / p)).
(** 735-745: the size of a difference of azimuths *)
Definition eta_size (eta_diff : R) : R := Rabs (remainder (eta_diff + PI) (2 * PI) - PI).
(** 732-751: the lists are read four by four *)
Fixpoint compute_max (ang : list (R * R)) : list (R * R) :=
  match ang with
  | a0 :: a1 :: a2 :: a3 :: r =>
      let tth x y := Rabs (fst x - fst y) in
      let eta x y := eta_size (snd x - snd y) in
      let max_tth := Rmax (tth a2 a3) (Rmax (tth a1 a2) (Rmax (tth a0 a1) (tth a0 a3))) in
      let max_eta := Rmax (eta a2 a3) (Rmax (eta a1 a2) (Rmax (eta a0 a1) (eta a0 a3))) in
      (max_tth, max_eta) :: compute_max r
  | _ => []
  end.
(** 754-801: [angles] gives two theta and eta of a point (transforms.xfcapi.xy_to_gvec with the geometry given), [distort] applies the
    distortion if there is one; the check that the sample rotation is one matrix is left out *)
Definition angularPixelSize (angles : R * R -> R * R) (distort : option (R * R -> R * R)) (xy_det : list (R * R)) (pitch : R * R) : list (R * R) :=
  let xy := match distort with Some f => map f xy_det | None => xy_det end in
  compute_max (map angles (expand_pixels xy (fst pitch) (snd pitch))).
