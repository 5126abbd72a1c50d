(** Model of zproject_sph_angles, hedm/xrdutil/utils.py:133-231 (line numbers are of this file).  Names of methods and sources are in
    lower case already; a source other than 'd', 'q' and 'g' is left out.  The input is an array of two dimensions, given by its rows. *)
From Coq Require Import Reals String List.
From Verif Require Import Prelude Lin TensorModel XfModel.
Import ListNotations.
Local Open Scope R_scope.

Inductive source := SrcD | SrcQ | SrcG.
(** 191-197: the beam and eta vectors are the defaults of core/constants.py, and the crystal frame is that of the sample *)
Definition directions (src : source) (chi : R) (invecs : list v3) : list v3 :=
  match src with
  | SrcD => map (fun a => angles_to_dvec (V3 0 0 (-1)) (V3 1 0 0) chi mI (vx a) (vy a) (vz a)) invecs
  | SrcQ => map (fun a => angles_to_gvec (V3 0 0 (-1)) (V3 1 0 0) chi mI (vx a) (vy a) (vz a)) invecs
  | SrcG => invecs
  end.
Definition flip_z (v : v3) : v3 := V3 (vx v) (vy v) (- vz v).
Definition lower_half (v : v3) : bool := if Rle_dec (vz v) 0 then true else false.
(** 211-216; division by 0 gives infinity or NaN in numpy, 0 here: theorems leave the pole out *)
Definition stereographic (v : v3) : R * R := (vx v / (1 - vz v), vy v / (1 - vz v)).
(** 218-224 *)
Definition equal_area (v : v3) : R * R :=
  let chord := vadd v (V3 0 0 1) in
  let scl := norm chord in
  let ucrd := unitVector (V3 (vx chord) (vy chord) 0) in
  (vx ucrd * scl, vy ucrd * scl).
(** 191-231: the points with the mask if there is one, and what the caller's array holds afterwards: line 203 writes into it if
    spts_s is that array, which np.atleast_2d does not copy *)
Definition zproject (invecs : list v3) (chi : R) (method : string) (src : source) (use_mask invert_z : bool) (rmat : option m3)
  : result (list (R * R) * option (list bool)) * list v3 :=
  let spts := directions src chi invecs in
  let spts := match rmat with Some r => map (mv r) spts | None => spts end in
  let spts := if invert_z then map flip_z spts else spts in
  let left := match src, rmat, invert_z with SrcG, None, true => spts | _, _, _ => invecs end in
  let pzi := map lower_half spts in
  let kept := if use_mask then filter lower_half spts else spts in
  let out := if String.eqb method "stereographic" then Ok (map stereographic kept)
             else if String.eqb method "equal-area" then Ok (map equal_area kept) else Err RuntimeError in
  (do p <- out; Ok (p, if use_mask then Some pzi else None), left).
