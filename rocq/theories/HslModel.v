(** Model of hedm/ipfcolor/colorspace.py (line numbers are of this file): colours by hue, saturation and lightness, and by red, green
    and blue.  A colour is a vector; an array of colours is given by its rows.  Floats are reals; the eps of the file is a square root
    of 2^-52, core/constants.py:68. *)
From Coq Require Import Reals List ZArith.
From Verif Require Import Prelude Lin RotModel OrbModel.
Import ListNotations.
Local Open Scope R_scope.

(** 49-50 *)
Definition snap1 (x : R) : R :=
  let x := if Rlt_dec (Rabs x) sqrt_epsf then 0 else x in if Rlt_dec (Rabs (x - 1)) sqrt_epsf then 1 else x.
Definition snap (v : v3) : v3 := V3 (snap1 (vx v)) (snap1 (vy v)) (snap1 (vz v)).
(** 52-53 for a row *)
Definition in_range1 (x : R) : bool := if Rlt_dec x 0 then false else if Rlt_dec 1 x then false else true.
Definition in_range (v : v3) : bool := andb (in_range1 (vx v)) (andb (in_range1 (vy v)) (in_range1 (vz v))).
(** 102-103, 165-166 *)
Definition clip1 (x : R) : R := let x := if Rlt_dec x 0 then 0 else x in if Rlt_dec 1 x then 1 else x.
Definition clip (v : v3) : v3 := V3 (clip1 (vx v)) (clip1 (vy v)) (clip1 (vz v)).
(** 57, 62-97 for a row *)
Definition raw_rgb (v : v3) : v3 :=
  let h := vx v in let s := vy v in let l := vz v in
  let c := (1 - Rabs (2 * l - 1)) * s in
  let x := (1 - Rabs (npmod (6 * h) 2 - 1)) * c in
  let m := l - c / 2 in
  let case := Int_part (6 * h) in
  let cp := c + m in let xp := x + m in let zp := m in
  if orb (Z.eqb case 0) (Z.eqb case 6) then V3 cp xp zp
  else if Z.eqb case 1 then V3 xp cp zp
  else if Z.eqb case 2 then V3 zp cp xp
  else if Z.eqb case 3 then V3 zp xp cp
  else if Z.eqb case 4 then V3 xp zp cp
  else if Z.eqb case 5 then V3 cp zp xp
  else V3 0 0 0.
(** 35-104: the colours, and what the caller's array holds afterwards: lines 49 and 50 write into it *)
Definition hsl2rgb (hsl : list v3) : result (list v3) * list v3 :=
  let hsl := map snap hsl in
  (if forallb in_range hsl then Ok (map (fun v => clip (raw_rgb v)) hsl) else Err RuntimeError, hsl).

(** 122-160 for a row: later assignments of the hue win *)
Definition raw_hsl (v : v3) : v3 :=
  let cmax := Rmax (vx v) (Rmax (vy v) (vz v)) in
  let cmin := Rmin (vx v) (Rmin (vy v) (vz v)) in
  let delta := cmax - cmin in
  let l := / 2 * (cmax + cmin) in
  if Rlt_dec (Rabs delta) sqrt_epsf then V3 0 0 l else
  let h := 0 in
  let h := if Req_EM_T (vx v) cmax then npmod ((vy v - vz v) / delta) 6 / 6 else h in
  let h := if Req_EM_T (vy v) cmax then npmod ((vz v - vx v) / delta + 2) 6 / 6 else h in
  let h := if Req_EM_T (vz v) cmax then npmod ((vx v - vy v) / delta + 4) 6 / 6 else h in
  V3 h (delta / (1 - Rabs (2 * l - 1))) l.
(** 107-167 *)
Definition rgb2hsl (rgb : list v3) : list v3 := map (fun v => clip (raw_hsl v)) rgb.
