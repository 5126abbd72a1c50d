(** The reflections of a unit cell: hexrd/core/material/unitcell.py (GenerateRecipPGSym, CalcStar, CalcMaxGIndex,
    ChooseSymmetric, SortHKL, getHKLs and the parts of the constructor they depend on).
    Real numbers stand for floating point numbers, unbounded integers for int32.  The metric tensors and lengths are those of
    LatModel, the symmetry operations those of SgModel.  Atoms, densities and wavelength are left out: nothing here reads
    them. *)
From Coq Require Import Reals String.
From Verif Require Import Prelude SgModel Lin LatModel.
Import ListNotations.
Local Open Scope R_scope.

(** [np.asarray(v).astype(float)] and [sym.astype(float)], unitcell.py:583-587 *)
Definition rvec (v : ivec) : v3 := V3 (IZR (v0 v)) (IZR (v1 v)) (IZR (v2 v)).
Definition rmat (m : imat) : m3 :=
  M3 (IZR (v0 (r0 m))) (IZR (v1 (r0 m))) (IZR (v2 (r0 m)))
     (IZR (v0 (r1 m))) (IZR (v1 (r1 m))) (IZR (v2 (r1 m)))
     (IZR (v0 (r2 m))) (IZR (v1 (r2 m))) (IZR (v2 (r2 m))).
(** [np.round(x)] as an integer: to the nearest, halves to even *)
Definition rint (x : R) : Z :=
  let f := Int_part x in
  let d := x - IZR f in
  if Rlt_dec d (1 / 2) then f
  else if Rlt_dec (1 / 2) d then (f + 1)%Z
  else if Z.even f then f else (f + 1)%Z.
(** [astype(int)] of a float: towards zero *)
Definition trunc (x : R) : Z := if Rlt_dec x 0 then (- Int_part (- x))%Z else Int_part x.
Definition vtrunc (v : v3) : ivec := IV (trunc (vx v)) (trunc (vy v)) (trunc (vz v)).

(** unitcell.py:400-401 and 406-407, then 410-411 *)
Definition recip_op (u : ucell) (g : imat) : imat :=
  let m := mm (u_dmt u) (mm (rmat g) (u_rmt u)) in
  IM (IV (rint (m00 m)) (rint (m01 m)) (rint (m02 m)))
     (IV (rint (m10 m)) (rint (m11 m)) (rint (m12 m)))
     (IV (rint (m20 m)) (rint (m21 m)) (rint (m22 m))).
(** unitcell.py:391-411: SYM_PG_r and SYM_PG_r_laue; both start with SYM_PG_d[0] *)
Definition GenerateRecipPGSym (u : ucell) (pg laue : list imat) : result (list imat * list imat) :=
  match pg with
  | [] => Err IndexError
  | e :: rest => Ok (e :: map (recip_op u) rest, e :: map (recip_op u) (tl laue))
  end.

(** unitcell.py:34-60; the matrix argument of the code is not used there *)
Definition near (a b : v3) : bool := if Rlt_dec (norm2 (vsub a b)) (/ 10 ^ 4) then true else false.
Definition calcstar (v : v3) (sym : list m3) : list v3 :=
  fold_left (fun vsym s => let vp := mv s v in if existsb (near vp) vsym then vsym else vsym ++ [vp]) (tl sym) [v].

(** What the constructor leaves behind: unitcell.py:72-117, 1439-1455 and 1592-1615 *)
Record unitcell := UC {
  uc_m : ucell;
  uc_sgnum : Z;
  uc_pg : list imat; uc_laue : list imat;
  uc_r : list imat; uc_r_laue : list imat;
  uc_dmin : R;
  uc_ih : Z; uc_ik : Z; uc_il : Z
}.

(** unitcell.py:569-587 for the direct and the reciprocal space *)
Definition CalcStar (uc : unitcell) (v : v3) (space : string) (applyLaue : bool) : result (list v3) :=
  if String.eqb space "d" then Ok (calcstar v (map rmat (if applyLaue then uc_laue uc else uc_pg uc)))
  else if String.eqb space "r" then Ok (calcstar v (map rmat (if applyLaue then uc_r_laue uc else uc_r uc)))
  else Err ValueError.

(** unitcell.py:743-759, one of the three loops.  The fuel bounds the number of rounds. *)
Fixpoint max_index (fuel : nat) (u : ucell) (dmin : R) (axis : Z -> v3) (i : Z) : result Z :=
  match fuel with
  | O => Err OutOfFuel
  | S fuel =>
      do len <- CalcLength u (axis i) "r";
      if Rlt_dec dmin (1 / len) then max_index fuel u dmin axis (i + 1) else Ok i
  end.
(** unitcell.py:732-759 *)
Definition CalcMaxGIndex (fuel : nat) (u : ucell) (dmin : R) : result (Z * Z * Z) :=
  do ih <- max_index fuel u dmin (fun i => V3 (IZR i) 0 0) 1;
  do ik <- max_index fuel u dmin (fun i => V3 0 (IZR i) 0) 1;
  do il <- max_index fuel u dmin (fun i => V3 0 0 (IZR i)) 1;
  Ok (ih, ik, il).

(** unitcell.py:72-117: lengths in nm, angles in degrees; first the lattice parameters, then the space group *)
Definition new_unitcell (fuel : nat) (len deg : v3) (sgnum setting : Z) (dmin : R) : result unitcell :=
  let u := calcmatrices len deg in
  do m <- CalcMaxGIndex fuel u dmin;
  if ((sgnum <? 1) || (230 <? sgnum))%Z%bool then Err ValueError else
  do g <- GenerateSGSym sgnum setting;
  let '(_, pg, laue, _, _) := g in
  do r <- GenerateRecipPGSym u pg laue;
  let '(ih, ik, il) := m in
  Ok (UC u sgnum pg laue (fst r) (snd r) dmin ih ik il).

(** unitcell.py:1550-1556: changing dmin afterwards *)
Definition set_dmin (fuel : nat) (uc : unitcell) (v : R) : result unitcell :=
  if Req_EM_T (uc_dmin uc) v then Ok uc else
  do m <- CalcMaxGIndex fuel (uc_m uc) v;
  let '(ih, ik, il) := m in
  Ok (UC (uc_m uc) (uc_sgnum uc) (uc_pg uc) (uc_laue uc) (uc_r uc) (uc_r_laue uc) v ih ik il).

(** unitcell.py:951-960.  [mask[rid] = False] for every row equal to one of [geqv[1:]]. *)
Fixpoint clear (eqv : list ivec) (hkllist : list ivec) (mask : list bool) : list bool :=
  match hkllist, mask with
  | h :: hs, b :: bs => (if existsb (iv_eqb h) eqv then false else b) :: clear eqv hs bs
  | _, _ => []
  end.
Fixpoint mask_loop (star : ivec -> list ivec) (hkllist : list ivec) (i : nat) (todo : list ivec) (mask : list bool) : list bool :=
  match todo with
  | [] => mask
  | g :: t =>
      mask_loop star hkllist (S i) t
        (if nth i mask false then clear (tl (star g)) hkllist mask else mask)
  end.
Fixpoint select {A} (mask : list bool) (l : list A) : list A :=
  match mask, l with
  | b :: bs, x :: xs => if b then x :: select bs xs else select bs xs
  | _, _ => []
  end.
(** [geqv[np.argmax(np.sum(geqv, axis=1))]], unitcell.py:968-969; the first of the largest *)
Definition vsum (v : v3) : R := vx v + vy v + vz v.
Fixpoint argmax_sum (best : v3) (l : list v3) : v3 :=
  match l with
  | [] => best
  | v :: t => argmax_sum (if Rlt_dec (vsum best) (vsum v) then v else best) t
  end.
(** unitcell.py:944-972.  A selection from an empty list is an empty one-dimensional array, and [hkllist[mask, :]] raises. *)
Definition ChooseSymmetric (uc : unitcell) (hkllist : list ivec) (laue : bool) : result (list ivec) :=
  let star g := calcstar (rvec g) (map rmat (if laue then uc_r_laue uc else uc_r uc)) in
  match hkllist with
  | [] => Err IndexError
  | _ =>
      let mask := mask_loop (fun g => map vtrunc (star g)) hkllist 0 hkllist (repeat true (List.length hkllist)) in
      let hkl := select mask hkllist in
      Ok (map (fun g => vtrunc (match star g with [] => rvec g | v :: t => argmax_sum v t end)) hkl)
  end.

(** unitcell.py:974-1002.  The sort key of one reflection, in the order in which [np.argsort] compares the fields:
    the length rounded to 8 decimals (as a number of 1e-8), the largest index, the sum, l, k, h *)
Definition sort_key (u : ucell) (g : ivec) : list Z :=
  [ match CalcLength u (rvec g) "r" with Ok x => rint (x * 10 ^ 8) | Err _ => 0%Z end;
    Z.max (v0 g) (Z.max (v1 g) (v2 g)); (v0 g + v1 g + v2 g)%Z; v2 g; v1 g; v0 g ].
Fixpoint key_leb (a b : list Z) : bool :=
  match a, b with
  | x :: a, y :: b => if (x <? y)%Z then true else if (x =? y)%Z then key_leb a b else false
  | _, _ => true
  end.
(** Any sort by the key gives the same list: equal keys mean equal reflections. *)
Fixpoint insert_by (key : ivec -> list Z) (g : ivec) (l : list ivec) : list ivec :=
  match l with
  | [] => [g]
  | h :: t => if key_leb (key g) (key h) then g :: l else h :: insert_by key g t
  end.
Definition SortHKL (u : ucell) (l : list ivec) : list ivec := fold_right (insert_by (sort_key u)) [] l.

(** unitcell.py:1017-1031: [np.arange(hi, lo, -1)] *)
Definition down (hi lo : Z) : list Z := map (fun i => (hi - Z.of_nat i)%Z) (seq 0 (Z.to_nat (hi - lo))).
Definition index_box (ih ik il : Z) : list ivec :=
  flat_map (fun h => flat_map (fun k => map (fun l => IV h k l) (down il (-1))) (down ik (- ik - 1))) (down ih (- ih - 1)).
(** unitcell.py:1039-1046 *)
Definition in_range (u : ucell) (dmin : R) (g : ivec) : bool :=
  if (Z.abs (v0 g) + Z.abs (v1 g) + Z.abs (v2 g) =? 0)%Z then false
  else match CalcLength u (rvec g) "r" with
       | Ok len => if Rle_dec dmin (1 / len) then true else false
       | Err _ => false
       end.
(** unitcell.py:1004-1069 *)
Definition getHKLs (uc : unitcell) (dmin : R) : result (list ivec) :=
  do allowed <- Allowed_HKLs (uc_sgnum uc) (index_box (uc_ih uc) (uc_ik uc) (uc_il uc));
  do hkl <- ChooseSymmetric uc (filter (in_range (uc_m uc) dmin) allowed) true;
  Ok (SortHKL (uc_m uc) hkl).
