(** Model of hedm/sampleOrientations (rfz.py, conversions.py, sampleRFZ.py) and the constants they use
    (core/constants.py:149-291).  Real numbers stand for floating point numbers. *)
From Coq Require Import Reals List String.
From Verif Require Import Prelude Lin RotModel UcModel.
Import ListNotations.
Local Open Scope R_scope.

(** a Rodrigues vector [x, y, z, t]: axis and tangent of half the angle; [None] is numpy.inf *)
Record rod := ROD { r_ax : v3; r_t : option R }.
(** an axis-angle quadruple [x, y, z, angle] *)
Record axang := AXA { a_ax : v3; a_ang : R }.

(** core/constants.py:149-184 *)
Definition FZtypeArray : list Z :=
  [0; 0; 1; 1; 1; 2; 2; 2; 1; 1; 1; 2; 2; 2; 2; 1; 1; 2; 2; 2; 1; 1; 1; 2; 2; 2; 2; 3; 3; 4; 3; 4]%Z.
(** core/constants.py:186-221 *)
Definition FZorderArray : list Z :=
  [0; 0; 2; 2; 2; 2; 2; 2; 4; 4; 4; 4; 4; 4; 4; 3; 3; 3; 3; 3; 6; 6; 6; 6; 6; 6; 6; 0; 0; 0; 0; 0]%Z.
(** core/constants.py:276-291 *)
Definition BP : list R :=
  [0; 1; 577350269189626 / 10 ^ 15; 414213562373095 / 10 ^ 15; 0; 267949192431123 / 10 ^ 15; 0; 198912367379658 / 10 ^ 15; 0;
   158384440324536 / 10 ^ 15; 0; 131652497587396 / 10 ^ 15].
(** core/constants.py:237-248: half the edge of the cubochoric cube, and the scale and shape factors *)
Definition cuA : R := Rpower PI (2 / 3).
Definition cuA_2 : R := / 2 * Rpower PI (2 / 3).
Definition Avol : R := Rpower PI (5 / 6) / Rpower 6 (1 / 6).
Definition sc : R := Avol / cuA.
Definition prek : R := 16434564029725040 / 10 ^ 16.
Definition pref : R := sqrt (6 / PI).
(** core/constants.py:250-274 *)
Definition tfit : list R :=
  [9999999999999968 / 10 ^ 16; - (49999999999986866 / 10 ^ 17); - (25000000000632055 / 10 ^ 18); - (3928571496460683 / 10 ^ 18);
   - (8164666077062752 / 10 ^ 19); - (19411896443261646 / 10 ^ 20); - (4985822229871769 / 10 ^ 20); - (14164962366386031 / 10 ^ 21);
   - (19000248160936107 / 10 ^ 22); - (572184549898506 / 10 ^ 20); 7772149920658778 / 10 ^ 21; - (1053483452909705 / 10 ^ 20);
   9528014229335313 / 10 ^ 21; - (5660288876265125 / 10 ^ 21); 12844901692764126 / 10 ^ 22; 11255185726258763 / 10 ^ 22;
   - (13834391419956455 / 10 ^ 22); 7513691751164847 / 10 ^ 22; - (2401996891720091 / 10 ^ 22); 4386887017466388 / 10 ^ 23;
   - (35917775353564864 / 10 ^ 25)].

(** comparison as a boolean *)
Definition rleb (a b : R) : bool := if Rle_dec a b then true else false.
Definition rltb (a b : R) : bool := if Rlt_dec a b then true else false.
Definition reqb (a b : R) : bool := if Req_EM_T a b then true else false.
Definition vmaxabs (v : v3) : R := Rmax (Rmax (Rabs (vx v)) (Rabs (vy v))) (Rabs (vz v)).

(** hedm/sampleOrientations/rfz.py:8-12: a negative index counts from the end, one out of range is an IndexError
    (compiled code does not check the bounds) *)
Definition py_index (l : list Z) (i : Z) : result Z :=
  let j := if (i <? 0)%Z then (i + Z.of_nat (List.length l))%Z else i in
  if (j <? 0)%Z then Err IndexError else match nth_error l (Z.to_nat j) with Some x => Ok x | None => Err IndexError end.
Definition getFZtypeandOrder (pgnum : Z) : result (Z * Z) :=
  do t <- py_index FZtypeArray (pgnum - 1);
  do o <- py_index FZorderArray (pgnum - 1);
  Ok (t, o).

Definition bp (i : Z) : R := nth (Z.to_nat i) BP 0.

(** hedm/sampleOrientations/rfz.py:15-31 *)
Definition insideCyclicFZ (ro : rod) (FZorder : Z) : bool :=
  match r_t ro with
  | None =>
      if (FZorder =? 2)%Z then (if Req_EM_T (vy (r_ax ro)) 0 then true else false)
      else (if Req_EM_T (vz (r_ax ro)) 0 then true else false)
  | Some t =>
      if (FZorder =? 2)%Z then rleb (Rabs (vy (r_ax ro) * t)) (bp (FZorder - 1))
      else rleb (Rabs (vz (r_ax ro) * t)) (bp (FZorder - 1))
  end.

(** hedm/sampleOrientations/rfz.py:34-75.  [None] is Python's None: the branch for order two has no return statement. *)
Definition insideDihedralFZ (ax : v3) (t : R) (FZorder : Z) : option bool :=
  if rleb (sqrt 3) (Rabs t) then Some false
  else
    let rod0 := vx ax * t in let rod1 := vy ax * t in let rod2 := vz ax * t in
    if rleb (Rabs rod2) (bp (FZorder - 1)) then
      if (FZorder =? 2)%Z then None
      else if (FZorder =? 3)%Z then
        let srt := sqrt 3 / 2 in
        let c2 := rleb (Rabs (srt * rod0 + / 2 * rod1)) 1 in
        let c3 := rleb (Rabs (srt * rod0 - / 2 * rod1)) 1 in
        let c4 := rleb (Rabs rod1) 1 in
        Some (c2 && (c3 && c4))
      else if (FZorder =? 4)%Z then
        let r22 := 1 / sqrt 2 in
        let c2 := rleb (Rabs rod0) 1 && rleb (Rabs rod1) 1 in
        let c3 := rleb (r22 * Rabs (rod0 + rod1)) 1 && rleb (r22 * Rabs (rod0 - rod1)) 1 in
        Some (c2 && c3)
      else if (FZorder =? 6)%Z then
        let srt := sqrt 3 / 2 in
        let c2 := rltb (Rabs (/ 2 * rod0 + srt * rod1)) 1 in
        let c2 := c2 && rltb (Rabs (srt * rod0 + / 2 * rod1)) 1 in
        let c2 := c2 && rltb (Rabs (/ 2 * rod0 - srt * rod1)) 1 in
        let c2 := c2 && rltb (Rabs (srt * rod0 - / 2 * rod1)) 1 in
        Some (c2 && (rleb (Rabs rod0) 1 && rleb (Rabs rod1) 1))
      else None
    else Some false.

(** hedm/sampleOrientations/rfz.py:78-89 *)
Definition tol8 : R := / 10 ^ 8.
Definition insideCubicFZ (ax : v3) (t : R) (oct : bool) : bool :=
  let rod0 := Rabs (vx ax * t) in let rod1 := Rabs (vy ax * t) in let rod2 := Rabs (vz ax * t) in
  let c1 := if oct then rleb (Rmax (Rmax rod0 rod1) rod2 - bp 3) tol8 else true in
  let c2 := rleb (rod0 + rod1 + rod2 - 1) tol8 in
  c1 && c2.

(** hedm/sampleOrientations/rfz.py:92-116 *)
Definition insideFZ (ro : rod) (pgnum : Z) : result (option bool) :=
  do res <- getFZtypeandOrder pgnum;
  let (FZtype, FZorder) := res in
  if (FZtype =? 0)%Z then Ok (Some true)
  else if (FZtype =? 1)%Z then Ok (Some (insideCyclicFZ ro FZorder))
  else if (FZtype =? 2)%Z then Ok (match r_t ro with None => Some false | Some t => insideDihedralFZ (r_ax ro) t FZorder end)
  else if (FZtype =? 3)%Z then Ok (match r_t ro with None => Some false | Some t => Some (insideCubicFZ (r_ax ro) t false) end)
  else if (FZtype =? 4)%Z then Ok (match r_t ro with None => Some false | Some t => Some (insideCubicFZ (r_ax ro) t true) end)
  else Ok None.
(** the value as a condition: None counts as false *)
Definition truthy (b : option bool) : bool := match b with Some true => true | _ => false end.

(** hedm/sampleOrientations/conversions.py:9-30; 0 stands for None *)
Definition getPyramid (v : v3) : nat :=
  let x := vx v in let y := vy v in let z := vz v in
  if rleb (Rabs x) z && rleb (Rabs y) z then 1%nat
  else if rleb (Rabs x) (- z) && rleb (Rabs y) (- z) then 2%nat
  else if rleb (Rabs z) x && rleb (Rabs y) x then 3%nat
  else if rleb (Rabs z) (- x) && rleb (Rabs y) (- x) then 4%nat
  else if rleb (Rabs x) y && rleb (Rabs z) y then 5%nat
  else if rleb (Rabs x) (- y) && rleb (Rabs z) (- y) then 6%nat
  else 0%nat.

(** hedm/sampleOrientations/conversions.py:57-81 *)
Definition lambert (v : v3) : v3 :=
  let ma2 := Rmax (Rabs (vx v)) (Rabs (vy v)) in
  if Rlt_dec ma2 tol8 then V3 0 0 (pref * vz v)
  else
    let '(T1, T2) :=
      if Rle_dec (Rabs (vy v)) (Rabs (vx v)) then
        let q := PI / 12 * vy v / vx v in
        let c := cos q in let s := sin q in
        let q := prek * vx v / sqrt (sqrt 2 - c) in
        ((sqrt 2 * c - 1) * q, sqrt 2 * s * q)
      else
        let q := PI / 12 * vx v / vy v in
        let c := cos q in let s := sin q in
        let q := prek * vy v / sqrt (sqrt 2 - c) in
        (sqrt 2 * s * q, (sqrt 2 * c - 1) * q) in
    let c := T1 ^ 2 + T2 ^ 2 in
    let s := PI * c / (24 * vz v ^ 2) in
    let c := sqrt PI * c / sqrt 24 / vz v in
    let q := sqrt (1 - s) in
    V3 (T1 * q) (T2 * q) (pref * vz v - c).

(** hedm/sampleOrientations/conversions.py:39-88 *)
Definition cu2ho (cu : v3) : result v3 :=
  let ma := vmaxabs cu in
  if Rle_dec ma cuA_2 then
    let pyd := getPyramid cu in
    let sXYZ :=
      match pyd with
      | 1%nat | 2%nat => Ok cu
      | 3%nat | 4%nat => Ok (V3 (vy cu) (vz cu) (vx cu))
      | 5%nat | 6%nat => Ok (V3 (vz cu) (vx cu) (vy cu))
      | _ => Err LookupError (* UnboundLocalError *)
      end in
    do sXYZ <- sXYZ;
    let xyz := vscale sc sXYZ in
    if Rlt_dec (vmaxabs xyz) tol8 then Ok vzero
    else
      let LamXYZ := lambert xyz in
      match pyd with
      | 1%nat | 2%nat => Ok LamXYZ
      | 3%nat | 4%nat => Ok (V3 (vz LamXYZ) (vx LamXYZ) (vy LamXYZ))
      | _ => Ok (V3 (vy LamXYZ) (vz LamXYZ) (vx LamXYZ))
      end
  else Err AssertionError.

(** hedm/sampleOrientations/conversions.py:104-107: the polynomial, powers by repeated multiplication *)
Definition fit_poly (hmag : R) : R :=
  fst (fold_left (fun '(s, hm) ii => let hm := hm * hmag in (s + nth ii tfit 0 * hm, hm)) (seq 2 19) (nth 0 tfit 0 + nth 1 tfit 0 * hmag, hmag)).
(** hedm/sampleOrientations/conversions.py:97-113 *)
Definition ho2ax (ho : v3) : axang :=
  let hmag := norm ho ^ 2 in
  if Rlt_dec hmag tol8 then AXA (V3 0 0 1) 0
  else
    let hn := V3 (vx ho / sqrt hmag) (vy ho / sqrt hmag) (vz ho / sqrt hmag) in
    let s := 2 * acos (fit_poly hmag) in
    if Rlt_dec (Rabs (s - PI)) tol8 then AXA hn PI else AXA hn s.
(** hedm/sampleOrientations/conversions.py:116-125 *)
Definition ax2ro (ax : axang) : rod :=
  if Rlt_dec (Rabs (a_ang ax)) tol8 then ROD (V3 0 0 1) (Some 0)
  else if Rlt_dec (Rabs (a_ang ax - PI)) tol8 then ROD (a_ax ax) None
  else ROD (a_ax ax) (Some (tan (a_ang ax * / 2))).
(** hedm/sampleOrientations/conversions.py:91-94 *)
Definition ho2ro (ho : v3) : rod := ax2ro (ho2ax ho).
(** hedm/sampleOrientations/conversions.py:33-36 *)
Definition cu2ro (cu : v3) : result rod := do ho <- cu2ho cu; Ok (ho2ro ho).
(** hedm/sampleOrientations/conversions.py:134-143 *)
Definition ro2ax (ro : rod) : axang :=
  match r_t ro with
  | None => AXA (r_ax ro) PI
  | Some t =>
      if Rlt_dec (Rabs t) tol8 then AXA (V3 0 0 1) 0
      else
        let ang := 2 * atan t in
        let mag := 1 / norm (r_ax ro) in
        AXA (V3 (vx (r_ax ro) * mag) (vy (r_ax ro) * mag) (vz (r_ax ro) * mag)) ang
  end.
(** hedm/sampleOrientations/conversions.py:146-153 *)
Definition ax2qu (ax : axang) : q4 :=
  if Rlt_dec (Rabs (a_ang ax)) tol8 then Q4 1 0 0 0
  else
    let c := cos (a_ang ax * / 2) in let s := sin (a_ang ax * / 2) in
    Q4 c (vx (a_ax ax) * s) (vy (a_ax ax) * s) (vz (a_ax ax) * s).
(** hedm/sampleOrientations/conversions.py:128-131 *)
Definition ro2qu (ro : rod) : q4 := ax2qu (ro2ax ro).

(** hedm/sampleOrientations/sampleRFZ.py:16-22: the cubochoric point of a triple of counters *)
Definition grid_point (delta shift : R) (p : Z * Z * Z) : v3 :=
  let '(ii, jj, kk) := p in V3 ((IZR ii + shift) * delta) ((IZR jj + shift) * delta) ((IZR kk + shift) * delta).
(** hedm/sampleOrientations/sampleRFZ.py:28-32 *)
Definition row_of (N : Z) (p : Z * Z * Z) : Z :=
  let '(ii, jj, kk) := p in ((ii + N) * (2 * N + 1) ^ 2 + (jj + N) * (2 * N + 1) + (kk + N))%Z.
(** hedm/sampleOrientations/sampleRFZ.py:17-33: what one iteration of the loops does to the rows; [None] is a row of NaN *)
Definition sample_one (pgnum N : Z) (delta shift ap_2 : R) (res : result (list (option q4))) (p : Z * Z * Z) : result (list (option q4)) :=
  do res <- res;
  let cu := grid_point delta shift p in
  if Rle_dec (vmaxabs cu) ap_2 then
    do ro <- cu2ro cu;
    do b <- insideFZ ro pgnum;
    if truthy b then Ok (set_nth (Z.to_nat (row_of N p)) (Some (ro2qu ro)) res) else Ok res
  else Ok res.
(** the iterations, outermost counter first: the order of the loops without threads *)
Definition triples (N : Z) : list (Z * Z * Z) :=
  flat_map (fun ii => flat_map (fun jj => map (fun kk => (ii, jj, kk)) (zrange (- N) (N + 1))) (zrange (- N) (N + 1))) (zrange (- N) (N + 1)).
(** hedm/sampleOrientations/sampleRFZ.py:10-35: the iterations run in the order [sched] (numba's prange chooses it); a negative
    number of rows is a ValueError of numpy.full *)
Definition sample_rows (sched : list (Z * Z * Z)) (pgnum N : Z) (delta shift ap_2 : R) : result (list (option q4)) :=
  let N3 := ((2 * N + 1) ^ 3)%Z in
  if (N3 <? 0)%Z then Err ValueError
  else fold_left (sample_one pgnum N delta shift ap_2) sched (Ok (repeat None (Z.to_nat N3))).
(** hedm/sampleOrientations/sampleRFZ.py:102-103 *)
Definition keep_rows {A : Type} (l : list (option A)) : list A := flat_map (fun o => match o with Some x => [x] | None => [] end) l.

Section Sampler.
(** str.lower *)
Variable lower : string -> string.
(** the order in which the threads run the iterations *)
Variable sched : Z -> list (Z * Z * Z).

(** the object: the attributes set so far and the orientations *)
Record sampler := SAMPLER { s_pg : option Z; s_type : option string; s_ang : option R; s_ori : option (list q4) }.
(** hedm/sampleOrientations/sampleRFZ.py:84-98; [None]: no branch applies *)
Definition sampling_N (stype : string) (ang : R) : result (option Z) :=
  if String.eqb (lower stype) "default" then
    if Req_EM_T (ang - 3732 / 100000) 0 then Err ZeroDivisionError else Ok (Some (rint (13197049 / 100000 / (ang - 3732 / 100000))))
  else if String.eqb (lower stype) "special" then
    if Req_EM_T (ang - 7127 / 100000) 0 then Err ZeroDivisionError else Ok (Some (rint (12570471 / 100000 / (ang - 7127 / 100000))))
  else Ok None.
(** hedm/sampleOrientations/sampleRFZ.py:144-149 *)
Definition shift_of (stype : string) : option R :=
  if String.eqb stype "default" then Some 0 else if String.eqb stype "special" then Some (/ 2) else None.
(** hedm/sampleOrientations/sampleRFZ.py:100-104 with the properties cubN and delta (140-153).  Dividing by None, or passing None
    as the shift, is a TypeError.  With zero steps the spacing is infinite and every grid point is NaN or outside the cube, so no
    row is written. *)
Definition sample (pg : Z) (stype : string) (ang : R) : result (list q4) :=
  do n <- sampling_N stype ang;
  match n with
  | None => Err TypeError
  | Some N =>
      match shift_of stype with
      | None => Err TypeError
      | Some shift =>
          if (N =? 0)%Z then Ok []
          else do rows <- sample_rows (sched N) pg N (cuA_2 / IZR N) shift cuA_2; Ok (keep_rows rows)
      end
  end.
(** hedm/sampleOrientations/sampleRFZ.py:106-111: the second component is what the assignment raises *)
Definition sample_if_possible (s : sampler) : sampler * result unit :=
  match s_pg s, s_type s, s_ang s with
  | Some pg, Some st, Some a =>
      match sample pg st a with
      | Ok l => (SAMPLER (s_pg s) (s_type s) (s_ang s) (Some l), Ok tt)
      | Err e => (s, Err e)
      end
  | _, _, _ => (s, Ok tt)
  end.
Inductive assign := SetPg (n : Z) | SetType (t : string) | SetAng (a : R).
(** hedm/sampleOrientations/sampleRFZ.py:113-138 *)
Definition set_attr (s : sampler) (a : assign) : sampler * result unit :=
  sample_if_possible
    match a with
    | SetPg n => SAMPLER (Some n) (s_type s) (s_ang s) (s_ori s)
    | SetType t => SAMPLER (s_pg s) (Some t) (s_ang s) (s_ori s)
    | SetAng x => SAMPLER (s_pg s) (s_type s) (Some x) (s_ori s)
    end.
Definition blank : sampler := SAMPLER None None None None.
(** hedm/sampleOrientations/sampleRFZ.py:79-82 *)
Definition new_sampler (pg : Z) (stype : string) (ang : R) : result sampler :=
  let (s, r) := set_attr blank (SetPg pg) in
  do _ <- r;
  let (s, r) := set_attr s (SetType stype) in
  do _ <- r;
  let (s, r) := set_attr s (SetAng ang) in
  do _ <- r;
  Ok s.
End Sampler.
