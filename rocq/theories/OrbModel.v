(** Model of the symmetric reflections of plane data: applySym (core/rotations.py), findDuplicateVectors (core/matrixutil.py)
    on 3-vectors, PlaneData.makePlaneData, getMultiplicity and getHKLID (core/material/crystallography.py).
    Real numbers stand for floating point numbers. *)
From Coq Require Import Reals List String ZArith QArith.
From Verif Require Import Prelude Lin TensorModel RotModel LatModel SgModel UcModel PlaneModel.
Import ListNotations.
Local Close Scope Q_scope.
Local Open Scope R_scope.
Local Notation length := List.length.

(** matrixutil.py:534-541, the 1-norm of a difference and its comparison with the tolerance *)
Definition sum_abs (a b : v3) : R := Rabs (vx a - vx b) + Rabs (vy a - vy b) + Rabs (vz a - vz b).
Definition dup_close3 (tol : R) (pm : bool) (a b : v3) : bool :=
  let lt x := if Rlt_dec x tol then true else false in
  if pm then lt (sum_abs a (vneg b)) || lt (sum_abs a b) else lt (sum_abs a b).
(** matrixutil.py:528-548, for one [ii]: the [jj] newly found, given the master list so far *)
Definition dup_row3 (tol : R) (pm : bool) (vecs : list v3) (ii : nat) (master : list nat) : list nat :=
  filter (fun jj => negb (existsb (Nat.eqb jj) master) && dup_close3 tol pm (nth ii vecs vzero) (nth jj vecs vzero))
         (seq (ii + 1) (length vecs - (ii + 1))).
Fixpoint dup_loop3 (tol : R) (pm : bool) (vecs : list v3) (iis : list nat) (master : list nat) : list nat :=
  match iis with
  | [] => master
  | ii :: r => dup_loop3 tol pm vecs r (master ++ dup_row3 tol pm vecs ii master)
  end.
(** matrixutil.py:465-476, [findDuplicateVectors]: the kept indices (the second result) *)
Definition unique_ids (tol : R) (pm : bool) (vecs : list v3) : list nat :=
  let dups := dup_loop3 tol pm vecs (seq 0 (length vecs)) [] in
  filter (fun u => negb (existsb (Nat.eqb u) dups)) (seq 0 (length vecs)).

(** constants.py:66-68: sqrt_epsf, the square root of the machine epsilon 2^-52 *)
Definition sqrt_epsf : R := / 2 ^ 26.
(** rotations.py:1180-1203 *)
Definition applySym (vec : v3) (qsym : list q4) (csFlag cullPM : bool) (tol : R) : list v3 :=
  let all := map (fun q => mv (rotMatOfQuat q) vec) qsym in
  let all := if csFlag then all ++ map vneg all else all in
  map (fun u => nth u all vzero) (unique_ids tol cullPM all).

(** rotations.py:1295-1337 for the tags of the eleven Laue groups *)
Definition ltypeOfLaueGroup (g : laue) : string :=
  match g with
  | Ci => "triclinic"
  | C2h => "monoclinic"
  | D2h => "orthorhombic"
  | C4h | D4h => "tetragonal"
  | C3i | D3d => "trigonal"
  | C6h | D6h => "hexagonal"
  | Th | Oh => "cubic"
  end.
(** rotations.py:1342-1529 (quatOfLaueGroup) and 1295-1339 (ltypeOfLaueGroup), the tags (in lower case) *)
Definition laue_of_tag (t : string) : option laue :=
  if String.eqb t "ci" || String.eqb t "s2" then Some Ci
  else if String.eqb t "c2h" then Some C2h
  else if String.eqb t "d2h" || String.eqb t "vh" then Some D2h
  else if String.eqb t "c4h" then Some C4h
  else if String.eqb t "d4h" then Some D4h
  else if String.eqb t "c3i" || String.eqb t "s6" then Some C3i
  else if String.eqb t "d3d" then Some D3d
  else if String.eqb t "c6h" then Some C6h
  else if String.eqb t "d6h" then Some D6h
  else if String.eqb t "th" then Some Th
  else if String.eqb t "oh" then Some Oh
  else None.

(** one dictionary of hklDataList, crystallography.py:1230-1242; the plane has tTheta, dSpacings, tThetaLo, tThetaHi *)
Record hkl_data := HklData { hd_id : nat; hd_hkl : ivec; hd_plane : plane; hd_normals : list v3; hd_sym : list ivec; hd_centrosym : bool }.
(** crystallography.py:1226-1228, np.round of the components of a vector, as integers *)
Definition round_vec (v : v3) : ivec := IV (rint (vx v)) (rint (vy v)) (rint (vz v)).
(** crystallography.py:1153-1244, one reflection *)
Definition make_hkl (L : lattice) (qsym : list q4) (strainMag : option R) (wavelength : R) (id : nat) (h : ivec) : hkl_data :=
  let g := mv (l_B L) (rvec h) in
  let nrmls := applySym g qsym true false sqrt_epsf in
  let nrmlsM := applySym g qsym false false sqrt_epsf in
  HklData id h (lattice_plane L wavelength strainMag (rvec h)) (map unitVector nrmls)
    (map (fun v => round_vec (mv (mt (l_F L)) v)) nrmls) (Nat.eqb (length nrmls) (length nrmlsM)).
(** crystallography.py:1153-1244 called as in _calc (794-804): hkls in the order given, lattice parameters with angles in degrees *)
Definition makePlaneData (hkls : list ivec) (lparms : list R) (g : laue) (strainMag : option R) (wavelength : R) : result (list hkl_data) :=
  do L <- latticeVectors lparms (ltypeOfLaueGroup g) false;
  Ok (map (fun p => make_hkl L (quatOfLaueGroup g) strainMag wavelength (fst p) (snd p)) (combine (seq 0 (length hkls)) hkls)).
(** crystallography.py:1450-1470 with allHKLs = True; the order of hklDataList is left out *)
Definition multiplicity (d : hkl_data) : nat := length (hd_sym d).

(** crystallography.py:1516-1540, the lookup for an hkl that is a tuple.  A reflection is (two-theta, master id, symmetric hkls).
    The dictionary holds, for every hkl, the number written last. *)
Definition refl := (option Q * (nat * list ivec))%type.
Definition has_hkl (h : ivec) (l : list ivec) : bool := existsb (iv_eqb h) l.
Fixpoint last_holder (h : ivec) (l : list (list ivec)) (i : nat) (found : option nat) : option nat :=
  match l with
  | [] => found
  | x :: r => last_holder h r (i + 1) (if has_hkl h x then Some i else found)
  end.
Definition getHKLID (s : pd (nat * list ivec)) (h : ivec) (master : bool) : result nat :=
  do hklList <- get_sym s;
  do ex <- exclusions s;
  do ex_inv <- fancy ex (tinv s);
  let ids := map (fun p => fst (snd (snd p))) (filter (fun p => negb (fst p)) (combine ex_inv (data s))) in
  if master && Nat.ltb (length ids) (length hklList) then Err IndexError else
  match last_holder h (map (fun r : refl => snd (snd r)) hklList) 0 None with
  | None => Err RuntimeError
  | Some i => if master then match nth_error ids i with Some k => Ok k | None => Err IndexError end else Ok i
  end.
