(** A Material with its unit cell and plane data: core/material/material.py (constructor and setters) and the parts of PlaneData
    (core/material/crystallography.py) and unitcell (core/material/unitcell.py) they use.  Exact rationals stand for floating point numbers.
    An operation gives the new state and the exception it raised, if any: an operation that raises may have changed part of the state. *)
From Coq Require Import QArith Qabs String.
From Verif Require Import Prelude ProcessModel PlaneModel.
Local Close Scope Q_scope.
Local Notation length := List.length.

Definition hkl := (Z * Z * Z)%type.
Definition hkl_eqb (a b : hkl) : bool :=
  let '(a1, a2, a3) := a in let '(b1, b2, b3) := b in Z.eqb a1 b1 && Z.eqb a2 b2 && Z.eqb a3 b3.

(** ** lattice parameters *)
(** symmetry.py:293-310 *)
Inductive ltype := Triclinic | Monoclinic | Orthorhombic | Tetragonal | Trigonal | Hexagonal | Cubic.
Definition latticeType (sg : Z) : result ltype :=
  if Z.leb sg 2 then Ok Triclinic
  else if Z.leb sg 15 then Ok Monoclinic
  else if Z.leb sg 74 then Ok Orthorhombic
  else if Z.leb sg 142 then Ok Tetragonal
  else if Z.leb sg 167 then Ok Trigonal
  else if Z.leb sg 194 then Ok Hexagonal
  else if Z.leb sg 230 then Ok Cubic
  else Err RuntimeError.
(** unitcell.py:1764-1774: [_rqpDict] *)
Definition required (t : ltype) : list nat :=
  match t with
  | Triclinic => [0; 1; 2; 3; 4; 5] | Monoclinic => [0; 1; 2; 4] | Orthorhombic => [0; 1; 2]
  | Tetragonal => [0; 2] | Trigonal => [0; 2] | Hexagonal => [0; 2] | Cubic => [0]
  end.
Definition fill (t : ltype) (p : list Q) : result (list Q) :=
  let i k := py_index p (Z.of_nat k) in
  match t with
  | Triclinic => Ok p
  | Monoclinic => do a <- i 0; do b <- i 1; do c <- i 2; do be <- i 3; Ok [a; b; c; (90#1)%Q; be; (90#1)%Q]
  | Orthorhombic => do a <- i 0; do b <- i 1; do c <- i 2; Ok [a; b; c; (90#1)%Q; (90#1)%Q; (90#1)%Q]
  | Tetragonal => do a <- i 0; do c <- i 1; Ok [a; a; c; (90#1)%Q; (90#1)%Q; (90#1)%Q]
  | Trigonal | Hexagonal => do a <- i 0; do c <- i 1; Ok [a; a; c; (90#1)%Q; (90#1)%Q; (120#1)%Q]
  | Cubic => do a <- i 0; Ok [a; a; a; (90#1)%Q; (90#1)%Q; (90#1)%Q]
  end.
(** material.py:241-259: [_reset_lparms]; the lengths are in angstroms throughout.  A list shorter than six cannot arise. *)
Definition reset_lparms (sg : Z) (lp : list Q) : result (list Q) :=
  do t <- latticeType sg; do r <- fancy lp (required t); fill t r.

(** ** the objects *)
Inductive eunit := KeV | OtherEnergy | Length | NotWavelength.
(** a beam energy: the number and the unit it was given in *)
Definition energy := (Q * eunit)%type.
(** the unit cell: what it was built from; [c_volt] is the attribute voltage, [c_dmin] in angstroms *)
Record cell := Cell { c_lp : list Q; c_sg : Z; c_type : list Z; c_charge : list string; c_info : list (list Q); c_U : list (list Q);
                      c_dmin : Q; c_volt : Q; c_set : Z }.
(** PlaneData: [p_hkls] is [_hkls]; [p_pd] holds hklDataList, the order and the exclusions; [p_sf] the stored structure factors ([None]:
    invalidated); [p_old] is the unit cell it refers to when that is not the present one of the material *)
Record plane := Plane { p_laue : nat; p_lp : list Q; p_wl : Q; p_hkls : list hkl; p_pd : pd hkl; p_sf : option (list Q); p_old : option cell }.
Record mat := Mat { m_sg : Z; m_lp : list Q; m_dmin : Q; m_energy : energy; m_type : list Z; m_charge : list string; m_info : list (list Q);
                    m_U : list (list Q); m_set : Z; m_file : option (list hkl); m_cell : cell; m_plane : plane }.

(** the parts of the program that are not modelled *)
Record world := World {
  (** whether building a unit cell fails otherwise than by the space group number *)
  w_build : cell -> option exn;
  (** unitcell.getHKLs: lattice parameters, space group, setting, the cell's own dmin and the argument *)
  w_refl : list Q -> Z -> Z -> Q -> Q -> list hkl;
  (** unitcell._laueGroup *)
  w_laue : Z -> nat;
  (** two-theta of a reflection: Laue group, reduced lattice parameters, wavelength; [None] is NaN *)
  w_tth : nat -> list Q -> Q -> hkl -> option Q;
  (** whether computing the plane data fails *)
  w_calc : nat -> list Q -> option exn;
  (** numpy.argsort *)
  w_order : list (option Q) -> list nat;
  (** processWavelength (crystallography.py:160-181), [None] for a quantity that is neither a length nor an energy *)
  w_wavelength : energy -> Q;
  (** whether the charges are refused for the atom types (material.py:1325-1347) *)
  w_charge : list Z -> list string -> option exn;
  (** structure factors, or intensities, of the listed reflections: crystallography.py:1096-1135, unitcell.CalcXRSF *)
  w_sf : cell -> list (option Q * hkl) -> list Q
}.

(** numpy.isclose(a, b) with the default tolerances *)
Definition isclose (a b : Q) : bool := Qle_bool (Qabs (a - b)%Q) ((1 # 100000000) + (1 # 100000) * Qabs b)%Q.
Definition wavelength_of (W : world) (e : energy) : result Q :=
  match snd e with NotWavelength => Err RuntimeError | _ => Ok (w_wavelength W e) end.

Section Mat.
Variable W : world.

(** PlaneData._calc (crystallography.py:794-821) for the plane data [p]: new order, exclusions kept in master order.  When it fails,
    the attributes assigned before stay. *)
Definition plane_calc (p : plane) : plane * option exn :=
  match w_calc W (p_laue p) (p_lp p) with
  | Some e => (p, Some e)
  | None =>
      let raw := map (fun h => (w_tth W (p_laue p) (p_lp p) (p_wl p) h, h)) (p_hkls p) in
      match calc raw (w_order W (map fst raw)) (stored (p_pd p)) (tmax (p_pd p)) with
      | Ok d => (Plane (p_laue p) (p_lp p) (p_wl p) (p_hkls p) d (p_sf p) (p_old p), None)
      | Err e => (p, Some e)
      end
  end.
Definition with_plane (m : mat) (p : plane) : mat :=
  Mat (m_sg m) (m_lp m) (m_dmin m) (m_energy m) (m_type m) (m_charge m) (m_info m) (m_U m) (m_set m) (m_file m) (m_cell m) p.
Definition with_cell (m : mat) (c : cell) : mat :=
  Mat (m_sg m) (m_lp m) (m_dmin m) (m_energy m) (m_type m) (m_charge m) (m_info m) (m_U m) (m_set m) (m_file m) c (m_plane m).
Definition with_lp (m : mat) (l : list Q) : mat :=
  Mat (m_sg m) l (m_dmin m) (m_energy m) (m_type m) (m_charge m) (m_info m) (m_U m) (m_set m) (m_file m) (m_cell m) (m_plane m).
Definition on_plane (m : mat) (r : plane * option exn) : mat * option exn := (with_plane m (fst r), snd r).
(** statements in sequence: the first exception ends them *)
Definition andthen (r : mat * option exn) (f : mat -> mat * option exn) : mat * option exn :=
  match snd r with Some e => r | None => f (fst r) end.

(** unitcell.py:69-108 *)
Definition new_cell (m : mat) : result cell :=
  let c := Cell (m_lp m) (m_sg m) (m_type m) (m_charge m) (m_info m) (m_U m) (m_dmin m) (fst (m_energy m) * (1000#1))%Q (m_set m) in
  if Z.leb 1 (m_sg m) && Z.leb (m_sg m) 230 then match w_build W c with Some e => Err e | None => Ok c end else Err ValueError.
(** material.py:1297-1300: [reduced_lattice_parameters], with the lattice type of the unit cell *)
Definition reduced (c : cell) (lp : list Q) : result (list Q) := do t <- latticeType (c_sg c); fancy lp (required t).
(** material.py:261-292 up to the plane data.  The stiffness is not modelled. *)
Definition newUnitcell0 (m : mat) : mat * option exn :=
  match reset_lparms (m_sg m) (m_lp m) with
  | Err e => (m, Some e)
  | Ok lp =>
      let m1 := with_lp m lp in
      match new_cell m1 with
      | Err e => (m1, Some e)
      | Ok c =>
          let p := m_plane m1 in
          let old := match p_old p with Some o => Some o | None => Some (m_cell m1) end in
          (with_plane (with_cell m1 c) (Plane (p_laue p) (p_lp p) (p_wl p) (p_hkls p) (p_pd p) (p_sf p) old), None)
      end
  end.
(** material.py:287-292 and crystallography.py:1267-1287: the lists compared are never equal (numbers against quantities with a unit) *)
Definition set_laue_and_lparms (m : mat) : mat * option exn :=
  match reduced (m_cell m) (m_lp m) with
  | Err e => (m, Some e)
  | Ok r =>
      let p := m_plane m in
      on_plane m (plane_calc (Plane (w_laue W (c_sg (m_cell m))) r (p_wl p) (p_hkls p) (p_pd p) (p_sf p) (p_old p)))
  end.
Definition newUnitcell (m : mat) : mat * option exn := andthen (newUnitcell0 m) set_laue_and_lparms.

(** material.py:1540-1549: [hkls_match], the two lists agree up to order *)
Fixpoint count (h : hkl) (l : list hkl) : nat := match l with [] => 0 | x :: t => (if hkl_eqb h x then 1 else 0) + count h t end.
Definition hkls_match (a b : list hkl) : bool :=
  Nat.eqb (length a) (length b) && forallb (fun h => Nat.eqb (count h a) (count h b)) (a ++ b).
(** position of the first occurrence *)
Fixpoint index_of (h : hkl) (l : list hkl) : option nat :=
  match l with [] => None | x :: t => if hkl_eqb h x then Some 0 else match index_of h t with Some n => Some (S n) | None => None end end.
(** material.py:1552-1563 and 320-327: the mask for the new reflections [new] (from position [i], [all] being the whole list) from the
    mask of the old ones.  [numpy.intersect1d] gives the first positions of the common ones. *)
Fixpoint carry (all new : list hkl) (i : nat) (old : list hkl) (ex : list bool) : list bool :=
  match new with
  | [] => []
  | h :: t =>
      (match index_of h all, index_of h old with
       | Some j, Some k => if Nat.eqb j i then nth k ex true else true
       | _, _ => true
       end) :: carry all t (S i) old ex
  end.
Definition hkls_of (d : pd hkl) : list hkl := map snd (data d).
Definition assign_mask (p : plane) (l : list bool) : plane * option exn :=
  match set_exclusions (p_pd p) (EMask l) with
  | Ok d => (Plane (p_laue p) (p_lp p) (p_wl p) (p_hkls p) d (p_sf p) (p_old p), None)
  | Err e => (p, Some e)
  end.
(** material.py:348-372 *)
Definition default_mask (file : option (list hkl)) (l : list hkl) : list bool :=
  match file with
  | Some f => map (fun h => negb (existsb (hkl_eqb h) f)) l
  | None => map (fun i => Nat.leb 5 i) (seq 0 (length l))
  end.
(** material.py:297-343 when there is plane data; crystallography.py:753-762: the new plane data takes over the attributes of the old.  Its
    structure factors, all ones at first, are left out: callers invalidate them at once unless an exception ends the assignment. *)
Definition newPdata (m : mat) : mat * option exn :=
  let c := m_cell m in
  let hkls := w_refl W (c_lp c) (c_sg c) (c_set c) (c_dmin c) (m_dmin m) in
  let p := m_plane m in
  if hkls_match hkls (hkls_of (p_pd p)) then (m, None)
  else
    let empty := Pd [] [] [] None (tmax (p_pd p)) 0 in
    match plane_calc (Plane (p_laue p) (p_lp p) (p_wl p) hkls empty None None) with
    | (_, Some e) => (m, Some e)
    | (q, None) =>
        match exclusions (p_pd p) with
        | Err e => (with_plane m q, Some e)
        | Ok ex =>
            let mask := carry (hkls_of (p_pd q)) (hkls_of (p_pd q)) 0 (hkls_of (p_pd p)) ex in
            on_plane m (assign_mask q (if forallb (fun b => b) mask then default_mask (m_file m) (hkls_of (p_pd q)) else mask))
        end
    end.
(** material.py:411-412, crystallography.py:1078-1094 *)
Definition invalidate (m : mat) : mat * option exn :=
  let p := m_plane m in (with_plane m (Plane (p_laue p) (p_lp p) (p_wl p) (p_hkls p) (p_pd p) None None), None).
(** material.py:294-297 *)
Definition hkls_changed (m : mat) : mat * option exn := andthen (newPdata m) invalidate.

(** material.py:1208-1221 *)
Definition set_sgnum (m : mat) (v : Z) : mat * option exn :=
  andthen (newUnitcell (Mat v (m_lp m) (m_dmin m) (m_energy m) (m_type m) (m_charge m) (m_info m) (m_U m) (m_set m) (m_file m) (m_cell m) (m_plane m))) hkls_changed.
(** material.py:1284-1295; [v] has the numbers in angstroms and degrees.  Indexing past the end fails. *)
Definition set_latticeParameters (m : mat) (v : list Q) : mat * option exn :=
  let full := if Nat.eqb (length v) 6 then Ok v else do t <- latticeType (c_sg (m_cell m)); fill t v in
  match (do f <- full; fancy f [0; 1; 2; 3; 4; 5]) with
  | Err e => (m, Some e)
  | Ok l => andthen (newUnitcell (with_lp m l)) hkls_changed
  end.
(** material.py:1306-1318; unitcell.py:1551-1556 *)
Definition set_dmin (m : mat) (v : Q) : mat * option exn :=
  if Qeq_bool (m_dmin m) v then (m, None)
  else
    let c := m_cell m in
    hkls_changed (Mat (m_sg m) (m_lp m) v (m_energy m) (m_type m) (m_charge m) (m_info m) (m_U m) (m_set m) (m_file m)
      (Cell (c_lp c) (c_sg c) (c_type c) (c_charge c) (c_info c) (c_U c) v (c_volt c) (c_set c)) (m_plane m)).
(** crystallography.py:1067-1076 *)
Definition set_wavelength (p : plane) (e : energy) : plane * option exn :=
  match wavelength_of W e with
  | Err x => (p, Some x)
  | Ok w => if isclose (p_wl p) w then (p, None)
            else plane_calc (Plane (p_laue p) (p_lp p) w (p_hkls p) (p_pd p) (p_sf p) (p_old p))
  end.
(** material.py:1243-1264 *)
Definition set_beamEnergy (m : mat) (e : energy) : mat * option exn :=
  let c := m_cell m in
  let m1 := Mat (m_sg m) (m_lp m) (m_dmin m) e (m_type m) (m_charge m) (m_info m) (m_U m) (m_set m) (m_file m)
              (Cell (c_lp c) (c_sg c) (c_type c) (c_charge c) (c_info c) (c_U c) (c_dmin c) (fst e * (1000#1))%Q (c_set c)) (m_plane m) in
  andthen (on_plane m1 (set_wavelength (m_plane m1) e)) hkls_changed.
(** material.py:1226-1232 *)
Definition set_sgsetting (m : mat) (v : Z) : mat * option exn :=
  if Z.eqb v 0 || Z.eqb v 1 then
    (Mat (m_sg m) (m_lp m) (m_dmin m) (m_energy m) (m_type m) (m_charge m) (m_info m) (m_U m) v (m_file m) (m_cell m) (m_plane m), None)
  else (m, Some ValueError).
(** material.py:1201-1204 *)
Definition set_U (m : mat) (v : list (list Q)) : mat * option exn :=
  (Mat (m_sg m) (m_lp m) (m_dmin m) (m_energy m) (m_type m) (m_charge m) (m_info m) v (m_set m) (m_file m) (m_cell m) (m_plane m), None).
(** material.py:1325-1350 *)
Definition set_charge (m : mat) (v : list string) : mat * option exn :=
  if negb (Nat.eqb (length v) (length (m_type m))) then (m, Some ValueError)
  else match w_charge W (m_type m) v with
       | Some e => (m, Some e)
       | None => (Mat (m_sg m) (m_lp m) (m_dmin m) (m_energy m) (m_type m) v (m_info m) (m_U m) (m_set m) (m_file m) (m_cell m) (m_plane m), None)
       end.
(** material.py:1365-1372, for a list of rows *)
Definition set_atominfo (m : mat) (v : list (list Q)) : mat * option exn :=
  if forallb (fun r => Nat.eqb (length r) 4) v then
    (Mat (m_sg m) (m_lp m) (m_dmin m) (m_energy m) (m_type m) (m_charge m) v (m_U m) (m_set m) (m_file m) (m_cell m) (m_plane m), None)
  else (m, Some ValueError).
(** material.py:1386-1388 *)
Definition set_atomtype (m : mat) (v : list Z) : mat * option exn :=
  (Mat (m_sg m) (m_lp m) (m_dmin m) (m_energy m) v (m_charge m) (m_info m) (m_U m) (m_set m) (m_file m) (m_cell m) (m_plane m), None).
(** material.py:1412-1473 *)
Definition set_atomdata (m : mat) (ty : list Z) (info U : list (list Q)) (ch : list string) : mat * option exn :=
  if negb (Nat.eqb (length ty) (length info)) then (m, Some ValueError)
  else if negb (Nat.eqb (length ty) (length U)) then (m, Some ValueError)
  else if negb (Nat.eqb (length ch) (length ty)) then (m, Some ValueError)
  else andthen (andthen (andthen (andthen (andthen (set_atomtype m ty) (fun m => set_atominfo m info)) (fun m => set_U m U))
         (fun m => set_charge m ch)) newUnitcell) invalidate.
(** assignments to the plane data *)
Definition set_plane_exclusions (m : mat) (v : excl_arg) : mat * option exn :=
  let p := m_plane m in
  match set_exclusions (p_pd p) v with
  | Ok d => (with_plane m (Plane (p_laue p) (p_lp p) (p_wl p) (p_hkls p) d (p_sf p) (p_old p)), None)
  | Err e => (m, Some e)
  end.
Definition set_plane_tThMax (m : mat) (v : option Q) : mat * option exn :=
  let p := m_plane m in (with_plane m (Plane (p_laue p) (p_lp p) (p_wl p) (p_hkls p) (set_tmax (p_pd p) v) (p_sf p) (p_old p)), None).
(** crystallography.py:1042-1044 *)
Definition set_plane_lparms (m : mat) (v : list Q) : mat * option exn :=
  let p := m_plane m in on_plane m (plane_calc (Plane (p_laue p) v (p_wl p) (p_hkls p) (p_pd p) (p_sf p) (p_old p))).
Definition set_plane_wavelength (m : mat) (e : energy) : mat * option exn := on_plane m (set_wavelength (m_plane m) e).
(** crystallography.py:1096-1121: [structFact] computes the values of all reflections in the present order when they were invalidated,
    and gives those not excluded *)
Definition keep_mask {B} (ex : list bool) (l : list B) : list B := map snd (filter (fun p => negb (fst p)) (combine ex l)).
Definition read_sf (m : mat) : mat * result (list Q) :=
  let p := m_plane m in
  let '(p', v) := match p_sf p with
                  | Some v => (p, v)
                  | None => let v := w_sf W (match p_old p with Some c => c | None => m_cell m end) (data (p_pd p)) in
                            (Plane (p_laue p) (p_lp p) (p_wl p) (p_hkls p) (p_pd p) (Some v) (p_old p), v)
                  end in
  (with_plane m p', do ex <- exclusions (p_pd p'); if Nat.eqb (length ex) (length v) then Ok (keep_mask ex v) else Err IndexError).

(** material.py:148-232: a new material from the attributes its constructor collected *)
Definition new_material (sg : Z) (lp : list Q) (dmin : Q) (e : energy) (ty : list Z) (ch : list string) (info U : list (list Q)) (st : Z)
    (file : option (list hkl)) : result mat :=
  do lp' <- reset_lparms sg lp;
  let no_cell := Cell [] 0 [] [] [] [] 0%Q 0%Q 0 in
  let no_plane := Plane 0 [] 0%Q [] (Pd [] [] [] None None 0) None None in
  let m := Mat sg lp' dmin e ty ch info U st file no_cell no_plane in
  do c <- new_cell m;
  do r <- reduced c lp';
  do w <- wavelength_of W e;
  let hkls := w_refl W (c_lp c) (c_sg c) (c_set c) (c_dmin c) dmin in
  match plane_calc (Plane (w_laue W (c_sg c)) r w hkls (Pd [] [] [] None None 0) None None) with
  | (_, Some x) => Err x
  | (q, None) =>
      match assign_mask q (default_mask file (hkls_of (p_pd q))) with
      | (_, Some x) => Err x
      | (q', None) => Ok (with_plane (with_cell m c) q')
      end
  end.
End Mat.

Inductive op :=
| SetSgnum (v : Z) | SetLattice (v : list Q) | SetDmin (v : Q) | SetEnergy (e : energy) | SetAtomdata (ty : list Z) (info U : list (list Q)) (ch : list string)
| SetSetting (v : Z) | SetU (v : list (list Q)) | SetCharge (v : list string) | SetInfo (v : list (list Q)) | SetType (v : list Z)
| Exclude (v : excl_arg) | SetTmax (v : option Q) | ReadSF | PlaneLattice (v : list Q) | PlaneWavelength (e : energy).
Definition step (W : world) (m : mat) (o : op) : mat * option exn :=
  match o with
  | SetSgnum v => set_sgnum W m v | SetLattice v => set_latticeParameters W m v | SetDmin v => set_dmin W m v | SetEnergy e => set_beamEnergy W m e
  | SetAtomdata ty info U ch => set_atomdata W m ty info U ch
  | SetSetting v => set_sgsetting m v | SetU v => set_U m v | SetCharge v => set_charge W m v | SetInfo v => set_atominfo m v | SetType v => set_atomtype m v
  | Exclude v => set_plane_exclusions m v | SetTmax v => set_plane_tThMax m v
  | ReadSF => let r := read_sf W m in (fst r, match snd r with Ok _ => None | Err e => Some e end)
  | PlaneLattice v => set_plane_lparms W m v | PlaneWavelength e => set_plane_wavelength W m e
  end.
