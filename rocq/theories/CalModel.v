(** Model of how an instrument, a material and a grain are turned into named parameters and updated from them:
    core/fitting/calibration/lmfit_param_handling.py, abstract_grain.py, powder.py and instrument.py.
    Line numbers without a file are those of lmfit_param_handling.py.  Real numbers stand for floats.
    Left out: lmfit's check that names are identifiers and its clipping of a value to its bounds, the check of the order of
    Euler axes, what is left half updated when an exception is raised. *)
From Coq Require Import Reals String List Bool ZArith.
From Verif Require Import Prelude Lin TensorModel XfModel RotModel RigModel NamesModel BvModel.
Import ListNotations.
Local Open Scope R_scope.
Local Open Scope string_scope.
Local Open Scope list_scope.
Local Notation length := List.length.

(** (NAME, VALUE, VARY, MIN, MAX); no bound stands for an infinite one *)
Record prm := Prm { v_val : R; v_vary : bool; v_min : option R; v_max : option R }.
Definition params := list (string * prm).
Definition around (v : R) (vary : bool) (d : R) : prm := Prm v vary (Some (v - d)) (Some (v + d)).
Definition unbounded (v : R) : prm := Prm v false None None.
(** lmfit.Parameters.add_many: item assignments into a dictionary *)
Fixpoint pset (d : params) (k : string) (p : prm) : params :=
  match d with
  | [] => [(k, p)]
  | (k', q) :: r => if String.eqb k k' then (k', p) :: r else (k', q) :: pset r k p
  end.
Definition add_many (l : params) : params := fold_left (fun d kp => pset d (fst kp) (snd kp)) l [].
Definition getp (ps : params) (n : string) : result prm := match dict_get ps n with Some p => Ok p | None => Err KeyError end.
(** params[name].value *)
Definition getv (ps : params) (n : string) : result R := do p <- getp ps n; Ok (v_val p).
Definition get3 (ps : params) (ns : string * string * string) : result v3 :=
  let '(a, b, c) := ns in do x <- getv ps a; do y <- getv ps b; do z <- getv ps c; Ok (V3 x y z).

(** ** conventions for angles: None, a pair (order, extrinsic) or a dictionary with both, 36-38 and 738-746 *)
Inductive econv := ENone | EPair (order : string) (extrinsic : bool) | EDict (order : string) (extrinsic : bool).
(** 36 *)
Definition default_euler_convention : econv := EPair "zxz" false.
Definition normalize_euler_convention (c : econv) : option (string * bool) :=
  match c with ENone => None | EPair o e => Some (o, e) | EDict o e => Some (o, e) end.
(** 731-735 and 750-752 *)
Definition euler_suffixes (n : option (string * bool)) : result (string * string * string) :=
  match n with
  | None => Ok ("expmap_x", "expmap_y", "expmap_z")
  | Some (o, e) =>
      if andb (String.eqb o "xyz") e then Ok ("euler_x", "euler_y", "euler_z")
      else if andb (String.eqb o "zxz") (negb e) then Ok ("euler_z", "euler_xp", "euler_zpp")
      else Err KeyError
  end.
Definition param_names_euler_convention (base : string) (c : econv) : result (string * string * string) :=
  do s <- euler_suffixes (normalize_euler_convention c);
  let '(a, b, d) := s in Ok (base +++ "_" +++ a, base +++ "_" +++ b, base +++ "_" +++ d).

(** ** instruments *)
(** a beam: energy, direction and, if it has one, its energy correction (intercept, slope) *)
Record beam := Beam { b_energy : R; b_vec : v3; b_corr : option (R * R) }.
(** a panel: group, tilt and position ([panel] of RigModel), radius if it is cylindrical, the parameters of its distortion if it
    has one, and the beam direction kept on it *)
Record det := Det { d_panel : panel; d_radius : option R; d_dist : option (list R); d_bvec : v3 }.
Record instr := Instr { i_beams : list (string * beam); i_active : string; i_chi : R; i_tvec : v3; i_dets : list (string * det) }.

(** 249-260 *)
Definition beam_prefix (beams : list (string * beam)) (k : string) : string := if Nat.ltb 1 (length beams) then k +++ "_" else "".
(** 50-73 *)
Definition beam_params (beams : list (string * beam)) (kb : string * beam) : params :=
  let '(k, b) := kb in
  let pre := beam_prefix beams k in
  let '(azim, pol) := calc_angles_from_beam_vec (b_vec b) in
  [(pre +++ "beam_polar", around pol false 1); (pre +++ "beam_azimuth", around azim false 1);
   (pre +++ "beam_energy", around (b_energy b) false (2 / 10))] ++
  match b_corr b with
  | None => []
  | Some (intercept, slope) =>
      [(pre +++ "beam_energy_correction_intercept", unbounded intercept); (pre +++ "beam_energy_correction_slope", unbounded slope)]
  end.
(** 75-86 *)
Definition frame_params (i : instr) : params :=
  [("instr_chi", around (degrees (i_chi i)) false 1); ("instr_tvec_x", unbounded (vx (i_tvec i)));
   ("instr_tvec_y", unbounded (vy (i_tvec i))); ("instr_tvec_z", unbounded (vz (i_tvec i)))].
Definition radians3 (v : v3) : v3 := V3 (radians (vx v)) (radians (vy v)) (radians (vz v)).
Definition degrees3 (v : v3) : v3 := V3 (degrees (vx v)) (degrees (vy v)) (degrees (vz v)).

(** the names of a translation, 353-357 and 406-410 *)
Definition tvec_names (base : string) : string * string * string := (base +++ "_tvec_x", base +++ "_tvec_y", base +++ "_tvec_z").
Definition named3 (ns : string * string * string) (v : v3) (vary : bool) (dx dy dz : R) : params :=
  let '(a, b, c) := ns in [(a, around (vx v) vary dx); (b, around (vy v) vary dy); (c, around (vz v) vary dz)].

Section External.
(** scipy (external): Rotation.from_matrix, .as_rotvec of a quaternion and of a matrix, .from_euler(...).as_matrix() and
    .from_matrix(...).as_euler(...) for an order of axes and a convention, in radians *)
Variable sp_from_matrix : m3 -> q4.
Variable sp_as_rotvec : q4 -> v3.
Variable rotvec : m3 -> v3.
Variable from_euler : string * bool -> v3 -> m3.
Variable as_euler : string * bool -> m3 -> v3.

(** 755-769 *)
Definition detector_angles_euler (p : panel) (c : econv) : v3 :=
  match normalize_euler_convention c with None => p_tilt p | Some n => degrees3 (as_euler n (p_rmat p)) end.
(** core/rotations.py:509-538 for one quaternion *)
Definition expMapOfQuat (q : q4) : result v3 := do r <- quat_to_scipy q; Ok (sp_as_rotvec r).
(** 772-793 *)
Definition tilt_from_angles (c : econv) (angles : v3) : result v3 :=
  match normalize_euler_convention c with
  | None => Ok angles
  | Some n => expMapOfQuat (quatOfRotMat sp_from_matrix (from_euler n (radians3 angles)))
  end.
(** 503-519 *)
Definition tilt_to_rmat (c : econv) (tilt : v3) : m3 :=
  match normalize_euler_convention c with None => rotMatOfExpMap tilt | Some n => from_euler n (radians3 tilt) end.

(** 115-167: the parameters of one panel *)
Definition det_params (c : econv) (nd : string * det) : result params :=
  let '(name, d) := nd in
  let base := dash_to_us name in
  do ns <- param_names_euler_convention base c;
  Ok (named3 ns (detector_angles_euler (d_panel d) c) false 2 2 2 ++
      named3 (tvec_names base) (p_tvec (d_panel d)) true 1 (1 / 2) 1 ++
      match d_dist d with None => [] | Some vals => map (fun nv => (fst nv, unbounded (snd nv))) (distortion_params name vals) end ++
      match d_radius d with None => [] | Some r => [(base +++ "_radius", unbounded r)] end).
Fixpoint all_det_params (c : econv) (l : list (string * det)) : result params :=
  match l with [] => Ok [] | nd :: r => do p <- det_params c nd; do q <- all_det_params c r; Ok (p ++ q) end.
(** 170-213 *)
Definition constrained_params (c : econv) (prefix : string) (cp : cparams) : result params :=
  let tilt := match normalize_euler_convention c with None => c_tilt cp | Some n => degrees3 (as_euler n (rotMatOfExpMap (c_tilt cp))) end in
  do ns <- param_names_euler_convention prefix c;
  Ok (named3 (tvec_names prefix) (c_trans cp) true 1 1 1 ++ named3 ns tilt true 2 2 2).
(** relative_constraints.py:60-168: no constraint, one set of parameters for every group, one for the system *)
Inductive constraints := CNone | CGroup (rc : rotcenter) (cps : string -> cparams) | CSystem (rc : rotcenter) (cp : cparams).
Definition panels_of (i : instr) : list panel := map (fun nd => d_panel (snd nd)) (i_dets i).
Fixpoint all_group_params (c : econv) (cps : string -> cparams) (l : list string) : result params :=
  match l with [] => Ok [] | g :: r => do p <- constrained_params c (dash_to_us g) (cps g); do q <- all_group_params c cps r; Ok (p ++ q) end.
(** 41-112 *)
Definition create_instr_params (c : econv) (rel : constraints) (i : instr) : result params :=
  do dp <- match rel with
           | CNone => all_det_params c (i_dets i)
           | CGroup _ cps => all_group_params c cps (detector_groups (panels_of i))
           | CSystem _ cp => constrained_params c "system" cp
           end;
  Ok (flat_map (beam_params (i_beams i)) (i_beams i) ++ frame_params i ++ dp).

(** 311-326 *)
Definition update_beam (ps : params) (beams : list (string * beam)) (kb : string * beam) : result (string * beam) :=
  let '(k, b) := kb in
  let pre := beam_prefix beams k in
  do energy <- getv ps (pre +++ "beam_energy");
  do azim <- getv ps (pre +++ "beam_azimuth");
  do pola <- getv ps (pre +++ "beam_polar");
  do corr <- match b_corr b with
             | None => Ok None
             | Some _ => do slope <- getv ps (pre +++ "beam_energy_correction_slope");
                         do intercept <- getv ps (pre +++ "beam_energy_correction_intercept"); Ok (Some (intercept, slope))
             end;
  Ok (k, Beam energy (calc_beam_vec azim pola) corr).
Fixpoint map_r {A B : Type} (f : A -> result B) (l : list A) : result (list B) :=
  match l with [] => Ok [] | x :: r => do y <- f x; do t <- map_r f r; Ok (y :: t) end.
(** hedm_instrument.py:860-878 *)
Definition update_panel_beams (i : instr) : result instr :=
  match dict_get (i_beams i) (i_active i) with
  | None => Err KeyError
  | Some b => Ok (Instr (i_beams i) (i_active i) (i_chi i) (i_tvec i)
                        (map (fun nd => (fst nd, Det (d_panel (snd nd)) (d_radius (snd nd)) (d_dist (snd nd)) (b_vec b))) (i_dets i)))
  end.
(** 369-398: one panel *)
Definition update_det (c : econv) (ps : params) (nd : string * det) : result (string * det) :=
  let '(name, d) := nd in
  let base := dash_to_us name in
  do ns <- param_names_euler_convention base c;
  do angles <- get3 ps ns;
  do tilt <- tilt_from_angles c angles;
  do tvec <- get3 ps (tvec_names base);
  do radius <- match d_radius d with None => Ok None | Some _ => do r <- getv ps (base +++ "_radius"); Ok (Some r) end;
  do dist <- update_distortion name (map (fun np => (fst np, v_val (snd np))) ps) (option_map (fun l => length l) (d_dist d));
  Ok (name, Det (Panel (p_group (d_panel d)) tilt tvec) radius (match dist with Some vals => Some vals | None => d_dist d end) (d_bvec d)).
(** 406-423, 439: the six parameters of a prefix *)
Definition group_values (c : econv) (ps : params) (prefix : string) : result gparams :=
  do ns <- param_names_euler_convention prefix c;
  let '(a, b, d) := ns in let '(x, y, z) := tvec_names prefix in
  do tilt <- get3 ps ns; do tvec <- get3 ps (x, y, z);
  do pa <- getp ps a; do pb <- getp ps b; do pd <- getp ps d;
  do px <- getp ps x; do py <- getp ps y; do pz <- getp ps z;
  Ok (GP tilt tvec (orb (v_vary pa) (orb (v_vary pb) (v_vary pd))) (orb (v_vary px) (orb (v_vary py) (v_vary pz)))).
Definition with_panels (l : list (string * det)) (ps : list panel) : list (string * det) :=
  map (fun x => (fst (fst x), Det (snd x) (d_radius (snd (fst x))) (d_dist (snd (fst x))) (d_bvec (snd (fst x))))) (combine l ps).
(** 289-366: the instrument and the constraint's own parameters *)
Definition update_instrument_from_params (c : econv) (rel : constraints) (ps : params) (i : instr) : result (instr * constraints) :=
  do beams <- map_r (update_beam ps (i_beams i)) (i_beams i);
  do i1 <- update_panel_beams (Instr beams (i_active i) (i_chi i) (i_tvec i) (i_dets i));
  do chi <- getv ps "instr_chi";
  do tvec <- get3 ps ("instr_tvec_x", "instr_tvec_y", "instr_tvec_z");
  match rel with
  | CNone => do dets <- map_r (update_det c ps) (i_dets i1);
             Ok (Instr beams (i_active i) (radians chi) tvec dets, CNone)
  | CGroup rc cps =>
      do qs <- map_r (fun g => do q <- group_values c ps (dash_to_us g); Ok (g, q)) (detector_groups (panels_of i));
      let get g := match dict_get qs g with Some q => q | None => GP vzero vzero false false end in
      let '(panels, cps') := update_groups rotvec (tilt_to_rmat c) rc get (panels_of i, cps) in
      Ok (Instr beams (i_active i) (radians chi) tvec (with_panels (i_dets i1) panels), CGroup rc cps')
  | CSystem rc cp =>
      do ctr <- system_center rc (panels_of i);
      do q <- group_values c ps "system";
      do r <- update_system rotvec (tilt_to_rmat c) rc q (panels_of i, cp);
      Ok (Instr beams (i_active i) (radians chi) tvec (with_panels (i_dets i1) (fst r)), CSystem rc (snd r))
  end.
(** 263-286 *)
Definition set_vary (b : bool) (p : prm) : prm := Prm (v_val p) b (v_min p) (v_max p).
Fixpoint pmod (d : params) (k : string) (f : prm -> prm) : result params :=
  match d with [] => Err KeyError | (k', q) :: r => if String.eqb k k' then Ok ((k', f q) :: r) else do t <- pmod r k f; Ok ((k', q) :: t) end.
Fixpoint pmods (d : params) (ks : list string) (f : prm -> prm) : result params :=
  match ks with [] => Ok d | k :: r => do d' <- pmod d k f; pmods d' r f end.
Definition fix_detector_y (rel : constraints) (i : instr) (ps : params) : result params :=
  let prefixes := match rel with CNone => map fst (i_dets i) | CGroup _ _ => detector_groups (panels_of i) | CSystem _ _ => ["system"] end in
  pmods ps (map (fun x => dash_to_us x +++ "_tvec_y") prefixes) (set_vary false).
End External.

(** ** materials *)
Inductive ltype := Triclinic | Monoclinic | Orthorhombic | Tetragonal | Trigonal | Hexagonal | Cubic.
(** unitcell.py:1764-1773: the free parameters of a lattice type, and all six from them *)
Definition free_idx (t : ltype) : list nat :=
  match t with
  | Triclinic => [0; 1; 2; 3; 4; 5] | Monoclinic => [0; 1; 2; 4] | Orthorhombic => [0; 1; 2]
  | Tetragonal => [0; 2] | Trigonal => [0; 2] | Hexagonal => [0; 2] | Cubic => [0]
  end%nat.
Definition complete (t : ltype) (p : list R) : list R :=
  let g k := nth k p 0 in
  match t with
  | Triclinic => p
  | Monoclinic => [g 0%nat; g 1%nat; g 2%nat; 90; g 3%nat; 90]
  | Orthorhombic => [g 0%nat; g 1%nat; g 2%nat; 90; 90; 90]
  | Tetragonal => [g 0%nat; g 0%nat; g 1%nat; 90; 90; 90]
  | Trigonal => [g 0%nat; g 0%nat; g 1%nat; 90; 90; 120]
  | Hexagonal => [g 0%nat; g 0%nat; g 1%nat; 90; 90; 120]
  | Cubic => [g 0%nat; g 0%nat; g 0%nat; 90; 90; 90]
  end.
(** material: name, lattice type, the six parameters in nanometres and degrees (material.py:1156-1163), and the beam energy its plane
    data was last given *)
Record mat := Mat { m_name : string; m_type : ltype; m_lparms : list R; m_energy : R }.
(** unitcell.py:1775 *)
Definition lpname : list string := ["a"; "b"; "c"; "alpha"; "beta"; "gamma"].
(** unitcell.py:1381-1393 *)
Definition is_editable (t : ltype) (i : nat) : bool := existsb (Nat.eqb i) (free_idx t).
Definition lp_name (m : mat) (i : nat) : string := dash_to_us (m_name m) +++ "_" +++ nth i lpname "".
(** 563-602, the loop; [refs] are the refinements still unread, None if none were given *)
Fixpoint material_loop (m : mat) (refs : option (list bool)) (is : list nat) : result params :=
  match is with
  | [] => Ok []
  | i :: r =>
      if is_editable (m_type m) i then
        let len := Nat.ltb i 3 in
        let val := nth i (m_lparms m) 0 * (if len then 10 else 1) in
        let d := if len then 1 / 10 else 1 / 2 in
        match refs with
        | None => do t <- material_loop m None r; Ok ((lp_name m i, around val true d) :: t)
        | Some [] => Err IndexError
        | Some (b :: refs') => do t <- material_loop m (Some refs') r; Ok ((lp_name m i, around val b d) :: t)
        end
      else material_loop m refs r
  end.
Definition create_material_params (m : mat) (refinements : option (list bool)) : result params := material_loop m refinements (seq 0 6).
(** material.py:1165-1175, 1288-1298 and 241-259: lengths to angstroms, then only the free parameters are kept and completed *)
Definition set_lparms (m : mat) (v : list R) : mat :=
  let ang := map (fun i => nth i v 0 * (if Nat.ltb i 3 then 10 else 1)) (seq 0 6) in
  let all := complete (m_type m) (map (fun i => nth i ang 0) (free_idx (m_type m))) in
  Mat (m_name m) (m_type m) (map (fun i => nth i all 0 * (if Nat.ltb i 3 then 1 / 10 else 1)) (seq 0 6)) (m_energy m).
(** 605-627; the wavelength setter is given an energy *)
Definition update_material_from_params (ps : params) (m : mat) : mat :=
  let new := map (fun i => match dict_get ps (lp_name m i) with
                           | Some p => v_val p * (if Nat.ltb i 3 then 1 / 10 else 1)
                           | None => nth i (m_lparms m) 0
                           end) (seq 0 6) in
  let m' := set_lparms m new in
  match dict_get ps "beam_energy" with Some p => Mat (m_name m') (m_type m') (m_lparms m') (v_val p) | None => m' end.

(** ** grains *)
(** 630-631 *)
Definition grain_param_names (base : string) : list string := map (fun i => base +++ "_grain_param_" +++ dec i) (seq 0 12).
(** 634-652: twelve values and refinements, IndexError for fewer *)
Fixpoint grain_loop (names : list string) (vals : list R) (refs : list bool) : result params :=
  match names with
  | [] => Ok []
  | n :: r => match vals, refs with
              | v :: vs, b :: bs => do t <- grain_loop r vs bs; Ok ((n, around v b 2) :: t)
              | _, _ => Err IndexError
              end
  end.
Definition create_grain_params (base : string) (grain : list R) (refinements : option (list bool)) : result params :=
  grain_loop (grain_param_names (dash_to_us base)) grain (match refinements with Some l => l | None => repeat true 12 end).

Section Grain.
Variable rotvec : m3 -> v3.
Variable from_euler : string * bool -> v3 -> m3.
Variable as_euler : string * bool -> m3 -> v3.
(** abstract_grain.py:106-116; a pair cannot be passed with ** (TypeError) *)
Definition vec3 (g : list R) : v3 := V3 (nth 0 g 0) (nth 1 g 0) (nth 2 g 0).
Definition list3 (v : v3) : list R := [vx v; vy v; vz v].
Definition grain_params_euler (c : econv) (g : list R) : result (list R) :=
  match c with
  | ENone => Ok g
  | EPair _ _ => Err TypeError
  | EDict o e => Ok (list3 (degrees3 (as_euler (o, e) (make_rmat_of_expmap (vec3 g)))) ++ skipn 3 g)
  end.
(** abstract_grain.py:118-132 *)
Definition set_grain_params_euler (c : econv) (v : list R) : result (list R) :=
  match c with
  | ENone => Ok v
  | EPair _ _ => Err TypeError
  | EDict o e => Ok (list3 (rmat_to_tilt rotvec (from_euler (o, e) (radians3 (vec3 v)))) ++ skipn 3 v)
  end.
End Grain.

(** abstract_grain.py:179-193 *)
Definition force_param_value (val : R) (p : prm) : prm :=
  let tol := 1 / 10000 in
  let below := match v_min p with Some m => if Rlt_dec val m then true else false | None => false end in
  let above := match v_max p with Some m => if Rlt_dec m val then true else false | None => false end in
  Prm val (v_vary p) (if below then Some (val - tol) else v_min p) (if below then v_max p else if above then Some (val + tol) else v_max p).
Fixpoint force_all (ps : params) (nv : list (string * R)) : result params :=
  match nv with [] => Ok ps | (n, v) :: r => do ps' <- pmod ps n (fun p => set_vary false (force_param_value v p)); force_all ps' r end.
(** abstract_grain.py:67-92; [names] are the parameter names of the grain, constants.py: identity_6x1, zeros_3 *)
Definition fix_strain_to_identity (names : list string) (ps : params) : result params := force_all ps (combine (skipn 6 names) [1; 1; 1; 0; 0; 0]).
Definition fix_translation_to_origin (names : list string) (ps : params) : result params := force_all ps (combine (firstn 3 (skipn 3 names)) [0; 0; 0]).
Definition fix_y_to_zero (names : list string) (ps : params) : result params :=
  match nth_error (firstn 3 (skipn 3 names)) 1 with None => Err IndexError | Some n => force_all ps [(n, 0)] end.

(** ** engineering constraints, 672-715 *)
Definition set_val (v : R) (p : prm) : prm := Prm v (v_vary p) (v_min p) (v_max p).
Definition y2_name := "IMAGE_PLATE_2_tvec_y".
Definition y4_name := "IMAGE_PLATE_4_tvec_y".
Definition min_dist : R := 2283 / 100.
Definition max_dist : R := 2343 / 100.
(** the two positions and the distance after the call; afterwards the position of plate 4 is the expression
    distance - abs(position of plate 2) *)
Definition tardis (y2 y4 : R) : R * R * R :=
  let dist := Rabs y2 + Rabs y4 in
  if Rlt_dec max_dist dist then
    let delta := Rabs (dist - max_dist) in (y2 + 1 / 2 * delta, y4 - 1 / 2 * delta, max_dist)
  else if Rlt_dec dist min_dist then
    let delta := Rabs (dist - min_dist) in (y2 - 1 / 2 * delta, y4 + 1 / 2 * delta, min_dist)
  else (y2, y4, dist).
Definition plate4 (y2 dist : R) : R := dist - Rabs y2.
(** the parameters after the call, and whether the expression was set *)
Definition add_engineering_constraints (ps : params) (ec : option string) : result (params * bool) :=
  if match ec with Some s => String.eqb s "TARDIS" | None => false end then
    do y2 <- getv ps y2_name;
    do y4 <- getv ps y4_name;
    let '(y2', y4', dist) := tardis y2 y4 in
    do ps1 <- pmod ps y2_name (set_val y2');
    do ps2 <- pmod ps1 y4_name (set_val (plate4 y2' dist));
    Ok (pset ps2 "tardis_distance_between_plates" (Prm dist true (Some min_dist) (Some max_dist)), true)
  else Ok (ps, false).

(** ** all calibrators together, core/fitting/calibration/instrument.py *)
(** a powder calibrator (which material it refers to, its refinements, the names it created) or a grain calibrator (name, twelve
    parameters, convention, refinements, the names it created) *)
Inductive calib :=
| Powder (material : nat) (refs : option (list bool)) (names : list string)
| Grain (name : string) (gp : list R) (c : econv) (refs : option (list bool)) (names : list string).
(** the instrument, its constraint, the materials (shared by the calibrators that refer to them) and the calibrators *)
Record state := State { s_instr : instr; s_rel : constraints; s_mats : list mat; s_calibs : list calib }.
Definition dmat := Mat "" Triclinic [] 0.
Definition set_nth {A : Type} (n : nat) (x : A) (l : list A) : list A := firstn n l ++ match skipn n l with [] => [] | _ :: r => x :: r end.

Section Calibrator.
Variable sp_from_matrix : m3 -> q4.
Variable sp_as_rotvec : q4 -> v3.
Variable rotvec : m3 -> v3.
Variable from_euler : string * bool -> v3 -> m3.
Variable as_euler : string * bool -> m3 -> v3.
(** powder.py:99-111, abstract_grain.py:45-57 *)
Definition create_lmfit_params (mats : list mat) (cb : calib) (current : params) : result (params * calib) :=
  match cb with
  | Powder m refs _ =>
      do ps <- create_material_params (nth m mats dmat) refs;
      let ps := filter (fun x => negb (mem (fst x) (map fst current))) ps in
      Ok (ps, Powder m refs (map fst ps))
  | Grain name gp c refs _ =>
      do g <- grain_params_euler as_euler c gp;
      do ps <- create_grain_params name g refs;
      do r <- rename_params ps current;
      Ok (fst r, Grain name gp c refs (map fst (fst r)))
  end.
Fixpoint create_all (mats : list mat) (cbs : list calib) (acc : params) : result (params * list calib) :=
  match cbs with
  | [] => Ok (acc, [])
  | cb :: r => do x <- create_lmfit_params mats cb acc; do y <- create_all mats r (acc ++ fst x); Ok (fst y, snd x :: snd y)
  end.
(** instrument.py:67-88, without engineering constraints *)
Definition make_lmfit_params (c : econv) (st : state) : result (params * state) :=
  do ps <- create_instr_params as_euler c (s_rel st) (s_instr st);
  do x <- create_all (s_mats st) (s_calibs st) ps;
  do _ <- validate_params (fst x);
  Ok (add_many (fst x), State (s_instr st) (s_rel st) (s_mats st) (snd x)).
(** powder.py:113-115, abstract_grain.py:59-64 *)
Definition update_calib (ps : params) (mats : list mat) (cb : calib) : result (list mat * calib) :=
  match cb with
  | Powder m _ names => Ok (match names with [] => mats | _ => set_nth m (update_material_from_params ps (nth m mats dmat)) mats end, cb)
  | Grain name _ c refs names =>
      do v <- map_r (getv ps) names;
      do g <- set_grain_params_euler rotvec from_euler c v;
      Ok (mats, Grain name g c refs names)
  end.
Fixpoint update_calibs (ps : params) (mats : list mat) (cbs : list calib) : result (list mat * list calib) :=
  match cbs with
  | [] => Ok (mats, [])
  | cb :: r => do x <- update_calib ps mats cb; do y <- update_calibs ps (fst x) r; Ok (fst y, snd x :: snd y)
  end.
(** instrument.py:90-100 *)
Definition update_all_from_params (c : econv) (ps : params) (st : state) : result state :=
  do x <- update_instrument_from_params sp_from_matrix sp_as_rotvec rotvec from_euler c (s_rel st) ps (s_instr st);
  do y <- update_calibs ps (s_mats st) (s_calibs st);
  Ok (State (fst x) (snd x) (fst y) (snd y)).
(** instrument.py:186-217: the optimiser evaluates the residual at [tried] in turn (106-108: each time the state is updated first),
    then the state is updated from its answer *)
Definition run_calibration (c : econv) (tried : list params) (answer : params) (st : state) : result state :=
  do st' <- fold_left (fun r ps => do s <- r; update_all_from_params c ps s) tried (Ok st);
  update_all_from_params c answer st'.
End Calibrator.
