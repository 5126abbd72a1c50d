(** Vocabulary for parameters of a calibration *)
From Coq Require Import Reals String List.
From Verif Require Import Prelude Lin RotModel RotSpec RigModel RigSpec NamesModel BvModel CalModel.
Import ListNotations.
Local Open Scope R_scope.
Local Open Scope string_scope.
Local Open Scope list_scope.
Local Notation length := List.length.

(** the same panel in the same place, with the direction b of the active beam *)
Definition same_det (b : v3) (x y : string * det) : Prop :=
  fst y = fst x /\ p_group (d_panel (snd y)) = p_group (d_panel (snd x)) /\ pose (d_panel (snd y)) = pose (d_panel (snd x)) /\
  d_radius (snd y) = d_radius (snd x) /\ d_dist (snd y) = d_dist (snd x) /\ d_bvec (snd y) = b.
(** the same instrument: beams, frame, and every panel where it was, with the direction of the active beam *)
Definition same_instr (i j : instr) : Prop :=
  i_beams j = i_beams i /\ i_active j = i_active i /\ i_chi j = i_chi i /\ i_tvec j = i_tvec i /\
  exists b, In (i_active i, b) (i_beams i) /\ Forall2 (same_det (b_vec b)) (i_dets i) (i_dets j).
(** the conversions between matrices and Euler angles are exact for r, which is not a half turn *)
Definition converts (sp_from_matrix : m3 -> q4) (sp_as_rotvec : q4 -> v3) (from_euler : string * bool -> v3 -> m3) (as_euler : string * bool -> m3 -> v3)
  (n : string * bool) (r : m3) : Prop :=
  from_euler n (as_euler n r) = r /\ unitq (sp_from_matrix r) /\ rotMatOfQuat (sp_from_matrix r) = r /\ tr r <> -1 /\
  (forall q, unitq q -> rotMatOfQuat q = r -> rotMatOfExpMap (sp_as_rotvec q) = r).
(** no name but the panel's own distortion parameters looks like one of them, and there are at most ten *)
Definition distortion_names_ok (names : list string) (nd : string * det) : Prop :=
  let vals := match d_dist (snd nd) with Some v => v | None => [] end in
  (length vals <= 10)%nat /\
  forall n, In n names -> containsb (dash_to_us (fst nd) +++ "_distortion_param") n = true -> In n (map (distortion_name (fst nd)) (seq 0 (length vals))).

(** what an instrument is after an update: each beam has the energy and direction of its parameters, the frame is that of the
    parameters, and each panel has the position, orientation (the matrix of its angles) and radius of its parameters *)
Definition value (ps : params) (n : string) (x : R) : Prop := exists p, dict_get ps n = Some p /\ v_val p = x.
Definition beam_reads (ps : params) (pre : string) (b : beam) : Prop :=
  value ps (pre +++ "beam_energy") (b_energy b) /\
  (exists azim pola, value ps (pre +++ "beam_azimuth") azim /\ value ps (pre +++ "beam_polar") pola /\ b_vec b = calc_beam_vec azim pola) /\
  (forall a s, b_corr b = Some (a, s) -> value ps (pre +++ "beam_energy_correction_intercept") a /\ value ps (pre +++ "beam_energy_correction_slope") s).
Definition det_reads (rotation_of : v3 -> m3) (suffixes : string * string * string) (ps : params) (nd : string * det) : Prop :=
  let base := dash_to_us (fst nd) in let '(a, b, c) := suffixes in let p := d_panel (snd nd) in
  (exists x y z, value ps (base +++ "_" +++ a) x /\ value ps (base +++ "_" +++ b) y /\ value ps (base +++ "_" +++ c) z /\ p_rmat p = rotation_of (V3 x y z)) /\
  value ps (base +++ "_tvec_x") (vx (p_tvec p)) /\ value ps (base +++ "_tvec_y") (vy (p_tvec p)) /\ value ps (base +++ "_tvec_z") (vz (p_tvec p)) /\
  (forall r, d_radius (snd nd) = Some r -> value ps (base +++ "_radius") r).

(** the names of the three angles of a panel and what orientation they stand for: an exponential map, or Euler angles in degrees about
    fixed axes x, y, z or about axes z, x, z that turn along; a convention is a pair or a dictionary *)
Inductive angles_named (from_euler : string * bool -> v3 -> m3) : econv -> string * string * string -> (v3 -> m3) -> Prop :=
| named_expmap : angles_named from_euler ENone ("expmap_x", "expmap_y", "expmap_z") rotMatOfExpMap
| named_xyz c : c = EPair "xyz" true \/ c = EDict "xyz" true -> angles_named from_euler c ("euler_x", "euler_y", "euler_z")
    (fun v => from_euler ("xyz", true) (V3 (vx v * (PI / 180)) (vy v * (PI / 180)) (vz v * (PI / 180))))
| named_zxz c : c = EPair "zxz" false \/ c = EDict "zxz" false -> angles_named from_euler c ("euler_z", "euler_xp", "euler_zpp")
    (fun v => from_euler ("zxz", false) (V3 (vx v * (PI / 180)) (vy v * (PI / 180)) (vz v * (PI / 180)))).
(** a panel's distortion is that of its parameters, where they stand together, are at most ten and no other name looks like one of them *)
Definition distortion_reads (ps : params) (nd : string * det) : Prop :=
  forall pre mine post, ps = pre ++ mine ++ post -> (0 < length mine <= 10)%nat ->
    map fst mine = map (fun k => dash_to_us (fst nd) +++ "_distortion_param_" +++ dec k) (seq 0 (length mine)) ->
    (forall n, In n (map fst pre ++ map fst post) -> containsb (dash_to_us (fst nd) +++ "_distortion_param") n = false) ->
    d_dist (snd nd) = Some (map (fun np => v_val (snd np)) mine).

(** a cell of its lattice type: lengths, then angles in degrees *)
Definition conforms (t : ltype) (lp : list R) : Prop :=
  exists a b c al be ga, lp = [a; b; c; al; be; ga] /\
  match t with
  | Triclinic => True
  | Monoclinic => al = 90 /\ ga = 90
  | Orthorhombic => al = 90 /\ be = 90 /\ ga = 90
  | Tetragonal => a = b /\ al = 90 /\ be = 90 /\ ga = 90
  | Trigonal => a = b /\ al = 90 /\ be = 90 /\ ga = 120
  | Hexagonal => a = b /\ al = 90 /\ be = 90 /\ ga = 120
  | Cubic => a = b /\ b = c /\ al = 90 /\ be = 90 /\ ga = 90
  end.
(** within its bounds *)
Definition within (p : prm) : Prop :=
  (forall m, v_min p = Some m -> m <= v_val p) /\ (forall m, v_max p = Some m -> v_val p <= m) /\
  (forall m M, v_min p = Some m -> v_max p = Some M -> m < M).
