(** Model of group- and system-constrained detector motion:
    core/fitting/calibration/lmfit_param_handling.py and relative_constraints.py.
    Real numbers stand for floating point numbers. *)
From Coq Require Import Reals List String.
From Verif Require Import Prelude Lin TensorModel RotModel.
Import ListNotations.
Local Open Scope R_scope.

(** the parts of a detector panel that move: core/instrument/detector.py:480-498; [p_group] is panel.group *)
Record panel := Panel { p_group : option string; p_tilt : v3; p_tvec : v3 }.
(** relative_constraints.py:82-90, 139-143: the tilt (exponential map) and translation applied so far *)
Record cparams := CP { c_tilt : v3; c_trans : v3 }.
(** the six lmfit parameters of one prefix; a [vary] flag is any() over its three parameters *)
Record gparams := GP { g_tilt : v3; g_tvec : v3; vary_tilt : bool; vary_tvec : bool }.

(** core/instrument/detector.py:551-552; transforms.cpp:21-24: Eigen's AngleAxis of (norm, normalized vector).
    [normalized] of the zero vector is the zero vector. *)
Definition eigen_normalized (v : v3) : v3 := if Req_EM_T (norm2 v) 0 then v else vscale (/ norm v) v.
Definition angleaxis_matrix (t : R) (n : v3) : m3 :=
  let c := cos t in let s := sin t in let x := vx n in let y := vy n in let z := vz n in
  M3 ((1 - c) * x * x + c) ((1 - c) * x * y - s * z) ((1 - c) * x * z + s * y)
     ((1 - c) * x * y + s * z) ((1 - c) * y * y + c) ((1 - c) * y * z - s * x)
     ((1 - c) * x * z - s * y) ((1 - c) * y * z + s * x) ((1 - c) * z * z + c).
Definition make_rmat_of_expmap (e : v3) : m3 := angleaxis_matrix (norm e) (eigen_normalized e).
Definition p_rmat (p : panel) : m3 := make_rmat_of_expmap (p_tilt p).

(** core/instrument/hedm_instrument.py:736-744 *)
Definition vsum (l : list v3) : v3 := fold_right vadd vzero l.
Definition vmean (l : list v3) : v3 := vscale (/ INR (List.length l)) (vsum l).

Section Motion.
(** scipy's Rotation.from_matrix(r).as_rotvec() (external) *)
Variable rotvec : m3 -> v3.
(** lmfit_param_handling.py:503-519, the conversion of the parameters in the chosen Euler convention;
    for no convention it is rotMatOfExpMap *)
Variable to_rmat : v3 -> m3.
(** lmfit_param_handling.py:522-524, core/rotations.py:669-672 *)
Definition rmat_to_tilt (r : m3) : v3 := vscale (norm (rotvec r)) (unitVector (rotvec r)).

(** lmfit_param_handling.py:401-453; [sel] says which panels of the instrument are in [detectors] *)
Definition update_constrained (sel : panel -> bool) (center : v3) (q : gparams) (st : list panel * cparams) : list panel * cparams :=
  let '(ps, cp) := st in
  let '(ps, cp) :=
    if vary_tilt q then
      let old_rmat := rotMatOfExpMap (c_tilt cp) in
      let new_rmat := to_rmat (g_tilt q) in
      let rmat_diff := mm new_rmat (mt old_rmat) in
      (map (fun p => if sel p then
                       Panel (p_group p) (rmat_to_tilt (mm rmat_diff (p_rmat p))) (vadd (mv rmat_diff (vsub (p_tvec p) center)) center)
                     else p) ps,
       CP (rmat_to_tilt new_rmat) (c_trans cp))
    else (ps, cp) in
  if vary_tvec q then
    let diff := vsub (g_tvec q) (c_trans cp) in
    (map (fun p => if sel p then Panel (p_group p) (p_tilt p) (vadd (p_tvec p) diff) else p) ps, CP (c_tilt cp) (g_tvec q))
  else (ps, cp).

Inductive rotcenter := InstrumentMean | GroupMean | Origin.
Definition in_group (g : string) (p : panel) : bool := match p_group p with Some h => String.eqb h g | None => false end.
(** relative_constraints.py:104-116 *)
Definition group_center (rc : rotcenter) (ps : list panel) (g : string) : v3 :=
  match rc with
  | InstrumentMean => vmean (map p_tvec ps)
  | Origin => vzero
  | GroupMean => vmean (map p_tvec (filter (in_group g) ps))
  end.
(** relative_constraints.py:148-154: GroupMean raises NotImplementedError *)
Definition system_center (rc : rotcenter) (ps : list panel) : result v3 :=
  match rc with
  | InstrumentMean => Ok (vmean (map p_tvec ps))
  | Origin => Ok vzero
  | GroupMean => Err NotImplementedError
  end.
(** lmfit_param_handling.py:456-476 *)
Definition update_system (rc : rotcenter) (q : gparams) (st : list panel * cparams) : result (list panel * cparams) :=
  do c <- system_center rc (fst st);
  Ok (update_constrained (fun _ => true) c q st).
(** core/instrument/hedm_instrument.py:746-754: groups in the order of first appearance *)
Fixpoint add_groups (groups : list string) (ps : list panel) : list string :=
  match ps with
  | [] => groups
  | p :: ps' =>
      match p_group p with
      | Some g => if existsb (String.eqb g) groups then add_groups groups ps' else add_groups (groups ++ [g]) ps'
      | None => add_groups groups ps'
      end
  end.
Definition detector_groups (ps : list panel) : list string := add_groups [] ps.
(** lmfit_param_handling.py:479-500; [params g] are the parameters named after the group *)
Definition update_one_group (rc : rotcenter) (params : string -> gparams) (st : list panel * (string -> cparams)) (g : string) : list panel * (string -> cparams) :=
  let '(ps, cps) := st in
  let '(ps', cp') := update_constrained (in_group g) (group_center rc ps g) (params g) (ps, cps g) in
  (ps', fun h => if String.eqb h g then cp' else cps h).
Definition update_groups (rc : rotcenter) (params : string -> gparams) (st : list panel * (string -> cparams)) : list panel * (string -> cparams) :=
  fold_left (update_one_group rc params) (detector_groups (fst st)) st.
End Motion.
