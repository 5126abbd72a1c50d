(** Vocabulary for rigid motion of detectors. *)
From Coq Require Import Reals List String.
From Verif Require Import Prelude Lin RotModel RigModel.
Import ListNotations.
Local Open Scope R_scope.

(** where the point x of a panel (panel coordinates) is in the laboratory *)
Definition lab (p : panel) (x : v3) : v3 := vadd (mv (p_rmat p) x) (p_tvec p).
(** orientation and position of a panel *)
Definition pose (p : panel) : m3 * v3 := (p_rmat p, p_tvec p).
(** the exponential map computed for r is a tilt of r (false only for rotations by less than ten machine epsilons) *)
Definition exact_tilt (rotvec : m3 -> v3) (r : m3) : Prop := make_rmat_of_expmap (rmat_to_tilt rotvec r) = r.
(** all panels of [ps] belonging to [sel] move by one and the same rigid motion, panel by panel *)
Definition moved_rigidly (sel : panel -> Prop) (ps ps' : list panel) : Prop :=
  exists d s, rotation d /\ Forall2 (fun p p' => p_group p' = p_group p /\ (sel p -> forall x, lab p' x = vadd (mv d (lab p x)) s)) ps ps'.
(** a sequence of parameter sets applied one after the other *)
Definition all_system (rotvec : m3 -> v3) (to_rmat : v3 -> m3) (rc : rotcenter) (h : list gparams) (st : list panel * cparams) : result (list panel * cparams) :=
  fold_left (fun r q => do s <- r; update_system rotvec to_rmat rc q s) h (Ok st).
Definition all_groups (rotvec : m3 -> v3) (to_rmat : v3 -> m3) (rc : rotcenter) (h : list (string -> gparams)) (st : list panel * (string -> cparams)) : list panel * (string -> cparams) :=
  fold_left (fun s q => update_groups rotvec to_rmat rc q s) h st.
(** the tilts met while applying q to panels whose constraint tilt was cp: all convert exactly *)
Definition exact_for (rotvec : m3 -> v3) (to_rmat : v3 -> m3) (q : gparams) (cp : cparams) (ps : list panel) : Prop :=
  vary_tilt q = true -> exact_tilt rotvec (to_rmat (g_tilt q)) /\
  forall p, In p ps -> exact_tilt rotvec (mm (mm (to_rmat (g_tilt q)) (mt (rotMatOfExpMap (c_tilt cp)))) (p_rmat p)).
