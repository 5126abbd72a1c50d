(** Vocabulary for the commands: the grains an analysis starts from, and grains as rows of a table *)
From Coq Require Import String List ZArith Reals.
From Verif Require Import Prelude WrModel CmdModel.
Import ListNotations.
Local Notation length := List.length.

Section S.
Context {Row : Type}.
Variable index : config -> result (list Row).
(** the accepted orientations of an analysis: those on file, or else found now *)
Definition orientations_of (d : @disk Row) (c : config) (qs : list Row) : Prop :=
  d (quats_file c) = Some qs \/ d (quats_file c) = None /\ index c = Ok qs.
(** the rows numbered from 0 *)
Definition numbered_by (f : nat -> Row -> Row) (qs rows : list Row) : Prop :=
  length rows = length qs /\ forall i q, nth_error qs i = Some q -> nth_error rows i = Some (f i q).
(** what the options promise: the estimate if there is such a file and 'clean' was not asked for, otherwise the accepted orientations, here
    those of the analysis [first] *)
Definition starts_from (f : nat -> Row -> Row) (clean : bool) (d : @disk Row) (first c : config) (rows : list Row) : Prop :=
  match clean, match estimate c with Some e => d e | None => None end with
  | false, Some x => rows = x
  | _, _ => exists qs, orientations_of d first qs /\ numbered_by f qs rows
  end.
End S.
(** all columns have one entry for each grain, and the vectors have their sizes *)
Definition aligned (gd : grain_data) : Prop :=
  let n := length (gd_id gd) in
  length (gd_comp gd) = n /\ length (gd_chisq gd) = n /\ length (gd_expmap gd) = n /\ length (gd_centroid gd) = n /\ length (gd_inv gd) = n /\ length (gd_ln gd) = n.
(** everything known of grain i, None if there is no such grain *)
Definition grain_at (gd : grain_data) (i : nat) : option (Z * R * R * list R * list R * list R * list R) :=
  match nth_error (gd_id gd) i, nth_error (gd_comp gd) i, nth_error (gd_chisq gd) i, nth_error (gd_expmap gd) i, nth_error (gd_centroid gd) i, nth_error (gd_inv gd) i, nth_error (gd_ln gd) i with
  | Some a, Some b, Some c, Some d, Some e, Some f, Some g => Some (a, b, c, d, e, f, g)
  | _, _, _, _, _, _, _ => None
  end.
Definition all_grains (gd : grain_data) : list (option (Z * R * R * list R * list R * list R * list R)) := map (grain_at gd) (seq 0 (length (gd_id gd))).
