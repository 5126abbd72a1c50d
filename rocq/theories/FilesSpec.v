(** Specification vocabulary for C19, C20, C58, C59. *)
From Verif Require Import Prelude FilesModel.
Local Open Scope Z_scope.

(** The frames of file number [f] that belong to the series: after skipping [empty] images, at most
    [max_frames] of them (0 = no limit). *)
Definition frames_of_file (empty max_frames : Z) (f : nat) (images : Z) : list (nat * Z) :=
  let left := zrange empty images in
  map (fun j => (f, j)) (if max_frames =? 0 then left else firstn (Z.to_nat max_frames) left).

Fixpoint frames_of_files (empty max_frames : Z) (f : nat) (files : list Z) : list (nat * Z) :=
  match files with
  | [] => []
  | n :: r => frames_of_file empty max_frames f n ++ frames_of_files empty max_frames (S f) r
  end.

(** The whole series, cut to [max_total] frames if that is positive. *)
Definition series_frames (empty max_frames max_total : Z) (files : list Z) : list (nat * Z) :=
  let all := frames_of_files empty max_frames 0%nat files in
  if max_total >? 0 then firstn (Z.to_nat max_total) all else all.

(** Options a user can sensibly give: no negative counts, and every file has an image left. *)
Definition valid_options (empty max_frames : Z) (files : list Z) : Prop :=
  0 <= empty /\ 0 <= max_frames /\ Forall (fun n => empty < n) files.

(** Some file contributes two frames or more. *)
Definition multi_frame (empty max_frames : Z) (files : list Z) : Prop :=
  exists f n, In n files /\ (2 <= length (frames_of_file empty max_frames f n))%nat.

(** Python list indexing with a LookupError for a bad key. *)
Definition list_lookup {A} (l : list A) (key : Z) : result A :=
  match py_index l key with Ok x => Ok x | Err _ => Err LookupError end.

Definition rpc_value {B} (pc : rpc B) : option (result (list B)) := match pc with RDone v => Some v | _ => None end.
