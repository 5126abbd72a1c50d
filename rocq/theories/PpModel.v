(** Model of preprocessing of raw images: hedm/preprocess/preprocessors.py.  A file of images is the list of its frames.  What processing
    does to a frame is [C05] and its neighbours' business: here it is a function of the operations; the median of frames is a function of
    them.  Left out: logging, the format of Eiger files and their options, the output directory, the threshold. *)
From Coq Require Import String Ascii QArith List ZArith.
From Verif Require Import Prelude OmegaModel NamesModel HcModel.
Import ListNotations.
Local Open Scope string_scope.
Local Open Scope list_scope.
Local Notation length := List.length.

Section Pp.
Context {A Op : Type}.
Variable process : list Op -> A -> A.
Variable dark_op : A -> Op.
Variable median : list A -> A.

(** a cache file: frames, their omega ranges and the panel they are of *)
Record cache := Cache { s_frames : list A; s_omega : list (Q * Q); s_panel : option string }.
Definition store := list (string * cache).
(** writing a file replaces what was there *)
Fixpoint put (d : store) (k : string) (c : cache) : store :=
  match d with [] => [(k, c)] | (k', c') :: r => if String.eqb k k' then (k, c) :: r else (k', c') :: put r k c end.
Fixpoint lookup (d : store) (k : string) : option cache := match d with [] => None | (k', c) :: r => if String.eqb k k' then Some c else lookup r k end.

(** 47-49 *)
Definition framelist (frame_start nframes : nat) : list nat := seq frame_start nframes.
(** reading all frames of the processed series, 59-63 with imageseries/process.py:65-74: a frame beyond the end raises *)
Fixpoint read_frames (raw : list A) (l : list nat) : result (list A) :=
  match l with
  | [] => Ok []
  | i :: r => match nth_error raw i with None => Err IndexError | Some x => do t <- read_frames raw r; Ok (x :: t) end
  end.
Definition processed (raw : list A) (ops : list Op) (frame_start nframes : nat) : result (list A) :=
  let use_frame_list := negb (Nat.eqb nframes (length raw)) in
  do frames <- (if use_frame_list then read_frames raw (framelist frame_start nframes) else Ok raw);
  Ok (map (process ops) frames).
(** 68-88 *)
Definition save_processed (d : store) (name style : string) (raw : list A) (ops : list Op) (panel : option string) (frame_start nframes : nat) (om : result omarr) : result store :=
  do frames <- processed raw ops frame_start nframes;
  do omega <- om;
  Ok (put d (name +++ "-cachefile." +++ style) (Cache frames omega panel)).
(** 234-235, 246-247 *)
Definition wedges (ome_start ome_end : Q) (num_frames : nat) : result omarr := omegas num_frames [{| o_start := ome_start; o_stop := ome_end; o_n := num_frames |}].
(** 233-244 *)
Definition preprocess_eiger (d : store) (raw : list A) (ome_start ome_end : Q) (num_frames start_frame : nat) (style output : string) : result store :=
  save_processed d output style raw [] None start_frame num_frames (wedges ome_start ome_end num_frames).

(** str.split("/")[-1] and str.split(".")[0] *)
Fixpoint last_part (acc s : string) : string :=
  match s with EmptyString => acc | String c r => if Ascii.eqb c "/"%char then last_part "" r else last_part (acc +++ String c "") r end.
Fixpoint first_part (s : string) : string := match s with EmptyString => "" | String c r => if Ascii.eqb c "."%char then "" else String c (first_part r) end.
(** 261-268 *)
Definition output_name (samp_name : string) (scan_number : Z) (file_name : string) : string := samp_name +++ "_" +++ py_str scan_number +++ "_" +++ first_part (last_part "" file_name).
(** 213-229: the dark image is the median of frames from the first on, at most 100 and no more than asked for; 0 stands for all *)
Definition dark (raw : list A) (nframes : nat) : A := let n := Nat.min 100 nframes in median (if Nat.eqb n 0 then raw else firstn n raw).
(** 245-269: for a file and all panels *)
Fixpoint dexela_keys (samp style : string) (scan : Z) (start num : nat) (om : result omarr) (file : string * list A) (panel_opts : list (string * list Op)) (d : store) : result store :=
  match panel_opts with
  | [] => Ok d
  | (key, opts) :: r =>
      do d' <- (if containsb (lower key) (fst file)
                then save_processed d (output_name samp scan (fst file)) style (snd file) (dark_op (dark (snd file) num) :: opts) (Some key) start num om
                else Ok d);
      dexela_keys samp style scan start num om file r d'
  end.
Fixpoint dexela_files (samp style : string) (scan : Z) (start num : nat) (om : result omarr) (panel_opts : list (string * list Op)) (files : list (string * list A)) (d : store) : result store :=
  match files with
  | [] => Ok d
  | f :: r => do d' <- dexela_keys samp style scan start num om f panel_opts d; dexela_files samp style scan start num om panel_opts r d'
  end.
Definition preprocess_dexelas (d : store) (files : list (string * list A)) (panel_opts : list (string * list Op)) (samp style : string) (scan : Z) (ome_start ome_end : Q) (num start : nat) : result store :=
  dexela_files samp style scan start num (wedges ome_start ome_end num) panel_opts files d.
End Pp.
