(** Model of the settings of a far field analysis: hedm/config/findorientations.py, hedm/config/fitgrains.py, core/config/material.py,
    core/config/utils.py (exclusion parameters), core/config/config.py (check_filename) and core/config/root.py (file placement, cached
    sections and the image series), over the configuration trees of [ConfigModel].  Sub-sections read the same tree with full keys.
    Simplifications: lower-casing and stripping are those of ASCII; log messages are not modelled. *)
From Coq Require Import String Ascii QArith Qabs.
From Verif Require Import Prelude ConfigModel.
Local Open Scope string_scope.
Local Notation length := List.length.

(** str.lower *)
Definition lower_char (c : ascii) : ascii :=
  let n := nat_of_ascii c in if andb (Nat.leb 65 n) (Nat.leb n 90) then ascii_of_nat (n + 32) else c.
Fixpoint lower (s : string) : string := match s with EmptyString => "" | String c r => String (lower_char c) (lower r) end.
(** str.strip and str.replace(' ', '-') *)
Definition is_space (c : ascii) : bool :=
  let n := nat_of_ascii c in orb (Nat.eqb n 32) (orb (andb (Nat.leb 9 n) (Nat.leb n 13)) (andb (Nat.leb 28 n) (Nat.leb n 31))).
Fixpoint lstrip (s : string) : string := match s with EmptyString => "" | String c r => if is_space c then lstrip r else s end.
Fixpoint rstrip (s : string) : string :=
  match s with
  | EmptyString => ""
  | String c r => let r' := rstrip r in match r' with EmptyString => if is_space c then "" else String c "" | _ => String c r' end
  end.
Fixpoint dashes (s : string) : string :=
  match s with EmptyString => "" | String c r => String (if Nat.eqb (nat_of_ascii c) 32 then "-"%char else c) (dashes r) end.
Definition clean (s : string) : string := dashes (lstrip (rstrip s)).

(** ** hedm/config/findorientations.py *)
(** 113-122 *)
Definition clustering_algorithm (cfg : yv) : result yv :=
  do temp <- cfg_get cfg "find_orientations:clustering:algorithm" (Some (YStr "dbscan"));
  match temp with
  | YStr s => let s := lower s in
              if existsb (String.eqb s) ["dbscan"; "ort-dbscan"; "sph-dbscan"; "fclusterdata"] then Ok (YStr s) else Err RuntimeError
  | _ => Err AttributeError
  end.
(** 124-138 *)
Definition required (cfg : yv) (key : string) : result yv :=
  do temp <- cfg_get cfg key (Some YNone);
  match temp with YNone => Err RuntimeError | _ => Ok temp end.
Definition clustering_completeness (cfg : yv) := required cfg "find_orientations:clustering:completeness".
Definition clustering_radius (cfg : yv) := required cfg "find_orientations:clustering:radius".
(** 145-158: indexing, subtraction, and the comparison of the absolute difference with 360 *)
Definition omega_period (cfg : yv) : result yv :=
  do temp <- cfg_get cfg "find_orientations:omega:period" (Some (YList [YFloat (-180); YInt 180]));
  match temp with
  | YList (a :: b :: _) =>
      match num_of a, num_of b with
      | Some x, Some y => if Qeq_bool (Qabs (y - x)) 360 then Ok temp else Err RuntimeError
      | _, _ => Err TypeError
      end
  | YList _ => Err IndexError
  | YStr (String _ (String _ _)) => Err TypeError
  | YStr _ => Err IndexError
  | YDict _ => Err KeyError
  | _ => Err TypeError
  end.
(** 160-162 *)
Definition omega_tolerance (cfg : yv) : result yv := cfg_get cfg "find_orientations:omega:tolerance" (Some (YFloat (1 # 2))).
(** 172-181: [None] for a mask of None *)
Definition eta_range (cfg : yv) : result (option (list (Q * Q))) :=
  do mask <- cfg_get cfg "find_orientations:eta:mask" (Some (YInt 5));
  match mask with
  | YNone => Ok None
  | _ => match num_of mask with
         | Some m => Ok (Some [(-(90) + m, 90 - m); (90 + m, 270 - m)]%Q)
         | None => Err TypeError
         end
  end.
(** 204-209 and 223-225; the default is evaluated first *)
Definition fiber_step (cfg : yv) : result yv :=
  do dflt <- omega_tolerance cfg; cfg_get cfg "find_orientations:seed_search:fiber_step" (Some dflt).
(** int() of a number: towards zero *)
Definition qtrunc (q : Q) : Z := Z.quot (Qnum q) (Zpos (Qden q)).
Definition fiber_ndiv (cfg : yv) : result Z :=
  do step <- fiber_step cfg;
  match num_of step with
  | Some s => if Qeq_bool s 0 then Err ZeroDivisionError else Ok (qtrunc (360 / s)%Q)
  | None => Err TypeError
  end.
(** 211-222: any failure becomes a RuntimeError; something of length one that is not a dictionary gives None *)
Definition py_len (v : yv) : option nat :=
  match v with YStr s => Some (String.length s) | YList l => Some (length l) | YDict d => Some (length d) | _ => None end.
Definition seed_method (cfg : yv) : result yv :=
  match cfg_get cfg "find_orientations:seed_search:method" None with
  | Err _ => Err RuntimeError
  | Ok temp =>
      match py_len temp with
      | Some 1%nat =>
          match temp with
          | YDict ((k, _) :: _) => if existsb (String.eqb (lower k)) ["label"; "blob_log"; "blob_dog"] then Ok temp else Err RuntimeError
          | _ => Ok YNone
          end
      | _ => Err RuntimeError
      end
  end.
(** 228-240 *)
Definition active_hkls (cfg : yv) : result yv :=
  do hkls <- cfg_get cfg "find_orientations:orientation_maps:active_hkls" (Some (YStr "all"));
  match int_of hkls with
  | Some _ => Ok (YList [hkls])
  | None => if is_str "all" hkls then Ok YNone
            else match hkls with YNone => Ok YNone | YList _ => Ok hkls | _ => Err AssertionError end
  end.

(** ** files; [isabs], [join], [isfile], [exists_] are those of os.path, [wdir] is the working directory (or the error of reading it) *)
Section Files.
Variable isabs : string -> bool.
Variable join : string -> string -> string.
Variable isfile exists_ : string -> bool.
Variable wdir : result string.
Definition absolute (temp : string) : result string := if isabs temp then Ok temp else do w <- wdir; Ok (join w temp).
(** hedm/config/findorientations.py:91-101 *)
Definition use_quaternion_grid (cfg : yv) : result yv :=
  do temp <- cfg_get cfg "find_orientations:use_quaternion_grid" (Some YNone);
  match temp with
  | YNone => Ok YNone
  | YStr s => do p <- absolute s; if isfile p then Ok (YStr p) else Err OSError
  | _ => Err TypeError
  end.
(** 187-201: the bare except catches everything *)
Definition hkl_seeds (cfg : yv) : result yv :=
  match cfg_get cfg "find_orientations:seed_search:hkl_seeds" None with
  | Ok temp => match int_of temp with Some _ => Ok (YList [temp]) | None => Ok temp end
  | Err _ => do g <- use_quaternion_grid cfg; match g with YNone => Err RuntimeError | _ => Ok YNone end
  end.
(** hedm/config/fitgrains.py:69-78: a missing file gives None *)
Definition estimate (cfg : yv) : result yv :=
  do temp <- cfg_get cfg "fit_grains:estimate" (Some YNone);
  match temp with
  | YNone => Ok YNone
  | YStr s => do p <- absolute s; if isfile p then Ok (YStr p) else Ok YNone
  | _ => Err TypeError
  end.
(** core/config/material.py:28-35 *)
Definition definitions (cfg : yv) : result yv :=
  do temp <- cfg_get cfg "material:definitions" None;
  match temp with
  | YStr s => do p <- absolute s; if exists_ p then Ok (YStr p) else Err OSError
  | _ => Err TypeError
  end.
(** core/config/config.py:70-86 *)
Definition check_filename (fname : string) : result string :=
  do p <- absolute fname; if exists_ p then Ok p else Err OSError.
End Files.

(** ** hedm/config/fitgrains.py *)
Definition scalar (v : yv) : bool := match v with YBool _ | YInt _ | YFloat _ => true | _ => false end.
Definition doubled (v : yv) : yv := if scalar v then YList [v; v] else v.
(** 15-33 *)
Definition fit_tolerance (which : string) (cfg : yv) : result yv := do t <- cfg_get cfg ("fit_grains:tolerance:" ++ which) None; Ok (doubled t).
(** 92-105 *)
Definition refit (cfg : yv) : result yv :=
  do temp <- cfg_get cfg "fit_grains:refit" (Some YNone);
  match temp with
  | YNone => Ok YNone
  | YList _ => Ok temp
  | _ => if scalar temp then Ok (doubled temp) else Err RuntimeError
  end.
(** 111-125: [in (True, False)] compares with == *)
Definition flag (key : string) (cfg : yv) : result yv :=
  do temp <- cfg_get cfg key (Some (YBool false));
  if orb (py_eq temp (YBool true)) (py_eq temp (YBool false)) then Ok temp else Err RuntimeError.
Definition skip_on_estimate := flag "fit_grains:skip_on_estimate".
Definition fit_only := flag "fit_grains:fit_only".
(** 127-136 *)
Definition tth_max (cfg : yv) : result yv :=
  do temp <- cfg_get cfg "fit_grains:tth_max" (Some (YBool true));
  match temp with
  | YBool _ => Ok temp
  | YInt z => if (0 <? z)%Z then Ok temp else Err RuntimeError
  | YFloat q => if Qlt_le_dec 0 q then Ok temp else Err RuntimeError
  | _ => Err RuntimeError
  end.
(** core/config/material.py:66-78 *)
Definition tth_width (cfg : yv) : result yv :=
  do t <- cfg_get cfg "material:tth_width" (Some (YFloat (1 # 4))); match t with YNone => Ok (YFloat (1 # 4)) | _ => Ok t end.
(** core/config/utils.py:51-86: the flag, then dmin, dmax, tthmin, tthmax, sfacmin, sfacmax, pintmin, pintmax *)
Definition exclusion_parameters (prefix : string) (cfg : yv) : result (yv * list (string * yv)) :=
  let get (k : string) (d : yv) := cfg_get cfg (prefix ++ ":" ++ k) (Some d) in
  do sf <- get "min_sfac_ratio" YNone;
  do re <- get "reset_exclusions" (YBool true);
  do a <- get "dmin" YNone; do b <- get "dmax" YNone; do c <- get "tthmin" YNone; do d <- get "tthmax" YNone;
  do e <- get "sfacmin" sf; do f <- get "sfacmax" YNone; do g <- get "pintmin" YNone; do h <- get "pintmax" YNone;
  Ok (re, [("dmin", a); ("dmax", b); ("tthmin", c); ("tthmax", d); ("sfacmin", e); ("sfacmax", f); ("pintmin", g); ("pintmax", h)]).

(** ** file placement: core/config/root.py:46-78 and hedm/config/findorientations.py:36-66, 252-297.  A path is the list of its parts
    as written (pathlib's treatment of absolute, empty and dotted parts is not modelled).  [name] is str() of the analysis name *)
Definition path := list string.
Record placement := PLACE { pl_wdir : string; pl_name : string; pl_material : string; pl_new : bool }.
Definition analysis_dir (p : placement) (file : string) : path := [pl_wdir p; pl_name p; file].
Definition working_dir (p : placement) (file : string) : path := [pl_wdir p; file].
Definition analysis_id (p : placement) : string := clean (pl_name p) ++ "_" ++ clean (pl_material p).
Inductive output := LogFile | Accepted | Maps | Scored | Grains.
Definition place (p : placement) (o : output) : path :=
  let m := clean (pl_material p) in
  let i := analysis_id p in
  match o with
  | LogFile => if pl_new p then analysis_dir p ("find-orientations-" ++ m ++ ".log") else working_dir p ("find-orientations_" ++ i ++ ".log")
  | Accepted => if pl_new p then analysis_dir p ("accepted-orientations-" ++ m ++ ".dat") else working_dir p ("accepted_orientations_" ++ i ++ ".dat")
  | Maps => if pl_new p then analysis_dir p ("eta-ome-maps-" ++ m ++ ".npz") else working_dir p (i ++ "_" ++ "eta-ome_maps.npz")
  | Scored => if pl_new p then analysis_dir p ("scored-orientations-" ++ m ++ ".npz") else working_dir p ("scored_orientations" ++ "_" ++ i)
  | Grains => analysis_dir p "grains.out"
  end.

(** ** core/config/root.py: sections kept after the first access *)
Section Root.
Context {IMS : Type}.
(** imageseries.open with format and arguments followed by OmegaImageSeries; the metadata entry "panel" *)
Variable open_ims : string -> yv -> list (string * yv) -> result IMS.
Variable meta_panel : IMS -> option yv.
Variable file_ok : string -> result string. (* check_filename in the working directory *)
Definition shared_ims_key : yv := YStr "SHARED-IMAGES".
(** a dictionary with keys compared by == *)
Fixpoint iset (k : yv) (v : IMS) (d : list (yv * IMS)) : list (yv * IMS) :=
  match d with [] => [(k, v)] | (k', w) :: r => if py_eq k k' then (k', v) :: r else (k', w) :: iset k v r end.
Fixpoint iget (k : yv) (d : list (yv * IMS)) : option IMS :=
  match d with [] => None | (k', w) :: r => if py_eq k k' then Some w else iget k r end.
Fixpoint join_ (l : list yv) : result string :=
  match l with
  | [] => Ok ""
  | [YStr s] => Ok s
  | YStr s :: r => do t <- join_ r; Ok (s ++ "_" ++ t)
  | _ => Err TypeError
  end.
Definition hashable (v : yv) : bool := match v with YList _ | YDict _ => false | _ => true end.
(** root.py:184-202, one entry of the list *)
Definition load_one (fmt ispec : yv) : result (yv * IMS) :=
  match ispec with
  | YDict d =>
      match dget "file" d with
      | None => Err KeyError
      | Some (YStr f) =>
          do fname <- file_ok f;
          match dget "args" d with
          | None => Err KeyError
          | Some (YDict args) =>
              do oms <- open_ims fname fmt args;
              do panel <- match dget "panel" d with
                          | Some (YList l) => do s <- join_ l; Ok (YStr s)
                          | Some YNone => Ok shared_ims_key
                          | Some p => Ok p
                          | None => Ok (match meta_panel oms with Some p => p | None => shared_ims_key end)
                          end;
              if hashable panel then Ok (panel, oms) else Err TypeError
          | Some _ => Err TypeError
          end
      | Some _ => Err TypeError
      end
  | _ => Err TypeError
  end.
(** the loop: the dictionary it leaves and how it ends *)
Fixpoint load_all (fmt : yv) (specs : list yv) (acc : list (yv * IMS)) : list (yv * IMS) * result Datatypes.unit :=
  match specs with
  | [] => (acc, Ok tt)
  | s :: r => match load_one fmt s with Ok (k, v) => load_all fmt r (iset k v acc) | Err e => (acc, Err e) end
  end.
Record root := ROOT { r_tree : yv; r_fit : option (yv * list (string * yv)); r_images : option (list (yv * IMS)) }.
(** root.py:176-204; what iterates over data that is not a list is not modelled beyond the error *)
Definition image_series (r : root) : root * result (list (yv * IMS)) :=
  match r_images r with
  | Some d => (r, Ok d)
  | None =>
      let keep d := ROOT (r_tree r) (r_fit r) (Some d) in
      match cfg_get (r_tree r) "image_series:format" None with
      | Err e => (keep [], Err e)
      | Ok fmt =>
          match cfg_get (r_tree r) "image_series:data" None with
          | Err e => (keep [], Err e)
          | Ok (YList specs) => let '(d, res) := load_all fmt specs [] in (keep d, do _ <- res; Ok d)
          | Ok _ => (keep [], Err TypeError)
          end
      end
  end.
(** root.py:84-88 and fitgrains.py:41-44, 56-63: the section is made, with its exclusion parameters, at the first access *)
Definition fit_grains_exclusions (r : root) : root * result (yv * list (string * yv)) :=
  match r_fit r with
  | Some e => (r, Ok e)
  | None => match exclusion_parameters "fit_grains" (r_tree r) with
            | Ok e => (ROOT (r_tree r) (Some e) (r_images r), Ok e)
            | Err x => (r, Err x)
            end
  end.
(** Config.set on the root *)
Definition root_set (k : string) (v : yv) (r : root) : root :=
  match cfg_set (r_tree r) k v with Ok (t, _) => ROOT t (r_fit r) (r_images r) | Err _ => r end.
Inductive op := OpSet (k : string) (v : yv) | OpImages | OpFit.
Definition step (r : root) (o : op) : root :=
  match o with OpSet k v => root_set k v r | OpImages => fst (image_series r) | OpFit => fst (fit_grains_exclusions r) end.
Definition run (r : root) (ops : list op) : root := fold_left step ops r.
End Root.
