(** Model of the choice of reflections for eta-omega maps (generate_eta_ome_maps and load_eta_ome_maps in
    hedm/findorientations.py, extract_polar_maps in core/instrument/hedm_instrument.py), of the archive written and read by
    EtaOmeMaps (hedm/xrdutil/utils.py), and of the cleaning and filtering of the maps and the positions of seed spots
    (hedm/findorientations.py).  Real numbers stand for floating point numbers; [None] is a NaN. *)
From Coq Require Import Reals List ZArith QArith.
From Verif Require Import Prelude Lin TensorModel RotModel FibModel PlaneModel EomModel.
Import ListNotations.
Local Close Scope Q_scope.
Local Open Scope nat_scope.

(** ** the choice of the reflections *)
(** what [hkls] can be: nothing, a list or an array of ids, or a list of Miller indices already turned into ids by getHKLID
    (findorientations.py:489-494).  Simplification: the ids are natural numbers. *)
Inductive hkl_arg := HNone | HList (ids : list nat) | HArray (ids : list nat).
(** findorientations.py:488 [if hkls:]: the truth of a list is that it is not empty; numpy refuses an array of more than
    one element and takes the truth of the only element of an array of one; an empty array is false *)
Definition overriding (a : hkl_arg) : result (option (list nat)) :=
  match a with
  | HNone => Ok None
  | HList [] => Ok None
  | HList ids => Ok (Some ids)
  | HArray [] => Ok None
  | HArray [k] => Ok (if Nat.eqb k 0 then None else Some [k])
  | HArray _ => Err ValueError
  end.
(** np.unique(hkls) has as many elements as hkls *)
Fixpoint no_dup (l : list nat) : bool :=
  match l with [] => true | x :: t => negb (existsb (Nat.eqb x) t) && no_dup t end.
(** findorientations.py:479-533, [active] being the ids of the reflections not excluded; [config] is the setting in the
    configuration (None, or ids) *)
Definition choose (active : list nat) (arg : hkl_arg) (config : option (list nat)) : result (list nat) :=
  do o <- overriding arg;
  match match o with Some ids => Some ids | None => config end with
  | None => Ok active
  | Some ids =>
      if no_dup ids
      then if forallb (fun k => existsb (Nat.eqb k) active) ids then Ok ids else Err RuntimeError
      else Err AssertionError
  end.

(** an id handed to extract_polar_maps: a numpy integer or a plain Python one *)
Inductive idnum := NpId (k : nat) | PyId (k : nat).
(** np.where(active_hklIDs == input_hklID)[0]: active_hklIDs is a list; compared with a numpy integer it is first made an
    array, compared with a plain int it is just False, of which np.where finds nothing (recent numpy: ValueError) *)
Definition matches (active : list nat) (k : idnum) : list nat :=
  match k with
  | NpId k => filter (fun i => Nat.eqb (nth i active 0) k) (seq 0 (length active))
  | PyId _ => []
  end.
(** hedm_instrument.py:1109-1125: the two-theta ranges of the chosen reflections *)
Definition chosen_ranges {B} (active : list nat) (ranges : list B) (sel : option (list idnum)) : result (list B) :=
  match sel with
  | None => Ok ranges
  | Some ids =>
      do idx <- map_res (fun k => match matches active k with [i] => Ok i | _ => Err RuntimeError end) ids;
      map_res (fun i => match nth_error ranges i with Some r => Ok r | None => Err IndexError end) idx
  end.

(** ** the archive of the maps: a reflection carries its id and its Miller indices (or anything that determines them) *)
Section Archive.
Context {H : Type}.
Notation refl := (option Q * (nat * H))%type.
(** what is saved of the plane data: the indices in the order shown (with the two-theta that they determine), the
    exclusions, and the list of the ids of the maps *)
Record archive := Archive { a_hkls : list (option Q * H); a_excl : list bool; a_ids : list nat }.
(** utils.py:102-125 *)
Definition save (s : pd (nat * H)) (ids : list nat) : result archive :=
  do ex <- exclusions s;
  Ok (Archive (map (fun x => (fst x, snd (snd x))) (data s)) ex ids).
(** utils.py:85-95 with the constructor of PlaneData, which numbers the reflections in the order given; no two-theta limit is
    given.  [srt] is what argsort makes of the new list. *)
Definition load (a : archive) (srt : list nat) : result (pd (nat * H) * list nat) :=
  let raw := map (fun p => (fst (snd p), (fst p, snd (snd p)))) (combine (seq 0 (length (a_hkls a))) (a_hkls a)) in
  do s <- calc raw srt None None;
  do s' <- set_exclusions s (EMask (a_excl a));
  Ok (s', a_ids a).
End Archive.
Arguments archive : clear implicits.

(** ** cleaning and filtering *)
Local Open Scope R_scope.
(** numpy.median of a list of numbers: the middle one, or the mean of the two middle ones, of the sorted list; NaN for none *)
Fixpoint insert_r (x : R) (l : list R) : list R :=
  match l with [] => [x] | y :: t => if rle x y then x :: l else y :: insert_r x t end.
Fixpoint sort_r (l : list R) : list R := match l with [] => [] | x :: t => insert_r x (sort_r t) end.
Definition median (l : list R) : option R :=
  let s := sort_r l in
  let n := List.length l in
  match n with
  | O => None
  | _ => Some ((nth (Nat.div (n - 1) 2) s 0 + nth (Nat.div n 2) s 0) / 2)
  end.
Definition numbers (l : list cell) : list R := flat_map (fun c => match c with Some x => [x] | None => [] end) l.
(** numpy.min of a list: NaN if there is one *)
Fixpoint np_min (l : list cell) : cell :=
  match l with
  | [] => None
  | [c] => c
  | c :: t => match c, np_min t with Some x, Some y => Some (Rmin x y) | _, _ => None end
  end.
(** findorientations.py:74-81, [clean_map] of the flattened map; the minimum of an empty map is a ValueError *)
Definition clean_map (m : list cell) : result (list cell) :=
  let med := median (numbers m) in
  let m1 := map (fun c => match c with None => med | Some x => Some x end) m in
  let m2 := map (fun c => match c, med with Some x, Some d => if rle x d then Some d else Some x | _, _ => c end) m1 in
  match m2 with
  | [] => Err ValueError
  | _ => let lo := np_min m2 in Ok (map (fun c => osub c lo) m2)
  end.
(** findorientations.py:569-592, [_filter_eta_ome_maps] for one map without the gauss-laplace filter: the nanmedian of each
    column is subtracted from the column.  The map is a list of rows (omega) of [n] columns (eta). *)
Definition column (m : list (list cell)) (j : nat) : list cell := map (fun row => nth j row None) m.
Definition nanmedian (l : list cell) : cell := median (numbers l).
Definition filter_map (n : nat) (m : list (list cell)) : list (list cell) :=
  map (fun row => map (fun j => osub (nth j row None) (nanmedian (column m j))) (seq 0 n)) m.
(** findorientations.py:431-444: the setting filter_maps is nothing (or False), True, or a number of pixels; [log_filter] is
    the negative of scipy's gauss-laplace filter *)
Inductive filter_setting := FOff | FMedian | FLog (pixels : R).
Definition filter_requested (n : nat) (log_filter : R -> list (list cell) -> list (list cell)) (f : filter_setting) (m : list (list cell)) :=
  match f with
  | FOff => m
  | FMedian => filter_map n m
  | FLog w => if Req_EM_T w 0 then m else log_filter w (filter_map n m)
  end.
(** load_eta_ome_maps (397-428): the file is read unless [clean]; the map is generated if that fails in one of two ways;
    filtered only without [clean] *)
Definition load_maps {M} (clean : bool) (filt : M -> M) (read : result M) (generate : result M) : result M :=
  if clean then generate
  else do m <- match read with
               | Ok m => Ok m
               | Err AttributeError | Err OSError => generate
               | Err e => Err e
               end;
       Ok (filt m).

(** ** seed spots: findorientations.py:113-114 and 133-139; a ring is its indices and two-theta, a peak its position in the map
    in pixels (omega, eta), or NaN *)
Record seed {H} := Seed { sd_hkl : H; sd_tth : R; sd_eta : R; sd_ome : R }.
Arguments seed : clear implicits.
Arguments Seed {H}.
Definition seeds {H} (omegas etas ome_edges eta_edges : list R) (rings : list (H * R)) (coms : list (list (option (R * R)))) : result (list (seed H)) :=
  match omegas, etas, ome_edges, eta_edges with
  | w0 :: w1 :: _, e0 :: e1 :: _, we :: _, ee :: _ =>
      Ok (flat_map (fun rc => flat_map (fun p =>
            match p with
            | None => []
            | Some (i, j) => [Seed (fst (fst rc)) (snd (fst rc)) (ee + (5 / 10 + j) * (e1 - e0)) (we + (5 / 10 + i) * (w1 - w0))]
            end) (snd rc)) (combine rings coms))
  | _, _, _, _ => Err IndexError
  end.
