(** Model of core/instrument/physics_package.py (line numbers are of this file unless said otherwise) and of
    core/instrument/detector_coatings.py.  An attribute has a value: None, a string or a number.  Names of methods and of class
    attributes, and names that start with an underscore, are left out as names to assign to; floats are rationals. *)
From Coq Require Import String Ascii List QArith.
From Verif Require Import Prelude.
Import ListNotations.
Local Open Scope string_scope.
Local Open Scope list_scope.
Local Notation length := List.length.

Inductive pval := PNone | PStr (s : string) | PNum (q : Q).
Definition dict (A : Type) := list (string * A).
(** reading and writing an entry of a Python dict *)
Fixpoint get {A} (k : string) (d : dict A) : option A :=
  match d with [] => None | (k', v) :: t => if String.eqb k' k then Some v else get k t end.
Fixpoint put {A} (k : string) (v : A) (d : dict A) : dict A :=
  match d with [] => [(k, v)] | (k', v') :: t => if String.eqb k' k then (k', v) :: t else (k', v') :: put k v t end.

(** key.count('_') *)
Fixpoint count_us (s : string) : nat :=
  match s with EmptyString => 0 | String c t => (if Ascii.eqb c "_" then 1 else 0) + count_us t end.
(** key.split('_', 1); of a key with one underscore also key.split('_') *)
Fixpoint split_us (s : string) : string * string :=
  match s with
  | EmptyString => ("", "")
  | String c t => if Ascii.eqb c "_" then ("", t) else let '(a, b) := split_us t in (String c a, b)
  end.
Definition starts_us (s : string) : bool := match s with String c _ => Ascii.eqb c "_" | EmptyString => false end.

Inductive kind := HED | HEDM.
(** 122-130, 199-201 *)
Definition layer_types (k : kind) : list string :=
  match k with HED => ["ablator"; "heatshield"; "pusher"; "sample"; "reflective"; "window"; "pinhole"] | HEDM => ["sample"] end.
(** 10-26, 131-133, 202-204, 102-104: the fields of a new layer, with their values; the class is by the name of the layer *)
Definition make_layer (k : kind) (name : string) : dict pval :=
  [("name", PStr name); ("material", PStr ""); ("density", PNum 0); ("thickness", PNum 0); ("formula", PNone)] ++
  match k with
  | HED => if String.eqb name "pinhole" then [("diameter", PNum 0)] else []
  | HEDM => if String.eqb name "sample" then [("geometry", PStr "")] else []
  end.
(** fields(layer) of dataclasses: what the class declares, whatever was assigned since *)
Definition fields (k : kind) (name : string) : list string := map fst (make_layer k name).

(** self._layers, and the rest of the dictionary of the object *)
Record package := Pkg { pk : kind; layers : dict (dict pval); own : dict pval }.
(** 72-75 *)
Definition fresh (k : kind) : package := Pkg k (map (fun n => (n, make_layer k n)) (layer_types k)) [].

(** 77-83: called if nothing else has the name *)
Definition getattr_missing (p : package) (key : string) : result pval :=
  if andb (negb (starts_us key)) (Nat.eqb (count_us key) 1) then
    let '(name, attr) := split_us key in
    match get name (layers p) with
    | Some l => match get attr l with Some v => Ok v | None => Err AttributeError end
    | None => Err AttributeError
    end
  else Err AttributeError.
Definition plain_get (p : package) (key : string) : result pval :=
  match get key (own p) with Some v => Ok v | None => getattr_missing p key end.
(** properties of the class come first: 135-142, 206-215; the Exception of 215 is a RuntimeError here *)
Definition get_attr (p : package) (key : string) : result pval :=
  match pk p with
  | HED =>
    if String.eqb key "type" then Ok (PStr "HED")
    else if String.eqb key "pinhole_radius" then
      do d <- plain_get p "pinhole_diameter"; match d with PNum q => Ok (PNum ((1 # 2) * q)) | _ => Err TypeError end
    else plain_get p key
  | HEDM =>
    if String.eqb key "type" then Ok (PStr "HEDM")
    else if String.eqb key "sample_diameter" then
      do g <- plain_get p "sample_geometry";
      match g with PStr s => if String.eqb s "cylinder" then plain_get p "sample_thickness" else Err RuntimeError | _ => Err RuntimeError end
    else plain_get p key
  end.

(** 86-89 *)
Definition set_layer (p : package) (key : string) (v : pval) : package :=
  if Nat.eqb (count_us key) 1 then
    let '(name, attr) := split_us key in
    match get name (layers p) with
    | Some l => Pkg (pk p) (put name (put attr v l) (layers p)) (own p)
    | None => p
    end
  else p.
(** 85-92 for a name that is no property *)
Definition plain_set (p : package) (key : string) (v : pval) : package :=
  let p := set_layer p key v in Pkg (pk p) (layers p) (put key v (own p)).
(** 85-92, 143-145: the object afterwards, and the exception if there is one; the layer is written before a property refuses *)
Definition set_attr (p : package) (key : string) (v : pval) : package * option exn :=
  let q := set_layer p key v in
  if String.eqb key "type" then (q, Some AttributeError)
  else match pk p with
  | HED => if String.eqb key "pinhole_radius" then
             match v with PNum r => (plain_set q "pinhole_diameter" (PNum (2 * r)), None) | _ => (q, Some TypeError) end
           else (plain_set p key v, None)
  | HEDM => if String.eqb key "sample_diameter" then (q, Some AttributeError) else (plain_set p key v, None)
  end.
(** 69-70, 109-111 *)
Fixpoint deserialize (p : package) (kwargs : dict pval) : package * option exn :=
  match kwargs with
  | [] => (p, None)
  | (k, v) :: t => match set_attr p k v with (q, None) => deserialize q t | (q, Some e) => (q, Some e) end
  end.
(** 64-70 *)
Definition construct (k : kind) (kwargs : dict pval) : result package :=
  match deserialize (fresh k) kwargs with (p, None) => Ok p | (_, Some e) => Err e end.
(** 94-100 *)
Definition attributes_to_serialize (p : package) : list string :=
  flat_map (fun nl => map (fun f => (fst nl ++ "_" ++ f)%string) (fields (pk p) (fst nl))) (layers p).
(** 106-107 *)
Fixpoint read_all (p : package) (keys : list string) : result (dict pval) :=
  match keys with [] => Ok [] | k :: t => do v <- get_attr p k; do r <- read_all p t; Ok ((k, v) :: r) end.
Definition serialize (p : package) : result (dict pval) := read_all p (attributes_to_serialize p).

(** 178-179 *)
Definition layer_thickness (p : package) (layer : string) : result pval :=
  match get layer (layers p) with
  | None => Err KeyError
  | Some l => match get "thickness" l with Some v => Ok v | None => Err AttributeError end
  end.
(** list.index *)
Fixpoint index_of (s : string) (l : list string) : option nat :=
  match l with [] => None | x :: t => if String.eqb x s then Some 0%nat else option_map S (index_of s t) end.
(** 169-176: of a package of kind HED *)
Definition layer_standoff (p : package) (layer : string) : result Q :=
  match index_of layer (layer_types HED) with
  | None => Err ValueError
  | Some idx =>
    fold_left (fun acc i => do r <- acc; do v <- layer_thickness p (nth i (layer_types HED) "");
                            match v with PNum t => Ok (r + t)%Q | _ => Err TypeError end)
      (seq (idx + 1) (length (layer_types HED) - 1 - (idx + 1))) (Ok 0%Q)
  end.

(** truth of a value in Python *)
Definition truthy (v : pval) : bool :=
  match v with PNone => false | PStr s => negb (String.eqb s "") | PNum q => negb (Qeq_bool q 0) end.
(** one number if there is one energy *)
Inductive lengths (L : Type) := Single (l : L) | Several (ls : list L).
Arguments Single {L} l. Arguments Several {L} ls.
Definition squeeze {L} (ls : list L) : lengths L := match ls with [x] => Single x | _ => Several ls end.
(** 147-167; the energies are a float, a list or an array, given as a list; calculate_linear_absorption_length of
    core/material/utils.py is a parameter: a length for each density, formula and energy *)
Definition absorption_length {E L} (linear : pval -> pval -> E -> L) (p : package) (layer : string) (energy : list E) : result (lengths L) :=
  do density <- get_attr p (layer ++ "_density")%string;
  do formula <- get_attr p (layer ++ "_formula")%string;
  do formula <- (if truthy formula then Ok formula else get_attr p (layer ++ "_material")%string);
  Ok (squeeze (map (linear density formula) energy)).

(** detector_coatings.py: a layer of a detector; [coat] holds the value behind each property and whatever else is assigned *)
Inductive layer_class := FilterC | CoatingC | PhosphorC.
Record layer := Layer { cls : layer_class; coat : dict pval }.
(** detector_coatings.py:47-54, 163-168 *)
Definition coat_attributes (c : layer_class) : list string :=
  ["material"; "density"; "thickness"; "formula"] ++ match c with PhosphorC => ["readout_length"; "pre_U0"] | _ => [] end.
(** the names that __init__ of AbstractLayer takes, detector_coatings.py:33-41 *)
Definition coat_kwargs : list string := ["material"; "density"; "thickness"; "readout_length"; "pre_U0"; "formula"].
Definition kwarg (k : string) (kw : dict pval) : pval := match get k kw with Some v => v | None => PNone end.
(** detector_coatings.py:33-45, 144-161: an unknown name is refused, and a phosphor without its two numbers *)
Definition make_coat (c : layer_class) (kw : dict pval) : result layer :=
  if forallb (fun kv => existsb (String.eqb (fst kv)) coat_kwargs) kw then
    let base := [("material", kwarg "material" kw); ("density", kwarg "density" kw); ("thickness", kwarg "thickness" kw); ("formula", kwarg "formula" kw)] in
    match c with
    | PhosphorC => match get "readout_length" kw, get "pre_U0" kw with
                   | Some r, Some u => Ok (Layer c (base ++ [("readout_length", r); ("pre_U0", u)]))
                   | _, _ => Err KeyError
                   end
    | _ => Ok (Layer c base)
    end
  else Err TypeError.
(** detector_coatings.py:56-90, 170-188: numbers that are None read as 0.0; readout_length and pre_U0 are properties of a phosphor only *)
Definition coat_get (l : layer) (k : string) : result pval :=
  match get k (coat l) with
  | None => Err AttributeError
  | Some v =>
    let number := orb (orb (String.eqb k "density") (String.eqb k "thickness"))
                      (match cls l with PhosphorC => orb (String.eqb k "readout_length") (String.eqb k "pre_U0") | _ => false end) in
    Ok (if number then match v with PNone => PNum 0 | _ => v end else v)
  end.
Definition coat_set (l : layer) (k : string) (v : pval) : layer := Layer (cls l) (put k v (coat l)).
(** detector_coatings.py:136-141 *)
Fixpoint coat_read_all (l : layer) (keys : list string) : result (dict pval) :=
  match keys with [] => Ok [] | k :: t => do v <- coat_get l k; do r <- coat_read_all l t; Ok ((k, v) :: r) end.
Definition coat_serialize (l : layer) : result (dict pval) := coat_read_all l (coat_attributes (cls l)).
Definition coat_deserialize (l : layer) (kw : dict pval) : layer := fold_left (fun l kv => coat_set l (fst kv) (snd kv)) kw l.
