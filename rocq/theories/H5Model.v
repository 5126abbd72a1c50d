(** Model of core/utils/hdf5.py: dictionaries to and from HDF5 groups, with object identity. *)
From Coq Require Import String.
From Verif Require Import Prelude.
Local Notation length := List.length.

(** Values at the ends of the dictionary tree. *)
Inductive leaf :=
| LNone | LStr (s : string) | LNum (z : Z)
| LArr (shape : list nat) (data : list Z)   (* numeric ndarray, or a list of numbers *)
| LUArr (l : list string)                    (* ndarray of unicode dtype *)
| LStrs (l : list string).                   (* list of str *)

(** A heap of dict objects.  An object lists its entries most recently inserted first, so that popitem takes
    the head. *)
Inductive item := HLeaf (l : leaf) | HRef (id : nat).
Notation obj := (list (string * item)).
Notation heap := (list obj).

(** Datasets and groups in the file.  Names containing "/" (HDF5 paths) are not modelled. *)
Inductive dset := DStr (s : string) | DStrs (l : list string) | DArr (shape : list nat) (data : list Z).
Inductive h5 := H5Set (d : dset) | H5Group (g : list (string * h5)).

Section ArrayStr.
(** [str(item)] of a unicode array: its printed form. *)
Variable array_str : list string -> string.

(** hdf5.py:38-52, the leaf branch ([asattr] = False): [np.atleast_1d] then create_dataset; object and unicode
    arrays raise TypeError, which is handled as written. *)
Definition write_leaf (l : leaf) : option dset :=
  match l with
  | LNone => None
  | LStr s => Some (DStr s)
  | LNum z => Some (DArr [1] [z])
  | LArr [] data => Some (DArr [1] data)
  | LArr shape data => Some (DArr shape data)
  | LUArr l => Some (DStr (array_str l))
  | LStrs l => Some (DStrs l)
  end.

(** hdf5.py:6-52, [unwrap_dict_to_h5]: [while len(d) > 0: key, item = d.popitem() ...].  [None] when the fuel
    runs out or a reference is dangling. *)
Fixpoint to_h5 (fuel : nat) (h : heap) (id : nat) : option (heap * list (string * h5)) :=
  match fuel with
  | O => None
  | S f =>
      match nth_error h id with
      | None => None
      | Some [] => Some (h, [])
      | Some ((key, it) :: rest) =>
          let h1 := set_nth id rest h in
          match it with
          | HRef id2 =>
              match to_h5 f h1 id2 with
              | None => None
              | Some (h2, sub) =>
                  match to_h5 f h2 id with
                  | None => None
                  | Some (h3, g) => Some (h3, (key, H5Group sub) :: g)
                  end
              end
          | HLeaf l =>
              match to_h5 f h1 id with
              | None => None
              | Some (h3, g) =>
                  match write_leaf l with
                  | None => Some (h3, g)
                  | Some d => Some (h3, (key, H5Set d) :: g)
                  end
              end
          end
      end
  end.
End ArrayStr.

(** A nested dictionary as a value. *)
Inductive tree := TLeaf (l : leaf) | TDict (d : list (string * tree)).

(** hdf5.py:75-89: the dataset branch of [unwrap_h5_to_dict]. *)
Definition read_dset (d : dset) : leaf :=
  match d with
  | DStr s => LStr s
  | DStrs l => LStrs l
  | DArr [1] (z :: _) => LNum z
  | DArr shape data => LArr shape data
  end.
(** hdf5.py:55-89, [unwrap_h5_to_dict] (entries in the order of the group; h5py's name order is not modelled). *)
Fixpoint from_h5 (x : h5) : tree :=
  match x with
  | H5Set d => TLeaf (read_dset d)
  | H5Group g => TDict ((fix go (g : list (string * h5)) := match g with [] => [] | (k, y) :: r => (k, from_h5 y) :: go r end) g)
  end.

(** save.py:433-434: the metadata group is written from [self._meta.copy()], a shallow copy. *)
Definition save_meta (array_str : list string -> string) (fuel : nat) (h : heap) (meta : nat) : option (heap * list (string * h5)) :=
  match nth_error h meta with
  | None => None
  | Some d => to_h5 array_str fuel (h ++ [d]) (length h)
  end.
