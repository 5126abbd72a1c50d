(** Model of parameter naming (lmfit_param_handling.py), hkl strings and calibration picks. *)
From Coq Require Import String Ascii DecimalString.
From Verif Require Import Prelude.
Local Notation length := List.length.
Local Open Scope string_scope.
Local Open Scope list_scope.
Infix "+++" := String.append (at level 60, right associativity).

(** str() of a non-negative and of any int *)
Definition dec (n : nat) : string := NilZero.string_of_uint (Nat.to_uint n).
Definition py_str (z : Z) : string := NilZero.string_of_int (Z.to_int z).

(** ** rename_to_avoid_collision *)
Section Rename.
Context {A : Type}.
Definition mem (s : string) (l : list string) : bool := existsb (String.eqb s) l.
(** dict item assignment: overwrite in place or append *)
Fixpoint dict_set (d : list (string * string)) (k v : string) : list (string * string) :=
  match d with
  | [] => [(k, v)]
  | (k', v') :: r => if String.eqb k k' then (k', v) :: r else (k', v') :: dict_set r k v
  end.
Fixpoint dict_get {V} (d : list (string * V)) (k : string) : option V :=
  match d with
  | [] => None
  | (k', v) :: r => if String.eqb k k' then Some v else dict_get r k
  end.

(** core/fitting/calibration/lmfit_param_handling.py:662-664, the [while] loop; running out of fuel is an error. *)
Fixpoint first_free (fuel i : nat) (name : string) (names : list string) : result nat :=
  match fuel with
  | O => Err OutOfFuel
  | S f => if mem (dec i +++ "_" +++ name) names then first_free f (i + 1) name names else Ok i
  end.
(** lmfit_param_handling.py:657-667, the body of the loop for the parameters still to do. *)
Fixpoint rename_loop (current : list string) (params new : list (string * A)) (mp : list (string * string)) : result (list (string * A) * list (string * string)) :=
  match params with
  | [] => Ok (new, mp)
  | (old, a) :: r =>
      let names := current ++ map fst new in
      do nm <- (if mem old names
                then do i <- first_free (S (length names)) 1 old names; Ok (dec i +++ "_" +++ old)
                else Ok old);
      rename_loop current r (new ++ [(nm, a)]) (dict_set mp old nm)
  end.
(** lmfit_param_handling.py:652-669 *)
Definition rename_params (params all_params : list (string * A)) : result (list (string * A) * list (string * string)) :=
  rename_loop (map fst all_params) params [] [].

(** lmfit_param_handling.py:718-728; the exception is modelled as [ValueError]. *)
Fixpoint duplicate_names (l : list (string * A)) : list string :=
  match l with
  | [] => []
  | (x, _) :: r => flat_map (fun y : string * A => if String.eqb x (fst y) then [x] else []) r ++ duplicate_names r
  end.
Definition validate_params (l : list (string * A)) : result unit :=
  match duplicate_names l with [] => Ok tt | _ => Err ValueError end.
End Rename.

(** ** detector parameter names *)
(** str.replace('-', '_') *)
Fixpoint dash_to_us (s : string) : string :=
  match s with
  | EmptyString => EmptyString
  | String c r => String (if Ascii.eqb c "-" then "_"%char else c) (dash_to_us r)
  end.
(** Python's [sub in s] *)
Fixpoint prefixb (p s : string) : bool :=
  match p, s with
  | EmptyString, _ => true
  | String a p', String b s' => Ascii.eqb a b && prefixb p' s'
  | _, _ => false
  end.
Fixpoint containsb (p s : string) : bool :=
  prefixb p s || match s with EmptyString => false | String _ r => containsb p r end.
(** code point order of str, as numpy sorts *)
Fixpoint str_leb (s t : string) : bool :=
  match s, t with
  | EmptyString, _ => true
  | String _ _, EmptyString => false
  | String a s', String b t' =>
      if Nat.ltb (nat_of_ascii a) (nat_of_ascii b) then true
      else if Nat.ltb (nat_of_ascii b) (nat_of_ascii a) then false else str_leb s' t'
  end.
Fixpoint ins (x : string) (l : list string) : list string :=
  match l with
  | [] => [x]
  | y :: r => if str_leb x y then x :: l else y :: ins x r
  end.
Definition np_sort (l : list string) : list string := fold_right ins [] l.

Section Distortion.
Context {V : Type}.
(** lmfit_param_handling.py:117 and 152-163 *)
Definition distortion_name (det_name : string) (i : nat) : string := dash_to_us det_name +++ "_distortion_param_" +++ dec i.
Definition distortion_params (det_name : string) (vals : list V) : list (string * V) :=
  map (fun iv : nat * V => (distortion_name det_name (fst iv), snd iv)) (combine (seq 0 (length vals)) vals).
(** lmfit_param_handling.py:384-398: [Ok None] when no parameter name matches; [expected] is the number of parameters of
    the detector's distortion, [None] when it has no distortion. *)
Definition update_distortion (det_name : string) (params : list (string * V)) (expected : option nat) : result (option (list V)) :=
  let pat := dash_to_us det_name +++ "_distortion_param" in
  if existsb (fun p => containsb pat (fst p)) params then
    match expected with
    | None => Err RuntimeError
    | Some n =>
        let names := np_sort (filter (containsb pat) (map fst params)) in
        do vals <- (fix get (l : list string) : result (list V) :=
                      match l with
                      | [] => Ok []
                      | x :: r => match dict_get params x with Some v => do t <- get r; Ok (v :: t) | None => Err KeyError end
                      end) names;
        if Nat.eqb (length vals) n then Ok (Some vals) else Err RuntimeError
    end
  else Ok None.
End Distortion.

(** ** hkl strings *)
(** str() of a list of Python ints *)
Fixpoint join_ints (l : list Z) : string :=
  match l with
  | [] => ""
  | [x] => py_str x
  | x :: r => py_str x +++ ", " +++ join_ints r
  end.
Definition py_str_list (l : list Z) : string := "[" +++ join_ints l +++ "]".
Definition bracket (c : ascii) : bool :=
  existsb (Ascii.eqb c) ["["; "]"; "("; ")"; "{"; "}"; ","]%char.
Fixpoint strip (s : string) : string :=
  match s with EmptyString => EmptyString | String c r => if bracket c then strip r else String c (strip r) end.
(** core/material/crystallography.py:97-112 and core/utils/hkl.py:6-9 *)
Definition hkl_to_str (l : list Z) : string := strip (py_str_list l).

(** str.split(): [cur] is the word being read; only the space is a separator in these strings. *)
Fixpoint split_ws (s cur : string) : list string :=
  match s with
  | EmptyString => match cur with EmptyString => [] | _ => [cur] end
  | String c r => if Ascii.eqb c " " then match cur with EmptyString => split_ws r "" | _ => cur :: split_ws r "" end
                  else split_ws r (cur +++ String c EmptyString)
  end.
(** int(): the forms with blanks, underscores or a leading '+' are not modelled (they are errors here). *)
Definition py_int (s : string) : result Z :=
  match NilZero.int_of_string s with Some d => Ok (Z.of_int d) | None => Err ValueError end.
Fixpoint map_int (l : list string) : result (list Z) :=
  match l with [] => Ok [] | x :: r => do z <- py_int x; do t <- map_int r; Ok (z :: t) end.
(** core/utils/hkl.py:12-13 *)
Definition str_to_hkl (s : string) : result (list Z) := map_int (split_ws s "").

(** ** calibration picks *)
Section Picks.
Context {V : Type}.
(** dictionary assignment with any values *)
Fixpoint dset (d : list (string * V)) (k : string) (v : V) : list (string * V) :=
  match d with
  | [] => [(k, v)]
  | (k', v') :: r => if String.eqb k k' then (k', v) :: r else (k', v') :: dset r k v
  end.
(** core/fitting/calibration/abstract_grain.py:138-153, for one detector: pairs of hkl and coordinates *)
Definition grain_picks (data : list (list Z * V)) : list (string * V) :=
  fold_left (fun d p => dset d (hkl_to_str (fst p)) (snd p)) data [].
(** abstract_grain.py:155-166 *)
Fixpoint grain_data (picks : list (string * V)) : result (list (list Z * V)) :=
  match picks with
  | [] => Ok []
  | (s, v) :: r => do h <- str_to_hkl s; do t <- grain_data r; Ok ((h, v) :: t)
  end.
End Picks.
Section PowderPicks.
Context {V : Type}.
(** dict.setdefault(k, []).append(v) *)
Fixpoint dappend (d : list (string * list V)) (k : string) (v : V) : list (string * list V) :=
  match d with
  | [] => [(k, [v])]
  | (k', l) :: r => if String.eqb k k' then (k', l ++ [v]) :: r else (k', l) :: dappend r k v
  end.
(** core/fitting/calibration/powder.py:143-156, for one detector: ring sets of rows, a row being (hkl, xy) *)
Definition powder_picks (data : list (list (list Z * V))) : list (string * list V) :=
  fold_left (fun d row => dappend d (hkl_to_str (fst row)) (snd row)) (concat data) [].
(** powder.py:158-176: one ring set per non-empty entry.  The columns other than hkl and xy become zero there and are not modelled. *)
Fixpoint powder_data (picks : list (string * list V)) : result (list (list (list Z * V))) :=
  match picks with
  | [] => Ok []
  | (s, []) :: r => powder_data r
  | (s, l) :: r => do h <- str_to_hkl s; do t <- powder_data r; Ok (map (fun v => (h, v)) l :: t)
  end.
End PowderPicks.

(** ** the powder calibrator's two-theta tolerance *)
(** core/fitting/calibration/powder.py:121-129; the state is the plane data's two-theta width in radians. *)
Section TthTol.
Variables (W : Type) (degrees radians : W -> W).
Definition tth_tol_get (width : option W) : option W := option_map degrees width.
Definition tth_tol_set (width : option W) (x : W) : result (option W) :=
  match tth_tol_get width with Some t => Ok (Some (radians t)) | None => Err TypeError end.
End TthTol.
