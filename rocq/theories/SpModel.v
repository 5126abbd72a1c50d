(** Model of the parameters of a fitted spectrum: core/fitting/utils.py:13-121.  Rational numbers stand for floats; no bound stands for an
    infinite one.  Left out: lmfit's clipping of a value to its bounds when it is read or set, and wildcards in patterns (none is used
    in the code).  RuntimeWarning, which is raised here like an error, is written RuntimeError. *)
From Coq Require Import String QArith Qabs List Bool.
From Verif Require Import Prelude NamesModel.
Import ListNotations.
Local Open Scope string_scope.
Local Open Scope list_scope.
Local Notation length := List.length.

(** an expression: the value of another parameter, or the sum of two *)
Inductive expr := ESame (n : string) | ESum (a b : string).
Record fprm := FP { f_val : Q; f_vary : bool; f_min : option Q; f_max : option Q; f_expr : option expr }.
Definition fparams := list (string * fprm).
Fixpoint fget (ps : fparams) (n : string) : option fprm := match ps with [] => None | (k, p) :: r => if String.eqb n k then Some p else fget r n end.
(** params.add: a name in use is replaced *)
Fixpoint fset (ps : fparams) (n : string) (q : fprm) : fparams := match ps with [] => [(n, q)] | (k, p) :: r => if String.eqb n k then (k, q) :: r else (k, p) :: fset r n q end.
(** a change of the attributes of the parameters with some names *)
Definition change (ps : fparams) (sel : string -> bool) (f : fprm -> fprm) : fparams := map (fun kp => (fst kp, if sel (fst kp) then f (snd kp) else snd kp)) ps.
Definition with_bounds (lo hi : option Q) (p : fprm) : fprm := FP (f_val p) (f_vary p) lo hi (f_expr p).
Definition with_expr (e : expr) (p : fprm) : fprm := FP (f_val p) (f_vary p) (f_min p) (f_max p) (Some e).

(** 18-20 *)
Definition extract_parameters_by_name (ps : fparams) (pat : string) : list string := filter (containsb pat) (map fst ps).
(** 23-29 *)
Definition set_refinement_by_name (ps : fparams) (root : string) (vary : bool) : result fparams :=
  match extract_parameters_by_name ps root with
  | [] => Err RuntimeError
  | _ => Ok (change ps (containsb root) (fun p => FP (f_val p) vary (f_min p) (f_max p) (f_expr p)))
  end.
(** 32-39, for one pattern: all are tied to the first *)
Definition set_equal (ps : fparams) (pat : string) : result fparams :=
  match extract_parameters_by_name ps pat with
  | [] => Err RuntimeError
  | first :: rest => Ok (change ps (fun n => existsb (String.eqb n) rest) (with_expr (ESame first)))
  end.
(** 46-64 *)
Definition set_bound_constraints (ps : fparams) (pat : string) (min_val max_val : option Q) (box : option Q) (percentage : bool) : fparams :=
  change ps (containsb pat) (fun p =>
    match box with
    | None => with_bounds min_val max_val p
    | Some b => let hval := if percentage then (1 # 2) * Qabs (f_val p * (b / 100)) else (1 # 2) * b in
                with_bounds (Some (f_val p - hval)) (Some (f_val p + hval)) p
    end).
(** 67-74: the tests follow one another *)
Definition set_width_mixing_bounds (ps : fparams) (min_w : Q) (max_w : option Q) : fparams :=
  map (fun kp => let p1 := if containsb "fwhm" (fst kp) then with_bounds (Some min_w) max_w (snd kp) else snd kp in
                 (fst kp, if containsb "mixing" (fst kp) then with_bounds (Some 0) (Some 1) p1 else p1)) ps.

Definition value_of (ps : fparams) (n : string) : Q := match fget ps n with Some p => f_val p | None => 0 end.
(** numpy.argsort of the values, applied to the names *)
Fixpoint insert_by (key : string -> Q) (x : string) (l : list string) : list string :=
  match l with [] => [x] | y :: r => if Qle_bool (key x) (key y) then x :: l else y :: insert_by key x r end.
Definition sort_by (key : string -> Q) (l : list string) : list string := fold_right (insert_by key) [] l.
(** core/matrixutil.py:423-462 for one row: the number of values more than the tolerance above the one before *)
Fixpoint count_unique (key : string -> Q) (tol : Q) (sorted : list string) : nat :=
  match sorted with
  | a :: ((b :: _) as t) => ((if Qle_bool (Qabs (key b - key a)) tol then 0 else 1) + count_unique key tol t)%nat
  | [_] => 1
  | [] => 0
  end.
(** 107-121 *)
Fixpoint chain (ps : fparams) (w0 w1 min_sep : Q) (prev : string) (ip : nat) (names : list string) : fparams :=
  match names with
  | [] => ps
  | n :: r =>
      let new := "pksep" +++ dec ip in
      let ps1 := fset ps new (FP (value_of ps n - value_of ps prev) true (Some min_sep) (Some (w1 - w0)) None) in
      let ps2 := change ps1 (String.eqb n) (with_expr (ESum prev new)) in
      chain ps2 w0 w1 min_sep n (S ip) r
  end.
(** 77-121: the length of an array squeezed to no dimension is a TypeError *)
Definition set_peak_center_bounds (ps : fparams) (w0 w1 min_sep : Q) : result fparams :=
  let target := extract_parameters_by_name ps "cen" in
  let npks := length target in
  if Nat.ltb 1 npks then
    let ps1 := change ps (containsb "cen") (with_bounds (Some (w0 + min_sep)) (Some (w1 - min_sep))) in
    let sorted := sort_by (value_of ps) target in
    let uniq := count_unique (value_of ps) min_sep sorted in
    if Nat.eqb uniq 1 then Err TypeError
    else if Nat.ltb uniq npks then Err RuntimeError
    else match sorted with [] => Ok ps1 | first :: rest => Ok (chain ps1 w0 w1 min_sep first 0 rest) end
  else Ok ps.
