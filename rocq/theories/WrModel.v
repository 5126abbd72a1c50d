(** Model of the result writers of core/instrument/hedm_instrument.py (line numbers are of this file): PatchDataWriter, GrainDataWriter and
    the naming of spots by GrainDataWriter_h5.  A file is the text written to it so far.  How a number is written in the formats e and f is
    left open ([etext], [ftext]); logarithm and inverse of a matrix (scipy, numpy) are parameters.  Grain identifiers and indices are
    integers already.  Opening and closing of files is left out. *)
From Coq Require Import String Ascii List ZArith Reals Decimal DecimalString.
From Verif Require Import Prelude Lin TensorModel NamesModel.
Import ListNotations.
Local Open Scope string_scope.
Local Open Scope list_scope.
Local Notation length := List.length.

(** '{:<w}' for a text: spaces are added on the right up to the width *)
Fixpoint spaces (n : nat) : string := match n with O => "" | S k => String " " (spaces k) end.
Definition ljust (w : nat) (s : string) : string := s +++ spaces (w - String.length s).
(** str.join *)
Fixpoint join (d : string) (l : list string) : string :=
  match l with [] => "" | [x] => x | x :: r => x +++ d +++ join d r end.
Definition delim : string := "  ".

(** an item of a row: a Python int or a float *)
Inductive item (V : Type) := IInt (z : Z) | IFlt (v : V).
Arguments IInt {V}. Arguments IFlt {V}.

Section Writers.
Context {V : Type}.
(** format(x, '.16e') and so on (number of digits, None for the default), and format(x, 'f') *)
Variable etext : option nat -> item V -> string.
Variable ftext : item V -> string.
(** numpy.nan *)
Variable nan : V.

Inductive spec := Fd (w : nat) | Fe (w : nat) (digits : option nat) | Ff (w : nat).
(** one replacement field; 'd' refuses a float *)
Definition format1 (f : spec) (x : item V) : result string :=
  match f, x with
  | Fd w, IInt z => Ok (ljust w (py_str z))
  | Fd _, IFlt _ => Err ValueError
  | Fe w d, _ => Ok (ljust w (etext d x))
  | Ff w, _ => Ok (ljust w (ftext x))
  end.
(** self._delim.join(fields).format of the items: a missing item is an IndexError, further ones are ignored *)
Fixpoint format_all (fs : list spec) (xs : list (item V)) : result (list string) :=
  match fs, xs with
  | [], _ => Ok []
  | _ :: _, [] => Err IndexError
  | f :: fs', x :: xs' => do s <- format1 f x; do r <- format_all fs' xs'; Ok (s :: r)
  end.
Definition format_group (fs : list spec) (xs : list (item V)) : result string := do l <- format_all fs xs; Ok (join delim l).

(** ** PatchDataWriter *)
(** 2205-2220 *)
Definition patch_items : list string :=
  ["# ID"; "PID"; "H"; "K"; "L"; "sum(int)"; "max(int)"; "pred tth"; "pred eta"; "pred ome"; "meas tth"; "meas eta"; "meas ome"; "pred X"; "pred Y"; "meas X"; "meas Y"].
Definition patch_header : string :=
  join delim [join delim (map (ljust 6) (firstn 5 patch_items)); join delim (map (ljust 12) (firstn 2 (skipn 5 patch_items)));
              join delim (map (ljust 23) (firstn 10 (skipn 7 patch_items)))].
Definition nl : string := String (ascii_of_nat 10) "".
(** 2221-2225 *)
Definition patch_open : string := patch_header +++ nl.
(** a call of dump_patch *)
Record patch := Patch { a_peak : Z; a_hkl_id : Z; a_hkl : list Z; a_sum : V; a_max : V; a_pangs : list V; a_mangs : option (list V); a_pxy : list V; a_mxy : option (list V) }.
(** 2239-2254; None has no attribute tolist *)
Definition patch_row (a : patch) : result (list (item V)) :=
  let '(s, m, mangs, mxy) := match a_mangs a with
    | None => (nan, nan, [nan; nan; nan], Some [nan; nan])
    | Some l => (a_sum a, a_max a, l, a_mxy a)
    end in
  match mxy with
  | None => Err AttributeError
  | Some mxy => Ok ([IInt (a_peak a); IInt (a_hkl_id a)] ++ map IInt (a_hkl a) ++ [IFlt s; IFlt m] ++ map IFlt (a_pangs a) ++ map IFlt mangs ++ map IFlt (a_pxy a) ++ map IFlt mxy)
  end.
(** 2256-2263 *)
Definition patch_line (res : list (item V)) : result string :=
  do a <- format_group (repeat (Fd 6) 5) (firstn 5 res);
  do b <- format_group (repeat (Fe 12 None) 2) (firstn 2 (skipn 5 res));
  do c <- format_group (repeat (Fe 23 (Some 16%nat)) 10) (skipn 7 res);
  Ok (join delim [a; b; c]).
(** 2233-2265: the file after the call *)
Definition dump_patch (file : string) (a : patch) : result string :=
  do res <- patch_row a; do line <- patch_line res; Ok (file +++ line +++ nl).
Fixpoint dump_patches (file : string) (l : list patch) : result string :=
  match l with [] => Ok file | a :: r => do f <- dump_patch file a; dump_patches f r end.
End Writers.

(** ** GrainDataWriter *)
(** 2294-2305 *)
Definition grain_items : list string :=
  ["# grain ID"; "completeness"; "chi^2"; "exp_map_c[0]"; "exp_map_c[1]"; "exp_map_c[2]"; "t_vec_c[0]"; "t_vec_c[1]"; "t_vec_c[2]";
   "inv(V_s)[0,0]"; "inv(V_s)[1,1]"; "inv(V_s)[2,2]"; "inv(V_s)[1,2]*sqrt(2)"; "inv(V_s)[0,2]*sqrt(2)"; "inv(V_s)[0,1]*sqrt(2)";
   "ln(V_s)[0,0]"; "ln(V_s)[1,1]"; "ln(V_s)[2,2]"; "ln(V_s)[1,2]"; "ln(V_s)[0,2]"; "ln(V_s)[0,1]"].
(** 2306-2313 *)
Definition grain_header : string :=
  join delim [join delim (map (ljust 12) (firstn 3 grain_items)); join delim (map (ljust 23) (skipn 3 grain_items))].
Section Grains.
Variable etext : option nat -> item R -> string.
Variable ftext : item R -> string.
Variable logm : m3 -> m3.
Variable minv : m3 -> m3.
(** an array of numbers with the row to be written next, or a file *)
Inductive gwriter := ToArray (rows : list (list R)) (next : nat) | ToFile (text : string).
(** 2271-2289 and 2314-2319; [array] has its number of columns beside its rows.  The message of the failing assertion reads
    array.shape[21], an IndexError for an array of two dimensions *)
Definition open_grain_writer (filename : bool) (array : option (nat * list (list R))) : result gwriter :=
  match array with
  | None => if filename then Ok (ToFile (grain_header +++ nl)) else Err RuntimeError
  | Some (cols, rows) => if Nat.eqb cols 21 then Ok (ToArray rows 0) else Err IndexError
  end.
Definition v6_of (l : list R) : v6 := let g k := nth k l 0%R in V6 (g 0%nat) (g 1%nat) (g 2%nat) (g 3%nat) (g 4%nat) (g 5%nat).
Definition v6_list (v : v6) : list R := [c0 v; c1 v; c2 v; c3 v; c4 v; c5 v].
(** 2328-2339 *)
Definition grain_row (id : Z) (completeness chisq : R) (gp : list R) : list (item R) :=
  let emat := logm (minv (vecMVToSymm (v6_of (skipn 6 gp)) true)) in
  let evec := symmToVecMV emat false in
  [IInt id; IFlt completeness; IFlt chisq] ++ map IFlt gp ++ map IFlt (v6_list evec).
Definition to_real (x : item R) : R := match x with IInt z => IZR z | IFlt v => v end.
Definition set_row (n : nat) (row : list R) (rows : list (list R)) : list (list R) :=
  firstn n rows ++ match skipn n rows with [] => [] | _ :: r => row :: r end.
Record grain := Gr { g_id : Z; g_comp : R; g_chisq : R; g_params : list R }.
(** 2326-2357 *)
Definition dump_grain (w : gwriter) (g : grain) : result gwriter :=
  if negb (Nat.eqb (length (g_params g)) 12) then Err AssertionError else
  let res := grain_row (g_id g) (g_comp g) (g_chisq g) (g_params g) in
  match w with
  | ToArray rows next =>
      if Nat.ltb next (length rows) then Ok (ToArray (set_row next (map to_real res) rows) (S next)) else Err AssertionError
  | ToFile text =>
      do a <- format_group etext ftext [Fd 12; Ff 12; Fe 12 None] (firstn 3 res);
      do b <- format_group etext ftext (repeat (Fe 23 (Some 16%nat)) (length res - 3)) (skipn 3 res);
      Ok (ToFile (text +++ join delim [a; b] +++ nl))
  end.
Fixpoint dump_grains (w : gwriter) (l : list grain) : result gwriter :=
  match l with [] => Ok w | g :: r => do w' <- dump_grain w g; dump_grains w' r end.
End Grains.

(** ** GrainDataWriter_h5: the group of a spot, 2431; '%05d' for a number that is not negative; h5py raises ValueError for a name in use *)
Fixpoint zeros (n : nat) : string := match n with O => "" | S k => String "0" (zeros k) end.
Definition spot_name (i : nat) : string := "spot_" +++ zeros (5 - String.length (dec i)) +++ dec i.
Definition create_spot (groups : list string) (i : nat) : result (list string) :=
  if mem (spot_name i) groups then Err ValueError else Ok (groups ++ [spot_name i]).
Fixpoint create_spots (groups : list string) (l : list nat) : result (list string) :=
  match l with [] => Ok groups | i :: r => do g <- create_spot groups i; create_spots g r end.
