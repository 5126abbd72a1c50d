(** Model of core/material/jcpds.py (line numbers are of this file): files of JCPDS cards.  A line is given by its words, and the first
    line starts without blanks; float() and int() of a word are parameters.  The numbers are attributes by name.  Name, version and comments of
    the card, and self.v, which nothing here reads, are left out. *)
From Coq Require Import Reals String Ascii List.
From Verif Require Import Prelude.
Import ListNotations.
Local Open Scope string_scope.
Local Open Scope list_scope.
Local Notation length := List.length.
Local Close Scope nat_scope.

Definition attrs := string -> R.
Definition upd (f : attrs) (k : string) (v : R) : attrs := fun n => if String.eqb n k then v else f n.
Record card := Card { num : attrs; symmetry : string }.
(** 6-26 *)
Definition new_card : card := Card (fun n => if String.eqb n "k0" then 100%R else if String.eqb n "k0p" then 5%R else 0%R) "".
(** str.lower for ASCII *)
Definition lower_char (c : ascii) : ascii := let n := nat_of_ascii c in if andb (Nat.leb 65 n) (Nat.leb n 90) then ascii_of_nat (n + 32) else c.
Fixpoint lower (s : string) : string := match s with EmptyString => "" | String c t => String (lower_char c) (lower t) end.
(** 'VERSION' in a line *)
Definition has_version (line : list string) : bool := existsb (fun w => match String.index 0 "VERSION" w with Some _ => true | None => false end) line.

Definition set_all (f : attrs) (l : list (string * R)) : attrs := fold_left (fun f kv => upd f (fst kv) (snd kv)) l f.
(** 169-222: the keys of a line and the attributes they are for *)
Definition keys : list (string * string) :=
  [("K0:", "k0"); ("K0P:", "k0p"); ("DK0DT:", "dk0dt"); ("DK0PDT:", "dk0pdt"); ("A:", "a0"); ("B:", "b0"); ("C:", "c0"); ("ALPHA:", "alpha0"); ("BETA:", "beta0");
   ("GAMMA:", "gamma0"); ("VOLUME:", "v0"); ("ALPHAT:", "alpha_t"); ("DALPHATDT:", "dalpha_t_dt")].
Definition attr_of (key : string) : option string := option_map snd (find (fun kn => String.eqb (fst kn) key) keys).
(** numpy's cos of an angle in degrees *)
Definition cosd (x : R) : R := cos (x * PI / 180).
(** 311-323; the square root of a negative number is nan in numpy, 0 here *)
Definition volume (f : attrs) : R :=
  let ca := cosd (f "alpha0") in let cb := cosd (f "beta0") in let cg := cosd (f "gamma0") in
  (f "a0" * f "b0" * f "c0" * sqrt (1 - ca ^ 2 - cb ^ 2 - cg ^ 2 + 2 * ca * cb * cg))%R.
(** 227-255 *)
Definition complete (sym : string) (f : attrs) : attrs :=
  if orb (String.eqb sym "cubic") (String.eqb sym "manual") then
    let f := upd f "b0" (f "a0") in let f := upd f "c0" (f "a0") in set_all f [("alpha0", 90%R); ("beta0", 90%R); ("gamma0", 90%R)]
  else if orb (String.eqb sym "hexagonal") (String.eqb sym "trigonal") then
    let f := upd f "b0" (f "a0") in set_all f [("alpha0", 90%R); ("beta0", 90%R); ("gamma0", 120%R)]
  else if String.eqb sym "tetragonal" then
    let f := upd f "b0" (f "a0") in set_all f [("alpha0", 90%R); ("beta0", 90%R); ("gamma0", 90%R)]
  else if String.eqb sym "orthorhombic" then set_all f [("alpha0", 90%R); ("beta0", 90%R); ("gamma0", 90%R)]
  else if String.eqb sym "monoclinic" then set_all f [("alpha0", 90%R); ("gamma0", 90%R)]
  else f.

Section Reader.
Variable to_float : string -> option R.
Variable to_int : string -> option nat.
Definition word (i : nat) (l : list string) : result string := match nth_error l i with Some w => Ok w | None => Err IndexError end.
Definition number (i : nat) (l : list string) : result R := do w <- word i l; match to_float w with Some x => Ok x | None => Err ValueError end.
Definition integer (i : nat) (l : list string) : result nat := do w <- word i l; match to_int w with Some x => Ok x | None => Err ValueError end.

(** 155-224: a line of the file with keys; a blank line has no first word *)
Definition read_line (c : card) (line : list string) : result card :=
  do key <- word 0 line;
  if String.eqb key "VERSION:" then do v <- integer 1 line; Ok c
  else if String.eqb key "SYMMETRY:" then do w <- word 1 line; Ok (Card (num c) (lower w))
  else match attr_of key with
       | Some n => do x <- number 1 line; Ok (Card (upd (num c) n x) (symmetry c))
       | None => Ok c
       end.
Fixpoint read_lines (c : card) (lines : list (list string)) : result card :=
  match lines with [] => Ok c | l :: t => do c <- read_line c l; read_lines c t end.

(** 60-74 *)
Definition systems : list string := ["cubic"; "hexagonal"; "tetragonal"; "orthorhombic"; "monoclinic"; "triclinic"; "manual"].
(** 83-133: the six lattice parameters by the number of the crystal system; another number leaves them unbound, an UnboundLocalError, which is
    a RuntimeError here *)
Definition lattice_line (system : nat) (item : list string) : result (list R) :=
  match system with
  | 1 | 7 => do a <- number 0 item; Ok [a; a; a; 90; 90; 90]%R
  | 2 => do a <- number 0 item; do c <- number 1 item; Ok [a; a; c; 90; 90; 120]%R
  | 3 => do a <- number 0 item; do c <- number 1 item; Ok [a; a; c; 90; 90; 90]%R
  | 4 => do a <- number 0 item; do b <- number 1 item; do c <- number 2 item; Ok [a; b; c; 90; 90; 90]%R
  | 5 => do a <- number 0 item; do b <- number 1 item; do c <- number 2 item; do be <- number 3 item; Ok [a; b; c; 90; be; 90]%R
  | 6 => do a <- number 0 item; do b <- number 1 item; do c <- number 2 item; do al <- number 3 item; do be <- number 4 item; do ga <- number 5 item;
         Ok [a; b; c; al; be; ga]
  | _ => Err RuntimeError
  end%nat.
Definition lattice_names : list string := ["a0"; "b0"; "c0"; "alpha0"; "beta0"; "gamma0"].
Definition line (i : nat) (lines : list (list string)) : result (list string) := match nth_error lines i with Some l => Ok l | None => Err IndexError end.
(** 53-150: the file with lines at fixed places; the first line is the version and nothing else *)
Definition read_fixed (c : card) (lines : list (list string)) : result card :=
  do first <- line 0 lines;
  do version <- (match first with [w] => integer 0 [w] | _ => Err ValueError end);
  do header <- line 1 lines;
  do item <- line 2 lines;
  do system <- integer 0 item;
  do k0 <- number 1 item;
  do k0p <- number 2 item;
  do item <- line 3 lines;
  do lat <- lattice_line system item;
  do item <- line 4 lines;
  do alpha_t <- (if Nat.eqb version 3 then Ok 0%R else number 0 item);
  Ok (Card (set_all (num c) ([("k0", k0); ("k0p", k0p)] ++ combine lattice_names lat ++ [("alpha_t", alpha_t)])) (nth (system - 1) systems "")).
Definition starts_digit (line : list string) : bool :=
  match line with String c _ :: _ => orb (orb (Ascii.eqb c "2") (Ascii.eqb c "3")) (Ascii.eqb c "4") | _ => false end.
(** 30-33, 35-266, 308-309: read_file and update_v0; a file of neither kind changes nothing, and line 53 of an empty file is an IndexError *)
Definition read_card (lines : list (list string)) : result card :=
  do first <- line 0 lines;
  do c <- (if starts_digit first then read_fixed new_card lines
           else if has_version first then do c <- read_lines new_card lines; Ok (Card (complete (symmetry c) (num c)) (symmetry c))
           else Ok new_card);
  Ok (Card (upd (num c) "v0" (volume (num c))) (symmetry c)).
End Reader.

(** materials, as far as the card sees them *)
Record material := Mat { lattice_type : string; lattice : list R; pt : attrs }.
(** 279-285 *)
Definition lattice_params (c : card) : list R := map (num c) lattice_names.
(** 268-277; SymmetryMismatch is a ValueError here *)
Definition verify_symmetry (c : card) (m : material) : result unit := if String.eqb (lattice_type m) (symmetry c) then Ok tt else Err ValueError.
(** np.isclose *)
Definition is_close (x y : R) : bool := if Rle_dec (Rabs (x - y)) (/ 10 ^ 8 + / 10 ^ 5 * Rabs y) then true else false.
(** 287-292: what the function returns; None is Python's None *)
Definition matches_material (c : card) (m : material) : result (option bool) :=
  do _ <- verify_symmetry c m;
  Ok (if forallb (fun xy => is_close (fst xy) (snd xy)) (combine (lattice m) (lattice_params c)) then None else Some false).
(** 294-297; reset_v0 is of the material *)
Definition write_lattice (c : card) (m : material) : result material := do _ <- verify_symmetry c m; Ok (Mat (lattice_type m) (lattice_params c) (pt m)).
(** 299-306 *)
Definition write_pt (c : card) (m : material) : result material :=
  do _ <- verify_symmetry c m;
  Ok (Mat (lattice_type m) (lattice m) (set_all (pt m) (map (fun n => (n, num c n)) ["k0"; "k0p"; "dk0dt"; "dk0pdt"; "alpha_t"; "dalpha_t_dt"]))).
