(** Model of the commands find-orientations and fit-grains (hedm/cli/find_orientations.py, hedm/cli/fit_grains.py) as far as files are
    read and written, of GrainData of the second file, and of the rotation vectors given to accepted orientations.  Logs, directories,
    profiling, the file of scored orientations and grains.npz are left out; header lines of files are not counted as rows. *)
From Coq Require Import String List ZArith Reals.
From Verif Require Import Prelude Lin TensorModel RotModel XfModel WrModel.
Import ListNotations.
Local Open Scope list_scope.
Local Notation length := List.length.

(** ** files: a file has rows; opening a file to write makes it empty, and rows are added one by one *)
Section Commands.
Context {Row : Type}.
Definition disk := string -> option (list Row).
Inductive event := Opened (p : string) | Added (p : string) (r : Row).
Definition set_file (d : disk) (p : string) (x : list Row) : disk := fun q => if String.eqb q p then Some x else d q.
Definition happens (d : disk) (e : event) : disk :=
  match e with
  | Opened p => set_file d p []
  | Added p r => set_file d p (match d p with Some x => x | None => [] end ++ [r])
  end.
Definition after (d : disk) (l : list event) : disk := fold_left happens l d.
Definition exists_file (d : disk) (p : string) : bool := match d p with Some _ => true | None => false end.
(** writing a table row by row *)
Definition write_file (p : string) (rows : list Row) : list event := Opened p :: map (Added p) rows.

(** what the configuration says: accepted_orientations_file, grains_file (core/config/root.py:57-76, hedm/config/findorientations.py:51-66,
    hedm/config/fitgrains.py:50-52) and the file named by fit_grains:estimate *)
Record config := Cfg { quats_file : string; grains_file : string; estimate : option string }.
(** hedm/config/fitgrains.py:67-77: None, with a warning, if the file named does not exist when the option is looked up *)
Definition current_estimate (d : disk) (c : config) : option string :=
  match estimate c with Some e => if exists_file d e then Some e else None | None => None end.
Inductive outcome := Finished | Exited | Raised (what : string).
(** find_orientations of hedm/findorientations.py, and fit_grains of hedm/fitgrains.py, which may raise *)
Variable index : config -> result (list Row).
Variable fit : config -> list Row -> result (list Row).
(** the row of a grain made from an accepted orientation and its number: find_orientations.py:75-79, fit_grains.py:359-363 *)
Variable start_row : nat -> Row -> Row.
Definition start_rows (qs : list Row) : list Row := map (fun p => start_row (fst p) (snd p)) (combine (seq 0 (length qs)) qs).

(** hedm/cli/find_orientations.py:65-80 and 83-144: what is written, in this order, and how the command ends.  The check is at 110-115. *)
Definition find_write (c : config) (qs : list Row) : list event := write_file (quats_file c) qs ++ write_file (grains_file c) (start_rows qs).
Definition find_execute (clean force : bool) (c : config) (d : disk) : list event * outcome :=
  if andb (exists_file d (quats_file c)) (negb (orb force clean)) then ([], Exited)
  else match index c with Err _ => ([], Raised "error of the analysis") | Ok qs => (find_write c qs, Finished) end.

(** hedm/cli/fit_grains.py:271-412, the loop over the analyses.  [qbar] is None if the variable was never set; the file is opened (358)
    before it is looked up.  The branch of 373-378 cannot be reached: the loop has been left before. *)
Fixpoint fit_loop (clean force : bool) (qbar : option (list Row)) (cfgs : list config) (d : disk) : list event * outcome :=
  match cfgs with
  | [] => ([], Finished)
  | c :: rest =>
    let clobber := orb force clean in
    let existing := exists_file d (grains_file c) in
    if andb existing (negb clobber) then ([], Exited) else
    let go (ev : list event) (table : string) :=
      match after d ev table with
      | None => (ev, Raised "RuntimeError")
      | Some rows =>
        match fit c rows with
        | Err _ => (ev, Raised "error of the analysis")
        | Ok res =>
            let ev := ev ++ write_file (grains_file c) res in
            let '(more, o) := fit_loop clean force qbar rest (after d ev) in (ev ++ more, o)
        end
      end in
    let none := match current_estimate d c with None => true | Some _ => false end in
    if orb clean (orb (andb force none) (andb (negb existing) none)) then
      match qbar with
      | None => ([Opened (grains_file c)], Raised "UnboundLocalError")
      | Some qs => go (write_file (grains_file c) (start_rows qs)) (grains_file c)
      end
    else match current_estimate d c with
      | Some e => if orb force (negb existing) then go [] e else go [] (grains_file c)
      | None => go [] (grains_file c)
      end
  end.
(** hedm/cli/fit_grains.py:216-412; there is at least one analysis.  The orientations are those of the first (234-268). *)
Definition fit_execute (clean force : bool) (cfgs : list config) (d : disk) : list event * outcome :=
  match cfgs with
  | [] => ([], Raised "IndexError")
  | c :: _ =>
    let existing := exists_file d (grains_file c) in
    let none := match current_estimate d c with None => true | Some _ => false end in
    if orb clean (orb (andb force none) (andb (negb existing) none)) then
      match d (quats_file c) with
      | Some qs => fit_loop clean force (Some qs) cfgs d
      | None => match index c with Err _ => ([], Raised "error of the analysis") | Ok qs => fit_loop clean force (Some qs) cfgs d end
      end
    else fit_loop clean force None cfgs d
  end.
End Commands.

(** ** GrainData, hedm/cli/fit_grains.py:37-151 *)
Record grain_data := GD { gd_id : list Z; gd_comp : list R; gd_chisq : list R; gd_expmap : list (list R); gd_centroid : list (list R);
  gd_inv : list (list R); gd_ln : list (list R) }.
(** numpy's astype(int) drops the fraction *)
Definition as_int (x : R) : Z := if Rle_dec 0 x then Int_part x else (- Int_part (- x))%Z.
Definition columns_of (a b : nat) (rows : list (list R)) : list (list R) := map (fun r => firstn (b - a) (skipn a r)) rows.
(** 70-81 *)
Definition from_array (rows : list (list R)) : grain_data :=
  GD (map (fun r => as_int (nth 0 r 0%R)) rows) (map (fun r => nth 1 r 0%R) rows) (map (fun r => nth 2 r 0%R) rows)
     (columns_of 3 6 rows) (columns_of 6 9 rows) (columns_of 9 15 rows) (columns_of 15 21 rows).
(** 65-68: np.loadtxt drops a dimension if there are fewer than two rows, and a[:, 0] is then an IndexError *)
Definition from_grains_out (rows : list (list R)) : result grain_data := if Nat.ltb (length rows) 2 then Err IndexError else Ok (from_array rows).
(** 83-90: the grains handed to the writer, by number *)
Definition grains_of (gd : grain_data) : list grain :=
  map (fun i => Gr (nth i (gd_id gd) 0%Z) (nth i (gd_comp gd) 0%R) (nth i (gd_chisq gd) 0%R)
                   (nth i (gd_expmap gd) [] ++ nth i (gd_centroid gd) [] ++ nth i (gd_inv gd) [])) (seq 0 (length (gd_id gd))).
(** indexing by a mask *)
Fixpoint masked {A} (m : list bool) (l : list A) : list A :=
  match m, l with b :: m', x :: l' => if b then x :: masked m' l' else masked m' l' | _, _ => [] end.
Definition leb_R (x y : R) : bool := if Rle_dec x y then true else false.
(** 124-151 *)
Definition select (gd : grain_data) (min_completeness : R) (max_chisq : option R) : grain_data :=
  let sel_comp := map (fun x => leb_R min_completeness x) (gd_comp gd) in
  let sel := match max_chisq with
             | Some m => map (fun p => andb (fst p) (snd p)) (combine sel_comp (map (fun x => leb_R x m) (gd_chisq gd)))
             | None => sel_comp end in
  GD (masked sel (gd_id gd)) (masked sel (gd_comp gd)) (masked sel (gd_chisq gd)) (masked sel (gd_expmap gd)) (masked sel (gd_centroid gd))
     (masked sel (gd_inv gd)) (masked sel (gd_ln gd)).

(** ** the rotation vector of an accepted orientation: find_orientations.py:76-78, fit_grains.py:360-362 *)
Definition expmap_of_quat (q : q4) : v3 :=
  let phi := (2 * acos (qw q))%R in vscale phi (fst (unit_row_vector (V3 (qx q) (qy q) (qz q)))).
Definition start_params (q : q4) : list R :=
  let e := expmap_of_quat q in ([vx e; vy e; vz e] ++ [0; 0; 0] ++ [1; 1; 1; 0; 0; 0])%R.
