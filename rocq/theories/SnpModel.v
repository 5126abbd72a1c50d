(** Model of core/convolution/convolve.py and the one-dimensional routine of core/convolution/src/convolve.c, and of the SNIP
    background of core/imageutil.py.  Real numbers stand for floating point numbers; [None] is a NaN.  Only one-dimensional
    arrays are modelled (rows of an image). *)
From Coq Require Import Reals List ZArith.
From Verif Require Import Prelude Lin TensorModel RotModel FibModel EomModel.
Import ListNotations.
Local Open Scope R_scope.
Local Notation length := List.length.

(** ** convolve.py:110-407 *)
Inductive boundary := BNone | BFill | BExtend | BWrap.
(** 330-379: the array with its border; numpy.pad refuses an empty array *)
Definition padded (b : boundary) (fill : R) (w : nat) (a : list cell) : result (list cell) :=
  match b with
  | BNone => Ok a
  | BFill => Ok (repeat (Some fill) w ++ a ++ repeat (Some fill) w)%list
  | BExtend => match a with
               | [] => Err ValueError
               | x :: _ => Ok (repeat x w ++ a ++ repeat (last a x) w)%list
               end
  | BWrap => match a with
             | [] => Err ValueError
             | _ => let n := length a in
                    Ok (map (fun j => nth (Nat.modulo (j + (n - Nat.modulo w n)) n) a None) (seq 0 (n + 2 * w)))
             end
  end.
Definition rsum (l : list R) : R := fold_right Rplus 0 l.
(** convolve.c:196-290: every window of the array with the reversed kernel; when interpolating, NaNs are left out of the sum and
    of the weight, and where no weight is left the middle of the window is taken *)
Definition window_plain (win : list cell) (ker : list R) : cell :=
  osum (map (fun p => match fst p with Some x => Some (x * snd p) | None => None end) (combine win (rev ker))).
Definition window_nan (win : list cell) (ker : list R) (mid : cell) : cell :=
  let use := flat_map (fun p => match fst p with Some x => [(x, snd p)] | None => [] end) (combine win (rev ker)) in
  let top := rsum (map (fun p => fst p * snd p) use) in
  let bot := rsum (map snd use) in
  if Req_EM_T bot 0 then mid else Some (top / bot).
Definition convolve_c (nan_interpolate : bool) (f : list cell) (ker : list R) : list cell :=
  let nk := length ker in
  let w := Nat.div nk 2 in
  map (fun i => let win := firstn nk (skipn i f) in
                if nan_interpolate then window_nan win ker (nth (i + w) f None) else window_plain win ker)
      (seq 0 (length f - 2 * w)).

Record options := Options { o_boundary : boundary; o_fill : R; o_nan_fill : bool; o_normalize : bool; o_mask : option (list bool); o_preserve : bool }.
(** 100-104: masked values become NaN *)
Definition masked (mask : option (list bool)) (a : list cell) : list cell :=
  match mask with
  | None => a
  | Some m => map (fun p => if fst p : bool then None else snd p) (combine m a)
  end.
Definition is_nan (c : cell) : bool := match c with None => true | Some _ => false end.
Definition scale_cell (k : R) (c : cell) : cell := match c with Some x => Some (x * k) | None => None end.
(** the whole function; a mask of another length cannot index the array *)
Definition convolve (o : options) (ker : list R) (a : list cell) : result (list cell) :=
  let bad_mask := match o_mask o with Some m => negb (Nat.eqb (length m) (length a)) | None => false end in
  if bad_mask then Err IndexError else
  let a1 := masked (o_mask o) a in
  if Nat.even (length ker) then Err ValueError else
  let w := Nat.div (length ker) 2 in
  let too_small := match o_boundary o with BNone => Nat.leb (length a1) (2 * w) | _ => false end in
  if too_small then Err ValueError else
  let interp := negb (o_nan_fill o) && existsb is_nan a1 in
  let ksum := rsum ker in
  if (o_normalize o || interp) && rlt ksum (1 / 100) then Err ValueError else
  let a2 := if o_nan_fill o then map (fun c => match c with None => Some (o_fill o) | Some x => Some x end) a1 else a1 in
  do f <- padded (o_boundary o) (o_fill o) w a2;
  let body := convolve_c interp f ker in
  let r := match o_boundary o with BNone => repeat (Some 0) w ++ body ++ repeat (Some 0) w | _ => body end in
  let r1 := if o_normalize o then if interp then r else map (scale_cell (/ ksum)) r
            else if interp then map (scale_cell ksum) r else r in
  Ok (if o_preserve o then map (fun p => if is_nan (fst p) then None else snd p) (combine a1 r1) else r1).

(** ** imageutil.py *)
(** 21-45 *)
Definition scale_down (y offset : R) : R := ln (ln (sqrt (y - offset) + 1) + 1).
Definition scale_up (z offset : R) : R := (exp (exp z - 1) - 1) * (exp (exp z - 1) - 1) + offset.
Definition omap (f : R -> R) (c : cell) : cell := match c with Some x => Some (f x) | None => None end.
(** numpy.minimum, maximum: NaN if either is NaN *)
Definition omin (a b : cell) : cell := match a, b with Some x, Some y => Some (Rmin x y) | _, _ => None end.
Definition omax (a b : cell) : cell := match a, b with Some x, Some y => Some (Rmax x y) | _, _ => None end.
(** the kernel of 111-112: halves at both ends *)
Definition ends_kernel (p : nat) : list R := match p with O => [1 / 2] | S q => (1 / 2) :: repeat 0 (2 * q + 1) ++ [1 / 2] end.
Fixpoint down_from (w : nat) : list nat := match w with O => [] | S q => S q :: down_from q end.
Definition zip_min (b c : list cell) : list cell := map (fun p => omin (fst p) (snd p)) (combine b c).
(** 103-127, [_run_snip1d_row] in the scaled space: [numiter] rounds over the windows w, w-1, ..., 1 *)
Definition snip_opts (mask : list bool) : options := Options BExtend 0 false true (Some mask) true.
Fixpoint snip_windows (mask : list bool) (z : list cell) (ps : list nat) (b : list cell) : result (list cell) :=
  match ps with
  | [] => Ok b
  | p :: t => do c <- convolve (snip_opts mask) (ends_kernel p) z; snip_windows mask z t (zip_min b c)
  end.
Fixpoint snip_rounds (mask : list bool) (w numiter : nat) (z : list cell) : result (list cell) :=
  match numiter with
  | O => Ok z
  | S k => do b <- snip_windows mask z (down_from w) z; snip_rounds mask w k b
  end.
(** a row that is masked throughout is a NaN, which fills the row of the result *)
Definition snip_row (w numiter : nat) (min_val : R) (z : list cell) (mask : list bool) : result (list cell) :=
  if forallb (fun b => b) mask then Ok (map (fun _ => None) z)
  else do b <- snip_rounds mask w numiter z; Ok (map (omap (fun x => scale_up x min_val)) b).
(** np.nanmin of the image; NaN if there is no number *)
Fixpoint nan_min (l : list cell) : cell :=
  match l with
  | [] => None
  | c :: t => match c, nan_min t with Some x, Some y => Some (Rmin x y) | Some x, None => Some x | None, r => r end
  end.
(** 66-100, [snip1d]: the rows are independent tasks; [order] is the order in which the results are written.  The image is a
    list of rows.  y <= threshold is false for a NaN.  Without any number every value is a NaN throughout.  Simplification: images of
    floating point numbers ([zeros_like] of an integer image would truncate the background). *)
Definition below (threshold : option R) (c : cell) : bool :=
  match threshold, c with Some t, Some x => rle x t | _, _ => false end.
Definition write (k : nat) (row : list cell) (im : list (list cell)) : list (list cell) := set_nth k row im.
Fixpoint write_rows (rows : list (list cell)) (order : list nat) (im : list (list cell)) : list (list cell) :=
  match order with [] => im | k :: t => write_rows rows t (write k (nth k rows []) im) end.
Definition snip1d (w numiter : nat) (threshold : option R) (order : list nat) (y : list (list cell)) : result (list (list cell)) :=
  match concat y with
  | [] => Err ValueError
  | _ =>
      match nan_min (concat y) with
      | None => Ok (map (map (fun _ => threshold)) y)
      | Some lo =>
          do rows <- map_res (fun row => snip_row w numiter lo (map (omap (fun x => scale_down x lo)) row) (map (below threshold) row)) y;
          let bkg := write_rows rows order (map (map (fun _ => Some 0)) y) in
          Ok (map (map (fun c => match c with None => threshold | Some x => Some x end)) bkg)
      end
  end.

(** 48-63, [fast_snip1d] for one row in the scaled space: scipy's convolution takes zeros outside the row.  Simplification: a
    row without NaNs. *)
Definition zero_at (z : list R) (j : Z) : R := if (j <? 0)%Z then 0 else nth (Z.to_nat j) z 0.
Definition mean_zero (z : list R) (p i : nat) : R := (zero_at z (Z.of_nat i - Z.of_nat p) + zero_at z (Z.of_nat i + Z.of_nat p)) * (5 / 10).
Definition fast_windows (z : list R) (ps : list nat) (b : list R) : list R :=
  fold_left (fun b p => map (fun q => Rmin (snd q) (mean_zero z p (fst q))) (combine (seq 0 (length b)) b)) ps b.
Fixpoint fast_rounds (w numiter : nat) (z : list R) : list R :=
  match numiter with O => z | S k => fast_rounds w k (fast_windows z (down_from w) z) end.
Definition fast_row (w numiter : nat) (lo : R) (y : list R) : list R :=
  map (fun x => scale_up x lo) (fast_rounds w numiter (map (fun x => scale_down x lo) y)).
