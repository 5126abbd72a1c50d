(** Model of core/fitting/fitpeak.py: straight-line fits, first guesses, bounds and residuals of one-dimensional peak fits.
    Real numbers stand for floating point numbers; [None] is a NaN. *)
From Coq Require Import Reals List ZArith.
From Verif Require Import Prelude PkModel.
Import ListNotations.
Local Open Scope R_scope.
Local Notation length := List.length.

(** ** functions handed to scipy's curve_fit with their Jacobians, 64-88: values at the positions; a Jacobian is a list of rows,
    one for every position *)
Definition cnst_fit_obj (x : list R) (b : R) : list R := map (fun _ => 1 * b) x.
Definition cnst_fit_jac (x : list R) (b : R) : list (list R) := map (fun _ => [1]) x.
Definition lin_fit_obj (x : list R) (m b : R) : list R := map (fun z => m * z + b) x.
Definition lin_fit_jac (x : list R) (m b : R) : list (list R) := map (fun z => [z; 1]) x.
Definition quad_fit_obj (x : list R) (a b c : R) : list R := map (fun z => a * z ^ 2 + b * z + c) x.
(** an array of numbers or of rows *)
Inductive ndarray := Flat (l : list R) | Rows (l : list (list R)).
(** 85-88: the second return statement is never reached *)
Definition quad_fit_jac (x : list R) (a b c : R) : ndarray := Flat (map (fun z => a * z ^ 2 + b * z + c) x).

(** numpy.argmin, the first of the smallest; numpy.argmax *)
Fixpoint argmin_from (best : R) (bi i : nat) (l : list R) : nat :=
  match l with
  | [] => bi
  | v :: t => if Rlt_dec v best then argmin_from v i (S i) t else argmin_from best bi (S i) t
  end.
Definition argmin (l : list R) : result nat := match l with [] => Err ValueError | v :: t => Ok (argmin_from v 0 1 t) end.
Definition argmax (l : list R) : result nat := argmin (map Ropp l).
(** numpy.max and numpy.min *)
Definition np_max (l : list R) : result R := match l with [] => Err ValueError | v :: t => Ok (list_max v t) end.
Definition np_min (l : list R) : result R := do m <- np_max (map Ropp l); Ok (- m).

(** 91-94 *)
Definition amplitude_guess (x : list R) (x0 : R) (y : list R) (fwhm : R) : result R :=
  do pt_l <- argmin (map (fun z => Rabs (z - (x0 - 1 / 2 * fwhm))) x);
  do pt_h <- argmin (map (fun z => Rabs (z - (x0 + 1 / 2 * fwhm))) x);
  np_max (firstn (pt_h + 1 - pt_l) (skipn pt_l y)).

(** 59-61 *)
Definition alpha0 := 14.4. Definition alpha1 := 0. Definition beta0 := 3.016. Definition beta1 := - 7.94.
Definition tau0_DFLT := - 0.02053503975. Definition tau1_DFLT := 1.524138582. Definition tau2_DFLT := 0.
Definition sigma0_DFLT := - 0.005. Definition sigma1_DFLT := 1.7894.

Section Estimate.
(** the SNIP background of a row with a window, and curve_fit of a straight line (slope, offset) *)
Variable snip : nat -> list R -> list R.
Variable line_fit : list R -> list R -> R * R.

(** ** 102-181.  [int(2 * npts / 3.0)] is the window *)
Definition estimate_pk_parms_1d (x f : list R) (t : pktype) : result (list R) :=
  let npts := length x in
  if negb (Nat.eqb (length f) npts) then Err AssertionError else
  let bkg := snip (Nat.div (2 * npts) 3) f in
  let bp := line_fit x bkg in
  let bg0 := snd bp in let bg1 := fst bp in
  let pint := map (fun q => fst q - snd q) (combine f (lin_fit_obj x bg1 bg0)) in
  do cen <- argmax pint;
  do A <- at_ pint cen;
  do x0 <- at_ x cen;
  let dist := map (fun v => Rabs (v - 1 / 2 * A)) in
  do lr <- (if andb (Nat.ltb 0 cen) (Nat.ltb cen (npts - 1))
            then do l <- argmin (dist (firstn cen pint)); do r <- argmin (dist (skipn cen pint)); Ok (l, r)
            else if Nat.eqb cen 0
            then do r <- argmin (dist (skipn cen pint)); Ok (r, r)
            else do l <- argmin (dist (firstn cen pint)); Ok (l, l));
  let FWHM := match nth_error x (cen + snd lr), nth_error x (fst lr) with Some a, Some b => a - b | _, _ => 0 end in
  let FWHM := if Rle_dec FWHM 0 then 1 / 4 * (last x 0 - hd 0 x)
              else if Rlt_dec (3 / 4 * INR npts) FWHM then 1 / 4 * (last x 0 - hd 0 x) else FWHM in
  match t with
  | Gaussian | Lorentzian => Ok [A; x0; FWHM; bg0; bg1]
  | Pvoigt => Ok [A; x0; FWHM; 1 / 2; bg0; bg1]
  | SplitPvoigt => Ok [A; x0; FWHM; FWHM; 1 / 2; 1 / 2; bg0; bg1]
  | PinkBeamDcs => Ok [A; x0; alpha0; alpha1; beta0; beta1; FWHM; FWHM; bg0; bg1]
  | PinkBeamHeating => Ok [A; x0; sigma0_DFLT; sigma1_DFLT; FWHM; FWHM; bg0; bg1]
  | PinkBeamExponential => Ok [A; x0; tau0_DFLT; tau1_DFLT; tau2_DFLT; FWHM; FWHM; bg0; bg1]
  | _ => Err RuntimeError
  end.

(** ** 342-654, for the four analytic types.  A bound [None] is infinite.  Simplifications: center_bnd is one number; fwhm_guess is
    one number or absent; the other types are left out (LookupError) *)
Definition peak_block (t : pktype) (x fsubtr : list R) (min_val c fwhm cb : R) (amp_m fwhm_m : R * R)
  : result (list R * list R * list R) :=
  do amp <- amplitude_guess x c fsubtr fwhm;
  let lo := amp * fst amp_m in
  match t with
  | Gaussian | Lorentzian =>
      Ok ([amp; c; fwhm], [lo; c - cb; fwhm * fst fwhm_m], [amp * snd amp_m; c + cb; fwhm * snd fwhm_m])
  | Pvoigt =>
      Ok ([amp; c; fwhm; 1 / 2], [lo; c - cb; fwhm * fst fwhm_m; 0],
          [(amp - min_val + 1) * snd amp_m; c + cb; fwhm * snd fwhm_m; 1])
  | SplitPvoigt =>
      Ok ([amp; c; fwhm; fwhm; 1 / 2; 1 / 2], [lo; c - cb; fwhm * fst fwhm_m; fwhm * fst fwhm_m; 0; 0],
          [amp * snd amp_m; c + cb; fwhm * snd fwhm_m; fwhm * snd fwhm_m; 1; 1])
  | _ => Err LookupError
  end.
Fixpoint peak_blocks (t : pktype) (x fsubtr : list R) (min_val : R) (pos : list R) (fwhm cb : R) (amp_m fwhm_m : R * R)
  : result (list R * list R * list R) :=
  match pos with
  | [] => Ok ([], [], [])
  | c :: r => do b <- peak_block t x fsubtr min_val c fwhm cb amp_m fwhm_m;
              do bs <- peak_blocks t x fsubtr min_val r fwhm cb amp_m fwhm_m;
              Ok ((fst (fst b) ++ fst (fst bs))%list, (snd (fst b) ++ snd (fst bs))%list, (snd b ++ snd bs)%list)
  end.
Definition rsum (l : list R) : R := fold_right Rplus 0 l.
Definition estimate_mpk_parms_1d (pos x f : list R) (t : pktype) (bg : bgtype) (fwhm_guess : option R) (cb : R)
  (amp_m fwhm_m : R * R) : result (list R * list (option R) * list (option R)) :=
  let npts := length x in
  if negb (Nat.eqb (length f) npts) then Err AssertionError else
  do xmax <- np_max x; do xmin <- np_min x;
  let fwhm := match fwhm_guess with Some w => w | None => (xmax - xmin) / (20 * INR (length pos)) end in
  do min_val <- np_min f;
  let bkg := snip (Nat.div (length f) 4) f in
  let bp := line_fit x bkg in
  let bg0 := snd bp in let bg1 := fst bp in
  let fsubtr := map (fun q => fst q - snd q) (combine f (lin_fit_obj x bg1 bg0)) in
  do b <- peak_blocks t x fsubtr min_val pos fwhm cb amp_m fwhm_m;
  let '(p, lb, ub) := b in
  let tail := match bg with
              | NoBg => None (* p0 is not bound *)
              | ConstantBg => Some [rsum bkg / INR (length bkg)]
              | LinearBg => Some [bg0; bg1]
              | QuadraticBg => Some [bg0; bg1; 0]
              | CubicBg => Some [bg0; bg1; 0; 0]
              end in
  match tail with
  | None => Err LookupError
  | Some c => Ok ((p ++ c)%list, (map Some lb ++ map (fun _ => None) c)%list, (map Some ub ++ map (fun _ => None) c)%list)
  end.
End Estimate.

(** ** residuals *)
Section Fit.
Variable pink : pktype -> list R -> list R -> result (list (option R)).
(** numpy's [f - f0] for arrays of the same length.  Simplification: no broadcasting *)
Definition minus (f : list (option R)) (f0 : list R) : result (list (option R)) :=
  if Nat.eqb (length f) (length f0) then Ok (map (fun q => nadd (fst q) (Some (- snd q))) (combine f f0)) else Err ValueError.
(** 690-699 and 717-724; other types leave [f] unbound.  The pink beam functions are a parameter; the weights of the dcs type
    belong to it *)
Definition peak_values (t : pktype) (p x : list R) : result (list (option R)) :=
  match t with
  | Gaussian => gaussian1d p x
  | Lorentzian => lorentzian1d p x
  | Pvoigt => pvoigt1d p x
  | SplitPvoigt => split_pvoigt1d p x
  | TanhStepdown => tanh_stepdown_nobg p x
  | DcsPinkbeam | PinkBeamHeating | PinkBeamExponential => pink t p x
  | _ => Err LookupError
  end.
(** 667-714 *)
Definition fit_pk_obj_1d (p x f0 : list R) (t : pktype) : result (list (option R)) :=
  do f <- peak_values t p x; minus f f0.
(** 738-745, the penalties; indexing past the end of the bounds is an error *)
Fixpoint penalties (weight : R) (p : list R) (lb ub : list (option R)) : result (list (option R)) :=
  match p with
  | [] => Ok []
  | v :: pt => match lb, ub with
               | l :: lt, u :: ut =>
                   do r <- penalties weight pt lt ut;
                   match l, u with
                   | None, _ => Ok (Some 0 :: r)
                   | Some a, Some b => Ok (Some (weight * Rmax (Rmax (- (v - a)) 0) (v - b)) :: r)
                   | Some _, None => Err TypeError
                   end
               | _, _ => Err IndexError
               end
  end.
(** 717-747 (tanh_stepdown is not among its types) *)
Definition fit_pk_obj_1d_bnded (p x f0 : list R) (t : pktype) (weight : R) (lb ub : list (option R)) : result (list (option R)) :=
  do f <- (match t with TanhStepdown => Err LookupError | _ => peak_values t p x end);
  do r <- minus f f0;
  do b <- penalties weight p lb ub;
  Ok (r ++ b)%list.
(** 750-753 *)
Definition fit_mpk_obj_1d (p x f0 : list R) (t : pktype) (num_pks : nat) (bg : bgtype) : result (list (option R)) :=
  do f <- mpeak_1d pink p x t num_pks bg; minus f f0.

(** 236-237 and 245-247: the bounds *)
Definition bounds (t : pktype) (p0 x : list R) : result (list (option R) * list (option R)) :=
  do a <- at_ p0 0; do lo <- np_min x; do hi <- np_max x; do w <- at_ p0 2; do b <- at_ p0 4;
  match t with
  | Pvoigt => Ok ([Some (a * (1 / 2)); Some lo; Some 0; Some 0; Some 0; None],
                  [Some (a * 2); Some hi; Some (4 * w); Some 1; Some (2 * b); None])
  | _ => Ok ([Some (a * (1 / 2)); Some lo; Some 0; Some 0; Some 0; Some 0; Some 0; None],
             [Some (a * 2); Some hi; Some (4 * w); Some (4 * w); Some 1; Some 1; Some (2 * b); None])
  end.
(** ** 184-294; [least] is the optimiser of scipy: it gets the residuals as a function of the parameters and a start *)
Variable least : (list R -> result (list (option R))) -> list R -> result (list (option R)).
Definition all_numbers (p : list (option R)) : option (list R) :=
  fold_right (fun v r => match v, r with Some a, Some t => Some (a :: t) | _, _ => None end) (Some []) p.
Definition fit_pk_parms_1d (p0 x f : list R) (t : pktype) : result (list R) :=
  do m <- np_max f;
  let weight := m * 10 in
  match t with
  | UnknownType | PinkBeamDcs => Ok p0 (* with a warning *)
  | _ =>
      do p <- (match t with
               | Pvoigt | SplitPvoigt =>
                   do b <- bounds t p0 x; least (fun p => fit_pk_obj_1d_bnded p x f t weight (fst b) (snd b)) p0
               | _ => least (fun p => fit_pk_obj_1d p x f t) p0
               end);
      Ok (match all_numbers p with Some q => q | None => p0 end)
  end.
End Fit.

(** ** 902-926: [R, Rw]; [None] where a denominator is zero *)
Definition goodness_of_fit (f f0 : list R) : option R * option R :=
  let fs := combine f f0 in
  let d1 := rsum (map (fun v => v ^ 2) f0) in
  let d2 := rsum (map (fun v => Rabs (v ^ 3)) f0) in
  (if Req_EM_T d1 0 then None else Some (rsum (map (fun q => (fst q - snd q) ^ 2) fs) / d1),
   if Req_EM_T d2 0 then None else Some (rsum (map (fun q => Rabs (snd q * (fst q - snd q) ^ 2)) fs) / d2)).
