(** Model of core/fitting/peakfunctions.py: peak profiles in one, two and three dimensions, their derivatives, sums of peaks.
    Real numbers stand for floating point numbers; [None] is a NaN.  Infinities occur only inside the modelled expressions and
    are resolved there. *)
From Coq Require Import Reals List ZArith.
From Verif Require Import Prelude.
Import ListNotations.
Local Open Scope R_scope.
Local Notation length := List.length.

(** numpy indexing of a parameter array, and with a list of indices *)
Definition at_ (p : list R) (i : nat) : result R := match nth_error p i with Some v => Ok v | None => Err IndexError end.
Fixpoint pick (p : list R) (l : list nat) : result (list R) :=
  match l with [] => Ok [] | i :: t => do v <- at_ p i; do r <- pick p t; Ok (v :: r) end.
(** arithmetic with NaN *)
Definition nadd (a b : option R) : option R := match a, b with Some x, Some y => Some (x + y) | _, _ => None end.
Definition nmul (a b : option R) : option R := match a, b with Some x, Some y => Some (x * y) | _, _ => None end.
(** a profile: a function of the position, applied to each element of an array *)
Definition profile := R -> option R.
Definition over (f : result profile) (x : list R) : result (list (option R)) := do g <- f; Ok (map g x).
(** [A * f] and [f + bg0 + bg1 * x] *)
Definition times (A : R) (f : profile) : profile := fun x => nmul (Some A) (f x).
Definition with_line (bg0 bg1 : R) (f : profile) : profile := fun x => nadd (nadd (f x) (Some bg0)) (Some (bg1 * x)).

(** peakfunctions.py:36-39 with constants.py:62 *)
Definition gauss_width_fact : R := 2 * sqrt (2 * ln 2).
Definition lorentz_width_fact : R := 2.

(** ** one dimension *)
(** 60-75; for sigma 0 the exponent is -inf, and NaN at the centre *)
Definition unit_gaussian (p : list R) : result profile :=
  do x0 <- at_ p 0; do FWHM <- at_ p 1;
  let sigma := FWHM / gauss_width_fact in
  Ok (fun x => if Req_EM_T sigma 0 then (if Req_EM_T x x0 then None else Some 0)
               else Some (exp (- (x - x0) ^ 2 / (2 * sigma ^ 2)))).
(** 78-90 *)
Definition gaussian1d_no_bg (p : list R) : result profile :=
  do A <- at_ p 0; do q <- pick p [1; 2]%nat; do g <- unit_gaussian q; Ok (times A g).
(** 93-108 *)
Definition gaussian1d (p : list R) (x : list R) : result (list (option R)) :=
  over (do bg0 <- at_ p 3; do bg1 <- at_ p 4; do f <- gaussian1d_no_bg (firstn 3 p); Ok (with_line bg0 bg1 f)) x.
(** 111-138; with sigma 0 the products are NaN *)
Definition gaussian1d_no_bg_deriv (p : list R) (x : list R) : result (list (list (option R))) :=
  do x0 <- at_ p 1; do FWHM <- at_ p 2;
  let sigma := FWHM / gauss_width_fact in
  do f <- gaussian1d_no_bg p;
  do q <- pick p [1; 2]%nat; do u <- unit_gaussian q;
  let lift (h : R -> R) := fun z => if Req_EM_T sigma 0 then None else nmul (f z) (Some (h z)) in
  let dydx0 := lift (fun z => (z - x0) / sigma ^ 2) in
  let dydFWHM := lift (fun z => (z - x0) ^ 2 / sigma ^ 3 / gauss_width_fact) in
  Ok [map u x; map dydx0 x; map dydFWHM x].
(** 141-157; the matrix has a row for every parameter given *)
Definition gaussian1d_deriv (p : list R) (x : list R) : result (list (list (option R))) :=
  do d <- gaussian1d_no_bg_deriv (firstn 3 p) x;
  if Nat.ltb (length p) 5 then Err IndexError
  else Ok (d ++ [map (fun _ => Some 1) x; map Some x] ++ repeat (map (fun _ => Some 0) x) (length p - 5))%list.

(** 163-178; for gamma 0 it is 0 / 0 at the centre *)
Definition unit_lorentzian (p : list R) : result profile :=
  do x0 <- at_ p 0; do FWHM <- at_ p 1;
  let gamma := FWHM / lorentz_width_fact in
  Ok (fun x => if Req_EM_T ((x - x0) ^ 2 + gamma ^ 2) 0 then None else Some (gamma ^ 2 / ((x - x0) ^ 2 + gamma ^ 2))).
(** 181-194 *)
Definition lorentzian1d_no_bg (p : list R) : result profile :=
  do A <- at_ p 0; do q <- pick p [1; 2]%nat; do g <- unit_lorentzian q; Ok (times A g).
(** 197-212 *)
Definition lorentzian1d (p : list R) (x : list R) : result (list (option R)) :=
  over (do bg0 <- at_ p 3; do bg1 <- at_ p 4; do f <- lorentzian1d_no_bg (firstn 3 p); Ok (with_line bg0 bg1 f)) x.
(** 215-243; with gamma 0 the derivative for the width is NaN (0 * inf) *)
Definition lorentzian1d_no_bg_deriv (p : list R) (x : list R) : result (list (list (option R))) :=
  do x0 <- at_ p 1; do FWHM <- at_ p 2;
  let gamma := FWHM / lorentz_width_fact in
  do f <- lorentzian1d_no_bg p;
  do q <- pick p [1; 2]%nat; do u <- unit_lorentzian q;
  let dydx0 := fun z => nmul (f z) (Some (2 * (z - x0) / ((z - x0) ^ 2 + gamma ^ 2))) in
  let dydFWHM := fun z => if Req_EM_T gamma 0 then None
                          else nmul (f z) (Some (2 * (z - x0) ^ 2 / (gamma * ((z - x0) ^ 2 + gamma ^ 2)) / lorentz_width_fact)) in
  Ok [map u x; map dydx0 x; map dydFWHM x].
(** 246-262 *)
Definition lorentzian1d_deriv (p : list R) (x : list R) : result (list (list (option R))) :=
  do d <- lorentzian1d_no_bg_deriv (firstn 3 p) x;
  if Nat.ltb (length p) 5 then Err IndexError
  else Ok (d ++ [map (fun _ => Some 1) x; map Some x] ++ repeat (map (fun _ => Some 0) x) (length p - 5))%list.

(** 270-283 *)
Definition unit_pvoigt1d (p : list R) : result profile :=
  do n <- at_ p 2;
  do g <- unit_gaussian (firstn 2 p); do l <- unit_lorentzian (firstn 2 p);
  Ok (fun x => nadd (nmul (Some n) (g x)) (nmul (Some (1 - n)) (l x))).
(** 286-298 *)
Definition pvoigt1d_no_bg (p : list R) : result profile :=
  do A <- at_ p 0; do q <- pick p [1; 2; 3]%nat; do g <- unit_pvoigt1d q; Ok (times A g).
(** 301-316 *)
Definition pvoigt1d (p : list R) (x : list R) : result (list (option R)) :=
  over (do bg0 <- at_ p 4; do bg1 <- at_ p 5; do f <- pvoigt1d_no_bg (firstn 4 p); Ok (with_line bg0 bg1 f)) x.
(** 324-352 *)
Definition split_pvoigt1d_no_bg (p : list R) : result profile :=
  do A <- at_ p 0; do x0 <- at_ p 1;
  do qr <- pick p [1; 3; 5]%nat; do r <- unit_pvoigt1d qr;
  do ql <- pick p [1; 2; 4]%nat; do l <- unit_pvoigt1d ql;
  Ok (fun x => if Rle_dec x0 x then nmul (Some A) (r x) else nmul (Some A) (l x)).
(** 355-370 *)
Definition split_pvoigt1d (p : list R) (x : list R) : result (list (option R)) :=
  over (do bg0 <- at_ p 6; do bg1 <- at_ p 7; do f <- split_pvoigt1d_no_bg (firstn 6 p); Ok (with_line bg0 bg1 f)) x.
(** 908-924; for w 0 the argument is an infinity, NaN at the centre *)
Definition tanh_stepdown_nobg (p : list R) (x : list R) : result (list (option R)) :=
  over (do A <- at_ p 0; do x0 <- at_ p 1; do w <- at_ p 2;
        Ok (fun x => if Req_EM_T w 0
                     then (if Req_EM_T x x0 then None else Some (A * (1 / 2 * (1 - (if Rlt_dec x0 x then 1 else -1)))))
                     else Some (A * (1 / 2 * (1 - tanh ((x - x0) / w)))))) x.

(** ** two and three dimensions; arrays of positions are lists of points *)
(** 932-939 *)
Definition coord_transform (theta x0 y0 x y : R) : R * R * R * R :=
  let xprime := cos theta * x + sin theta * y in
  let yprime := - sin theta * x + cos theta * y in
  let x0prime := cos theta * x0 + sin theta * y0 in
  let y0prime := - sin theta * x0 + cos theta * y0 in
  (x0prime, y0prime, xprime, yprime).
Definition profile2 := R -> R -> option R.
Definition over2 (f : result profile2) (pts : list (R * R)) : result (list (option R)) :=
  do g <- f; Ok (map (fun q => g (fst q) (snd q)) pts).
Definition with_plane (bg0 bg1x bg1y : R) (f : profile2) : profile2 :=
  fun x y => nadd (f x y) (Some (bg0 + bg1x * x + bg1y * y)).
(** 947-960 *)
Definition gaussian2d_no_bg (p : list R) : result profile2 :=
  do A <- at_ p 0;
  do qx <- pick p [1; 3]%nat; do gx <- unit_gaussian qx;
  do qy <- pick p [2; 4]%nat; do gy <- unit_gaussian qy;
  Ok (fun x y => nmul (nmul (Some A) (gx x)) (gy y)).
(** 963-986 and 1082-1105: the centre and the positions in the turned frame *)
Definition rotated (base : list R -> result profile2) (k : nat) (p : list R) : result profile2 :=
  do theta <- at_ p k; do x0 <- at_ p 1; do y0 <- at_ p 2;
  let c := coord_transform theta x0 y0 0 0 in
  let newp := set_nth 2 (snd (fst (fst c))) (set_nth 1 (fst (fst (fst c))) p) in
  do f <- base (firstn k newp);
  Ok (fun x y => let t := coord_transform theta x0 y0 x y in f (snd (fst t)) (snd t)).
Definition gaussian2d_rot_no_bg (p : list R) : result profile2 := rotated gaussian2d_no_bg 5 p.
(** 989-1005 *)
Definition gaussian2d_rot (p : list R) (pts : list (R * R)) : result (list (option R)) :=
  over2 (do bg0 <- at_ p 6; do bg1x <- at_ p 7; do bg1y <- at_ p 8;
         do f <- gaussian2d_rot_no_bg (firstn 6 p); Ok (with_plane bg0 bg1x bg1y f)) pts.
(** 1008-1024 *)
Definition gaussian2d (p : list R) (pts : list (R * R)) : result (list (option R)) :=
  over2 (do bg0 <- at_ p 5; do bg1x <- at_ p 6; do bg1y <- at_ p 7;
         do f <- gaussian2d_no_bg (firstn 5 p); Ok (with_plane bg0 bg1x bg1y f)) pts.
(** 1032-1079; all four pairs of parameter triples are taken whether or not there are points in the quadrant *)
Definition split_pvoigt2d_no_bg (p : list R) : result profile2 :=
  do A <- at_ p 0; do x0 <- at_ p 1; do y0 <- at_ p 2;
  do qxr <- pick p [1; 4; 8]%nat; do fxr <- unit_pvoigt1d qxr;
  do qyr <- pick p [2; 6; 10]%nat; do fyr <- unit_pvoigt1d qyr;
  do qyl <- pick p [2; 5; 9]%nat; do fyl <- unit_pvoigt1d qyl;
  do qxl <- pick p [1; 3; 7]%nat; do fxl <- unit_pvoigt1d qxl;
  Ok (fun x y =>
        if Rle_dec x0 x
        then (if Rle_dec y0 y then nmul (nmul (Some A) (fxr x)) (fyr y) else nmul (nmul (Some A) (fxr x)) (fyl y))
        else (if Rle_dec y0 y then nmul (nmul (Some A) (fxl x)) (fyr y) else nmul (nmul (Some A) (fxl x)) (fyl y))).
(** 1082-1126 *)
Definition split_pvoigt2d_rot_no_bg (p : list R) : result profile2 := rotated split_pvoigt2d_no_bg 11 p.
Definition split_pvoigt2d_rot (p : list R) (pts : list (R * R)) : result (list (option R)) :=
  over2 (do bg0 <- at_ p 12; do bg1x <- at_ p 13; do bg1y <- at_ p 14;
         do f <- split_pvoigt2d_rot_no_bg (firstn 12 p); Ok (with_plane bg0 bg1x bg1y f)) pts.
(** 1134-1174 *)
Definition gaussian3d (p : list R) (pts : list (R * R * R)) : result (list (option R)) :=
  do bg0 <- at_ p 7; do bg1x <- at_ p 8; do bg1y <- at_ p 9; do bg1z <- at_ p 10;
  do A <- at_ p 0;
  do qx <- pick p [1; 4]%nat; do gx <- unit_gaussian qx;
  do qy <- pick p [2; 5]%nat; do gy <- unit_gaussian qy;
  do qz <- pick p [3; 6]%nat; do gz <- unit_gaussian qz;
  Ok (map (fun q => let '(x, y, z) := q in
                    nadd (nmul (nmul (nmul (Some A) (gx x)) (gy y)) (gz z)) (Some (bg0 + bg1x * x + bg1y * y + bg1z * z))) pts).

(** ** mixing and pink beam *)
(** 391-393 and 397-399, [_calc_alpha], [_calc_beta]; 0.5 * x0 in degrees *)
Definition calc_slope (c : R * R) (x0 : R) : R := fst c + snd c * tan (1 / 2 * x0 * PI / 180).
(** 417-448; numba raises for a scalar division by zero; a fractional power of a negative number is NaN, and so is what follows *)
Definition mixing_factor_pv (g l : R) : result (option R * option R) :=
  let s := g ^ 5 + 2.69269 * g ^ 4 * l + 2.42843 * g ^ 3 * l ^ 2 + 4.47163 * g ^ 2 * l ^ 3 + 0.07842 * g * l ^ 4 + l ^ 5 in
  if Rlt_dec s 0 then Ok (None, None)
  else if Req_EM_T s 0 then Err ZeroDivisionError
  else let fwhm := Rpower s (1 / 5) in
       let eta := 1.36603 * (l / fwhm) - 0.47719 * (l / fwhm) ^ 2 + 0.11116 * (l / fwhm) ^ 3 in
       let eta := if Rlt_dec eta 0 then 0 else if Rlt_dec 1 eta then 1 else eta in
       Ok (Some eta, Some fwhm).
(** 452-493; [erfc] is special.py's.  Simplification: exp does not overflow; fwhm_g is not 0 *)
Section Pink.
Variable erfc : R -> R.
Definition pink_value (alpha beta fwhm_g del_tth : R) : R :=
  if Rlt_dec 5 (Rabs del_tth) then 0 else
  let sigsqr := fwhm_g ^ 2 in
  let f1 := alpha * sigsqr + 2 * del_tth in
  let f2 := beta * sigsqr - 2 * del_tth in
  let f3 := sqrt 2 * fwhm_g in
  let u := 1 / 2 * alpha * f1 in
  let v := 1 / 2 * beta * f2 in
  let y := (f1 - del_tth) / f3 in
  let z := (f2 + del_tth) / f3 in
  (1 / 2 * (alpha * beta) / (alpha + beta)) * exp u * erfc y + exp v * erfc z.
Fixpoint list_max (a : R) (l : list R) : R := match l with [] => a | x :: t => Rmax x (list_max a t) end.
Definition gaussian_pink_beam (A x0 alpha beta fwhm_g : R) (x : list R) : result (list R) :=
  if Req_EM_T (alpha + beta) 0 then Err ZeroDivisionError else
  match map (fun z => pink_value alpha beta fwhm_g (z - x0)) x with
  | [] => Err ValueError
  | v :: t => let m := list_max v t in
              if Req_EM_T m 0 then Err ZeroDivisionError else Ok (map (fun g => g * (A / m)) (v :: t))
  end.
End Pink.

(** ** several peaks: 1182-1253.  The pink beam profiles are a parameter *)
Inductive pktype := Gaussian | Lorentzian | Pvoigt | SplitPvoigt | PinkBeamDcs | PinkBeamHeating | PinkBeamExponential
  | DcsPinkbeam | TanhStepdown | UnknownType.
(** 43-51 *)
Definition mpeak_nparams (t : pktype) : result nat :=
  match t with
  | Gaussian => Ok 3 | Lorentzian => Ok 3 | Pvoigt => Ok 4 | SplitPvoigt => Ok 6
  | PinkBeamDcs => Ok 8 | PinkBeamHeating => Ok 6 | PinkBeamExponential => Ok 7
  | _ => Err KeyError
  end%nat.
(** numpy.reshape of a flat array into rows *)
Fixpoint rows (n w : nat) (p : list R) : list (list R) :=
  match n with O => [] | S n' => firstn w p :: rows n' w (skipn w p) end.
Definition reshape (n w : nat) (p : list R) : result (list (list R)) :=
  if Nat.eqb (length p) (n * w) then Ok (rows n w p) else Err ValueError.
Inductive bgtype := NoBg | ConstantBg | LinearBg | QuadraticBg | CubicBg.
Section Multi.
Variable pink : pktype -> list R -> list R -> result (list (option R)).
(** the dispatch 1208-1222 *)
Definition one_peak (t : pktype) (p x : list R) : result (list (option R)) :=
  match t with
  | Gaussian => over (gaussian1d_no_bg p) x
  | Lorentzian => over (lorentzian1d_no_bg p) x
  | Pvoigt => over (pvoigt1d_no_bg p) x
  | SplitPvoigt => over (split_pvoigt1d_no_bg p) x
  | _ => pink t p x
  end.
Definition add_rows (a b : list (option R)) : list (option R) := map (fun q => nadd (fst q) (snd q)) (combine a b).
Fixpoint accumulate (t : pktype) (ps : list (list R)) (x : list R) (f : list (option R)) : result (list (option R)) :=
  match ps with
  | [] => Ok f
  | p :: r => do g <- one_peak t p x; accumulate t r x (add_rows f g)
  end.
Definition mpeak_1d_no_bg (p x : list R) (t : pktype) (num_pks : nat) : result (list (option R)) :=
  do npp <- mpeak_nparams t;
  do p_fit <- reshape num_pks npp (firstn (npp * num_pks) p);
  accumulate t p_fit x (map (fun _ => Some 0) x).
(** p[-k] *)
Definition from_end (p : list R) (k : nat) : result R := if Nat.ltb (length p) k then Err IndexError else at_ p (length p - k).
(** 1225-1253 *)
Definition mpeak_1d (p x : list R) (t : pktype) (num_pks : nat) (bg : bgtype) : result (list (option R)) :=
  do f <- mpeak_1d_no_bg p x t num_pks;
  match bg with
  | LinearBg => do c0 <- from_end p 2; do c1 <- from_end p 1;
                Ok (map (fun q => nadd (nadd (fst q) (Some c0)) (Some (c1 * snd q))) (combine f x))
  | ConstantBg => do c0 <- from_end p 1; Ok (map (fun v => nadd v (Some c0)) f)
  | QuadraticBg => do c0 <- from_end p 3; do c1 <- from_end p 2; do c2 <- from_end p 1;
                   Ok (map (fun q => nadd (nadd (nadd (fst q) (Some c0)) (Some (c1 * snd q))) (Some (c2 * snd q ^ 2))) (combine f x))
  | _ => Ok f
  end.
End Multi.
