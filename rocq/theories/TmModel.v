(** Model of tomography of a sample (hedm/grainmap/tomoutil.py) and of the parameters of measured rings
    (core/fitting/calibration/lmfit_param_handling.py:527-559).  Images are lists of rows; real or rational numbers stand for floats.
    Left out: logging, the inversion of a sinogram, the morphology of scipy and the resizing of an image, which are parameters here. *)
From Coq Require Import String Ascii Reals QArith Qround List Bool ZArith.
From Verif Require Import Prelude NamesModel DetModel.
Import ListNotations.
Local Open Scope string_scope.
Local Open Scope list_scope.
Local Notation length := List.length.

(** ** Names and radiographs *)
(** str.zfill for a text without a sign *)
Fixpoint zeros (n : nat) : string := match n with O => "" | S k => String "0"%char (zeros k) end.
Definition zfill (w : nat) (s : string) : string := zeros (w - String.length s) +++ s.
(** 34-39, 64-66, 96-101 *)
Definition image_name (folder stem : string) (num_digits : nat) (ext : string) (n : nat) : string := folder +++ stem +++ zfill num_digits (dec n) +++ ext.
Definition image := list (list R).
Definition has_shape (nrows ncols : nat) (im : image) : bool := Nat.eqb (length im) nrows && forallb (fun r => Nat.eqb (length r) ncols) im.
(** 27-39, 57-66: the stack of images, read one after another; an image of another shape is refused (numpy would repeat one with a
    single row or column) *)
Fixpoint load_stack (imread : string -> result image) (folder stem ext : string) (num_digits nrows ncols : nat) (nums : list nat) : result (list image) :=
  match nums with
  | [] => Ok []
  | n :: r =>
      do im <- imread (image_name folder stem num_digits ext n);
      if has_shape nrows ncols im then do t <- load_stack imread folder stem ext num_digits nrows ncols r; Ok (im :: t) else Err ValueError
  end.
(** 16-42, and the same in 46-69 *)
Definition gen_bright_field (median : list image -> image) (imread : string -> result image) (folder : string) (start num nrows ncols : nat) (stem : string) (nd : nat) (ext : string) : result image :=
  do st <- load_stack imread folder stem ext nd nrows ncols (seq start num); Ok (median st).
(** 103-105 *)
Definition attenuation (i b d : R) : R := (- ln ((i - d) / (b - d)))%R.
Definition attenuate (tbf tdf im : image) : image :=
  map (fun r => map (fun p => attenuation (fst p) (fst (snd p)) (snd (snd p))) (combine (fst r) (combine (fst (snd r)) (snd (snd r))))) (combine im (combine tbf tdf)).
(** 72-107: the length of None is asked for if no dark field is given *)
Definition gen_attenuation_rads (imread : string -> result image) (folder : string) (tbf : image) (start num nrows ncols : nat) (stem : string) (nd : nat) (ext : string) (tdf : option image) : result (list image) :=
  match tdf with
  | None => Err TypeError
  | Some dark => do st <- load_stack imread folder stem ext nd nrows ncols (seq start num); Ok (map (attenuate tbf dark) st)
  end.

(** ** Sinograms *)
(** int of a float *)
Definition qtrunc (x : Q) : Z := if Qle_bool 0 x then Qfloor x else (- Qfloor (- x))%Z.
Definition slice_at (n i : Z) : Z := if (i <? 0)%Z then Z.max 0 (i + n) else Z.min i n.
(** l[d:-d] *)
Definition trim {A} (d : Z) (l : list A) : list A :=
  let n := Z.of_nat (length l) in let a := slice_at n d in let b := slice_at n (- d) in firstn (Z.to_nat (b - a)) (skipn (Z.to_nat a) l).
(** 131-134 *)
Definition cut_axis {A} (r : Z) (l : list A) : list A :=
  if (0 <=? r)%Z then skipn (Z.to_nat (2 * r)) l else firstn (Z.to_nat (Z.max 0 (Z.of_nat (length l) + 2 * r))) l.
(** 122 *)
Definition rotation_axis_pos (center pixel_size : Q) : Z := (- qround (center / pixel_size))%Z.
(** 127-129 *)
Definition max_rad (cross_sectional_dim pixel_size : Q) : Z := qtrunc (cross_sectional_dim / pixel_size / 2 * (11 # 10)).
(** 120-138 for one row of the sinogram *)
Definition cut_sinogram {A} (center pixel_size cross_sectional_dim : Q) (row : list A) : list A :=
  let sc := cut_axis (rotation_axis_pos center pixel_size) row in
  let dist_from_edge := (qround (qz (Z.of_nat (length sc)) / 2) - max_rad cross_sectional_dim pixel_size)%Z in
  trim dist_from_edge sc.
(** 125: numpy.linspace without its end *)
Definition thetas (start stop : Q) (n : nat) : list Q := map (fun k => start + qz (Z.of_nat k) * ((stop - start) / qz (Z.of_nat n)))%Q (seq 0 n).

(** ** Cleaning of a layer: a binary image as the list of its pixels *)
Definition size_of (labels : list nat) (k : nat) : nat := length (filter (Nat.eqb k) labels).
Definition paint (labels : list nat) (k : nat) (v : bool) (b : list bool) : list bool := map (fun pl => if Nat.eqb (snd pl) k then v else fst pl) (combine b labels).
(** 170-173 *)
Definition remove_noise (labeled : list nat * nat) (noise_obj_size : nat) (b : list bool) : list bool :=
  fold_left (fun b ii => if Nat.ltb (size_of (fst labeled) ii) noise_obj_size then paint (fst labeled) ii false b else b) (seq 1 (snd labeled - 1)) b.
(** 178-182 *)
Definition close_holes (labeled : list nat * nat) (min_hole_size : nat) (b : list bool) : list bool :=
  fold_left (fun b ii => if Nat.leb 1 (size_of (fst labeled) ii) && Nat.ltb (size_of (fst labeled) ii) min_hole_size then paint (fst labeled) ii true b else b) (seq 1 (snd labeled - 1)) b.
Section Clean.
Variable dilate erode : nat -> list bool -> list bool.
Variable label : list bool -> list nat * nat.
(** 150-192 *)
Definition threshold_and_clean (recon : list Q) (thresh : Q) (noise_obj_size min_hole_size : nat) (edge : option nat) (erosion_iter dilation_iter : nat) : list bool :=
  let b := map (fun x => negb (Qle_bool x thresh)) recon in
  let b := erode erosion_iter (dilate dilation_iter b) in
  let b := remove_noise (label b) noise_obj_size b in
  let b := close_holes (label (map negb b)) min_hole_size b in
  match edge with Some e => dilate e (erode e b) | None => b end.
End Clean.

(** ** Cropping *)
Definition mapi {A B} (f : nat -> A -> B) (l : list A) : list B := map (fun p => f (fst p) (snd p)) (combine (seq 0 (length l)) l).
(** 229-236 *)
Definition mask_circle (radius : Z) (im : list (list bool)) : list (list bool) :=
  let center := (qz (Z.of_nat (length im)) / 2)%Q in
  mapi (fun i row => mapi (fun j p =>
    let y := (qz (Z.of_nat i) - center)%Q in let x := (qz (Z.of_nat j) - center)%Q in
    if Qle_bool (x * x + y * y) (qz (radius * radius)) then p else false) row) im.
(** 219-238, after the resizing *)
Definition crop_layer (im : list (list bool)) (voxel_spacing cross_sectional_dim : Q) (circular_mask_rad : option Q) : list (list bool) :=
  let cut_edge := qround ((qz (Z.of_nat (length im)) * voxel_spacing - cross_sectional_dim) / 2 / voxel_spacing) in
  let im2 := map (trim cut_edge) (trim cut_edge im) in
  match circular_mask_rad with None => im2 | Some r => mask_circle (qround (r / voxel_spacing)) im2 end.

(** ** Rings *)
(** lmfit_param_handling.py:552-559 *)
Definition tth_parameter_prefixes (beam_names : list string) : list (string * string) :=
  match beam_names with [n] => [(n, "DS_ring_")] | l => map (fun n => (n, n +++ "_" +++ "DS_ring_")) l end.
Fixpoint assoc {A} (k : string) (l : list (string * A)) : option A := match l with [] => None | (k', a) :: r => if String.eqb k k' then Some a else assoc k r end.
Record ring_param := RP { r_name : string; r_val : R; r_vary : bool; r_min : R; r_max : R }.
(** 527-549: [degmean] is the mean of some angles in degrees; a panel without a measurement has None, the list of panels of a ring
    may be empty *)
Fixpoint ring_params (degmean : list R -> R) (prefix : string) (ii : nat) (rings : list (list (option (list R)))) : list ring_param :=
  match rings with
  | [] => []
  | tth :: r =>
      let ds_ang := flat_map (fun v => match v with Some a => [a] | None => [] end) tth in
      match ds_ang with
      | [] => ring_params degmean prefix (S ii) r
      | _ => let val := degmean (concat ds_ang) in RP (prefix +++ dec ii) val true (val - 5)%R (val + 5)%R :: ring_params degmean prefix (S ii) r
      end
  end.
Fixpoint create_tth_parameters (degmean : list R -> R) (beam_names : list string) (meas : list (string * list (list (option (list R))))) : result (list ring_param) :=
  match meas with
  | [] => Ok []
  | (src, rings) :: r =>
      match assoc src (tth_parameter_prefixes beam_names) with
      | None => Err KeyError
      | Some prefix => do t <- create_tth_parameters degmean beam_names r; Ok (ring_params degmean prefix 0 rings ++ t)
      end
  end.
