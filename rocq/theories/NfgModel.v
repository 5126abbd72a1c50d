(** Model of the preparation and assembly of near field reconstructions (hedm/grainmap/nfutil.py): test grids, trial orientations,
    stitching of volumes, the scan of a detector parameter.  Rationals stand for floating point numbers. *)
From Coq Require Import QArith Qround.
From Verif Require Import Prelude NfModel.
Local Open Scope Q_scope.

(** numpy.arange(start, stop, step) *)
Definition arange (start stop step : Q) : result (list Q) :=
  if Qeq_bool step 0 then Err ZeroDivisionError
  else Ok (map (fun k => start + inject_Z k * step) (zrange 0 (Qceiling ((stop - start) / step)))).
(** numpy.linspace(low, top, samples) *)
Definition linspace (low top : Q) (samples : Z) : result (list Q) :=
  if (samples <? 0)%Z then Err ValueError
  else Ok (map (fun k => if (samples =? 1)%Z then low else low + inject_Z k * ((top - low) / inject_Z (samples - 1))) (zrange 0 samples)).
(** numpy.meshgrid(xs, ys, zs) flattened and stacked: the first index of the arrays counts the ys *)
Definition mesh (xs ys zs : list Q) : list (Q * Q * Q) :=
  flat_map (fun y => flat_map (fun x => map (fun z => (x, y, z)) zs) xs) ys.
(** hedm/grainmap/nfutil.py:954-958 *)
Definition generate_test_grid (low top : Q) (samples : Z) : result (list (Q * Q * Q)) :=
  do c <- linspace low top samples;
  Ok (mesh c c c).
(** hedm/grainmap/nfutil.py:1065-1091: the points (the number of points and the arrays they are made of follow from them) *)
Definition gen_nf_test_grid (cross_sectional_dim : Q) (v_bnds : Q * Q) (voxel_spacing : Q) : result (list (Q * Q * Q)) :=
  do zs <- arange (- cross_sectional_dim / 2 + voxel_spacing / 2) (cross_sectional_dim / 2) voxel_spacing;
  do xs <- arange (- cross_sectional_dim / 2 + voxel_spacing / 2) (cross_sectional_dim / 2) voxel_spacing;
  if Qeq_bool (fst v_bnds) (snd v_bnds) then Ok (mesh xs [fst v_bnds] zs)
  else
    do ys <- arange (fst v_bnds + voxel_spacing / 2) (snd v_bnds) voxel_spacing;
    Ok (mesh xs ys zs).
(** hedm/grainmap/nfutil.py:1094-1117 *)
Definition gen_nf_test_grid_tomo (x_dim_pnts z_dim_pnts : Z) (v_bnds : Q * Q) (voxel_spacing : Q) : result (list (Q * Q * Q)) :=
  let xs := map inject_Z (zrange 0 x_dim_pnts) in
  let zs := map inject_Z (zrange 0 z_dim_pnts) in
  do m <- (if Qeq_bool (fst v_bnds) (snd v_bnds) then Ok (mesh xs [fst v_bnds] zs)
           else do ys <- arange (fst v_bnds + voxel_spacing / 2) (snd v_bnds) voxel_spacing; Ok (mesh xs ys zs));
  Ok (map (fun p => let '(x, y, z) := p in
             ((x - inject_Z x_dim_pnts / 2) * voxel_spacing, y, (z - inject_Z z_dim_pnts / 2) * voxel_spacing)) m).

(** ** trial orientations: hedm/grainmap/nfutil.py:1248-1297 and 1430-1435.  A far field grain: completeness, chi squared, exponential map *)
Record ff_grain := FFG { g_comp : Q; g_chi2 : Q; g_exp : Q * Q * Q }.
Definition qadd3 (a b : Q * Q * Q) : Q * Q * Q := let '(a1, a2, a3) := a in let '(b1, b2, b3) := b in (a1 + b1, a2 + b2, a3 + b3).
(** int(x) *)
Definition qtrunc (x : Q) : Z := if Qle_bool 0 x then Qfloor x else Qceiling x.
(** numpy.where(...)[0] *)
Definition where_true (bs : list bool) : list Z := map fst (filter snd (combine (zrange 0 (Z.of_nat (length bs))) bs)).
(** numpy.tile of a vector *)
Definition tile (l : list Z) (reps : Z) : result (list Z) := if (reps <? 0)%Z then Err ValueError else Ok (concat (repeat l (Z.to_nat reps))).
Definition trial_orientations (rad : Q) (ff_data : list ff_grain) (comp_thresh chi2_thresh misorientation_bnd misorientation_spacing : Q)
    : result (list (Q * Q * Q) * list Z) :=
  let cut := where_true (map (fun g => qlt comp_thresh (g_comp g) && qlt (g_chi2 g) chi2_thresh) ff_data) in
  let exp_maps := flat_map (fun i => match nth_error ff_data (Z.to_nat i) with Some g => [g_exp g] | None => [] end) cut in
  let mis_amt := misorientation_bnd * rad in
  let spacing := misorientation_spacing * rad in
  if Qeq_bool misorientation_spacing 0 then Err ZeroDivisionError
  else
    let mis_steps := qtrunc (misorientation_bnd / misorientation_spacing) in
    do ori_pts <- arange (- mis_amt) (mis_amt + spacing * (999 # 1000)) spacing;
    let grid0 := mesh ori_pts ori_pts ori_pts in
    let exp_maps_expanded := flat_map (fun e => map (fun o => qadd3 o e) grid0) exp_maps in
    do ids <- (if (mis_steps =? 0)%Z then Ok cut else tile cut (27 * mis_steps));
    Ok (exp_maps_expanded, ids).

(** ** stitching: hedm/grainmap/nfutil.py:1694-1774.  A volume is a list of layers of rows *)
Definition vol := list (list (list Q)).
Record scan := SCAN { v_grain : vol; v_conf : vol; v_x : vol; v_y : vol; v_z : vol }.
Definition vol_has_shape (l r c : nat) (v : vol) : bool :=
  (length v =? l)%nat && forallb (fun la => (length la =? r)%nat && forallb (fun ro => (length ro =? c)%nat) la) v.
Definition zeros (l r c : nat) : vol := repeat (repeat (repeat 0 c) r) l.
(** out[a:a+num_layers, :, :] = v; a volume of another shape is refused (numpy accepts one of which an extent is one) *)
Definition set_layers (num_layers r c : nat) (out : vol) (a : nat) (v : vol) : result vol :=
  if vol_has_shape num_layers r c v then Ok (firstn a out ++ v ++ skipn (a + num_layers) out) else Err ValueError.
Definition shifted (v : vol) (s : Q) : vol := map (map (map (fun y => y + s))) v.
(** hedm/grainmap/nfutil.py:1711-1714 *)
Definition vol_shifts (vol_spacing : list Q) (num_scans : nat) : result (list Q) :=
  match vol_spacing with
  | [v] => arange 0 (v * inject_Z (Z.of_nat num_scans) + (1 # 1000000000000)) v
  | _ => Ok vol_spacing
  end.
(** hedm/grainmap/nfutil.py:1694-1774, without the reading and writing of files *)
Definition output_grain_map (scans : list scan) (vol_spacing : list Q) (top_down : bool) : result scan :=
  let num_scans := length scans in
  do shifts <- vol_shifts vol_spacing num_scans;
  do first <- py_index scans 0;
  let num_layers := length (v_grain first) in
  let r := match v_grain first with [] => 0 | la :: _ => length la end%nat in
  let c := match v_grain first with [] => 0 | la :: _ => match la with [] => 0 | ro :: _ => length ro end end%nat in
  let z := zeros (num_layers * num_scans) r c in
  fold_left (fun acc ii =>
    do out <- acc;
    do s <- py_index scans (if top_down then Z.of_nat num_scans - 1 - Z.of_nat ii else Z.of_nat ii)%Z;
    let set out v := set_layers num_layers r c out (ii * num_layers) v in
    do g <- set (v_grain out) (v_grain s);
    do cf <- set (v_conf out) (v_conf s);
    do x <- set (v_x out) (v_x s);
    do zz <- set (v_z out) (v_z s);
    do sh <- py_index shifts (Z.of_nat ii);
    do y <- set (v_y out) (shifted (v_y s) sh);
    Ok (SCAN g cf x y zz)) (seq 0 num_scans) (Ok (SCAN z z z z z)).
(** hedm/grainmap/nfutil.py:1812-1845: the lines of cells of the VTK file, and their announced number *)
Definition vtk_cells (nk nj ni : Z) : list (list Z) :=
  let scale2 := (ni * nj)%Z in
  let scale1 := ni in
  flat_map (fun k => flat_map (fun j => map (fun i =>
    let base := (scale2 * k + scale1 * j + i)%Z in
    [base; base + 1; base + 1 + scale1; base + scale1; base + scale2; base + scale2 + 1; base + scale2 + scale1 + 1; base + scale2 + scale1]%Z)
    (zrange 0 (ni - 1))) (zrange 0 (nj - 1))) (zrange 0 (nk - 1)).
Definition vtk_num_cells (nk nj ni : Z) : Z := ((nk - 1) * (nj - 1) * (ni - 1))%Z.

(** ** the scan of a detector parameter: hedm/grainmap/nfutil.py:1517-1612.  The part of the experiment that it changes; tilts and
    position are those of detector_params and tVec_d, [e_base2] is base[2] *)
Section Scan.
Context {M C : Type}.
Variable make_detector_rmat : Q * Q * Q -> M.
Record expt := EXPT { e_tilts : Q * Q * Q; e_rmat : M; e_tvec : Q * Q * Q; e_range : Q * Q; e_period : Q * Q; e_edges : list Q; e_base2 : Q }.
(** numpy.max(test_orientations(...), axis=0) *)
Variable test : expt -> result C.
Definition parm_vector (rad : Q) (parm_to_opt : Z) (parm_range : Q * Q * Q) (deg : bool) : result (list Q) :=
  let '(a, b, n) := parm_range in
  if Qeq_bool n 0 then Err ZeroDivisionError
  else
    do v <- arange a (b + (1 # 1000000)) ((b - a) / n);
    Ok (if (2 <? parm_to_opt)%Z && deg then map (fun x => x * rad) v else v).
(** one pass of the loop; [e0] is the experiment at the beginning (copies of its values), [td] the array tmp_td *)
Definition set_trial (e0 : expt) (parm_to_opt : Z) (p : Q) (td : Q * Q * Q) (e : expt) : result (expt * (Q * Q * Q)) :=
  let '(tx, ty, tz) := e_tilts e0 in
  let '(d0, d1, d2) := td in
  let d2 := if (parm_to_opt =? 0)%Z then p else d2 in
  let d0 := if (parm_to_opt =? 1)%Z then p else d0 in
  let d1 := if (parm_to_opt =? 2)%Z then p else d1 in
  let rm := if (parm_to_opt =? 3)%Z then make_detector_rmat (p, ty, tz)
            else if (parm_to_opt =? 4)%Z then make_detector_rmat (tx, p, tz)
            else if (parm_to_opt =? 5)%Z then make_detector_rmat (tx, ty, p)
            else make_detector_rmat (tx, ty, tz) in
  let td := (d0, d1, d2) in
  if (parm_to_opt =? 6)%Z then
    let edges := map (fun x => x - p) (e_edges e0) in
    match edges with
    | [] => Err IndexError
    | b :: _ => Ok (EXPT (e_tilts e) rm td (fst (e_range e0) - p, snd (e_range e0) - p) (fst (e_period e0) - p, snd (e_period e0) - p) edges b, td)
    end
  else Ok (EXPT (e_tilts e) rm td (e_range e) (e_period e) (e_edges e) (e_base2 e), td).
(** the values of the trials, and the experiment when it is over *)
Fixpoint scan_loop (e0 : expt) (parm_to_opt : Z) (ps : list Q) (td : Q * Q * Q) (e : expt) : result (list C * expt) :=
  match ps with
  | [] => Ok ([], e)
  | p :: rest =>
      do et <- set_trial e0 parm_to_opt p td e;
      do c <- test (fst et);
      do r <- scan_loop e0 parm_to_opt rest (snd et) (fst et);
      Ok (c :: fst r, snd r)
  end.
Definition scan_detector_parm (rad : Q) (e : expt) (parm_to_opt : Z) (parm_range : Q * Q * Q) (deg : bool) : result (list C * list Q * expt) :=
  do ps <- parm_vector rad parm_to_opt parm_range deg;
  do r <- scan_loop e parm_to_opt ps (e_tvec e) e;
  Ok (fst r, ps, snd r).
End Scan.
