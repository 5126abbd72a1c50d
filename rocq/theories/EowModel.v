(** Model of the omega part of GenerateEtaOmeMaps.__init__ (hedm/instrument/generate_eta_omega_maps.py:62-104, 128-143): the omega
    bins of an imageseries of several wedges and the rows of the map they get.  Angles are exact rationals in degrees
    (the final conversion to radians is left out). *)
From Coq Require Import QArith Qabs Qround Reals Qreals.
From Verif Require Import Prelude OmegaModel FibModel.
Local Close Scope R_scope.
Open Scope Q_scope.

(** core/rotations.py:1108-1140, mapAngle to the period of 360 degrees that starts at [lo] *)
Definition qmapAngle (ang lo : Q) : Q :=
  let val := qmod (ang - lo) 360 + lo in
  if Qeq_bool val lo then if Qltb lo ang then lo + 360 else val else val.
(** Python's int() of a rational *)
Definition qint (x : Q) : Z := if Qle_bool 0 x then Qfloor x else (- Qfloor (- x))%Z.
(** numpy.linspace(a, b, num) for [num] points, [k] the index *)
Definition linspace (a b : Q) (num k : nat) : Q := a + inject_Z (Z.of_nat k) * ((b - a) / inject_Z (Z.of_nat (num - 1))).

(** 67-104: the mask of the rows that have a frame ([None] if there is one wedge) and the omega interval of each row *)
Definition omega_rows (om : omarr) (ws : list wedge) : result (option (list bool) * omarr) :=
  if Nat.leb (length ws) 1 then Ok (None, om)
  else
    do u <- uniqueVectors 1 (map (fun w => [Q2R (w_delta w)]) ws) (Q2R (1 # 1000000));
    if negb (Nat.eqb (length u) 1) then Err AssertionError
    else
      let ostart := w_start (hd wedge0 ws) in
      let ostop := qmapAngle (w_stop (last ws wedge0)) (fst (om_at om 0)) in
      let num := (qint ((ostop - ostart) / w_delta (hd wedge0 ws)) + 1)%Z in
      if (num <? 0)%Z then Err ValueError
      else
        let n := Z.to_nat num in
        let arr := map (fun k => (linspace ostart ostop n k, linspace ostart ostop n (S k))) (seq 0 (n - 1)) in
        Ok (Some (map (fun r => negb (fst (omega_to_frame ws ((fst r + snd r) / 2)) =? -1)%Z) arr), arr).

(** 128-136, [tmp[frame_mask, :] = full_map]: the rows go to the places of the mask in order; the numbers must match, except that
    a single row is repeated *)
Fixpoint spread {A} (mask : list bool) (rows : list A) : list (option A) :=
  match mask with
  | [] => []
  | true :: t => match rows with r :: rs => Some r :: spread t rs | [] => None :: spread t [] end
  | false :: t => None :: spread t rows
  end.
Definition place {A} (mask : option (list bool)) (rows : list A) : result (list (option A)) :=
  match mask with
  | None => Ok (map Some rows)
  | Some m =>
      let n := length (filter (fun b => b) m) in
      if Nat.eqb n (length rows) then Ok (spread m rows)
      else match rows with [r] => Ok (spread m (repeat r n)) | _ => Err ValueError end
  end.

(** the centres of the rows' omega intervals (138-141), mapped to the period that starts at the first frame *)
Definition centre_of (o0 : Q) (r : Q * Q) : Q := qmapAngle ((fst r + snd r) / 2) o0.
(** 62-143: the rows of the map and their omegas *)
Definition omega_map {A} (om : omarr) (rows : list A) : result (list (option A * Q)) :=
  do ws <- make_wedges om;
  do mo <- omega_rows om ws;
  do out <- place (fst mo) rows;
  Ok (combine out (map (centre_of (fst (om_at om 0))) (snd mo))).
