(** Model of hexrd/core/imageseries/omega.py.  Angles are exact rationals
    (float rounding is not modelled); the literals 1.0e-6 and 360 are kept. *)
From Verif Require Import Prelude.
From Coq Require Import QArith Qabs Qround.
Open Scope Q_scope.

(** omega.py:17-18, [DFLT_TOL] and [TAU]. *)
Definition tol : Q := 1 # 1000000.
Definition TAU : Q := 360.

Definition Qltb (x y : Q) : bool := negb (Qle_bool y x).

(** [np.mod(x, m)] for a positive modulus: floor remainder. *)
Definition qmod (x m : Q) : Q := x - m * inject_Z (Qfloor (x / m)).

(** An omega array: one (start, stop) row per frame. *)
Definition omarr := list (Q * Q).
Definition om_at (om : omarr) (f : nat) : Q * Q := nth f om (0, 0).

(** omega.py:43-51, the loop over the frames 1..nf-1; [fs] are the rows still to visit and
    [f] the number of the next one.  The test on [delta] comes first, on the value from the previous
    iterations, exactly as in the code. *)
Fixpoint wedge_loop (fs : omarr) (f : nat) (delta omlast : Q) (starts : list nat) : result (list nat) :=
  match fs with
  | [] => Ok starts
  | (a, b) :: t =>
      if Qle_bool delta 0 then Err OmegaSeriesError
      else
        let d := b - a in
        if Qltb tol (Qabs (d - delta)) || Qltb tol (Qabs (a - omlast))
        then wedge_loop t (S f) d b (starts ++ [f])
        else wedge_loop t (S f) delta b starts
  end.

(** One row of [_wedge_om] (ostart, ostop, delta) with the matching row of [_wedge_f]
    (first frame, number of frames). *)
Record wedge := { w_start : Q; w_stop : Q; w_delta : Q; w_f0 : nat; w_n : nat }.

(** omega.py:59-69, the loop over consecutive pairs of [starts]. *)
Fixpoint wedge_build (om : omarr) (nf0 : nat) (starts : list nat) : list wedge :=
  match starts with
  | s :: ((e :: _) as t) =>
      let ostart := fst (om_at om s) in
      let ostop := snd (om_at om (e - 1)) in
      let steps := (e - s)%nat in
      {| w_start := ostart; w_stop := ostop;
         w_delta := (ostop - ostart) / inject_Z (Z.of_nat steps);
         w_f0 := nf0; w_n := steps |} :: wedge_build om (nf0 + steps) t
  | _ => []
  end.

(** omega.py:35-70, [_make_wedges]; an empty array makes [om[0, 1]] raise IndexError. *)
Definition make_wedges (om : omarr) : result (list wedge) :=
  match om with
  | [] => Err IndexError
  | (a, b) :: rest =>
      do starts <- wedge_loop rest 1 (b - a) b [0%nat];
      let ws := wedge_build om 0 (starts ++ [length om]) in
      if Nat.eqb (list_sum (map w_n ws)) (length om) then Ok ws else Err AssertionError
  end.

(** omega.py:20-33, the constructor's check that there is one omega row per frame. *)
Definition make_series (nframes : nat) (om : option omarr) : result (list wedge) :=
  match om with
  | None => Err OmegaSeriesError
  | Some om => if Nat.eqb nframes (length om) then make_wedges om else Err OmegaSeriesError
  end.

(** omega.py:94-108, [omega_to_frame]; [i] is the wedge number of the head of [ws]. *)
Fixpoint omega_to_frame_from (i : Z) (ws : list wedge) (om : Q) : Z * Z :=
  match ws with
  | [] => ((-1)%Z, (-1)%Z)
  | w :: t =>
      let omcheck := w_start w + qmod (om - w_start w) TAU in
      if Qltb omcheck (w_stop w)
      then ((Z.of_nat (w_f0 w) + Qfloor ((omcheck - w_start w) / w_delta w))%Z, i)
      else omega_to_frame_from (i + 1) t om
  end.
Definition omega_to_frame := omega_to_frame_from 0.

Definition wedge0 : wedge := {| w_start := 0; w_stop := 0; w_delta := 0; w_f0 := 0; w_n := 0 |}.

(** omega.py:110-133, [omegarange_to_frames]; the empty tuple is [[]]. *)
Definition omegarange_to_frames (ws : list wedge) (omin omax : Q) : list Z :=
  let '(f0, w0) := omega_to_frame ws omin in
  if (w0 <? 0)%Z then []
  else
    let '(f1, w1) := omega_to_frame ws omax in
    if (w1 <? 0)%Z then []
    else if (w0 =? w1)%Z && (f0 <? f1)%Z then zrange f0 (f1 + 1)
    else
      let W0 := nth (Z.to_nat w0) ws wedge0 in
      let W1 := nth (Z.to_nat w1) ws wedge0 in
      if Qltb (qmod (Qabs (w_start W1 - w_stop W0)) TAU) tol
      then zrange f0 (Z.of_nat (w_f0 W0 + w_n W0)) ++ zrange (Z.of_nat (w_f0 W1)) (f1 + 1)
      else [].

(** omega.py:136-212, [OmegaWedges].  A stored wedge is the dictionary (ostart, ostop, nsteps);
    [nsteps] is a natural number (a negative count is not modelled). *)
Record odict := { o_start : Q; o_stop : Q; o_n : nat }.

Inductive wop :=
| AddWedge (d : odict) (loc : option Z)
| DelWedge (i : Z).

(** Python [list.insert(loc, x)]: negative positions count from the end, positions out of range are
    clamped. *)
Definition py_insert {A} (l : list A) (loc : Z) (x : A) : list A :=
  let n := Z.of_nat (length l) in
  let p := Z.to_nat (if (loc <? 0)%Z then Z.max 0 (n + loc) else Z.min loc n) in
  firstn p l ++ x :: skipn p l.

(** Python [list.pop(i)] without its result. *)
Definition py_pop {A} (l : list A) (i : Z) : result (list A) :=
  let n := Z.of_nat (length l) in
  let j := (if (i <? 0)%Z then n + i else i)%Z in
  if ((0 <=? j) && (j <? n))%Z
  then Ok (firstn (Z.to_nat j) l ++ skipn (S (Z.to_nat j)) l)
  else Err IndexError.

(** omega.py:184-206, [addwedge] and [delwedge]; an operation that raises leaves the list unchanged. *)
Definition wop_step (l : list odict) (o : wop) : list odict :=
  match o with
  | AddWedge d None => py_insert l (Z.of_nat (length l)) d
  | AddWedge d (Some loc) => py_insert l loc d
  | DelWedge i => match py_pop l i with Ok l' => l' | Err _ => l end
  end.
Definition wops_run (ops : list wop) : list odict := fold_left wop_step ops [].

(** omega.py:208-212, [wframes]. *)
Definition wframes (l : list odict) : nat := list_sum (map o_n l).

(** [np.linspace(a, b, k + 1)]: the points [a + i (b - a) / k]; a single point when [k = 0].  numpy
    overwrites the last point by [b], the same number in exact arithmetic. *)
Definition linspace (a b : Q) (k : nat) : list Q :=
  map (fun i => a + inject_Z (Z.of_nat i) * ((b - a) / inject_Z (Z.of_nat k))) (seq 0 (S k)).

(** omega.py:164-170, the rows [(wa0[:-1], wa0[1:])] of one wedge. *)
Definition wedge_rows (d : odict) : omarr :=
  let wa0 := linspace (o_start d) (o_stop d) (o_n d) in
  combine (firstn (o_n d) wa0) (tl wa0).

(** omega.py:152-172, the [omegas] property.  The rows are stored at the running offset [wstart], which is
    concatenation. *)
Definition omegas (nframes : nat) (l : list odict) : result omarr :=
  if negb (Nat.eqb nframes (wframes l)) then Err OmegaSeriesError
  else Ok (flat_map wedge_rows l).
