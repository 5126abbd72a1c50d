(** Vocabulary for the theorems about grids, trial orientations, stitching and detector scans *)
From Coq Require Import QArith Sorted.
From Verif Require Import Prelude NfModel NfgModel.
Local Open Scope Q_scope.

(** the middle of the k-th interval of length [step] from [lo] on *)
Definition middle (lo step : Q) (k : nat) : Q := lo + (inject_Z (Z.of_nat k) + (1 # 2)) * step.
(** points of a grid: [nx], [ny] and [nz] positions along the axes; layers of equal y, rows of equal x *)
Definition is_grid (fx : nat -> Q) (nx : nat) (fy : nat -> Q) (ny : nat) (fz : nat -> Q) (nz : nat) (pts : list (Q * Q * Q)) : Prop :=
  length pts = (ny * nx * nz)%nat /\
  forall i j k, (i < ny)%nat -> (j < nx)%nat -> (k < nz)%nat ->
    exists x y z, nth_error pts ((i * nx + j) * nz + k) = Some (x, y, z) /\ x == fx j /\ y == fy i /\ z == fz k.

(** the numbers of the grains that are complete enough and fit well enough, in ascending order *)
Definition selected (ff : list ff_grain) (comp chi2 : Q) (cut : list Z) : Prop :=
  StronglySorted Z.lt cut /\ forall i, In i cut <-> (0 <= i)%Z /\ exists g, nth_error ff (Z.to_nat i) = Some g /\ comp < g_comp g /\ g_chi2 g < chi2.
Definition same3 (a b : Q * Q * Q) : Prop := let '(a1, a2, a3) := a in let '(b1, b2, b3) := b in a1 == b1 /\ a2 == b2 /\ a3 == b3.
(** the orientation of a grain, turned away by a number of steps along the axes *)
Definition turned_by (e : Q * Q * Q) (step : Q) (a b c : Z) (o : Q * Q * Q) : Prop :=
  same3 o (let '(e1, e2, e3) := e in (e1 + inject_Z a * step, e2 + inject_Z b * step, e3 + inject_Z c * step)).

(** all volumes of a scan have the same shape *)
Definition vol_shape (l r c : nat) (v : vol) : Prop := length v = l /\ Forall (fun la => length la = r /\ Forall (fun ro => length ro = c) la) v.
Definition scan_shape (l r c : nat) (s : scan) : Prop :=
  vol_shape l r c (v_grain s) /\ vol_shape l r c (v_conf s) /\ vol_shape l r c (v_x s) /\ vol_shape l r c (v_y s) /\ vol_shape l r c (v_z s).
(** entry (layer, row, column) *)
Definition at3 (v : vol) (l i j : nat) : option Q :=
  match nth_error v l with Some la => match nth_error la i with Some ro => nth_error ro j | None => None end | None => None end.

(** the experiment with one detector parameter replaced: 0 distance, 1 and 2 centre, 3 to 5 tilts, 6 offset of omega *)
Definition with_parm {M} (make : Q * Q * Q -> M) (e : @expt M) (which : Z) (p : Q) (e' : @expt M) : Prop :=
  let '(x, y, z) := e_tvec e in
  let '(tx, ty, tz) := e_tilts e in
  e_tilts e' = e_tilts e /\
  e_tvec e' = (if (which =? 1)%Z then p else x, if (which =? 2)%Z then p else y, if (which =? 0)%Z then p else z) /\
  e_rmat e' = make (if (which =? 3)%Z then p else tx, if (which =? 4)%Z then p else ty, if (which =? 5)%Z then p else tz) /\
  (which <> 6%Z -> e_range e' = e_range e /\ e_period e' = e_period e /\ e_edges e' = e_edges e /\ e_base2 e' = e_base2 e) /\
  (which = 6%Z -> e_range e' = (fst (e_range e) - p, snd (e_range e) - p) /\ e_period e' = (fst (e_period e) - p, snd (e_period e) - p) /\
                  e_edges e' = map (fun x => x - p) (e_edges e) /\ exists b, nth_error (e_edges e') 0 = Some b /\ e_base2 e' = b).
(** every one of the [n] orientations made from a grain carries the number of that grain *)
Definition named (cut : list Z) (n : nat) (ids : list Z) : Prop :=
  length ids = (length cut * n)%nat /\ forall q t gi, nth_error cut q = Some gi -> (t < n)%nat -> nth_error ids (q * n + t) = Some gi.
(** the scan that supplies the layers of the i-th block *)
Definition source (n : nat) (top_down : bool) (ii : nat) : nat := if top_down then (n - 1 - ii)%nat else ii.
(** position of a point in the flattened arrays of the VTK file *)
Definition point_no (nj ni k j i : Z) : Z := ((k * nj + j) * ni + i)%Z.
