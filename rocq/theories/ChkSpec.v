(** Vocabulary for tiled detectors *)
From Coq Require Import String QArith.
From Verif Require Import Prelude DetModel ChkModel.
Local Open Scope Q_scope.

(** the pixel (i, j) is in the rectangle *)
Definition inside (r : rect) (i j : Z) : Prop := (fst (fst r) <= i < snd (fst r) /\ fst (snd r) <= j < snd (snd r))%Z.
(** a row (or column) of a composite of [n] tiles of [base] rows with gaps in between is on a tile *)
Definition on_tile (n : nat) (base gap i : Z) : Prop := (0 <= i < Z.of_nat n * (base + gap) /\ i mod (base + gap) < base)%Z.
(** the centre of pixel (i, j) of a panel, in its own frame: the origin in the middle, x along the columns, y against the rows *)
Definition centre (rows cols : Z) (psr psc : Q) (i j : Z) : Q * Q :=
  ((qz j + (1 # 2) - (1 # 2) * qz cols) * psc, ((1 # 2) * qz rows - qz i - (1 # 2)) * psr).
(** a point of a panel in the laboratory frame *)
Definition along (rmat : vec * vec * vec) (x y : Q) : vec :=
  let '((a, b, _), (c, d, _), (e, f, _)) := rmat in (a * x + b * y, c * x + d * y, e * x + f * y).
Definition in_lab (rmat : vec * vec * vec) (tvec : vec) (xy : Q * Q) : vec :=
  let '(u, v, w) := along rmat (fst xy) (snd xy) in let '(t0, t1, t2) := tvec in (u + t0, v + t1, w + t2).
Definition pixel_of (p : ipanel) (i j : Z) : vec := in_lab (i_rmat p) (i_tvec p) (centre (p_rows (i_geo p)) (p_cols (i_geo p)) (p_psr (i_geo p)) (p_psc (i_geo p)) i j).
Definition pixel_of_chunk (c : conf) (i j : Z) : vec := in_lab (f_rmat c) (f_tvec c) (centre (f_rows c) (f_cols c) (f_psr c) (f_psc c) i j).
Definition veq (a b : vec) : Prop := let '(a0, a1, a2) := a in let '(b0, b1, b2) := b in a0 == b0 /\ a1 == b1 /\ a2 == b2.
Definition vsub (a b : vec) : vec := let '(a0, a1, a2) := a in let '(b0, b1, b2) := b in (a0 - b0, a1 - b1, a2 - b2).
(** the entry of an array *)
Definition entry {A} (m : list (list A)) (i j : Z) : option A :=
  match nth_error m (Z.to_nat i) with Some r => nth_error r (Z.to_nat j) | None => None end.
(** [m'] is the part of [m] in the rectangle: what it has at (i, j) is what [m] has at (r0 + i, c0 + j), and nothing else *)
Definition part_of {A} (r : rect) (m m' : list (list A)) : Prop :=
  forall i j, (0 <= i -> 0 <= j -> entry m' i j = if andb (i <? snd (fst r) - fst (fst r)) (j <? snd (snd r) - fst (snd r)) then entry m (fst (fst r) + i) (fst (snd r) + j) else None)%Z.
Definition within (s k : string) : Prop := exists a b, k = (a ++ s ++ b)%string.
(** every chunk of every panel has its entry, in order *)
Definition entries (names : string -> string -> string) (instr : list (string * ipanel)) (chunks : list (rect * string)) (is_chunk : ipanel -> rect -> conf -> Prop)
  (d : list (string * conf)) : Prop :=
  Forall2 (fun a kc => fst kc = names (fst (fst a)) (snd (snd a)) /\ is_chunk (snd (fst a)) (fst (snd a)) (snd kc))
    (flat_map (fun p => map (fun c => (p, c)) chunks) instr) d.
