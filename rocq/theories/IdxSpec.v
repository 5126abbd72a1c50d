(** Vocabulary for the scoring of trial orientations. *)
From Coq Require Import Reals Permutation.
From Verif Require Import Prelude.
Local Open Scope R_scope.
Local Notation length := List.length.

(** some turn of the angle lies in the range, its end excluded *)
Definition in_arc (r : R * R) (angle : R) : Prop := exists k : Z, fst r <= angle + 2 * PI * IZR k < snd r.
Definition in_arcs (ranges : list (R * R)) (angle : R) : Prop := exists r, In r ranges /\ in_arc r angle.
(** no angle is in two of the ranges *)
Definition separate (ranges : list (R * R)) : Prop := ForallOrdPairs (fun r q => forall angle, ~ (in_arc r angle /\ in_arc q angle)) ranges.
(** a range is the full circle, or misses it by more than the tolerance 1e-8 *)
Definition clear_cut (ranges : list (R * R)) : Prop := forall r, In r ranges -> fst r < snd r /\ (2 * PI <= snd r - fst r \/ snd r - fst r <= 2 * PI - / 10 ^ 8).
Definition ascending (l : list R) : Prop := forall i j, (i <= j < length l)%nat -> nth i l 0 <= nth j l 0.
(** value is in bin i of the edges *)
Definition in_bin (edges : list R) (i : nat) (value : R) : Prop := (S i < length edges)%nat /\ nth i edges 0 <= value < nth (S i) edges 0.
(** the pixels of an n by m map at most dr rows and dc columns away from (r, c) *)
Definition near (r c dr dc n m : nat) (i j : nat) : Prop := (i < n /\ j < m /\ r <= i + dr /\ i <= r + dr /\ c <= j + dc /\ j <= c + dc)%nat.
(** (i, j) comes before (i', j') when reading by rows *)
Definition before (i j i' j' : nat) : Prop := (i < i' \/ (i = i' /\ j < j'))%nat.
(** the two angles differ by whole turns *)
Definition same_direction (a b : R) : Prop := exists k : Z, b = a + 2 * PI * IZR k.
(** a value above the threshold; NaN is None, and is above nothing *)
Definition bright (threshold value : option R) : Prop := exists t x, threshold = Some t /\ value = Some x /\ t < x.
(** what the window around row r, column c of a map shows when read by rows: the first pixel that is bright or NaN decides *)
Inductive sight := Hit | Miss | Unknown.
Definition decides (near : nat -> nat -> Prop) (map : nat -> nat -> option R) (threshold : option R) (i j : nat) : Prop :=
  near i j /\ (bright threshold (map i j) \/ map i j = None) /\ forall i' j', near i' j' -> before i' j' i j -> ~ (bright threshold (map i' j') \/ map i' j' = None).
Definition shows (near : nat -> nat -> Prop) (map : nat -> nat -> option R) (threshold : option R) (s : sight) : Prop :=
  match s with
  | Hit => exists i j, decides near map threshold i j /\ bright threshold (map i j)
  | Unknown => exists i j, decides near map threshold i j /\ map i j = None
  | Miss => forall i j, near i j -> ~ bright threshold (map i j) /\ map i j <> None
  end.
(** the score of a list of (hit, counted) *)
Definition ratio (l : list (Z * Z)) : R :=
  let hits := fold_right (fun v s => (fst v + s)%Z) 0%Z l in let counted := fold_right (fun v s => (snd v + s)%Z) 0%Z l in
  if (counted =? 0)%Z then 0 else IZR hits / IZR counted.
(** the predictions of all families, each with the number of its family *)
Fixpoint numbered {A} (k : nat) (families : list (list (A * A))) : list (nat * A) :=
  match families with [] => [] | f :: t => (flat_map (fun r => [(k, fst r); (k, snd r)]) f ++ numbered (S k) t)%list end.
(** the predicted spot falls into column e and row o of the maps *)
Definition falls_into (eta_edges ome_edges : list R) (period : R) (eta ome : R) (e o : nat) : Prop :=
  exists eta' ome', same_direction eta eta' /\ - PI <= eta' < PI /\ in_bin eta_edges e eta' /\ same_direction ome ome' /\ period <= ome' < period + 2 * PI /\ in_bin ome_edges o ome'.
(** a predicted spot counts as (hit, counted) *)
Definition points (s : sight) : Z * Z := match s with Hit => (1, 1)%Z | Miss => (0, 1)%Z | Unknown => (0, 0)%Z end.
(** the verdict on a prediction (tth, eta, ome): [see e o] is what the map shows around column e, row o *)
Definition verdict (eta_ranges ome_ranges : list (R * R)) (eta_edges ome_edges : list R) (period : R) (see : nat -> nat -> sight -> Prop) (tth eta : option R) (ome : R) (v : Z * Z) : Prop :=
  let visible := fun e o => tth <> None /\ exists x, eta = Some x /\ in_arcs eta_ranges x /\ in_arcs ome_ranges ome /\ falls_into eta_edges ome_edges period x ome e o in
  (exists e o s, visible e o /\ see e o s /\ v = points s) \/ ((forall e o, ~ visible e o) /\ v = (0, 0)%Z).
(** the whole number of steps nearest to a tolerance *)
Definition steps (tol : R) (edges : list R) (n : nat) : Prop := Rabs (INR n - tol / Rabs (nth 1 edges 0 - nth 0 edges 0)) <= / 2.
Definition smallest (l : list R) (x : R) : Prop := In x l /\ forall y, In y l -> x <= y.
(** arithmetic mean and median *)
Definition is_mean (l : list R) (x : R) : Prop := x * INR (length l) = fold_right Rplus 0 l.
Definition is_median (l : list R) (x : R) : Prop := exists s, Permutation l s /\ ascending s /\ x = (nth ((length l - 1) / 2) s 0 + nth (length l / 2) s 0) / 2.
