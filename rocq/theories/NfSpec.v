(** Vocabulary for the near field theorems *)
From Coq Require Import QArith Permutation.
From Verif Require Import Prelude NfModel.
Local Open Scope Q_scope.

(** the k-th interval of a row of equal intervals that starts at [base]; the edge that is met first belongs to it *)
Definition in_cell (base delta : Q) (k : Z) (v : Q) : Prop :=
  (0 < delta /\ base + inject_Z k * delta <= v < base + (inject_Z k + 1) * delta) \/
  (delta < 0 /\ base + (inject_Z k + 1) * delta < v <= base + inject_Z k * delta).
(** what an experiment consists of: first column, row and frame edge; the steps; the size of the panel and the number of frames; the
    beam stop, a horizontal bar *)
Record setup := SETUP { s_x0 : Q; s_y0 : Q; s_o0 : Q; s_dx : Q; s_dy : Q; s_do : Q; s_cols : Z; s_rows : Z; s_frames : Z; s_bar : Q; s_width : Q }.
Definition proper (s : setup) : Prop := ~ s_dx s == 0 /\ ~ s_dy s == 0 /\ ~ s_do s == 0.
Definition of_setup (s : setup) : quant :=
  QUANT (s_x0 s, s_y0 s, s_o0 s) (/ s_dx s, / s_dy s, / s_do s) (s_cols s, s_rows s) (s_bar s, s_width s).
(** a stack of frames of the size of the panel *)
Definition stack_shape (s : setup) (image : list (list (list bool))) : Prop :=
  Z.of_nat (length image) = s_frames s /\ Forall (fun f => Z.of_nat (length f) = s_rows s /\ Forall (fun r => Z.of_nat (length r) = s_cols s) f) image.
(** pixel (row y, column x) of frame z is bright *)
Definition bright (image : list (list (list bool))) (z y x : Z) : Prop :=
  exists f r, nth_error image (Z.to_nat z) = Some f /\ nth_error f (Z.to_nat y) = Some r /\ nth_error r (Z.to_nat x) = Some true.
(** the reflection falls on pixel (y, x) and is not behind the beam stop *)
Definition lands (s : setup) (p : refl) (y x : Z) : Prop :=
  exists px py, f_x p = Some px /\ f_y p = Some py /\ (0 <= x < s_cols s)%Z /\ (0 <= y < s_rows s)%Z /\
    in_cell (s_x0 s) (s_dx s) x px /\ in_cell (s_y0 s) (s_dy s) y py /\
    ~ (s_bar s - s_width s / 2 < py < s_bar s + s_width s / 2).
Definition seen (s : setup) (p : refl) : Prop := exists y x, lands s p y x.
Definition found (s : setup) (image : list (list (list bool))) (p : refl) : Prop :=
  exists z y x, lands s p y x /\ (0 <= z < s_frames s)%Z /\ in_cell (s_o0 s) (s_do s) z (f_ome p) /\ bright image z y x.
(** omega is in one of the frames *)
Definition in_scan (s : setup) (p : refl) : Prop := exists z, (0 <= z < s_frames s)%Z /\ in_cell (s_o0 s) (s_do s) z (f_ome p).
(** which members of a list have a property, and how many they are *)
Definition marks {A} (P : A -> Prop) (l : list A) (bs : list bool) : Prop := Forall2 (fun x b => b = true <-> P x) l bs.
Definition how_many (bs : list bool) : Z := Z.of_nat (length (filter (fun b => b) bs)).

(** ** tables *)
Definition entry {A} (m : list (list A)) (i j : Z) : option A :=
  match nth_error m (Z.to_nat i) with Some r => nth_error r (Z.to_nat j) | None => None end.
(** one row for each grain, one column for each point from [a] on, every cell filled with its own confidence *)
Definition complete {A} (conf : Z -> Z -> A) (n_grains a n : Z) (m : list (list (option A))) : Prop :=
  Z.of_nat (length m) = n_grains /\ Forall (fun r => Z.of_nat (length r) = n) m /\
  forall g c, (0 <= g < n_grains)%Z -> (0 <= c < n)%Z -> entry m g c = Some (Some (conf g (a + c)%Z)).
(** results come back in some order, each of them once *)
Definition reorders (order : list Z -> list Z) : Prop := forall l, Permutation (order l) l.
(** the points of a rank *)
Definition block_of (world n_coords rank : Z) : Z * Z :=
  (rank * (n_coords / world), if (rank =? world - 1)%Z then n_coords else (rank + 1) * (n_coords / world))%Z.

(** ** grain maps *)
(** the first grain with the largest confidence at a point *)
Definition best_at (raw : list (list Q)) (j : nat) (g : Z) (v : Q) : Prop :=
  (0 <= g < Z.of_nat (length raw))%Z /\ nth_error (map (fun r => nth j r 0) raw) (Z.to_nat g) = Some v /\
  (forall k u, nth_error (map (fun r => nth j r 0) raw) k = Some u -> u <= v /\ ((k < Z.to_nat g)%nat -> u < v)).
