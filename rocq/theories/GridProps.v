(** Theorems about polygon clipping, areas, connectivity, cell indices, tolerance grids and duplicate vectors. *)
From Coq Require Import QArith Qround Qabs Sorted.
From Verif Require Import Prelude GridModel GridSpec GridProofs GridAreaProofs GridIndexProofs.
Local Open Scope Q_scope.

(** C26: clipping a counter-clockwise convex polygon gives exactly its intersection with the clip region, and the result
    is again convex. *)
Theorem C26_clip_convex_exact : forall subject clip, clip <> [] -> convex subject ->
  exists o, sutherland_hodgman subject clip = Ok o /\ convex o /\ forall p, hull o p <-> (hull subject p /\ inside_all clip p).
Proof. exact clip_exact_lemma. Qed.
(** C26: for any subject polygon the call succeeds and stays inside both. *)
Theorem C26_clip_inside_both : forall subject clip, clip <> [] ->
  exists o, sutherland_hodgman subject clip = Ok o /\ forall p, hull o p -> hull subject p /\ inside_all clip p.
Proof. exact clip_sound_lemma. Qed.
(** C26: a polygon already inside is returned unchanged. *)
Theorem C26_clip_inside_unchanged : forall subject clip, clip <> [] -> (forall p, In p subject -> inside_all clip p) ->
  sutherland_hodgman subject clip = Ok subject.
Proof. exact clip_same_lemma. Qed.
(** the hull of the specification contains every weighted mean of the vertices *)
Theorem C26_hull_contains_means : forall l ws, length ws = length l -> (forall w, In w ws -> 0 <= w) -> qsum ws == 1 ->
  hull l (qsum (map (fun wp => fst wp * fst (snd wp)) (combine ws l)), qsum (map (fun wp => fst wp * snd (snd wp)) (combine ws l))).
Proof. exact hull_mean. Qed.

(** a decision procedure for the examples *)
Definition convexb (l : list point) : bool := forallb (fun ab => forallb (fun v => Qle_bool 0 (turn (fst ab) (snd ab) v)) l) (poly_edges l).
Lemma convexb_ok : forall l, convexb l = true -> convex l.
Proof.
  intros l H a b v Hab Hv. unfold convexb in H. rewrite forallb_forall in H. specialize (H _ Hab). rewrite forallb_forall in H.
  apply Qle_bool_iff. exact (H v Hv).
Qed.
Example clip_example : let square := [(0, 0); (2, 0); (2, 2); (0, 2)] in let clip := [(1, 1); (3, 1); (3, 3); (1, 3)] in
  convex square /\ clip <> [] /\
  exists o, sutherland_hodgman square clip = Ok o /\ map (fun p => (Qred (fst p), Qred (snd p))) o = [(1, 1); (2, 1); (2, 2); (1, 2)].
Proof.
  split; [apply convexb_ok; reflexivity|]. split; [discriminate|]. eexists; split; [vm_compute; reflexivity | vm_compute; reflexivity].
Qed.
Example clip_triangle_disjoint : sutherland_hodgman [(0, 0); (1, 0); (0, 1)] [(5, 5); (6, 5); (6, 6); (5, 6)] = Ok [].
Proof. vm_compute; reflexivity. Qed.

(** C27 *)
Theorem C27_area_is_shoelace : forall l, compute_area l == shoelace l.
Proof. exact area_shoelace_lemma. Qed.
Theorem C27_area_start_vertex : forall a l, compute_area (l ++ [a]) == compute_area (a :: l).
Proof. exact area_rotate_lemma. Qed.
Theorem C27_area_reversed : forall l, compute_area (rev l) == - compute_area l.
Proof. exact area_rev_lemma. Qed.
Theorem C27_area_translated : forall dx dy l, compute_area (map (fun q : point => (fst q + dx, snd q + dy)) l) == compute_area l.
Proof. exact area_shift_lemma. Qed.
Theorem C27_area_cut : forall o l1 m l2, compute_area (o :: l1 ++ m :: l2) == compute_area (o :: l1 ++ [m]) + compute_area (o :: m :: l2).
Proof. exact area_split_lemma. Qed.
Theorem C27_area_convex_nonneg : forall l, convex l -> 0 <= compute_area l.
Proof. exact area_convex_lemma. Qed.
(** the vectorised cell area agrees with it exactly when the two sides p1p2 and p0p3 are parallel *)
Theorem C27_cell_area_iff_parallel_partial : forall p0 p1 p2 p3,
  cell_area p0 p1 p2 p3 == compute_area [p0; p1; p2; p3] <-> (fst p1 - fst p2) * (snd p3 - snd p0) == (snd p1 - snd p2) * (fst p3 - fst p0).
Proof. exact cell_area_lemma. Qed.
(** a convex quadrilateral of area 5/2 for which the cell area is 3 *)
Theorem C27_cell_area_general_refuted : exists p0 p1 p2 p3, convex [p0; p1; p2; p3] /\
  compute_area [p0; p1; p2; p3] == 5 # 2 /\ cell_area p0 p1 p2 p3 == 3.
Proof.
  exists (0, 0), (2, 0), (2, 1), (1, 2).
  split; [apply convexb_ok; reflexivity|]. split; reflexivity.
Qed.
Example area_example : convex [(0, 0); (3, 0); (3, 2); (1, 4)] /\ compute_area [(0, 0); (3, 0); (3, 2); (1, 4)] == 8.
Proof. split; [apply convexb_ok; reflexivity | reflexivity]. Qed.

(** C28 *)
Theorem C28_connectivity_flat : forall m n,
  length (cell_connectivity m n 1 false) = (m * n)%nat /\
  (forall j i d, (j < m)%nat -> (i < n)%nat -> nth (j * n + i) (cell_connectivity m n 1 false) d = corners m n 0 j i) /\
  (forall row v, In row (cell_connectivity m n 1 false) -> In v row -> (v < (m + 1) * (n + 1))%nat) /\
  NoDup (cell_connectivity m n 1 false).
Proof. exact con_flat_lemma. Qed.
Theorem C28_connectivity_layers : forall m n p, (1 < p)%nat ->
  length (cell_connectivity m n p false) = ((p - 1) * (m * n))%nat /\
  (forall k j i d, (k + 1 < p)%nat -> (j < m)%nat -> (i < n)%nat ->
     nth (k * (m * n) + (j * n + i)) (cell_connectivity m n p false) d = corners m n k j i ++ corners m n (k + 1) j i) /\
  (forall row v, In row (cell_connectivity m n p false) -> In v row -> (v < p * ((m + 1) * (n + 1)))%nat) /\
  NoDup (cell_connectivity m n p false).
Proof. exact con_hex_lemma. Qed.
Theorem C28_connectivity_lower_left : forall m n p, cell_connectivity m n p true = map (@rev nat) (cell_connectivity m n p false).
Proof. exact con_ll_lemma. Qed.
Theorem C28_connectivity_unit_area : forall m n (crd : list point) (ll : bool),
  (forall j i, (j <= m)%nat -> (i <= n)%nat ->
     nth (node m n 0 j i) crd (0, 0) = (inject_Z (Z.of_nat i), if ll then inject_Z (Z.of_nat j) else - inject_Z (Z.of_nat j))) ->
  forall row, In row (cell_connectivity m n 1 ll) -> compute_area (map (fun v => nth v crd (0, 0)) row) == 1.
Proof. exact con_area_lemma. Qed.
Example connectivity_example : cell_connectivity 2 3 1 false =
  [[1; 0; 4; 5]; [2; 1; 5; 6]; [3; 2; 6; 7]; [5; 4; 8; 9]; [6; 5; 9; 10]; [7; 6; 10; 11]]%nat /\
  cell_connectivity 1 1 2 true = [[7; 6; 4; 5; 3; 2; 0; 1]]%nat.
Proof. split; reflexivity. Qed.

(** C29 *)
Theorem C29_cell_index_increasing : forall ztol e0 d n l x, regular_edges e0 d n l -> (1 <= n)%nat -> 0 < ztol -> 2 * ztol < d ->
  e0 <= x -> x <= nth n l 0 ->
  exists k, cell_index ztol l x = Ok (Z.of_nat k) /\ (k < n)%nat /\ nth k l 0 <= x /\ (x < nth (k + 1) l 0 \/ (k = n - 1)%nat).
Proof. exact cell_index_inc_lemma. Qed.
Theorem C29_cell_index_outside : forall ztol e0 d n l x, regular_edges e0 d n l -> (1 <= n)%nat -> 0 < ztol -> 2 * ztol < d ->
  (x < e0 -> exists k, cell_index ztol l x = Ok k /\ (k < 0)%Z) /\
  (nth n l 0 + ztol <= x -> exists k, cell_index ztol l x = Ok k /\ (Z.of_nat n <= k)%Z).
Proof. exact cell_index_out_lemma. Qed.
Theorem C29_cell_index_decreasing_partial : forall ztol e0 d n l x, regular_edges e0 d n l -> (1 <= n)%nat -> 0 < ztol -> d < - (2 * ztol) ->
  nth n l 0 <= x -> x < e0 ->
  exists k, cell_index ztol l x = Ok (Z.of_nat k) /\ (k < n)%nat /\ nth (k + 1) l 0 <= x /\ x < nth k l 0.
Proof. exact cell_index_dec_lemma. Qed.
(** the first edge of any decreasing grid is reported as being outside it *)
Theorem C29_cell_index_decreasing_first_edge_refuted : forall ztol e0 d n l, regular_edges e0 d n l -> (1 <= n)%nat -> 0 < ztol -> d < - (2 * ztol) ->
  cell_index ztol l e0 = Ok (-1)%Z.
Proof. exact cell_index_first_lemma. Qed.
Example cell_index_example : regular_edges 1 1 4 [1; 2; 3; 4; 5] /\ regular_edges 5 (-1) 4 [5; 4; 3; 2; 1] /\
  cell_index (1 # 1000) [1; 2; 3; 4; 5] (5 # 2) = Ok 1%Z /\ cell_index (1 # 1000) [1; 2; 3; 4; 5] 5 = Ok 3%Z /\
  cell_index (1 # 1000) [5; 4; 3; 2; 1] (5 # 2) = Ok 2%Z.
Proof.
  split; [|split; [|repeat split; reflexivity]]; (split; [reflexivity|]); intros [|[|[|[|[|k]]]]] H; try (cbn; reflexivity); lia.
Qed.

(** C62 *)
Theorem C62_tolerance_grid_uniform : forall bin window subdiv adjust, 0 < bin -> 0 < window -> (1 <= subdiv)%Z ->
  exists N g W s, tolerance_grid bin window subdiv adjust false = Ok (Z.of_nat N, g) /\
    length g = S N /\ (1 <= N)%nat /\
    (forall i, (i <= N)%nat -> nth i g 0 == - (1 # 2) * W + inject_Z (Z.of_nat i) * s) /\
    s * inject_Z (Z.of_nat N) == W /\ 0 < s /\ s * inject_Z subdiv <= bin /\
    (adjust = false -> W = window) /\
    (adjust = true -> window <= W /\ W < window + bin /\ exists q, W == inject_Z q * qmin bin window).
Proof. exact tolerance_grid_lemma. Qed.
Theorem C62_tolerance_grid_one_sided : forall bin window subdiv adjust, 0 < bin -> 0 < window ->
  exists N g b, tolerance_grid bin window subdiv adjust true = Ok (Z.of_nat (2 * N), g) /\ b = qmin bin window /\
    length g = (2 * N + 1)%nat /\ (1 <= N)%nat /\
    (forall i, (i <= 2 * N)%nat -> nth i g 0 == (inject_Z (Z.of_nat i) - inject_Z (Z.of_nat N)) * b) /\
    (adjust = false -> inject_Z (Z.of_nat N) * b <= window /\ window < inject_Z (Z.of_nat N) * b + b) /\
    (adjust = true -> window <= inject_Z (Z.of_nat N) * b /\ inject_Z (Z.of_nat N) * b < window + b).
Proof. exact tolerance_grid_one_sided_lemma. Qed.
Example tolerance_grid_example : exists g, tolerance_grid (1 # 4) 1 2 false false = Ok (8%Z, g) /\
  map Qred g = [- 1 # 2; -3 # 8; -1 # 4; -1 # 8; 0; 1 # 8; 1 # 4; 3 # 8; 1 # 2].
Proof. eexists; split; [reflexivity | vm_compute; reflexivity]. Qed.

(** C30 *)
Theorem C30_duplicates_kept_and_grouped : forall tol pm vecs,
  let eqv := fst (find_duplicates tol pm vecs) in let uid := snd (find_duplicates tol pm vecs) in
  let cl := fun i j => close tol pm (nth i vecs []) (nth j vecs []) in
  StronglySorted lt uid /\ (forall i, In i uid -> (i < length vecs)%nat) /\
  (forall i j, In i uid -> In j uid -> (i < j)%nat -> ~ cl i j) /\
  (forall j, (j < length vecs)%nat -> In j uid \/ exists i js, In (i :: js) eqv /\ In j js) /\
  (forall g, In g eqv -> exists i js, g = i :: js /\ js <> [] /\ forall j, In j js -> (i < j < length vecs)%nat /\ cl i j /\ ~ In j uid) /\
  NoDup (concat (map (@tl nat) eqv)).
Proof. exact dup_lemma. Qed.
(** every removed vector is close to a kept one provided closeness is transitive on the data *)
Theorem C30_duplicates_removed_have_kept_partial : forall tol pm vecs,
  (forall i j k, (i < length vecs)%nat -> (j < length vecs)%nat -> (k < length vecs)%nat ->
     close tol pm (nth i vecs []) (nth j vecs []) -> close tol pm (nth j vecs []) (nth k vecs []) -> close tol pm (nth i vecs []) (nth k vecs [])) ->
  forall j, (j < length vecs)%nat -> ~ In j (snd (find_duplicates tol pm vecs)) ->
  exists i, In i (snd (find_duplicates tol pm vecs)) /\ (i < j)%nat /\ close tol pm (nth i vecs []) (nth j vecs []).
Proof. exact dup_trans_lemma. Qed.
(** a chain of near neighbours collapses to its first member, leaving the last one close to nothing kept *)
Theorem C30_duplicates_chain_refuted : exists tol vecs, snd (find_duplicates tol false vecs) = [0%nat] /\
  ~ close tol false (nth 0 vecs []) (nth 2 vecs []) /\ length vecs = 3%nat.
Proof.
  exists 1, [[0]; [3 # 4]; [3 # 2]]. split; [vm_compute; reflexivity|]. split; [|reflexivity].
  intros [H|[H _]]; [|discriminate]. vm_compute in H. discriminate.
Qed.
Example duplicates_example : find_duplicates (1 # 100) false [[1; 2]; [2; 3]; [2; 5]; [2; 3]; [1; 2]; [2; 3]; [7; 3]] =
  ([[0; 4]; [1; 3; 5]], [0; 1; 2; 6])%nat.
Proof. vm_compute; reflexivity. Qed.

Print Assumptions C26_clip_convex_exact.
Print Assumptions C26_clip_inside_both.
Print Assumptions C26_clip_inside_unchanged.
Print Assumptions C26_hull_contains_means.
Print Assumptions C27_area_is_shoelace.
Print Assumptions C27_area_start_vertex.
Print Assumptions C27_area_reversed.
Print Assumptions C27_area_translated.
Print Assumptions C27_area_cut.
Print Assumptions C27_area_convex_nonneg.
Print Assumptions C27_cell_area_iff_parallel_partial.
Print Assumptions C27_cell_area_general_refuted.
Print Assumptions C28_connectivity_flat.
Print Assumptions C28_connectivity_layers.
Print Assumptions C28_connectivity_lower_left.
Print Assumptions C28_connectivity_unit_area.
Print Assumptions C29_cell_index_increasing.
Print Assumptions C29_cell_index_outside.
Print Assumptions C29_cell_index_decreasing_partial.
Print Assumptions C29_cell_index_decreasing_first_edge_refuted.
Print Assumptions C62_tolerance_grid_uniform.
Print Assumptions C62_tolerance_grid_one_sided.
Print Assumptions C30_duplicates_kept_and_grouped.
Print Assumptions C30_duplicates_removed_have_kept_partial.
Print Assumptions C30_duplicates_chain_refuted.
