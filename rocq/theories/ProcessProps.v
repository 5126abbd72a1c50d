(** C12-C15, C54: processed imageseries. *)
From Verif Require Import Prelude ProcessModel ProcessSpec ProcessProofs.
From Coq Require Import String.
Local Notation length := List.length.
Local Open Scope string_scope.
Local Open Scope list_scope.
Local Open Scope nat_scope.

(** ** C12 *)
(** Number of frames. *)
Theorem C12_length : forall s ops l,
  s_len (Processed s ops (Some l)) = length l /\ s_len (Processed s ops None) = s_len s.
Proof. exact (fun s ops l => conj eq_refl eq_refl). Qed.
Print Assumptions C12_length.

(** Frame [k] of a processed series with a frame list of Python ints is the processed base frame
    [frame_list[k]], for every operation list.  (A leading rectangle needs a base that can read regions: see C14.) *)
Theorem C12_frame_list_reindexes : forall s ops l k i,
  Forall proper_op ops -> (starts_with_rectangle ops = true -> has_region s = true) ->
  (0 <= k)%Z -> nth_error l (Z.to_nat k) = Some (PyInt i) ->
  same_result (s_get (Processed s ops (Some l)) k) (do img <- s_get s i; apply_ops ops img).
Proof. exact (fun s ops l k i P R K N => processed_frame s ops (Some l) P R k i (frame_list_index l k (PyInt i) K N)). Qed.
Print Assumptions C12_frame_list_reindexes.

(** Keys count from the end when negative and raise IndexError outside [-n, n). *)
Theorem C12_keys_outside_raise : forall s ops l k,
  (k < - Z.of_nat (length l) \/ Z.of_nat (length l) <= k)%Z -> s_get (Processed s ops (Some l)) k = Err IndexError.
Proof. exact frame_key_outside. Qed.
Print Assumptions C12_keys_outside_raise.

Theorem C12_negative_keys : forall s ops l k, (- Z.of_nat (length l) <= k < 0)%Z ->
  s_get (Processed s ops (Some l)) k = s_get (Processed s ops (Some l)) (Z.of_nat (length l) + k).
Proof. exact frame_key_negative. Qed.
Print Assumptions C12_negative_keys.

Theorem C12_no_frame_list : forall s ops k,
  Forall proper_op ops -> (starts_with_rectangle ops = true -> has_region s = true) ->
  same_result (s_get (Processed s ops None) k) (do img <- s_get s k; apply_ops ops img).
Proof. exact (fun s ops k P R => processed_frame s ops None P R k k eq_refl). Qed.
Print Assumptions C12_no_frame_list.

(** Operations are applied from first to last; the first exception stops. *)
Theorem C12_operations_in_order : forall l1 l2 o img,
  apply_ops (l1 ++ l2) img = (do x <- apply_ops l1 img; apply_ops l2 x) /\ apply_ops [o] img = apply_op o img.
Proof. exact (fun l1 l2 o img => conj (apply_ops_app l1 l2 img) (apply_ops_one o img)). Qed.
Print Assumptions C12_operations_in_order.

(** Row n of the new omega array is the row of the base frame [frame_list[n]]. *)
Theorem C12_omega_follows_frames : forall (O : Type) (h h' : mheap O) loc loc' frames rows,
  dlookup "omega" (nth loc h []) = Some (MOmega rows) ->
  new_metadata h loc (Some frames) = Ok (h', loc') ->
  exists rows', dlookup "omega" (nth loc' h' []) = Some (MOmega rows') /\ length rows' = length frames /\
    forall n i, nth_error frames n = Some i -> exists r, py_index rows (index_z i) = Ok r /\ nth_error rows' n = Some r.
Proof. exact @omega_follows_frames. Qed.
Print Assumptions C12_omega_follows_frames.

(** The base metadata object keeps its contents, also after assignments to the new series' metadata. *)
Theorem C12_base_metadata_unchanged : forall (O : Type) (h h' : mheap O) loc loc' fl k (v : mval O),
  loc < length h -> new_metadata h loc fl = Ok (h', loc') ->
  loc' <> loc /\ nth loc h' [] = nth loc h [] /\ nth loc (assign_metadata h' loc' k v) [] = nth loc h [] /\
  (forall key, key <> "omega"%string -> dlookup key (nth loc' h' []) = dlookup key (nth loc h [])).
Proof. exact @base_metadata_kept. Qed.
Print Assumptions C12_base_metadata_unchanged.

(** Finding: a frame list holding numpy integers (for instance np.arange(...)) makes every frame access raise. *)
Theorem C12_numpy_frame_list_refuted : forall s ops l k i, (0 <= k)%Z ->
  nth_error l (Z.to_nat k) = Some (NpInt i) -> s_get (Processed s ops (Some l)) k = Err IndexError.
Proof. exact numpy_frame_list. Qed.
Print Assumptions C12_numpy_frame_list_refuted.

Definition im (n m : nat) (f : nat -> nat -> Z) : image Z := Img n m f.
Definition frames3 : list (image Z) :=
  map (fun t => im 2 3 (fun i j => Z.of_nat (100 * t + 10 * i + j))) [0; 1; 2].

Example C12_ex :
  let s := Stored frames3 in
  let ops := [OpRect ((0, 2), (1, 3)); OpFlip "r90"; OpDark Exact (im 2 2 (fun i _ => 5 * Z.of_nat i))]%Z in
  Forall proper_op ops /\ has_region s = true /\
  match s_get (Processed s ops (Some [PyInt 2; PyInt (-3)])) 0 with
  | Ok img => nr img = 2 /\ nc img = 2 /\ px img 0 0 = 202%Z /\ px img 0 1 = 212%Z /\ px img 1 0 = 196%Z
  | Err _ => False
  end.
Proof. split; [repeat constructor|split; [reflexivity|vm_compute; auto]]. Qed.

Example C12_ex_omega :
  let h := [[("omega", MOmega [10; 20; 30]%Z); ("panel", MOther 7%Z)]]%string in
  new_metadata h 0 (Some [PyInt 2; PyInt (-3)]) =
  Ok (h ++ [[("omega", MOmega [30; 10]%Z); ("panel", MOther 7%Z)]]%string, 1).
Proof. reflexivity. Qed.

(** ** C13 *)
Theorem C13_codes_are_symmetries_of_the_square : forall (A : Type) c (img : image A), flip c img = d4_act (code_sym c) img.
Proof. exact @flip_is_symmetry. Qed.
Print Assumptions C13_codes_are_symmetries_of_the_square.

Theorem C13_symmetries_form_a_group :
  (forall g, d4_mul d4_one g = g /\ d4_mul g d4_one = g) /\
  (forall g, d4_mul g (d4_inv g) = d4_one /\ d4_mul (d4_inv g) g = d4_one) /\
  (forall g h k, d4_mul (d4_mul g h) k = d4_mul g (d4_mul h k)).
Proof. exact d4_group. Qed.
Print Assumptions C13_symmetries_form_a_group.

(** Any sequence of flips is the single symmetry obtained by multiplying the codes. *)
Theorem C13_flip_sequences_compose : forall (A : Type) (codes : list string) (img : image A),
  same_img (fold_left (fun x c => flip c x) codes img)
           (d4_act (fold_left (fun g c => d4_mul g (code_sym c)) codes d4_one) img).
Proof. exact (fun A codes img => flip_sequence codes img d4_one). Qed.
Print Assumptions C13_flip_sequences_compose.

(** Every flip permutes the pixels: each output pixel is a pixel of the input, and each input
    pixel appears at exactly one place. *)
Theorem C13_flips_permute_pixels : forall (A : Type) c (img : image A),
  exists place : nat * nat -> nat * nat,
    (forall i j, i < nr (flip c img) -> j < nc (flip c img) ->
       fst (place (i, j)) < nr img /\ snd (place (i, j)) < nc img /\
       px (flip c img) i j = px img (fst (place (i, j))) (snd (place (i, j)))) /\
    (forall a b, a < nr img -> b < nc img ->
       exists! ij, fst ij < nr (flip c img) /\ snd ij < nc (flip c img) /\ place ij = (a, b)).
Proof. exact @flip_permutes. Qed.
Print Assumptions C13_flips_permute_pixels.

(** The identities of the property, for images of every shape. *)
Theorem C13_identities : forall (A : Type) (img : image A),
  let f c := @flip A c in
  (forall c, In c ["v"; "y"; "h"; "x"; "t"; "T"; "r180"; "vh"; "hv"]%string -> same_img (f c (f c img)) img) /\
  same_img (f "r90" (f "r90" (f "r90" (f "r90" img)))) img /\
  same_img (f "r270" (f "r90" img)) img /\ same_img (f "r90" (f "r270" img)) img /\
  same_img (f "r90" (f "r90" img)) (f "r180" img) /\
  same_img (f "v" (f "h" img)) (f "r180" img) /\
  same_img (f "h" (f "t" img)) (f "r90" img) /\ same_img (f "v" (f "t" img)) (f "r270" img) /\
  f "x" img = f "h" img /\ f "y" img = f "v" img /\ f "T" img = f "t" img /\ f "vh" img = f "hv" img /\
  f "ccw90" img = f "r90" img /\ f "cw90" img = f "r270" img /\
  (forall c, ~ In c ["y"; "v"; "x"; "h"; "vh"; "hv"; "r180"; "t"; "T"; "ccw90"; "r90"; "cw90"; "r270"]%string -> f c img = img).
Proof. exact @flip_identities. Qed.
Print Assumptions C13_identities.

(** What the codes do, in pixels. *)
Theorem C13_code_meanings : forall (A : Type) (img : image A) i j,
  px (flip "v" img) i j = px img i (nc img - 1 - j) /\
  px (flip "h" img) i j = px img (nr img - 1 - i) j /\
  px (flip "t" img) i j = px img j i /\
  px (flip "r90" img) i j = px img j (nc img - 1 - i) /\
  px (flip "r270" img) i j = px img (nr img - 1 - j) i.
Proof. exact @flip_meanings. Qed.
Print Assumptions C13_code_meanings.

Example C13_ex : let x := im 2 3 (fun i j => Z.of_nat (10 * i + j)) in
  nr (flip "r90" x) = 3 /\ nc (flip "r90" x) = 2 /\ px (flip "r90" x) 0 0 = 2%Z /\ px (flip "r90" x) 2 1 = 10%Z.
Proof. vm_compute. auto. Qed.

(** ** C14 *)
Theorem C14_region_read_equals_rectangle_partial : forall s, has_region s = true -> forall k r,
  same_result (s_region s k r) (do img <- s_get s k; Ok (rectangle img r)).
Proof. exact region_agrees. Qed.
Print Assumptions C14_region_read_equals_rectangle_partial.

(** Whatever follows, and with a trailing index: same outcome (value or exception) as the unoptimised
    pipeline. *)
Theorem C14_optimisation_invisible_partial : forall s r ops k trailing, has_region s = true -> Forall proper_op ops ->
  same_result (s_get (Processed s (OpRect r :: ops) None) k)
              (do img <- s_get s k; apply_ops (OpRect r :: ops) img) /\
  same_result (s_get_fancy (Processed s (OpRect r :: ops) None) k trailing)
              (do img <- s_get s k; do img' <- apply_ops (OpRect r :: ops) img; Ok (rectangle img' trailing)).
Proof. exact optimisation_invisible. Qed.
Print Assumptions C14_optimisation_invisible_partial.

(** What a rectangle is: rows r0:r1 and columns c0:c1 with Python's slice conventions. *)
Theorem C14_rectangle_meaning : forall (A : Type) (img : image A) r0 r1 c0 c1,
  let lo n b := (if b <? - n then 0 else if b <? 0 then n + b else if b <? n then b else n)%Z in
  let n := Z.of_nat (nr img) in let m := Z.of_nat (nc img) in
  let out := rectangle img ((r0, r1), (c0, c1)) in
  Z.of_nat (nr out) = Z.max 0 (lo n r1 - lo n r0) /\ Z.of_nat (nc out) = Z.max 0 (lo m c1 - lo m c0) /\
  forall i j, px out i j = px img (Z.to_nat (lo n r0) + i) (Z.to_nat (lo m c0) + j).
Proof. exact @rectangle_pixels. Qed.
Print Assumptions C14_rectangle_meaning.

(** Findings: a rectangle first on a processed series (nesting), or on a 2-d hdf5
    series, raises, although the same rectangle in second place works. *)
Theorem C14_nested_processed_refuted : forall s ops fl r k,
  s_get (Processed (Processed s ops fl) [OpRect r] None) k = Err AttributeError /\
  s_get (Processed (Wrapped (Processed s ops fl)) [OpRect r] None) k = Err AttributeError /\
  s_get (Processed (Processed s ops fl) [OpFlip "none"; OpRect r] None) k
    = (do img <- s_get (Processed s ops fl) k; Ok (rectangle img r)).
Proof. exact nested_refuted. Qed.
Print Assumptions C14_nested_processed_refuted.

Theorem C14_hdf5_2d_refuted : forall img r,
  s_get (Processed (Hdf5_2d img) [OpRect r] None) 0 = Err IndexError /\
  s_get (Processed (Hdf5_2d img) [OpFlip "none"; OpRect r] None) 0 = Ok (rectangle img r).
Proof. exact (fun img r => conj eq_refl eq_refl). Qed.
Print Assumptions C14_hdf5_2d_refuted.

Example C14_ex :
  let s := Wrapped (Sparse [Csr 4 5 [((1, 2), 7%Z); ((3, 4), 9%Z)]]) in
  has_region s = true /\
  match s_get (Processed s [OpRect ((1, -1), (2, 99))%Z; OpFlip "t"] None) 0 with
  | Ok img => nr img = 3 /\ nc img = 2 /\ px img 0 0 = 7%Z /\ px img 2 1 = 0%Z
  | Err _ => False
  end.
Proof. vm_compute. auto. Qed.

(** ** C15 *)
Theorem C15_dark_clamps_at_zero_partial : forall img dark r, subtract_dark Exact img dark = Ok r ->
  nr r = nr img /\ nc r = nc img /\ forall i j, px r i j = Z.max (px img i j - px dark i j) 0.
Proof. exact dark_exact. Qed.
Print Assumptions C15_dark_clamps_at_zero_partial.

(** Finding: when image and dark are both unsigned, a pixel below the dark wraps around instead. *)
Theorem C15_dark_unsigned : forall k img dark r, (0 < k)%Z -> subtract_dark (Unsigned k) img dark = Ok r ->
  forall i j, (0 <= px img i j < 2 ^ k)%Z -> (0 <= px dark i j < 2 ^ k)%Z ->
  px r i j = if (px dark i j <=? px img i j)%Z then (px img i j - px dark i j)%Z
             else (px img i j - px dark i j + 2 ^ k)%Z.
Proof. exact dark_unsigned. Qed.
Print Assumptions C15_dark_unsigned.

Theorem C15_dark_unsigned_refuted :
  exists img dark r, subtract_dark (Unsigned 16) img dark = Ok r /\ px img 0 0 = 3%Z /\ px dark 0 0 = 5%Z /\ px r 0 0 = 65534%Z.
Proof. exact dark_refuted. Qed.
Print Assumptions C15_dark_unsigned_refuted.

Example C15_ex : exists r, subtract_dark Exact (im 1 2 (fun _ j => 3 * Z.of_nat j)%Z) (im 1 2 (fun _ _ => 2%Z)) = Ok r /\
  px r 0 0 = 0%Z /\ px r 0 1 = 1%Z.
Proof. eexists. split; [reflexivity|vm_compute; auto]. Qed.

(** ** C54 *)
(** add-row inserts exactly one zero row at the requested place and keeps every other row, in order; add-column is
    the same on the other axis; an index outside [-n, n] raises. *)
Theorem C54_add_row : forall img k r, add_row img k = Ok r ->
  exists p, (Z.of_nat p = if (k <? 0)%Z then (Z.of_nat (nr img) + k)%Z else k) /\ p <= nr img /\
    nr r = S (nr img) /\ nc r = nc img /\
    (forall i j, i < p -> px r i j = px img i j) /\ (forall j, px r p j = 0%Z) /\
    (forall i j, p < i -> px r i j = px img (i - 1) j).
Proof. exact add_row_spec. Qed.
Print Assumptions C54_add_row.

Theorem C54_add_column_is_transposed_add_row : forall img k,
  same_result (add_col img k) (do r <- add_row (transpose img) k; Ok (transpose r)).
Proof. exact add_row_transpose. Qed.
Print Assumptions C54_add_column_is_transposed_add_row.

Theorem C54_index_range : forall img k,
  (exists r, add_row img k = Ok r) <-> (- Z.of_nat (nr img) <= k <= Z.of_nat (nr img))%Z.
Proof. exact add_row_range. Qed.
Print Assumptions C54_index_range.

Example C54_ex : exists r, add_row (im 2 2 (fun i j => Z.of_nat (10 * i + j))) (-1) = Ok r /\ nr r = 3 /\
  px r 0 1 = 1%Z /\ px r 1 1 = 0%Z /\ px r 2 1 = 11%Z.
Proof. eexists. split; [reflexivity|vm_compute; auto]. Qed.
