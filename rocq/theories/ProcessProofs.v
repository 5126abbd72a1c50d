From Verif Require Import Prelude ProcessModel ProcessSpec.
From Coq Require Import String.
Local Notation length := List.length.
Local Open Scope string_scope.
Local Open Scope list_scope.
Local Open Scope nat_scope.

Ltac bsolve := repeat match goal with |- context [if ?b then _ else _] => destruct b eqn:? end; try lia.

Lemma same_img_refl {A} (x : image A) : same_img x x.
Proof. repeat split; auto. Qed.
Lemma same_img_sym {A} (x y : image A) : same_img x y -> same_img y x.
Proof. intros (H1 & H2 & H3). repeat split; auto. intros i j Hi Hj. symmetry. apply H3; congruence. Qed.
Lemma same_img_trans {A} (x y z : image A) : same_img x y -> same_img y z -> same_img x z.
Proof.
  intros (H1 & H2 & H3) (K1 & K2 & K3). repeat split; try congruence. intros i j Hi Hj.
  rewrite H3 by auto. apply K3; congruence.
Qed.
Lemma same_result_refl {A} (x : result (image A)) : same_result x x.
Proof. destruct x; cbn; auto using same_img_refl. Qed.
Lemma same_result_trans {A} (x y z : result (image A)) : same_result x y -> same_result y z -> same_result x z.
Proof. destruct x, y, z; cbn; try tauto; try congruence. apply same_img_trans. Qed.

(** ** Rectangles *)
Lemma slice_bound_le n b : slice_bound n b <= n.
Proof. unfold slice_bound. bsolve. Qed.

Lemma rectangle_proper {A} (x y : image A) r : same_img x y -> same_img (rectangle x r) (rectangle y r).
Proof.
  intros (H1 & H2 & H3). destruct r as [[r0 r1] [c0 c1]]. unfold rectangle. rewrite <- H1, <- H2. split; [|split]; auto.
  cbn. intros i j Hi Hj. pose proof (slice_bound_le (nr x) r1). pose proof (slice_bound_le (nc x) c1). apply H3; lia.
Qed.

Lemma csr_sum_slice l a b p q i j : i < b - a -> j < q - p ->
  fold_right (fun e s => if Nat.eqb (fst (fst e)) i && Nat.eqb (snd (fst e)) j then (snd e + s)%Z else s) 0%Z
    (map (fun e => ((fst (fst e) - a, snd (fst e) - p), snd e))
      (filter (fun e => Nat.leb a (fst (fst e)) && Nat.ltb (fst (fst e)) b && Nat.leb p (snd (fst e)) && Nat.ltb (snd (fst e)) q) l))
  = fold_right (fun e s => if Nat.eqb (fst (fst e)) (a + i) && Nat.eqb (snd (fst e)) (p + j) then (snd e + s)%Z else s) 0%Z l.
Proof.
  intros Hi Hj. induction l as [|[[u v] w] l IH]; [reflexivity|]. cbn [filter fst snd].
  destruct (Nat.leb a u && Nat.ltb u b && Nat.leb p v && Nat.ltb v q) eqn:E; cbn [map fold_right fst snd]; rewrite IH; bsolve.
Qed.

Lemma toarray_slice c r : same_img (toarray (csr_slice c r)) (rectangle (toarray c) r).
Proof.
  destruct r as [[r0 r1] [c0 c1]]. unfold csr_slice, toarray, rectangle. cbn. split; [|split]; auto.
  intros i j Hi Hj. apply csr_sum_slice; auto.
Qed.

Lemma region_agrees s : has_region s = true -> forall k r,
  same_result (s_region s k r) (do img <- s_get s k; Ok (rectangle img r)).
Proof.
  induction s; cbn; try discriminate; intros H k r; auto.
  - apply same_result_refl.
  - destruct (py_index frames k); cbn; auto. apply toarray_slice.
  - apply same_result_refl.
Qed.

(** ** Flips *)
Lemma rev_rows_proper {A} (x y : image A) : same_img x y -> same_img (rev_rows x) (rev_rows y).
Proof. intros (H1 & H2 & H3). repeat split; cbn; auto. intros i j Hi Hj. rewrite <- H1. apply H3; lia. Qed.
Lemma rev_cols_proper {A} (x y : image A) : same_img x y -> same_img (rev_cols x) (rev_cols y).
Proof. intros (H1 & H2 & H3). repeat split; cbn; auto. intros i j Hi Hj. rewrite <- H2. apply H3; lia. Qed.
Lemma transpose_proper {A} (x y : image A) : same_img x y -> same_img (transpose x) (transpose y).
Proof. intros (H1 & H2 & H3). repeat split; cbn; auto. Qed.

Lemma flip_proper {A} c (x y : image A) : same_img x y -> same_img (flip c x) (flip c y).
Proof.
  intros H. unfold flip. repeat destruct (in_codes _ _);
  auto using rev_rows_proper, rev_cols_proper, transpose_proper.
Qed.

Lemma d4_act_proper {A} g (x y : image A) : same_img x y -> same_img (d4_act g x) (d4_act g y).
Proof. intros H. destruct g as [[] [] []]; cbn; auto 6 using rev_rows_proper, rev_cols_proper, transpose_proper. Qed.

Lemma d4_act_mul {A} g h (img : image A) : same_img (d4_act (d4_mul g h) img) (d4_act h (d4_act g img)).
Proof.
  destruct g as [[] [] []], h as [[] [] []]; cbn; (split; [|split]); cbn; auto; intros i j Hi Hj; try (f_equal; lia); auto.
Qed.

Lemma d4_group : (forall g, d4_mul d4_one g = g /\ d4_mul g d4_one = g) /\
  (forall g, d4_mul g (d4_inv g) = d4_one /\ d4_mul (d4_inv g) g = d4_one) /\
  (forall g h k, d4_mul (d4_mul g h) k = d4_mul g (d4_mul h k)).
Proof.
  split; [intros [[] [] []]; auto|split; [intros [[] [] []]; auto|]].
  intros [[] [] []] [[] [] []] [[] [] []]; reflexivity.
Qed.

Lemma in_codes_cons s c l : in_codes s (c :: l) = (String.eqb s c || in_codes s l)%bool.
Proof. reflexivity. Qed.

Lemma flip_is_symmetry {A} c (img : image A) : flip c img = d4_act (code_sym c) img.
Proof.
  unfold flip, in_codes, existsb.
  repeat match goal with
  | |- context [String.eqb c ?s] =>
      destruct (String.eqb_spec c s) as [->|]; [reflexivity|cbn [orb]]
  end.
  replace (code_sym c) with d4_one; [reflexivity|].
  unfold code_sym. repeat match goal with H : c <> _ |- _ => revert H end.
  repeat match goal with
  | |- context [match ?s with EmptyString => _ | _ => _ end] => is_var s; destruct s; try reflexivity; try congruence
  | |- context [match ?a with Ascii.Ascii _ _ _ _ _ _ _ _ => _ end] => is_var a; destruct a
  | |- context [if ?b then _ else _] => is_var b; destruct b; try reflexivity; try congruence
  end.
Qed.

Lemma flip_sequence {A} codes : forall (img : image A) g,
  same_img (fold_left (fun x c => flip c x) codes (d4_act g img))
           (d4_act (fold_left (fun g c => d4_mul g (code_sym c)) codes g) img).
Proof.
  assert (P : forall codes (x y : image A), same_img x y ->
    same_img (fold_left (fun x c => flip c x) codes x) (fold_left (fun x c => flip c x) codes y)).
  { induction codes0; cbn; auto using flip_proper. }
  induction codes as [|c t IH]; intros img g; cbn; [apply same_img_refl|].
  eapply same_img_trans; [|apply IH]. apply P. rewrite flip_is_symmetry. apply same_img_sym, d4_act_mul.
Qed.

(** each symmetry moves pixels bijectively *)
Definition d4_index (g : d4) (n m : nat) (ij : nat * nat) : nat * nat :=
  let '(i, j) := ij in
  let a := if rr g then (if tr g then m else n) - 1 - i else i in
  let b := if rc g then (if tr g then n else m) - 1 - j else j in
  if tr g then (b, a) else (a, b).

Lemma d4_act_index {A} g (img : image A) i j :
  i < nr (d4_act g img) -> j < nc (d4_act g img) ->
  px (d4_act g img) i j = px img (fst (d4_index g (nr img) (nc img) (i, j))) (snd (d4_index g (nr img) (nc img) (i, j))).
Proof. destruct g as [[] [] []]; cbn; intros; auto. Qed.

Lemma d4_bijective {A} g (img : image A) :
  nr (d4_act g img) = (if tr g then nc img else nr img) /\ nc (d4_act g img) = (if tr g then nr img else nc img) /\
  (forall i j, i < nr (d4_act g img) -> j < nc (d4_act g img) ->
     exists a b, a < nr img /\ b < nc img /\ px (d4_act g img) i j = px img a b /\ d4_index g (nr img) (nc img) (i, j) = (a, b)) /\
  (forall a b, a < nr img -> b < nc img ->
     exists! ij, fst ij < nr (d4_act g img) /\ snd ij < nc (d4_act g img) /\ d4_index g (nr img) (nc img) ij = (a, b)).
Proof.
  destruct img as [n m f].
  destruct g as [[] [] []]; cbn; (split; [auto|split; [auto|split]]);
  try (intros i j Hi Hj; do 2 eexists; repeat split; try reflexivity; lia);
  intros a b Ha Hb;
  first [ exists (m - 1 - b, n - 1 - a); split; [cbn; repeat split; try lia; f_equal; lia|intros [u v]; cbn; intros (U & V & E); injection E as ? ?; f_equal; lia]
        | exists (m - 1 - b, a); split; [cbn; repeat split; try lia; f_equal; lia|intros [u v]; cbn; intros (U & V & E); injection E as ? ?; f_equal; lia]
        | exists (b, n - 1 - a); split; [cbn; repeat split; try lia; f_equal; lia|intros [u v]; cbn; intros (U & V & E); injection E as ? ?; f_equal; lia]
        | exists (b, a); split; [cbn; repeat split; try lia; f_equal; lia|intros [u v]; cbn; intros (U & V & E); injection E as ? ?; f_equal; lia]
        | exists (n - 1 - a, m - 1 - b); split; [cbn; repeat split; try lia; f_equal; lia|intros [u v]; cbn; intros (U & V & E); injection E as ? ?; f_equal; lia]
        | exists (n - 1 - a, b); split; [cbn; repeat split; try lia; f_equal; lia|intros [u v]; cbn; intros (U & V & E); injection E as ? ?; f_equal; lia]
        | exists (a, m - 1 - b); split; [cbn; repeat split; try lia; f_equal; lia|intros [u v]; cbn; intros (U & V & E); injection E as ? ?; f_equal; lia]
        | exists (a, b); split; [cbn; repeat split; try lia; f_equal; lia|intros [u v]; cbn; intros (U & V & E); injection E as ? ?; f_equal; lia] ].
Qed.

(** ** Operations are proper *)
Lemma dark_proper m d (x y : image Z) : same_img x y -> same_result (subtract_dark m x d) (subtract_dark m y d).
Proof.
  intros (H1 & H2 & H3). unfold subtract_dark. rewrite <- H1, <- H2. destruct (_ && _); cbn; auto.
  repeat split; cbn; auto. intros i j Hi Hj. rewrite H3 by auto. reflexivity.
Qed.

Lemma add_row_proper k (x y : image Z) : same_img x y -> same_result (add_row x k) (add_row y k).
Proof.
  intros (H1 & H2 & H3). unfold add_row. rewrite <- H1, <- H2.
  destruct (insert_pos (nr x) k) as [p|] eqn:E; cbn [rbind same_result]; auto.
  assert (p <= nr x). { unfold insert_pos in E. destruct (_ || _)%bool eqn:B in E; [discriminate|]. injection E as <-. bsolve. }
  split; [|split]; cbn [nr nc px]; auto. intros i j Hi Hj. bsolve; auto; apply H3; lia.
Qed.
Lemma add_col_proper k (x y : image Z) : same_img x y -> same_result (add_col x k) (add_col y k).
Proof.
  intros (H1 & H2 & H3). unfold add_col. rewrite <- H1, <- H2.
  destruct (insert_pos (nc x) k) as [p|] eqn:E; cbn [rbind same_result]; auto.
  assert (p <= nc x). { unfold insert_pos in E. destruct (_ || _)%bool eqn:B in E; [discriminate|]. injection E as <-. bsolve. }
  split; [|split]; cbn [nr nc px]; auto. intros i j Hi Hj. bsolve; auto; apply H3; lia.
Qed.

Lemma apply_op_proper o : proper_op o -> forall x y, same_img x y -> same_result (apply_op o x) (apply_op o y).
Proof.
  destruct o; cbn; intros Hp x y H; auto using dark_proper, flip_proper, rectangle_proper, add_row_proper, add_col_proper.
Qed.

Lemma apply_ops_proper ops : Forall proper_op ops -> forall x y, same_img x y -> same_result (apply_ops ops x) (apply_ops ops y).
Proof.
  induction 1 as [|o t Ho Ht IH]; intros x y H; cbn; auto.
  pose proof (apply_op_proper o Ho x y H) as K. destruct (apply_op o x), (apply_op o y); cbn in *; try contradiction; auto.
Qed.

Lemma bind_proper {A B} (x y : result (image A)) (f g : image A -> result (image B)) :
  same_result x y -> (forall a b, same_img a b -> same_result (f a) (g b)) ->
  same_result (rbind x f) (rbind y g).
Proof. destruct x, y; cbn; try contradiction; auto. Qed.

Definition processed_spec (s : series) (ops : list op) (k : Z) : result (image Z) :=
  do img <- s_get s k; apply_ops ops img.

Lemma processed_frame s ops fl : Forall proper_op ops ->
  (starts_with_rectangle ops = true -> has_region s = true) ->
  forall k i, get_index fl k = Ok (PyInt i) ->
  same_result (s_get (Processed s ops fl) k) (do img <- s_get s i; apply_ops ops img).
Proof.
  intros Hp Hr k i Hk. cbn [s_get]. rewrite Hk. cbn [rbind].
  destruct ops as [|[m d|c|r|a|a|f|] t]; try apply same_result_refl.
  cbn in Hr. inversion Hp as [|? ? P1 P2]; subst. specialize (Hr eq_refl).
  eapply same_result_trans.
  - apply bind_proper; [apply region_agrees; auto|]. intros a b Hab. apply apply_ops_proper; eauto.
  - destruct (s_get s i); cbn; auto. apply same_result_refl.
Qed.

(** ** Frame list *)
Lemma frame_list_index l k i : (0 <= k)%Z -> nth_error l (Z.to_nat k) = Some i -> get_index (Some l) k = Ok i.
Proof. intros Hk H. cbn. unfold py_index. destruct (k <? 0)%Z eqn:E; [lia|]. rewrite E, H. reflexivity. Qed.

Lemma rmap_nth {A B} (f : A -> result B) l : forall ys, rmap f l = Ok ys ->
  length ys = length l /\ forall n x, nth_error l n = Some x -> exists y, f x = Ok y /\ nth_error ys n = Some y.
Proof.
  induction l as [|a t IH]; cbn; intros ys H.
  - injection H as <-. split; auto. intros [|n] x; discriminate.
  - destruct (f a) as [y|] eqn:Ea; [|discriminate]. cbn in H. destruct (rmap f t) as [ys'|] eqn:Et; [|discriminate].
    cbn in H. injection H as <-. destruct (IH ys' eq_refl) as [L1 L2]. split; [cbn; auto|].
    intros [|n] x Hx; cbn in *; [injection Hx as <-; eauto|auto].
Qed.

Lemma dlookup_dset {O} k (v : mval O) d k' : dlookup k' (dset k v d) = if String.eqb k' k then Some v else dlookup k' d.
Proof.
  induction d as [|[a b] t IH]; cbn; [destruct (String.eqb k' k); reflexivity|].
  destruct (String.eqb k a) eqn:E; cbn.
  - apply String.eqb_eq in E. subst a. destruct (String.eqb k' k); reflexivity.
  - rewrite IH. destruct (String.eqb k' a) eqn:Ea; [|reflexivity].
    destruct (String.eqb k' k) eqn:Ek; [|reflexivity]. apply String.eqb_eq in Ea, Ek. subst. rewrite String.eqb_refl in E. discriminate.
Qed.

Lemma omega_follows_frames {O} (h h' : mheap O) loc loc' frames rows :
  dlookup "omega" (nth loc h []) = Some (MOmega rows) ->
  new_metadata h loc (Some frames) = Ok (h', loc') ->
  exists rows', dlookup "omega" (nth loc' h' []) = Some (MOmega rows') /\ length rows' = length frames /\
    forall n i, nth_error frames n = Some i -> exists r, py_index rows (index_z i) = Ok r /\ nth_error rows' n = Some r.
Proof.
  intros Hl H. unfold new_metadata in H. rewrite Hl in H. destruct (take_rows rows frames) as [rows'|] eqn:E; [|discriminate].
  cbn in H. injection H as <- <-. exists rows'. unfold take_rows in E. apply rmap_nth in E. destruct E as [E1 E2].
  split; auto. rewrite app_nth2, Nat.sub_diag by lia. cbn. rewrite dlookup_dset. reflexivity.
Qed.

Lemma base_metadata_kept {O} (h h' : mheap O) loc loc' fl k (v : mval O) :
  loc < length h -> new_metadata h loc fl = Ok (h', loc') ->
  loc' <> loc /\ nth loc h' [] = nth loc h [] /\ nth loc (assign_metadata h' loc' k v) [] = nth loc h [] /\
  (forall key, key <> "omega"%string -> dlookup key (nth loc' h' []) = dlookup key (nth loc h [])).
Proof.
  intros Hl H. unfold new_metadata in H.
  assert (G : exists m, h' = h ++ [m] /\ loc' = length h /\
              forall key, key <> "omega"%string -> dlookup key m = dlookup key (nth loc h [])).
  { destruct fl as [frames|].
    - destruct (dlookup "omega" (nth loc h [])) as [[rows|]|].
      + destruct (take_rows rows frames); [|discriminate]. cbn in H. injection H as <- <-. eexists; repeat split.
        intros key Hk. rewrite dlookup_dset. destruct (String.eqb_spec key "omega"); [contradiction|reflexivity].
      + discriminate.
      + injection H as <- <-. eexists; repeat split; auto.
    - injection H as <- <-. eexists; repeat split; auto. }
  destruct G as (m & -> & -> & Gk).
  assert (E1 : nth loc (h ++ [m]) [] = nth loc h []) by (apply app_nth1; auto).
  split; [lia|split; [auto|split]].
  - unfold assign_metadata. rewrite <- E1. set (x := dset _ _ _). clearbody x.
    assert (N : nth_error (set_nth (length h) x (h ++ [m])) loc = nth_error (h ++ [m]) loc) by (apply set_nth_ne; lia).
    assert (M : nth_error (h ++ [m]) loc = Some (nth loc (h ++ [m]) [])) by (apply nth_error_nth'; rewrite app_length; lia).
    rewrite M in N. apply nth_error_nth with (d := []) in N. exact N.
  - intros key Hk. rewrite app_nth2, Nat.sub_diag by lia. cbn. auto.
Qed.

(** ** Dark *)
Lemma dark_exact img d r : subtract_dark Exact img d = Ok r ->
  nr r = nr img /\ nc r = nc img /\ forall i j, px r i j = Z.max (px img i j - px d i j) 0.
Proof.
  unfold subtract_dark. destruct (_ && _); [|discriminate]. intros H; injection H as <-. cbn. repeat split; auto.
  intros i j. bsolve.
Qed.

Lemma dark_unsigned k img d r : (0 < k)%Z -> subtract_dark (Unsigned k) img d = Ok r ->
  forall i j, (0 <= px img i j < 2 ^ k)%Z -> (0 <= px d i j < 2 ^ k)%Z ->
  px r i j = if (px d i j <=? px img i j)%Z then (px img i j - px d i j)%Z else (px img i j - px d i j + 2 ^ k)%Z.
Proof.
  intros Hk. unfold subtract_dark. destruct (_ && _); [|discriminate]. intros H; injection H as <-. cbn. intros i j H1 H2.
  set (p := (2 ^ k)%Z) in *. set (x := px img i j) in *. set (y := px d i j) in *.
  assert (E : ((x - y) mod p = if (y <=? x)%Z then x - y else x - y + p)%Z).
  { destruct (y <=? x)%Z eqn:L.
    - apply Z.mod_small. lia.
    - replace (x - y)%Z with ((x - y + p) + (-1) * p)%Z by ring. rewrite Z_mod_plus_full. rewrite Z.mod_small; lia. }
  rewrite E. bsolve.
Qed.

(** ** Inserted rows and columns *)
Lemma add_row_spec img k r : add_row img k = Ok r ->
  exists p, (Z.of_nat p = if (k <? 0)%Z then (Z.of_nat (nr img) + k)%Z else k) /\ p <= nr img /\
    nr r = S (nr img) /\ nc r = nc img /\
    (forall i j, i < p -> px r i j = px img i j) /\ (forall j, px r p j = 0%Z) /\
    (forall i j, p < i -> px r i j = px img (i - 1) j).
Proof.
  unfold add_row. destruct (insert_pos (nr img) k) as [p|] eqn:E; [|discriminate]. cbn [rbind]. intros H; injection H as <-. cbn [nr nc px].
  unfold insert_pos in E. destruct (_ || _)%bool eqn:B in E; [discriminate|]. injection E as E.
  exists p. split; [revert E; bsolve|]. split; [revert E; bsolve|]. split; [reflexivity|]. split; [reflexivity|]. split; [|split].
  - intros i j Hi. bsolve; reflexivity.
  - intros j. bsolve.
  - intros i j Hi. bsolve; reflexivity.
Qed.
Lemma add_row_transpose img k : same_result (add_col img k) (do r <- add_row (transpose img) k; Ok (transpose r)).
Proof.
  unfold add_col, add_row. cbn [nr transpose]. destruct (insert_pos (nc img) k); cbn; auto. repeat split; auto.
Qed.

(** ** Glue *)
Lemma frame_key_outside s ops l k : (k < - Z.of_nat (length l) \/ Z.of_nat (length l) <= k)%Z ->
  s_get (Processed s ops (Some l)) k = Err IndexError.
Proof.
  intros H. assert (E : get_index (Some l) k = Err IndexError); [|cbn [s_get]; rewrite E; reflexivity].
  cbn. unfold py_index. destruct (k <? 0)%Z eqn:K.
  - destruct (Z.of_nat (length l) + k <? 0)%Z eqn:K2; [reflexivity|lia].
  - rewrite K. destruct (nth_error l (Z.to_nat k)) eqn:N; [|reflexivity].
    exfalso. assert (Z.to_nat k < length l) by (apply nth_error_Some; congruence). lia.
Qed.

Lemma frame_key_negative s ops l k : (- Z.of_nat (length l) <= k < 0)%Z ->
  s_get (Processed s ops (Some l)) k = s_get (Processed s ops (Some l)) (Z.of_nat (length l) + k).
Proof.
  intros H. cbn [s_get]. assert (E : get_index (Some l) k = get_index (Some l) (Z.of_nat (length l) + k)); [|rewrite E; reflexivity].
  cbn. unfold py_index. destruct (k <? 0)%Z eqn:K; [|lia].
  destruct (Z.of_nat (length l) + k <? 0)%Z eqn:K2; [lia|]. rewrite K2. reflexivity.
Qed.

Lemma numpy_frame_list s ops l k i : (0 <= k)%Z ->
  nth_error l (Z.to_nat k) = Some (NpInt i) -> s_get (Processed s ops (Some l)) k = Err IndexError.
Proof. intros Hk Hn. cbn [s_get]. rewrite (frame_list_index l k (NpInt i)); auto. Qed.

Lemma flip_permutes {A} c (img : image A) :
  exists place : nat * nat -> nat * nat,
    (forall i j, i < nr (flip c img) -> j < nc (flip c img) ->
       fst (place (i, j)) < nr img /\ snd (place (i, j)) < nc img /\
       px (flip c img) i j = px img (fst (place (i, j))) (snd (place (i, j)))) /\
    (forall a b, a < nr img -> b < nc img ->
       exists! ij, fst ij < nr (flip c img) /\ snd ij < nc (flip c img) /\ place ij = (a, b)).
Proof.
  exists (d4_index (code_sym c) (nr img) (nc img)). rewrite flip_is_symmetry.
  destruct (d4_bijective (code_sym c) img) as (_ & _ & H1 & H2). split; auto.
  intros i j Hi Hj. destruct (H1 i j Hi Hj) as (a & b & Ha & Hb & E & D). rewrite D. auto.
Qed.

Lemma flip_identities {A} (img : image A) :
  let f c := @flip A c in
  (forall c, In c ["v"; "y"; "h"; "x"; "t"; "T"; "r180"; "vh"; "hv"]%string -> same_img (f c (f c img)) img) /\
  same_img (f "r90" (f "r90" (f "r90" (f "r90" img)))) img /\
  same_img (f "r270" (f "r90" img)) img /\ same_img (f "r90" (f "r270" img)) img /\
  same_img (f "r90" (f "r90" img)) (f "r180" img) /\
  same_img (f "v" (f "h" img)) (f "r180" img) /\
  same_img (f "h" (f "t" img)) (f "r90" img) /\ same_img (f "v" (f "t" img)) (f "r270" img) /\
  f "x" img = f "h" img /\ f "y" img = f "v" img /\ f "T" img = f "t" img /\ f "vh" img = f "hv" img /\
  f "ccw90" img = f "r90" img /\ f "cw90" img = f "r270" img /\
  (forall c, ~ In c ["y"; "v"; "x"; "h"; "vh"; "hv"; "r180"; "t"; "T"; "ccw90"; "r90"; "cw90"; "r270"]%string -> f c img = img).
Proof.
  cbn zeta.
  assert (T : forall (codes1 codes2 : list string),
    fold_left (fun g c => d4_mul g (code_sym c)) codes1 d4_one = fold_left (fun g c => d4_mul g (code_sym c)) codes2 d4_one ->
    same_img (fold_left (fun x c => flip c x) codes1 img) (fold_left (fun x c => flip c x) codes2 img)).
  { intros c1 c2 E. eapply same_img_trans; [apply (flip_sequence c1 img d4_one)|]. rewrite E.
    apply same_img_sym, (flip_sequence c2 img d4_one). }
  split.
  { intros c Hc. apply (T [c; c] []). cbn in Hc. decompose [or] Hc; subst; try contradiction; reflexivity. }
  split; [apply (T ["r90"; "r90"; "r90"; "r90"]%string []); reflexivity|].
  split; [apply (T ["r90"; "r270"]%string []); reflexivity|].
  split; [apply (T ["r270"; "r90"]%string []); reflexivity|].
  split; [apply (T ["r90"; "r90"]%string ["r180"]%string); reflexivity|].
  split; [apply (T ["h"; "v"]%string ["r180"]%string); reflexivity|].
  split; [apply (T ["t"; "h"]%string ["r90"]%string); reflexivity|].
  split; [apply (T ["t"; "v"]%string ["r270"]%string); reflexivity|].
  do 6 (split; [reflexivity|]).
  intros c Hc. unfold flip, in_codes, existsb. cbn in Hc.
  repeat match goal with |- context [String.eqb c ?s] =>
    destruct (String.eqb_spec c s) as [E|_]; [exfalso; apply Hc; rewrite E; auto 20|cbn [orb]] end.
  reflexivity.
Qed.

Lemma flip_meanings {A} (img : image A) i j :
  px (flip "v" img) i j = px img i (nc img - 1 - j) /\
  px (flip "h" img) i j = px img (nr img - 1 - i) j /\
  px (flip "t" img) i j = px img j i /\
  px (flip "r90" img) i j = px img j (nc img - 1 - i) /\
  px (flip "r270" img) i j = px img (nr img - 1 - j) i.
Proof. cbn. auto. Qed.

Lemma optimisation_invisible s r ops k trailing : has_region s = true -> Forall proper_op ops ->
  same_result (s_get (Processed s (OpRect r :: ops) None) k)
              (do img <- s_get s k; apply_ops (OpRect r :: ops) img) /\
  same_result (s_get_fancy (Processed s (OpRect r :: ops) None) k trailing)
              (do img <- s_get s k; do img' <- apply_ops (OpRect r :: ops) img; Ok (rectangle img' trailing)).
Proof.
  intros Hr Hp.
  assert (H : same_result (s_get (Processed s (OpRect r :: ops) None) k) (do img <- s_get s k; apply_ops (OpRect r :: ops) img)).
  { apply processed_frame; auto. constructor; cbn; auto. }
  split; auto. unfold s_get_fancy.
  eapply same_result_trans.
  - apply (bind_proper _ _ (fun img => Ok (rectangle img trailing)) (fun img => Ok (rectangle img trailing)) H).
    intros a b Hab. cbn [same_result]. apply rectangle_proper. exact Hab.
  - destruct (s_get s k); cbn; auto. apply same_result_refl.
Qed.

Lemma nested_refuted s ops fl r k :
  s_get (Processed (Processed s ops fl) [OpRect r] None) k = Err AttributeError /\
  s_get (Processed (Wrapped (Processed s ops fl)) [OpRect r] None) k = Err AttributeError /\
  s_get (Processed (Processed s ops fl) [OpFlip "none"; OpRect r] None) k
    = (do img <- s_get (Processed s ops fl) k; Ok (rectangle img r)).
Proof. split; [reflexivity|split; [reflexivity|]]. cbn. destruct (rbind _ _); reflexivity. Qed.

Lemma dark_refuted :
  exists img dark r, subtract_dark (Unsigned 16) img dark = Ok r /\ px img 0 0 = 3%Z /\ px dark 0 0 = 5%Z /\ px r 0 0 = 65534%Z.
Proof.
  exists (Img 1 1 (fun _ _ => 3%Z)), (Img 1 1 (fun _ _ => 5%Z)). eexists. split; [reflexivity|]. vm_compute. auto.
Qed.

Lemma add_row_range img k :
  (exists r, add_row img k = Ok r) <-> (- Z.of_nat (nr img) <= k <= Z.of_nat (nr img))%Z.
Proof.
  unfold add_row, insert_pos. destruct ((k <? - Z.of_nat (nr img))%Z || (Z.of_nat (nr img) <? k)%Z)%bool eqn:E; cbn [rbind].
  - split; [intros [r H]; discriminate|lia].
  - split; [lia|]. intros _. eexists. reflexivity.
Qed.

Lemma slice_bound_spec n b :
  Z.of_nat (slice_bound n b) =
  (if (b <? - Z.of_nat n)%Z then 0
   else if (b <? 0)%Z then Z.of_nat n + b else if (b <? Z.of_nat n)%Z then b else Z.of_nat n)%Z.
Proof. unfold slice_bound. bsolve. Qed.

Lemma rectangle_pixels {A} (img : image A) r0 r1 c0 c1 :
  let lo n b := (if b <? - n then 0 else if b <? 0 then n + b else if b <? n then b else n)%Z in
  let n := Z.of_nat (nr img) in let m := Z.of_nat (nc img) in
  let out := rectangle img ((r0, r1), (c0, c1)) in
  Z.of_nat (nr out) = Z.max 0 (lo n r1 - lo n r0) /\ Z.of_nat (nc out) = Z.max 0 (lo m c1 - lo m c0) /\
  forall i j, px out i j = px img (Z.to_nat (lo n r0) + i) (Z.to_nat (lo m c0) + j).
Proof.
  cbv zeta beta. rewrite <- !slice_bound_spec. cbn [rectangle nr nc px]. rewrite !Nat2Z.id. repeat split; lia.
Qed.

Lemma apply_ops_app l1 l2 img : apply_ops (l1 ++ l2) img = do x <- apply_ops l1 img; apply_ops l2 x.
Proof. revert img; induction l1 as [|o t IH]; intros img; cbn; auto. destruct (apply_op o img); cbn; auto. Qed.
Lemma apply_ops_one o img : apply_ops [o] img = apply_op o img.
Proof. cbn. destruct (apply_op o img); reflexivity. Qed.
