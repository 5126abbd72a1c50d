(** The rows of the sampling do not depend on the order of the iterations. *)
From Coq Require Import Reals List ZArith Lra Psatz Permutation String.
From Verif Require Import Prelude Lin RotModel RotSpec UcModel RfzModel RfzSpec RfzProofs RfzZone RfzMap RfzSample.
Local Notation length := List.length.

Lemma map_add_zrange : forall c a n, map (fun k => (c + k)%Z) (zrange a (a + Z.of_nat n)) = zrange (c + a) (c + a + Z.of_nat n).
Proof.
  intros c a n. unfold zrange. rewrite map_map. replace (Z.to_nat (a + Z.of_nat n - a)) with n by lia. replace (Z.to_nat (c + a + Z.of_nat n - (c + a))) with n by lia.
  apply map_ext. intros k. lia.
Qed.
Lemma map_add_range : forall c a b, (a <= b)%Z -> map (fun k => (c + k)%Z) (zrange a b) = zrange (c + a) (c + b).
Proof. intros c a b H. replace b with (a + Z.of_nat (Z.to_nat (b - a)))%Z by lia. rewrite map_add_zrange. f_equal. lia. Qed.
Lemma blocks_nat : forall m n a, (0 <= m)%Z -> flat_map (fun j => zrange (j * m) (j * m + m)) (zrange a (a + Z.of_nat n)) = zrange (a * m) ((a + Z.of_nat n) * m).
Proof.
  intros m n a M. induction n as [|n IH].
  - rewrite Z.add_0_r, !zrange_nil by lia. reflexivity.
  - rewrite <- (zrange_app a (a + Z.of_nat n) (a + Z.of_nat (S n))) by lia. rewrite flat_map_app, IH.
    replace (zrange (a + Z.of_nat n) (a + Z.of_nat (S n))) with [(a + Z.of_nat n)%Z]
      by (unfold zrange; replace (Z.to_nat (a + Z.of_nat (S n) - (a + Z.of_nat n))) with 1%nat by lia; cbn [seq map]; f_equal; lia).
    cbn [flat_map]. rewrite app_nil_r. rewrite zrange_app by nia. f_equal. nia.
Qed.
Lemma blocks : forall m a b, (0 <= m)%Z -> (a <= b)%Z -> flat_map (fun j => zrange (j * m) (j * m + m)) (zrange a b) = zrange (a * m) (b * m).
Proof. intros m a b M H. replace b with (a + Z.of_nat (Z.to_nat (b - a)))%Z by lia. now apply blocks_nat. Qed.
Lemma map_flat_map : forall (A B C : Type) (f : B -> C) (g : A -> list B) l, map f (flat_map g l) = flat_map (fun x => map f (g x)) l.
Proof. intros A B C f g l. induction l as [|a l IH]; [reflexivity|]. cbn. now rewrite map_app, IH. Qed.
Lemma flat_map_map : forall (A B C : Type) (f : A -> B) (g : B -> list C) l, flat_map g (map f l) = flat_map (fun x => g (f x)) l.
Proof. intros A B C f g l. induction l as [|a l IH]; [reflexivity|]. cbn. now rewrite IH. Qed.
Lemma rows_in_order : forall N, (0 <= N)%Z -> map (row_of N) (triples N) = zrange 0 ((2 * N + 1) ^ 3).
Proof.
  intros N H. set (n := (2 * N + 1)%Z). assert (NP : (0 < n)%Z) by lia. unfold triples. rewrite map_flat_map.
  transitivity (flat_map (fun j => zrange (j * n ^ 2) (j * n ^ 2 + n ^ 2)) (zrange 0 n)).
  2:{ rewrite blocks by nia. f_equal; ring. }
  replace (zrange 0 n) with (map (fun k => (N + k)%Z) (zrange (- N) (N + 1))) by (rewrite map_add_range by lia; f_equal; lia).
  rewrite flat_map_map. apply flat_map_ext. intros ii. rewrite map_flat_map.
  transitivity (map (fun k => ((N + ii) * n ^ 2 + k)%Z) (flat_map (fun j => zrange (j * n) (j * n + n)) (zrange 0 n))).
  2:{ rewrite blocks by lia. rewrite map_add_range by nia. f_equal; ring. }
  rewrite map_flat_map. replace (zrange 0 n) with (map (fun k => (N + k)%Z) (zrange (- N) (N + 1))) by (rewrite map_add_range by lia; f_equal; lia).
  rewrite flat_map_map. apply flat_map_ext. intros jj. rewrite map_map.
  replace (zrange ((N + jj) * n) ((N + jj) * n + n)) with (map (fun k => ((N + jj) * n + N + k)%Z) (zrange (- N) (N + 1))) by (rewrite map_add_range by lia; f_equal; lia).
  rewrite map_map. apply map_ext. intros kk. unfold row_of. fold n. ring.
Qed.
Lemma in_triples : forall N i j k, In (i, j, k) (triples N) <-> (- N <= i <= N)%Z /\ (- N <= j <= N)%Z /\ (- N <= k <= N)%Z.
Proof.
  intros N i j k. unfold triples. rewrite in_flat_map. split.
  - intros (i' & I & H). apply in_flat_map in H. destruct H as (j' & J & H). apply in_map_iff in H. destruct H as (k' & E & K). injection E as -> -> ->. rewrite in_zrange in *. lia.
  - intros (I & J & K). exists i. split; [apply in_zrange; lia|]. apply in_flat_map. exists j. split; [apply in_zrange; lia|]. apply in_map_iff. exists k. split; [reflexivity|apply in_zrange; lia].
Qed.
Lemma row_nth : forall N k p, (0 <= N)%Z -> nth_error (triples N) k = Some p -> Z.to_nat (row_of N p) = k.
Proof.
  intros N k p H E. pose proof (map_nth_error (row_of N) _ _ E) as M. rewrite rows_in_order in M by exact H. unfold zrange in M.
  rewrite nth_error_map in M. destruct (nth_error (seq 0 _) k) as [m|] eqn:S; [|discriminate]. cbn in M. injection M as M.
  assert (L : (k < Z.to_nat ((2 * N + 1) ^ 3 - 0))%nat) by (rewrite <- (seq_length (Z.to_nat ((2 * N + 1) ^ 3 - 0)) 0); apply nth_error_Some; congruence).
  apply (nth_error_nth _ _ 0%nat) in S. rewrite seq_nth in S by exact L. subst m. rewrite <- M. rewrite Z.add_0_l || idtac. lia.
Qed.
Lemma triples_length : forall N, (0 <= N)%Z -> length (triples N) = Z.to_nat ((2 * N + 1) ^ 3).
Proof. intros N H. rewrite <- (map_length (row_of N)), rows_in_order by exact H. rewrite zrange_length. f_equal. apply Z.sub_0_r. Qed.

Section Fold.
Variable (P Q : Type) (f : P -> nat) (cell : P -> option Q) (step : result (list (option Q)) -> P -> result (list (option Q))).
Lemma fold_rows : forall sched rows, (forall p r, In p sched -> step (Ok r) p = Ok (match cell p with Some q => set_nth (f p) (Some q) r | None => r end)) ->
  exists rows', fold_left step sched (Ok rows) = Ok rows' /\ length rows' = length rows /\
    (forall k, (forall p, In p sched -> f p = k -> cell p = None) -> nth_error rows' k = nth_error rows k) /\
    (forall p q, In p sched -> (f p < length rows)%nat -> cell p = Some q -> (forall p', In p' sched -> f p' = f p -> p' = p) -> nth_error rows' (f p) = Some (Some q)).
Proof.
  induction sched as [|a l IH] using rev_ind; intros rows H.
  - exists rows. repeat split; auto. intros p q [].
  - destruct (IH rows) as (r1 & E & L & U & W); [intros; apply H; apply in_or_app; now left|]. rewrite fold_left_app, E. cbn [fold_left].
    rewrite H by (apply in_or_app; right; now left). eexists. split; [reflexivity|]. split; [|split].
    + destruct (cell a); [now rewrite set_nth_length|exact L].
    + intros k N. rewrite <- (U k) by (intros p I; apply N; apply in_or_app; now left). destruct (cell a) as [q|] eqn:C; [|reflexivity].
      apply set_nth_ne. intros K. assert (AI : In a (l ++ [a])) by (apply in_or_app; right; now left). specialize (N a AI K). congruence.
    + intros p q I B C UN. destruct (Nat.eq_dec (f a) (f p)) as [K|K].
      * assert (a = p) by (apply UN; [apply in_or_app; right; now left|exact K]). subst a. rewrite C. apply set_nth_eq. now rewrite L.
      * apply in_app_or in I. destruct I as [I|[I|[]]]; [|subst; contradiction]. destruct (cell a) as [q'|]; [rewrite set_nth_ne by exact K|]; apply W; auto; intros; apply UN; auto; apply in_or_app; now left.
Qed.
End Fold.

Local Open Scope R_scope.
Definition cell (pg : Z) (delta shift : R) (p : Z * Z * Z) : option q4 :=
  let cu := grid_point delta shift p in
  if Rle_dec (vmaxabs cu) cuA_2 then
    match cu2ro cu with
    | Ok ro => match insideFZ ro pg with Ok b => if truthy b then Some (ro2qu ro) else None | Err _ => None end
    | Err _ => None
    end
  else None.
Lemma known_group : forall ro pg, (1 <= pg <= 32)%Z -> exists b, insideFZ ro pg = Ok b.
Proof.
  intros ro pg H. assert (C : exists r, getFZtypeandOrder pg = Ok r).
  { assert (I : In pg (zrange 1 33)) by (apply in_zrange; lia). let l := eval vm_compute in (zrange 1 33) in change (In pg l) in I. cbn [In] in I.
    repeat destruct I as [I|I]; try contradiction I; subst pg; eexists; reflexivity. }
  destruct C as ([ty o] & C). unfold insideFZ. rewrite C. cbn [rbind]. destruct (ty =? 0)%Z, (ty =? 1)%Z, (ty =? 2)%Z, (ty =? 3)%Z, (ty =? 4)%Z; eexists; reflexivity.
Qed.
Lemma cu2ro_ok : forall cu, vmaxabs cu <= cuA_2 -> exists ro, cu2ro cu = Ok ro /\ norm2 (r_ax ro) = 1.
Proof. intros cu H. destruct (cu2ho_lemma cu H) as (ho & E & _). unfold cu2ro. rewrite E. cbn [rbind]. eexists. split; [reflexivity|]. apply ho2ro_unit. Qed.
Lemma one_step : forall pg N delta shift rows p, (1 <= pg <= 32)%Z ->
  sample_one pg N delta shift cuA_2 (Ok rows) p = Ok (match cell pg delta shift p with Some q => set_nth (Z.to_nat (row_of N p)) (Some q) rows | None => rows end).
Proof.
  intros pg N delta shift rows p H. unfold sample_one, cell. cbn [rbind]. cbv zeta. destruct (Rle_dec _ cuA_2) as [L|L]; [|reflexivity].
  destruct (cu2ro_ok _ L) as (ro & E & _). rewrite E. cbn [rbind]. destruct (known_group ro pg H) as (b & B). rewrite B. cbn [rbind]. now destruct (truthy b).
Qed.
Lemma list_ext : forall (A : Type) (l m : list A), length l = length m -> (forall k, (k < length l)%nat -> nth_error l k = nth_error m k) -> l = m.
Proof.
  intros A l. induction l as [|a l IH]; intros [|b m] L H; cbn in L; try discriminate; [reflexivity|]. pose proof (H 0%nat ltac:(cbn; lia)) as H0. cbn in H0. injection H0 as ->.
  f_equal. apply IH; [lia|]. intros k K. apply (H (S k)). cbn. lia.
Qed.
Lemma repeat_nth : forall (A : Type) (x : A) n k, (k < n)%nat -> nth_error (repeat x n) k = Some x.
Proof. intros A x n. induction n as [|n IH]; intros [|k] K; try lia; [reflexivity|]. cbn. apply IH. lia. Qed.
Lemma rows_lemma : forall sched pg N delta shift, (0 <= N)%Z -> (1 <= pg <= 32)%Z -> Permutation sched (triples N) ->
  sample_rows sched pg N delta shift cuA_2 = Ok (map (cell pg delta shift) (triples N)).
Proof.
  intros sched pg N delta shift HN HP PERM. unfold sample_rows. assert (N3 : (0 <= (2 * N + 1) ^ 3)%Z) by (apply Z.pow_nonneg; lia). rewrite (proj2 (Z.ltb_ge _ _) N3).
  destruct (fold_rows _ _ (fun p => Z.to_nat (row_of N p)) (cell pg delta shift) (sample_one pg N delta shift cuA_2) sched (repeat None (Z.to_nat ((2 * N + 1) ^ 3)))) as (rows & E & L & U & W).
  { intros p r _. now apply one_step. }
  rewrite E. f_equal. rewrite repeat_length in L. apply list_ext; [rewrite map_length, triples_length by exact HN; exact L|]. intros k K. rewrite L in K. rewrite nth_error_map.
  rewrite <- triples_length in K by exact HN. destruct (nth_error (triples N) k) as [p|] eqn:NP; [|apply nth_error_None in NP; lia]. cbn [option_map].
  pose proof (row_nth _ _ _ HN NP) as R. assert (UN : forall p', In p' sched -> Z.to_nat (row_of N p') = k -> p' = p).
  { intros p' I' R'. apply (Permutation_in _ PERM) in I'. apply In_nth_error in I'. destruct I' as (k' & K'). pose proof (row_nth _ _ _ HN K'). congruence. }
  destruct (cell pg delta shift p) as [q|] eqn:C.
  - rewrite <- R. apply W; auto.
    + apply (Permutation_in _ (Permutation_sym PERM)). eapply nth_error_In; exact NP.
    + rewrite repeat_length, R. rewrite triples_length in K by exact HN. exact K.
    + intros p' I' R'. apply UN; auto. congruence.
  - rewrite U; [apply repeat_nth; now rewrite <- triples_length by exact HN|]. intros p' I' R'. now rewrite (UN p' I' R').
Qed.
Lemma keep_in : forall (A : Type) (l : list (option A)) x, In x (keep_rows l) <-> In (Some x) l.
Proof.
  intros A l x. unfold keep_rows. rewrite in_flat_map. split.
  - intros ([y|] & I & E); [|destruct E]. destruct E as [E|[]]. now subst.
  - intros I. exists (Some x). split; [exact I|now left].
Qed.
Lemma cell_sampled : forall pg N delta shift q, (1 <= pg <= 32)%Z -> In (Some q) (map (cell pg delta shift) (triples N)) <-> sampled pg N delta shift cuA_2 q.
Proof.
  intros pg N delta shift q HP. rewrite in_map_iff. split.
  - intros (((i, j), k) & C & I). apply in_triples in I. unfold cell in C. cbv zeta in C. destruct (Rle_dec _ cuA_2) as [L|L]; [|discriminate].
    destruct (cu2ro_ok _ L) as (ro & E & _). rewrite E in C. destruct (insideFZ ro pg) as [[[]|]|] eqn:F; cbn [truthy] in C; try discriminate. injection C as <-.
    destruct (proj2 (maxabs_shell _ _) (eq_refl (vmaxabs (grid_point delta shift (i, j, k))))) as (A & B & D & _). unfold grid_point in *. cbn [vx vy vz] in *.
    exists i, j, k, ro. repeat split; try tauto; try lra.
  - intros (i & j & k & ro & I & J & K & A & B & D & E & F & ->). exists (i, j, k). split; [|apply in_triples; tauto]. unfold cell, grid_point. cbv zeta.
    destruct (Rle_dec _ cuA_2) as [L|L]; [|exfalso; apply L; unfold vmaxabs; cbn [vx vy vz]; repeat apply Rmax_lub; assumption]. rewrite E, F. reflexivity.
Qed.
