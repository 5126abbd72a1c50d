From Coq Require Import QArith Qround Qabs Qminmax Lqa Permutation.
From Verif Require Import Prelude NfModel NfSpec.
Local Open Scope Q_scope.

(** ** pixels and frames *)
Lemma qlt_true : forall a b, qlt a b = true <-> a < b.
Proof. intros. unfold qlt. rewrite negb_true_iff. split; intros H; [apply Qnot_le_lt; intros L; apply Qle_bool_iff in L; congruence|destruct (Qle_bool b a) eqn:E; auto; apply Qle_bool_iff in E; lra]. Qed.
Lemma floor_iff : forall x k, Qfloor x = k <-> inject_Z k <= x < inject_Z k + 1.
Proof.
  intros x k. pose proof (Qfloor_le x). pose proof (Qlt_floor x) as L. rewrite inject_Z_plus in L. change (inject_Z 1) with 1 in L. split; [intros <-; split; auto|].
  intros [H1 H2]. assert (A : inject_Z k < inject_Z (Qfloor x + 1)) by (rewrite inject_Z_plus; change (inject_Z 1) with 1; lra).
  assert (B : inject_Z (Qfloor x) < inject_Z (k + 1)) by (rewrite inject_Z_plus; change (inject_Z 1) with 1; lra). rewrite <- Zlt_Qlt in A, B. lia.
Qed.
Lemma floor_cell : forall base delta v k, ~ delta == 0 -> (Qfloor ((v - base) * / delta) = k <-> in_cell base delta k v).
Proof.
  intros base delta v k D. rewrite floor_iff. set (t := (v - base) * / delta). assert (T : v == base + t * delta) by (unfold t; field; auto).
  unfold in_cell. destruct (Qlt_le_dec 0 delta) as [L|L].
  - split; [intros [A B]; left; split; auto; rewrite T; split; nra|intros [[_ [A B]]|[N _]]; [|lra]]. rewrite T in A, B. split; nra.
  - assert (delta < 0) by (destruct (Qlt_le_dec delta 0); auto; exfalso; apply D; lra). split; [intros [A B]; right; split; auto; rewrite T; split; nra|intros [[N _]|[_ [A B]]]; [lra|]]. rewrite T in A, B. split; nra.
Qed.
Lemma bar_iff : forall c w y, Qabs (y - c) < w / 2 <-> c - w / 2 < y < c + w / 2.
Proof. intros. setoid_replace (w / 2) with (w * (1 # 2)) by field. rewrite Qabs_Qlt_condition. split; intros [A B]; split; lra. Qed.

(** ** one step *)
Lemma index_ok : forall (A : Type) (l : list A) i, (0 <= i < Z.of_nat (length l))%Z -> exists a, py_index l i = Ok a /\ nth_error l (Z.to_nat i) = Some a.
Proof.
  intros A l i H. unfold py_index. destruct (i <? 0)%Z eqn:E; [lia|]. rewrite E. destruct (nth_error l (Z.to_nat i)) as [a|] eqn:N; [eauto|]. apply nth_error_None in N. lia.
Qed.
Lemma stack_ok : forall s image z y x, stack_shape s image -> (0 <= z < s_frames s)%Z -> (0 <= y < s_rows s)%Z -> (0 <= x < s_cols s)%Z ->
  exists b, stack_at image z y x = Ok b /\ (b = true <-> bright image z y x).
Proof.
  intros s image z y x [L F] Hz Hy Hx. unfold stack_at, bright. destruct (index_ok _ image z) as (f & F1 & F2); [lia|]. rewrite F1. cbn [rbind].
  pose proof (proj1 (Forall_forall _ _) F f (nth_error_In _ _ F2)) as [R1 R2]. destruct (index_ok _ f y) as (r & G1 & G2); [lia|]. rewrite G1. cbn [rbind].
  pose proof (proj1 (Forall_forall _ _) R2 r (nth_error_In _ _ G2)) as R3. cbv beta in R3. destruct (index_ok _ r x) as (b & B1 & B2); [lia|]. rewrite B1. exists b. split; auto.
  rewrite F2. split; [intros ->; exists f, r; auto|]. intros (f' & r' & E1 & E2 & E3). injection E1 as <-. rewrite G2 in E2. injection E2 as <-. rewrite B2 in E3. now injection E3.
Qed.
Lemma cell_unique : forall base delta k1 k2 v, ~ delta == 0 -> in_cell base delta k1 v -> in_cell base delta k2 v -> k1 = k2.
Proof. intros. apply floor_cell in H0; auto. apply floor_cell in H1; auto. congruence. Qed.

Lemma step_lemma : forall s image p st, proper s -> stack_shape s image -> (seen s p -> in_scan s p) ->
  exists b h : bool, quant_step image (of_setup s) st p = Ok (if b then (fst st + 1)%Z else fst st, if h then (snd st + 1)%Z else snd st) /\
    (b = true <-> seen s p) /\ (h = true <-> found s image p).
Proof.
  intros s image p st (Dx & Dy & Do) Sh Sc.
  assert (No : ~ seen s p -> exists b h : bool, Ok st = Ok (if b then (fst st + 1)%Z else fst st, if h then (snd st + 1)%Z else snd st) /\ (b = true <-> seen s p) /\ (h = true <-> found s image p)).
  { intros N. exists false, false. destruct st as [s1 s2]. cbn [fst snd]. split; auto. split; split; try discriminate; intros H; [contradiction|]. destruct H as (z & y & x & L & _). destruct N. exists y, x. exact L. }
  unfold quant_step, of_setup. cbn [q_base q_inv q_clip q_bsp fst snd].
  destruct (f_x p) as [px|] eqn:EX.
  2: { destruct (match f_y p with Some y => _ | None => false end); apply No; intros (y & x & a & c & A & _); congruence. }
  destruct (f_y p) as [py|] eqn:EY.
  2: { destruct (negb (0 <=? _)%Z); [|destruct (negb (_ <? _)%Z)]; apply No; intros (y & x & a & c & A & B & _); congruence. }
  destruct (qlt _ _) eqn:EB.
  { apply qlt_true in EB. apply bar_iff in EB. apply No. intros (y & x & a & c & A & B & C & D & E & F & G). rewrite EY in B. injection B as <-. contradiction. }
  assert (NB : ~ (s_bar s - s_width s / 2 < py < s_bar s + s_width s / 2)). { intros H. apply bar_iff in H. apply qlt_true in H. congruence. }
  set (xf := Qfloor _). assert (CX : in_cell (s_x0 s) (s_dx s) xf px) by (apply floor_cell; auto).
  assert (Nx : ~ (0 <= xf < s_cols s)%Z -> ~ seen s p).
  { intros N (y & x & a & c & A & B & C & D & E & F & G). rewrite EX in A. injection A as <-. rewrite <- (cell_unique _ _ _ _ _ Dx CX E) in C. contradiction. }
  destruct (0 <=? xf)%Z eqn:X0; cbn [negb]; [|apply No, Nx; lia]. destruct (xf <? s_cols s)%Z eqn:X1; cbn [negb]; [|apply No, Nx; lia].
  set (yf := Qfloor _). assert (CY : in_cell (s_y0 s) (s_dy s) yf py) by (apply floor_cell; auto).
  assert (Ny : ~ (0 <= yf < s_rows s)%Z -> ~ seen s p).
  { intros N (y & x & a & c & A & B & C & D & E & F & G). rewrite EY in B. injection B as <-. rewrite <- (cell_unique _ _ _ _ _ Dy CY F) in D. contradiction. }
  destruct (0 <=? yf)%Z eqn:Y0; cbn [negb]; [|apply No, Ny; lia]. destruct (yf <? s_rows s)%Z eqn:Y1; cbn [negb]; [|apply No, Ny; lia].
  assert (La : lands s p yf xf). { exists px, py. repeat split; auto; try lia. } assert (Se : seen s p) by (now exists yf, xf). destruct (Sc Se) as (z & Hz & Cz).
  replace (Qfloor ((f_ome p - s_o0 s) * / s_do s)) with z by (symmetry; apply floor_cell; auto).
  destruct (stack_ok s image z yf xf Sh Hz) as (b & B1 & B2); [lia|lia|]. rewrite B1. cbn [rbind]. exists true, b. split; [reflexivity|]. split; [tauto|]. rewrite B2. split.
  - intros Br. exists z, yf, xf. auto.
  - intros (z' & y' & x' & L' & Hz' & Cz' & Br). rewrite (cell_unique _ _ _ _ _ Do Cz Cz'). destruct L' as (a & c & A & B & C & D & E & F & G).
    rewrite EX in A. injection A as <-. rewrite EY in B. injection B as <-. now rewrite (cell_unique _ _ _ _ _ Dx CX E), (cell_unique _ _ _ _ _ Dy CY F).
Qed.

(** ** the whole loop *)
Lemma loop_lemma : forall s image pts a b, proper s -> stack_shape s image -> (forall p, In p pts -> seen s p -> in_scan s p) ->
  exists sel hit, marks (seen s) pts sel /\ marks (found s image) pts hit /\
    fold_left (fun acc p => do st <- acc; quant_step image (of_setup s) st p) pts (Ok (a, b)) = Ok (a + how_many sel, b + how_many hit)%Z.
Proof.
  intros s image pts a b Pr Sh. revert a b. induction pts as [|p pts IH]; intros a b H.
  - exists [], []. repeat split; try constructor. cbn. unfold how_many. cbn. do 2 f_equal; lia.
  - destruct (step_lemma s image p (a, b) Pr Sh) as (x & h & E & Ex & Eh); [intros; apply H; auto; now left|]. cbn [fst snd] in E.
    destruct (IH (if x then (a + 1)%Z else a) (if h then (b + 1)%Z else b)) as (sel & hit & M1 & M2 & F); [intros; apply H; auto; now right|].
    exists (x :: sel), (h :: hit). split; [constructor; auto|]. split; [constructor; auto|]. cbn [fold_left rbind]. rewrite E, F. unfold how_many. destruct x, h; cbn [filter length]; do 2 f_equal; lia.
Qed.
Lemma marks_unique : forall (A : Type) (P : A -> Prop) l b1 b2, marks P l b1 -> marks P l b2 -> b1 = b2.
Proof.
  intros A P l b1 b2 H. revert b2. induction H as [|x b l b1 Hx H IH]; intros b2 H2; inversion H2; subst; auto. f_equal; [|now apply IH]. destruct b, y; auto; [|].
  - symmetry. apply H3, Hx. reflexivity.
  - apply Hx, H3. reflexivity.
Qed.
Lemma marks_le : forall (A : Type) (P Q : A -> Prop) l b1 b2, (forall x, P x -> Q x) -> marks P l b1 -> marks Q l b2 -> (how_many b1 <= how_many b2)%Z.
Proof.
  intros A P Q l b1 b2 PQ H. revert b2. induction H as [|x b l b1 Hx H IH]; intros b2 H2; inversion H2; subst; [lia|]. specialize (IH _ H5). unfold how_many in *. cbn [filter].
  destruct b; [|destruct y; cbn [length]; lia]. assert (y = true) by (apply H3, PQ, Hx; reflexivity). subst. cbn [length]. lia.
Qed.
Lemma found_seen : forall s image p, found s image p -> seen s p. Proof. intros s image p (z & y & x & L & _). now exists y, x. Qed.
Lemma marks_perm : forall (A : Type) (P : A -> Prop) l1 l2 b1 b2, Permutation l1 l2 -> marks P l1 b1 -> marks P l2 b2 -> how_many b1 = how_many b2.
Proof.
  intros A P l1 l2 b1 b2 H M1. assert (E : exists c, marks P l2 c /\ how_many c = how_many b1).
  { clear b2. revert b1 M1. induction H as [|x l l' H IH|x y l|l l' l'' H1 IH1 H2 IH2]; intros b1 M1.
    - exists b1. auto.
    - inversion M1; subst. destruct (IH _ H4) as (c & C1 & C2). exists (y :: c). split; [constructor; auto|]. unfold how_many in *. cbn [filter]. destruct y; cbn [length]; lia.
    - inversion M1; subst. inversion H3; subst. exists (y1 :: y0 :: l'0). split; [constructor; auto; constructor; auto|]. unfold how_many. cbn [filter]. destruct y0, y1; cbn [length]; lia.
    - destruct (IH1 _ M1) as (c & C1 & C2). destruct (IH2 _ C1) as (d & D1 & D2). exists d. split; auto. congruence. }
  intros M2. destruct E as (c & C1 & C2). rewrite <- C2. f_equal. eapply marks_unique; eauto.
Qed.
