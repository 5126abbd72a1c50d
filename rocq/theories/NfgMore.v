From Coq Require Import QArith Qround Lqa.
From Verif Require Import Prelude NfModel NfSpec NfProofs NfLoop NfGather NfgModel NfgSpec NfgProofs.
Local Open Scope Q_scope.

(** ** stitching *)
Section Stitch.
Variables (L r c n : nat).
Definition partial_out (F : nat -> vol) (k : nat) : vol := flat_map F (seq 0 k) ++ zeros (L * n - k * L) r c.
Lemma zeros_skip : forall a b, skipn a (zeros b r c) = zeros (b - a) r c.
Proof. intros a b. unfold zeros. revert b. induction a as [|a IH]; intros [|b]; cbn [skipn repeat Nat.sub]; auto. Qed.
Lemma set_layers_ok : forall F k, (forall i, vol_shape L r c (F i)) -> (k < n)%nat -> set_layers L r c (partial_out F k) (k * L) (F k) = Ok (partial_out F (S k)).
Proof.
  intros F k H K. unfold set_layers. rewrite (proj2 (shape_iff L r c (F k)) (H k)). f_equal. unfold partial_out.
  assert (E : length (flat_map F (seq 0 k)) = (k * L)%nat) by (rewrite (flat_length _ _ _ L); [now rewrite seq_length|intros; apply H]).
  rewrite firstn_app, E, Nat.sub_diag. cbn [firstn]. rewrite app_nil_r, firstn_all2 by lia. rewrite skipn_app, skipn_all2 by lia. cbn [app]. rewrite E, zeros_skip.
  rewrite seq_S, flat_map_app. cbn [flat_map Nat.add]. rewrite app_nil_r, <- app_assoc. do 3 f_equal. lia.
Qed.
End Stitch.

Lemma index_nat : forall (A : Type) (l : list A) k, py_index l (Z.of_nat k) = match nth_error l k with Some x => Ok x | None => Err IndexError end.
Proof. intros A l k. unfold py_index. destruct (Z.of_nat k <? 0)%Z eqn:E; [lia|]. now rewrite E, Nat2Z.id. Qed.
Lemma flat_at3 : forall (F : nat -> vol) L r c n ii l i j, (forall k, vol_shape L r c (F k)) -> (ii < n)%nat -> (l < L)%nat -> at3 (flat_map F (seq 0 n)) (ii * L + l) i j = at3 (F ii) l i j.
Proof.
  intros F L r c n ii l i j H Hi Hl. unfold at3. rewrite (flat_nth _ _ F L _ _ _ ii); auto; [intros; apply H|]. rewrite (nth_error_nth' _ 0%nat) by (now rewrite seq_length). now rewrite seq_nth.
Qed.
Lemma stitch_lemma : forall scans L r c vol_spacing top_down shifts, (0 < L)%nat -> (0 < r)%nat -> scans <> [] -> Forall (scan_shape L r c) scans ->
  vol_shifts vol_spacing (length scans) = Ok shifts -> (length scans <= length shifts)%nat ->
  exists out, output_grain_map scans vol_spacing top_down = Ok out /\
    forall ii l i j s sh, (l < L)%nat -> (ii < length scans)%nat -> nth_error scans (source (length scans) top_down ii) = Some s -> nth_error shifts ii = Some sh ->
      at3 (v_grain out) (ii * L + l) i j = at3 (v_grain s) l i j /\ at3 (v_conf out) (ii * L + l) i j = at3 (v_conf s) l i j /\
      at3 (v_x out) (ii * L + l) i j = at3 (v_x s) l i j /\ at3 (v_z out) (ii * L + l) i j = at3 (v_z s) l i j /\
      at3 (v_y out) (ii * L + l) i j = match at3 (v_y s) l i j with Some y => Some (y + sh) | None => None end.
Proof.
  intros scans L r c vol_spacing top_down shifts HL Hr Hne Hs Hv Hlen. unfold output_grain_map. rewrite Hv. cbn [rbind]. set (n := length scans) in *.
  assert (F0 : exists s0, py_index scans 0 = Ok s0 /\ scan_shape L r c s0). { rewrite Forall_forall in Hs. destruct scans as [|s0 t]; [congruence|]. exists s0. split; [reflexivity|apply Hs; now left]. }
  destruct F0 as (s0 & E0 & S0). rewrite E0. cbn [rbind]. destruct S0 as [[SL SR] _]. rewrite SL.
  assert (ER : match v_grain s0 with [] => 0 | la :: _ => length la end%nat = r). { destruct (v_grain s0) as [|la t]; [cbn in SL; lia|]. now inversion SR. }
  assert (EC : match v_grain s0 with [] => 0 | la :: _ => match la with [] => 0 | ro :: _ => length ro end end%nat = c). { destruct (v_grain s0) as [|la t]; [cbn in SL; lia|]. inversion SR as [|x y [H1 H2] H3]. destruct la as [|ro la]; [cbn in H1; lia|]. now inversion H2. }
  rewrite ER, EC.
  (* the volumes of block ii, made total *)
  set (sc := fun ii => match nth_error scans (source n top_down ii) with Some s => s | None => s0 end).
  set (shf := fun ii => match nth_error shifts ii with Some x => x | None => 0 end).
  assert (SS : forall ii, scan_shape L r c (sc ii)). { intros ii. unfold sc. rewrite Forall_forall in Hs. destruct (nth_error scans (source n top_down ii)) eqn:E; [apply Hs; eapply nth_error_In; eauto|]. apply Hs. unfold py_index in E0. cbn in E0. destruct scans as [|q t]; [discriminate|]. injection E0 as <-. now left. }
  assert (Sg : forall ii, vol_shape L r c (v_grain (sc ii))) by (intros; apply SS). assert (Sc : forall ii, vol_shape L r c (v_conf (sc ii))) by (intros; apply SS). assert (Sx : forall ii, vol_shape L r c (v_x (sc ii))) by (intros; apply SS).
  assert (Sz : forall ii, vol_shape L r c (v_z (sc ii))) by (intros; apply SS). assert (Sy : forall ii, vol_shape L r c (shifted (v_y (sc ii)) (shf ii))) by (intros; apply shifted_shape, SS).
  set (P := fun F k => partial_out L r c n F k).
  assert (LOOP : forall k, (k <= n)%nat -> fold_left (fun acc ii => do out <- acc;
    do s <- py_index scans (if top_down then Z.of_nat n - 1 - Z.of_nat ii else Z.of_nat ii)%Z;
    do g <- set_layers L r c (v_grain out) (ii * L) (v_grain s);
    do cf <- set_layers L r c (v_conf out) (ii * L) (v_conf s);
    do x <- set_layers L r c (v_x out) (ii * L) (v_x s);
    do zz <- set_layers L r c (v_z out) (ii * L) (v_z s);
    do sh <- py_index shifts (Z.of_nat ii);
    do y <- set_layers L r c (v_y out) (ii * L) (shifted (v_y s) sh);
    Ok (SCAN g cf x y zz)) (seq 0 k) (Ok (SCAN (zeros (L * n) r c) (zeros (L * n) r c) (zeros (L * n) r c) (zeros (L * n) r c) (zeros (L * n) r c))) =
    Ok (SCAN (P (fun i => v_grain (sc i)) k) (P (fun i => v_conf (sc i)) k) (P (fun i => v_x (sc i)) k) (P (fun i => shifted (v_y (sc i)) (shf i)) k) (P (fun i => v_z (sc i)) k))).
  { induction k as [|k IH]; intros K.
    - cbn [seq fold_left]. unfold P, partial_out. cbn [seq flat_map app]. replace (L * n - 0 * L)%nat with (L * n)%nat by lia. reflexivity.
    - rewrite seq_S, fold_left_app, IH by lia. cbn [fold_left rbind Nat.add].
      assert (IX : (if top_down then Z.of_nat n - 1 - Z.of_nat k else Z.of_nat k)%Z = Z.of_nat (source n top_down k)) by (unfold source; destruct top_down; lia). rewrite IX, index_nat.
      assert (Es : nth_error scans (source n top_down k) = Some (sc k)). { unfold sc. destruct (nth_error scans (source n top_down k)) eqn:E; auto. apply nth_error_None in E. unfold source in E. fold n in E. destruct top_down; lia. }
      rewrite Es. cbn [rbind]. cbn [v_grain v_conf v_x v_y v_z]. unfold P. rewrite (set_layers_ok L r c n (fun i => v_grain (sc i))) by (auto; lia). cbn [rbind]. rewrite (set_layers_ok L r c n (fun i => v_conf (sc i))) by (auto; lia). cbn [rbind].
      rewrite (set_layers_ok L r c n (fun i => v_x (sc i))) by (auto; lia). cbn [rbind]. rewrite (set_layers_ok L r c n (fun i => v_z (sc i))) by (auto; lia). cbn [rbind]. rewrite index_nat.
      assert (Eh : nth_error shifts k = Some (shf k)). { unfold shf. destruct (nth_error shifts k) eqn:E; auto. apply nth_error_None in E. lia. } rewrite Eh. cbn [rbind].
      rewrite (set_layers_ok L r c n (fun i => shifted (v_y (sc i)) (shf i))) by (auto; lia). reflexivity. }
  eexists. split; [apply (LOOP n); lia|]. intros ii l i j s sh Hl Hi Es Eh. cbn [v_grain v_conf v_x v_y v_z]. unfold P, partial_out. replace (L * n - n * L)%nat with 0%nat by lia. cbn [zeros repeat]. rewrite !app_nil_r.
  assert (sc ii = s) by (unfold sc; now rewrite Es). assert (shf ii = sh) by (unfold shf; now rewrite Eh).
  rewrite (flat_at3 (fun i => v_grain (sc i)) L r c), (flat_at3 (fun i => v_conf (sc i)) L r c), (flat_at3 (fun i => v_x (sc i)) L r c), (flat_at3 (fun i => v_z (sc i)) L r c), (flat_at3 (fun i => shifted (v_y (sc i)) (shf i)) L r c) by auto.
  rewrite H, H0, shifted_at. repeat split.
Qed.

(** ** the scan of a parameter *)
Section Scan.
Context {M C : Type}.
Variable make : Q * Q * Q -> M.
Variable test : @expt M -> result C.
Definition td_ok (e0 : @expt M) (which : Z) (td : Q * Q * Q) : Prop :=
  let '(x, y, z) := e_tvec e0 in let '(d0, d1, d2) := td in (which <> 1%Z -> d0 = x) /\ (which <> 2%Z -> d1 = y) /\ (which <> 0%Z -> d2 = z).
Definition ex_ok (e0 : @expt M) (which : Z) (e : @expt M) : Prop :=
  e_tilts e = e_tilts e0 /\ (which <> 6%Z -> e_range e = e_range e0 /\ e_period e = e_period e0 /\ e_edges e = e_edges e0 /\ e_base2 e = e_base2 e0).
Lemma trial_lemma : forall e0 which p td e e' td', td_ok e0 which td -> ex_ok e0 which e -> set_trial make e0 which p td e = Ok (e', td') ->
  with_parm make e0 which p e' /\ td_ok e0 which td' /\ ex_ok e0 which e'.
Proof.
  intros e0 which p [[d0 d1] d2] e e' td' T [X1 X2] H. unfold set_trial in H. unfold td_ok, with_parm, ex_ok in *. destruct (e_tvec e0) as [[x y] z] eqn:Ev. destruct (e_tilts e0) as [[tx ty] tz] eqn:Et. destruct T as (T0 & T1 & T2).
  assert (V : (if (which =? 1)%Z then p else d0, if (which =? 2)%Z then p else d1, if (which =? 0)%Z then p else d2) = (if (which =? 1)%Z then p else x, if (which =? 2)%Z then p else y, if (which =? 0)%Z then p else z)).
  { destruct (which =? 0)%Z eqn:A; destruct (which =? 1)%Z eqn:B; destruct (which =? 2)%Z eqn:D; rewrite ?T0, ?T1, ?T2 by lia; try reflexivity; lia. }
  assert (R : (if (which =? 3)%Z then make (p, ty, tz) else if (which =? 4)%Z then make (tx, p, tz) else if (which =? 5)%Z then make (tx, ty, p) else make (tx, ty, tz)) =
              make (if (which =? 3)%Z then p else tx, if (which =? 4)%Z then p else ty, if (which =? 5)%Z then p else tz)).
  { destruct (which =? 3)%Z eqn:A; destruct (which =? 4)%Z eqn:B; destruct (which =? 5)%Z eqn:D; try reflexivity; lia. }
  rewrite V, R in H. destruct (which =? 6)%Z eqn:E6.
  - destruct (map (fun x => x - p) (e_edges e0)) as [|b t] eqn:Em; [discriminate|]. injection H as <- <-. cbn [e_tilts e_tvec e_rmat e_range e_period e_edges e_base2]. split; [|split; [|split; [auto|intros; lia]]].
    + split; auto. split; auto. split; auto. split; [intros; lia|]. intros _. repeat split. exists b. split; reflexivity.
    + repeat split; intros N; [destruct (which =? 1)%Z eqn:Z|destruct (which =? 2)%Z eqn:Z|destruct (which =? 0)%Z eqn:Z]; auto; lia.
  - injection H as <- <-. cbn [e_tilts e_tvec e_rmat e_range e_period e_edges e_base2]. split; [|split; [|split; auto]].
    + split; auto. split; auto. split; auto. split; auto. intros; lia.
    + repeat split; intros N; [destruct (which =? 1)%Z eqn:Z|destruct (which =? 2)%Z eqn:Z|destruct (which =? 0)%Z eqn:Z]; auto; lia.
Qed.
Lemma scan_lemma : forall e0 which ps td e cs e', td_ok e0 which td -> ex_ok e0 which e -> scan_loop make test e0 which ps td e = Ok (cs, e') ->
  length cs = length ps /\ (forall j p c, nth_error ps j = Some p -> nth_error cs j = Some c -> exists e1, with_parm make e0 which p e1 /\ test e1 = Ok c) /\
  (ps = [] -> e' = e) /\ (forall p, nth_error (rev ps) 0 = Some p -> with_parm make e0 which p e').
Proof.
  intros e0 which. induction ps as [|p ps IH]; intros td e cs e' T X H; cbn [scan_loop] in H.
  - injection H as <- <-. split; [reflexivity|]. split; [intros [|j] p c E; discriminate|]. split; auto. intros p E; discriminate.
  - destruct (set_trial make e0 which p td e) as [[e1 td1]|] eqn:S1; [|discriminate]. cbn [rbind fst snd] in H. destruct (test e1) as [c1|] eqn:Te; [|discriminate]. cbn [rbind] in H.
    destruct (scan_loop make test e0 which ps td1 e1) as [[cs1 e2]|] eqn:L1; [|discriminate]. cbn [rbind fst snd] in H. injection H as <- <-. destruct (trial_lemma _ _ _ _ _ _ _ T X S1) as (W & T1 & X1). destruct (IH _ _ _ _ T1 X1 L1) as (A & B & D & G).
    split; [cbn; now rewrite A|]. split; [|split; [discriminate|]].
    + intros [|j] q c E1 E2; cbn [nth_error] in E1, E2; [injection E1 as <-; injection E2 as <-; exists e1; auto|]. eapply B; eauto.
    + intros q E. cbn [rev] in E. destruct ps as [|p' ps']; [cbn in E; injection E as <-; rewrite (D eq_refl); exact W|]. rewrite nth_error_app1 in E by (rewrite rev_length; cbn; lia). now apply G.
Qed.
End Scan.
