(** The eleven Laue groups: exact coordinates in Z[sqrt 2, sqrt 3] and the complete finite check of the group laws. *)
From Coq Require Import Reals List Lra Psatz ZArith.
From Verif Require Import Prelude Lin TensorModel TensorSpec TensorProofs RotModel RotSpec RotProofs RotProofs2.
Local Open Scope R_scope.

(** a + b sqrt 2 + c sqrt 3 + d sqrt 2 sqrt 3 *)
Record zs := ZS { za : Z; zb : Z; zc : Z; zd : Z }.
Definition zval (x : zs) : R := IZR (za x) + IZR (zb x) * sqrt 2 + IZR (zc x) * sqrt 3 + IZR (zd x) * (sqrt 2 * sqrt 3).
Definition zadd x y := ZS (za x + za y) (zb x + zb y) (zc x + zc y) (zd x + zd y).
Definition zopp x := ZS (- za x) (- zb x) (- zc x) (- zd x).
Definition zmul x y := ZS (za x * za y + 2 * (zb x * zb y) + 3 * (zc x * zc y) + 6 * (zd x * zd y))
  (za x * zb y + zb x * za y + 3 * (zc x * zd y) + 3 * (zd x * zc y))
  (za x * zc y + zc x * za y + 2 * (zb x * zd y) + 2 * (zd x * zb y))
  (za x * zd y + zd x * za y + zb x * zc y + zc x * zb y).
Definition zeqb x y := (za x =? za y)%Z && (zb x =? zb y)%Z && (zc x =? zc y)%Z && (zd x =? zd y)%Z.
Lemma zadd_val : forall x y, zval (zadd x y) = zval x + zval y.
Proof. intros. unfold zval, zadd. cbn [za zb zc zd]. rewrite !plus_IZR. ring. Qed.
Lemma zopp_val : forall x, zval (zopp x) = - zval x.
Proof. intros. unfold zval, zopp. cbn [za zb zc zd]. rewrite !opp_IZR. ring. Qed.
Lemma zmul_val : forall x y, zval (zmul x y) = zval x * zval y.
Proof. intros. unfold zval, zmul. cbn [za zb zc zd]. rewrite !plus_IZR, !mult_IZR. pose proof s2 as A. pose proof s3 as B. set (u := sqrt 2) in *. set (v := sqrt 3) in *. clearbody u v. ring [A B]. Qed.
Lemma zeqb_val : forall x y, zeqb x y = true -> zval x = zval y.
Proof. intros x y H. unfold zeqb in H. rewrite !andb_true_iff, !Z.eqb_eq in H. destruct H as (((A & B) & C) & D). unfold zval. now rewrite A, B, C, D. Qed.
(** upper bound of 1000 times the value *)
Definition up (k : Z) (lo hi : Z) : Z := if (0 <=? k)%Z then (k * hi)%Z else (k * lo)%Z.
Definition zupper (x : zs) : Z := (1000 * za x + up (zb x) 1414 1415 + up (zc x) 1732 1733 + up (zd x) 2449 2450)%Z.
Lemma sqrt_between : forall x lo hi, 0 <= lo -> 0 <= hi -> lo * lo <= x <= hi * hi -> lo <= sqrt x <= hi.
Proof. intros x lo hi L H [A B]. split; [rewrite <- (sqrt_square lo) by assumption|rewrite <- (sqrt_square hi) by assumption]; apply sqrt_le_1; nra. Qed.
Lemma up_bound : forall k lo hi v, IZR lo <= 1000 * v <= IZR hi -> 1000 * (IZR k * v) <= IZR (up k lo hi).
Proof.
  intros k lo hi v [A B]. unfold up. destruct (Z.leb_spec 0 k) as [K|K]; rewrite mult_IZR.
  - apply IZR_le in K. replace (1000 * (IZR k * v)) with (IZR k * (1000 * v)) by ring. apply Rmult_le_compat_l; lra.
  - apply IZR_lt in K. nra.
Qed.
Lemma zupper_val : forall x, 1000 * zval x <= IZR (zupper x).
Proof.
  intros x. unfold zval, zupper. rewrite !plus_IZR, mult_IZR.
  pose proof (sqrt_between 2 (1414 / 1000) (1415 / 1000) ltac:(lra) ltac:(lra) ltac:(lra)).
  pose proof (sqrt_between 3 (1732 / 1000) (1733 / 1000) ltac:(lra) ltac:(lra) ltac:(lra)).
  pose proof (sqrt_between 6 (2449 / 1000) (2450 / 1000) ltac:(lra) ltac:(lra) ltac:(lra)) as S6.
  replace 6 with (2 * 3) in S6 by ring. rewrite sqrt_mult in S6 by lra.
  pose proof (up_bound (zb x) 1414 1415 (sqrt 2) ltac:(lra)). pose proof (up_bound (zc x) 1732 1733 (sqrt 3) ltac:(lra)). pose proof (up_bound (zd x) 2449 2450 (sqrt 2 * sqrt 3) ltac:(lra)). lra.
Qed.

(** twice a quaternion *)
Record zq := ZQ { zw : zs; zx : zs; zy : zs; zz : zs }.
Definition qval (q : zq) : q4 := Q4 (zval (zw q) / 2) (zval (zx q) / 2) (zval (zy q) / 2) (zval (zz q) / 2).
Definition zqmul (p q : zq) : zq :=
  ZQ (zadd (zmul (zw p) (zw q)) (zopp (zadd (zadd (zmul (zx p) (zx q)) (zmul (zy p) (zy q))) (zmul (zz p) (zz q)))))
     (zadd (zadd (zmul (zw p) (zx q)) (zmul (zx p) (zw q))) (zadd (zmul (zy p) (zz q)) (zopp (zmul (zz p) (zy q)))))
     (zadd (zadd (zmul (zw p) (zy q)) (zopp (zmul (zx p) (zz q)))) (zadd (zmul (zy p) (zw q)) (zmul (zz p) (zx q))))
     (zadd (zadd (zmul (zw p) (zz q)) (zmul (zx p) (zy q))) (zadd (zopp (zmul (zy p) (zx q))) (zmul (zz p) (zw q)))).
Definition zconj (q : zq) := ZQ (zw q) (zopp (zx q)) (zopp (zy q)) (zopp (zz q)).
Definition zneg (q : zq) := ZQ (zopp (zw q)) (zopp (zx q)) (zopp (zy q)) (zopp (zz q)).
Definition zdouble (q : zq) := ZQ (zadd (zw q) (zw q)) (zadd (zx q) (zx q)) (zadd (zy q) (zy q)) (zadd (zz q) (zz q)).
Definition zqeqb (p q : zq) := zeqb (zw p) (zw q) && zeqb (zx p) (zx q) && zeqb (zy p) (zy q) && zeqb (zz p) (zz q).
Definition zdot (p q : zq) : zs := zadd (zadd (zmul (zw p) (zw q)) (zmul (zx p) (zx q))) (zadd (zmul (zy p) (zy q)) (zmul (zz p) (zz q))).
Lemma zqeqb_val : forall p q, zqeqb p q = true -> qval p = qval q.
Proof.
  intros p q H. unfold zqeqb in H. rewrite !andb_true_iff in H. destruct H as (((A & B) & C) & D). unfold qval.
  now rewrite (zeqb_val _ _ A), (zeqb_val _ _ B), (zeqb_val _ _ C), (zeqb_val _ _ D).
Qed.
Lemma zqmul_val : forall p q, qval (zqmul p q) = qscale 2 (hmul (qval p) (qval q)).
Proof. intros. unfold qval, zqmul, qscale, hmul. cbn [zw zx zy zz qw qx qy qz]. rewrite ?zadd_val, ?zopp_val, ?zadd_val, ?zmul_val. f_equal; field. Qed.
Lemma zneg_val : forall p, qval (zneg p) = negq (qval p).
Proof. intros. unfold qval, zneg, negq. cbn [zw zx zy zz qw qx qy qz]. rewrite !zopp_val. f_equal; field. Qed.
Lemma zconj_val : forall p, qval (zconj p) = Q4 (qw (qval p)) (- qx (qval p)) (- qy (qval p)) (- qz (qval p)).
Proof. intros. unfold qval, zconj. cbn [zw zx zy zz qw qx qy qz]. rewrite !zopp_val. f_equal; field. Qed.
Lemma zdouble_val : forall p, qval (zdouble p) = qscale 2 (qval p).
Proof. intros. unfold qval, zdouble, qscale. cbn [zw zx zy zz qw qx qy qz]. rewrite !zadd_val. f_equal; field. Qed.
Lemma zdot_val : forall p q, zval (zdot p q) = 4 * dot4 (qval p) (qval q).
Proof. intros. unfold zdot, dot4, qval. cbn [zw zx zy zz qw qx qy qz]. rewrite !zadd_val, !zmul_val. field. Qed.

Definition zi (n : Z) := ZS n 0 0 0.
Definition r2 (n : Z) := ZS 0 n 0 0.
Definition r3 (n : Z) := ZS 0 0 n 0.
Definition Zq w x y z := ZQ (zi w) (zi x) (zi y) (zi z).
Definition table (g : laue) : list zq :=
  match g with
  | Ci => [Zq 2 0 0 0]
  | C2h => [Zq 2 0 0 0; Zq 0 0 2 0]
  | D2h => [Zq 2 0 0 0; Zq 0 2 0 0; Zq 0 0 2 0; Zq 0 0 0 2]
  | C4h => [Zq 2 0 0 0; ZQ (r2 1) (zi 0) (zi 0) (r2 1); Zq 0 0 0 2; ZQ (r2 (-1)) (zi 0) (zi 0) (r2 1)]
  | D4h => [Zq 2 0 0 0; ZQ (r2 1) (zi 0) (zi 0) (r2 1); Zq 0 0 0 2; ZQ (r2 (-1)) (zi 0) (zi 0) (r2 1);
            Zq 0 2 0 0; Zq 0 0 2 0; ZQ (zi 0) (r2 1) (r2 1) (zi 0); ZQ (zi 0) (r2 (-1)) (r2 1) (zi 0)]
  | C3i => [Zq 2 0 0 0; ZQ (zi 1) (zi 0) (zi 0) (r3 1); ZQ (zi (-1)) (zi 0) (zi 0) (r3 1)]
  | D3d => [Zq 2 0 0 0; ZQ (zi 1) (zi 0) (zi 0) (r3 1); ZQ (zi (-1)) (zi 0) (zi 0) (r3 1);
            Zq 0 2 0 0; ZQ (zi 0) (zi (-1)) (r3 1) (zi 0); ZQ (zi 0) (zi (-1)) (r3 (-1)) (zi 0)]
  | C6h => [Zq 2 0 0 0; ZQ (r3 1) (zi 0) (zi 0) (zi 1); ZQ (zi 1) (zi 0) (zi 0) (r3 1); Zq 0 0 0 2; ZQ (zi (-1)) (zi 0) (zi 0) (r3 1); ZQ (r3 (-1)) (zi 0) (zi 0) (zi 1)]
  | D6h => [Zq 2 0 0 0; ZQ (r3 1) (zi 0) (zi 0) (zi 1); ZQ (zi 1) (zi 0) (zi 0) (r3 1); Zq 0 0 0 2; ZQ (zi (-1)) (zi 0) (zi 0) (r3 1); ZQ (r3 (-1)) (zi 0) (zi 0) (zi 1);
            Zq 0 2 0 0; ZQ (zi 0) (zi (-1)) (r3 1) (zi 0); ZQ (zi 0) (zi (-1)) (r3 (-1)) (zi 0);
            ZQ (zi 0) (r3 1) (zi 1) (zi 0); Zq 0 0 2 0; ZQ (zi 0) (r3 (-1)) (zi 1) (zi 0)]
  | Th => [Zq 2 0 0 0; Zq 0 2 0 0; Zq 0 0 2 0; Zq 0 0 0 2;
           Zq 1 1 1 1; Zq (-1) 1 1 1; Zq 1 (-1) 1 1; Zq (-1) (-1) 1 1; Zq 1 (-1) (-1) 1; Zq (-1) (-1) (-1) 1; Zq 1 1 (-1) 1; Zq (-1) 1 (-1) 1]
  | Oh => [Zq 2 0 0 0; ZQ (r2 1) (r2 1) (zi 0) (zi 0); Zq 0 2 0 0; ZQ (r2 (-1)) (r2 1) (zi 0) (zi 0);
           ZQ (r2 1) (zi 0) (r2 1) (zi 0); Zq 0 0 2 0; ZQ (r2 (-1)) (zi 0) (r2 1) (zi 0);
           ZQ (r2 1) (zi 0) (zi 0) (r2 1); Zq 0 0 0 2; ZQ (r2 (-1)) (zi 0) (zi 0) (r2 1);
           Zq 1 1 1 1; Zq (-1) 1 1 1; Zq 1 (-1) 1 1; Zq (-1) (-1) 1 1; Zq 1 (-1) (-1) 1; Zq (-1) (-1) (-1) 1; Zq 1 1 (-1) 1; Zq (-1) 1 (-1) 1;
           ZQ (zi 0) (r2 1) (r2 1) (zi 0); ZQ (zi 0) (r2 (-1)) (r2 1) (zi 0); ZQ (zi 0) (r2 1) (zi 0) (r2 1);
           ZQ (zi 0) (zi 0) (r2 1) (r2 1); ZQ (zi 0) (r2 (-1)) (zi 0) (r2 1); ZQ (zi 0) (zi 0) (r2 (-1)) (r2 1)]
  end.

(** ** the code's angle-axis pairs have these quaternions *)
Lemma sin_3PI4 : sin (3 * (PI / 4)) = sqrt 2 / 2.
Proof. replace (3 * (PI / 4)) with (PI - PI / 4) by field. rewrite sin_PI_x, sin_PI4. pose proof s2_pos. pose proof s2. apply Rmult_eq_reg_r with (sqrt 2 * 2); [|nra]. field_simplify; [|lra]. replace (sqrt 2 ^ 2) with 2 by (rewrite <- Rsqr_pow2, Rsqr_sqrt; lra). lra. Qed.
Lemma half_sqrt2 : 1 / sqrt 2 = sqrt 2 / 2.
Proof. exact i2. Qed.
Lemma aa_quat : forall t n k, 0 < k -> ten_epsf < k -> norm2 n = k * k ->
  sp_from_rotvec (vscale t (unitVector n)) = Q4 (cos (t / 2)) (sin (t / 2) * (vx n / k)) (sin (t / 2) * (vy n / k)) (sin (t / 2) * (vz n / k)).
Proof.
  intros t n k K T N. assert (E : norm n = k) by (unfold norm; rewrite N; apply sqrt_square; lra).
  assert (U : unitVector n = V3 (vx n / k) (vy n / k) (vz n / k)) by (unfold unitVector; rewrite E; destruct (Rle_dec k ten_epsf); [lra|reflexivity]).
  rewrite rotvec_quat; rewrite U; [reflexivity|]. unfold norm2, dot in *. cbn [vx vy vz]. replace (vx n / k * (vx n / k) + vy n / k * (vy n / k) + vz n / k * (vz n / k)) with ((vx n * vx n + vy n * vy n + vz n * vz n) / (k * k)) by (field; lra).
  rewrite N. field. lra.
Qed.
Lemma q4_ext : forall a b c d a' b' c' d', a = a' -> b = b' -> c = c' -> d = d' -> Q4 a b c d = Q4 a' b' c' d'. Proof. now intros; subst. Qed.
Ltac trig_const :=
  repeat match goal with
  | |- context [?x / 2] => match x with
     | 0 => replace (0 / 2) with 0 by field
     | piby2 => replace (piby2 / 2) with (PI / 4) by (unfold piby2; field)
     | piby2 * 3 => replace (piby2 * 3 / 2) with (3 * (PI / 4)) by (unfold piby2; field)
     | piby3 => replace (piby3 / 2) with (PI / 6) by (unfold piby3; field)
     | piby3 * 2 => replace (piby3 * 2 / 2) with (PI / 3) by (unfold piby3; field)
     | piby3 * 4 => replace (piby3 * 4 / 2) with (2 * (PI / 3)) by (unfold piby3; field)
     | piby3 * 5 => replace (piby3 * 5 / 2) with (PI - PI / 6) by (unfold piby3; field)
     end
  end.
Lemma sin_PI6' : sin (PI - PI / 6) = 1 / 2. Proof. rewrite sin_PI_x. apply sin_PI6. Qed.
Lemma cos_PI6' : cos (PI - PI / 6) = - (sqrt 3 / 2). Proof. rewrite Rtrigo_facts.cos_pi_minus. now rewrite cos_PI6. Qed.
Lemma cos_PI4' : cos (PI / 4) = sqrt 2 / 2. Proof. rewrite cos_PI4. apply half_sqrt2. Qed.
Lemma sin_PI4' : sin (PI / 4) = sqrt 2 / 2. Proof. rewrite sin_PI4. apply half_sqrt2. Qed.
Lemma cos_3PI4' : cos (3 * (PI / 4)) = - (sqrt 2 / 2). Proof. rewrite cos_3PI4. rewrite <- half_sqrt2. field. pose proof s2_pos. lra. Qed.
Lemma inv2 : / sqrt 2 = sqrt 2 / 2. Proof. pose proof half_sqrt2 as H. unfold Rdiv in H at 1. lra. Qed.
Lemma inv3 : / sqrt 3 = sqrt 3 / 3. Proof. pose proof i3 as H. unfold sqr3i in H. unfold Rdiv in H at 1. lra. Qed.
Ltac laue_one k :=
  rewrite (aa_quat _ _ k);
  [ | first [apply s2_pos | apply s3_pos | lra] | pose proof ten_epsf_small; try (pose proof s2; pose proof s2_pos; nra); try (pose proof s3; pose proof s3_pos; nra); lra
    | unfold norm2, dot, sq3by2; cbn [vx vy vz]; pose proof s2 as A; pose proof s3 as B; set (u := sqrt 2) in *; set (v := sqrt 3) in *; clearbody u v; nra];
  cbn [vx vy vz]; trig_const; rewrite ?cos_0, ?sin_0, ?cos_PI2, ?sin_PI2, ?cos_PI4', ?sin_PI4', ?cos_3PI4', ?sin_3PI4, ?cos_PI6, ?sin_PI6, ?cos_PI6', ?sin_PI6', ?cos_PI3, ?sin_PI3, ?cos_2PI3, ?sin_2PI3;
  unfold qval, zval, sq3by2, Zq, zi, r2, r3, Rdiv; cbn [zw zx zy zz za zb zc zd];
  rewrite ?inv2, ?inv3; pose proof s2 as A; pose proof s3 as B; set (u := sqrt 2) in *; set (v := sqrt 3) in *; clearbody u v; apply q4_ext; field [A B].
Ltac laue_row := first [laue_one 1 | laue_one (sqrt 2) | laue_one (sqrt 3)].
Lemma cons_ext : forall (A : Type) (a b : A) l m, a = b -> l = m -> a :: l = b :: m. Proof. now intros; subst. Qed.
Lemma table_ok : forall g, quatOfLaueGroup g = map qval (table g).
Proof.
  intros g. unfold quatOfLaueGroup. destruct g; cbn [angle_axis table map fst snd]; repeat (apply cons_ext; [laue_row|]); reflexivity.
Qed.

(** ** the group laws *)
Definition in_pm (q : zq) (l : list zq) : bool := existsb (fun r => zqeqb q r || zqeqb q (zneg r)) l.
Definition mul_closed (l : list zq) : bool := forallb (fun p => forallb (fun q => in_pm (zqmul p q) (map zdouble l)) l) l.
Definition inv_closed (l : list zq) : bool := forallb (fun p => in_pm (zconj p) l) l.
Definition units_ok (l : list zq) : bool := forallb (fun p => zeqb (zdot p p) (zi 4)) l.
Definition apart (p q : zq) : bool := (zupper (zdot p q) <? 4000)%Z && (zupper (zopp (zdot p q)) <? 4000)%Z.
Fixpoint distinct (l : list zq) : bool :=
  match l with
  | [] => true
  | p :: l' => forallb (apart p) l' && distinct l'
  end.
Lemma checks : forall g, mul_closed (table g) = true /\ inv_closed (table g) = true /\ units_ok (table g) = true /\ distinct (table g) = true /\ List.length (table g) = order_of g /\
  existsb (fun p => zqeqb p (Zq 2 0 0 0)) (table g) = true.
Proof. intros []; vm_compute; repeat split; reflexivity. Qed.
Lemma in_pm_rot : forall q l, in_pm q l = true -> In (rotMatOfQuat (qval q)) (map (fun r => rotMatOfQuat (qval r)) l).
Proof.
  intros q l H. unfold in_pm in H. apply existsb_exists in H as (r & Hr & E). apply in_map_iff. exists r. split; [|assumption].
  apply orb_true_iff in E as [E|E]; apply zqeqb_val in E; rewrite E; [reflexivity|]. rewrite zneg_val. symmetry. apply rot_neg.
Qed.
Lemma rots_table : forall g, rots (quatOfLaueGroup g) = map (fun r => rotMatOfQuat (qval r)) (table g).
Proof. intros g. unfold rots. rewrite table_ok, map_map. reflexivity. Qed.
Lemma table_unit : forall g p, In p (table g) -> unitq (qval p).
Proof.
  intros g p H. destruct (checks g) as (_ & _ & U & _). unfold units_ok in U. rewrite forallb_forall in U. apply U, zeqb_val in H. rewrite zdot_val in H.
  unfold unitq. change (dot4 (qval p) (qval p) = 1). unfold zval, zi in H. cbn [za zb zc zd] in H. lra.
Qed.
Lemma group_units : forall g, Forall unitq (quatOfLaueGroup g).
Proof. intros g. rewrite table_ok. apply Forall_forall. intros q H. apply in_map_iff in H as (p & <- & H). now apply (table_unit g). Qed.
Lemma group_lemma : forall g, is_group (rots (quatOfLaueGroup g)).
Proof.
  intros g. rewrite rots_table. destruct (checks g) as (M & I & _ & _ & _ & E). split; [|split].
  - apply existsb_exists in E as (p & Hp & E). apply zqeqb_val in E. apply in_map_iff. exists p. split; [|assumption]. rewrite E.
    unfold qval, zval, Zq, zi. cbn [zw zx zy zz za zb zc zd]. q_unfold. lin_unfold. f_equal; field.
  - intros a Ha. apply in_map_iff in Ha as (p & <- & Hp). split; [apply unit_rot; now apply (table_unit g)|].
    unfold inv_closed in I. rewrite forallb_forall in I. apply I, in_pm_rot in Hp. rewrite zconj_val, rot_conj in Hp. exact Hp.
  - intros a b Ha Hb. apply in_map_iff in Ha as (p & <- & Hp). apply in_map_iff in Hb as (q & <- & Hq).
    unfold mul_closed in M. rewrite forallb_forall in M. apply M in Hp. rewrite forallb_forall in Hp. apply Hp, in_pm_rot in Hq.
    rewrite map_map in Hq. clear E. apply in_map_iff in Hq as (r & E & Hr). rewrite zdouble_val, zqmul_val, !rot_scale, rot_hmul in E.
    apply in_map_iff. exists r. split; [|assumption].
    apply (f_equal (mscale (/ (2 * 2)))) in E. rewrite !mscale_mscale in E. replace (/ (2 * 2) * (2 * 2)) with 1 in E by field. now rewrite !mscale_1 in E.
Qed.
Lemma apart_rot : forall p q, unitq (qval p) -> unitq (qval q) -> apart p q = true -> rotMatOfQuat (qval p) <> rotMatOfQuat (qval q).
Proof.
  intros p q P Q H E. unfold apart in H. apply andb_true_iff in H as [A B]. apply Z.ltb_lt, IZR_lt in A. apply Z.ltb_lt, IZR_lt in B.
  pose proof (zupper_val (zdot p q)) as A'. pose proof (zupper_val (zopp (zdot p q))) as B'. rewrite zopp_val in B'. rewrite zdot_val in A', B'.
  destruct (rot_inj _ _ P Q E) as [G|G]; rewrite G in A', B'.
  - replace (dot4 (qval p) (qval p)) with 1 in A' by (symmetry; exact P). lra.
  - replace (dot4 (qval p) (negq (qval p))) with (- dot4 (qval p) (qval p)) in B' by (destruct (qval p); q_unfold; ring).
    replace (dot4 (qval p) (qval p)) with 1 in B' by (symmetry; exact P). lra.
Qed.
Lemma group_nodup : forall g, NoDup (rots (quatOfLaueGroup g)).
Proof.
  intros g. rewrite rots_table. destruct (checks g) as (_ & _ & _ & D & _). pose proof (table_unit g) as U. revert D U. generalize (table g).
  induction l as [|p l IH]; intros D U; cbn [map]; [constructor|]. cbn [distinct] in D. apply andb_true_iff in D as [D1 D2]. rewrite forallb_forall in D1. constructor.
  - intros I. apply in_map_iff in I as (q & E & Hq). apply (apart_rot p q); [apply U; now left|apply U; now right|now apply D1|now symmetry].
  - apply IH; auto. intros q Hq. apply U. now right.
Qed.
Lemma group_order : forall g, List.length (quatOfLaueGroup g) = order_of g.
Proof. intros g. rewrite table_ok, map_length. apply checks. Qed.

(** ** every element preserves the lattice *)
Record zm := ZM { y00 : zs; y01 : zs; y02 : zs; y10 : zs; y11 : zs; y12 : zs; y20 : zs; y21 : zs; y22 : zs }.
Definition mval (a : zm) : m3 := M3 (zval (y00 a)) (zval (y01 a)) (zval (y02 a)) (zval (y10 a)) (zval (y11 a)) (zval (y12 a)) (zval (y20 a)) (zval (y21 a)) (zval (y22 a)).
Definition z3 a b c d e f := zadd (zadd (zmul a b) (zmul c d)) (zmul e f).
Definition zmm (a b : zm) : zm :=
  ZM (z3 (y00 a) (y00 b) (y01 a) (y10 b) (y02 a) (y20 b)) (z3 (y00 a) (y01 b) (y01 a) (y11 b) (y02 a) (y21 b)) (z3 (y00 a) (y02 b) (y01 a) (y12 b) (y02 a) (y22 b))
     (z3 (y10 a) (y00 b) (y11 a) (y10 b) (y12 a) (y20 b)) (z3 (y10 a) (y01 b) (y11 a) (y11 b) (y12 a) (y21 b)) (z3 (y10 a) (y02 b) (y11 a) (y12 b) (y12 a) (y22 b))
     (z3 (y20 a) (y00 b) (y21 a) (y10 b) (y22 a) (y20 b)) (z3 (y20 a) (y01 b) (y21 a) (y11 b) (y22 a) (y21 b)) (z3 (y20 a) (y02 b) (y21 a) (y12 b) (y22 a) (y22 b)).
Lemma zmm_val : forall a b, mval (zmm a b) = mm (mval a) (mval b).
Proof. intros. unfold mval, zmm, z3. cbn [y00 y01 y02 y10 y11 y12 y20 y21 y22]. rewrite !zadd_val, !zmul_val. lin_unfold. reflexivity. Qed.
Definition zsub x y := zadd x (zopp y).
(** four times the rotation matrix *)
Definition zrot (q : zq) : zm :=
  let a := zw q in let b := zx q in let c := zy q in let d := zz q in
  let two x := zadd x x in
  let sq x := zmul x x in
  ZM (zsub (zadd (sq a) (sq b)) (zadd (sq c) (sq d))) (two (zsub (zmul b c) (zmul a d))) (two (zadd (zmul a c) (zmul b d)))
     (two (zadd (zmul a d) (zmul b c))) (zsub (zadd (sq a) (sq c)) (zadd (sq b) (sq d))) (two (zsub (zmul c d) (zmul a b)))
     (two (zsub (zmul b d) (zmul a c))) (two (zadd (zmul a b) (zmul c d))) (zsub (zadd (sq a) (sq d)) (zadd (sq b) (sq c))).
Lemma zrot_val : forall q, mval (zrot q) = mscale 4 (rotMatOfQuat (qval q)).
Proof. intros. unfold mval, zrot, zsub, mscale, rotMatOfQuat, qval. cbn [y00 y01 y02 y10 y11 y12 y20 y21 y22 m00 m01 m02 m10 m11 m12 m20 m21 m22 qw qx qy qz]. rewrite ?zadd_val, ?zopp_val, ?zadd_val, ?zopp_val, ?zmul_val. f_equal; field. Qed.
Definition basis2 (g : laue) : zm :=
  match g with
  | C3i | D3d | C6h | D6h => ZM (zi 2) (zi (-1)) (zi 0) (zi 0) (r3 1) (zi 0) (zi 0) (zi 0) (zi 2)
  | _ => ZM (zi 2) (zi 0) (zi 0) (zi 0) (zi 2) (zi 0) (zi 0) (zi 0) (zi 2)
  end.
Definition binv3 (g : laue) : zm :=
  match g with
  | C3i | D3d | C6h | D6h => ZM (zi 3) (r3 1) (zi 0) (zi 0) (r3 2) (zi 0) (zi 0) (zi 0) (zi 3)
  | _ => ZM (zi 3) (zi 0) (zi 0) (zi 0) (zi 3) (zi 0) (zi 0) (zi 0) (zi 3)
  end.
Definition div24 (x : zs) : bool := (za x mod 24 =? 0)%Z && (zb x =? 0)%Z && (zc x =? 0)%Z && (zd x =? 0)%Z.
Definition div24m (m : zm) : bool := forallb div24 [y00 m; y01 m; y02 m; y10 m; y11 m; y12 m; y20 m; y21 m; y22 m].
Lemma lattice_check : forall g, forallb (fun q => div24m (zmm (binv3 g) (zmm (zrot q) (basis2 g)))) (table g) = true.
Proof. intros []; vm_compute; reflexivity. Qed.
Lemma basis2_val : forall g, mval (basis2 g) = mscale 2 (lattice_basis g).
Proof. intros []; unfold mval, zval; cbn [basis2 lattice_basis y00 y01 y02 y10 y11 y12 y20 y21 y22 zi r3 za zb zc zd]; lin_unfold; f_equal; field. Qed.
Lemma binv3_val : forall g, mm (lattice_basis g) (mval (binv3 g)) = mscale 3 mI.
Proof. intros []; unfold mval, zval; cbn [binv3 lattice_basis y00 y01 y02 y10 y11 y12 y20 y21 y22 zi r3 za zb zc zd]; lin_unfold; pose proof s3 as A; set (v := sqrt 3) in *; clearbody v; f_equal; field [A]. Qed.
Lemma div24_val : forall x, div24 x = true -> zval x = 24 * IZR (za x / 24).
Proof.
  intros x H. unfold div24 in H. rewrite !andb_true_iff, !Z.eqb_eq in H. destruct H as (((A & B) & C) & D). unfold zval. rewrite B, C, D.
  rewrite (Z.div_mod (za x) 24) at 1 by lia. rewrite A. rewrite Z.add_0_r, mult_IZR. ring.
Qed.
Lemma lat_core : forall P b B3 r, mval P = mm B3 (mm (mscale 4 r) (mscale 2 b)) -> mm b B3 = mscale 3 mI -> div24m P = true -> preserves_lattice b r.
Proof.
  intros P b B3 r V I Hq. unfold div24m in Hq. rewrite forallb_forall in Hq.
  exists (M3 (IZR (za (y00 P) / 24)) (IZR (za (y01 P) / 24)) (IZR (za (y02 P) / 24)) (IZR (za (y10 P) / 24)) (IZR (za (y11 P) / 24)) (IZR (za (y12 P) / 24)) (IZR (za (y20 P) / 24)) (IZR (za (y21 P) / 24)) (IZR (za (y22 P) / 24))).
  split. { repeat eexists. }
  set (N := M3 _ _ _ _ _ _ _ _ _). assert (E : mval P = mscale 24 N).
  { unfold mval, N, mscale. cbn [m00 m01 m02 m10 m11 m12 m20 m21 m22]. rewrite !div24_val by (apply Hq; cbn; tauto). reflexivity. }
  clearbody N. rewrite E in V. clear E Hq P. apply (f_equal (mm b)) in V. rewrite mm_assoc, I in V. rewrite mscale_mm_l, mm_I_l, !mscale_mm_l, !mscale_mm_r, !mscale_mscale in V.
  apply (f_equal (mscale (/ 24))) in V. rewrite !mscale_mscale in V. replace (/ 24 * 24) with 1 in V by field. replace (/ 24 * (3 * 4 * 2)) with 1 in V by field. rewrite !mscale_1 in V. exact (eq_sym V).
Qed.
Lemma group_lattice : forall g r, In r (rots (quatOfLaueGroup g)) -> preserves_lattice (lattice_basis g) r.
Proof.
  intros g r H. rewrite rots_table in H. apply in_map_iff in H as (q & <- & Hq). pose proof (lattice_check g) as L. rewrite forallb_forall in L. apply L in Hq. clear L.
  refine (lat_core _ _ (mval (binv3 g)) _ _ (binv3_val g) Hq). now rewrite !zmm_val, zrot_val, basis2_val.
Qed.
