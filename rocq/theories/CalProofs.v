(** Lemmas about parameters of a calibration *)
From Coq Require Import Reals String List Bool ZArith Lia Lra.
From Verif Require Import Prelude Lin TensorModel XfModel RotModel RotSpec RotProofs RotProofs2 RigModel RigSpec RigProofs NamesModel NamesProofs BvModel BvSpec BvProps CalModel CalSpec.
Import ListNotations.
Local Open Scope R_scope.
Local Open Scope string_scope.
Local Open Scope list_scope.
Local Notation length := List.length.

(** ** dictionaries *)
Lemma get_in {V} (l : list (string * V)) n p : NoDup (map fst l) -> In (n, p) l -> dict_get l n = Some p.
Proof.
  induction l as [|[k q] l IH]; cbn [map fst dict_get In]; intros N I; [contradiction|]. inversion_clear N as [|? ? A B].
  destruct I as [E|I]; [injection E as -> ->; now rewrite String.eqb_refl|].
  destruct (String.eqb_spec n k) as [->|_]; [|auto]. exfalso. apply A. apply (in_map fst) in I. exact I.
Qed.
Lemma get_some_in {V} (l : list (string * V)) n p : dict_get l n = Some p -> In (n, p) l.
Proof. induction l as [|[k q] l IH]; cbn; [discriminate|]. destruct (String.eqb_spec n k) as [->|_]; intros E; [injection E as ->; now left|right; auto]. Qed.
Lemma get_none {V} (l : list (string * V)) n : dict_get l n = None <-> ~ In n (map fst l).
Proof.
  induction l as [|[k q] l IH]; cbn [dict_get map fst In]; [tauto|]. destruct (String.eqb_spec n k) as [->|D].
  - split; [discriminate|]. intros H. exfalso. apply H. now left.
  - rewrite IH. split; [intros H [E|E]; [congruence|contradiction]|tauto].
Qed.
Lemma pset_new d k p : ~ In k (map fst d) -> pset d k p = d ++ [(k, p)].
Proof.
  induction d as [|[k' q] d IH]; cbn [pset map fst In]; intros H; [reflexivity|]. destruct (String.eqb_spec k k') as [->|_]; [exfalso; apply H; now left|].
  cbn [app]. f_equal. apply IH. tauto.
Qed.
Lemma add_many_from l : forall d, NoDup (map fst d ++ map fst l) -> fold_left (fun d kp => pset d (fst kp) (snd kp)) l d = d ++ l.
Proof.
  induction l as [|[k p] l IH]; intros d N; cbn [fold_left fst snd]; [now rewrite app_nil_r|].
  cbn [map fst] in N. rewrite pset_new; [|intros I; apply NoDup_remove_2 in N; apply N; apply in_or_app; now left].
  rewrite IH; [now rewrite <- app_assoc|]. rewrite map_app. cbn [map fst]. now rewrite <- app_assoc.
Qed.
Lemma add_many_same l : NoDup (map fst l) -> add_many l = l.
Proof. intros N. unfold add_many. now rewrite add_many_from. Qed.
Lemma nodup_sep {A} (x : A) a b : NoDup (a ++ b) -> In x a -> In x b -> False.
Proof. induction a as [|y a IH]; cbn [app In]; intros N I J; [contradiction|]. inversion_clear N as [|? ? H N']. destruct I as [->|I]; [apply H; apply in_or_app; now right|auto]. Qed.
Lemma nodup_r {A} (a b : list A) : NoDup (a ++ b) -> NoDup b.
Proof. induction a as [|y a IH]; cbn [app]; intros N; [exact N|]. inversion_clear N. auto. Qed.
Lemma getv_in l n p : NoDup (map fst l) -> In (n, p) l -> getv l n = Ok (v_val p).
Proof. intros N I. unfold getv, getp. now rewrite (get_in l n p N I). Qed.
Lemma getv_value ps n x : getv ps n = Ok x <-> value ps n x.
Proof.
  unfold getv, getp, value. destruct (dict_get ps n) as [p|]; cbn [rbind]; split.
  - intros E. injection E as E. eauto.
  - intros (q & E & V). injection E as <-. now rewrite V.
  - discriminate.
  - intros (q & E & _). discriminate.
Qed.
Lemma names3_in l a b c v vary dx dy dz : NoDup (map fst l) -> incl (named3 (a, b, c) v vary dx dy dz) l -> get3 l (a, b, c) = Ok v.
Proof.
  intros N I. unfold get3, named3 in *. rewrite (getv_in l a (around (vx v) vary dx) N) by (apply I; cbn; tauto).
  rewrite (getv_in l b (around (vy v) vary dy) N) by (apply I; cbn; tauto). rewrite (getv_in l c (around (vz v) vary dz) N) by (apply I; cbn; tauto).
  cbn [rbind around v_val]. now destruct v.
Qed.
Lemma map_r_ok {A B} (f : A -> result B) (P : A -> B -> Prop) l : (forall x, In x l -> exists y, f x = Ok y /\ P x y) -> exists l', map_r f l = Ok l' /\ Forall2 P l l'.
Proof.
  induction l as [|x l IH]; intros H; [exists []; split; [reflexivity|constructor]|]. destruct (H x (or_introl eq_refl)) as (y & E & Q).
  destruct IH as (l' & E' & F); [intros z I; apply H; now right|]. exists (y :: l'). cbn [map_r]. rewrite E. cbn [rbind]. rewrite E'. split; [reflexivity|now constructor].
Qed.
Lemma map_r_inv {A B} (f : A -> result B) l : forall l', map_r f l = Ok l' -> Forall2 (fun x y => f x = Ok y) l l'.
Proof.
  induction l as [|x l IH]; intros l' E; cbn [map_r] in E; [injection E as <-; constructor|]. destruct (f x) as [y|] eqn:F; [|discriminate]. cbn [rbind] in E.
  destruct (map_r f l) as [t|] eqn:G; [|discriminate]. cbn [rbind] in E. injection E as <-. constructor; auto.
Qed.
Lemma map_r_ext {A B} (f g : A -> result B) l : (forall x, In x l -> f x = g x) -> map_r f l = map_r g l.
Proof. induction l as [|x l IH]; intros H; [reflexivity|]. cbn [map_r]. rewrite (H x (or_introl eq_refl)), IH; [reflexivity|]. intros z I. apply H. now right. Qed.
Lemma map_r_map {A B C} (f : B -> result C) (g : A -> B) l : map_r f (map g l) = map_r (fun x => f (g x)) l.
Proof. induction l as [|x l IH]; [reflexivity|]. cbn [map map_r]. now rewrite IH. Qed.
Lemma Forall2_eq {A} (P : A -> A -> Prop) l l' : (forall x y, P x y -> y = x) -> Forall2 P l l' -> l' = l.
Proof. intros H F. induction F as [|x y l l' Q F IH]; [reflexivity|]. rewrite IH. f_equal. auto. Qed.

(** ** angles *)
Lemma rad_deg x : radians (degrees x) = x.
Proof. unfold radians, degrees. pose proof PI_RGT_0. field. lra. Qed.
Lemma deg_rad x : degrees (radians x) = x.
Proof. unfold radians, degrees. pose proof PI_RGT_0. field. lra. Qed.
Lemma rad3_deg3 v : radians3 (degrees3 v) = v.
Proof. unfold radians3, degrees3. cbn [vx vy vz]. rewrite !rad_deg. now destruct v. Qed.
Lemma unit_beam b : norm b = 1 -> let '(azim, pola) := calc_angles_from_beam_vec b in calc_beam_vec azim pola = b.
Proof.
  intros N. pose proof (C161_direction_back b) as H. rewrite N in H. destruct (calc_angles_from_beam_vec b) as [a p]. pose proof eps_small. destruct H as [H _]; [lra|].
  rewrite <- H. destruct (calc_beam_vec a p) as [x y z]. unfold vscale. cbn [vx vy vz]. f_equal; ring.
Qed.

(** ** beams *)
Lemma beam_back l i kb : NoDup (map fst l) -> incl (flat_map (beam_params (i_beams i)) (i_beams i)) l -> In kb (i_beams i) -> norm (b_vec (snd kb)) = 1 ->
  update_beam l (i_beams i) kb = Ok kb.
Proof.
  intros N I H U. destruct kb as [k b]. cbn [snd] in U. unfold update_beam. pose proof (unit_beam (b_vec b) U) as D.
  assert (J : incl (beam_params (i_beams i) (k, b)) l). { intros x Hx. apply I. apply in_flat_map. eauto. }
  unfold beam_params in J. destruct (calc_angles_from_beam_vec (b_vec b)) as [az po]. set (pre := beam_prefix (i_beams i) k) in *.
  rewrite (getv_in l _ (around (b_energy b) false (2 / 10)) N) by (apply J; apply in_or_app; left; cbn; tauto). cbn [rbind around v_val].
  rewrite (getv_in l _ (around az false 1) N) by (apply J; apply in_or_app; left; cbn; tauto). cbn [rbind around v_val].
  rewrite (getv_in l _ (around po false 1) N) by (apply J; apply in_or_app; left; cbn; tauto). cbn [rbind around v_val].
  rewrite D. destruct (b_corr b) as [[ic sl]|] eqn:C.
  - rewrite (getv_in l _ (unbounded sl) N) by (apply J; apply in_or_app; right; cbn; tauto). cbn [rbind unbounded v_val].
    rewrite (getv_in l _ (unbounded ic) N) by (apply J; apply in_or_app; right; cbn; tauto). cbn [rbind unbounded v_val]. rewrite <- C. now destruct b.
  - cbn [rbind]. rewrite <- C. now destruct b.
Qed.
Lemma beams_back l i : NoDup (map fst l) -> incl (flat_map (beam_params (i_beams i)) (i_beams i)) l -> (forall k b, In (k, b) (i_beams i) -> norm (b_vec b) = 1) ->
  map_r (update_beam l (i_beams i)) (i_beams i) = Ok (i_beams i).
Proof.
  intros N I U. destruct (map_r_ok (update_beam l (i_beams i)) (fun x y => y = x) (i_beams i)) as (l' & E & F).
  - intros [k b] H. exists (k, b). split; [|reflexivity]. apply beam_back; auto. cbn. eauto.
  - rewrite E. f_equal. apply (Forall2_eq (fun x y => y = x)); auto.
Qed.
Lemma frame_back l i : NoDup (map fst l) -> incl (frame_params i) l ->
  getv l "instr_chi" = Ok (degrees (i_chi i)) /\ get3 l ("instr_tvec_x", "instr_tvec_y", "instr_tvec_z") = Ok (i_tvec i).
Proof.
  intros N I. split.
  - rewrite (getv_in l _ (around (degrees (i_chi i)) false 1) N); [reflexivity|]. apply I. cbn. tauto.
  - unfold get3. rewrite (getv_in l _ (unbounded (vx (i_tvec i))) N) by (apply I; cbn; tauto). rewrite (getv_in l _ (unbounded (vy (i_tvec i))) N) by (apply I; cbn; tauto).
    rewrite (getv_in l _ (unbounded (vz (i_tvec i))) N) by (apply I; cbn; tauto). cbn [rbind unbounded v_val]. now destruct (i_tvec i).
Qed.

Section S.
Variable fm : m3 -> q4.
Variable rv : q4 -> v3.
Variable rotvec : m3 -> v3.
Variable fe : string * bool -> v3 -> m3.
Variable ae : string * bool -> m3 -> v3.

Lemma norm4_unit q : unitq q -> norm4 q = 1.
Proof. intros U. unfold norm4, dot4. unfold unitq in U. rewrite U. apply sqrt_1. Qed.
(** setting the angles read from a panel gives its orientation back *)
Lemma angles_back c p : (match normalize_euler_convention c with None => True | Some n => converts fm rv fe ae n (p_rmat p) end) ->
  exists t, tilt_from_angles fm rv fe c (detector_angles_euler ae p c) = Ok t /\ make_rmat_of_expmap t = p_rmat p.
Proof.
  unfold tilt_from_angles, detector_angles_euler. destruct (normalize_euler_convention c) as [n|]; [|intros _; eexists; split; [reflexivity|reflexivity]].
  intros (E1 & U & E2 & T & E3). rewrite rad3_deg3, E1. destruct (proj1 (from_matrix_lemma fm (p_rmat p) (rmat_rotation p) (conj U E2)) T) as (U' & _ & E4).
  unfold expMapOfQuat, quat_to_scipy. rewrite (norm4_unit _ U'). destruct (Req_EM_T 1 0) as [Z|_]; [lra|]. cbn [rbind]. eexists. split; [reflexivity|].
  rewrite expmap_same. replace (qscale (/ 1) (quatOfRotMat fm (p_rmat p))) with (quatOfRotMat fm (p_rmat p)); [now apply E3|].
  rewrite Rinv_1. unfold qscale. destruct (quatOfRotMat fm (p_rmat p)) as [qa qb qc qd]. cbn [qw qx qy qz]. f_equal; ring.
Qed.
(** a half turn *)
Lemma half_turn c n p : normalize_euler_convention c = Some n -> fe n (ae n (p_rmat p)) = p_rmat p -> unitq (fm (p_rmat p)) /\ rotMatOfQuat (fm (p_rmat p)) = p_rmat p -> tr (p_rmat p) = -1 ->
  tilt_from_angles fm rv fe c (detector_angles_euler ae p c) = Err ValueError.
Proof.
  intros E E1 U T. unfold tilt_from_angles, detector_angles_euler. rewrite E, rad3_deg3, E1, (proj2 (from_matrix_lemma fm (p_rmat p) (rmat_rotation p) U) T).
  unfold expMapOfQuat, quat_to_scipy. assert (Z : norm4 qzero = 0). { unfold norm4, dot4, qzero. cbn [qw qx qy qz]. replace (0 * 0 + 0 * 0 + 0 * 0 + 0 * 0) with 0 by ring. apply sqrt_0. }
  rewrite Z. destruct (Req_EM_T 0 0); [reflexivity|contradiction].
Qed.

(** ** panels *)
Lemma all_det_in c l : forall ps nd, all_det_params ae c l = Ok ps -> In nd l -> exists pre p post, det_params ae c nd = Ok p /\ ps = pre ++ p ++ post.
Proof.
  induction l as [|x l IH]; intros ps nd E I; [contradiction|]. cbn [all_det_params] in E. destruct (det_params ae c x) as [p|] eqn:P; [|discriminate]. cbn [rbind] in E.
  destruct (all_det_params ae c l) as [q|] eqn:Q; [|discriminate]. cbn [rbind] in E. injection E as <-. destruct I as [->|I].
  - exists [], p, q. split; [exact P|reflexivity].
  - destruct (IH q nd eq_refl I) as (pre & p' & post & A & ->). exists (p ++ pre), p', post. split; [exact A|now rewrite !app_assoc].
Qed.
Definition vals_of (d : det) : list R := match d_dist d with Some v => v | None => [] end.
Lemma get_distortion l nd pre post : NoDup (map fst l) -> distortion_names_ok (map fst l) nd ->
  l = pre ++ map (fun nv => (fst nv, unbounded (snd nv))) (distortion_params (fst nd) (vals_of (snd nd))) ++ post ->
  exists o, update_distortion (fst nd) (map (fun np => (fst np, v_val (snd np))) l) (option_map (fun v => length v) (d_dist (snd nd))) = Ok o /\
            match o with Some vals => Some vals | None => d_dist (snd nd) end = d_dist (snd nd).
Proof.
  intros N [L K] E. set (vals := vals_of (snd nd)) in *. unfold vals_of in *. fold vals in L, K.
  assert (F : map (fun nv : string * R => fst (fst nv, unbounded (snd nv))) (distortion_params (fst nd) vals) = map (distortion_name (fst nd)) (seq 0 (length vals))).
  { cbn [fst]. apply distortion_params_fst. }
  assert (H : map (fun np => (fst np, v_val (snd np))) l = map (fun np => (fst np, v_val (snd np))) pre ++ distortion_params (fst nd) vals ++ map (fun np => (fst np, v_val (snd np))) post).
  { rewrite E, !map_app, map_map. f_equal. f_equal. cbn [fst snd unbounded v_val]. rewrite <- (map_id (distortion_params (fst nd) vals)) at 2. apply map_ext. now intros []. }
  assert (M : forall x, In x (map fst pre ++ map fst post) -> ~ In x (map (distortion_name (fst nd)) (seq 0 (length vals)))).
  { intros x Hx C. rewrite E, !map_app, map_map, F in N. apply in_app_or in Hx. destruct Hx as [Hx|Hx].
    - apply (nodup_sep x (map fst pre) _ N Hx). apply in_or_app. now left.
    - apply nodup_r in N. exact (nodup_sep x _ _ N C Hx). }
  assert (P : forall x, In x (map fst pre ++ map fst post) -> containsb (dash_to_us (fst nd) +++ "_distortion_param") x = false).
  { intros x Hx. destruct (containsb (dash_to_us (fst nd) +++ "_distortion_param") x) eqn:C; [|reflexivity]. exfalso. apply (M x Hx). apply K; [|exact C].
    rewrite E, !map_app. apply in_app_or in Hx. apply in_or_app. destruct Hx as [Hx|Hx]; [now left|right; apply in_or_app; now right]. }
  destruct vals as [|v0 vr] eqn:Ev.
  - exists None. split; [|reflexivity]. unfold update_distortion. rewrite H. cbn [distortion_params combine seq length map app].
    destruct (existsb _ _) eqn:X; [|reflexivity]. exfalso. apply existsb_exists in X. destruct X as ([x y] & I & C). cbn [fst] in C.
    rewrite <- map_app in I. apply in_map_iff in I. destruct I as ([x' p'] & Exy & I). cbn [fst snd] in Exy. injection Exy as -> _.
    rewrite (P x) in C; [discriminate|]. apply (in_map fst) in I. rewrite map_app in I. exact I.
  - assert (D : d_dist (snd nd) = Some (v0 :: vr)). { unfold vals in Ev. destruct (d_dist (snd nd)) as [w|]; [now subst w|discriminate]. }
    exists (Some (v0 :: vr)). rewrite D. split; [|reflexivity]. cbn [option_map]. rewrite H. apply distortion_roundtrip_lemma; [cbn [length] in *; lia|].
    intros x Hx. rewrite !map_map in Hx. cbn [fst] in Hx. apply P. exact Hx.
Qed.
Lemma det_back c l dp nd : NoDup (map fst l) -> det_params ae c nd = Ok dp -> (exists pre post, l = pre ++ dp ++ post) -> distortion_names_ok (map fst l) nd ->
  (match normalize_euler_convention c with None => True | Some n => converts fm rv fe ae n (p_rmat (d_panel (snd nd))) end) ->
  forall b, exists y, update_det fm rv fe c l (fst nd, Det (d_panel (snd nd)) (d_radius (snd nd)) (d_dist (snd nd)) b) = Ok y /\ same_det b nd y.
Proof.
  intros N E (pre & post & El) K C b. destruct nd as [name d]. cbn [fst snd] in *. unfold det_params in E. unfold update_det.
  destruct (param_names_euler_convention (dash_to_us name) c) as [[[n1 n2] n3]|] eqn:P; [|discriminate]. cbn [rbind] in E |- *. assert (E0 : forall (a b : params), Ok a = Ok b -> a = b) by (intros ? ? X; now injection X). apply E0 in E.
  set (A1 := named3 (n1, n2, n3) (detector_angles_euler ae (d_panel d) c) false 2 2 2) in *.
  set (A2 := named3 (tvec_names (dash_to_us name)) (p_tvec (d_panel d)) true 1 (1 / 2) 1) in *.
  set (A3 := match d_dist d with None => [] | Some vals => map (fun nv => (fst nv, unbounded (snd nv))) (distortion_params name vals) end) in *.
  set (A4 := match d_radius d with None => [] | Some r => [(dash_to_us name +++ "_radius", unbounded r)] end) in *.
  assert (I1 : incl A1 l). { intros x Hx. rewrite El, <- E. apply in_or_app; right; apply in_or_app; left. apply in_or_app. now left. }
  assert (I2 : incl A2 l). { intros x Hx. rewrite El, <- E. apply in_or_app; right; apply in_or_app; left. apply in_or_app; right; apply in_or_app; now left. }
  assert (I4 : incl A4 l). { intros x Hx. rewrite El, <- E. apply in_or_app; right; apply in_or_app; left. apply in_or_app; right; apply in_or_app; right. apply in_or_app. now right. }
  rewrite (names3_in l n1 n2 n3 _ _ _ _ _ N I1). cbn [rbind]. destruct (angles_back c (d_panel d) C) as (t & Et & Er). rewrite Et. cbn [rbind].
  unfold tvec_names in I2, A2 |- *. rewrite (names3_in l _ _ _ _ _ _ _ _ N I2). cbn [rbind d_radius d_dist d_panel d_bvec].
  assert (Rr : match d_radius d with None => Ok None | Some _ => do r <- getv l (dash_to_us name +++ "_radius"); Ok (Some r) end = Ok (d_radius d)).
  { unfold A4 in I4. destruct (d_radius d) as [r|]; [|reflexivity]. rewrite (getv_in l _ (unbounded r) N) by (apply I4; cbn; tauto). reflexivity. }
  rewrite Rr. cbn [rbind].
  destruct (get_distortion l (name, d) (pre ++ A1 ++ A2) (A4 ++ post) N K) as (o & Eo & Do).
  { rewrite El, <- E. cbn [fst snd]. unfold vals_of. replace (map (fun nv : string * R => (fst nv, unbounded (snd nv))) (distortion_params name match d_dist d with Some v => v | None => [] end)) with A3; [now rewrite <- !app_assoc|].
    unfold A3. destruct (d_dist d); reflexivity. }
  cbn [fst snd] in Eo, Do. rewrite Eo. cbn [rbind]. eexists. split; [reflexivity|]. unfold same_det, pose, p_rmat. cbn [fst snd d_panel d_radius d_dist d_bvec p_group p_tvec p_tilt].
  repeat split; auto. f_equal. exact Er.
Qed.
End S.
