From Coq Require Import String Ascii QArith Qabs Qround Lqa.
From Verif Require Import Prelude ConfigModel ConfigSpec ConfigProofs HcModel HcSpec.
Local Open Scope string_scope.
Local Notation length := List.length.

Lemma get_effect : forall cfg key dflt v, readable cfg key -> (cfg_get cfg key dflt = Ok v <-> in_effect cfg key dflt v).
Proof.
  intros cfg key dflt v (D & O). unfold in_effect. destruct (at_path cfg (split_colon key)) as [w|] eqn:E.
  - unfold cfg_get. rewrite (get_at dflt _ _ _ (split_nonempty key) E). split; [intros H; injection H as <-; now left|]. intros [H|[H _]]; congruence.
  - unfold cfg_get. rewrite (get_missing dflt _ _ (split_nonempty key) D O E). destruct dflt as [x|]; split; intros H.
    + injection H as <-. now right.
    + destruct H as [H|[_ H]]; congruence.
    + discriminate.
    + destruct H as [H|[_ H]]; discriminate.
Qed.
Lemma effect_ex : forall cfg key d, exists v, in_effect cfg key (Some d) v.
Proof. intros. unfold in_effect. destruct (at_path cfg (split_colon key)) as [w|]; [exists w; now left|exists d; now right]. Qed.
Lemma effect_unique : forall cfg key d v w, in_effect cfg key d v -> in_effect cfg key d w -> v = w.
Proof. unfold in_effect. intros cfg key d v w [A|[A B]] [C|[C D]]; congruence. Qed.
Lemma get_dflt : forall cfg key d, readable cfg key -> exists v, cfg_get cfg key (Some d) = Ok v /\ in_effect cfg key (Some d) v.
Proof. intros cfg key d R. destruct (effect_ex cfg key d) as [v E]. exists v. split; auto. now apply get_effect. Qed.
(** ** strings *)
Lemma str_app_assoc : forall a b c, (a ++ (b ++ c))%string = ((a ++ b) ++ c)%string.
Proof. induction a as [|x a IH]; intros; cbn; [reflexivity|]. now rewrite IH. Qed.
Lemma str_len_app : forall a b, String.length (a ++ b) = (String.length a + String.length b)%nat.
Proof. induction a as [|x a IH]; intros; cbn; [reflexivity|]. now rewrite IH. Qed.
Lemma str_app_inj_l : forall p a b, (p ++ a)%string = (p ++ b)%string -> a = b.
Proof. induction p as [|x p IH]; cbn; intros a b H; auto. injection H as H. auto. Qed.
Lemma str_app_inj_r : forall a b s, (a ++ s)%string = (b ++ s)%string -> a = b.
Proof.
  induction a as [|x a IH]; intros [|y b] s H; cbn in H; auto.
  - exfalso. assert (L : String.length s = String.length (String y (b ++ s))) by now rewrite <- H. cbn in L. rewrite str_len_app in L. lia.
  - exfalso. assert (L : String.length s = String.length (String x (a ++ s))) by now rewrite H. cbn in L. rewrite str_len_app in L. lia.
  - injection H as <- H. f_equal. eauto.
Qed.
Lemma split_at : forall c a b x y, free_of c a -> free_of c b -> (a ++ String c x)%string = (b ++ String c y)%string -> a = b /\ x = y.
Proof.
  intros c. induction a as [|u a IH]; intros [|v b] x y A B H; cbn in *.
  - injection H as ->. auto.
  - injection H as <- _. now destruct B.
  - injection H as -> _. now destruct A.
  - injection H as <- H. destruct (IH b x y) as [-> ->]; tauto.
Qed.
Lemma split_at_end : forall c a b x y, free_of c x -> free_of c y -> (a ++ String c x)%string = (b ++ String c y)%string -> a = b /\ x = y.
Proof.
  assert (N : forall c x p q, free_of c x -> x <> (p ++ String c q)%string).
  { intros c x p q F E. subst x. induction p as [|u p IH]; cbn in F; tauto. }
  intros c. induction a as [|u a IH]; intros [|v b] x y X Y H; cbn in *.
  - injection H as ->. auto.
  - injection H as <- H. exfalso. exact (N c x b y X H).
  - injection H as -> H. exfalso. exact (N c y a x Y (eq_sym H)).
  - injection H as <- H. destruct (IH b x y) as [-> ->]; auto.
Qed.
Lemma lower_small : forall c, lower_char c = small_letter c.
Proof. intros [[] [] [] [] [] [] [] []]; reflexivity. Qed.
Lemma same_lower : forall s t, same_but_case s t <-> lower s = lower t.
Proof.
  induction s as [|a s IH]; intros [|b t]; cbn [same_but_case lower]; try (split; [contradiction|discriminate]); [tauto|]. rewrite IH, !lower_small.
  split; [intros [-> ->]; reflexivity|]. intros H. injection H as H1 H2. auto.
Qed.
Lemma lower_fixed : forall c t, In t ["dbscan"; "ort-dbscan"; "sph-dbscan"; "fclusterdata"; "label"; "blob_log"; "blob_dog"] -> c = t -> lower c = c.
Proof. intros c t I ->. cbn in I. repeat (destruct I as [<-|I]; [reflexivity|]). destruct I. Qed.
Lemma existsb_in : forall s l, existsb (String.eqb s) l = true <-> In s l.
Proof.
  intros. rewrite existsb_exists. split.
  - intros (x & I & E). apply String.eqb_eq in E. now subst.
  - intros I. exists s. split; auto. apply String.eqb_refl.
Qed.
(** ** numbers *)
Lemma qtrunc_pos : forall q, (0 <= q)%Q -> (inject_Z (qtrunc q) <= q < inject_Z (qtrunc q + 1))%Q.
Proof.
  intros [n d] H. unfold qtrunc. cbn [Qnum Qden]. unfold Qle in H. cbn in H. rewrite Z.quot_div_nonneg by lia.
  unfold Qle, Qlt. cbn [Qnum Qden inject_Z]. pose proof (Z.div_mod n (Z.pos d)). pose proof (Z.mod_pos_bound n (Z.pos d)). split; nia.
Qed.
Lemma qtrunc_comp : forall p q, (p == q)%Q -> (0 <= p)%Q -> qtrunc p = qtrunc q.
Proof.
  intros p q E H. pose proof (qtrunc_pos p H) as [A B]. assert (H' : (0 <= q)%Q) by lra. pose proof (qtrunc_pos q H') as [C D].
  assert (X : (inject_Z (qtrunc p) < inject_Z (qtrunc q + 1))%Q) by lra. assert (Y : (inject_Z (qtrunc q) < inject_Z (qtrunc p + 1))%Q) by lra.
  rewrite <- Zlt_Qlt in X, Y. lia.
Qed.
Lemma qtrunc_int : forall z, (0 <= z)%Z -> qtrunc (inject_Z z) = z.
Proof. intros z H. unfold qtrunc, inject_Z. cbn [Qnum Qden]. apply Z.quot_1_r. Qed.
(** ** keys of dictionaries *)
Definition canon (v : yv) : option (string + Q) :=
  match v with YStr s => Some (inl s) | _ => match num_of v with Some q => Some (inr (Qred q)) | None => None end end.
Lemma qeqb_red : forall p q, Qeq_bool p q = true <-> Qred p = Qred q.
Proof.
  intros. rewrite Qeq_bool_iff. split; [apply Qred_complete|]. intros H. rewrite <- (Qred_correct p), <- (Qred_correct q), H. reflexivity.
Qed.
Lemma py_eq_canon : forall a b, hashable a = true -> hashable b = true -> (py_eq a b = true <-> canon a = canon b).
Proof.
  intros a b A B. destruct a, b; cbn in A, B; try discriminate; cbn [py_eq canon num_of]; rewrite ?qeqb_red;
    try (split; intros; congruence); try (split; intros; [discriminate|discriminate]).
  - rewrite String.eqb_eq. split; [congruence|]. intros H. injection H as <-. reflexivity.
Qed.
Section Dict.
Context {IMS : Type}.
Definition hkeys (d : list (yv * IMS)) : Prop := Forall (fun p => hashable (fst p) = true) d.
Lemma iset_hkeys : forall k v d, hashable k = true -> hkeys d -> hkeys (iset k v d).
Proof.
  intros k v d K D. induction D as [|[k' w] d H D IH]; cbn [iset]; [repeat constructor; auto|].
  destruct (py_eq k k'); constructor; auto.
Qed.
Lemma iget_iset : forall k k' v d, hashable k = true -> hashable k' = true -> hkeys d -> iget k (iset k' v d) = if py_eq k k' then Some v else iget k d.
Proof.
  intros k k' v d K K' D. induction D as [|[k0 w] d H D IH]; cbn [iset iget]; auto. cbn [fst] in H.
  destruct (py_eq k' k0) eqn:E; cbn [iget].
  - apply py_eq_canon in E; auto. destruct (py_eq k k0) eqn:F.
    + apply py_eq_canon in F; auto. assert (py_eq k k' = true) as -> by (apply py_eq_canon; auto; congruence). reflexivity.
    + destruct (py_eq k k') eqn:G; auto. apply py_eq_canon in G; auto. assert (py_eq k k0 = true) by (apply py_eq_canon; auto; congruence). congruence.
  - rewrite IH. destruct (py_eq k k0) eqn:F; auto. destruct (py_eq k k') eqn:G; auto.
    apply py_eq_canon in F, G; auto. assert (py_eq k' k0 = true) by (apply py_eq_canon; auto; congruence). congruence.
Qed.
Variable open_ims : string -> yv -> list (string * yv) -> result IMS.
Variable meta_panel : IMS -> option yv.
Variable file_ok : string -> result string.
Notation load_one := (load_one open_ims meta_panel file_ok).
Notation load_all := (load_all open_ims meta_panel file_ok).
Lemma load_one_hash : forall fmt s k v, load_one fmt s = Ok (k, v) -> hashable k = true.
Proof.
  intros fmt s k v H. unfold HcModel.load_one in H. destruct s; try discriminate. destruct (dget "file" d) as [[]|]; try discriminate.
  destruct (file_ok s) as [f|]; [|discriminate]. cbn [rbind] in H. destruct (dget "args" d) as [[]|]; try discriminate.
  destruct (open_ims f fmt d0) as [o|]; [|discriminate]. cbn [rbind] in H.
  match type of H with (do panel <- ?e; _) = _ => destruct e as [p|]; [|discriminate] end. cbn [rbind] in H. destruct (hashable p) eqn:E; [|discriminate]. injection H as <- <-. exact E.
Qed.
Lemma load_all_spec : forall fmt specs acc d res, hkeys acc -> load_all fmt specs acc = (d, res) ->
  exists done loaded rest, specs = (done ++ rest)%list /\ Forall2 (fun s kv => load_one fmt s = Ok kv) done loaded /\
    (res = Ok tt -> rest = []) /\ (forall e, res = Err e -> exists s r, rest = s :: r /\ load_one fmt s = Err e) /\ hkeys d /\
    (forall k, hashable k = true -> iget k d = match last_for k loaded with Some v => Some v | None => iget k acc end) /\ d = fold_left (fun a kv => iset (fst kv) (snd kv) a) loaded acc.
Proof.
  intros fmt. induction specs as [|s r IH]; intros acc d res A H; cbn [HcModel.load_all] in H.
  - injection H as <- <-. exists [], [], []. cbn. repeat split; auto. discriminate.
  - destruct (load_one fmt s) as [[k v]|e] eqn:E.
    + pose proof (load_one_hash _ _ _ _ E) as K. destruct (IH (iset k v acc) d res (iset_hkeys k v acc K A) H) as (done & loaded & rest & E1 & F & R1 & R2 & Hd & G & Fo).
      exists (s :: done), ((k, v) :: loaded), rest. split; [now rewrite E1|]. split; [constructor; auto|]. split; auto. split; auto. split; auto. split; auto.
      intros k' K'. rewrite G by assumption. cbn [last_for]. destruct (last_for k' loaded); auto. rewrite iget_iset by auto. destruct (py_eq k' k); auto.
    + injection H as <- <-. exists [], [], (s :: r). cbn. repeat split; auto. { discriminate. } intros e' Q. injection Q as <-. exists s, r. auto.
Qed.
Lemma fold_iset_fresh : forall l acc, Forall (fun kv => hashable (fst kv) = true) l -> hkeys acc -> all_different (map fst acc ++ map fst l) ->
  fold_left (fun a kv => iset (fst kv) (snd kv) a) l acc = (acc ++ l)%list.
Proof.
  induction l as [|[k v] l IH]; intros acc HL A D; cbn [fold_left map fst snd] in *; [now rewrite app_nil_r|].
  inversion HL as [|? ? K HL']; subst. cbn [fst] in K.
  assert (I : iset k v acc = (acc ++ [(k, v)])%list).
  { clear IH HL HL'. induction A as [|[k0 w] acc H A IH2]; cbn [iset app]; auto. cbn [map app fst all_different] in D, H. destruct D as [D1 D2].
    apply Forall_app in D1 as [_ D1]. inversion D1; subst. assert (py_eq k k0 = false) as ->.
    { destruct (py_eq k k0) eqn:E; auto. apply py_eq_canon in E; auto. assert (py_eq k0 k = true) by (apply py_eq_canon; auto). congruence. }
    now rewrite IH2. }
  rewrite I, IH; auto.
  - now rewrite <- app_assoc.
  - apply Forall_app. split; auto.
  - rewrite map_app. cbn [map fst]. now rewrite <- app_assoc.
Qed.
End Dict.
(** ** cleaned strings *)
Lemma free_clean : forall s, free_of "_" s -> free_of "_" (clean s).
Proof.
  intros s F. unfold clean.
  assert (A : forall s, free_of "_" s -> free_of "_" (rstrip s)).
  { clear. induction s as [|c s IH]; cbn [rstrip free_of]; auto. intros [N F]. specialize (IH F). destruct (rstrip s); [destruct (is_space c); cbn; auto|cbn in *; tauto]. }
  assert (B : forall s, free_of "_" s -> free_of "_" (lstrip s)).
  { clear. induction s as [|c s IH]; cbn [lstrip free_of]; auto. intros [N F]. destruct (is_space c); auto. cbn. auto. }
  apply A, B in F. revert F. generalize (lstrip (rstrip s)). induction s0 as [|c t IH]; cbn [dashes free_of]; auto. intros [N F]. split; auto.
  destruct (Nat.eqb _ 32); [discriminate|auto].
Qed.
(** ** histories *)
Section History.
Context {IMS : Type}.
Variable open_ims : string -> yv -> list (string * yv) -> result IMS.
Variable meta_panel : IMS -> option yv.
Variable file_ok : string -> result string.
Local Notation run := (run open_ims meta_panel file_ok).
Local Notation image_series := (image_series open_ims meta_panel file_ok).
Lemma images_kept : forall ops (r : @root IMS) d, r_images r = Some d -> image_series (run r ops) = (run r ops, Ok d).
Proof.
  assert (K : forall ops (r : @root IMS) d, r_images r = Some d -> r_images (run r ops) = Some d).
  { induction ops as [|o ops IH]; intros r d H; cbn; auto. apply IH. destruct o; cbn [step].
    - unfold root_set. destruct (cfg_set _ _ _) as [[t b]|]; auto.
    - unfold HcModel.image_series. now rewrite H.
    - unfold fit_grains_exclusions. destruct (r_fit r); auto. destruct (exclusion_parameters _ _); auto. }
  intros ops r d H. unfold HcModel.image_series. now rewrite (K ops r d H).
Qed.
Lemma images_fit : forall r : @root IMS, r_fit (fst (image_series r)) = r_fit r.
Proof.
  intros r. unfold HcModel.image_series. destruct (r_images r); auto. destruct (cfg_get _ _ _); auto. destruct (cfg_get _ "image_series:data" _) as [[]|]; auto. destruct (load_all _ _ _ _ _ _); auto.
Qed.
Lemma fit_state_kept : forall ops (r : @root IMS) x, r_fit r = Some x -> r_fit (run r ops) = Some x.
Proof.
  induction ops as [|o ops IH]; intros r d H; cbn; auto. apply IH. destruct o; cbn [step].
  - unfold root_set. destruct (cfg_set _ _ _) as [[t b]|]; auto.
  - now rewrite images_fit.
  - unfold fit_grains_exclusions. now rewrite H.
Qed.
Lemma fit_kept : forall ops (r : @root IMS) x, r_fit r = Some x -> fit_grains_exclusions (run r ops) = (run r ops, Ok x).
Proof. intros ops r x H. unfold fit_grains_exclusions. now rewrite (fit_state_kept ops r x H). Qed.
Lemma fit_first : forall tree ops x, let at_start : @root IMS := ROOT tree None None in
  r_fit (run at_start ops) = Some x ->
  exists before after, ops = (before ++ OpFit :: after)%list /\ exclusion_parameters "fit_grains" (r_tree (run at_start before)) = Ok x /\
     forall b a, before = (b ++ OpFit :: a)%list -> exists e, exclusion_parameters "fit_grains" (r_tree (run at_start b)) = Err e.
Proof.
  intros tree ops x at_start. induction ops as [|o ops IH] using rev_ind; intros H; [discriminate|].
  assert (E : run at_start (ops ++ [o]) = step open_ims meta_panel file_ok (run at_start ops) o) by (unfold HcModel.run; now rewrite fold_left_app).
  destruct (r_fit (run at_start ops)) as [y|] eqn:Y.
  - assert (y = x) as -> by (unfold HcModel.run in H, Y; rewrite fold_left_app in H; fold (run at_start ops) in H; pose proof (fit_state_kept [o] (run at_start ops) y Y) as K; unfold HcModel.run in K, H; congruence).
    destruct (IH eq_refl) as (b & a & -> & P & Q). exists b, (a ++ [o])%list. split; [now rewrite <- app_assoc|auto].
  - rewrite E in H. assert (o = OpFit) as ->.
    { destruct o; auto; exfalso; cbn [step] in H.
      - unfold root_set in H. destruct (cfg_set _ _ _) as [[t b]|]; cbn in H; congruence.
      - rewrite images_fit in H. congruence. }
    exists ops, []. split; auto. cbn [step] in H. unfold fit_grains_exclusions in H. rewrite Y in H. destruct (exclusion_parameters _ _) as [e|e] eqn:X; cbn in H; [|congruence]. split; [congruence|].
    intros b a ->. destruct (exclusion_parameters "fit_grains" (r_tree (run at_start b))) as [z|z] eqn:Z; [|eauto]. exfalso.
    assert (W : r_fit (run at_start (b ++ OpFit :: a)) <> None); [|congruence].
    unfold HcModel.run. rewrite fold_left_app. cbn [fold_left]. fold (run at_start b). cbn [step]. fold (run (fst (fit_grains_exclusions (run at_start b))) a).
    destruct (r_fit (run at_start b)) as [w|] eqn:B.
    + unfold fit_grains_exclusions. rewrite B. cbn [fst]. now rewrite (fit_state_kept a _ w B).
    + rewrite (fit_state_kept a _ z); [discriminate|]. unfold fit_grains_exclusions. now rewrite B, Z.
Qed.
End History.
