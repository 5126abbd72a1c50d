(** The physics package of an instrument and the layers of its detectors *)
From Coq Require Import String List QArith Lia.
From Verif Require Import Prelude PhyModel PhySpec PhyProofs.
Import ListNotations.
Local Open Scope string_scope.
Local Open Scope list_scope.
Local Notation length := List.length.

(** ** C186: after any history of assignments, also refused ones, a field of a layer reads as the value last assigned to it *)
Theorem C186_last : forall k history n a, In n (layer_types k) -> In a (fields k n) ->
  get_attr (run (fresh k) history) (n ++ "_" ++ a)%string = Ok (last_value k n a history).
Proof. intros k h n a I J. exact (good_get k _ _ n a (good_last k h) I J). Qed.
Print Assumptions C186_last.
(** also if the package is made with some of the values *)
Theorem C186_made : forall k kwargs p history n a, construct k kwargs = Ok p -> In n (layer_types k) -> In a (fields k n) ->
  get_attr (run p history) (n ++ "_" ++ a)%string = Ok (last_value k n a (kwargs ++ history)).
Proof.
  intros k kw p h n a C I J. rewrite <- C186_last by assumption. f_equal. unfold run. rewrite fold_left_app. f_equal. fold (run (fresh k) kw). unfold construct in C.
  enough (forall q r, deserialize q kw = (r, None) -> r = run q kw) as X.
  { destruct (deserialize (fresh k) kw) as [r [e|]] eqn:E; [discriminate|]. injection C as <-. now apply X. }
  clear. induction kw as [|[key v] t IH]; intros q r; cbn [deserialize]; [now injection 1 as <-|]. unfold run. cbn [fold_left fst snd]. destruct (set_attr q key v) as [q' [e|]]; [discriminate|].
  exact (IH q' r).
Qed.
Print Assumptions C186_made.
(** the radius of the pinhole is half of its diameter, and reads as it was assigned *)
Theorem C186_radius : forall history d, last_value HED "pinhole" "diameter" history = PNum d ->
  get_attr (run (fresh HED) history) "pinhole_radius" = Ok (PNum ((1 # 2) * d)).
Proof.
  intros h d H. destruct (good_last HED h) as (K & L & G). unfold get_attr. rewrite K. cbn [String.eqb Ascii.eqb Bool.eqb].
  change "pinhole_diameter" with ("pinhole" ++ "_" ++ "diameter")%string.
  rewrite (plain_get_holds _ "pinhole" "diameter" (last_value HED "pinhole" "diameter" h) eq_refl eq_refl eq_refl); [now rewrite H|]. apply G; cbn; tauto.
Qed.
Print Assumptions C186_radius.
Theorem C186_radius_assigned : forall history r, exists x y, let p := run (fresh HED) (history ++ [("pinhole_radius", PNum r)]) in
  get_attr p "pinhole_radius" = Ok (PNum x) /\ (x == r)%Q /\ get_attr p "pinhole_diameter" = Ok (PNum y) /\ (y == 2 * r)%Q.
Proof.
  intros h r. exists ((1 # 2) * (2 * r))%Q, (2 * r)%Q. cbv zeta.
  assert (E : last_value HED "pinhole" "diameter" (h ++ [("pinhole_radius", PNum r)]) = PNum (2 * r)) by (unfold last_value; rewrite fold_left_app; reflexivity).
  split; [now apply C186_radius|]. split; [ring|]. split; [|reflexivity]. rewrite <- E. apply (C186_last HED _ "pinhole" "diameter"); cbn; tauto.
Qed.
Print Assumptions C186_radius_assigned.
(** a sample has a diameter if it is a cylinder: its thickness *)
Theorem C186_diameter : forall history, get_attr (run (fresh HEDM) history) "sample_diameter" =
  match last_value HEDM "sample" "geometry" history with PStr "cylinder" => Ok (last_value HEDM "sample" "thickness" history) | _ => Err RuntimeError end.
Proof.
  intros h. destruct (good_last HEDM h) as (K & L & G). unfold get_attr. rewrite K. cbn [String.eqb Ascii.eqb Bool.eqb].
  change "sample_geometry" with ("sample" ++ "_" ++ "geometry")%string. change "sample_thickness" with ("sample" ++ "_" ++ "thickness")%string.
  rewrite (plain_get_holds _ "sample" "geometry" _ eq_refl eq_refl eq_refl (G "sample" "geometry" ltac:(cbn; tauto) ltac:(cbn; tauto))). cbn [rbind].
  rewrite (plain_get_holds _ "sample" "thickness" _ eq_refl eq_refl eq_refl (G "sample" "thickness" ltac:(cbn; tauto) ltac:(cbn; tauto))).
  destruct (last_value HEDM "sample" "geometry" h) as [|s|q]; try reflexivity. destruct (String.eqb_spec s "cylinder") as [->|N]; [reflexivity|].
  repeat (destruct s as [|c s]; [reflexivity|]; destruct c as [[] [] [] [] [] [] [] []]; try reflexivity). destruct s; [congruence|reflexivity].
Qed.
Print Assumptions C186_diameter.
(** the assignments that are refused *)
Theorem C186_refused : forall k history key v, snd (set_attr (run (fresh k) history) key v) <> None <->
  key = "type" \/ (k = HEDM /\ key = "sample_diameter") \/ (k = HED /\ key = "pinhole_radius" /\ forall r, v <> PNum r).
Proof.
  intros k h key v. destruct (good_last k h) as (K & _ & _). unfold set_attr. cbv zeta. rewrite K. destruct (String.eqb_spec key "type") as [->|T]; cbn [snd].
  { split; [tauto|discriminate]. }
  destruct k.
  - destruct (String.eqb_spec key "pinhole_radius") as [->|N]; [|cbn [snd]; split; [congruence|intros [?|[[? ?]|[? [? ?]]]]; congruence]].
    destruct v as [|s|r]; cbn [snd].
    1,2: split; [intros _; right; right; repeat split; discriminate|discriminate].
    split; [congruence|]. intros [?|[[? ?]|[_ [_ H]]]]; [congruence|congruence|]. now destruct (H r).
  - destruct (String.eqb_spec key "sample_diameter") as [->|N]; cbn [snd]; [split; [tauto|discriminate]|]. split; [congruence|intros [?|[[? ?]|[? [? ?]]]]; congruence].
Qed.
Print Assumptions C186_refused.
(** a name that is misspelt is not refused *)
Theorem C186_misspelt_refuted : exists history, forall n a, In n (layer_types HED) -> In a (fields HED n) ->
  snd (set_attr (run (fresh HED) history) "smaple_thickness" (PNum 5)) = None /\
  last_value HED n a (history ++ [("smaple_thickness", PNum 5)]) = last_value HED n a history.
Proof.
  exists [("sample_thickness", PNum 3)]. intros n a I J. split; [reflexivity|].
  repeat (destruct I as [<-|I]; [repeat (destruct J as [<-|J]; [reflexivity|]); contradiction J|]); contradiction I.
Qed.
Print Assumptions C186_misspelt_refuted.
Example C186_ex : let h := [("sample_thickness", PNum 5); ("type", PStr "x"); ("pinhole_diameter", PNum 8); ("pinhole_radius", PNum 3); ("window_material", PStr "LiF"); ("sample_thickness", PNum 7)] in
  get_attr (run (fresh HED) h) "sample_thickness" = Ok (PNum 7) /\ get_attr (run (fresh HED) h) "pinhole_diameter" = Ok (PNum 6) /\
  get_attr (run (fresh HED) h) "window_material" = Ok (PStr "LiF") /\ get_attr (run (fresh HED) h) "window_density" = Ok (PNum 0) /\
  snd (set_attr (run (fresh HED) h) "type" PNone) = Some AttributeError /\
  get_attr (run (fresh HEDM) [("sample_geometry", PStr "cylinder"); ("sample_thickness", PNum 2)]) "sample_diameter" = Ok (PNum 2).
Proof. repeat split; reflexivity. Qed.

(** ** C187: what is saved is every field of every layer, once, with its value; a package that reads it has the same values, whatever it had *)
Theorem C187_saved : forall k history, exists d, serialize (run (fresh k) history) = Ok d /\ NoDup (map fst d) /\
  forall key v, In (key, v) d <-> exists n a, In n (layer_types k) /\ In a (fields k n) /\ key = (n ++ "_" ++ a)%string /\ v = last_value k n a history.
Proof.
  intros k h. rewrite (serialize_good k _ _ (good_last k h)). eexists. split; [reflexivity|]. split.
  - rewrite map_map. cbn [fst]. apply nodup_names.
  - intros key v. rewrite in_map_iff. split.
    + intros ([n a] & E & I). injection E as <- <-. apply in_names in I. cbn [fst snd] in *. exists n, a. tauto.
    + intros (n & a & I & J & -> & ->). exists (n, a). split; [reflexivity|]. now apply in_names.
Qed.
Print Assumptions C187_saved.
Lemma restored k h p val : good k p val -> let d := map (fun na => (join na, last_value k (fst na) (snd na) h)) (names k) in
  deserialize p d = (run p d, None) /\ good k (run p d) (fun n a => fold_left (assigned k n a) d (val n a)) /\
  forall n a, In n (layer_types k) -> In a (fields k n) -> fold_left (assigned k n a) d (val n a) = last_value k n a h.
Proof.
  intros G d. split; [|split].
  - apply deserialize_run with (k := k); [apply G|]. intros kv I. unfold d in I. apply in_map_iff in I. destruct I as (na & <- & I). cbn [fst]. now apply names_plain.
  - now apply good_run.
  - intros n a I J. unfold d. apply (fold_assigned k n a (fun na => last_value k (fst na) (snd na) h) (names k)); [now apply in_names|apply nodup_names|].
    intros na. apply names_plain.
Qed.
Theorem C187_restored : forall k saved had d, serialize (run (fresh k) saved) = Ok d ->
  exists q, deserialize (run (fresh k) had) d = (q, None) /\ serialize q = Ok d /\
    forall n a, In n (layer_types k) -> In a (fields k n) -> get_attr q (n ++ "_" ++ a)%string = get_attr (run (fresh k) saved) (n ++ "_" ++ a)%string.
Proof.
  intros k saved had d S1. rewrite (serialize_good k _ _ (good_last k saved)) in S1. injection S1 as <-. destruct (restored k saved _ _ (good_last k had)) as (D & G & V).
  eexists. split; [exact D|]. split.
  - rewrite (serialize_good k _ _ G). apply (f_equal Ok). apply map_ext_in. intros na I. apply in_names in I. destruct I as [I J]. now rewrite V.
  - intros n a I J. rewrite (good_get k _ _ n a G I J), V by assumption. now rewrite C186_last.
Qed.
Print Assumptions C187_restored.
(** a new package can be made of it *)
Theorem C187_made : forall k saved d, serialize (run (fresh k) saved) = Ok d -> exists q, construct k d = Ok q /\ serialize q = Ok d.
Proof. intros k saved d S1. destruct (C187_restored k saved [] d S1) as (q & D & S2 & _). exists q. split; [|exact S2]. unfold construct. unfold run in D. cbn [fold_left] in D. now rewrite D. Qed.
Print Assumptions C187_made.
Example C187_ex : serialize (run (fresh HEDM) [("sample_geometry", PStr "cylinder"); ("sample_density", PNum 4)]) =
  Ok [("sample_name", PStr "sample"); ("sample_material", PStr ""); ("sample_density", PNum 4); ("sample_thickness", PNum 0); ("sample_formula", PNone); ("sample_geometry", PStr "cylinder")].
Proof. reflexivity. Qed.

(** ** C188: the standoff of a layer is the sum of the thicknesses of the layers between it and the pinhole, and that of the pinhole is 0 *)
Lemma thickness_good k p val n : good k p val -> In n (layer_types k) -> layer_thickness p n = Ok (val n "thickness").
Proof.
  intros (K & L & G) I. assert (J : In "thickness" (fields k n)) by (unfold fields, make_layer; cbn; tauto). destruct (G n "thickness" I J) as [V _]. unfold value in V. unfold layer_thickness.
  destruct (get n (layers p)); [|discriminate]. now rewrite V.
Qed.
Theorem C188_thickness : forall k history n, In n (layer_types k) -> layer_thickness (run (fresh k) history) n = Ok (last_value k n "thickness" history).
Proof. intros k h n I. exact (thickness_good k _ _ n (good_last k h) I). Qed.
Print Assumptions C188_thickness.
Theorem C188_standoff : forall history before layer between (thick : string -> Q),
  ["ablator"; "heatshield"; "pusher"; "sample"; "reflective"; "window"; "pinhole"] = before ++ layer :: between ++ ["pinhole"] ->
  (forall n, In n between -> last_value HED n "thickness" history = PNum (thick n)) ->
  exists q, layer_standoff (run (fresh HED) history) layer = Ok q /\ (q == total (map thick between))%Q.
Proof.
  intros h before layer between thick E T. change ["ablator"; "heatshield"; "pusher"; "sample"; "reflective"; "window"; "pinhole"] with (layer_types HED) in E.
  assert (X : forall n, In n (layer_types HED) -> layer_thickness (run (fresh HED) h) n = Ok (last_value HED n "thickness" h)) by (intros; now apply C188_thickness).
  set (p := run (fresh HED) h) in *. clearbody p.
  assert (Y : forall n, In n between -> layer_thickness p n = Ok (PNum (thick n))).
  { intros n I. rewrite X, T; [reflexivity|exact I|]. rewrite E. apply in_or_app. right. right. apply in_or_app. now left. }
  clear X T. cbn [layer_types] in E.
  assert (B : forall l, l = between ++ ["pinhole"] -> between = removelast l) by (intros l ->; now rewrite removelast_last).
  destruct before as [|b1 [|b2 [|b3 [|b4 [|b5 [|b6 [|b7 before]]]]]]]; cbn [app] in E; injection E; clear E; intros; subst;
    match goal with
    | H : _ = between ++ ["pinhole"] |- _ => apply B in H; cbn [removelast] in H; subst between
    | _ => idtac
    end.
  all: try (unfold layer_standoff; cbn [index_of layer_types String.eqb Ascii.eqb Bool.eqb option_map length Nat.sub Nat.add seq fold_left nth];
    repeat (rewrite Y by (cbn; tauto); cbn [rbind]); eexists; split; [reflexivity|]; cbn [map total fold_right]; ring).
  destruct before; discriminate.
Qed.
Print Assumptions C188_standoff.
Theorem C188_pinhole : forall p, layer_standoff p "pinhole" = Ok 0%Q.
Proof. reflexivity. Qed.
Print Assumptions C188_pinhole.
Theorem C188_unknown : forall p layer, ~ In layer (layer_types HED) -> layer_standoff p layer = Err ValueError.
Proof.
  intros p layer N. unfold layer_standoff. assert (H : forall l, ~ In layer l -> index_of layer l = None).
  { induction l as [|x t IH]; intros M; [reflexivity|]. cbn [index_of]. cbn [In] in M. destruct (String.eqb_spec x layer); [tauto|]. now rewrite IH by tauto. }
  now rewrite H.
Qed.
Print Assumptions C188_unknown.
(** lengths of absorption are those of the layer asked for, of its formula if it has one and of its material otherwise, one for each energy *)
Theorem C188_absorption : forall (E L : Type) (linear : pval -> pval -> E -> L) history n energies, In n (layer_types HED) ->
  let density := last_value HED n "density" history in
  let formula := last_value HED n "formula" history in
  let used := match formula with PNone => last_value HED n "material" history | PStr s => if string_dec s "" then last_value HED n "material" history else formula
              | PNum q => if Qeq_dec q 0 then last_value HED n "material" history else formula end in
  exists r, absorption_length linear (run (fresh HED) history) n energies = Ok r /\
    match r with Single x => exists e, energies = [e] /\ x = linear density used e | Several xs => length energies <> 1%nat /\ xs = map (linear density used) energies end.
Proof.
  intros E L linear h n es I density formula used. unfold absorption_length.
  assert (F : forall a, In a ["density"; "formula"; "material"] -> In a (fields HED n)) by (intros a; unfold fields, make_layer; cbn; tauto).
  change (n ++ "_density")%string with (n ++ "_" ++ "density")%string. change (n ++ "_formula")%string with (n ++ "_" ++ "formula")%string.
  change (n ++ "_material")%string with (n ++ "_" ++ "material")%string.
  rewrite !C186_last by (first [exact I|apply F; cbn; tauto]). cbn [rbind]. fold density formula.
  assert (U : (if truthy formula then Ok formula else Ok (last_value HED n "material" h)) = Ok used).
  { unfold used. destruct formula as [|s|q]; cbn [truthy]; [reflexivity| |].
    - destruct (string_dec s "") as [->|N]; [reflexivity|]. destruct (String.eqb_spec s ""); [congruence|reflexivity].
    - destruct (Qeq_dec q 0) as [Z0|Z0]; [apply Qeq_bool_iff in Z0; now rewrite Z0|]. destruct (Qeq_bool q 0) eqn:B; [apply Qeq_bool_iff in B; contradiction|reflexivity]. }
  rewrite U. cbn [rbind]. eexists. split; [reflexivity|]. destruct es as [|e [|e2 t]]; cbn [map squeeze]; [split; [discriminate|reflexivity]|eauto|split; [discriminate|reflexivity]].
Qed.
Print Assumptions C188_absorption.
Example C188_ex : let p := run (fresh HED) [("pusher_thickness", PNum 100); ("sample_thickness", PNum 10); ("reflective_thickness", PNum 2); ("window_thickness", PNum 30); ("pinhole_thickness", PNum 75); ("sample_material", PStr "Fe")] in
  layer_standoff p "sample" = Ok 32%Q /\ layer_standoff p "ablator" = Ok 142%Q /\ layer_standoff p "window" = Ok 0%Q /\
  absorption_length (fun d f (e : nat) => (d, f, e)) p "sample" [8%nat] = Ok (Single (PNum 0, PStr "Fe", 8%nat)) /\
  layer_types HED = ["ablator"; "heatshield"; "pusher"] ++ "sample" :: ["reflective"; "window"] ++ ["pinhole"].
Proof. repeat split; reflexivity. Qed.

(** ** C189: a layer of a detector reads as it was made, with 0 for numbers that were not given, and as the layer it was saved from *)
Definition wanted (kw : dict pval) (k : string) : pval :=
  let number := if in_dec string_dec k ["density"; "thickness"; "readout_length"; "pre_U0"] then true else false in
  match get k kw with None | Some PNone => if number then PNum 0 else PNone | Some v => v end.
Theorem C189_made : forall c kw l k, make_coat c kw = Ok l -> In k (coat_attributes c) -> coat_get l k = Ok (wanted kw k).
Proof.
  intros c kw l k M I. unfold make_coat in M. destruct (forallb _ kw); [|discriminate].
  destruct c; [| |destruct (get "readout_length" kw) eqn:R; [|discriminate]; destruct (get "pre_U0" kw) eqn:U; [|discriminate]]; injection M as <-;
    repeat (destruct I as [<-|I]; [unfold coat_get, wanted, kwarg; cbn; try rewrite R; try rewrite U; try reflexivity;
      repeat match goal with |- context [match get ?x kw with _ => _ end] => destruct (get x kw) as [[]|] end; try destruct p; try destruct p0; reflexivity|]); contradiction I.
Qed.
Print Assumptions C189_made.
Theorem C189_phosphor : forall kw, (exists l, make_coat PhosphorC kw = Ok l) <->
  (forall k v, In (k, v) kw -> In k coat_kwargs) /\ get "readout_length" kw <> None /\ get "pre_U0" kw <> None.
Proof.
  intros kw. unfold make_coat. assert (F : forallb (fun kv => existsb (String.eqb (fst kv)) coat_kwargs) kw = true <-> forall k v, In (k, v) kw -> In k coat_kwargs).
  { rewrite forallb_forall. split.
    - intros H k v I. specialize (H _ I). cbn [fst] in H. apply existsb_exists in H. destruct H as (x & J & E). apply String.eqb_eq in E. now subst x.
    - intros H [k v] I. apply existsb_exists. exists k. split; [exact (H k v I)|]. apply String.eqb_refl. }
  rewrite <- F. destruct (forallb _ kw).
  - destruct (get "readout_length" kw), (get "pre_U0" kw); split; try (intros [l E]; discriminate); try (intros (_ & A & B); congruence); [intros _; repeat split; discriminate|eauto].
  - split; [intros [l E]; discriminate|intros [E _]; discriminate].
Qed.
Print Assumptions C189_phosphor.
(** any layer of the class that has its attributes, whatever was assigned to it since *)
Definition complete (l : layer) : Prop := forall k, In k (coat_attributes (cls l)) -> get k (coat l) <> None.
Theorem C189_restored : forall a b, complete a -> cls a = cls b -> exists d, coat_serialize a = Ok d /\ map fst d = coat_attributes (cls a) /\
  forall k, In k (coat_attributes (cls a)) -> exists v, In (k, v) d /\ coat_get a k = Ok v /\ coat_get (coat_deserialize b d) k = Ok v.
Proof.
  intros a b Ca Cb.
  assert (R : forall keys, (forall k, In k keys -> get k (coat a) <> None) -> exists d, coat_read_all a keys = Ok d /\ map fst d = keys /\ forall k v, In (k, v) d -> coat_get a k = Ok v).
  { induction keys as [|k t IH]; intros H; [exists []; cbn; tauto|]. destruct (IH (fun k I => H k (or_intror I))) as (d & E & F & G). cbn [coat_read_all].
    destruct (coat_get a k) as [v|e] eqn:V; [|unfold coat_get in V; destruct (get k (coat a)) eqn:W; [discriminate|destruct (H k (or_introl eq_refl) W)]].
    exists ((k, v) :: d). rewrite E. cbn [rbind map fst]. rewrite F. repeat split. intros x w [J|J]; [injection J as <- <-; exact V|exact (G x w J)]. }
  destruct (R _ Ca) as (d & E & F & G). exists d. split; [exact E|]. split; [exact F|]. intros k I. rewrite <- F in I. apply in_map_iff in I. destruct I as ([k' v] & Ek & I). cbn [fst] in Ek. subst k'.
  exists v. split; [exact I|]. split; [exact (G k v I)|].
  assert (N : NoDup (map fst d)) by (rewrite F; destruct (cls a); repeat (constructor; [cbn; intuition discriminate|]); constructor).
  assert (K : forall d l, cls (coat_deserialize l d) = cls l) by (induction d0 as [|x t IH]; intros l; [reflexivity|]; unfold coat_deserialize; cbn [fold_left]; fold (coat_deserialize (coat_set l (fst x) (snd x)) t); now rewrite IH).
  assert (O : forall d l, ~ In k (map fst d) -> get k (coat (coat_deserialize l d)) = get k (coat l)).
  { clear. induction d as [|[x w] t IH]; intros l N; [reflexivity|]. unfold coat_deserialize. cbn [fold_left fst snd]. fold (coat_deserialize (coat_set l x w) t). cbn [map In fst] in N.
    rewrite IH by tauto. cbn [coat coat_set]. apply get_put_ne. tauto. }
  assert (P : forall d l, NoDup (map fst d) -> In (k, v) d -> get k (coat (coat_deserialize l d)) = Some v).
  { clear -O. induction d as [|[x w] t IH]; intros l N I; [contradiction|]. unfold coat_deserialize. cbn [fold_left fst snd]. fold (coat_deserialize (coat_set l x w) t). cbn [map fst] in N.
    apply NoDup_cons_iff in N. destruct N as [N1 N2]. destruct I as [J|J]; [injection J as -> ->; rewrite O by exact N1; cbn [coat coat_set]; apply get_put_eq|now apply IH]. }
  pose proof (G k v I) as Gk. unfold coat_get in *. rewrite P by assumption. rewrite K, <- Cb. destruct (get k (coat a)) as [w|]; [|discriminate]. injection Gk as Gk. f_equal.
  destruct (orb _ _); [destruct w; subst v; reflexivity|reflexivity].
Qed.
Print Assumptions C189_restored.
Theorem C189_complete : forall c kw l assigned, make_coat c kw = Ok l -> complete (coat_deserialize l assigned) /\ cls (coat_deserialize l assigned) = c.
Proof.
  intros c kw l asg M. assert (B : complete l /\ cls l = c).
  { assert (Cl : cls l = c) by (unfold make_coat in M; destruct (forallb _ kw); [|discriminate]; destruct c; [| |destruct (get "readout_length" kw); [destruct (get "pre_U0" kw)|]]; try discriminate; injection M as <-; reflexivity).
    split; [|exact Cl]. intros k I N. rewrite Cl in I. pose proof (C189_made c kw l k M I) as H. unfold coat_get in H. rewrite N in H. discriminate. }
  clear M. revert l B. induction asg as [|[x w] t IH]; intros l B; [exact B|]. unfold coat_deserialize. cbn [fold_left fst snd]. apply (IH (coat_set l x w)). destruct B as [B1 B2]. split; [|exact B2].
  intros k I. cbn [coat coat_set]. destruct (string_dec x k) as [->|N]; [rewrite get_put_eq; discriminate|]. rewrite get_put_ne by exact N. exact (B1 k I).
Qed.
Print Assumptions C189_complete.
Example C189_ex : exists l, make_coat PhosphorC [("material", PStr "U0"); ("thickness", PNum 115); ("readout_length", PNum 222); ("pre_U0", PNone)] = Ok l /\
  coat_serialize l = Ok [("material", PStr "U0"); ("density", PNum 0); ("thickness", PNum 115); ("formula", PNone); ("readout_length", PNum 222); ("pre_U0", PNum 0)] /\
  make_coat PhosphorC [("material", PStr "U0")] = Err KeyError /\ make_coat FilterC [("diameter", PNum 1)] = Err TypeError.
Proof. eexists. split; [reflexivity|]. repeat split; reflexivity. Qed.
