From Coq Require Import String.
From Verif Require Import Prelude ModModel ModSpec ModTable ModProofs.
Local Notation length := List.length.

(** ** the table *)
Lemma assoc_in : forall {B} n (l : list (name * B)) v, assoc name_eqb n l = Some v -> In (n, v) l.
Proof. intros B n l v. induction l as [|[k w] l IH]; cbn [assoc]; [discriminate|]. destruct (name_eqb n k) eqn:E; [|intros; right; auto]. apply name_eqb_iff in E. subst. intros [= ->]. now left. Qed.
Lemma alias_in : forall mmap n t, alias mmap n = Some t -> In (n, t) mmap /\ n <> t.
Proof.
  intros mmap n t. unfold alias. destruct (assoc name_eqb n mmap) as [u|] eqn:E; [|discriminate]. destruct (name_eqb n u) eqn:Q; [discriminate|]. intros [= ->]. split; [now apply assoc_in|].
  intros ->. now rewrite name_eqb_refl in Q.
Qed.
Lemma name_eqb_sym : forall a b, name_eqb a b = name_eqb b a.
Proof. intros a b. destruct (name_eqb a b) eqn:E, (name_eqb b a) eqn:F; try reflexivity; [apply name_eqb_iff in E|apply name_eqb_iff in F]; subst; rewrite name_eqb_refl in *; discriminate. Qed.
Lemma name_eqb_false : forall a b, a <> b -> name_eqb a b = false.
Proof. intros a b H. destruct (name_eqb a b) eqn:E; [|reflexivity]. apply name_eqb_iff in E. contradiction. Qed.
Definition news (rows : list row) (p : list string) : list (list string) := map snd (filter (fun r : row => name_eqb (fst r) p) rows).
Lemma news_cons : forall (r : row) rows p, news (r :: rows) p = if name_eqb (fst r) p then snd r :: news rows p else news rows p.
Proof. intros. unfold news. cbn [filter]. now destruct (name_eqb (fst r) p). Qed.
Lemma add_row_assoc : forall m r p, assoc name_eqb p (add_row m r) = if name_eqb p (fst r) then Some (match assoc name_eqb p m with Some vs => (vs ++ [snd r])%list | None => [snd r] end) else assoc name_eqb p m.
Proof.
  induction m as [|[k vs] m IH]; intros r p; cbn [add_row assoc]; [reflexivity|]. destruct (name_eqb k (fst r)) eqn:E.
  - apply name_eqb_iff in E. subst k. cbn [assoc]. now destruct (name_eqb p (fst r)).
  - cbn [assoc]. rewrite IH. destruct (name_eqb p k) eqn:F; [|reflexivity]. apply name_eqb_iff in F. subst. now rewrite E.
Qed.
Lemma file_map_assoc_gen : forall rows m p, assoc name_eqb p (fold_left add_row rows m) =
  match assoc name_eqb p m, news rows p with None, [] => None | None, l => Some l | Some vs, l => Some (vs ++ l)%list end.
Proof.
  induction rows as [|r rows IH]; intros m p; cbn [fold_left].
  - unfold news. cbn [filter map]. destruct (assoc name_eqb p m); [|reflexivity]. now rewrite app_nil_r.
  - rewrite IH, add_row_assoc, (name_eqb_sym p), news_cons. destruct (name_eqb (fst r) p) eqn:E; [|reflexivity].
    destruct (assoc name_eqb p m) as [vs|]; [|reflexivity]. now rewrite <- app_assoc.
Qed.
Lemma file_map_assoc : forall rows p, news rows p <> [] -> assoc name_eqb p (file_map rows) = Some (news rows p).
Proof. intros. unfold file_map. rewrite file_map_assoc_gen. cbn [assoc]. destruct (news rows p); congruence. Qed.
Lemma set_key_assoc : forall {A} (m : list (name * A)) k v n, assoc name_eqb n (set_key m k v) = if name_eqb n k then Some v else assoc name_eqb n m.
Proof.
  intros A m k v n. induction m as [|[k' v'] m IH]; cbn [set_key assoc]; [reflexivity|]. destruct (name_eqb k' k) eqn:E.
  - apply name_eqb_iff in E. subst. cbn [assoc]. now destruct (name_eqb n k).
  - cbn [assoc]. rewrite IH. destruct (name_eqb n k') eqn:F; [|reflexivity]. apply name_eqb_iff in F. subst. now rewrite E.
Qed.
Lemma build_keep : forall fm acc mm n, build_map fm acc = Ok mm -> (forall p l, In (p, l) fm -> relevant p = true -> path_to_module p <> Ok n) -> assoc name_eqb n mm = assoc name_eqb n acc.
Proof.
  induction fm as [|[p l] fm IH]; intros acc mm n; cbn [build_map]; [intros [= ->]; reflexivity|]. destruct (relevant p) eqn:R.
  - destruct (path_to_module p) as [o|] eqn:P; cbn [rbind]; [|discriminate]. destruct (path_to_module (selected l)) as [t|]; cbn [rbind]; [|discriminate]. intros E H. rewrite (IH _ _ _ E).
    + rewrite set_key_assoc. destruct (name_eqb n o) eqn:Q; [|reflexivity]. apply name_eqb_iff in Q. subst. elim (H p l (or_introl eq_refl) R). assumption.
    + intros p' l' I. apply (H p' l'). now right.
  - intros E H. apply (IH _ _ _ E). intros p' l' I. apply (H p' l'). now right.
Qed.
Lemma build_get : forall fm acc mm p l n, build_map fm acc = Ok mm -> In (p, l) fm -> relevant p = true -> path_to_module p = Ok n ->
  (forall p' l', In (p', l') fm -> relevant p' = true -> path_to_module p' = Ok n -> l' = l) -> exists t, path_to_module (selected l) = Ok t /\ assoc name_eqb n mm = Some t.
Proof.
  induction fm as [|[q k] fm IH]; intros acc mm p l n E I R P U; [destruct I|]. cbn [build_map] in E.
  destruct (relevant q) eqn:RQ.
  - destruct (path_to_module q) as [o|] eqn:PQ; cbn [rbind] in E; [|discriminate]. destruct (path_to_module (selected k)) as [t|] eqn:PS; cbn [rbind] in E; [|discriminate].
    assert (DEC : (exists p' l', In (p', l') fm /\ relevant p' = true /\ path_to_module p' = Ok n) \/ (forall p' l', In (p', l') fm -> relevant p' = true -> path_to_module p' <> Ok n)).
    { clear -fm. induction fm as [|[a b] fm IH]; [right; intros ? ? []|]. destruct IH as [(p' & l' & I & Q)|N]; [left; exists p', l'; split; [now right|assumption]|].
      destruct (relevant a) eqn:RA; [destruct (path_to_module a) as [x|] eqn:PA; [destruct (name_eqb x n) eqn:X|]|].
      - apply name_eqb_iff in X. subst. left. exists a, b. split; [now left|now split].
      - right. intros p' l' [[= <- <-]|I] RR; [|now apply (N p' l')]. intros PP. rewrite PA in PP. injection PP as ->. now rewrite name_eqb_refl in X.
      - right. intros p' l' [[= <- <-]|I] RR; [congruence|now apply (N p' l')].
      - right. intros p' l' [[= <- <-]|I] RR; [congruence|now apply (N p' l')]. }
    destruct DEC as [(p' & l' & I' & R' & P')|N].
    + destruct (IH _ _ p' l' n E I' R' P') as (t' & S1 & S2). { intros p2 l2 I2 R2 P2. rewrite (U p2 l2) by (auto; now right). symmetry. apply (U p' l'); auto. now right. }
      exists t'. rewrite <- (U p' l') by (auto; now right). now split.
    + destruct I as [[= -> ->]|I]; [|elim (N p l I R P)]. rewrite P in PQ. injection PQ as <-. exists t. split; [assumption|]. rewrite (build_keep _ _ _ _ E N), set_key_assoc, name_eqb_refl. reflexivity.
  - destruct I as [[= -> ->]|I]; [congruence|]. apply (IH _ _ p l n E I R P). intros p' l' I' R' P'. apply (U p' l'); auto. now right.
Qed.
Lemma assoc_key : forall {B} (l : list (name * B)) p v, In (p, v) l -> NoDup (map fst l) -> assoc name_eqb p l = Some v.
Proof.
  intros B l p v. induction l as [|[k w] l IH]; [intros []|]. intros [[= -> ->]|I] ND; cbn [assoc]; [now rewrite name_eqb_refl|]. inversion ND as [|? ? NI ND']; subst. destruct (name_eqb p k) eqn:E; [|now apply IH].
  apply name_eqb_iff in E. subst. elim NI. now apply (in_map fst) in I.
Qed.
Lemma add_row_keys : forall m r k, In k (map fst (add_row m r)) <-> In k (map fst m) \/ k = fst r.
Proof.
  induction m as [|[q vs] m IH]; intros r k; cbn [add_row map fst In]; [intuition|]. destruct (name_eqb q (fst r)) eqn:E; cbn [map fst In]; [|rewrite IH; tauto].
  apply name_eqb_iff in E. subst. intuition congruence.
Qed.
Lemma add_row_nodup : forall m r, NoDup (map fst m) -> NoDup (map fst (add_row m r)).
Proof.
  induction m as [|[q vs] m IH]; intros r H; cbn [add_row map fst]; [constructor; [intros []|constructor]|]. inversion H as [|? ? NI ND]; subst. destruct (name_eqb q (fst r)) eqn:E; cbn [map fst]; [assumption|].
  constructor; [|now apply IH]. rewrite add_row_keys. intros [I|I]; [contradiction|]. subst q. now rewrite name_eqb_refl in E.
Qed.
Lemma file_map_nodup : forall rows, NoDup (map fst (file_map rows)).
Proof. intros rows. unfold file_map. assert (G : forall m, NoDup (map fst m) -> NoDup (map fst (fold_left add_row rows m))). { induction rows as [|r rows IH]; intros m H; [assumption|]. apply IH. now apply add_row_nodup. } apply G. constructor. Qed.
Lemma file_map_in : forall rows p l, In (p, l) (file_map rows) -> l = news rows p /\ l <> [].
Proof.
  intros rows p l I. pose proof (assoc_key _ _ _ I (file_map_nodup rows)) as A. unfold file_map in A. rewrite file_map_assoc_gen in A. cbn [assoc] in A. destruct (news rows p); [discriminate|]. injection A as <-. split; [reflexivity|discriminate].
Qed.
Lemma file_map_has : forall rows p, news rows p <> [] -> In (p, news rows p) (file_map rows).
Proof. intros. apply assoc_in. now apply file_map_assoc. Qed.

(** ** the bound on the length of targets *)
Lemma bound_of : forall mmap, exists b, forall n t, alias mmap n = Some t -> (length t <= b)%nat.
Proof.
  intros mmap. exists (list_max (map (fun e => length (snd e)) mmap)). intros n t H. apply alias_in in H. destruct H as [H _]. apply (in_map (fun e => length (snd e))) in H. cbn [snd] in H.
  pose proof (proj1 (list_max_le (map (fun e => length (snd e)) mmap) _) (le_n _)) as F. rewrite Forall_forall in F. now apply F.
Qed.

(** ** the files of the repository, with any contents *)
Definition tree_entry (d c : string) : option bool := match assoc String.eqb d tree with Some es => assoc String.eqb c es | None => None end.
Definition under (d c : string) : string := (d ++ "/" ++ c)%string.
(** hexrd's files: a package searches its own directory; [contents] says what executing a file defines *)
Definition tree_files (contents : string -> option (list string) * list (string * nat)) (d c : string) : option module :=
  match tree_entry d c with
  | Some true => Some (Mod (Some [under d c]) (fst (contents (under d c))) (snd (contents (under d c))))
  | Some false => Some (Mod None (fst (contents (under d c))) (snd (contents (under d c))))
  | None => None
  end.
Definition tree_root (contents : string -> option (list string) * list (string * nat)) : module := Mod (Some ["hexrd"%string]) (fst (contents "hexrd"%string)) (snd (contents "hexrd"%string)).
Fixpoint locate (d : string) (r : list string) : option bool :=
  match r with
  | [] => Some true
  | c :: r' => match tree_entry d c with Some true => locate (under d c) r' | Some false => match r' with [] => Some false | _ => None end | None => None end
  end.
Definition located (n : name) : option bool := match n with h :: r => if String.eqb h "hexrd" then locate "hexrd" r else None | [] => None end.
Section Contents.
Variable contents : string -> option (list string) * list (string * nat).
Let F := tree_files contents.
Let Rt := tree_root contents.
Lemma locate_sound : forall r d p m b, on_disk F Rt p m -> m_path m = Some [d] -> locate d r = Some b -> exists m', on_disk F Rt (p ++ r) m' /\ (b = true -> exists d', m_path m' = Some [d']).
Proof.
  induction r as [|c r IH]; intros d p m b D P L; cbn [locate] in L.
  - exists m. rewrite app_nil_r. split; [assumption|]. intros _. now exists d.
  - destruct (tree_entry d c) as [[|]|] eqn:T; [| |discriminate].
    + replace (p ++ c :: r)%list with ((p ++ [c]) ++ r)%list by now rewrite <- app_assoc.
      eapply (IH (under d c)); [eapply od_sub; [exact D|exact P|]| |exact L]. * cbn [find_file]. unfold F, tree_files. rewrite T. reflexivity. * reflexivity.
    + destruct r; [|discriminate]. injection L as <-. eexists. split; [eapply od_sub; [exact D|exact P|]; cbn [find_file]; unfold F, tree_files; rewrite T; reflexivity|discriminate].
Qed.
Lemma located_sound : forall n b, located n = Some b -> exists m, on_disk F Rt n m /\ (b = true -> exists d, m_path m = Some d).
Proof.
  intros n b H. destruct n as [|h r]; [discriminate|]. cbn [located] in H. destruct (String.eqb h "hexrd") eqn:E; [|discriminate]. apply String.eqb_eq in E. subst h.
  destruct (locate_sound r "hexrd"%string ["hexrd"%string] Rt b (od_root F Rt) eq_refl H) as (m & D & P). exists m. split; [exact D|]. intros Q. destruct (P Q) as [d ->]. now eexists.
Qed.
Variable mmap : list (name * name).
Definition new_b (n : name) : bool := forallb (fun k => match alias mmap (firstn k n) with None => true | Some _ => false end) (seq 0 (S (length n))).
Lemma new_b_sound : forall n, new_b n = true -> new_name mmap n.
Proof.
  intros n H p q E. unfold new_b in H. rewrite forallb_forall in H. specialize (H (length p)). rewrite E in H. rewrite firstn_app, firstn_all, Nat.sub_diag, firstn_O, app_nil_r in H.
  destruct (alias mmap p); [|reflexivity]. discriminate H. apply in_seq. rewrite app_length. lia.
Qed.
Fixpoint stands_b (fuel : nat) (n : name) : option name :=
  match fuel with
  | O => None
  | S f =>
      match alias mmap n with
      | Some t => match located t, stands_b f (removelast n) with
                  | Some _, Some p => match located p with Some true => Some t | _ => None end
                  | _, _ => None
                  end
      | None => if new_b n then match located n with Some _ => Some n | None => None end else None
      end
  end.
Lemma stands_b_sound : forall fuel n t, stands_b fuel n = Some t -> stands_for mmap F Rt n t.
Proof.
  induction fuel as [|f IH]; intros n t H; [discriminate|]. cbn [stands_b] in H. destruct (alias mmap n) as [u|] eqn:A.
  - destruct (located u) as [b|] eqn:L; [|discriminate]. destruct (stands_b f (removelast n)) as [p|] eqn:SP; [|discriminate]. destruct (located p) as [[|]|] eqn:LP; try discriminate. injection H as ->.
    destruct (located_sound t b L) as (m & D & _). destruct (located_sound p true LP) as (pm & DP & PP). destruct (PP eq_refl) as [d P]. eapply sf_old; [exact A|exact D|exact (IH _ _ SP)|exact DP|exact P].
  - destruct (new_b n) eqn:N; [|discriminate]. destruct (located n) as [b|] eqn:L; [|discriminate]. injection H as ->. destruct (located_sound t b L) as (m & D & _). eapply sf_new; [now apply new_b_sound|exact D].
Qed.
End Contents.
(** [candidates] with the dictionary already made *)
Definition candidates_in (fm : list (list string * list (list string))) (n t : name) : list name := dedup [] (flat_map (candidates_of n t) fm).
Definition flat_in (fm : list (list string * list (list string))) (mmap : list (name * name)) : bool :=
  forallb (fun e => name_eqb (fst e) (snd e) || ((1 <? length (fst e))%nat && new_b mmap (snd e) && forallb (new_b mmap) (candidates_in fm (fst e) (snd e)))) mmap.
Definition flat_b (rows : list row) (mmap : list (name * name)) : bool := flat_in (file_map rows) mmap.
Lemma flat_b_sound : forall rows mmap, flat_b rows mmap = true -> flat rows mmap.
Proof.
  intros rows mmap H n t A. apply alias_in in A. destruct A as [I N]. unfold flat_b, flat_in in H. rewrite forallb_forall in H. specialize (H _ I). cbn [fst snd] in H. rewrite (name_eqb_false _ _ N) in H. cbn [orb] in H.
  apply andb_prop in H. destruct H as [H H3]. apply andb_prop in H. destruct H as [H1 H2]. split; [now apply Nat.ltb_lt|]. split; [now apply new_b_sound|]. intros c C. rewrite forallb_forall in H3. apply new_b_sound. now apply H3.
Qed.
Definition map_or_nil (r : result (list (name * name))) : list (name * name) := match r with Ok m => m | Err _ => [] end.
Definition table_map : list (name * name) := map_or_nil (module_map file_table).
Definition real_map : list (name * name) := Eval vm_compute in table_map.
Definition map_is (r : result (list (name * name))) (m : list (name * name)) : bool :=
  match r with Ok l => (length l =? length m)%nat && forallb (fun q => name_eqb (fst (fst q)) (fst (snd q)) && name_eqb (snd (fst q)) (snd (snd q))) (combine l m) | Err _ => false end.
Lemma map_is_sound : forall r m, map_is r m = true -> r = Ok m.
Proof.
  intros [l|e] m H; [|discriminate]. cbn [map_is] in H. f_equal. revert m H. induction l as [|[a b] l IH]; intros [|[c d] m] H; cbn [length] in H; try discriminate; [reflexivity|]. cbn [combine forallb fst snd] in H.
  apply andb_prop in H. destruct H as [L H]. apply andb_prop in H. destruct H as [H1 H]. apply andb_prop in H1. destruct H1 as [A B]. apply name_eqb_iff in A, B. subst. f_equal. apply IH. cbn in L. now rewrite L.
Qed.
Lemma real_map_eq : module_map file_table = Ok real_map. Proof. apply map_is_sound. vm_cast_no_check (eq_refl true). Qed.
Lemma real_flat : flat file_table real_map. Proof. apply flat_b_sound. vm_cast_no_check (eq_refl true). Qed.
Lemma real_root : alias real_map ["hexrd"%string] = None. Proof. reflexivity. Qed.
