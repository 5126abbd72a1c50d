From Coq Require Import String.
From Verif Require Import Prelude ModModel ModSpec.
Local Notation length := List.length.

Lemma name_eqb_iff : forall a b, name_eqb a b = true <-> a = b.
Proof. intros. unfold name_eqb. destruct (list_eq_dec string_dec a b); split; congruence. Qed.
Lemma name_eqb_refl : forall a, name_eqb a a = true. Proof. intros. now apply name_eqb_iff. Qed.
Lemma grown_refl : forall m, grown m m.
Proof. intros m. split; [auto|]. destruct (m_path m); [|reflexivity]. exists []. now rewrite app_nil_r. Qed.
Lemma grown_trans : forall a b c, grown a b -> grown b c -> grown a c.
Proof.
  intros a b c [A1 A2] [B1 B2]. split; [auto|]. destruct (m_path a) as [d|].
  - destruct A2 as [e E]. rewrite E in B2. destruct B2 as [e' E']. exists (e ++ e')%list. rewrite E'. now rewrite app_assoc.
  - rewrite A2 in B2. exact B2.
Qed.
Lemma extends_refl : forall s, extends s s. Proof. intros. split; [auto|]. split; [lia|]. intros. apply grown_refl. Qed.
Lemma extends_trans : forall a b c, extends a b -> extends b c -> extends a c.
Proof. intros a b c (A1 & A2 & A3) (B1 & B2 & B3). split; [auto|]. split; [lia|]. intros i H. eapply grown_trans; [now apply A3|]. apply B3. lia. Qed.
Lemma append_new_app : forall e b, exists x, append_new b e = (b ++ x)%list.
Proof.
  induction e as [|a e IH]; intros b; cbn [append_new]. { exists []. now rewrite app_nil_r. }
  destruct (mem String.eqb a b); [apply IH|]. destruct (IH (b ++ [a])%list) as [x E]. exists (a :: x). rewrite E, <- app_assoc. reflexivity.
Qed.
Lemma assoc_app : forall {B} k (a b : list (string * B)), assoc String.eqb k (a ++ b) = match assoc String.eqb k a with Some v => Some v | None => assoc String.eqb k b end.
Proof. intros B k a b. induction a as [|[x v] a IH]; [reflexivity|]. cbn [app assoc]. destruct (String.eqb k x); [reflexivity|apply IH]. Qed.
(** copying: what the base has stays; the rest comes from the other module unless it is one of the module's own names *)
Lemma copy_attr : forall e b k, assoc String.eqb k (copy_names b e) =
  match assoc String.eqb k b with Some v => Some v | None => if mem String.eqb k own_names then None else assoc String.eqb k e end.
Proof.
  induction e as [|[x v] e IH]; intros b k; cbn [copy_names assoc]. { destruct (assoc String.eqb k b); [reflexivity|]. now destruct (mem _ _ _). }
  destruct (mem String.eqb x own_names) eqn:M.
  - rewrite IH. destruct (assoc String.eqb k b); [reflexivity|]. destruct (mem String.eqb k own_names) eqn:M'; [reflexivity|]. destruct (String.eqb k x) eqn:E; [|reflexivity].
    apply String.eqb_eq in E. subst. congruence.
  - rewrite IH. destruct (assoc String.eqb x b) as [w|] eqn:X.
    + destruct (assoc String.eqb k b) eqn:K; [reflexivity|]. destruct (String.eqb k x) eqn:E; [|reflexivity]. apply String.eqb_eq in E. subst. congruence.
    + rewrite assoc_app. destruct (assoc String.eqb k b); [reflexivity|]. cbn [assoc]. destruct (String.eqb k x) eqn:E; [|reflexivity]. apply String.eqb_eq in E. subst. now rewrite M.
Qed.
Lemma merge_grown : forall b c, grown b (merge b c).
Proof.
  intros b c. split.
  - intros k v H. unfold attr, merge. cbn [m_dict]. rewrite copy_attr. unfold attr in H. now rewrite H.
  - unfold merge. cbn [m_path]. destruct (m_path b) as [d|]; [|reflexivity]. destruct (m_path c) as [e|].
    + destruct (append_new_app e d) as [x ->]. now exists x.
    + exists []. now rewrite app_nil_r.
Qed.
Lemma update_length : forall {A} (l : list A) i x, length (update l i x) = length l.
Proof. induction l as [|a l IH]; intros [|i] x; cbn; try reflexivity. now rewrite IH. Qed.
Lemma update_nth : forall {A} (l : list A) i j x d, (i < length l)%nat -> nth j (update l i x) d = if Nat.eqb j i then x else nth j l d.
Proof. induction l as [|a l IH]; intros [|i] [|j] x d H; cbn in *; try lia; try reflexivity. apply IH. lia. Qed.
Lemma set_obj_obj : forall s i m j, (i < length (heap s))%nat -> obj (set_obj s i m) j = if Nat.eqb j i then m else obj s j.
Proof. intros. unfold obj, set_obj. cbn [heap]. now apply update_nth. Qed.
Lemma set_obj_extends : forall s b c, (b < length (heap s))%nat -> extends s (set_obj s b (merge (obj s b) c)).
Proof.
  intros s b c H. split; [auto|]. split; [unfold set_obj; cbn [heap]; rewrite update_length; lia|]. intros i Hi. rewrite set_obj_obj by assumption.
  destruct (Nat.eqb i b) eqn:E; [apply Nat.eqb_eq in E; subst; apply merge_grown|apply grown_refl].
Qed.
Lemma find_file_app : forall files d e c m, find_file files d c = Some m -> find_file files (d ++ e) c = Some m.
Proof. intros files d e c m. induction d as [|a d IH]; cbn [find_file app]; [discriminate|]. destruct (files a c); [congruence|assumption]. Qed.
Lemma parent_app : forall p (c : string), parent (p ++ [c]) = p. Proof. intros. apply removelast_last. Qed.

Section Fixed.
Variables (rows : list row) (mmap : list (name * name)) (files : string -> string -> option module) (root : module).
Hypothesis Hflat : flat rows mmap.
Let imp := import_module rows mmap files.
Let Inv := starts mmap files root.

Lemma on_disk_inv : forall n m, on_disk files root n m -> (n = ["hexrd"%string] /\ m = root) \/
  exists p c pm dirs, n = (p ++ [c])%list /\ on_disk files root p pm /\ m_path pm = Some dirs /\ find_file files dirs c = Some m.
Proof. intros n m H. destruct H as [|p c pm dirs m H P F]; [left; now split|right]. exists p, c, pm, dirs. now repeat split. Qed.
Lemma on_disk_len : forall n m, on_disk files root n m -> (1 <= length n)%nat.
Proof. induction 1; [cbn; lia|]. rewrite app_length. cbn. lia. Qed.
Lemma on_disk_sub : forall p c m, p <> [] -> on_disk files root (p ++ [c]) m -> exists pm dirs, on_disk files root p pm /\ m_path pm = Some dirs /\ find_file files dirs c = Some m.
Proof.
  intros p c m NP H. apply on_disk_inv in H. destruct H as [[E _]|(p' & c' & pm & dirs & E & H)].
  - destruct p as [|a [|b p]]; try discriminate E. now elim NP.
  - apply app_inj_tail in E. destruct E as [-> ->]. now exists pm, dirs.
Qed.
Lemma on_disk_fun : forall n m, on_disk files root n m -> forall m', on_disk files root n m' -> m = m'.
Proof.
  induction 1 as [|p c pm dirs m H IH P F]; intros m' H'.
  - apply on_disk_inv in H'. destruct H' as [[_ ->]|(p & c & pm & dirs & E & H & _)]; [reflexivity|]. pose proof (on_disk_len _ _ H). destruct p as [|a [|b p]]; try discriminate E. cbn in *. lia.
  - apply on_disk_sub in H'; [|intros ->; pose proof (on_disk_len _ _ H); cbn in *; lia]. destruct H' as (pm' & dirs' & H' & P' & F'). rewrite <- (IH _ H') in P'. congruence.
Qed.
Lemma new_parent : forall p c, new_name mmap (p ++ [c]) -> new_name mmap p.
Proof. intros p c H a b E. apply (H a (b ++ [c])%list). now rewrite E, app_assoc. Qed.
Lemma new_self : forall n, new_name mmap n -> alias mmap n = None.
Proof. intros n H. apply (H n []). now rewrite app_nil_r. Qed.
Lemma split_last : forall (n : name), (1 < length n)%nat -> exists p c, n = (p ++ [c])%list /\ p <> [] /\ length n = S (length p).
Proof.
  intros n H. destruct (exists_last (l := n)) as (p & c & E). { intros ->. cbn in H. lia. } exists p, c. subst n. rewrite app_length in *. cbn in *. split; [reflexivity|]. split; [intros ->; cbn in H; lia|lia].
Qed.
Lemma obj_app : forall s sy e i, (i < length (heap s))%nat -> obj (St sy (heap s ++ e)) i = obj s i.
Proof. intros. unfold obj. cbn [heap]. now apply app_nth1. Qed.
Lemma obj_heap : forall s s' e i, heap s' = (heap s ++ e)%list -> (i < length (heap s))%nat -> obj s' i = obj s i.
Proof. intros s s' e i H L. unfold obj. rewrite H. now apply app_nth1. Qed.

(** what importing the new name n does: it only adds n and packages that n is in *)
Definition added (n : name) (fuel : nat) (s s' : state) (r : outcome) : Prop :=
  Inv s' /\ (exists e, heap s' = (heap s ++ e)%list) /\ (forall q i, module_at s q i -> module_at s' q i) /\
  (forall q, ~ (exists t, n = (q ++ t)%list) -> assoc name_eqb q (sys s') = assoc name_eqb q (sys s)) /\
  (forall i, r = Loaded i -> module_at s' n i) /\
  (forall m, on_disk files root n m -> (length n <= fuel)%nat -> exists i, r = Loaded i) /\
  ((forall i, r <> Loaded i) -> assoc name_eqb n (sys s') = None).
Lemma added_same : forall n fuel s i, Inv s -> module_at s n i -> added n fuel s s (Loaded i).
Proof.
  intros n fuel s i HI A. split; [assumption|]. split; [exists []; now rewrite app_nil_r|]. split; [auto|]. split; [auto|]. split; [intros j [= <-]; exact A|]. split; [intros; now exists i|]. intros H. now elim (H i).
Qed.
Lemma not_longer : forall (p : name) c, ~ (exists t, p = ((p ++ [c]) ++ t)%list).
Proof. intros p c [t E]. apply (f_equal (@length _)) in E. rewrite !app_length in E. cbn in E. lia. Qed.
Lemma inv_add : forall s n m, Inv s -> new_name mmap n -> (forall m', on_disk files root n m' -> m' = m) -> assoc name_eqb n (sys s) = None ->
  Inv (St ((n, length (heap s)) :: sys s) (heap s ++ [m])).
Proof.
  intros s n m (R & R0 & B & G & AL) HN HD A. split; [|split; [|split; [|split]]].
  - destruct R as [i R]. exists i. unfold module_at in *. cbn [sys assoc]. destruct (name_eqb _ n) eqn:E; [|assumption]. apply name_eqb_iff in E. subst. congruence.
  - assumption.
  - intros q i H. unfold module_at in H. cbn [sys assoc heap] in *. rewrite app_length. cbn. destruct (name_eqb q n); [injection H as <-; lia|]. specialize (B q i H). lia.
  - intros q i m' NQ D H. unfold module_at in H. cbn [sys assoc] in H. destruct (name_eqb q n) eqn:E.
    + apply name_eqb_iff in E. subst q. injection H as <-. rewrite (HD _ D). unfold obj. cbn [heap]. rewrite app_nth2 by lia. rewrite Nat.sub_diag. apply grown_refl.
    + rewrite obj_app by now apply (B q). now apply (G q).
  - intros q t i H M. unfold module_at in *. cbn [sys assoc] in *. destruct (name_eqb q n) eqn:E. { apply name_eqb_iff in E. subst q. rewrite (new_self n HN) in H. discriminate. }
    specialize (AL q t i H M). unfold module_at in AL. destruct (name_eqb t n) eqn:E'; [|assumption]. apply name_eqb_iff in E'. subst. congruence.
Qed.
Lemma new_import : forall fuel s n s' r, Inv s -> new_name mmap n -> imp fuel s n = (s', r) -> added n fuel s s' r.
Proof.
  induction fuel as [|f IH]; intros s n s' r HI HN E; unfold imp in E; cbn [import_module] in E.
  - destruct (assoc name_eqb n (sys s)) as [i|] eqn:A; injection E as <- <-; [now apply added_same|].
    split; [assumption|]. split; [exists []; now rewrite app_nil_r|]. split; [auto|]. split; [auto|]. split; [discriminate|]. split; [intros m D L; pose proof (on_disk_len n m D); lia|auto].
  - destruct (assoc name_eqb n (sys s)) as [i|] eqn:A. { injection E as <- <-. now apply added_same. }
    destruct (length n <=? 1)%nat eqn:L1.
    { injection E as <- <-. split; [assumption|]. split; [exists []; now rewrite app_nil_r|]. split; [auto|]. split; [auto|]. split; [discriminate|]. split; [|auto].
      intros m D _. exfalso. apply Nat.leb_le in L1. apply on_disk_inv in D. destruct D as [[-> _]|(p & c & pm & dirs & -> & D & _)].
      - destruct HI as ((i & Hi) & _). unfold module_at in Hi. congruence.
      - rewrite app_length in L1. cbn in L1. pose proof (on_disk_len p pm D). lia. }
    apply Nat.leb_gt in L1. destruct (split_last n L1) as (p & c & -> & NP & LN). rewrite parent_app in E. destruct (import_module rows mmap files f s p) as [s1 r1] eqn:E1.
    destruct (IH s p s1 r1 HI (new_parent p c HN) E1) as (I1 & (e1 & H1) & X1 & F1 & L & D1 & N1).
    assert (B : assoc name_eqb (p ++ [c]) (sys s1) = None) by (rewrite F1; [assumption|apply not_longer]).
    assert (F1' : forall q, ~ (exists t, (p ++ [c])%list = (q ++ t)%list) -> assoc name_eqb q (sys s1) = assoc name_eqb q (sys s)). { intros q H. apply F1. intros [t ->]. apply H. exists (t ++ [c])%list. now rewrite app_assoc. }
    assert (FAIL : forall r', (forall i, r' <> Loaded i) -> (forall m, on_disk files root (p ++ [c]) m -> (length (p ++ [c]) <= S f)%nat -> False) -> added (p ++ [c]) (S f) s s1 r').
    { intros r' NL ND. split; [assumption|]. split; [now exists e1|]. split; [assumption|]. split; [assumption|]. split; [intros i Q; now elim (NL i)|]. split; [intros m D Q; elim (ND m D Q)|auto]. }
    destruct r1 as [i| |].
    2,3: injection E as <- <-; apply FAIL; [discriminate|]; intros m D Q; destruct (on_disk_sub p c m NP D) as (pm & dirs & D' & _); destruct (D1 pm D') as [i Z]; [rewrite app_length in Q; cbn in Q; lia|discriminate].
    rewrite B in E. specialize (L i eq_refl). rewrite (new_self _ HN) in E. destruct I1 as (R & R0 & BD & G & AL).
    destruct (m_path (obj s1 i)) as [dirs|] eqn:P.
    + unfold load_file in E. rewrite last_last in E. destruct (find_file files dirs c) as [m|] eqn:FF; injection E as <- <-.
      * split; [|split; [|split; [|split; [|split; [|split]]]]].
        -- apply inv_add; [exact (conj R (conj R0 (conj BD (conj G AL))))|assumption|intros m' D|assumption]. destruct (on_disk_sub p c m' NP D) as (pm & dirs' & D' & P' & F'). destruct (G p i pm (new_parent p c HN) D' L) as [_ GP].
           rewrite P' in GP. destruct GP as [x GP]. rewrite P in GP. injection GP as ->. pose proof (find_file_app files dirs' x c m' F'). congruence.
        -- exists (e1 ++ [m])%list. cbn [heap]. now rewrite H1, app_assoc.
        -- intros q j Q. unfold module_at. cbn [sys assoc]. destruct (name_eqb q (p ++ [c])) eqn:EQ; [|now apply X1]. apply name_eqb_iff in EQ. subst q. unfold module_at in Q. congruence.
        -- intros q Q. cbn [sys assoc]. destruct (name_eqb q (p ++ [c])) eqn:EQ; [|now apply F1']. apply name_eqb_iff in EQ. subst q. elim Q. exists []. now rewrite app_nil_r.
        -- intros j [= <-]. unfold module_at. cbn [sys assoc]. now rewrite name_eqb_refl.
        -- intros; now eexists.
        -- intros Q. now elim (Q (length (heap s1))).
      * apply FAIL; [discriminate|]. intros m D Q. destruct (on_disk_sub p c m NP D) as (pm & dirs' & D' & P' & F'). destruct (G p i pm (new_parent p c HN) D' L) as [_ GP].
        rewrite P' in GP. destruct GP as [x GP]. rewrite P in GP. injection GP as ->. pose proof (find_file_app files dirs' x c m F'). congruence.
    + injection E as <- <-. apply FAIL; [discriminate|]. intros m D Q. destruct (on_disk_sub p c m NP D) as (pm & dirs' & D' & P' & F'). destruct (G p i pm (new_parent p c HN) D' L) as [_ GP].
      rewrite P' in GP. destruct GP as [x GP]. congruence.
Qed.

(** merging the candidates *)
Lemma inv_set : forall s b c, Inv s -> (b < length (heap s))%nat -> Inv (set_obj s b (merge (obj s b) c)).
Proof.
  intros s b c (R & R0 & BD & G & AL) HB. split; [exact R|]. split; [exact R0|]. split; [|split; [|exact AL]].
  - intros n i H. unfold set_obj. cbn [heap]. rewrite update_length. now apply (BD n).
  - intros n i m N D H. eapply grown_trans; [now apply (G n i m N D)|]. apply (set_obj_extends s b c HB). now apply (BD n).
Qed.
Lemma added_extends : forall n fuel s s' r, added n fuel s s' r -> Inv s -> extends s s'.
Proof.
  intros n fuel s s' r (I1 & (e & H) & X & _) HI. split; [assumption|]. split; [rewrite H, app_length; lia|]. intros i L. rewrite (obj_heap s s' e i H L). apply grown_refl.
Qed.
Lemma not_new : forall q c, alias mmap q <> None -> new_name mmap c -> ~ (exists t, c = (q ++ t)%list).
Proof. intros q c A N [t E]. apply A. now apply (N q t). Qed.
Lemma merge_ok : forall fuel cs s b, Inv s -> (b < length (heap s))%nat -> (forall c, In c cs -> new_name mmap c) ->
  let s' := merge_all (imp fuel) s b cs in
  Inv s' /\ extends s s' /\ (forall q, alias mmap q <> None -> assoc name_eqb q (sys s') = assoc name_eqb q (sys s)) /\
  (forall i, (i < length (heap s))%nat -> i <> b -> obj s' i = obj s i).
Proof.
  induction cs as [|c cs IH]; intros s b HI HB HC; cbn [merge_all]; cbv zeta.
  - split; [assumption|]. split; [apply extends_refl|]. split; auto.
  - destruct (imp fuel s c) as [s1 r] eqn:E. pose proof (new_import fuel s c s1 r HI (HC c (or_introl eq_refl)) E) as AD. pose proof (added_extends _ _ _ _ _ AD HI) as EX.
    destruct AD as (I1 & (e & H1) & X1 & F1 & L & _). assert (HB1 : (b < length (heap s1))%nat) by (rewrite H1, app_length; lia).
    assert (FR : forall q, alias mmap q <> None -> assoc name_eqb q (sys s1) = assoc name_eqb q (sys s)) by (intros q Q; apply F1; apply not_new; [assumption|apply HC; now left]).
    assert (OB : forall i, (i < length (heap s))%nat -> obj s1 i = obj s i) by (intros i Q; now apply (obj_heap s s1 e)).
    assert (STEP : forall s2, Inv s2 -> extends s1 s2 -> (forall q, alias mmap q <> None -> assoc name_eqb q (sys s2) = assoc name_eqb q (sys s1)) -> (forall i, (i < length (heap s1))%nat -> i <> b -> obj s2 i = obj s1 i) ->
      let s' := merge_all (imp fuel) s2 b cs in Inv s' /\ extends s s' /\ (forall q, alias mmap q <> None -> assoc name_eqb q (sys s') = assoc name_eqb q (sys s)) /\
      (forall i, (i < length (heap s))%nat -> i <> b -> obj s' i = obj s i)).
    { intros s2 I2 EX2 FR2 OB2. assert (HB2 : (b < length (heap s2))%nat) by (destruct EX2 as (_ & Q & _); lia). destruct (IH s2 b I2 HB2) as (J1 & J2 & J3 & J4); [intros; apply HC; now right|]. cbv zeta.
      split; [assumption|]. split; [exact (extends_trans _ _ _ EX (extends_trans _ _ _ EX2 J2))|]. split; [intros q Q; now rewrite J3, FR2, FR|].
      intros i Hi N. assert ((i < length (heap s1))%nat) by (rewrite H1, app_length; lia). rewrite J4; [rewrite OB2; auto| destruct EX2 as (_ & Q & _); lia|assumption]. }
    destruct r as [j| |]; [|now apply STEP; [|apply extends_refl|auto|auto]|now apply STEP; [|apply extends_refl|auto|auto]].
    apply STEP; [now apply inv_set|now apply set_obj_extends|auto|]. intros i _ N. rewrite set_obj_obj by assumption. destruct (Nat.eqb i b) eqn:Q; [apply Nat.eqb_eq in Q; contradiction|reflexivity].
Qed.
Lemma inv_bind : forall s n t b, Inv s -> alias mmap n = Some t -> module_at s t b -> assoc name_eqb n (sys s) = None -> Inv (bind_name s n b).
Proof.
  intros s n t b (R & R0 & BD & G & AL) A T N. split; [|split; [exact R0|split; [|split]]].
  - destruct R as [i R]. exists i. unfold module_at, bind_name in *. cbn [sys assoc]. destruct (name_eqb _ n) eqn:E; [|assumption]. apply name_eqb_iff in E. subst. congruence.
  - intros q i H. unfold module_at, bind_name in H. cbn [sys assoc heap] in *. unfold bind_name. cbn [heap]. destruct (name_eqb q n); [injection H as <-; now apply (BD t)|now apply (BD q)].
  - intros q i m NQ D H. change (obj (bind_name s n b) i) with (obj s i). unfold module_at, bind_name in H. cbn [sys assoc] in H. destruct (name_eqb q n) eqn:E.
    + apply name_eqb_iff in E. subst q. pose proof (new_self n NQ). congruence.
    + now apply (G q).
  - intros q t' i A' M. unfold module_at, bind_name in *. cbn [sys assoc] in *. destruct (name_eqb t' n) eqn:E'.
    + exfalso. apply name_eqb_iff in E'. subst t'. destruct (Hflat q n A') as (_ & Q & _). pose proof (new_self n Q). congruence.
    + destruct (name_eqb q n) eqn:E; [|now apply (AL q)]. apply name_eqb_iff in E. subst q. injection M as <-. congruence.
Qed.
(** every import *)
Lemma import_ok : forall fuel s n s' r, Inv s -> imp fuel s n = (s', r) ->
  Inv s' /\ extends s s' /\ (forall i, r = Loaded i -> module_at s' n i) /\ (forall q, (length n < length q)%nat -> alias mmap q <> None -> assoc name_eqb q (sys s') = assoc name_eqb q (sys s)).
Proof.
  induction fuel as [|f IH]; intros s n s' r HI E; unfold imp in E; cbn [import_module] in E.
  - destruct (assoc name_eqb n (sys s)) as [i|] eqn:A; injection E as <- <-; (split; [assumption|]; split; [apply extends_refl|]; split; [|auto]); [intros j [= <-]; exact A|discriminate].
  - destruct (assoc name_eqb n (sys s)) as [i|] eqn:A. { injection E as <- <-. split; [assumption|]. split; [apply extends_refl|]. split; [intros j [= <-]; exact A|auto]. }
    destruct (length n <=? 1)%nat eqn:L1. { injection E as <- <-. split; [assumption|]. split; [apply extends_refl|]. split; [discriminate|auto]. }
    apply Nat.leb_gt in L1. destruct (split_last n L1) as (p & c & -> & NP & LN). rewrite parent_app in E. destruct (import_module rows mmap files f s p) as [s1 r1] eqn:E1.
    destruct (IH s p s1 r1 HI E1) as (I1 & X1 & L & FR). assert (FR' : forall q, (length (p ++ [c]) < length q)%nat -> alias mmap q <> None -> assoc name_eqb q (sys s1) = assoc name_eqb q (sys s)) by (intros; apply FR; [lia|assumption]).
    destruct r1 as [i| |].
    2,3: injection E as <- <-; (split; [assumption|]; split; [assumption|]; split; [discriminate|assumption]).
    destruct (assoc name_eqb (p ++ [c]) (sys s1)) as [j|] eqn:B. { injection E as <- <-. split; [assumption|]. split; [assumption|]. split; [intros k [= <-]; exact B|assumption]. }
    destruct (m_path (obj s1 i)) as [dirs|] eqn:P. 2:{ injection E as <- <-. split; [assumption|]. split; [assumption|]. split; [discriminate|assumption]. }
    destruct (alias mmap (p ++ [c])) as [t|] eqn:AL.
    + destruct (Hflat _ _ AL) as (_ & NT & NC). unfold load_module in E. destruct (import_module rows mmap files f s1 t) as [s2 r2] eqn:E2.
      pose proof (new_import f s1 t s2 r2 I1 NT E2) as AD. pose proof (added_extends _ _ _ _ _ AD I1) as X2. destruct AD as (I2 & _ & _ & F2 & L2 & _).
      assert (F2' : forall q, alias mmap q <> None -> assoc name_eqb q (sys s2) = assoc name_eqb q (sys s1)) by (intros q Q; apply F2; now apply not_new).
      destruct r2 as [b| |].
      2,3: injection E as <- <-; (split; [assumption|]; split; [eapply extends_trans; eassumption|]; split; [discriminate|intros q Q1 Q2; rewrite F2' by assumption; now apply FR']).
      specialize (L2 b eq_refl). assert (HB : (b < length (heap s2))%nat) by now apply I2 in L2. destruct (merge_ok f (candidates rows (p ++ [c]) t) s2 b I2 HB NC) as (I3 & X3 & F3 & _). unfold imp in *. set (s3 := merge_all (import_module rows mmap files f) s2 b (candidates rows (p ++ [c]) t)) in *. clearbody s3.
      injection E as <- <-. assert (N3 : assoc name_eqb (p ++ [c]) (sys s3) = None) by (rewrite F3, F2' by congruence; exact B).
      split; [eapply inv_bind; [exact I3|exact AL|now apply X3|exact N3]|]. split.
      * eapply extends_trans; [exact X1|]. eapply extends_trans; [exact X2|]. eapply extends_trans; [exact X3|]. split; [|split; [cbn; lia|intros; apply grown_refl]].
        intros q j Q. unfold module_at, bind_name in *. cbn [sys assoc]. destruct (name_eqb q (p ++ [c])) eqn:EQ; [|assumption]. apply name_eqb_iff in EQ. subst q. congruence.
      * split; [intros j [= <-]; unfold module_at, bind_name; cbn [sys assoc]; now rewrite name_eqb_refl|]. intros q Q1 Q2. unfold bind_name. cbn [sys assoc]. destruct (name_eqb q (p ++ [c])) eqn:EQ; [apply name_eqb_iff in EQ; subst q; lia|].
        rewrite F3, F2' by assumption. now apply FR'.
    + unfold load_file in E. rewrite last_last in E. destruct (find_file files dirs c) as [m|] eqn:FF; injection E as <- <-.
      2:{ split; [assumption|]. split; [assumption|]. split; [discriminate|assumption]. }
      destruct I1 as (R & R0 & BD & G & AI). assert (DM : new_name mmap (p ++ [c]) -> forall m', on_disk files root (p ++ [c]) m' -> m' = m).
      { intros NN m' D. destruct (on_disk_sub p c m' NP D) as (pm & dirs' & D' & P' & F'). destruct (G p i pm (new_parent p c NN) D' (L i eq_refl)) as [_ GP].
        rewrite P' in GP. destruct GP as [x GP]. rewrite P in GP. injection GP as ->. pose proof (find_file_app files dirs' x c m' F'). congruence. }
      split; [|split; [|split]].
      * split; [|split; [exact R0|split; [|split]]].
        -- destruct R as [k R]. exists k. unfold module_at in *. cbn [sys assoc]. destruct (name_eqb _ _) eqn:EQ; [|assumption]. apply name_eqb_iff in EQ. rewrite EQ in R. congruence.
        -- intros q k H. unfold module_at in H. cbn [sys assoc heap] in *. rewrite app_length. cbn. destruct (name_eqb q _); [injection H as <-; lia|]. specialize (BD q k H). lia.
        -- intros q k m' NQ D H. unfold module_at in H. cbn [sys assoc] in H. destruct (name_eqb q _) eqn:EQ.
           ++ apply name_eqb_iff in EQ. subst q. injection H as <-. rewrite (DM NQ _ D). unfold obj. cbn [heap]. rewrite app_nth2 by lia. rewrite Nat.sub_diag. apply grown_refl.
           ++ rewrite obj_app by now apply (BD q). now apply (G q).
        -- intros q t k H M. unfold module_at in *. cbn [sys assoc] in *. destruct (name_eqb q _) eqn:EQ. { apply name_eqb_iff in EQ. subst q. congruence. }
           specialize (AI q t k H M). unfold module_at in AI. destruct (name_eqb t _) eqn:EQ'; [|assumption]. apply name_eqb_iff in EQ'. subst. congruence.
      * eapply extends_trans; [exact X1|]. split; [|split; [cbn [heap]; rewrite app_length; lia|]].
        -- intros q j Q. unfold module_at in *. cbn [sys assoc]. destruct (name_eqb q _) eqn:EQ; [|assumption]. apply name_eqb_iff in EQ. subst q. congruence.
        -- intros k K. rewrite obj_app by assumption. apply grown_refl.
      * intros j [= <-]. unfold module_at. cbn [sys assoc]. now rewrite name_eqb_refl.
      * intros q Q1 Q2. cbn [sys assoc]. destruct (name_eqb q _) eqn:EQ; [apply name_eqb_iff in EQ; subst q; lia|]. now apply FR'.
Qed.
Lemma history_inv : forall s0 s, Inv s0 -> history rows mmap files s0 s -> Inv s /\ extends s0 s.
Proof.
  intros s0 s H0 H. induction H as [|s n fuel H IH]; [split; [assumption|apply extends_refl]|]. destruct IH as [I E]. destruct (import_module rows mmap files fuel s n) as [s' r] eqn:Q.
  destruct (import_ok fuel s n s' r I Q) as (I' & E' & _). split; [assumption|]. eapply extends_trans; eassumption.
Qed.
(** success *)
Variable bound : nat.
Hypothesis Hbound : forall n t, alias mmap n = Some t -> (length t <= bound)%nat.
Lemma import_succeeds : forall n t, stands_for mmap files root n t -> forall fuel s, Inv s -> (length n + bound <= fuel)%nat ->
  exists s' i, imp fuel s n = (s', Loaded i) /\ module_at s' n i /\ module_at s' t i.
Proof.
  intros n t H. induction H as [n m N D|n t m p pm d A D SP IH DP PP]; intros fuel s HI HF.
  - destruct (imp fuel s n) as [s' r] eqn:E. pose proof (new_import fuel s n s' r HI N E) as (_ & _ & _ & _ & L & S1 & _). destruct (S1 m D ltac:(lia)) as [i ->]. exists s', i. split; [reflexivity|]. split; now apply L.
  - destruct (Hflat n t A) as (LN & NT & NC). destruct fuel as [|f]; [lia|]. destruct (imp (S f) s n) as [s' r] eqn:E. pose proof (import_ok (S f) s n s' r HI E) as (I' & _ & L' & _).
    assert (LL : exists i, r = Loaded i).
    { unfold imp in E. cbn [import_module] in E. destruct (assoc name_eqb n (sys s)) as [i|] eqn:B; [injection E as <- <-; now exists i|]. destruct (length n <=? 1)%nat eqn:L1; [apply Nat.leb_le in L1; lia|].
      destruct (split_last n LN) as (q & c & EN & NP & LQ). assert (PQ : parent n = q) by (rewrite EN; apply parent_app). change (removelast n) with (parent n) in *. rewrite PQ in *.
      destruct (IH f s HI) as (s1 & i & E1 & M1 & M2); [lia|]. unfold imp in E1. rewrite E1 in E. destruct (import_ok f s q s1 (Loaded i) HI E1) as (I1 & _). destruct (assoc name_eqb n (sys s1)) as [j|]; [injection E as <- <-; now exists j|].
      assert (exists x, m_path (obj s1 i) = Some x) as [x PX].
      { inversion SP as [n0 m0 NN0 D0|n0 t0 m0 p0 pm0 d0 A0 D0 S0 D1 P0]; subst.
        - destruct I1 as (_ & _ & _ & G & _). destruct (G p i pm NN0 DP M1) as [_ GP]. rewrite PP in GP. destruct GP as [y ->]. now eexists.
        - destruct (Hflat _ _ A0) as (_ & NP0 & _). destruct I1 as (_ & _ & _ & G & _). destruct (G p i pm NP0 DP M2) as [_ GP]. rewrite PP in GP. destruct GP as [y ->]. now eexists. }
      rewrite PX, A in E. unfold load_module in E. destruct (import_module rows mmap files f s1 t) as [s2 r2] eqn:E2. pose proof (new_import f s1 t s2 r2 I1 NT E2) as (_ & _ & _ & _ & _ & S2 & _).
      destruct (S2 m D) as [b ->]. { specialize (Hbound n t A). lia. } injection E as <- <-. now exists b. }
    destruct LL as [i ->]. exists s', i. split; [reflexivity|]. split; [now apply L'|]. destruct I' as (_ & _ & _ & _ & AI). apply (AI n t i A). now apply L'.
Qed.
(** what the merged module holds *)
Lemma merge_attr : forall fuel k cs s b, Inv s -> (b < length (heap s))%nat -> (forall c, In c cs -> new_name mmap c) ->
  let s' := merge_all (imp fuel) s b cs in
  (forall c, In c cs -> (exists m, on_disk files root c m /\ (length c <= fuel)%nat) \/ assoc name_eqb c (sys s') = None) ->
  attr (obj s' b) k = match attr (obj s b) k with Some v => Some v | None => if mem String.eqb k own_names then None else first_value s' k cs end.
Proof.
  induction cs as [|c cs IH]; intros s b HI HB HC s' HD.
  - cbn [merge_all] in s'. cbn [first_value]. unfold s'. destruct (attr (obj s b) k); [reflexivity|]. now destruct (mem _ _ _).
  - unfold s' in *. clear s'. cbn [merge_all] in *. destruct (imp fuel s c) as [s1 r] eqn:E. pose proof (new_import fuel s c s1 r HI (HC c (or_introl eq_refl)) E) as (I1 & (e & H1) & X1 & _ & L & D1 & N1).
    assert (HB1 : (b < length (heap s1))%nat) by (rewrite H1, app_length; lia). assert (OB : obj s1 b = obj s b) by now apply (obj_heap s s1 e).
    assert (HC' : forall c0, In c0 cs -> new_name mmap c0) by (intros; apply HC; now right).
    destruct r as [j| |].
    + specialize (L j eq_refl). set (s2 := set_obj s1 b (merge (obj s1 b) (obj s1 j))) in *. assert (I2 : Inv s2) by now apply inv_set. assert (HB2 : (b < length (heap s2))%nat) by (unfold s2, set_obj; cbn [heap]; now rewrite update_length).
      assert (HJ : (j < length (heap s1))%nat) by now apply I1 in L. destruct (merge_ok fuel cs s2 b I2 HB2 HC') as (_ & X3 & _ & O3). cbv zeta in *.
      specialize (IH s2 b I2 HB2 HC'). cbv zeta in IH. specialize (IH (fun c0 Q => HD c0 (or_intror Q))). set (s3 := merge_all (imp fuel) s2 b cs) in *.
      assert (A2 : attr (obj s2 b) k = match attr (obj s b) k with Some v => Some v | None => if mem String.eqb k own_names then None else attr (obj s1 j) k end).
      { unfold s2. rewrite set_obj_obj by assumption. rewrite Nat.eqb_refl, OB. unfold attr, merge. cbn [m_dict]. apply copy_attr. }
      rewrite A2 in IH. destruct (attr (obj s b) k) as [v|] eqn:A; [exact IH|]. destruct (mem String.eqb k own_names) eqn:M; [exact IH|]. cbn [first_value].
      assert (L3 : assoc name_eqb c (sys s3) = Some j) by now apply X3. rewrite L3. destruct (Nat.eq_dec j b) as [->|NB].
      * rewrite OB, A in IH. rewrite IH. now destruct (first_value s3 k cs).
      * rewrite IH. rewrite (O3 j) by (try assumption; unfold s2, set_obj; cbn [heap]; rewrite update_length; assumption). unfold s2. rewrite set_obj_obj by assumption. apply Nat.eqb_neq in NB. rewrite NB. reflexivity.
    + specialize (IH s1 b I1 HB1 HC'). cbv zeta in IH. rewrite IH by (intros c0 Q; apply HD; now right). rewrite OB. cbn [first_value].
      destruct (HD c (or_introl eq_refl)) as [(m & D & LF)| ->]; [destruct (D1 m D LF); discriminate|reflexivity].
    + specialize (IH s1 b I1 HB1 HC'). cbv zeta in IH. rewrite IH by (intros c0 Q; apply HD; now right). rewrite OB. cbn [first_value].
      destruct (HD c (or_introl eq_refl)) as [(m & D & LF)| ->]; [destruct (D1 m D LF); discriminate|reflexivity].
Qed.
End Fixed.
