(** Lemmas for C136 *)
From Coq Require Import Reals List ZArith Lra Lia.
From Verif Require Import Prelude PkModel PkSpec PkSpec2 PkProofs PkMore PkTwo PkfModel PkfSpec.
Import ListNotations.
Local Open Scope R_scope.
Local Notation length := List.length.

Lemma list_max_in v t : In (list_max v t) (v :: t).
Proof.
  induction t as [|x t IH]; [left; reflexivity|]. cbn [list_max]. unfold Rmax. destruct (Rle_dec x (list_max v t)).
  - destruct IH as [E|E]; [left; exact E|right; right; exact E].
  - right. left. reflexivity.
Qed.
Lemma list_max_ge v t x : In x (v :: t) -> x <= list_max v t.
Proof.
  induction t as [|y t IH]; cbn [list_max].
  - intros [<-|[]]. lra.
  - intros [E|[E|E]].
    + pose proof (Rmax_r y (list_max v t)). pose proof (IH (or_introl E)). lra.
    + subst. apply Rmax_l.
    + pose proof (Rmax_r y (list_max v t)). pose proof (IH (or_intror E)). lra.
Qed.
Lemma np_max_ok l : l <> [] -> exists m, np_max l = Ok m /\ In m l /\ forall x, In x l -> x <= m.
Proof. intros H. destruct l as [|v t]; [destruct (H eq_refl)|]. exists (list_max v t). split; [reflexivity|]. split; [apply list_max_in|apply list_max_ge]. Qed.
Lemma np_min_ok l : l <> [] -> exists m, np_min l = Ok m /\ In m l /\ forall x, In x l -> m <= x.
Proof.
  intros H. unfold np_min. destruct (np_max_ok (map Ropp l)) as (m & E & Hi & Hm); [destruct l; [destruct (H eq_refl)|discriminate]|].
  rewrite E. cbn [rbind]. exists (- m). apply in_map_iff in Hi. destruct Hi as (x & <- & Hx). split; [reflexivity|]. rewrite Ropp_involutive. split; [exact Hx|].
  intros y Hy. specialize (Hm (- y)). assert (In (- y) (map Ropp l)) by (apply in_map; exact Hy). specialize (Hm H0). lra.
Qed.
Lemma spanned_iff xs lo hi c : In lo xs -> (forall x, In x xs -> lo <= x) -> In hi xs -> (forall x, In x xs -> x <= hi) -> (spanned xs c <-> lo <= c <= hi).
Proof.
  intros H1 H2 H3 H4. split.
  - intros ((x & Hx & a) & (y & Hy & b)). specialize (H2 x Hx). specialize (H4 y Hy). lra.
  - intros (a & b). split; [exists lo; auto|exists hi; auto].
Qed.

(** ** residuals *)
Lemma peak_values_ok pink k c0 c1 xs : proper k ->
  peak_values pink (kind k) (params k ++ [c0; c1]) xs = Ok (map (on_line (height k) c0 c1) xs).
Proof.
  destruct k; cbn [proper kind params app peak_values height]; intros H.
  - unfold gaussian1d. cbn [at_ nth_error rbind firstn]. apply over_line, gaussian_no_bg_ok; exact H.
  - unfold lorentzian1d. cbn [at_ nth_error rbind firstn]. apply over_line, lorentzian_no_bg_ok; exact H.
  - unfold pvoigt1d. cbn [at_ nth_error rbind firstn]. apply over_line, pvoigt_no_bg_ok; exact H.
  - unfold split_pvoigt1d. cbn [at_ nth_error rbind firstn]. apply over_line, split_no_bg_ok; tauto.
Qed.
Lemma combine_map_l {A B C} (f : A -> B) (l : list A) (m : list C) : combine (map f l) m = map (fun q => (f (fst q), snd q)) (combine l m).
Proof. revert m; induction l as [|a l IH]; intros [|b m]; cbn; try reflexivity. rewrite IH. reflexivity. Qed.
Lemma minus_ok k c0 c1 xs ys : length ys = length xs ->
  minus (map (on_line (height k) c0 c1) xs) ys = Ok (map (fun q => Some (misfit k c0 c1 q)) (combine xs ys)).
Proof.
  intros H. unfold minus. rewrite map_length, H, Nat.eqb_refl. f_equal. rewrite combine_map_l, map_map. apply map_ext. intros [x y]. cbn [fst snd on_line nadd]. unfold misfit. cbn [fst snd]. f_equal.
Qed.
Lemma zeros_map {A} (g : A -> R) l : zeros (map (fun q => Some (g q)) l) <-> Forall (fun q => g q = 0) l.
Proof. unfold zeros. rewrite Forall_map. split; intros H; (eapply Forall_impl; [|exact H]); cbn; intros a E; congruence. Qed.
Lemma zeros_app a b : zeros (a ++ b) <-> zeros a /\ zeros b.
Proof. apply Forall_app. Qed.
Lemma penalty_zero w v a b : w <> 0 -> (w * Rmax (Rmax (- (v - a)) 0) (v - b) = 0 <-> a <= v <= b).
Proof.
  intros Hw. pose proof (Rmax_l (Rmax (- (v - a)) 0) (v - b)) as m1. pose proof (Rmax_r (Rmax (- (v - a)) 0) (v - b)) as m2.
  pose proof (Rmax_l (- (v - a)) 0) as m3. pose proof (Rmax_r (- (v - a)) 0) as m4. split.
  - intros E. apply Rmult_integral in E. destruct E as [E|E]; [contradiction|]. lra.
  - intros (h1 & h2). assert (Rmax (- (v - a)) 0 = 0) by (apply Rmax_right; lra). rewrite H. rewrite Rmax_left by lra. ring.
Qed.
Definition paired (lb ub : list (option R)) : Prop := Forall2 (fun l u => (l = None <-> u = None)) lb ub.
Lemma penalties_ok w p : w <> 0 -> forall lb ub, length lb = length p -> paired lb ub ->
  exists r, penalties w p lb ub = Ok r /\ (zeros r <-> within p lb ub).
Proof.
  intros Hw. induction p as [|v p IH]; intros lb ub L P.
  - destruct lb; [|discriminate L]. inversion P; subst. exists []. split; [reflexivity|]. split; [intros _; exact I|constructor].
  - destruct lb as [|l lb]; [discriminate L|]. inversion P as [|? u ? ub' Hlu P']; subst. injection L as L. destruct (IH lb ub' L P') as (r & E & Z).
    cbn [penalties]. rewrite E. cbn [rbind within]. destruct l as [a|].
    + destruct u as [b|]; [|destruct Hlu as (_ & G); discriminate (G eq_refl)]. eexists. split; [reflexivity|]. unfold zeros in *. rewrite Forall_cons_iff, Z.
      pose proof (penalty_zero w v a b Hw) as K. split.
      * intros (h1 & h2). injection h1 as h1. apply K in h1. tauto.
      * intros (h1 & h2 & h3). split; [f_equal; apply K; lra|exact h3].
    + eexists. split; [reflexivity|]. assert (u = None) by (apply Hlu; reflexivity). subst u. unfold zeros in *. rewrite Forall_cons_iff, Z. tauto.
Qed.
Lemma bnded_ok pink k c0 c1 xs ys w lb ub : proper k -> kind k = Pvoigt \/ kind k = SplitPvoigt -> length ys = length xs -> w <> 0 ->
  length lb = length (params k ++ [c0; c1])%list -> paired lb ub ->
  exists r, fit_pk_obj_1d_bnded pink (params k ++ [c0; c1]) xs ys (kind k) w lb ub = Ok r /\
    (zeros r <-> exact k c0 c1 xs ys /\ within (params k ++ [c0; c1]) lb ub).
Proof.
  intros Hp Hk L Hw Ll P. unfold fit_pk_obj_1d_bnded.
  replace (match kind k with TanhStepdown => Err LookupError | _ => peak_values pink (kind k) (params k ++ [c0; c1]) xs end) with (peak_values pink (kind k) (params k ++ [c0; c1]) xs)
    by (destruct Hk as [-> | ->]; reflexivity).
  rewrite peak_values_ok by exact Hp. cbn [rbind]. rewrite minus_ok by exact L. cbn [rbind].
  destruct (penalties_ok w _ Hw lb ub Ll P) as (r & E & Z). rewrite E. cbn [rbind]. eexists. split; [reflexivity|].
  rewrite zeros_app, Z, zeros_map. reflexivity.
Qed.

(** ** indices of extrema *)
Lemma argmin_from_spec l : forall best bi i, let r := argmin_from best bi i l in
  (r = bi /\ (forall v, In v l -> best <= v)) \/ (exists j v, r = (i + j)%nat /\ nth_error l j = Some v /\ v < best /\ (forall u, In u l -> v <= u)).
Proof.
  induction l as [|x l IH]; intros best bi i; cbn [argmin_from].
  - left. split; [reflexivity|intros v []].
  - destruct (Rlt_dec x best) as [h|h].
    + destruct (IH x i (S i)) as [(E & H)|(j & v & E & H1 & H2 & H3)].
      * right. exists 0%nat, x. rewrite E. split; [lia|]. split; [reflexivity|]. split; [exact h|]. intros u [<-|Hu]; [lra|apply H; exact Hu].
      * right. exists (S j), v. rewrite E. split; [lia|]. split; [exact H1|]. split; [lra|]. intros u [<-|Hu]; [lra|apply H3; exact Hu].
    + destruct (IH best bi (S i)) as [(E & H)|(j & v & E & H1 & H2 & H3)].
      * left. split; [exact E|]. intros v [<-|Hv]; [lra|apply H; exact Hv].
      * right. exists (S j), v. rewrite E. split; [lia|]. split; [exact H1|]. split; [exact H2|]. intros u [<-|Hu]; [lra|apply H3; exact Hu].
Qed.
Lemma argmin_ok l : l <> [] -> exists i v, argmin l = Ok i /\ nth_error l i = Some v /\ forall u, In u l -> v <= u.
Proof.
  intros H. destruct l as [|x l]; [destruct (H eq_refl)|]. cbn [argmin]. destruct (argmin_from_spec l x 0 1) as [(E & G)|(j & v & E & H1 & H2 & H3)]; rewrite E.
  - exists 0%nat, x. split; [reflexivity|]. split; [reflexivity|]. intros u [<-|Hu]; [lra|apply G; exact Hu].
  - exists (S j), v. split; [reflexivity|]. split; [exact H1|]. intros u [<-|Hu]; [lra|apply H3; exact Hu].
Qed.
Lemma argmax_ok l : l <> [] -> exists i v, argmax l = Ok i /\ nth_error l i = Some v /\ forall u, In u l -> u <= v.
Proof.
  intros H. unfold argmax. destruct (argmin_ok (map Ropp l)) as (i & v & E & N & G); [destruct l; [destruct (H eq_refl)|discriminate]|].
  rewrite nth_error_map in N. destruct (nth_error l i) as [w|] eqn:W; [|discriminate N]. injection N as N. exists i, w. split; [exact E|]. split; [exact W|].
  intros u Hu. assert (In (- u) (map Ropp l)) by (apply in_map; exact Hu). specialize (G _ H0). lra.
Qed.
Lemma last_change {A} (l : list A) (a b : A) : l <> [] -> last l a = last l b.
Proof. induction l as [|x [|y l] IH]; intros H; [destruct (H eq_refl)|reflexivity|]. cbn [last]. apply IH. discriminate. Qed.
Lemma increasing_le xs : forall a, increasing (a :: xs) -> a <= last xs a.
Proof.
  induction xs as [|b xs IH]; intros a H; [cbn; lra|]. destruct H as (h & H). specialize (IH b H).
  destruct xs as [|c xs]; [cbn; lra|]. change (last (b :: c :: xs) a) with (last (c :: xs) a). rewrite (last_change (c :: xs) a b) by discriminate. lra.
Qed.
