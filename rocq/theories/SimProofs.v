From Coq Require Import Reals Lra.
From Verif Require Import Prelude XfModel XfSpec XfTrig XfRanges RotModel RotProofs2 SimModel SimSpec.
Local Open Scope R_scope.

Lemma in_range_takes : forall ccw a r, exists b, in_range_nan ccw a r = Ok b /\ (b = true <-> takes ccw r a).
Proof.
  intros ccw [x|] r; cbn [in_range_nan].
  - destruct (in_range_char ccw x r) as (w & th & W & T & b & E & I). exists b. split; auto. rewrite I. unfold takes. split.
    + intros C. exists w. split. { now apply arc_wrapped. } destruct C as [C|C]; [left; exact C|right]. exists th. split; [now apply arc_wrapped|exact C].
    + intros (w' & A & C). apply arc_wrapped in A. rewrite (wrapped_unique _ _ _ A W) in *. destruct C as [C|(th' & A' & C)]; [now left|right].
      apply arc_wrapped in A'. now rewrite (wrapped_unique _ _ _ A' T) in C.
  - destruct r as [mn mx]. destruct (wrap_ok (arc_stop ccw (mn, mx) - arc_start ccw (mn, mx))) as (w & Ew & W). pose proof W as [Wb _].
    assert (P : exists s t, (if ccw then (mn, mx) else (mx, mn)) = (s, t) /\ s = arc_start ccw (mn, mx) /\ t = arc_stop ccw (mn, mx)) by (destruct ccw; eexists _, _; repeat split).
    destruct P as (s & t & -> & Es & Et). rewrite <- Es, <- Et in *. rewrite Ew. cbn [rbind].
    assert (K : (if ccw then if Rlt_dec mn mx then true else false else if Rlt_dec mx mn then true else false) = true <-> s < t).
    { subst s t. destruct ccw; cbn [arc_start arc_stop fst snd]; destruct (Rlt_dec _ _); split; intros; auto; try lra; discriminate. }
    destruct (if ccw then if Rlt_dec mn mx then true else false else if Rlt_dec mx mn then true else false) eqn:Q.
    all: unfold takes; rewrite <- Es, <- Et; pose proof two_pi_pos as PP.
    all: assert (U : forall w', arc_length s t w' -> w' = w) by (intros w' A; apply arc_wrapped in A; now apply (wrapped_unique _ _ _ A W)).
    all: assert (AL : arc_length s t w) by now apply arc_wrapped.
    all: rewrite (Rabs_right w) by lra; destruct (Rlt_dec w c_sqrt_epsf) as [L|L].
    1, 3: exists true; split; auto; split; auto; intros _; exists w; split; auto.
    + destruct (Rlt_dec (Rabs (w - two_pi)) c_sqrt_epsf) as [M|M].
      * exists true. split; auto. split; auto. intros _. exists w. split; auto. right. rewrite Rabs_left1 in M by lra. unfold tolerance, c_sqrt_epsf, two_pi in *. split; [lra|]. now apply K.
      * exists false. split; auto. split; [discriminate|]. intros (w' & A & C). rewrite (U w' A) in C. exfalso. rewrite Rabs_left1 in M by lra. unfold tolerance, c_sqrt_epsf, two_pi in *. lra.
    + exists false. split. { now destruct (Rlt_dec (Rabs (w - two_pi)) c_sqrt_epsf). }
      split; [discriminate|]. intros (w' & A & C). rewrite (U w' A) in C. exfalso. destruct C as [C|[_ C]]; [unfold tolerance, c_sqrt_epsf in *; lra|]. apply K in C. discriminate.
Qed.
Definition tk (ccw : bool) (r : R * R) (a : option R) : bool := match in_range_nan ccw a r with Ok b => b | Err _ => false end.
Lemma tk_ok : forall ccw r a, in_range_nan ccw a r = Ok (tk ccw r a).
Proof. intros. unfold tk. destruct (in_range_takes ccw a r) as (b & E & _). now rewrite E. Qed.
Lemma tk_iff : forall ccw r a, tk ccw r a = true <-> takes ccw r a.
Proof. intros. unfold tk. destruct (in_range_takes ccw a r) as (b & E & I). rewrite E. exact I. Qed.
Lemma map_result_map : forall {A B} (f : A -> result B) (g : A -> B) l, (forall x, f x = Ok (g x)) -> map_result f l = Ok (map g l).
Proof. intros A B f g l H. induction l as [|x l IH]; cbn [map_result map]; auto. now rewrite H, IH. Qed.
Lemma or_map : forall {A} (f g : A -> bool) l, logical_or (map f l) (map g l) = map (fun a => f a || g a)%bool l.
Proof. intros. unfold logical_or. induction l as [|x l IH]; cbn; auto. now rewrite IH. Qed.
Lemma and_map : forall {A} (f g : A -> bool) l, logical_and (map f l) (map g l) = map (fun a => f a && g a)%bool l.
Proof. intros. unfold logical_and. induction l as [|x l IH]; cbn; auto. now rewrite IH. Qed.
Lemma zeros_map : forall {A} (l : list A), repeat false (List.length l) = map (fun _ => false) l.
Proof. induction l; cbn; congruence. Qed.
Fixpoint eta_ok (etas : list (R * R)) (a : option R) : bool := match etas with [] => false | r :: t => tk true r a || eta_ok t a end.
Fixpoint ome_ok (c : bool) (omes : list (R * R)) (a : option R) : bool :=
  match omes with [] => false | r :: t => let c := if Rlt_dec (snd r - fst r) 0 then false else c in tk c r a || ome_ok c t a end.
Lemma eta_mask_ok : forall angles etas f, eta_mask angles (map f angles) etas = Ok (map (fun a => f a || eta_ok etas (eta_of a))%bool angles).
Proof.
  intros angles. induction etas as [|r t IH]; intros f; cbn [eta_mask eta_ok].
  - f_equal. apply map_ext. intros. now rewrite orb_false_r.
  - rewrite (map_result_map _ (fun a => tk true r (eta_of a))) by (intros; apply tk_ok). cbn [rbind]. rewrite or_map, IH. f_equal. apply map_ext. intros. now rewrite orb_assoc.
Qed.
Lemma ome_mask_ok : forall angles omes c f, ome_mask angles c (map f angles) omes = Ok (map (fun a => f a || ome_ok c omes (ome_of a))%bool angles).
Proof.
  intros angles. induction omes as [|r t IH]; intros c f; cbn [ome_mask ome_ok].
  - f_equal. apply map_ext. intros. now rewrite orb_false_r.
  - set (c' := if Rlt_dec (snd r - fst r) 0 then false else c).
    rewrite (map_result_map _ (fun a => tk c' r (ome_of a))) by (intros; apply tk_ok). cbn [rbind]. rewrite or_map, IH. f_equal. apply map_ext. intros. now rewrite orb_assoc.
Qed.
Lemma eta_ok_iff : forall etas a, eta_ok etas a = true <-> taken_ccw etas a.
Proof.
  unfold taken_ccw. induction etas as [|r t IH]; intros a; cbn [eta_ok].
  - split; [discriminate|]. now intros (r & [] & _).
  - rewrite orb_true_iff, tk_iff, IH. split.
    + intros [T|(r' & I & T)]; [exists r|exists r']; cbn; auto.
    + intros (r' & [<-|I] & T); [now left|right]. now exists r'.
Qed.
Lemma ome_ok_iff : forall omes c a, ome_ok c omes a = true <->
  exists i r b, nth_error omes i = Some r /\ (b = false <-> c = false \/ exists j r', (j <= i)%nat /\ nth_error omes j = Some r' /\ decreasing r') /\ takes b r a.
Proof.
  induction omes as [|r t IH]; intros c a; cbn [ome_ok].
  - split; [discriminate|]. intros ([|i] & r & b & E & _); discriminate.
  - set (c' := if Rlt_dec (snd r - fst r) 0 then false else c).
    assert (C : c' = false <-> c = false \/ decreasing r). { unfold c', decreasing. destruct (Rlt_dec _ _) as [L|L]; split; intros Q; auto. { right. lra. } destruct Q; [auto|lra]. }
    rewrite orb_true_iff, tk_iff, IH. split.
    + intros [T|(i & r' & b & E & B & T)].
      * exists 0%nat, r, c'. split; auto. split; auto. rewrite C. split; intros [H|H]; auto.
        { right. exists 0%nat, r. auto. } destruct H as (j & r' & L & E & D). assert (j = 0%nat) as -> by lia. injection E as <-. auto.
      * exists (S i), r', b. split; auto. split; auto. rewrite B, C. split.
        { intros [[H|H]|(j & q & L & E' & D)]; auto. { right. exists 0%nat, r. repeat split; auto; lia. } right. exists (S j), q. repeat split; auto. lia. }
        { intros [H|([|j] & q & L & E' & D)]; auto. { injection E' as <-. auto. } right. exists j, q. repeat split; auto. lia. }
    + intros ([|i] & r' & b & E & B & T).
      * injection E as <-. left. assert (b = c') as <-; auto. destruct b, c'; auto.
        { exfalso. assert (true = false); [|discriminate]. apply B. destruct (proj1 C eq_refl); auto. right. exists 0%nat, r. auto. }
        { exfalso. assert (true = false); [|discriminate]. apply C. destruct (proj1 B eq_refl) as [H|(j & q & L & E & D)]; auto. assert (j = 0%nat) as -> by lia. injection E as <-. auto. }
      * right. exists i, r', b. split; auto. split; auto. rewrite B, C. split.
        { intros [H|([|j] & q & L & E' & D)]; auto. { injection E' as <-. auto. } right. exists j, q. repeat split; auto. lia. }
        { intros [[H|H]|(j & q & L & E' & D)]; auto. { right. exists 0%nat, r. repeat split; auto; lia. } right. exists (S j), q. repeat split; auto. lia. }
Qed.
Lemma ome_ok_sticky : forall omes a, ome_ok true omes a = true <-> taken_sticky omes a.
Proof.
  intros. rewrite ome_ok_iff. unfold taken_sticky. split; intros (i & r & b & E & B & T); exists i, r, b; split; auto; split; auto; rewrite B; intuition discriminate.
Qed.
Definition row_ok (etas omes : list (R * R)) (a : option angs) : bool := eta_ok etas (eta_of a) && ome_ok true omes (ome_of a).
Lemma row_ok_iff : forall etas omes a, row_ok etas omes a = true <-> taken_ccw etas (eta_of a) /\ taken_sticky omes (ome_of a).
Proof. intros. unfold row_ok. now rewrite andb_true_iff, eta_ok_iff, ome_ok_sticky. Qed.
Definition sel {A} (x : list A) (m : list bool) : list A := map fst (filter snd (combine x m)).
Lemma select_ok : forall {A} (x : list A) m, List.length x = List.length m -> select x m = Ok (sel x m).
Proof. intros. unfold select. now rewrite (proj2 (Nat.eqb_eq _ _) H). Qed.
Lemma select_bad : forall {A} (x : list A) m, List.length x <> List.length m -> select x m = Err IndexError.
Proof. intros. unfold select. now rewrite (proj2 (Nat.eqb_neq _ _) H). Qed.
Lemma sel_fst : forall {A B} (f : B -> bool) (rows : list (A * B)), sel (map fst rows) (map (fun p => f (snd p)) rows) = map fst (filter (fun p => f (snd p)) rows).
Proof. intros. unfold sel. induction rows as [|[a b] l IH]; cbn; auto. destruct (f b); cbn; now rewrite IH. Qed.
Lemma sel_snd : forall {A B} (f : B -> bool) (rows : list (A * B)), sel (map snd rows) (map (fun p => f (snd p)) rows) = map snd (filter (fun p => f (snd p)) rows).
Proof. intros. unfold sel. induction rows as [|[a b] l IH]; cbn; auto. destruct (f b); cbn; now rewrite IH. Qed.
Lemma filter_eval : forall {H} (hkls : list H) angles etas omes,
  filter_hkls_eta_ome hkls angles etas omes =
  do a <- select angles (map (row_ok etas omes) angles); do h <- select (hkls ++ hkls) (map (row_ok etas omes) angles); Ok (a, h, map (row_ok etas omes) angles).
Proof.
  intros. unfold filter_hkls_eta_ome. rewrite zeros_map, eta_mask_ok. cbn [rbind]. rewrite ome_mask_ok. cbn [rbind]. rewrite and_map. reflexivity.
Qed.
Lemma combine_split_map : forall {A B} (x : list A) (y : list B), List.length x = List.length y -> map fst (combine x y) = x /\ map snd (combine x y) = y.
Proof. induction x as [|a x IH]; intros [|b y] H; cbn in *; try discriminate; auto. destruct (IH y) as [E F]; [lia|]. now rewrite E, F. Qed.
Lemma filter_rows : forall {H} (hkls : list H) angles etas omes, List.length angles = (2 * List.length hkls)%nat ->
  let rows := filter (fun p => row_ok etas omes (snd p)) (combine (hkls ++ hkls) angles) in
  filter_hkls_eta_ome hkls angles etas omes = Ok (map snd rows, map fst rows, map (row_ok etas omes) angles).
Proof.
  intros H hkls angles etas omes L rows. rewrite filter_eval.
  assert (LL : List.length (hkls ++ hkls) = List.length angles) by (rewrite app_length; lia).
  rewrite !select_ok by (rewrite ?map_length; auto). cbn [rbind].
  destruct (combine_split_map (hkls ++ hkls) angles LL) as [E F].
  assert (M : map (row_ok etas omes) angles = map (fun p => row_ok etas omes (snd p)) (combine (hkls ++ hkls) angles)).
  { transitivity (map (row_ok etas omes) (map snd (combine (hkls ++ hkls) angles))); [now rewrite F|now rewrite map_map]. }
  pose proof (sel_snd (row_ok etas omes) (combine (hkls ++ hkls) angles)) as S1. pose proof (sel_fst (row_ok etas omes) (combine (hkls ++ hkls) angles)) as S2.
  rewrite <- M, F in S1. rewrite <- M, E in S2. rewrite S1, S2. reflexivity.
Qed.
Lemma filter_mismatch : forall {H} (hkls : list H) angles etas omes, List.length angles <> (2 * List.length hkls)%nat -> filter_hkls_eta_ome hkls angles etas omes = Err IndexError.
Proof.
  intros. rewrite filter_eval. rewrite select_ok by now rewrite map_length. cbn [rbind]. rewrite select_bad; auto. rewrite app_length, map_length. lia.
Qed.
Lemma gives_filter : forall {A} (f : A -> bool) (P : A -> Prop) l, (forall a, f a = true <-> P a) -> gives (fun a b => b = a /\ P a) l (filter f l).
Proof.
  intros A f P l H. induction l as [|a l IH]; cbn; [constructor|]. destruct (f a) eqn:E.
  - constructor; auto. split; auto. now apply H.
  - constructor; auto. intros b [_ Q]. apply H in Q. congruence.
Qed.
(** ** bringing omegas into the period *)
Lemma brought_unique : forall lo hi o a b, hi - lo = 2 * PI -> brought lo hi o a -> brought lo hi o b -> a = b.
Proof.
  intros lo hi o a b W ((A1 & A2) & (k & Ka) & A3 & A4) ((B1 & B2) & (j & Jb) & B3 & B4). pose proof PI_RGT_0.
  assert (D : a - b = IZR (k - j) * (2 * PI)) by (rewrite minus_IZR; lra).
  assert (Hh : -1 <= IZR (k - j) <= 1). { split; apply Rmult_le_reg_r with (2 * PI); lra. }
  destruct Hh as [L U]. apply le_IZR in L, U. assert (C : (k - j = -1 \/ k - j = 0 \/ k - j = 1)%Z) by lia.
  destruct C as [C|[C|C]]; rewrite C in D.
  - assert (a = lo) by lra. assert (b = hi) by lra. specialize (A4 H0). specialize (B3 H1). lra.
  - lra.
  - assert (a = hi) by lra. assert (b = lo) by lra. specialize (B4 H1). specialize (A3 H0). lra.
Qed.
Lemma map_brought : forall o lo hi, hi - lo = 2 * PI -> exists v, mapAngle o (Some (lo, hi)) ARad = Ok v /\ brought lo hi o v.
Proof.
  intros o lo hi W. destruct (map_angle_lemma o lo hi ARad (2 * PI)) as (v & E & B & (k & K) & C & D); auto.
  exists v. split; auto. repeat split; try tauto. now exists k.
Qed.
Definition mo (lo hi : R) (a : option angs) : option angs :=
  match a with Some (x, y, o) => match mapAngle o (Some (lo, hi)) ARad with Ok v => Some (x, y, v) | Err _ => None end | None => None end.
Lemma map_omegas_ok : forall lo hi l, hi - lo = 2 * PI -> map_omegas (lo, hi) l = Ok (map (mo lo hi) l).
Proof.
  intros lo hi l W. induction l as [|a l IH]; cbn [map_omegas map].
  - destruct (map_brought 0 lo hi W) as (v & -> & _). reflexivity.
  - rewrite IH. destruct a as [[[x y] o]|]; cbn [rbind mo]; auto. destruct (map_brought o lo hi W) as (v & -> & _). reflexivity.
Qed.
Lemma map_omegas_bad : forall lo hi l, / 100000000 + / 100000 * (2 * PI) < Rabs (hi - lo - 2 * PI) -> map_omegas (lo, hi) l = Err RuntimeError.
Proof.
  intros lo hi l B. assert (E : forall o, mapAngle o (Some (lo, hi)) ARad = Err RuntimeError) by (intros o; now apply (map_rejects o lo hi ARad (2 * PI) eq_refl)).
  induction l as [|a l IH]; cbn [map_omegas]. { now rewrite E. } destruct a as [[[x y] o]|]; [rewrite E; reflexivity|]. cbn [rbind]. now rewrite IH.
Qed.
(** ** one grain *)
Section Grain.
Context {H XY PS G : Type}.
Variable K : R.
Variable oscill : R -> G -> list H -> list (option angs) * list (option angs).
Variable project : G -> angs -> option XY.
Variable inside : XY -> bool.
Variable pixel_size : XY -> PS.
Variable tvec_of : G -> R * R * R.
Definition spot_of (g : G) (lo hi : R) (p : H * option angs) : list (H * angs * XY) :=
  match mo lo hi (snd p) with
  | Some x => match project g x with Some xy => if inside xy then [(fst p, x, xy)] else [] | None => [] end
  | None => []
  end.
Definition proj' g (a : option angs) := match a with Some x => project g x | None => None end.
Definition some {A} (p : option A) := match p with Some _ => true | None => false end.
Definition lst {A} (p : option A) : list A := match p with Some x => [x] | None => [] end.
Lemma grain_lists : forall g lo hi rows,
  let al := map (mo lo hi) (map snd rows) in let tmp := map (proj' g) al in let xy := flat_map lst tmp in let op := map some tmp in let pn := map inside xy in
  List.length al = List.length op /\ List.length (map fst rows : list H) = List.length op /\
  List.length (sel al op) = List.length xy /\ List.length (sel (map fst rows) op) = List.length xy /\
  sel (sel (map fst rows) op) pn = map (fun s => fst (fst s)) (flat_map (spot_of g lo hi) rows) /\
  sel (sel al op) pn = map (fun s => Some (snd (fst s))) (flat_map (spot_of g lo hi) rows) /\
  sel xy pn = map snd (flat_map (spot_of g lo hi) rows).
Proof.
  intros g lo hi rows. cbn zeta. induction rows as [|[h a] rows IH]. { cbn. repeat split. }
  destruct IH as (L1 & L2 & L3 & L4 & E1 & E2 & E3). cbn [map flat_map fst snd]. unfold spot_of at 1 3 5. cbn [fst snd]. unfold sel in *. cbn [combine].
  destruct (mo lo hi a) as [x|] eqn:M; cbn [proj' some lst map flat_map app filter snd fst].
  - destruct (project g x) as [xy|] eqn:Pj; cbn [some lst app filter snd fst map combine].
    + destruct (inside xy) eqn:I; cbn [filter map snd fst app]; cbn [List.length] in *; repeat split; try lia; try assumption; now f_equal.
    + cbn [List.length] in *. repeat split; try lia; assumption.
  - cbn [List.length] in *. repeat split; try lia; assumption.
Qed.
Lemma grain_lemma : forall hkls etas omes lo hi w ec tvec_s g w', hi - lo = 2 * PI ->
  apply_correction_to_wavelength K w ec tvec_s (tvec_of g) = Ok w' ->
  List.length (fst (oscill w' g hkls) ++ snd (oscill w' g hkls)) = (2 * List.length hkls)%nat ->
  let rows := filter (fun p => row_ok etas omes (snd p)) (combine (hkls ++ hkls) (fst (oscill w' g hkls) ++ snd (oscill w' g hkls))) in
  let spots := flat_map (spot_of g lo hi) rows in
  simulate_grain K oscill project inside pixel_size tvec_of hkls etas omes (lo, hi) w ec tvec_s g =
  Ok (SERIES (map (fun s => fst (fst s)) spots) (map (fun s => Some (snd (fst s))) spots) (map snd spots) (map (fun s => pixel_size (snd s)) spots)).
Proof.
  intros hkls etas omes lo hi w ec tvec_s g w' W Ew L rows spots. unfold simulate_grain. rewrite Ew. cbn [rbind].
  destruct (oscill w' g hkls) as [o0 o1]. cbn [fst snd] in *. rewrite (filter_rows hkls (o0 ++ o1) etas omes L). cbn [rbind]. fold rows.
  rewrite (map_omegas_ok lo hi _ W). cbn [rbind]. unfold project_on_detector_plane.
  destruct (grain_lists g lo hi rows) as (L1 & L2 & L3 & L4 & E1 & E2 & E3).
  change (fun a => match a with Some x => project g x | None => None end) with (proj' g) in *.
  change (fun p => match p with Some x => [x] | None => [] end) with (@lst XY) in *.
  change (fun p => match p with Some _ => true | None => false end) with (@some XY) in *.
  rewrite (select_ok (flat_map _ _)) by now rewrite map_length. cbn [rbind].
  rewrite (select_ok (map (mo lo hi) (map snd rows)) _ L1). cbn [rbind]. rewrite (select_ok (map fst rows) _ L2). cbn [rbind].
  rewrite !select_ok by (rewrite map_length; auto). cbn [rbind]. rewrite E1, E2, E3, map_map. reflexivity.
Qed.
Definition spot_spec (g : G) (etas omes : list (R * R)) (lo hi : R) (row : H * option angs) (s : H * angs * XY) : Prop :=
  exists h t e o o' xy, row = (h, Some (t, e, o)) /\ s = (h, (t, e, o'), xy) /\ taken_ccw etas (Some e) /\ taken_sticky omes (Some o) /\ brought lo hi o o' /\
    project g (t, e, o') = Some xy /\ inside xy = true.
Lemma spots_gives : forall g etas omes lo hi rows, hi - lo = 2 * PI ->
  gives (spot_spec g etas omes lo hi) rows (flat_map (spot_of g lo hi) (filter (fun p => row_ok etas omes (snd p)) rows)).
Proof.
  intros g etas omes lo hi rows W. induction rows as [|[h a] rows IH]; cbn [filter flat_map]; [constructor|]. cbn [snd].
  destruct (row_ok etas omes a) eqn:R.
  - cbn [flat_map]. unfold spot_of at 1. cbn [fst snd]. apply row_ok_iff in R as [R1 R2]. destruct a as [[[t e] o]|]; cbn [mo].
    + cbn [eta_of ome_of] in *. destruct (map_brought o lo hi W) as (v & Ev & B). rewrite Ev.
      assert (N : (forall xy, project g (t, e, v) = Some xy -> inside xy = false) -> forall b, ~ spot_spec g etas omes lo hi (h, Some (t, e, o)) b).
      { intros Q b (h' & t' & e' & o1 & o2 & xy & E & _ & _ & _ & B' & P & I). injection E as <- <- <- <-. rewrite (brought_unique lo hi o o2 v W B' B) in P. rewrite (Q _ P) in I. discriminate. }
      destruct (project g (t, e, v)) as [xy|] eqn:P; [destruct (inside xy) eqn:I|]; cbn [app].
      * apply gives_yes; auto. exists h, t, e, o, v, xy. repeat split; auto; apply B.
      * apply gives_no; auto. apply N. intros xy' E. injection E as <-. auto.
      * apply gives_no; auto. apply N. discriminate.
    + cbn [app]. apply gives_no; auto. now intros b (h' & t' & e' & o1 & o2 & xy & E & _).
  - apply gives_no; auto. intros b (h' & t' & e' & o1 & o2 & xy & E & _ & R1 & R2 & _). injection E as <- ->.
    assert (row_ok etas omes (Some (t', e', o1)) = true) by now apply row_ok_iff. congruence.
Qed.
End Grain.
