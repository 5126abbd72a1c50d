(** C08-C11: omega metadata. *)
From Verif Require Import Prelude OmegaModel OmegaSpec OmegaProofs.
From Coq Require Import QArith Qabs Qround Lqa.
Open Scope Q_scope.

(** ** C08 *)
(** Whenever the constructor accepts an omega array, the wedges list every frame exactly once and in
    order; every wedge is a maximal run of frames that continue its first frame; it begins at the first frame's
    start angle and ends at the last frame's stop angle. *)
Theorem C08_wedges_partition_frames : forall om ws, make_wedges om = Ok ws ->
  flat_map w_frames ws = seq 0 (length om) /\
  forall w, In w ws ->
    (0 < w_n w)%nat /\
    w_start w = fst (om_at om (w_f0 w)) /\
    w_stop w = snd (om_at om (w_f0 w + w_n w - 1)) /\
    w_delta w = (w_stop w - w_start w) / inject_Z (Z.of_nat (w_n w)) /\
    (forall g, (w_f0 w < g < w_f0 w + w_n w)%nat -> continues om (w_f0 w) g) /\
    ((w_f0 w + w_n w < length om)%nat -> ~ continues om (w_f0 w) (w_f0 w + w_n w)).
Proof.
  exact (fun om ws H => conj (proj1 (proj2 (make_wedges_inv om ws H)))
    (fun w Hin => match proj1 (Forall_forall _ _) (proj1 (make_wedges_inv om ws H)) w Hin with
                  | conj a (conj _ (conj b (conj c (conj d (conj e (conj f _)))))) =>
                    conj a (conj b (conj c (conj d (conj e f)))) end)).
Qed.
Print Assumptions C08_wedges_partition_frames.

Theorem C08_increasing_accepted : forall nf om,
  om <> [] -> Forall (fun r => fst r < snd r) om -> nf = length om ->
  exists ws, make_series nf (Some om) = Ok ws.
Proof. exact make_series_accepts. Qed.
Print Assumptions C08_increasing_accepted.

Theorem C08_length_mismatch_rejected : forall nf om, nf <> length om ->
  make_series nf (Some om) = Err OmegaSeriesError /\ make_series nf None = Err OmegaSeriesError.
Proof. exact make_series_mismatch. Qed.
Print Assumptions C08_length_mismatch_rejected.

(** "Metadata that is not increasing is rejected" holds for every frame but the last one. *)
Theorem C08_decreasing_rejected_partial : forall om f,
  (f + 1 < length om)%nat -> width om f < - (1 # 1000000) ->
  make_wedges om = Err OmegaSeriesError.
Proof. exact make_wedges_rejects. Qed.
Print Assumptions C08_decreasing_rejected_partial.

(** Finding: the last frame is never tested, so a decreasing last frame is accepted. *)
Theorem C08_decreasing_last_frame_refuted :
  exists om ws, make_wedges om = Ok ws /\ (2 <= length om)%nat /\ exists f, (f < length om)%nat /\ width om f < - (1 # 1000000).
Proof. exact decreasing_last_accepted. Qed.
Print Assumptions C08_decreasing_last_frame_refuted.

Example C08_ex :
  match make_wedges [(0, 1 # 4); (1 # 4, 1 # 2); (1 # 2, 3 # 4); (10, 11); (11, 12)] with
  | Ok ws => map (fun w => (w_f0 w, w_n w)) ws = [(0, 3); (3, 2)]%nat
  | Err _ => False
  end.
Proof. reflexivity. Qed.

(** ** C09 *)
(** A frame is found exactly when some wedge contains the angle modulo 360; the first such wedge
    is returned, with one of its frames. *)
Theorem C09_not_found_iff_outside : forall om ws x, make_wedges om = Ok ws ->
  (omega_to_frame ws x = ((-1)%Z, (-1)%Z) <-> forall w, In w ws -> ~ inside (w_start w) (w_stop w) x).
Proof. exact omega_to_frame_none. Qed.
Print Assumptions C09_not_found_iff_outside.

Theorem C09_found_frame_in_first_containing_wedge : forall om ws x f wi,
  make_wedges om = Ok ws -> omega_to_frame ws x = (f, wi) -> (wi <> -1)%Z ->
  exists n w, wi = Z.of_nat n /\ nth_error ws n = Some w /\
    inside (w_start w) (w_stop w) x /\
    (forall w', In w' (firstn n ws) -> ~ inside (w_start w') (w_stop w') x) /\
    In (Z.to_nat f) (w_frames w) /\ (0 <= f)%Z.
Proof. exact found_in_wedge. Qed.
Print Assumptions C09_found_frame_in_first_containing_wedge.

(** The angle is inside the returned frame's own interval: exactly for arrays whose
    frames abut exactly (such as those OmegaWedges generates), and up to the accumulated tolerance otherwise. *)
Theorem C09_found_frame_contains_angle : forall om ws x f wi,
  make_wedges om = Ok ws -> omega_to_frame ws x = (f, wi) -> (wi <> -1)%Z -> exactly_uniform om ws ->
  inside (fst (om_at om (Z.to_nat f))) (snd (om_at om (Z.to_nat f))) x.
Proof. exact (fun om ws x f wi H E N U => proj2 (proj2 (found_frame_contains om ws x f wi H E N)) U). Qed.
Print Assumptions C09_found_frame_contains_angle.

Theorem C09_found_frame_near_angle : forall om ws x f wi,
  make_wedges om = Ok ws -> omega_to_frame ws x = (f, wi) -> (wi <> -1)%Z ->
  (0 <= f < Z.of_nat (length om))%Z /\
  exists k : Z,
    fst (om_at om (Z.to_nat f)) - inject_Z (Z.of_nat (4 * length om)) * (1 # 1000000)
      <= x + 360 * inject_Z k
      < snd (om_at om (Z.to_nat f)) + inject_Z (Z.of_nat (4 * length om)) * (1 # 1000000).
Proof. exact (fun om ws x f wi H E N => conj (proj1 (found_frame_contains om ws x f wi H E N))
                (proj1 (proj2 (found_frame_contains om ws x f wi H E N)))). Qed.
Print Assumptions C09_found_frame_near_angle.

Definition ex_om : omarr := [(-60, -30); (-30, 0); (0, 30); (100, 110); (110, 120)].
Example C09_ex : exists ws, make_wedges ex_om = Ok ws /\ exactly_uniform ex_om ws /\
  omega_to_frame ws 345 = (1%Z, 0%Z) /\ omega_to_frame ws (115 - 720) = (4%Z, 1%Z) /\
  omega_to_frame ws 50 = ((-1)%Z, (-1)%Z).
Proof. exact ex_c09. Qed.

(** ** C10 *)
Theorem C10_range_in_one_wedge : forall om ws a b fa fb w, make_wedges om = Ok ws ->
  omega_to_frame ws a = (fa, w) -> omega_to_frame ws b = (fb, w) -> w <> (-1)%Z -> (fa < fb)%Z ->
  omegarange_to_frames ws a b = zrange fa (fb + 1).
Proof. exact range_one_wedge. Qed.
Print Assumptions C10_range_in_one_wedge.

(** So, for frames that abut exactly, a frame of the wedge is returned exactly when its interval
    meets the requested range (unless the range lies in one frame, see below). *)
Theorem C10_returned_iff_frame_meets_range : forall om ws a b fa fb n w,
  make_wedges om = Ok ws -> exactly_uniform om ws ->
  nth_error ws n = Some w -> w_stop w <= w_start w + 360 ->
  omega_to_frame ws a = (fa, Z.of_nat n) -> omega_to_frame ws b = (fb, Z.of_nat n) ->
  w_start w <= a -> a <= b -> b < w_stop w -> fa <> fb ->
  forall f, In f (w_frames w) ->
  (In (Z.of_nat f) (omegarange_to_frames ws a b) <->
   exists y, a <= y <= b /\ fst (om_at om f) <= y < snd (om_at om f)).
Proof. exact range_meets. Qed.
Print Assumptions C10_returned_iff_frame_meets_range.

(** The second wedge (possibly the same one) begins where the first ends, modulo 360: frames run to the
    end of the first wedge and then from the beginning of the second. *)
Theorem C10_range_across_the_seam : forall om ws a b fa fb wa wb, make_wedges om = Ok ws ->
  omega_to_frame ws a = (fa, wa) -> omega_to_frame ws b = (fb, wb) ->
  (wa <> -1)%Z -> (wb <> -1)%Z -> ~ (wa = wb /\ fa < fb)%Z ->
  (exists k, w_start (nth (Z.to_nat wb) ws wedge0) == w_stop (nth (Z.to_nat wa) ws wedge0) + 360 * inject_Z k) ->
  omegarange_to_frames ws a b
  = zrange fa (Z.of_nat (w_f0 (nth (Z.to_nat wa) ws wedge0) + w_n (nth (Z.to_nat wa) ws wedge0)))
    ++ zrange (Z.of_nat (w_f0 (nth (Z.to_nat wb) ws wedge0))) (fb + 1).
Proof. exact range_wrap. Qed.
Print Assumptions C10_range_across_the_seam.

Theorem C10_endpoint_outside_gives_nothing : forall om ws a b, make_wedges om = Ok ws ->
  (omega_to_frame ws a = ((-1)%Z, (-1)%Z) \/ omega_to_frame ws b = ((-1)%Z, (-1)%Z)) ->
  omegarange_to_frames ws a b = [].
Proof. exact range_none. Qed.
Print Assumptions C10_endpoint_outside_gives_nothing.

Theorem C10_only_existing_frames : forall om ws a b f, make_wedges om = Ok ws ->
  In f (omegarange_to_frames ws a b) -> (0 <= f < Z.of_nat (length om))%Z.
Proof. exact (fun om ws a b f H Hin => proj1 (range_sound om ws a b f H Hin)). Qed.
Print Assumptions C10_only_existing_frames.

(** Finding: a range that lies inside one frame of a wedge that is not a full circle returns no
    frame at all, although a frame contains it. *)
Theorem C10_range_inside_one_frame_is_empty : forall om ws a b f w, make_wedges om = Ok ws ->
  omega_to_frame ws a = (f, w) -> omega_to_frame ws b = (f, w) -> w <> (-1)%Z ->
  let W := nth (Z.to_nat w) ws wedge0 in
  0 < w_stop W - w_start W < 360 - tol -> tol <= w_stop W - w_start W ->
  omegarange_to_frames ws a b = [].
Proof. exact range_single_frame. Qed.
Print Assumptions C10_range_inside_one_frame_is_empty.

Theorem C10_single_frame_refuted :
  exists om ws a b f w, make_wedges om = Ok ws /\ a < b /\ omega_to_frame ws a = (f, w) /\ omega_to_frame ws b = (f, w) /\
    (0 <= f)%Z /\ ~ In f (omegarange_to_frames ws a b).
Proof. exact single_frame_refuted. Qed.
Print Assumptions C10_single_frame_refuted.

(** Finding: the seam test is one-sided.  A gap of 1e-7 degrees below 360 is not recognised,
    although the same gap above 360 is. *)
Theorem C10_seam_tolerance_refuted :
  exists om ws, make_wedges om = Ok ws /\
    (let w := nth 0 ws wedge0 in Qabs (w_stop w - w_start w - 360) <= 1 # 10000000) /\
    omega_to_frame ws 350 = (3%Z, 0%Z) /\ omega_to_frame ws 10 = (0%Z, 0%Z) /\
    omegarange_to_frames ws 350 10 = [].
Proof. exact seam_refuted. Qed.
Print Assumptions C10_seam_tolerance_refuted.

Example C10_ex : exists ws, make_wedges [(0, 90); (90, 180); (180, 270); (270, 360)] = Ok ws /\
  omegarange_to_frames ws 100 300 = [1; 2; 3]%Z /\ omegarange_to_frames ws 300 100 = [3; 0; 1]%Z /\
  omegarange_to_frames ws 200 190 = [2; 3; 0; 1; 2]%Z.
Proof. eexists. split; [vm_compute; reflexivity|]. vm_compute. auto. Qed.

(** ** C11 *)
(** After any history of addwedge/delwedge the [omegas] property raises exactly when the frame
    counts do not add up; otherwise it has one row per frame, and each wedge's rows tile [ostart, ostop] evenly. *)
Theorem C11_omegas_after_any_history : forall (ops : list wop) (nframes : nat),
  (list_sum (map o_n (wops_run ops)) <> nframes -> omegas nframes (wops_run ops) = Err OmegaSeriesError) /\
  (list_sum (map o_n (wops_run ops)) = nframes -> exists oa, omegas nframes (wops_run ops) = Ok oa /\
     length oa = nframes /\
     forall l1 d l2, wops_run ops = l1 ++ d :: l2 ->
       let f0 := list_sum (map o_n l1) in
       (forall i, (S i < o_n d)%nat -> snd (om_at oa (f0 + i)) == fst (om_at oa (f0 + S i))) /\
       (forall i, (i < o_n d)%nat -> width oa (f0 + i) == (o_stop d - o_start d) / inject_Z (Z.of_nat (o_n d))) /\
       ((0 < o_n d)%nat -> fst (om_at oa f0) == o_start d /\ snd (om_at oa (f0 + o_n d - 1)) == o_stop d)).
Proof. exact omegas_history. Qed.
Print Assumptions C11_omegas_after_any_history.

(** Each operation edits the list as a Python list does. *)
Theorem C11_operations : forall l d,
  wop_step l (AddWedge d None) = l ++ [d] /\
  (forall k, (k <= length l)%nat -> wop_step l (AddWedge d (Some (Z.of_nat k))) = firstn k l ++ d :: skipn k l) /\
  (forall k x, nth_error l k = Some x -> wop_step l (DelWedge (Z.of_nat k)) = firstn k l ++ skipn (S k) l) /\
  (forall k, (length l <= k)%nat -> wop_step l (DelWedge (Z.of_nat k)) = l).
Proof. exact wop_spec. Qed.
Print Assumptions C11_operations.

(** An OmegaImageSeries built from the generated array has exactly the stored wedges, provided
    they increase and no two successive ones are indistinguishable from one longer wedge. *)
Theorem C11_wedges_survive_round_trip : forall nframes l oa,
  omegas nframes l = Ok oa -> l <> [] ->
  Forall (fun d => (0 < o_n d)%nat /\ o_start d < o_stop d) l -> all_separated l ->
  exists ws, make_wedges oa = Ok ws /\ Forall2 same_wedge l ws /\ exactly_uniform oa ws.
Proof. exact roundtrip_full. Qed.
Print Assumptions C11_wedges_survive_round_trip.

Example C11_ex :
  let l := wops_run [AddWedge {| o_start := 0; o_stop := 90; o_n := 3 |} None;
                     AddWedge {| o_start := 5; o_stop := 6; o_n := 9 |} (Some 0%Z);
                     AddWedge {| o_start := 100; o_stop := 101; o_n := 2 |} None; DelWedge 0] in
  match omegas 5 l with
  | Ok oa => Forall2 (fun p q => fst p == fst q /\ snd p == snd q) oa [(0, 30); (30, 60); (60, 90); (100, 201 # 2); (201 # 2, 101)] /\
             Forall (fun d => (0 < o_n d)%nat /\ o_start d < o_stop d) l /\ all_separated l
  | Err _ => False
  end.
Proof. exact ex_c11. Qed.
