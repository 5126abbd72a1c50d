(** C47, C48, C50, C63, C64: parameter names, hkl strings, calibration picks and tolerances. *)
From Coq Require Import String.
From Verif Require Import Prelude NamesModel NamesSpec NamesProofs.
Local Notation length := List.length.
Local Open Scope string_scope.
Local Open Scope list_scope.

(** C47: renaming always ends, keeps the parameters and their order, and gives distinct names not in use; names that do
    not collide are kept. *)
Theorem C47_rename_no_collision : forall {A} (params all_params : list (string * A)),
  exists new mp, rename_params params all_params = Ok (new, mp) /\
    map snd new = map snd params /\ NoDup (map fst new) /\ (forall n, In n (map fst new) -> ~ In n (map fst all_params)) /\
    pointwise (fun p q => renamed_from dec (fst p) (fst q)) params new /\
    (NoDup (map fst all_params ++ map fst params) -> new = params) /\
    (NoDup (map fst params) -> pointwise (fun p q => dict_get mp (fst p) = Some (fst q)) params new).
Proof. exact (@rename_lemma). Qed.
Print Assumptions C47_rename_no_collision.
Theorem C47_validate_detects_exactly_duplicates : forall {A} (l : list (string * A)),
  (validate_params l = Ok tt <-> NoDup (map fst l)) /\ (validate_params l = Ok tt \/ validate_params l = Err ValueError).
Proof. exact (@validate_lemma). Qed.
Print Assumptions C47_validate_detects_exactly_duplicates.
Theorem C47_renamed_list_validates : forall {A} (params all_params new : list (string * A)) mp,
  validate_params all_params = Ok tt -> rename_params params all_params = Ok (new, mp) -> validate_params (all_params ++ new) = Ok tt.
Proof. exact (@rename_validates_lemma). Qed.
Print Assumptions C47_renamed_list_validates.
(** without distinct old names the returned mapping forgets one of the new names *)
Theorem C47_mapping_refuted : exists (params : list (string * nat)) new mp,
  rename_params params [] = Ok (new, mp) /\ ~ pointwise (fun p q => dict_get mp (fst p) = Some (fst q)) params new.
Proof.
  exists [("a", 0); ("a", 1)], [("a", 0); ("1_a", 1)], [("a", "1_a")]. split; [reflexivity|].
  intros H. inversion H as [|? ? ? ? E]; subst. vm_compute in E. discriminate.
Qed.
Print Assumptions C47_mapping_refuted.
Example C47_ex : rename_params [("a", 5); ("b", 6); ("1_a", 7)] [("a", 1); ("c", 2)] =
  Ok ([("1_a", 5); ("b", 6); ("1_1_a", 7)], [("a", "1_a"); ("b", "b"); ("1_a", "1_1_a")]).
Proof. reflexivity. Qed.
Example C47_ex_bad : validate_params [("a", 1); ("b", 2); ("a", 3)] = Err ValueError.
Proof. reflexivity. Qed.

(** C48: the distortion values of a detector come back in their slots, for up to ten parameters and no other parameter
    whose name contains this detector's pattern. *)
Theorem C48_distortion_slots_partial : forall {V} det (vals : list V) pre post,
  1 <= length vals <= 10 ->
  (forall p, In p (map fst pre ++ map fst post) -> containsb (dash_to_us det +++ "_distortion_param") p = false) ->
  update_distortion det (pre ++ distortion_params det vals ++ post) (Some (length vals)) = Ok (Some vals).
Proof. exact (@distortion_roundtrip_lemma). Qed.
Print Assumptions C48_distortion_slots_partial.
(** eleven parameters: the lexicographic order moves slot 10 before slot 2 *)
Theorem C48_eleven_refuted : exists vals : list nat,
  exists out, update_distortion "ge" (distortion_params "ge" vals) (Some (length vals)) = Ok (Some out) /\ out <> vals.
Proof.
  exists [0; 1; 2; 3; 4; 5; 6; 7; 8; 9; 10], [0; 1; 10; 2; 3; 4; 5; 6; 7; 8; 9]. split; [vm_compute; reflexivity | discriminate].
Qed.
Print Assumptions C48_eleven_refuted.
(** a detector whose name ends in another detector's name breaks the update of the latter *)
Theorem C48_substring_refuted : exists v1 v2 : list nat,
  update_distortion "ge1" (distortion_params "ge1" v1 ++ distortion_params "hge1" v2) (Some (length v1)) = Err RuntimeError.
Proof. exists [1; 2; 3], [4; 5; 6]. vm_compute. reflexivity. Qed.
Print Assumptions C48_substring_refuted.
Example C48_ex : update_distortion "ff-2" (("ff_1_tvec_x", 9) :: distortion_params "ff-1" [7; 8] ++ distortion_params "ff-2" [1; 2; 3; 4; 5; 6] ++ [("ff_2_tvec_x", 8)]) (Some 6)
  = Ok (Some [1; 2; 3; 4; 5; 6]).
Proof. vm_compute. reflexivity. Qed.

(** C50: every list of integers survives the trip through its string *)
Theorem C50_hkl_string_round_trip : forall l : list Z, str_to_hkl (hkl_to_str l) = Ok l.
Proof. exact hkl_roundtrip_lemma. Qed.
Print Assumptions C50_hkl_string_round_trip.
Theorem C50_hkl_string_injective : forall a b : list Z, hkl_to_str a = hkl_to_str b -> a = b.
Proof. exact hkl_to_str_inj. Qed.
Print Assumptions C50_hkl_string_injective.
Example C50_ex : hkl_to_str [1; -12; 0]%Z = "1 -12 0" /\ str_to_hkl "1 -12 0" = Ok [1; -12; 0]%Z /\ str_to_hkl "1 1x 0" = Err ValueError.
Proof. vm_compute. repeat split; reflexivity. Qed.

(** C63: picks survive being read and written back: for grains when the reflections are distinct, for powder always up to
    the grouping by reflection *)
Theorem C63_grain_picks_round_trip_partial : forall {V} (data : list (list Z * V)), NoDup (map fst data) -> grain_data (grain_picks data) = Ok data.
Proof. exact (@grain_roundtrip_lemma). Qed.
Print Assumptions C63_grain_picks_round_trip_partial.
Theorem C63_grain_repeated_reflection_refuted : exists data : list (list Z * nat),
  exists data', grain_data (grain_picks data) = Ok data' /\ length data' < length data.
Proof. exists [([1; 1; 1]%Z, 0); ([1; 1; 1]%Z, 1)], [([1; 1; 1]%Z, 1)]. split; [vm_compute; reflexivity | cbn; lia]. Qed.
Print Assumptions C63_grain_repeated_reflection_refuted.
Theorem C63_powder_picks_round_trip : forall {V} (data : list (list (list Z * V))),
  exists data', powder_data (powder_picks data) = Ok data' /\ (forall h, picks_of h (concat data') = picks_of h (concat data)) /\
    (forall ring, In ring data' -> ring <> [] /\ exists h, forall row, In row ring -> fst row = h).
Proof. exact (@powder_roundtrip_lemma). Qed.
Print Assumptions C63_powder_picks_round_trip.
Example C63_ex : powder_data (powder_picks [[([1; 1; 1]%Z, 1); ([2; 0; 0]%Z, 2)]; []; [([1; 1; 1]%Z, 3)]]) =
  Ok [[([1; 1; 1]%Z, 1); ([1; 1; 1]%Z, 3)]; [([2; 0; 0]%Z, 2)]].
Proof. vm_compute. reflexivity. Qed.
Example C63_ex_grain : grain_data (grain_picks [([1; 1; 1]%Z, 1); ([2; 0; 0]%Z, 2)]) = Ok [([1; 1; 1]%Z, 1); ([2; 0; 0]%Z, 2)].
Proof. vm_compute. reflexivity. Qed.

(** C64: assigning the two-theta tolerance has no effect *)
Theorem C64_tth_tol_setter_refuted : forall W (degrees radians : W -> W),
  (forall w, radians (degrees w) = w) -> forall w x, tth_tol_set W degrees radians (Some w) x = Ok (Some w).
Proof. intros W degrees radians H w x. unfold tth_tol_set, tth_tol_get. cbn [option_map]. rewrite H. reflexivity. Qed.
Print Assumptions C64_tth_tol_setter_refuted.
Theorem C64_tth_tol_setter_none_refuted : forall W (degrees radians : W -> W) x, tth_tol_set W degrees radians None x = Err TypeError.
Proof. reflexivity. Qed.
Print Assumptions C64_tth_tol_setter_none_refuted.
Example C64_ex : exists w x : Z, tth_tol_set Z (fun d => 2 * d)%Z (fun d => d / 2)%Z (Some w) x = Ok (Some w) /\ tth_tol_get Z (fun d => 2 * d)%Z (Some w) <> Some x.
Proof. exists 1%Z, 6%Z. split; [reflexivity | discriminate]. Qed.
