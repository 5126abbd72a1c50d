(** C24, C25, C61: dictionaries stored in HDF5. *)
From Coq Require Import String.
From Verif Require Import Prelude H5Model H5Spec H5Proofs.
Local Open Scope string_scope.
Local Notation length := List.length.

(** ** C24 *)
(** Whatever nested dictionary an object shows, storing it and reading the group back gives that dictionary up to
    [norm]: null entries dropped, one-element arrays turned into scalars, unicode arrays into text. *)
Theorem C24_store_then_read : forall array_str fuel h id d ids h' g, shows h id d ids ->
  to_h5 array_str fuel h id = Some (h', g) -> norm array_str (TDict d) = Some (from_h5 (H5Group g)).
Proof. exact store_read. Qed.
Print Assumptions C24_store_then_read.

(** The dictionary passed in, and every dictionary nested in it, is empty afterwards; no other object changes. *)
Theorem C24_argument_is_consumed : forall array_str fuel h id d ids h' g, shows h id d ids ->
  to_h5 array_str fuel h id = Some (h', g) ->
  (forall i, In i ids -> nth_error h' i = Some []) /\ (forall i, ~ In i ids -> nth_error h' i = nth_error h i).
Proof. intros array_str fuel h id d ids h' g Hs H. exact (proj2 (proj2 (to_h5_shows array_str fuel h id d ids h' g Hs H))). Qed.
Print Assumptions C24_argument_is_consumed.

(** ** C61: storing always finishes, for every graph of dictionaries, cyclic ones included. *)
Theorem C61_store_terminates : forall array_str fuel h id, (entries h < fuel)%nat -> no_dangling h -> (id < length h)%nat ->
  exists h' g, to_h5 array_str fuel h id = Some (h', g) /\ (entries h' <= entries h)%nat /\ length h' = length h /\ no_dangling h' /\
    nth_error h' id = Some [].
Proof. exact to_h5_total. Qed.
Print Assumptions C61_store_terminates.

Definition ex_heap : heap := [[("z", HLeaf (LNum 7)); ("n", HLeaf LNone); ("sub", HRef 1)]; [("a", HLeaf (LArr [1] [5%Z])); ("b", HLeaf (LStr "x"))]].
Example C24_ex : exists ids, shows ex_heap 0 [("z", TLeaf (LNum 7)); ("n", TLeaf LNone); ("sub", TDict [("a", TLeaf (LArr [1] [5%Z])); ("b", TLeaf (LStr "x"))])] ids /\
  to_h5 (fun _ => "") 6 ex_heap 0 = Some ([[]; []], [("z", H5Set (DArr [1] [7%Z])); ("sub", H5Group [("a", H5Set (DArr [1] [5%Z])); ("b", H5Set (DStr "x"))])]).
Proof.
  exists (0 :: ((1 :: []) ++ []))%nat. split; [|reflexivity].
  apply shows_dict with (o := [("z", HLeaf (LNum 7)); ("n", HLeaf LNone); ("sub", HRef 1)]); [reflexivity| |cbn; intuition lia].
  do 2 apply shows_leaf. apply shows_ref; [|constructor|intros ? ? []].
  apply shows_dict with (o := [("a", HLeaf (LArr [1] [5%Z])); ("b", HLeaf (LStr "x"))]); [reflexivity| |intros []]. do 2 apply shows_leaf. constructor.
Qed.
Example C61_ex : to_h5 (fun _ => "") 3 [[("a", HRef 0); ("b", HLeaf (LNum 1))]] 0 = Some ([[]], [("a", H5Group [("b", H5Set (DArr [1] [1%Z]))])]).
Proof. reflexivity. Qed.

(** A dictionary object that occurs twice is written once and then as an empty group (finding). *)
Theorem C24_shared_dictionary_refuted : exists h g h',
  nth_error h 0 = Some [("p", HRef 1); ("q", HRef 1)] /\ nth_error h 1 = Some [("x", HLeaf (LNum 1))] /\
  to_h5 (fun _ => "") 9 h 0 = Some (h', g) /\ g = [("p", H5Group [("x", H5Set (DArr [1] [1%Z]))]); ("q", H5Group [])].
Proof. exists [[("p", HRef 1); ("q", HRef 1)]; [("x", HLeaf (LNum 1))]]. eexists _, _. repeat split; reflexivity. Qed.
Print Assumptions C24_shared_dictionary_refuted.

(** ** C25 *)
(** Saving an imageseries writes its metadata from a shallow copy: the file is right, but afterwards every nested
    dictionary of the caller's metadata is empty (finding) ... *)
Theorem C25_nested_metadata_emptied_refuted : forall array_str fuel h meta d ids h' g, shows h meta d ids ->
  save_meta array_str fuel h meta = Some (h', g) ->
  norm array_str (TDict d) = Some (from_h5 (H5Group g)) /\ exists ids', shows h' meta (hollow d) ids'.
Proof. exact save_meta_effect. Qed.
Print Assumptions C25_nested_metadata_emptied_refuted.
(** ... so metadata without nested (non-empty) dictionaries is unchanged. *)
Theorem C25_flat_metadata_unchanged_partial : forall array_str fuel h meta d ids h' g, shows h meta d ids ->
  (forall k t, In (k, t) d -> match t with TDict sub => sub = [] | _ => True end) ->
  save_meta array_str fuel h meta = Some (h', g) -> exists ids', shows h' meta d ids'.
Proof.
  intros array_str fuel h meta d ids h' g Hs Hf H. destruct (save_meta_effect array_str fuel h meta d ids h' g Hs H) as [_ [ids' Hs']].
  rewrite (hollow_flat d Hf) in Hs'. exists ids'. exact Hs'.
Qed.
Print Assumptions C25_flat_metadata_unchanged_partial.
Example C25_ex : exists h' g, save_meta (fun _ => "") 12 ex_heap 0 = Some (h', g) /\ nth_error h' 0 = nth_error ex_heap 0 /\ nth_error h' 1 = Some [].
Proof. eexists _, _. repeat split; reflexivity. Qed.
