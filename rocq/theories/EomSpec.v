(** Vocabulary for the eta-omega maps. *)
From Coq Require Import Reals List.
From Verif Require Import Prelude EomModel.
Import ListNotations.
Local Open Scope R_scope.

(** a pixel belongs to a ring: its two-theta is in the ring's closed range *)
Definition in_ring (tthr : R * R) (p : pix) : Prop := fst tthr <= fst p <= snd tthr.
(** an angle is in bin b: the bins are closed below and open above, the last one is closed *)
Definition in_bin (edges : list R) (b : nat) (eta : R) : Prop :=
  (S b < List.length edges)%nat /\ nth b edges 0 <= eta /\
  (eta < nth (S b) edges 0 \/ (S (S b) = List.length edges /\ eta = nth (S b) edges 0)).
(** pixel i of a detector is in the given ring and bin *)
Definition seen (edges : list R) (tthr : R * R) (b : nat) (v : view) (i : nat) : Prop :=
  exists p, nth_error (v_pix v) i = Some p /\ in_ring tthr p /\ in_bin edges b (snd p).
(** the intensity that counts for a pixel with the intensity v *)
Definition level (threshold : option R) (v : R) : R :=
  match threshold with Some t => if Rlt_dec v t then 0 else v | None => v end.
(** the intensity of pixel i in a frame *)
Definition intensity (v : view) (f i : nat) : R :=
  match nth_error (nth f (v_ims v) []) i with Some (Some x) => x | _ => 0 end.
Definition total (l : list R) : R := fold_right Rplus 0 l.
(** what cell (ring, frame f, bin b) of the map made of several detectors must be: NaN if no pixel of any detector is in the
    ring and bin, and otherwise the sum of the intensities of all such pixels *)
Definition right_cell (edges : list R) (tthr : R * R) (threshold : option R) (vs : list view) (f b : nat) (c : cell) : Prop :=
  match c with
  | None => forall v i, In v vs -> ~ seen edges tthr b v i
  | Some s => exists ids : list (nat * nat),
      NoDup ids /\ ids <> [] /\
      (forall d i, In (d, i) ids <-> exists v, nth_error vs d = Some v /\ seen edges tthr b v i) /\
      s = total (map (fun di => level threshold (intensity (nth (fst di) vs (View [] [])) f (snd di))) ids)
  end.
(** the frames of a detector have one intensity, not a NaN, for each of its pixels *)
Definition full_frames (v : view) (nrows : nat) : Prop :=
  List.length (v_ims v) = nrows /\
  Forall (fun im => List.length im = List.length (v_pix v) /\ Forall (fun c => c <> None) im) (v_ims v).
Fixpoint increasing (l : list R) : Prop :=
  match l with
  | a :: ((b :: _) as t) => a < b /\ increasing t
  | _ => True
  end.
