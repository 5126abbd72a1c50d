(** Specification vocabulary for C16-C18. *)
From Verif Require Import Prelude ProcessModel ProcessSpec CacheModel.

(** The source frame with every pixel not above the threshold replaced by 0. *)
Definition thresholded (img : image Z) (t : Z) : image Z :=
  Img (nr img) (nc img) (fun i j => if (px img i j <=? t)%Z then 0%Z else px img i j).

(** The number of pixels of a frame above the threshold. *)
Definition pixels (img : image Z) : list (nat * nat) := list_prod (seq 0 (nr img)) (seq 0 (nc img)).
Definition above (img : image Z) (t : Z) : list (nat * nat) :=
  filter (fun ij => (t <? px img (fst ij) (snd ij))%Z) (pixels img).

(** The frame's shape fits the uint16 index arrays. *)
Definition fits16 (img : image Z) : Prop := (Z.of_nat (nr img) <= 65536)%Z /\ (Z.of_nat (nc img) <= 65536)%Z.

(** Two half-open ranges have no common element. *)
Definition disjoint_ranges (r s : nat * nat) : Prop :=
  forall k, ~ (fst r <= k < snd r /\ fst s <= k < snd s).

Definition range_in_file (st : fstate) (i : nat) : nat * nat := (f_fids st (2 * i), f_fids st (2 * i + 1)).

(** Total number of stored pixels of a series. *)
Definition total_above (frames : list (image Z)) (t : Z) : nat :=
  fold_right (fun img s => length (above img t) + s) 0 frames.

(** The buffers a thread of the npz pool is using, if any. *)
Definition buffer_of (w : nstate) : option nat :=
  match w with NStart => None | NIdle b | NExtr b _ _ | NRow b _ _ | NCol b _ _ => Some b end.

(** A frame with more rows than uint16 can number. *)
Definition tall_frame : image Z :=
  Img (Z.to_nat 65537) 1 (fun i j => if (Z.of_nat i =? 65536)%Z then 1%Z else 0%Z).
