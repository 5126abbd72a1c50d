(** Specification vocabulary for C08-C11. *)
From Verif Require Import Prelude OmegaModel.
From Coq Require Import QArith Qabs Qround.
Open Scope Q_scope.

(** Angular width of frame [f]. *)
Definition width (om : omarr) (f : nat) : Q := snd (om_at om f) - fst (om_at om f).

(** Frame [g] continues the run of frames that began at frame [s]: same width as [s] and it
    begins where frame [g - 1] ended, both within the tolerance 1e-6. *)
Definition continues (om : omarr) (s g : nat) : Prop :=
  Qabs (width om g - width om s) <= 1 # 1000000 /\
  Qabs (fst (om_at om g) - snd (om_at om (g - 1))) <= 1 # 1000000.

(** The frames of a wedge. *)
Definition w_frames (w : wedge) : list nat := seq (w_f0 w) (w_n w).

(** The angle [x], modulo 360, is inside the half-open interval [a, b). *)
Definition inside (a b x : Q) : Prop := exists k : Z, a <= x + 360 * inject_Z k < b.

(** Frames of equal width that abut exactly: what OmegaWedges generates. *)
Definition exact_continues (om : omarr) (s g : nat) : Prop :=
  width om g == width om s /\ fst (om_at om g) == snd (om_at om (g - 1)).

(** Inside every wedge the frames abut exactly and have the same width. *)
Definition exactly_uniform (om : omarr) (ws : list wedge) : Prop :=
  forall w g, In w ws -> (w_f0 w < g < w_f0 w + w_n w)%nat -> exact_continues om (w_f0 w) g.

(** Two successive wedge entries that cannot be merged: different step, or not contiguous. *)
Definition separated (d d' : odict) : Prop :=
  tol < Qabs ((o_stop d' - o_start d') / inject_Z (Z.of_nat (o_n d')) - (o_stop d - o_start d) / inject_Z (Z.of_nat (o_n d))) \/
  tol < Qabs (o_start d' - o_stop d).

Fixpoint all_separated (l : list odict) : Prop :=
  match l with
  | d :: ((d' :: _) as t) => separated d d' /\ all_separated t
  | _ => True
  end.

(** A stored entry and a wedge found in an array describe the same run of frames. *)
Definition same_wedge (d : odict) (w : wedge) : Prop :=
  w_start w == o_start d /\ w_stop w == o_stop d /\ w_n w = o_n d.
