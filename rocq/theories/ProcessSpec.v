(** Specification vocabulary for C12-C15. *)
From Verif Require Import Prelude ProcessModel.
From Coq Require Import String.
Local Notation length := List.length.

(** Two arrays are the same: equal shapes and equal pixels. *)
Definition same_img {A} (x y : image A) : Prop :=
  nr x = nr y /\ nc x = nc y /\ forall i j, i < nr x -> j < nc x -> px x i j = px y i j.

(** Two calls have the same outcome. *)
Definition same_result {A} (x y : result (image A)) : Prop :=
  match x, y with
  | Ok a, Ok b => same_img a b
  | Err e, Err f => e = f
  | _, _ => False
  end.

(** A registered function depends on its argument only through shape and pixels. *)
Definition proper_op (o : op) : Prop :=
  match o with
  | OpOther f => forall x y, same_img x y -> same_result (f x) (f y)
  | _ => True
  end.

(** The kinds of series whose get_region works. *)
Fixpoint has_region (s : series) : bool :=
  match s with
  | Stored _ | Sparse _ | Hdf5_3d _ => true
  | Hdf5_2d _ | Processed _ _ _ => false
  | Wrapped s => has_region s
  end.

Definition starts_with_rectangle (ops : list op) : bool :=
  match ops with OpRect _ :: _ => true | _ => false end.

(** The symmetries of the square: transpose first (if [tr]), then reverse the rows (if [rr]) and
    the columns (if [rc]). *)
Record d4 := D4 { tr : bool; rr : bool; rc : bool }.
Definition d4_act {A} (g : d4) (img : image A) : image A :=
  let x := if tr g then transpose img else img in
  let y := if rr g then rev_rows x else x in
  if rc g then rev_cols y else y.
(** [d4_mul g h]: first g, then h. *)
Definition d4_mul (g h : d4) : d4 :=
  if tr h then D4 (xorb (tr g) true) (xorb (rc g) (rr h)) (xorb (rr g) (rc h))
  else D4 (tr g) (xorb (rr g) (rr h)) (xorb (rc g) (rc h)).
Definition d4_one := D4 false false false.
Definition d4_inv (g : d4) : d4 := if tr g then D4 true (rc g) (rr g) else g.

(** Which symmetry a flip code stands for, as documented in process.py:140-156. *)
Definition code_sym (c : string) : d4 :=
  match c with
  | "y" | "v" => D4 false false true
  | "x" | "h" => D4 false true false
  | "vh" | "hv" | "r180" => D4 false true true
  | "t" | "T" => D4 true false false
  | "ccw90" | "r90" => D4 true true false
  | "cw90" | "r270" => D4 true false true
  | _ => d4_one
  end%string.
