(** Model of phase_transition/variants.py: the orientational variants of a phase transformation.  Real numbers stand for
    floating point numbers.  Vectors are given in Cartesian components (TransSpace in prepare_data is a change of basis and is
    left out); the symmetry operations are the Cartesian matrices SYM_PG_c of the two unit cells. *)
From Coq Require Import Reals List ZArith.
From Verif Require Import Prelude Lin.
Import ListNotations.
Local Open Scope R_scope.

(** np.sum(np.abs(a - b)) *)
Definition absdiff (a b : m3) : R :=
  let d := msub a b in
  Rabs (m00 d) + Rabs (m01 d) + Rabs (m02 d) + Rabs (m10 d) + Rabs (m11 d) + Rabs (m12 d) + Rabs (m20 d) + Rabs (m21 d) + Rabs (m22 d).
Definition close (a b : m3) : bool := if Rlt_dec (absdiff a b) (1 / 1000000) then true else false.

(** variants.py:75-96, [prepare_data]: what NormVec does to a Cartesian vector *)
Definition unit_vec (v : v3) : v3 := vscale (/ norm v) v.

(** variants.py:55-60, [get_rmats]: the columns are the direction, the cross product of plane normal and direction, and the
    plane normal *)
Definition get_rmats (p d : v3) : m3 := of_cols d (cross p d) p.

(** variants.py:63-72, [isnew] *)
Definition isnew (m : m3) (rmat sym : list m3) : bool :=
  negb (existsb (fun r => existsb (fun s => close (mm s r) m) sym) rmat).

(** variants.py:101-121, [getOR] *)
Definition getOR (r1 r2 : m3) (sym1 sym2 : list m3) : list m3 :=
  map mt (fold_left (fun rmat sa => let m := mm r2 (mt (mm sa r1)) in if isnew m rmat sym2 then (rmat ++ [m])%list else rmat) sym1 []).

(** variants.py:31-52, [expected_num_variants]; int(a / b) of positive integers is the integer quotient *)
Definition count_common (t : m3) (sym1 sym2 : list m3) : nat :=
  fold_left (fun ctr s2 => fold_left (fun ctr s1 => if close (mm t (mm s2 (mt t))) s1 then S ctr else ctr) sym1 ctr) sym2 0%nat.
Definition expected_num (r1 r2 : m3) (sym1 sym2 : list m3) : result nat :=
  let ctr := count_common (mm r1 (mt r2)) sym1 sym2 in
  match ctr with
  | O => Err ZeroDivisionError
  | _ => Ok (Nat.div (length sym1) ctr)
  end.

(** variants.py:200-243, [getPhaseTransformationVariants] without plotting and logging *)
Definition variants (p1 p2 d1 d2 : v3) (sym1 sym2 : list m3) : result (list m3 * nat) :=
  let r1 := get_rmats (unit_vec p1) (unit_vec d1) in
  let r2 := get_rmats (unit_vec p2) (unit_vec d2) in
  let vs := getOR r1 r2 sym1 sym2 in
  do n <- expected_num r1 r2 sym1 sym2;
  Ok (vs, n).
