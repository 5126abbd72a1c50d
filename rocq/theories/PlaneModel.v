(** Model of PlaneData's ordering and exclusions (core/material/crystallography.py).
    A reflection is its two-theta ([None] is NaN: no Bragg angle at this wavelength) and its other data [A]; exact rationals
    stand for floating point numbers. *)
From Coq Require Import QArith.
From Verif Require Import Prelude ProcessModel.
Local Close Scope Q_scope.

(** [a > b] for floats: false when [a] is NaN *)
Definition fgt (a : option Q) (b : Q) : bool := match a with Some x => negb (Qle_bool x b) | None => false end.
Definition flt (a : option Q) (b : Q) : bool := match a with Some x => negb (Qle_bool b x) | None => false end.
Definition isnan (a : option Q) : bool := match a with None => true | _ => false end.

(** numpy indexing by an array of non-negative integers *)
Fixpoint fancy {B} (l : list B) (idx : list nat) : result (list B) :=
  match idx with
  | [] => Ok []
  | i :: r => match nth_error l i with Some x => do t <- fancy l r; Ok (x :: t) | None => Err IndexError end
  end.
(** [a[idx] = True] for an array of positions *)
Definition set_true (idx : list nat) (a : list bool) : list bool := fold_left (fun a i => set_nth i true a) idx a.

Section Plane.
Context {A : Type}.
Notation refl := (option Q * A)%type.

(** the attributes hklDataList, tThSort, tThSortInv, _exclusions, _tThMax, nHKLs *)
Record pd := Pd { data : list refl; tsort : list nat; tinv : list nat; stored : option (list bool); tmax : option Q; nhkls : nat }.

(** crystallography.py:812-813: [inv[sort] = arange(n)] *)
Definition scatter (srt : list nat) : list nat :=
  fold_left (fun a p => set_nth (fst p) (snd p) a) (combine srt (seq 0 (length srt))) (repeat 0 (length srt)).

(** crystallography.py:1326-1334 *)
Definition this_hkl (s : pd) (r : nat) : result bool :=
  match nth_error (data s) r with
  | None => Err IndexError
  | Some (t, _) =>
      do ex <- match stored s with
               | None => Ok false
               | Some e => match nth_error (tinv s) r with
                           | Some j => match nth_error e j with Some b => Ok b | None => Err IndexError end
                           | None => Err IndexError
                           end
               end;
      if ex then Ok false
      else match tmax s with
           | None => Ok true
           | Some m => Ok (negb (fgt t m || isnan t))
           end
  end.
(** the loops of getHKLs (1592-1602), getTTh (1443-1447), getPlaneSpacings (1307-1311), getMultiplicity (1466-1469) with
    allHKLs = False: the reflections for which _thisHKL holds, in order *)
Fixpoint listed_from (s : pd) (l : list refl) (r : nat) : result (list refl) :=
  match l with
  | [] => Ok []
  | x :: l' => do b <- this_hkl s r; do t <- listed_from s l' (S r); Ok (if b then x :: t else t)
  end.
Definition listed (s : pd) : result (list refl) := listed_from s (data s) 0.

(** crystallography.py:794-821.  [raw] is the list in the order of the constructor; [srt] is what numpy.argsort returned
    (any permutation, ties in any order), or 0..n-1 when sorting is off. *)
Definition calc (raw : list refl) (srt : list nat) (e : option (list bool)) (m : option Q) : result pd :=
  do d <- fancy raw srt;
  let s := Pd d srt (scatter srt) e m 0 in
  do l <- listed s;
  Ok (Pd d srt (scatter srt) e m (length l)).

(** crystallography.py:890-908 *)
Definition exclusions (s : pd) : result (list bool) :=
  do base <- match stored s with
             | None => Ok (repeat false (length (data s)))
             | Some e => fancy e (tsort s)
             end;
  Ok (match tmax s with
      | None => base
      | Some m => map (fun p => snd p || fgt (fst (fst p)) m) (combine (data s) base)
      end).

(** what can be assigned: nothing, a mask, an integer array of indices, an integer array of [start, stop) rows *)
Inductive excl_arg := ENone | EMask (l : list bool) | EIdx (l : list Z) | ERanges (l : list (Z * Z)).
Fixpoint py_fancy {B} (l : list B) (idx : list Z) : result (list B) :=
  match idx with
  | [] => Ok []
  | i :: r => do x <- py_index l i; do t <- py_fancy l r; Ok (x :: t)
  end.
Definition py_slice {B} (l : list B) (a b : Z) : list B :=
  let n := length l in
  firstn (slice_bound n b - slice_bound n a) (skipn (slice_bound n a) l).
(** crystallography.py:910-932.  A mask of another length cannot index tThSortInv: IndexError. *)
Definition set_exclusions (s : pd) (v : excl_arg) : result pd :=
  let n := length (data s) in
  let zero := repeat false n in
  do e <- match v with
          | ENone => Ok zero
          | EMask l => if Nat.eqb (length l) n then fancy l (tinv s) else Err IndexError
          | EIdx l => if Nat.eqb (length l) n then Err AssertionError
                      else do js <- py_fancy (tinv s) l; Ok (set_true js zero)
          | ERanges l => if Nat.eqb (length l) n then Err AssertionError
                         else Ok (fold_left (fun a r => set_true (py_slice (tinv s) (fst r) (snd r)) a) l zero)
          end;
  Ok (Pd (data s) (tsort s) (tinv s) (Some e) (tmax s) (length (filter negb e))).
(** crystallography.py:886-888 *)
Definition set_tmax (s : pd) (m : option Q) : pd := Pd (data s) (tsort s) (tinv s) (stored s) m (nhkls s).

(** crystallography.py:934-1007 for the bounds on two-theta and on one other quantity [d] (the plane spacing); the bounds on
    structure factor and powder intensity are applied in the same way. *)
Definition set_where (c : refl -> bool) (l : list refl) (excl : list bool) : list bool :=
  map (fun p => snd p || c (fst p)) (combine l excl).
Definition exclude (s : pd) (d : A -> Q) (dmin dmax tthmin tthmax : option Q) : result pd :=
  let excl := repeat false (length (data s)) in
  do s1 <- set_exclusions s ENone;
  let s2 := set_tmax s1 None in
  do vis <- listed s2;
  let app (b : option Q) (c : Q -> refl -> bool) (e : list bool) := match b with Some q => set_where (c q) vis e | None => e end in
  let e1 := app dmin (fun q x => flt (Some (d (snd x))) q) excl in
  let e2 := app dmax (fun q x => fgt (Some (d (snd x))) q) e1 in
  let e3 := app tthmin (fun q x => flt (fst x) q) e2 in
  let e4 := app tthmax (fun q x => fgt (fst x) q) e3 in
  set_exclusions s2 (EMask e4).

(** lparms/wavelength/strainMag/laueGroup setters (1037-1076, 1262-1287): new two-thetas for the same reflections in master order,
    new order, everything else kept *)
Definition recalc (s : pd) (raw : list refl) (srt : list nat) : result pd := calc raw srt (stored s) (tmax s).

(** crystallography.py:1604-1622: getHKLs(hkl_id) for one id; [hid] reads the master id of a reflection *)
Definition get_by_id (s : pd) (hid : A -> nat) (k : nat) : result refl :=
  do ex <- exclusions s;
  do sorted_excl <- fancy ex (tinv s);
  match filter (fun p => Nat.eqb (hid (snd (snd p))) k) (combine (seq 0 (length (data s))) (data s)) with
  | [(i, x)] => match nth_error sorted_excl i with
                | Some true => Err RuntimeError
                | Some false => Ok x
                | None => Err IndexError
                end
  | _ => Err RuntimeError
  end.

(** crystallography.py:1649-1704 with indices = None: one entry per listed reflection, looked up in an array of length nHKLs *)
Definition get_sym (s : pd) : result (list refl) :=
  do l <- listed s;
  if Nat.leb (length l) (nhkls s) then Ok l else Err IndexError.
End Plane.
Arguments pd : clear implicits.

(** ** merged two-theta ranges *)
(** crystallography.py:1379-1426 with cullDupl and the test of closeness [close] of two positions (1413). [lo], [hi] are the
    columns of getTThRanges for the [n] listed reflections. *)
Section Merge.
Variables (lo hi : nat -> Q) (cull : bool) (close : nat -> nat -> bool).
(** [rest]: number of reflections after [i]; [first]: tThLoIdx; [cur]: hklsCur *)
Fixpoint merge_loop (rest i first : nat) (cur : list nat) : list (list nat * (Q * Q)) :=
  let nonoverlap := match rest with O => true | S _ => negb (Qle_bool (lo (S i)) (hi i)) end in
  if nonoverlap then
    (cur ++ [i], (lo first, hi i)) :: match rest with O => [] | S k => merge_loop k (S i) (S i) [] end
  else
    match rest with
    | O => []
    | S k => if cull && close i (S i) then merge_loop k (S i) first cur else merge_loop k (S i) first (cur ++ [i])
    end.
Definition merged (n : nat) : result (list (list nat * (Q * Q))) :=
  match n with O => Err IndexError | S k => Ok (merge_loop k 0 0 []) end.
End Merge.
