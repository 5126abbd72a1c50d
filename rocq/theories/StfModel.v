(** The elastic constants of a unit cell: core/material/unitcell.py:1080-1106, 1420-1431, 1875-2020.
    Real numbers stand for floating point numbers; a 6x6 array is a function of two indices, of which only those
    below six are meaningful. *)
From Coq Require Import Reals List Arith Bool.
From Verif Require Import Prelude Lin RotModel.
Import ListNotations.
Local Open Scope R_scope.

Definition mat := nat -> nat -> R.
(** [x[i, j] = v] *)
Definition upd (c : mat) (p : nat * nat) (v : R) : mat :=
  fun i j => if (i =? fst p)%nat && (j =? snd p)%nat then v else c i j.
Definition zeros : mat := fun _ _ => 0.
Definition pair_eqb (p q : nat * nat) : bool := (fst p =? fst q)%nat && (snd p =? snd q)%nat.
(** [tuple(ij for ij in l if ij not in out)] *)
Definition without (l out : list (nat * nat)) : list (nat * nat) := filter (fun p => negb (existsb (pair_eqb p) out)) l.

(** core/material/unitcell.py:1884-1888 *)
Definition type1 : list (nat * nat) := flat_map (fun i => map (fun j => (i, j)) (seq i (6 - i))) (seq 0 6).
(** :1890-1896 *)
Definition type2 := without type1 [(0, 3); (0, 4); (1, 3); (1, 4); (2, 3); (2, 4); (3, 5); (4, 5)]%nat.
(** :1898-1904 *)
Definition type3 := without type2 [(0, 5); (1, 5); (2, 5); (3, 4)]%nat.
(** :1906-1911 *)
Definition type4 := without type2 [(2, 5); (3, 4); (1, 1); (1, 2); (1, 5); (4, 4)]%nat.
(** :1913-1917 *)
Definition type5 := without type4 [(0, 5)]%nat.
(** :1919-1945 *)
Definition type6 := without type1
  [(0, 5); (1, 5); (2, 3); (2, 4); (2, 5); (3, 4); (1, 1); (1, 2); (1, 3); (1, 4); (3, 5); (4, 4); (4, 5); (5, 5)]%nat.
(** :1947-1949 *)
Definition type7 := without type6 [(0, 4)]%nat.
(** :1951-1953 *)
Definition type8 := without type7 [(0, 3)]%nat.
(** :1955-1959 *)
Definition type9 := without type5 [(0, 2); (2, 2); (5, 5)]%nat.

(** a sequence of assignments, each reading the array as left by those before it *)
Definition assign (p : nat * nat) (f : mat -> R) (c : mat) : mat := upd c p (f c).
(** core/material/unitcell.py:1967-1968 *)
Definition identity_eq (c : mat) : mat := c.
(** :1971-1976 *)
Definition cyclictet_eq (c : mat) : mat :=
  let c := assign (1, 1)%nat (fun x => x 0%nat 0%nat) c in
  let c := assign (1, 2)%nat (fun x => x 0%nat 2%nat) c in
  let c := assign (1, 5)%nat (fun x => - x 0%nat 5%nat) c in
  assign (4, 4)%nat (fun x => x 3%nat 3%nat) c.
(** :1979-1988 *)
Definition trigonal_eq (c : mat) : mat :=
  let c := assign (1, 1)%nat (fun x => x 0%nat 0%nat) c in
  let c := assign (1, 2)%nat (fun x => x 0%nat 2%nat) c in
  let c := assign (1, 3)%nat (fun x => - x 0%nat 3%nat) c in
  let c := assign (1, 4)%nat (fun x => - x 0%nat 4%nat) c in
  let c := assign (3, 5)%nat (fun x => - x 0%nat 4%nat) c in
  let c := assign (4, 4)%nat (fun x => x 3%nat 3%nat) c in
  let c := assign (4, 5)%nat (fun x => x 0%nat 3%nat) c in
  assign (5, 5)%nat (fun x => (1 / 2) * (x 0%nat 0%nat - x 0%nat 1%nat)) c.
(** :1991-1999 *)
Definition cubic_eq (c : mat) : mat :=
  let c := assign (0, 2)%nat (fun x => x 0%nat 1%nat) c in
  let c := assign (2, 2)%nat (fun x => x 0%nat 0%nat) c in
  let c := assign (5, 5)%nat (fun x => x 3%nat 3%nat) c in
  let c := assign (1, 1)%nat (fun x => x 0%nat 0%nat) c in
  let c := assign (1, 2)%nat (fun x => x 0%nat 2%nat) c in
  let c := assign (1, 5)%nat (fun x => - x 0%nat 5%nat) c in
  assign (4, 4)%nat (fun x => x 3%nat 3%nat) c.
(** :2002-2018, [_StiffnessDict]: the positions of the independent constants and the equalities to enforce *)
Definition stiffness_dict (g : laue) : list (nat * nat) * (mat -> mat) :=
  match g with
  | Ci => (type1, identity_eq)
  | C2h => (type2, identity_eq)
  | D2h => (type3, identity_eq)
  | C4h => (type4, cyclictet_eq)
  | D4h => (type5, cyclictet_eq)
  | C3i => (type6, trigonal_eq)
  | D3d => (type7, trigonal_eq)
  | C6h => (type8, trigonal_eq)
  | D6h => (type8, trigonal_eq)
  | Th => (type9, cubic_eq)
  | Oh => (type9, cubic_eq)
  end.

(** core/material/unitcell.py:1080-1081 *)
Definition required_C (g : laue) (c : mat) : list R := map (fun p => c (fst p) (snd p)) (fst (stiffness_dict g)).
(** :1093-1095 *)
Fixpoint fill (l : list (nat * nat)) (v : list R) (c : mat) : mat :=
  match l, v with
  | p :: l', x :: v' => fill l' v' (upd c p x)
  | _, _ => c
  end.
(** :1100-1103: row by row, the entries below the diagonal *)
Definition below : list (nat * nat) := flat_map (fun i => map (fun j => (i, j)) (seq 0 i)) (seq 0 6).
Definition mirror (c : mat) : mat := fold_left (fun c p => upd c p (c (snd p) (fst p))) below c.
(** IOError is OSError.  :1083-1103: the array built from the constants, before it is stored *)
Definition build_C (g : laue) (v : list R) : result mat :=
  let '(pos, eqs) := stiffness_dict g in
  if negb (List.length v =? List.length pos)%nat then Err OSError
  else Ok (mirror (eqs (fill pos v zeros))).

Section Inv.
(** numpy.linalg.inv of a 6x6 array; [None] stands for LinAlgError, which is a ValueError *)
Variable inv : mat -> option mat.
Definition scale (k : R) (c : mat) : mat := fun i j => k * c i j.
(** the attribute [stiffness] of a unit cell, [None] when it has not been set *)
Definition cell := option mat.
(** core/material/unitcell.py:1420-1426 *)
Definition get_compliance (s : cell) : result mat :=
  match s with
  | None => Err AttributeError
  | Some c => match inv (fun i j => c i j / 1000) with Some b => Ok b | None => Err ValueError end
  end.
(** core/material/unitcell.py:1428-1431; the state is unchanged when the inversion fails *)
Definition set_compliance (v : mat) (s : cell) : cell * option exn :=
  match inv v with Some b => (Some (fun i j => b i j * 1000), None) | None => (s, Some ValueError) end.
(** core/material/unitcell.py:1083-1106: the state left behind, and the exception if any *)
Definition MakeStiffnessMatrix (g : laue) (v : list R) (s : cell) : cell * option exn :=
  match build_C g v with
  | Err e => (s, Some e)
  | Ok c =>
      match inv c with
      | None => (Some c, Some ValueError)
      | Some b => set_compliance b (Some c)
      end
  end.
End Inv.
