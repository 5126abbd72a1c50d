(** Space-group symmetry and systematic absences:
    hexrd/core/material/symmetry.py and hexrd/core/material/spacegroup.py.

    Simplifications.  Rotation parts are integer matrices; translation parts
    are exact multiples of 1/24 of a lattice vector, written as integers.  In
    the code both are binary64, and two operations are "the same" when the sum
    of the absolute differences is below 1e-5; every number that occurs is a
    multiple of 1/24 up to rounding, so that test is equality here, and the
    clean-up of the fractional part is reduction modulo 24.  Reflection
    indices are unbounded integers (int32 in the code).  The memo cache around
    [GenerateSGSym] is the subject of MemoModel and CacheModel.  A local
    variable read before assignment (UnboundLocalError) is reported as
    [RuntimeError]. *)
From Coq Require Import String Ascii.
From Verif Require Import Prelude SgTables.
Local Open Scope Z_scope.

(** Integer triples: reflection indices, lattice vectors, translations in
    24ths.  (numpy arrays of length 3.) *)
Record ivec := IV { v0 : Z; v1 : Z; v2 : Z }.

(** Integer 3x3 matrices, by rows.  (numpy arrays of shape (3, 3).) *)
Record imat := IM { r0 : ivec; r1 : ivec; r2 : ivec }.

Definition ivadd (a b : ivec) : ivec := IV (v0 a + v0 b) (v1 a + v1 b) (v2 a + v2 b).
Definition ivdot (a b : ivec) : Z := v0 a * v0 b + v1 a * v1 b + v2 a * v2 b.
Definition col0 (m : imat) := IV (v0 (r0 m)) (v0 (r1 m)) (v0 (r2 m)).
Definition col1 (m : imat) := IV (v1 (r0 m)) (v1 (r1 m)) (v1 (r2 m)).
Definition col2 (m : imat) := IV (v2 (r0 m)) (v2 (r1 m)) (v2 (r2 m)).
(** [np.dot(m, v)], column vector *)
Definition imv (m : imat) (v : ivec) : ivec := IV (ivdot (r0 m) v) (ivdot (r1 m) v) (ivdot (r2 m) v).
(** [np.dot(v, m)], row vector *)
Definition ivm (v : ivec) (m : imat) : ivec := IV (ivdot v (col0 m)) (ivdot v (col1 m)) (ivdot v (col2 m)).
Definition imm (a b : imat) : imat := IM (ivm (r0 a) b) (ivm (r1 a) b) (ivm (r2 a) b).
Definition ineg (v : ivec) : ivec := IV (- v0 v) (- v1 v) (- v2 v).
Definition imneg (m : imat) : imat := IM (ineg (r0 m)) (ineg (r1 m)) (ineg (r2 m)).
Definition ieye : imat := IM (IV 1 0 0) (IV 0 1 0) (IV 0 0 1).
Definition iv_eqb (a b : ivec) : bool :=
  (v0 a =? v0 b) && (v1 a =? v1 b) && (v2 a =? v2 b).
Definition im_eqb (a b : imat) : bool :=
  iv_eqb (r0 a) (r0 b) && iv_eqb (r1 a) (r1 b) && iv_eqb (r2 a) (r2 b).

(** A symmetry operation: the 4x4 matrix [[R t] [0 1]], t in 24ths. *)
Record symop := OP { op_r : imat; op_t : ivec }.
Definition op_eqb (a b : symop) : bool := im_eqb (op_r a) (op_r b) && iv_eqb (op_t a) (op_t b).

(** [np.dot] of two 4x4 operation matrices *)
Definition op_dot (a b : symop) : symop :=
  OP (imm (op_r a) (op_r b)) (ivadd (imv (op_r a) (op_t b)) (op_t a)).

(** Reduction of the translation part to [0, 1): hexrd/core/material/symmetry.py:115-119
    and 176-180.  Simplified: exact, see the head of the file. *)
Definition op_frac (a : symop) : symop :=
  OP (op_r a) (IV (v0 (op_t a) mod 24) (v1 (op_t a) mod 24) (v2 (op_t a) mod 24)).

(** hexrd/core/constants.py:4390-4468 (matrix letters) *)
Definition SYM_GENERATORS_mat (c : ascii) : option imat :=
  match c with
  | "a" => Some (IM (IV 1 0 0) (IV 0 1 0) (IV 0 0 1))
  | "b" => Some (IM (IV (-1) 0 0) (IV 0 (-1) 0) (IV 0 0 1))
  | "c" => Some (IM (IV (-1) 0 0) (IV 0 1 0) (IV 0 0 (-1)))
  | "d" => Some (IM (IV 0 0 1) (IV 1 0 0) (IV 0 1 0))
  | "e" => Some (IM (IV 0 1 0) (IV 1 0 0) (IV 0 0 (-1)))
  | "f" => Some (IM (IV 0 (-1) 0) (IV (-1) 0 0) (IV 0 0 (-1)))
  | "g" => Some (IM (IV 0 (-1) 0) (IV 1 0 0) (IV 0 0 1))
  | "h" => Some (IM (IV (-1) 0 0) (IV 0 (-1) 0) (IV 0 0 (-1)))
  | "i" => Some (IM (IV 1 0 0) (IV 0 1 0) (IV 0 0 (-1)))
  | "j" => Some (IM (IV 1 0 0) (IV 0 (-1) 0) (IV 0 0 1))
  | "k" => Some (IM (IV 0 (-1) 0) (IV (-1) 0 0) (IV 0 0 1))
  | "l" => Some (IM (IV 0 1 0) (IV 1 0 0) (IV 0 0 1))
  | "m" => Some (IM (IV 0 1 0) (IV (-1) 0 0) (IV 0 0 (-1)))
  | "n" => Some (IM (IV 0 (-1) 0) (IV 1 (-1) 0) (IV 0 0 1))
  | _ => None
  end%char.

(** hexrd/core/constants.py:4470-4482 (translation letters), in 24ths *)
Definition SYM_GENERATORS_tr (c : ascii) : option Z :=
  match c with
  | "A" => Some 4 | "B" => Some 6 | "C" => Some 8 | "D" => Some 12
  | "E" => Some 16 | "F" => Some 18 | "G" => Some 20 | "O" => Some 0
  | "X" => Some (-9) | "Y" => Some (-6) | "Z" => Some (-3)
  | _ => None
  end%char.

Definition lookup {A} (o : option A) : result A :=
  match o with Some x => Ok x | None => Err KeyError end.

(** [s[i]] *)
Definition char_at (s : string) (i : nat) : result ascii :=
  match String.get i s with Some c => Ok c | None => Err IndexError end.

(** [int(c)] of one character *)
Definition digit (c : ascii) : result nat :=
  let n := nat_of_ascii c in
  if ((48 <=? n) && (n <=? 57))%nat then Ok (n - 48)%nat else Err ValueError.

(** hexrd/core/material/symmetry.py:68-82 *)
Definition GeneratorString (sgnum : Z) : result string := py_index SYM_GL (sgnum - 1).

(** hexrd/core/material/symmetry.py:126-140, for a string of four characters *)
Definition SYM_fillgen (t0 t1 t2 t3 : ascii) (sgn : Z) : result symop :=
  do m <- lookup (SYM_GENERATORS_mat t0);
  do x <- lookup (SYM_GENERATORS_tr t1);
  do y <- lookup (SYM_GENERATORS_tr t2);
  do z <- lookup (SYM_GENERATORS_tr t3);
  Ok (OP m (IV (sgn * x) (sgn * y) (sgn * z))).

(** the generators spelled at positions 2, 6, 10, ...:
    hexrd/core/material/symmetry.py:99-108 *)
Fixpoint read_gens (genstr : string) (istart n : nat) : result (list symop) :=
  match n with
  | O => Ok []
  | S n =>
      do c0 <- char_at genstr istart;
      do c1 <- char_at genstr (istart + 1);
      do c2 <- char_at genstr (istart + 2);
      do c3 <- char_at genstr (istart + 3);
      do g <- SYM_fillgen c0 c1 c2 c3 1;
      do r <- read_gens genstr (istart + 4) n;
      Ok (g :: r)
  end.

(** hexrd/core/material/symmetry.py:85-123 *)
Definition MakeGenerators (genstr : string) (setting : Z) : result (list symop * bool) :=
  do ident <- SYM_fillgen "a" "O" "O" "O" 1;
  do inv <- SYM_fillgen "h" "O" "O" "O" 1;
  do c <- char_at genstr 0;
  let centrosymmetric := Ascii.eqb c "1" in
  let head := if centrosymmetric then [inv] else [] in
  do d <- char_at genstr 1;
  do n <- digit d;
  do gens <- read_gens genstr 2 n;
  let istop := (2 + n * 4)%nat in
  do alt <- char_at genstr istop;
  if negb (Ascii.eqb alt "0") && negb (setting =? 0) then
    do s1 <- char_at genstr (istop + 1);
    do s2 <- char_at genstr (istop + 2);
    do s3 <- char_at genstr (istop + 3);
    do sym <- SYM_fillgen "a" s1 s2 s3 (-1);
    do sym2 <- SYM_fillgen "a" s1 s2 s3 1;
    Ok (ident :: map (fun g => op_frac (op_dot sym2 (op_dot g sym))) (head ++ gens),
        centrosymmetric)
  else Ok (ident :: head ++ gens, centrosymmetric).

(** The three "go through the group actions" loops of symmetry.py have the same
    shape; [mul] is the product that is tried, [eqb] the test inside [isnew]
    (284-290), [cap] the number of operations at which the loops stop. *)
Section Loop.
  Context {A : Type} (mul : A -> A -> A) (eqb : A -> A -> bool) (cap : nat).

  Definition isnew (x : A) (l : list A) : bool := negb (existsb (fun g => eqb x g) l).

  (** inner loop over [k2]; returns the list and the new [k1] *)
  Fixpoint inner (fuel : nat) (l : list A) (g1 : A) (k1 k2 : nat) : result (list A * nat) :=
    match fuel with
    | O => Err OutOfFuel
    | S fuel =>
        match nth_error l k2 with
        | None => Ok (l, k1)
        | Some g2 =>
            let gnew := mul g1 g2 in
            if isnew gnew l then
              let l' := l ++ [gnew] in
              let n := List.length l' in
              if (cap <=? n)%nat then inner fuel l' g1 n (S n)
              else inner fuel l' g1 k1 (S k2)
            else inner fuel l g1 k1 (S k2)
        end
    end.

  (** outer loop over [k1] *)
  Fixpoint outer (fuel : nat) (l : list A) (k1 : nat) : result (list A) :=
    match fuel with
    | O => Err OutOfFuel
    | S f =>
        match nth_error l k1 with
        | None => Ok l
        | Some g1 =>
            match inner fuel l g1 k1 k1 with
            | Ok (l', k1') => outer f l' (S k1')
            | Err e => Err e
            end
        end
    end.
End Loop.

Definition FUEL : nat := 400.

(** hexrd/core/material/symmetry.py:205-229 *)
Definition GeneratePGSym (sg : list symop) : list imat :=
  fold_left (fun acc g => if isnew im_eqb (op_r g) acc then acc ++ [op_r g] else acc)
            (tl sg) (map op_r (firstn 1 sg)).

(** hexrd/core/material/symmetry.py:232-281 *)
Definition GeneratePGSym_Laue (pg : list imat) : result (list imat) :=
  if existsb (fun s => im_eqb s (imneg ieye)) pg then Ok pg
  else outer imm im_eqb 48 FUEL (pg ++ [imneg ieye]) 0.

Definition in_list (x : Z) (l : list Z) : bool := existsb (Z.eqb x) l.

(** hexrd/core/material/symmetry.py:143-202 *)
Definition GenerateSGSym (sgnum setting : Z)
  : result (list symop * list imat * list imat * bool * bool) :=
  do genstr <- GeneratorString sgnum;
  do gc <- MakeGenerators genstr setting;
  let symmorphic := in_list sgnum sgnum_symmorphic in
  do sg <- outer (fun a b => op_frac (op_dot a b)) op_eqb 192 FUEL (fst gc) 0;
  let pg := GeneratePGSym sg in
  do laue <- GeneratePGSym_Laue pg;
  let centrosymmetric := snd gc || existsb (fun s => im_eqb s (imneg ieye)) pg in
  Ok (sg, pg, laue, centrosymmetric, symmorphic).

Inductive lattice_type :=
| Triclinic | Monoclinic | Orthorhombic | Tetragonal | Trigonal | Hexagonal | Cubic.

(** hexrd/core/material/symmetry.py:293-310 *)
Definition latticeType (sgnum : Z) : result lattice_type :=
  if sgnum <=? 2 then Ok Triclinic
  else if (2 <? sgnum) && (sgnum <=? 15) then Ok Monoclinic
  else if (15 <? sgnum) && (sgnum <=? 74) then Ok Orthorhombic
  else if (74 <? sgnum) && (sgnum <=? 142) then Ok Tetragonal
  else if (142 <? sgnum) && (sgnum <=? 167) then Ok Trigonal
  else if (167 <? sgnum) && (sgnum <=? 194) then Ok Hexagonal
  else if (194 <? sgnum) && (sgnum <=? 230) then Ok Cubic
  else Err RuntimeError.

Fixpoint assoc {A} (k : string) (l : list (string * A)) : result A :=
  match l with
  | [] => Err KeyError
  | (k', v) :: t => if String.eqb k k' then Ok v else assoc k t
  end.

Fixpoint zassoc {A} (k : Z) (l : list (Z * A)) : result A :=
  match l with
  | [] => Err KeyError
  | (k', v) :: t => if Z.eqb k k' then Ok v else zassoc k t
  end.

(** hexrd/core/material/symmetry.py:313-327 *)
Fixpoint read_pg_gens (s : string) (i n : nat) : result (list imat) :=
  match n with
  | O => Ok []
  | S n =>
      do c <- char_at s i;
      do m <- lookup (SYM_GENERATORS_mat c);
      do r <- read_pg_gens s (S i) n;
      Ok (m :: r)
  end.
Definition MakeGenerators_PGSYM (pggenstr : string) : result (list imat) :=
  do c <- char_at pggenstr 0;
  do ngen <- digit c;
  read_pg_gens pggenstr 1 ngen.

(** hexrd/core/material/symmetry.py:330-371 *)
Definition GeneratePGSYM (pgsym : string) : result (list imat) :=
  do pggenstr <- assoc pgsym SYM_GL_PG;
  do gens <- MakeGenerators_PGSYM pggenstr;
  outer imm im_eqb 48 FUEL gens 0.

(** ** Systematic absences *)

(** [np.mod(x, m)] for a positive constant [m] *)
Definition npmod (x m : Z) : Z := x mod m.

Definition UnboundLocal : exn := RuntimeError.

(** The code applies numpy masks to all rows of [hkllist]; here the mask is a
    function of one row and [hkllist[mask, :]] is [filter].  Errors do not
    depend on the rows. *)

(** hexrd/core/material/spacegroup.py:480-617 (the rows that are kept) *)
Definition screw_mask (sgnum : Z) (ax : string) (iax : nat) : result (ivec -> bool) :=
  do lt <- latticeType sgnum;
  match lt with
  | Triclinic => Ok (fun _ => true)
  | Monoclinic =>
      if negb (String.eqb ax "2_1") then Err RuntimeError
      else if Nat.eqb iax 1 then
        Ok (fun g => negb ((v0 g =? 0) && (v2 g =? 0) && negb (npmod (v1 g + 100) 2 =? 0)))
      else Err RuntimeError
  | Orthorhombic =>
      if negb (String.eqb ax "2_1") then Err RuntimeError
      else match iax with
      | 0%nat => Ok (fun g => negb ((v1 g =? 0) && (v2 g =? 0) && negb (npmod (v0 g + 100) 2 =? 0)))
      | 1%nat => Ok (fun g => negb ((v0 g =? 0) && (v2 g =? 0) && negb (npmod (v1 g + 100) 2 =? 0)))
      | 2%nat => Ok (fun g => negb ((v0 g =? 0) && (v1 g =? 0) && negb (npmod (v2 g + 100) 2 =? 0)))
      | _ => Ok (fun _ => true)
      end
  | Tetragonal =>
      match iax with
      | 0%nat =>
          let m1 g := (v0 g =? 0) && (v1 g =? 0) in
          if String.eqb ax "4_2" then
            Ok (fun g => negb (m1 g && negb (npmod (v2 g + 100) 2 =? 0)))
          else if String.eqb ax "4_1" || String.eqb ax "4_3" then
            Ok (fun g => negb (m1 g && negb (npmod (v2 g + 100) 4 =? 0)))
          else Err UnboundLocal
      | 1%nat =>
          if String.eqb ax "2_1" then
            Ok (fun g =>
              let m1 := (v1 g =? 0) && (v2 g =? 0) in
              let m2 := (v0 g =? 0) && (v2 g =? 0) in
              let m3 := negb (npmod (v0 g + 100) 2 =? 0) in
              let m4 := negb (npmod (v1 g + 100) 2 =? 0) in
              let m1 := negb (m1 && m3) in
              let m2 := negb (m2 && m4) in
              negb (negb m1 || negb m2))
          else Err UnboundLocal
      | _ => Ok (fun _ => true)
      end
  | Trigonal =>
      if Nat.eqb iax 0 then
        if String.eqb ax "3_1" || String.eqb ax "3_2" then
          Ok (fun g => negb ((v0 g =? 0) && (v1 g =? 0) && negb (npmod (v2 g + 90) 3 =? 0)))
        else Err UnboundLocal
      else Err RuntimeError
  | Hexagonal =>
      if Nat.eqb iax 0 then
        let m1 g := (v0 g =? 0) && (v1 g =? 0) in
        if String.eqb ax "6_3" then
          Ok (fun g => negb (m1 g && negb (npmod (v2 g + 100) 2 =? 0)))
        else if String.eqb ax "3_1" || String.eqb ax "3_2" || String.eqb ax "6_2"
                || String.eqb ax "6_4" then
          Ok (fun g => negb (m1 g && negb (npmod (v2 g + 90) 3 =? 0)))
        else if String.eqb ax "6_1" || String.eqb ax "6_5" then
          Ok (fun g => negb (m1 g && negb (npmod (v2 g + 120) 6 =? 0)))
        else Err UnboundLocal
      else Err RuntimeError
  | Cubic =>
      let keep m := fun g =>
        let m1 := (v0 g =? 0) && (v1 g =? 0) in
        let m2 := (v0 g =? 0) && (v2 g =? 0) in
        let m3 := (v1 g =? 0) && (v2 g =? 0) in
        let m4 := negb (npmod (v2 g + 100) m =? 0) in
        let m5 := negb (npmod (v1 g + 100) m =? 0) in
        let m6 := negb (npmod (v0 g + 100) m =? 0) in
        let m1 := negb (m1 && m4) in
        let m2 := negb (m2 && m5) in
        let m3 := negb (m3 && m6) in
        negb (negb m1 || (negb m2 || negb m3)) in
      if String.eqb ax "2_1" || String.eqb ax "4_2" then Ok (keep 2)
      else if String.eqb ax "4_1" || String.eqb ax "4_3" then Ok (keep 4)
      else Err UnboundLocal
  end.

Definition omitscrewaxisabsences (sgnum : Z) (hkllist : list ivec) (ax : string) (iax : nat)
  : result (list ivec) :=
  do keep <- screw_mask sgnum ax iax; Ok (filter keep hkllist).

(** hexrd/core/material/spacegroup.py:620-866 (the rows that are kept) *)
Definition glide_mask (sgnum : Z) (plane : string) (ip : nat) : result (ivec -> bool) :=
  do lt <- latticeType sgnum;
  let odd (f : ivec -> Z) (m : Z) := fun g => negb (npmod (f g + 100) m =? 0) in
  match lt with
  | Triclinic => Ok (fun _ => true)
  | Monoclinic =>
      match ip with
      | 1%nat =>
          let m1 g := v1 g =? 0 in
          if String.eqb plane "c" then Ok (fun g => negb (m1 g && odd v2 2 g))
          else if String.eqb plane "a" then Ok (fun g => negb (m1 g && odd v0 2 g))
          else if String.eqb plane "n" then
            Ok (fun g => negb (m1 g && odd (fun g => v0 g + v2 g) 2 g))
          else Err UnboundLocal
      | _ => Ok (fun _ => true)
      end
  | Orthorhombic =>
      match ip with
      | 0%nat =>
          let m1 g := v0 g =? 0 in
          if String.eqb plane "b" then Ok (fun g => negb (m1 g && odd v1 2 g))
          else if String.eqb plane "c" then Ok (fun g => negb (m1 g && odd v2 2 g))
          else if String.eqb plane "n" then
            Ok (fun g => negb (m1 g && odd (fun g => v1 g + v2 g) 2 g))
          else if String.eqb plane "d" then
            Ok (fun g => negb (m1 g && odd (fun g => v1 g + v2 g) 4 g))
          else Err UnboundLocal
      | 1%nat =>
          let m1 g := v1 g =? 0 in
          if String.eqb plane "c" then Ok (fun g => negb (m1 g && odd v2 2 g))
          else if String.eqb plane "a" then Ok (fun g => negb (m1 g && odd v0 2 g))
          else if String.eqb plane "n" then
            Ok (fun g => negb (m1 g && odd (fun g => v0 g + v2 g) 2 g))
          else if String.eqb plane "d" then
            Ok (fun g => negb (m1 g && odd (fun g => v0 g + v2 g) 4 g))
          else Err UnboundLocal
      | 2%nat =>
          let m1 g := v2 g =? 0 in
          if String.eqb plane "a" then Ok (fun g => negb (m1 g && odd v0 2 g))
          else if String.eqb plane "b" then Ok (fun g => negb (m1 g && odd v1 2 g))
          else if String.eqb plane "n" then
            Ok (fun g => negb (m1 g && odd (fun g => v0 g + v1 g) 2 g))
          else if String.eqb plane "d" then
            Ok (fun g => negb (m1 g && odd (fun g => v0 g + v1 g) 4 g))
          else Err UnboundLocal
      | _ => Ok (fun _ => true)
      end
  | Tetragonal =>
      match ip with
      | 0%nat =>
          let m1 g := v2 g =? 0 in
          if String.eqb plane "a" then Ok (fun g => negb (m1 g && odd v0 2 g))
          else if String.eqb plane "b" then Ok (fun g => negb (m1 g && odd v1 2 g))
          else if String.eqb plane "n" then
            Ok (fun g => negb (m1 g && odd (fun g => v0 g + v1 g) 2 g))
          else if String.eqb plane "d" then
            Ok (fun g => negb (m1 g && odd (fun g => v0 g + v1 g) 4 g))
          else Err UnboundLocal
      | 1%nat =>
          let keep m3 m4 := fun g =>
            let m1 := negb ((v0 g =? 0) && m3 g) in
            let m2 := negb ((v1 g =? 0) && m4 g) in
            negb (negb m1 || negb m2) in
          if String.eqb plane "a" || String.eqb plane "b" then Ok (keep (odd v1 2) (odd v0 2))
          else if String.eqb plane "c" then Ok (keep (odd v2 2) (odd v2 2))
          else if String.eqb plane "n" then
            Ok (keep (odd (fun g => v1 g + v2 g) 2) (odd (fun g => v0 g + v2 g) 2))
          else if String.eqb plane "d" then
            Ok (keep (odd (fun g => v1 g + v2 g) 4) (odd (fun g => v0 g + v2 g) 4))
          else Err UnboundLocal
      | 2%nat =>
          let m1 g := Z.abs (v0 g) =? Z.abs (v1 g) in
          if String.eqb plane "c" || String.eqb plane "n" then
            Ok (fun g => negb (m1 g && odd v2 2 g))
          else if String.eqb plane "d" then
            Ok (fun g => negb (m1 g && odd (fun g => 2 * v0 g + v2 g) 4 g))
          else Err UnboundLocal
      | _ => Ok (fun _ => true)
      end
  | Trigonal =>
      if negb (String.eqb plane "c") then Err RuntimeError
      else match ip with
      | 1%nat =>
          Ok (fun g =>
            let m4 := odd v2 2 g in
            negb ((v0 g =? 0) && m4 || ((v1 g =? 0) && m4 || (v0 g =? - v1 g) && m4)))
      | 2%nat =>
          Ok (fun g =>
            let m4 := odd v2 2 g in
            negb ((v1 g =? v0 g) && m4
                  || ((v0 g =? -2 * v1 g) && m4 || (-2 * v0 g =? v1 g) && m4)))
      | _ => Err UnboundLocal
      end
  | Hexagonal =>
      if negb (String.eqb plane "c") then Err RuntimeError
      else match ip with
      | 2%nat =>
          Ok (fun g =>
            let m4 := odd v2 2 g in
            negb ((v0 g =? v1 g) && m4
                  || ((v0 g =? -2 * v1 g) && m4 || (-2 * v0 g =? v1 g) && m4)))
      | 1%nat =>
          Ok (fun g =>
            let m4 := odd v2 2 g in
            negb ((v1 g =? 0) && m4 || ((v0 g =? 0) && m4 || (v1 g =? - v0 g) && m4)))
      | _ => Err UnboundLocal
      end
  | Cubic =>
      match ip with
      | 0%nat =>
          let m1 g := v0 g =? 0 in
          let m2 g := v1 g =? 0 in
          let m3 g := v2 g =? 0 in
          let three m4 m5 m6 := fun g =>
            let m1 := negb (m1 g && m4 g) in
            let m2 := negb (m2 g && m5 g) in
            let m3 := negb (m3 g && m6 g) in
            negb (negb m1 || (negb m2 || negb m3)) in
          if String.eqb plane "a" then
            Ok (fun g =>
              let m4 := odd v0 2 g in
              let m5 := odd v1 2 g in
              let m6 := odd v2 2 g in
              let n1 := m1 g && m5 || m1 g && m6 in
              let n2 := m2 g && m4 || m2 g && m6 in
              let n3 := m3 g && m4 in
              negb (n1 || (n2 || n3)))
          else if String.eqb plane "b" then
            Ok (fun g => negb (m1 g && odd v1 2 g || m3 g && odd v1 2 g))
          else if String.eqb plane "c" then
            Ok (fun g => negb (m1 g && odd v2 2 g || m2 g && odd v2 2 g))
          else if String.eqb plane "n" then
            Ok (three (odd (fun g => v1 g + v2 g) 2) (odd (fun g => v0 g + v2 g) 2)
                      (odd (fun g => v0 g + v1 g) 2))
          else if String.eqb plane "d" then
            Ok (three (odd (fun g => v1 g + v2 g) 4) (odd (fun g => v0 g + v2 g) 4)
                      (odd (fun g => v0 g + v1 g) 4))
          else Err RuntimeError
      | 2%nat =>
          let m1 g := Z.abs (v0 g) =? Z.abs (v1 g) in
          let m2 g := Z.abs (v1 g) =? Z.abs (v2 g) in
          let m3 g := Z.abs (v0 g) =? Z.abs (v2 g) in
          let three m4 m5 m6 := fun g =>
            let m1 := negb (m1 g && m4 g) in
            let m2 := negb (m2 g && m5 g) in
            let m3 := negb (m3 g && m6 g) in
            negb (negb m1 || (negb m2 || negb m3)) in
          if String.eqb plane "a" || String.eqb plane "b" || String.eqb plane "c"
             || String.eqb plane "n" then
            Ok (three (odd v2 2) (odd v0 2) (odd v1 2))
          else if String.eqb plane "d" then
            Ok (three (odd (fun g => 2 * v0 g + v2 g) 4) (odd (fun g => v0 g + 2 * v1 g) 4)
                      (odd (fun g => 2 * v0 g + v1 g) 4))
          else Err RuntimeError
      | _ => Ok (fun _ => true)
      end
  end.

Definition omitglideplaneabsences (sgnum : Z) (hkllist : list ivec) (plane : string) (ip : nat)
  : result (list ivec) :=
  do keep <- glide_mask sgnum plane ip; Ok (filter keep hkllist).

(** [for i, p in enumerate(ps): if p != '': hkllist = f(sgnum, hkllist, p, i)] *)
Fixpoint omit_each (f : Z -> list ivec -> string -> nat -> result (list ivec))
  (sgnum : Z) (hkllist : list ivec) (i : nat) (ps : list string) : result (list ivec) :=
  match ps with
  | [] => Ok hkllist
  | p :: ps =>
      if String.eqb p "" then omit_each f sgnum hkllist (S i) ps
      else match f sgnum hkllist p i with
           | Ok l => omit_each f sgnum l (S i) ps
           | Err e => Err e
           end
  end.

(** hexrd/core/material/spacegroup.py:869-883 *)
Definition NonSymmorphicAbsences (sgnum : Z) (hkllist : list ivec) : result (list ivec) :=
  do ab <- zassoc sgnum SYS_AB;
  do l <- omit_each omitglideplaneabsences sgnum hkllist 0 (fst ab);
  omit_each omitscrewaxisabsences sgnum l 0 (snd ab).

(** first character of [s.strip()] *)
Fixpoint strip_head (s : string) : result ascii :=
  match s with
  | EmptyString => Err IndexError
  | String c s => if Ascii.eqb c " " then strip_head s else Ok c
  end.

(** hexrd/core/material/spacegroup.py:443-472 (the centring mask) *)
Definition centering_mask (centering : ascii) : result (ivec -> bool) :=
  match centering with
  | "P" => Ok (fun _ => true)
  | "F" => Ok (fun g =>
             (let seo := npmod (v0 g + 100) 2 + npmod (v1 g + 100) 2 + npmod (v2 g + 100) 2 in
              negb ((seo =? 1) || (seo =? 2)))%Z)
  | "I" => Ok (fun g => (npmod (v0 g + v1 g + v2 g + 100) 2 =? 0)%Z)
  | "A" => Ok (fun g => (npmod (v1 g + v2 g + 100) 2 =? 0)%Z)
  | "B" => Ok (fun g => (npmod (v0 g + v2 g + 100) 2 =? 0)%Z)
  | "C" => Ok (fun g => (npmod (v0 g + v1 g + 100) 2 =? 0)%Z)
  | "R" => Ok (fun g => (npmod (- v0 g + v1 g + v2 g + 90) 3 =? 0)%Z)
  | _ => Err ValueError
  end%char.

(** hexrd/core/material/spacegroup.py:434-477 *)
Definition Allowed_HKLs (sgnum : Z) (hkllist : list ivec) : result (list ivec) :=
  do sym <- py_index pstr_spacegroup (sgnum - 1);
  do centering <- strip_head sym;
  do keep <- centering_mask centering;
  let hkls := filter keep hkllist in
  if in_list sgnum sgnum_symmorphic then Ok hkls
  else NonSymmorphicAbsences sgnum hkls.

(** ** Point-group and Laue-group names *)

(** hexrd/core/material/spacegroup.py:299-333 and
    hexrd/core/material/unitcell.py:1820-1874: first and last space group of
    each range, point group, Laue group, colouring supergroups of both. *)
Definition pgDict : list (Z * Z * (string * string * string * string)) :=
  [ (1, 1, ("c1", "ci", "cs", "c1")); (2, 2, ("ci", "ci", "c1", "c1"));
    (3, 5, ("c2", "c2h", "c2v", "d2h")); (6, 9, ("cs", "c2h", "cs", "d2h"));
    (10, 15, ("c2h", "c2h", "d2h", "d2h")); (16, 24, ("d2", "d2h", "d2h", "d2h"));
    (25, 46, ("c2v", "d2h", "c2v", "d2h")); (47, 74, ("d2h", "d2h", "d2h", "d2h"));
    (75, 80, ("c4", "c4h", "c4v", "d4h")); (81, 82, ("s4", "c4h", "c4", "d4h"));
    (83, 88, ("c4h", "c4h", "d4h", "d4h")); (89, 98, ("d4", "d4h", "d4h", "d4h"));
    (99, 110, ("c4v", "d4h", "c4v", "d4h")); (111, 122, ("d2d", "d4h", "d4h", "d4h"));
    (123, 142, ("d4h", "d4h", "d4h", "d4h")); (143, 146, ("c3", "s6", "c3v", "c3"));
    (147, 148, ("s6", "s6", "c3", "c3")); (149, 155, ("d3", "d3d", "c6v", "d6h"));
    (156, 161, ("c3v", "d3d", "c3v", "d6h")); (162, 167, ("d3d", "d3d", "d6h", "d6h"));
    (168, 173, ("c6", "c6h", "c6v", "d6h")); (174, 174, ("c3h", "c6h", "c6v", "d6h"));
    (175, 176, ("c6h", "c6h", "d6h", "d6h")); (177, 182, ("d6", "d6h", "d6h", "d6h"));
    (183, 186, ("c6v", "d6h", "c6v", "d6h")); (187, 190, ("d3h", "d6h", "d6h", "d6h"));
    (191, 194, ("d6h", "d6h", "d6h", "d6h")); (195, 199, ("t", "th", "td", "oh"));
    (200, 206, ("th", "th", "oh", "oh")); (207, 214, ("o", "oh", "oh", "oh"));
    (215, 220, ("td", "oh", "td", "oh")); (221, 230, ("oh", "oh", "oh", "oh")) ]%string.

(** hexrd/core/material/unitcell.py:118-130 ([GetPgLg]) and
    hexrd/core/material/spacegroup.py:126-142; no entry leaves the attributes
    unset, so reading them is an AttributeError. *)
Definition GetPgLg (sgnum : Z) : result (string * string * string * string) :=
  match find (fun e => (fst (fst e) <=? sgnum) && (sgnum <=? snd (fst e))) pgDict with
  | Some e => Ok (snd e)
  | None => Err AttributeError
  end.
