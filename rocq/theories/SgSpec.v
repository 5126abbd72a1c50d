(** What the space-group theorems talk about, independent of how hexrd builds
    its lists.  The record types [ivec], [imat] and [symop] are shared with the
    model; everything else is defined here. *)
From Coq Require Import String Ascii.
From Verif Require Import Prelude SgModel.
Local Open Scope Z_scope.

(** ** Integer matrices *)
Definition idot (a b : ivec) : Z := v0 a * v0 b + v1 a * v1 b + v2 a * v2 b.

(** matrix times column *)
Definition act (m : imat) (v : ivec) : ivec := IV (idot (r0 m) v) (idot (r1 m) v) (idot (r2 m) v).

(** row times matrix: how a reflection index changes when the crystal is
    transformed by the matrix *)
Definition row_act (g : ivec) (m : imat) : ivec :=
  IV (v0 g * v0 (r0 m) + v1 g * v0 (r1 m) + v2 g * v0 (r2 m))
     (v0 g * v1 (r0 m) + v1 g * v1 (r1 m) + v2 g * v1 (r2 m))
     (v0 g * v2 (r0 m) + v1 g * v2 (r1 m) + v2 g * v2 (r2 m)).

Definition matmul (a b : imat) : imat := IM (row_act (r0 a) b) (row_act (r1 a) b) (row_act (r2 a) b).
Definition one : imat := IM (IV 1 0 0) (IV 0 1 0) (IV 0 0 1).
Definition negv (a : ivec) : ivec := IV (- v0 a) (- v1 a) (- v2 a).
Definition negm (a : imat) : imat := IM (negv (r0 a)) (negv (r1 a)) (negv (r2 a)).

(** A finite group of matrices, listed without repetition. *)
Record matrix_group (l : list imat) : Prop := {
  mg_one : In one l;
  mg_mul : forall a b, In a l -> In b l -> In (matmul a b) l;
  mg_inv : forall a, In a l -> exists b, In b l /\ matmul a b = one /\ matmul b a = one;
  mg_nodup : NoDup l
}.

(** ** Symmetry operations x -> R x + t, with t in 24ths of a lattice vector *)

(** first [b], then [a] *)
Definition compose (a b : symop) : symop :=
  OP (matmul (op_r a) (op_r b))
     (IV (idot (r0 (op_r a)) (op_t b) + v0 (op_t a))
         (idot (r1 (op_r a)) (op_t b) + v1 (op_t a))
         (idot (r2 (op_r a)) (op_t b) + v2 (op_t a))).

(** equal up to a whole lattice translation *)
Definition same_op (a b : symop) : Prop :=
  op_r a = op_r b /\
  (24 | v0 (op_t a) - v0 (op_t b)) /\
  (24 | v1 (op_t a) - v1 (op_t b)) /\
  (24 | v2 (op_t a) - v2 (op_t b)).

Definition identity_op : symop := OP one (IV 0 0 0).
Definition inversion_op : symop := OP (negm one) (IV 0 0 0).
Definition translation (s : ivec) : symop := OP one s.

(** The operations of a space group, one representative per class modulo the
    lattice translations. *)
Record space_group (ops : list symop) : Prop := {
  sg_one : In identity_op ops;
  sg_mul : forall a b, In a ops -> In b ops -> exists c, In c ops /\ same_op c (compose a b);
  sg_inv : forall a, In a ops -> exists b, In b ops /\ same_op (compose a b) identity_op
                                                  /\ same_op (compose b a) identity_op;
  sg_distinct : forall i j a b,
      nth_error ops i = Some a -> nth_error ops j = Some b -> same_op a b -> i = j
}.

(** products of members of [gens] *)
Inductive product_of (gens : list symop) : symop -> Prop :=
| po_gen g : In g gens -> product_of gens g
| po_mul a b c : product_of gens a -> product_of gens b -> same_op c (compose a b) ->
                 product_of gens c.

(** [b] is the operation [a] seen from an origin moved by [- s]. *)
Definition moved (s : ivec) (a b : symop) : Prop :=
  same_op b (compose (translation s) (compose a (translation (negv s)))).

(** International Tables A: the translations, in 24ths, that the first letter of
    a space-group symbol adds to the lattice (R on hexagonal axes, obverse). *)
Definition centring_translations (letter : ascii) : list ivec :=
  IV 0 0 0 ::
  match letter with
  | "A" => [IV 0 12 12]
  | "B" => [IV 12 0 12]
  | "C" => [IV 12 12 0]
  | "I" => [IV 12 12 12]
  | "F" => [IV 0 12 12; IV 12 0 12; IV 12 12 0]
  | "R" => [IV 16 8 8; IV 8 16 16]
  | _ => []
  end%char.

(** International Tables A: the space groups described with two origins *)
Definition two_origins : list Z :=
  [48; 50; 59; 68; 70; 85; 86; 88; 125; 126; 129; 130; 133; 134; 137; 138; 141; 142;
   201; 203; 222; 224; 227; 228].

(** The positive rotations about c, and for the 22 space groups that come in
    mirror-image pairs the order N of the main screw axis N_m and m: the
    rotation by 1/N of a turn goes with a translation of m/N along c. *)
Definition rotation_about_c (order : Z) : imat :=
  match order with
  | 4 => IM (IV 0 (-1) 0) (IV 1 0 0) (IV 0 0 1)
  | 3 => IM (IV 0 (-1) 0) (IV 1 (-1) 0) (IV 0 0 1)
  | _ => IM (IV 1 (-1) 0) (IV 1 0 0) (IV 0 0 1)
  end.
Definition enantiomorphic_screws : list (Z * (Z * Z)) :=
  [(76, (4, 1)); (78, (4, 3)); (91, (4, 1)); (95, (4, 3)); (92, (4, 1)); (96, (4, 3));
   (144, (3, 1)); (145, (3, 2)); (151, (3, 1)); (153, (3, 2)); (152, (3, 1)); (154, (3, 2));
   (169, (6, 1)); (170, (6, 5)); (171, (6, 2)); (172, (6, 4));
   (178, (6, 1)); (179, (6, 5)); (180, (6, 2)); (181, (6, 4)); (212, (4, 3)); (213, (4, 1))].

(** ** Crystal classes *)

(** Kinds of crystallographic operation. *)
Inductive kind := K1 | K2 | K3 | K4 | K6 | Kinv | Km | Kinv3 | Kinv4 | Kinv6 | Kother.

Definition det3 (m : imat) : Z :=
  v0 (r0 m) * (v1 (r1 m) * v2 (r2 m) - v2 (r1 m) * v1 (r2 m))
  - v1 (r0 m) * (v0 (r1 m) * v2 (r2 m) - v2 (r1 m) * v0 (r2 m))
  + v2 (r0 m) * (v0 (r1 m) * v1 (r2 m) - v1 (r1 m) * v0 (r2 m)).
Definition trace3 (m : imat) : Z := v0 (r0 m) + v1 (r1 m) + v2 (r2 m).

(** International Tables A, table 1.2.2.1: a rotation part is recognised by its
    determinant and trace. *)
Definition kind_of (m : imat) : kind :=
  match det3 m, trace3 m with
  | 1, 3 => K1 | 1, -1 => K2 | 1, 0 => K3 | 1, 1 => K4 | 1, 2 => K6
  | -1, -3 => Kinv | -1, 1 => Km | -1, 0 => Kinv3 | -1, -1 => Kinv4 | -1, -2 => Kinv6
  | _, _ => Kother
  end.
Definition kind_eqb (a b : kind) : bool :=
  match a, b with
  | K1, K1 | K2, K2 | K3, K3 | K4, K4 | K6, K6 | Kinv, Kinv | Km, Km | Kinv3, Kinv3
  | Kinv4, Kinv4 | Kinv6, Kinv6 | Kother, Kother => true
  | _, _ => false
  end.
Definition count_kind (k : kind) (l : list imat) : nat :=
  List.length (filter (fun m => kind_eqb (kind_of m) k) l).
Definition census (l : list imat) : list nat :=
  map (fun k => count_kind k l) [K1; K2; K3; K4; K6; Kinv; Km; Kinv3; Kinv4; Kinv6; Kother].

(** International Tables A: the 32 crystal classes by Schoenflies symbol, with
    how many operations of each kind they have, in the order
    1 2 3 4 6  -1 m -3 -4 -6  (other). *)
Definition class_census : list (string * list nat) :=
  [ ("c1",  [1;0;0;0;0; 0;0;0;0;0;0]); ("ci",  [1;0;0;0;0; 1;0;0;0;0;0]);
    ("c2",  [1;1;0;0;0; 0;0;0;0;0;0]); ("cs",  [1;0;0;0;0; 0;1;0;0;0;0]);
    ("c2h", [1;1;0;0;0; 1;1;0;0;0;0]); ("d2",  [1;3;0;0;0; 0;0;0;0;0;0]);
    ("c2v", [1;1;0;0;0; 0;2;0;0;0;0]); ("d2h", [1;3;0;0;0; 1;3;0;0;0;0]);
    ("c4",  [1;1;0;2;0; 0;0;0;0;0;0]); ("s4",  [1;1;0;0;0; 0;0;0;2;0;0]);
    ("c4h", [1;1;0;2;0; 1;1;0;2;0;0]); ("d4",  [1;5;0;2;0; 0;0;0;0;0;0]);
    ("c4v", [1;1;0;2;0; 0;4;0;0;0;0]); ("d2d", [1;3;0;0;0; 0;2;0;2;0;0]);
    ("d4h", [1;5;0;2;0; 1;5;0;2;0;0]); ("c3",  [1;0;2;0;0; 0;0;0;0;0;0]);
    ("s6",  [1;0;2;0;0; 1;0;2;0;0;0]); ("d3",  [1;3;2;0;0; 0;0;0;0;0;0]);
    ("c3v", [1;0;2;0;0; 0;3;0;0;0;0]); ("d3d", [1;3;2;0;0; 1;3;2;0;0;0]);
    ("c6",  [1;1;2;0;2; 0;0;0;0;0;0]); ("c3h", [1;0;2;0;0; 0;1;0;0;2;0]);
    ("c6h", [1;1;2;0;2; 1;1;2;0;2;0]); ("d6",  [1;7;2;0;2; 0;0;0;0;0;0]);
    ("c6v", [1;1;2;0;2; 0;6;0;0;0;0]); ("d3h", [1;3;2;0;0; 0;4;0;0;2;0]);
    ("d6h", [1;7;2;0;2; 1;7;2;0;2;0]); ("t",   [1;3;8;0;0; 0;0;0;0;0;0]);
    ("th",  [1;3;8;0;0; 1;3;8;0;0;0]); ("o",   [1;9;8;6;0; 0;0;0;0;0;0]);
    ("td",  [1;3;8;0;0; 0;6;0;6;0;0]); ("oh",  [1;9;8;6;0; 1;9;8;6;0;0]) ]%string%nat.

Definition has_class (symbol : string) (l : list imat) : Prop :=
  In (symbol, census l) class_census.

(** ** Systematic absences *)

(** A reflection [g] is extinguished by the symmetry when some operation leaves
    its index unchanged but shifts its phase by a fraction of a turn
    (International Tables A, 1.6.3). *)
Definition absent (ops : list symop) (g : ivec) : Prop :=
  exists op, In op ops /\ row_act g (op_r op) = g /\ ~ (24 | idot g (op_t op)).

(** The space-group operations hexrd assigns to a space-group number, in either
    setting. *)
Definition operations_of (sgnum : Z) (ops : list symop) : Prop :=
  exists setting pg laue c s, GenerateSGSym sgnum setting = Ok (ops, pg, laue, c, s).
