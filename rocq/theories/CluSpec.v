(** Vocabulary for the properties of the averaging and clustering of orientations. *)
From Coq Require Import Reals List ZArith Permutation.
From Verif Require Import Prelude Lin RotModel RotSpec CluModel.
Import ListNotations.
Local Open Scope R_scope.
Local Notation length := List.length.

(** exactly one of the listed symmetry operations brings r2 nearest to r1 *)
Definition sole_nearest (r1 r2 : m3) (G : list m3) : Prop :=
  exists i, (i < length G)%nat /\ forall j, (j < length G)%nat -> j <> i ->
    tr (mm (mt r1) (mm r2 (nth j G mI))) < tr (mm (mt r1) (mm r2 (nth i G mI))).
(** r2 is one of the copies of r1 under the crystal symmetry G *)
Definition equivalent_or (G : list m3) (r1 r2 : m3) : Prop := exists c, In c G /\ r2 = mm r1 c.
(** some copy of r2 is turned from r1 by no more than the angle t *)
Definition within (G : list m3) (t : R) (r1 r2 : m3) : Prop :=
  exists c u, In c G /\ angle_of (mm (mt r1) (mm r2 c)) u /\ u <= t.
(** the four-dimensional dot product of unit quaternions, the cosine of half the angle between the orientations *)
Definition qdot (p q : q4) : R := qw p * qw q + qx p * qx q + qy p * qy q + qz p * qz q.
Fixpoint total (f : q4 -> R) (l : list q4) : R := match l with [] => 0 | q :: r => f q + total f r end.
(** p stands for q as seen from q0: of the copies of the turn from q0 to q it has the smallest angle *)
Definition represents (G : list m3) (q0 q p : q4) : Prop :=
  unitq p /\ 0 <= qw p /\ equivalent_or G (mm (mt (rotMatOfQuat q0)) (rotMatOfQuat q)) (rotMatOfQuat p) /\
  forall c, In c G -> tr (mm (mm (mt (rotMatOfQuat q0)) (rotMatOfQuat q)) c) <= tr (rotMatOfQuat p).

(** the points with the label k, in their order *)
Fixpoint members (k : Z) (labels : list Z) (l : list q4) : list q4 :=
  match labels, l with
  | z :: zs, q :: qs => if Z.eq_dec z k then q :: members k zs qs else members k zs qs
  | _, _ => []
  end.
(** labels of n clusters numbered from [first] on, none of them empty, with or without noise (label -1) *)
Definition labels_clusters (noise : bool) (first : Z) (n : nat) (labels : list Z) : Prop :=
  (forall z, In z labels -> (first <= z < first + Z.of_nat n)%Z \/ noise = true /\ z = (-1)%Z) /\
  (forall i, (i < n)%nat -> In (first + Z.of_nat i)%Z labels).
(** the clusters *)
Definition clusters (first : Z) (n : nat) (labels : list Z) (l : list q4) : list (list q4) :=
  map (fun i => members (first + Z.of_nat i) labels l) (seq 0 n).
(** out lists the averages of the groups, all non-empty *)
Definition averages_of (qsym : list q4) (groups : list (list q4)) (out : list q4) : Prop :=
  Forall2 (fun g q => g <> [] /\ quatAverageCluster g qsym = Ok q) groups out.
(** the orientations whose completeness exceeds the threshold *)
Fixpoint above (thr : R) (compl : list R) (l : list q4) : list q4 :=
  match compl, l with
  | c :: cs, q :: qs => if Rlt_dec thr c then q :: above thr cs qs else above thr cs qs
  | _, _ => []
  end.
(** what is asked of the clustering routines: one label for each point, and well-formed labels *)
Definition dbscan_labels (f : list q4 -> list Z) : Prop :=
  forall l, length (f l) = length l /\ exists n, labels_clusters true 0 n (f l).
Definition fcluster_labels (f : list q4 -> list Z) : Prop :=
  forall l, length (f l) = length l /\ exists n, labels_clusters false 1 n (f l).

(** how n orientations are labelled: the algorithm asked for, whether sklearn is there, the labels (with the number of the
    first cluster), and whether the averages are looked at again for duplicates *)
Section Labelling.
Variable dbscan : metric -> R -> nat -> list q4 -> list Z.
Variable fclusterdata : R -> list q4 -> list Z.
Variables (radius : R) (min_samples : nat).
Inductive labelling (n : nat) : bool -> algo -> (list q4 -> list Z) -> Z -> bool -> Prop :=
| by_misorientation : (n <= 25000)%nat -> labelling n true SphDbscan (dbscan Misorientation radius min_samples) 0 false
| by_vector_part : forall a, a = OrtDbscan \/ (25000 < n)%nat /\ (a = SphDbscan \/ a = Fclusterdata) ->
    labelling n true a (dbscan Euclid3 (radius / 4) min_samples) 0 true
| by_entries : labelling n true Dbscan (dbscan Euclid4 (radius / 2) min_samples) 0 true
| by_linkage : forall skl a, (n <= 25000)%nat /\ a = Fclusterdata \/ skl = false /\ a = Dbscan ->
    labelling n skl a (fclusterdata radius) 1 false.
End Labelling.
(** the number of samples that make a cluster, given the argument and whether a grid of orientations is used *)
Definition samples (min_samples : option nat) (grid : bool) : nat :=
  match min_samples, grid with Some m, false => m | _, _ => 1%nat end.
(** the labels as they are returned: clusters from 1 on, noise -1 *)
Definition numbered (first z : Z) : Z := if Z.eq_dec z (-1) then (-1)%Z else (z - first + 1)%Z.
