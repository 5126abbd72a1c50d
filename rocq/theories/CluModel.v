(** Model of the averaging and clustering of orientations: quatAverageCluster (core/rotations.py) and run_cluster
    (hedm/findorientations.py).  Real numbers stand for floating point numbers. *)
From Coq Require Import Reals List String ZArith QArith.
From Verif Require Import Prelude Lin TensorModel RotModel FibModel.
Import ListNotations.
Local Close Scope Q_scope.
Local Open Scope R_scope.
Local Notation length := List.length.

(** ** quatAverageCluster *)
Definition qadd (a b : q4) : q4 := Q4 (qw a + qw b) (qx a + qx b) (qy a + qy b) (qz a + qz b).
Definition qvec (q : q4) : v3 := V3 (qx q) (qy q) (qz q).
(** numpy.average over the columns *)
Definition qaverage (l : list q4) : q4 := qscale (/ INR (length l)) (fold_right qadd qzero l).
(** rotations.py:422-458.  With several smallest misorientations the array of two is reshaped to one column of four: ValueError.
    An empty array has no column 0: IndexError. *)
Definition quatAverageCluster (q_in qsym : list q4) : result q4 :=
  let q_in := map unitVector4 q_in in
  match q_in with
  | [] => Err IndexError
  | [x] => Ok x
  | [x; y] =>
    do r <- misorientation x y qsym [qone];
    let '(ma, mq) := r in
    match mq with
    | [m] => quatProduct x (quatOfExpMap (vscale (/ 2 * ma) (unitVector (qvec m))))
    | _ => Err ValueError
    end
  | q0 :: _ =>
    let qrot := map (fun q => mat4_apply (qprod_left (invertQuat q0)) q) q_in in
    do qrot <- map_res (fun q => toFundamentalRegion q qsym) qrot;
    let q_bar := unitVector4 (qaverage qrot) in
    let q_bar := mat4_apply (qprod_left q0) q_bar in
    toFundamentalRegion q_bar qsym
  end.

(** ** run_cluster *)
Inductive algo := Dbscan | OrtDbscan | SphDbscan | Fclusterdata | OtherAlgo (s : string).
(** the distance given to sklearn: a distance matrix of misorientations, or the euclidean distance of the four or last three entries *)
Inductive metric := Misorientation | Euclid4 | Euclid3.
Definition algo_eqb (a b : algo) : bool :=
  match a, b with Dbscan, Dbscan | OrtDbscan, OrtDbscan | SphDbscan, SphDbscan | Fclusterdata, Fclusterdata => true | OtherAlgo s, OtherAlgo t => String.eqb s t | _, _ => false end.

Section Cluster.
(** sklearn.cluster.dbscan (external): the label of each orientation, -1 for noise *)
Variable dbscan : metric -> R -> nat -> list q4 -> list Z.
(** scipy.cluster.hierarchy.fclusterdata (external) for the metric quat_distance: labels from 1 *)
Variable fclusterdata : R -> list q4 -> list Z.
Variable have_sklearn : bool.

(** the columns with a given label, findorientations.py:326, 348 *)
Definition with_label (k : Z) (cl : list Z) (q : list q4) : list q4 := map snd (filter (fun p => Z.eqb (fst p) k) (combine cl q)).
(** numpy.unique: how many labels there are *)
Definition n_labels (cl : list Z) : nat := length (nodup Z.eq_dec cl).
(** findorientations.py:316-326 *)
Definition n_blobs (cl : list Z) : nat := if existsb (Z.eqb (-1)) cl then (n_labels cl - 1)%nat else n_labels cl.
Definition averages (n : nat) (cl : list Z) (q qsym : list q4) : result (list q4) :=
  map_res (fun i => quatAverageCluster (with_label (Z.of_nat i + 1) cl q) qsym) (seq 0 n).
(** findorientations.py:295-300: from 0-based to 1-based, noise stays -1 *)
Definition one_based (labels : list Z) : list Z := map (fun l => if Z.eqb l (-1) then (-1)%Z else (l + 1)%Z) labels.

(** findorientations.py:266-314, the labels of the orientations above the threshold.  [grid] says that use_quaternion_grid is set.
    Without sklearn the names dbscan and pairwise_distances do not exist: the NameError stands as a LookupError here. *)
Definition with_sklearn {A} (x : A) : result A := if have_sklearn then Ok x else Err LookupError.
Definition labels_of (a : algo) (radius : R) (min_samples : option nat) (grid : bool) (q : list q4) : result (list Z) :=
  let ms := match min_samples with Some m => if grid then 1%nat else m | None => 1%nat end in
  match a with
  | SphDbscan => with_sklearn (one_based (dbscan Misorientation radius ms q))
  | OrtDbscan => with_sklearn (one_based (dbscan Euclid3 (1 / 4 * radius) ms q))
  | Dbscan => with_sklearn (one_based (dbscan Euclid4 (1 / 2 * radius) ms q))
  | Fclusterdata => Ok (fclusterdata radius q)
  | OtherAlgo _ => Err RuntimeError
  end.
(** findorientations.py:249-268: the algorithm really used *)
Definition fallback (a : algo) (num_ors : nat) : algo :=
  let a := if Nat.ltb 25000 num_ors && (algo_eqb a SphDbscan || algo_eqb a Fclusterdata) then OrtDbscan else a in
  if algo_eqb a Dbscan && negb have_sklearn then Fclusterdata else a.
(** findorientations.py:206-373.  [radius] is in radians; [min_compl] is the threshold in force (the argument or else the
    configured one).  The result is the number of rows of the array returned, its columns, and the labels returned.  With no
    orientation above the threshold the array has one row and no columns. *)
Definition run_cluster (a : algo) (radius min_compl : R) (min_samples : option nat) (grid : bool)
    (compl : list R) (qfib qsym : list q4) : result (nat * list q4 * list Z) :=
  let qfib_r := map snd (filter (fun p => if Rlt_dec min_compl (fst p) then true else false) (combine compl qfib)) in
  match qfib_r with
  | [] => Ok (1%nat, [], [])
  | [q] => Ok (4%nat, [q], [1%Z])
  | _ =>
    let a := fallback a (length qfib_r) in
    do cl <- labels_of a radius min_samples grid qfib_r;
    let nblobs := n_blobs cl in
    do qbar <- averages nblobs cl qfib_r qsym;
    if (algo_eqb a Dbscan || algo_eqb a OrtDbscan) && Nat.ltb 1 (length qbar) then
      let cl := fclusterdata radius qbar in
      let nblobs_new := n_labels cl in
      if Nat.ltb nblobs_new nblobs then do tmp <- averages nblobs_new cl qbar qsym; Ok (4%nat, tmp, cl)
      else Ok (4%nat, qbar, cl)
    else Ok (4%nat, qbar, cl)
  end.
End Cluster.
