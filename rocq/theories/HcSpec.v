(** Vocabulary for the settings of a far field analysis *)
From Coq Require Import String QArith.
From Verif Require Import Prelude ConfigModel ConfigSpec HcModel.
Local Open Scope string_scope.
Local Open Scope Q_scope.

(** the value in effect at a key: the one given in the tree, or the default where no value is given *)
Definition in_effect (cfg : yv) (key : string) (dflt : option yv) (v : yv) : Prop :=
  at_path cfg (split_colon key) = Some v \/ (at_path cfg (split_colon key) = None /\ dflt = Some v).
(** the tree is a dictionary, and no plain value stands where the key needs a section *)
Definition readable (cfg : yv) (key : string) : Prop := is_dict cfg /\ open_to cfg (split_colon key).
(** equal but for the case of letters *)
Fixpoint in_step (a : Ascii.ascii) (from to : string) : Ascii.ascii :=
  match from, to with String x r, String y r' => if Ascii.eqb a x then y else in_step a r r' | _, _ => a end.
Definition small_letter (a : Ascii.ascii) : Ascii.ascii := in_step a "ABCDEFGHIJKLMNOPQRSTUVWXYZ" "abcdefghijklmnopqrstuvwxyz".
Fixpoint same_but_case (s t : string) : Prop :=
  match s, t with
  | EmptyString, EmptyString => True
  | String a s', String b t' => small_letter a = small_letter b /\ same_but_case s' t'
  | _, _ => False
  end.
(** [x] is a number with value [q] *)
Definition number (x : yv) (q : Q) : Prop := num_of x = Some q.
(** a whole number, truth values included *)
Definition whole (x : yv) : Prop := (exists z, x = YInt z) \/ (exists b, x = YBool b).
(** distance, in degrees, of an azimuth from the nearest of the two poles 90 and -90 (= 270) is at least [m], azimuths counted in [-90, 270] *)
Definition clear_of_poles (m eta : Q) : Prop := m <= eta + 90 /\ m <= Qabs.Qabs (eta - 90) /\ m <= 270 - eta.
Definition in_some (rs : list (Q * Q)) (x : Q) : Prop := exists r, In r rs /\ fst r <= x <= snd r.
(** the image series loaded last for a panel *)
Fixpoint last_for {IMS} (k : yv) (l : list (yv * IMS)) : option IMS :=
  match l with
  | [] => None
  | (k', v) :: r => match last_for k r with Some w => Some w | None => if py_eq k k' then Some v else None end
  end.
(** no two panels are equal *)
Fixpoint all_different (l : list yv) : Prop := match l with [] => True | k :: r => Forall (fun k' => py_eq k k' = false) r /\ all_different r end.
(** no character of the string is [c] *)
Fixpoint free_of (c : Ascii.ascii) (s : string) : Prop := match s with EmptyString => True | String a r => a <> c /\ free_of c r end.
