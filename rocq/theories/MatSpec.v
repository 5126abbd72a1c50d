(** Vocabulary for the properties of Material objects. *)
From Coq Require Import QArith Qabs Permutation String.
From Verif Require Import Prelude ProcessModel PlaneModel PlaneSpec MatModel.
Local Close Scope Q_scope.
Local Notation length := List.length.

(** the lattice parameters a, b, c (angstroms), alpha, beta, gamma (degrees) have the form the crystal system of the space group requires *)
Definition fits_system (sg : Z) (lp : list Q) : Prop :=
  exists a b c al be ga, lp = [a; b; c; al; be; ga] /\
  ((3 <= sg <= 15)%Z -> al = (90#1)%Q /\ ga = (90#1)%Q) /\
  ((16 <= sg <= 142)%Z -> al = (90#1)%Q /\ be = (90#1)%Q /\ ga = (90#1)%Q) /\
  ((75 <= sg <= 230)%Z -> b = a) /\
  ((143 <= sg <= 194)%Z -> al = (90#1)%Q /\ be = (90#1)%Q /\ ga = (120#1)%Q) /\
  ((195 <= sg <= 230)%Z -> c = a /\ al = (90#1)%Q /\ be = (90#1)%Q /\ ga = (90#1)%Q).
(** the parameters the crystal system leaves free *)
Definition free_parameters (sg : Z) (lp r : list Q) : Prop :=
  exists a b c al be ga, lp = [a; b; c; al; be; ga] /\
  ((1 <= sg <= 2)%Z -> r = [a; b; c; al; be; ga]) /\ ((3 <= sg <= 15)%Z -> r = [a; b; c; be]) /\ ((16 <= sg <= 74)%Z -> r = [a; b; c]) /\
  ((75 <= sg <= 194)%Z -> r = [a; c]) /\ ((195 <= sg <= 230)%Z -> r = [a]).
(** numbers that numpy.isclose does not tell apart *)
Definition nearly (a b : Q) : Prop := (Qabs (a - b) <= (1 # 100000000) + (1 # 100000) * Qabs b)%Q.

(** the unit cell has the lattice parameters, space group, atoms and limits of the material *)
Definition cell_agrees (m : mat) : Prop :=
  (1 <= m_sg m <= 230)%Z /\ fits_system (m_sg m) (m_lp m) /\
  let c := m_cell m in
  c_lp c = m_lp m /\ c_sg c = m_sg m /\ c_type c = m_type m /\ c_charge c = m_charge m /\ c_info c = m_info m /\ c_U c = m_U m /\
  c_dmin c = m_dmin m /\ c_set c = m_set m.
(** the plane data has the Laue group and lattice parameters of the material and the reflections of its unit cell, at their angles *)
Definition planes_agree (W : world) (m : mat) : Prop :=
  let p := m_plane m in
  p_laue p = w_laue W (m_sg m) /\ free_parameters (m_sg m) (m_lp m) (p_lp p) /\
  Permutation (map snd (data (p_pd p))) (w_refl W (m_lp m) (m_sg m) (m_set m) (m_dmin m) (m_dmin m)) /\
  forall t h, In (t, h) (data (p_pd p)) -> t = w_tth W (p_laue p) (p_lp p) (p_wl p) h.
(** the unit cell has the accelerating voltage and the plane data the wavelength of the beam energy *)
Definition energy_agrees (W : world) (m : mat) : Prop :=
  c_volt (m_cell m) = (fst (m_energy m) * (1000#1))%Q /\ snd (m_energy m) <> NotWavelength /\ nearly (p_wl (m_plane m)) (w_wavelength W (m_energy m)).

(** a reflection is excluded *)
Definition excluded (d : pd hkl) (h : hkl) : Prop :=
  exists ex r, exclusions d = Ok ex /\ nth_error (map snd (data d)) r = Some h /\ nth r ex false = true.
(** what the program's sort returns is an order of the list *)
Definition sane (W : world) : Prop := forall l, ordering (w_order W l) (length l).

(** assignments through the material that rebuild what depends on them, settings of the plane data's exclusions, and reading *)
Definition rebuilding (o : op) : Prop :=
  match o with
  | SetSgnum _ | SetLattice _ | SetDmin _ | SetEnergy _ | SetAtomdata _ _ _ _ | Exclude _ | SetTmax _ | ReadSF => True
  | _ => False
  end.
(** a sequence of operations none of which failed *)
Inductive history (W : world) (P : op -> Prop) : mat -> mat -> Prop :=
| h_nil : forall m, history W P m m
| h_step : forall m m1 o m2, history W P m m1 -> P o -> step W m1 o = (m2, None) -> history W P m m2.
(** a sequence of any operations, some of which may have failed *)
Inductive any_history (W : world) : mat -> mat -> Prop :=
| a_nil : forall m, any_history W m m
| a_step : forall m m1 o m2 e, any_history W m m1 -> step W m1 o = (m2, e) -> any_history W m m2.
Definition constructed (W : world) (m : mat) : Prop :=
  exists sg lp dmin e ty ch info U st file, new_material W sg lp dmin e ty ch info U st file = Ok m.
(** how the exclusions [d'] of the new list of reflections follow from those [d] of the old one: unchanged when the set of reflections is
    the same; otherwise a reflection listed before keeps its state and a new one is excluded - unless that would leave none, in which case
    all but the reflections of the file, or the first five, are excluded *)
Definition listing (d : pd hkl) : list hkl := map snd (data d).
Definition exclusions_follow (file : option (list hkl)) (d d' : pd hkl) : Prop :=
  (Permutation (listing d) (listing d') -> forall h, excluded d' h <-> excluded d h) /\
  (~ Permutation (listing d) (listing d') -> (exists h, In h (listing d) /\ In h (listing d') /\ ~ excluded d h) ->
   forall h, In h (listing d') -> (excluded d' h <-> (In h (listing d) -> excluded d h))) /\
  (~ Permutation (listing d) (listing d') -> (forall h, In h (listing d) -> In h (listing d') -> excluded d h) ->
   forall r h, nth_error (listing d') r = Some h -> (excluded d' h <-> match file with Some f => ~ In h f | None => 5 <= r end)).
(** the entries of a list that a mask does not exclude, in order *)
Inductive kept {B} : list bool -> list B -> list B -> Prop :=
| kept_nil : kept [] [] []
| kept_out : forall ex x l r, kept ex l r -> kept (true :: ex) (x :: l) r
| kept_in : forall ex x l r, kept ex l r -> kept (false :: ex) (x :: l) (x :: r).
