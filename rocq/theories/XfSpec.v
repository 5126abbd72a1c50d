(** Vocabulary for the properties of the coordinate transforms. *)
From Coq Require Import Reals List ZArith.
From Verif Require Import Prelude Lin RotSpec.
Local Open Scope R_scope.

(** ** arcs of the circle *)
(** w is the length of the arc run through from the angle [start] forwards (increasing angle) to the angle [stop];
    for ends that differ by whole turns it is a full turn if stop is beyond start and zero otherwise *)
Definition arc_length (start stop w : R) : Prop :=
  exists k : Z, stop = start + w + IZR k * (2 * PI) /\
    (0 < w < 2 * PI \/ w = 2 * PI /\ (0 <= k)%Z \/ w = 0 /\ (k <= 0)%Z).
(** the angle a, up to whole turns, is on the arc of length w that begins at [start] *)
Definition on_arc (start w a : R) : Prop := exists k : Z, start <= a + IZR k * (2 * PI) <= start + w.
(** where an arc given by its two ends begins and ends when it is run through in the given sense *)
Definition arc_start (ccw : bool) (r : R * R) : R := if ccw then fst r else snd r.
Definition arc_stop (ccw : bool) (r : R * R) : R := if ccw then snd r else fst r.

(** ** directions and rays *)
Definition unit (v : v3) : Prop := norm2 v = 1.
Definition direction (v : v3) : v3 := vscale (/ norm v) v.
(** mirror image of the direction d at the plane with unit normal g *)
Definition mirrored (g d : v3) : v3 := vsub d (vscale (2 * dot d g) g).
(** lab position of the point (x, y) of a flat detector *)
Definition lab_point (rmat_d : m3) (tvec_d : v3) (x y : R) : v3 := vadd (mv rmat_d (V3 x y 0)) tvec_d.
(** the ray from o in direction d meets the detector plane in front of o at the point (x, y) *)
Definition meets (rmat_d : m3) (tvec_d o d : v3) (x y : R) : Prop := exists s, 0 < s /\ lab_point rmat_d tvec_d x y = vadd o (vscale s d).
Definition meets_only (rmat_d : m3) (tvec_d o d : v3) (x y : R) : Prop :=
  meets rmat_d tvec_d o d x y /\ forall x' y', meets rmat_d tvec_d o d x' y' -> x' = x /\ y' = y.
(** rotations about the coordinate axes *)
Definition rot_x (t : R) : m3 := M3 1 0 0 0 (cos t) (- sin t) 0 (sin t) (cos t).
Definition rot_y (t : R) : m3 := M3 (cos t) 0 (sin t) 0 1 0 (- sin t) 0 (cos t).
Definition rot_z (t : R) : m3 := M3 (cos t) (- sin t) 0 (sin t) (cos t) 0 0 0 1.
(** the beam frame: X, Y, Z with Z against the beam, the eta vector in the half plane y = 0, x > 0 *)
Definition beam_frame (b e : v3) (r : m3) : Prop :=
  rotation r /\ mv r (V3 0 0 (-1)) = direction b /\ 0 < vx (mv (mt r) e) /\ vy (mv (mt r) e) = 0.
(** the direction with scattering angle t and azimuth h in the beam frame r *)
Definition scattered (r : m3) (t h : R) : v3 := mv r (V3 (sin t * cos h) (sin t * sin h) (- cos t)).
Definition same_dir_angle (a b : R) : Prop := exists k : Z, a = b + IZR k * (2 * PI).
(** ** diffraction *)
(** the symmetric tensor with vector notation (t00, t11, t22, sqrt 2 t12, sqrt 2 t02, sqrt 2 t01) *)
Definition tensor6 (a b c d e f : R) : m3 := M3 a (f / sqrt 2) (e / sqrt 2) (f / sqrt 2) b (d / sqrt 2) (e / sqrt 2) (d / sqrt 2) c.
(** wave vector of the beam, and after adding the reciprocal lattice vector g *)
Definition wave (wavelength : R) (b : v3) : v3 := vscale (/ wavelength) (direction b).
Definition wave_out (wavelength : R) (b g : v3) : v3 := vadd (wave wavelength b) g.
(** the Laue condition: scattering by g is elastic *)
Definition diffracts (wavelength : R) (b g : v3) : Prop := norm (wave_out wavelength b g) = norm (wave wavelength b).
(** the sample frame tilted by chi and turned by omega *)
Definition sample_turn (chi ome : R) : m3 := mm (rot_x chi) (rot_y ome).
(** the unit scattering vector g that turns the direction b into d: d is b mirrored at the lattice planes normal to g,
    and g points against b *)
Definition half_way (b d g : v3) : Prop := unit g /\ mirrored g b = d /\ dot b g < 0.
