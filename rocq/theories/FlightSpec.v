(** Independent vocabulary for flight mechanics in a rotating frame: no definition of the model of
    vehicle.py is used. *)
Require Import Verif.Base Verif.ConicSpec.

(** Zonal gravity potential with GM = 1 and planet radius 1, as a function of radius and latitude:
    1/r (1 - J2 P2(sin lat)/r^2 - J3 P3(sin lat)/r^3), P2 and P3 the Legendre polynomials. *)
Definition zonal_potential (J2 J3 r ph : R) : R :=
  1 / r - J2 / r ^ 3 * ((3 * sin ph ^ 2 - 1) / 2) - J3 / r ^ 4 * ((5 * sin ph ^ 3 - 3 * sin ph) / 2).

(** Trajectory frame at longitude th, latitude ph, flight-path angle g, heading ps (from east towards
    north): along the velocity, normal to it in the vertical plane (upwards), and to the left of it in
    the horizontal plane. *)
Definition along_dir (g ps th ph : R) : vec :=
  vadd (vscale (sin g) (up_dir th ph)) (vadd (vscale (cos g * cos ps) (east_dir th)) (vscale (cos g * sin ps) (north_dir th ph))).
Definition normal_dir (g ps th ph : R) : vec :=
  vadd (vscale (cos g) (up_dir th ph)) (vadd (vscale (- sin g * cos ps) (east_dir th)) (vscale (- sin g * sin ps) (north_dir th ph))).
Definition left_dir (ps th ph : R) : vec :=
  vadd (vscale (- sin ps) (east_dir th)) (vscale (cos ps) (north_dir th ph)).

(** Derivative of a vector-valued function of time, component by component. *)
Definition velocity_is (f : R -> vec) (t : R) (d : vec) : Prop :=
  derivable_pt_lim (fun s => vx (f s)) t (vx d) /\ derivable_pt_lim (fun s => vy (f s)) t (vy d) /\ derivable_pt_lim (fun s => vz (f s)) t (vz d).

(** Fictitious specific forces seen in a frame rotating at [Om] about the z axis. *)
Definition coriolis (Om : R) (v : vec) : vec := vscale (-2) (cross (V3 0 0 Om) v).
Definition centrifugal (Om : R) (r : vec) : vec := vscale (-1) (cross (V3 0 0 Om) (cross (V3 0 0 Om) r)).

(** Jacobi energy per unit mass in the rotating frame (GM = RP = 1): kinetic energy minus the
    gravitational and centrifugal potentials. *)
Definition jacobi (J2 J3 Om : R) (r ph v : R) : R :=
  v ^ 2 / 2 - zonal_potential J2 J3 r ph - Om ^ 2 * (r * cos ph) ^ 2 / 2.

(** The same potential in SI units: GM/r (1 - J2 (RP/r)^2 P2 - J3 (RP/r)^3 P3). *)
Definition zonal_potential_si (GM RP J2 J3 r ph : R) : R :=
  GM / r * (1 - J2 * (RP / r) ^ 2 * ((3 * sin ph ^ 2 - 1) / 2) - J3 * (RP / r) ^ 3 * ((5 * sin ph ^ 3 - 3 * sin ph) / 2)).
