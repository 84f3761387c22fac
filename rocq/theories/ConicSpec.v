(** Independent two-body vocabulary: no definition of the model is used. *)
Require Import Verif.Base.

(** Specific orbital energy, angular momentum and eccentricity (Laplace) vector of a state. *)
Definition energy (mu : R) (r v : vec) : R := norm2 v / 2 - mu / norm r.
Definition ang_mom (r v : vec) : vec := cross r v.
Definition ecc_vector (mu : R) (r v : vec) : vec :=
  vsub (vscale (1 / mu) (cross v (cross r v))) (vscale (1 / norm r) r).

(** State on the conic with periapsis direction P, orbit normal W (both unit, perpendicular),
    eccentricity e and angular momentum h, at true anomaly th. *)
Definition perifocal (P W : vec) (th : R) : vec :=
  vadd (vscale (cos th) P) (vscale (sin th) (cross W P)).
Definition conic_radius (mu h e th : R) : R := h * h / mu / (1 + e * cos th).
Definition conic_pos (mu h e : R) (P W : vec) (th : R) : vec :=
  vscale (conic_radius mu h e th) (perifocal P W th).
Definition conic_vel (mu h e : R) (P W : vec) (th : R) : vec :=
  vscale (mu / h) (vadd (vscale (- sin th) P) (vscale (e + cos th) (cross W P))).

(** Keplerian motion on a hyperbola with semi-major axis a > 0 (distance), eccentricity e > 1,
    periapsis direction P and orbit normal W, as a function of the hyperbolic anomaly H: position,
    velocity and time since periapsis. *)
Definition hyp_pos (a e : R) (P W : vec) (H : R) : vec :=
  vscale a (vadd (vscale (e - cosh H) P) (vscale (sqrt (e * e - 1) * sinh H) (cross W P))).
Definition hyp_vel (mu a e : R) (P W : vec) (H : R) : vec :=
  vscale (sqrt (mu * a) / (a * (e * cosh H - 1)))
    (vadd (vscale (- sinh H) P) (vscale (sqrt (e * e - 1) * cosh H) (cross W P))).
Definition hyp_time (mu a e H : R) : R := sqrt (a ^ 3 / mu) * (e * sinh H - H).

(** Leaving r1 with velocity v, a body under the attraction mu alone is at r2 after time T, moving on
    a hyperbola with semi-major axis a. *)
Definition coasts_to (mu a : R) (r1 v r2 : vec) (T : R) : Prop :=
  exists e P W H1 H2, 1 < e /\ norm2 P = 1 /\ norm2 W = 1 /\ dot W P = 0 /\
    r1 = hyp_pos a e P W H1 /\ v = hyp_vel mu a e P W H1 /\ r2 = hyp_pos a e P W H2 /\
    T = hyp_time mu a e H2 - hyp_time mu a e H1.

(** Keplerian motion on an ellipse with semi-major axis a > 0 and eccentricity 0 <= e < 1 as a function
    of the eccentric anomaly E. *)
Definition ell_pos (a e : R) (P W : vec) (E : R) : vec :=
  vscale a (vadd (vscale (cos E - e) P) (vscale (sqrt (1 - e * e) * sin E) (cross W P))).
Definition ell_vel (mu a e : R) (P W : vec) (E : R) : vec :=
  vscale (sqrt (mu * a) / (a * (1 - e * cos E)))
    (vadd (vscale (- sin E) P) (vscale (sqrt (1 - e * e) * cos E) (cross W P))).
Definition ell_time (mu a e E : R) : R := sqrt (a ^ 3 / mu) * (E - e * sin E).

(** Position at radius r, longitude th, latitude ph, and the velocity with planet-relative speed v,
    flight-path angle g above the local horizontal and heading ps measured from east towards north, in
    a frame rotating at Omega about the z axis: planet-relative, and inertial (relative + Omega x r). *)
Definition up_dir (th ph : R) : vec := V3 (cos ph * cos th) (cos ph * sin th) (sin ph).
Definition east_dir (th : R) : vec := V3 (- sin th) (cos th) 0.
Definition north_dir (th ph : R) : vec := V3 (- sin ph * cos th) (- sin ph * sin th) (cos ph).
Definition sph_pos (r th ph : R) : vec := vscale r (up_dir th ph).
Definition rel_vel (v g ps th ph : R) : vec :=
  vadd (vscale (v * sin g) (up_dir th ph))
       (vadd (vscale (v * cos g * cos ps) (east_dir th)) (vscale (v * cos g * sin ps) (north_dir th ph))).
Definition inertial_vel (Om r v g ps th ph : R) : vec :=
  vadd (rel_vel v g ps th ph) (cross (V3 0 0 Om) (sph_pos r th ph)).
