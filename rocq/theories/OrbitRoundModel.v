(** The scalar orbit formulas of OrbitScalarModel.v and OrbitModel.v with a rounding after every operation.  [sq] is the
    machine's power function with exponent 2 (C's pow), [c] the machine's cosine of the flight-path angle. *)
Require Import Verif.Base.
Local Open Scope R_scope.

Section Rounded.
  Variables (rnd sq : R -> R).
  (** -1.0*GM/r + 0.5*v**2.0, vehicle.py:2357. *)
  Definition energy_r (gm r v : R) : R := rnd (rnd (rnd (-1 * gm) / r) + rnd (0.5 * sq v)).
  (** -1.0*GM/(2*E), vehicle.py:2377. *)
  Definition sma_r (gm E : R) : option R := let d := rnd (2 * E) in if Reqb d 0 then None else Some (rnd (rnd (-1 * gm) / d)).
  (** terminal_r*terminal_v*np.cos(terminal_g), vehicle.py:2404. *)
  Definition angmom_r (r v c : R) : R := rnd (rnd (r * v) * c).
  (** np.sqrt(1.0 + 2*E*h**2.0/GM**2.0), vehicle.py:2427: nan if the radicand is negative. *)
  Definition ecc_r (gm h E : R) : option R :=
    let x := rnd (1 + rnd (rnd (rnd (2 * E) * sq h) / sq gm)) in if Rltb x 0 then None else Some (rnd (sqrt x)).
  (** Energy, angular momentum, semi-major axis, eccentricity from inertial speed and flight-path angle, vehicle.py:4357-4362 and 4442-4447. *)
  Definition orbit_r (gm r v c : R) : option (R * R) :=
    let E := energy_r gm r v in let h := angmom_r r v c in
    leto a := sma_r gm E in leto ecc := ecc_r gm h E in Some (a, ecc).
  (** hp_km of compute_ApoapsisAltitudeKm, vehicle.py:4365-4367. *)
  Definition apo_km_r (gm rp r v c : R) : option R :=
    leto o := orbit_r gm r v c in Some (rnd (rnd (rnd (fst o * rnd (1 + snd o)) - rp) / 1000)).
  (** hp_km of compute_PeriapsisAltitudeKm, vehicle.py:4450-4452. *)
  Definition peri_km_r (gm rp r v c : R) : option R :=
    leto o := orbit_r gm r v c in Some (rnd (rnd (rnd (fst o * rnd (1 - snd o)) - rp) / 1000)).
End Rounded.
