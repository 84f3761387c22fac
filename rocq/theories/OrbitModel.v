(** Model of the orbit queries of /repo/AMAT/vehicle.py, lines 4285-4454 and 4690-4760. *)
Require Import Verif.Base Verif.PlanetModel Verif.OrbitScalarModel Verif.OrbiterModel.

(** (a, e) of the inertial orbit through an exit state: vehicle.py:4316-4363 and 4401-4447. *)
Definition terminal_orbit (p : planet) (x : exit_state) : option (R * R) :=
  let v_ie := exit_v_ie p x in
  let fpa := fpa_ie (exit_r_vec x) v_ie in
  let v_ie_mag := norm v_ie in
  leto E := computeEnergyScalar p (x_r x) v_ie_mag in
  leto g := fpa in
  let h := computeAngMomScalar (x_r x) v_ie_mag g in
  leto a := computeSemiMajorAxisScalar p E in
  leto e := computeEccScalar p h E in
  Some (a, e).
(** compute_ApoapsisAltitudeKm, vehicle.py:4316-4370. *)
Definition compute_ApoapsisAltitudeKm (p : planet) (x : exit_state) : option R :=
  leto o := terminal_orbit p x in
  let rp := fst o * (1 + snd o) in let hp := rp - RP p in Some (hp / 1e3).
(** compute_PeriapsisAltitudeKm, vehicle.py:4401-4454. *)
Definition compute_PeriapsisAltitudeKm (p : planet) (x : exit_state) : option R :=
  leto o := terminal_orbit p x in
  let rp := fst o * (1 - snd o) in let hp := rp - RP p in Some (hp / 1e3).

(** compute_periapsis_raise_DV, vehicle.py:4711-4725.  Simplification, here and in compute_apoapsis_raise_DV: a zero denominator (an apsis
    at the centre of the planet) is [None], although it raises ZeroDivisionError when all arguments are Python floats. *)
Definition compute_periapsis_raise_DV (p : planet) (current_peri_km current_apo_km target_peri_km : R) : option R :=
  leto E_current := np_div (- GM p) (RP p + current_apo_km * 1e3 + current_peri_km * 1e3 + RP p) in
  leto q := np_div (2 * GM p) (RP p + current_apo_km * 1e3) in
  leto v_apo_current := np_sqrt (2 * E_current + q) in
  leto E_target := np_div (- GM p) (RP p + current_apo_km * 1e3 + target_peri_km * 1e3 + RP p) in
  leto v_apo_target := np_sqrt (2 * E_target + q) in
  Some (v_apo_target - v_apo_current).
(** compute_apoapsis_raise_DV, vehicle.py:4748-4760. *)
Definition compute_apoapsis_raise_DV (p : planet) (peri_km_current apo_km_current apo_km_target : R) : option R :=
  leto E_current := np_div (- GM p) (RP p + apo_km_current * 1e3 + peri_km_current * 1e3 + RP p) in
  leto q := np_div (2 * GM p) (peri_km_current * 1e3 + RP p) in
  leto v_peri_current := np_sqrt (2 * E_current + q) in
  leto E_target := np_div (- GM p) (apo_km_target * 1e3 + RP p + peri_km_current * 1e3 + RP p) in
  leto v_peri_target := np_sqrt (2 * E_target + q) in
  Some (v_peri_target - v_peri_current).
