(** Scalar orbit formulas of /repo/AMAT/vehicle.py, shared by vehicle.py and orbiter.py. *)
Require Import Verif.Base Verif.PlanetModel.

(** computeEnergyScalar, vehicle.py:2339-2357. *)
Definition computeEnergyScalar (p : planet) (r v : R) : option R :=
  leto q := np_div (-1 * GM p) r in Some (q + 0.5 * (v * v)).
(** computeSemiMajorAxisScalar, vehicle.py:2359-2378. *)
Definition computeSemiMajorAxisScalar (p : planet) (E : R) : option R :=
  np_div (- GM p) (2 * E).
(** computeAngMomScalar, vehicle.py:2380-2405. *)
Definition computeAngMomScalar (r v gamma : R) : R := r * v * cos gamma.
(** computeEccScalar, vehicle.py:2407-2428. *)
Definition computeEccScalar (p : planet) (h E : R) : option R :=
  leto q := np_div (2 * E * (h * h)) (GM p * GM p) in np_sqrt (1 + q).
