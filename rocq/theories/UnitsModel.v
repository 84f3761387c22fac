(** The unit conversions on the way into the integrator and out of it as the machine computes them: [rnd] is applied
    after every arithmetic operation.  PlanetModel.v and TrajectoryModel.v have the same text with exact arithmetic.
    [pi], [milli] are the machine's np.pi and 1E-3, [rp], [vref] are planetObj.RP, planetObj.Vref. *)
Require Import Verif.Base Verif.PlanetModel Verif.TrajectoryModel.
Local Open Scope R_scope.

(** x_deg*np.pi/180.0, vehicle.py:2460-2465, 2729-2733. *)
Definition deg_r (rnd : R -> R) (pi x : R) : R := rnd (rnd (x * pi) / 180).
(** From the initial conditions to the nondimensional state, vehicle.py:2459-2475 and 2728-2744
    (computeR, planet.py:700; nonDimState, planet.py:761-763). *)
Definition entry_state_r (rnd : R -> R) (pi rp vref : R) (i : init) : state :=
  mkState (rnd (rnd (rp + rnd (h0_km i * 1e3)) / rp)) (deg_r rnd pi (theta0_deg i)) (deg_r rnd pi (phi0_deg i))
    (rnd (rnd (v0_kms i * 1e3) / vref)) (deg_r rnd pi (psi0_deg i)) (deg_r rnd pi (gamma0_deg i)) (rnd (rnd (drange0_km i * 1e3) / rp)).
(** x*180/np.pi, vehicle.py:1870-1873. *)
Definition rad_r (rnd : R -> R) (pi x : R) : R := rnd (rnd (x * 180) / pi).
(** One sample of a propagation in plot units: dimensionalize (planet.py:810-812), then convertToPlotUnits
    (vehicle.py:1868-1874).  The reported numbers are written as initial conditions, because the guided loops
    start the next cycle from them (vehicle.py:4858-4864, 4916 and likewise in the other phases); the heat load is passed on as it is. *)
Definition report_r (rnd : R -> R) (pi milli rp vref load : R) (y : state) : init :=
  mkInit (rnd (rnd (rnd (s_r y * rp) - rp) * milli)) (rad_r rnd pi (s_theta y)) (rad_r rnd pi (s_phi y))
    (rnd (rnd (s_v y * vref) * milli)) (rad_r rnd pi (s_psi y)) (rad_r rnd pi (s_gamma y)) (rnd (rnd (s_drange y * rp) * milli)) load.
(** The first sample reported for initial conditions [i]: the integrator's first sample is the state it was given. *)
Definition first_sample_r (rnd : R -> R) (pi milli rp vref : R) (i : init) : init :=
  report_r rnd pi milli rp vref (heatLoad0 i) (entry_state_r rnd pi rp vref i).
(** The state from which the next cycle of a guided flight starts when the last one ended in [y]. *)
Definition hand_over_r (rnd : R -> R) (pi milli rp vref load : R) (y : state) : state :=
  entry_state_r rnd pi rp vref (report_r rnd pi milli rp vref load y).
