(** Independent vocabulary for what a guided flight records: the end of a flight history in SI units, and
    what one control cycle adds to the step arrays. *)
From Coq Require Import List.
Require Import Verif.Base Verif.PlanetModel Verif.AeroModel Verif.TrajectoryModel Verif.OrbiterModel Verif.OrbitModel Verif.GuidanceModel.

(** The last point of a history: time in minutes, altitude in m, speed in m/s, flight-path angle in rad. *)
Definition end_time (H : hist) : R := last (p_t (y_plot H)) 0.
Definition end_altitude (H : hist) : R := last (p_h (y_plot H)) 0 * 1000.
Definition end_speed (H : hist) : R := last (p_v (y_plot H)) 0 * 1000.
Definition end_angle (H : hist) : R := last (p_gamma (y_plot H)) 0 * PI / 180.
Definition climb_rate (H : hist) : R := end_speed H * sin (end_angle H).
(** The last point of a plotted trajectory as an exit state: radius in m, angles in rad, speed in m/s. *)
Definition end_state (p : planet) (q : plot) : exit_state :=
  mkExit (RP p + 1000 * last (p_h q) 0) (last (p_theta q) 0 * PI / 180) (last (p_phi q) 0 * PI / 180) (1000 * last (p_v q) 0)
    (last (p_gamma q) 0 * PI / 180) (last (p_psi q) 0 * PI / 180).

(** The quotient NumPy computes: not a number when the divisor is zero (as a number that is not one is
    [None], so is an infinity). *)
Definition quotient_is (a b : R) (q : option R) : Prop := (b <> 0 -> q = Some (a / b)) /\ (b = 0 -> q = None).

(** What every cycle records, from the history [H] before it: its time and climb rate, and the finite
    difference of the climb rate in m/s^2. *)
Definition clock_recorded (H : hist) (a a' : steps) : Prop :=
  a_t a' = a_t a ++ [end_time H] /\ a_hdot a' = a_hdot a ++ [climb_rate H] /\
  exists x, a_hddot a' = a_hddot a ++ [x] /\
    quotient_is (climb_rate H - last (a_hdot a) 0) (60 * (end_time H - last (a_t a) 0)) x.
(** What a cycle with measurements records besides, [H'] being the history after it. *)
Definition cycle_recorded (V : vehicle) (H H' : hist) (a a' : steps) : Prop :=
  let rho := density (vh_planet V) (density_int (vh_atm V)) (end_altitude H) in
  let mean := (end_speed H + end_speed H') / 2 in
  clock_recorded H a a' /\
  a_h a' = a_h a ++ [end_altitude H / 1000] /\
  a_q a' = a_q a ++ [rho * end_speed H * end_speed H / 2] /\
  a_acc a' = a_acc a ++ [last (y_net H') None; last (y_net H') None] /\
  a_drag a' = a_drag a ++ [last (y_drag H') None] /\
  (exists x, a_dens a' = a_dens a ++ [x] /\
    (last (y_drag H') None = None -> x = None) /\
    forall n, last (y_drag H') None = Some n -> quotient_is (2 * vh_mass V * (n * 9.80665)) (vh_CD V * vh_A V * (mean * mean)) x) /\
  length (a_hdotref a') = length (a_t a') /\ (forall x, In x (a_hdotref a') -> x = Some 0).

(** What the exit phase must report for a plotted trajectory [q] and the target orbit of [P]: the apsides of
    the orbit of its last point, the percentage by which the apoapsis misses, and the two impulses. *)
Definition report_is (p : planet) (P : gparams) (q : plot) (r : report) : Prop :=
  r_apo r = compute_ApoapsisAltitudeKm p (end_state p q) /\ r_peri r = compute_PeriapsisAltitudeKm p (end_state p q) /\
  (r_apo r = None -> r_perc r = None /\ r_DVperi r = None /\ r_DVapo r = None) /\
  forall a, r_apo r = Some a -> quotient_is (100 * (a - g_apo P)) (g_apo P) (r_perc r) /\
    r_DVapo r = compute_apoapsis_raise_DV p (g_peri P) a (g_apo P) /\
    forall pe, r_peri r = Some pe -> r_DVperi r = compute_periapsis_raise_DV p pe a (g_peri P).
