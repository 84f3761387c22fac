(** Independent vocabulary for C104: an integrator that solves its equations exactly, and the energy of a reported point. *)
From Coq Require Import List.
Require Import Verif.Base Verif.PlanetModel Verif.AeroModel Verif.TrajectoryModel Verif.FlightSpec.
Local Open Scope R_scope.

(** Each of the seven components of [y] is continuous at [t]; [d] holds their derivatives there. *)
Definition continuous_at (y : R -> state) (t : R) : Prop :=
  continuity_pt (fun u => s_r (y u)) t /\ continuity_pt (fun u => s_theta (y u)) t /\ continuity_pt (fun u => s_phi (y u)) t /\
  continuity_pt (fun u => s_v (y u)) t /\ continuity_pt (fun u => s_psi (y u)) t /\ continuity_pt (fun u => s_gamma (y u)) t /\
  continuity_pt (fun u => s_drange (y u)) t.
Definition moving_by (y : R -> state) (t : R) (d : state) : Prop :=
  derivable_pt_lim (fun u => s_r (y u)) t (s_r d) /\ derivable_pt_lim (fun u => s_theta (y u)) t (s_theta d) /\
  derivable_pt_lim (fun u => s_phi (y u)) t (s_phi d) /\ derivable_pt_lim (fun u => s_v (y u)) t (s_v d) /\
  derivable_pt_lim (fun u => s_psi (y u)) t (s_psi d) /\ derivable_pt_lim (fun u => s_gamma (y u)) t (s_gamma d) /\
  derivable_pt_lim (fun u => s_drange (y u)) t (s_drange d).
(** [y] solves y' = f(y) up to [T]: it is continuous, [f] is a number all along it, and the derivative is
    that number except at finitely many times (the density of the code jumps at the ends of its range). *)
Definition solves (f : state -> res (option state)) (y : R -> state) (T : R) : Prop :=
  exists corners : list R, forall t, 0 <= t <= T -> continuous_at y t /\
    exists d, f (y t) = Ok (Some d) /\ (0 < t < T -> ~ In t corners -> moving_by y t d).

(** The integrators make no error: what they return at the requested times, the first of which is 0, are
    values of a solution from the given initial state. *)
Definition exact (E : engine) : Prop :=
  (forall f x0 ts tol xs, nth_error ts 0 = Some 0 -> odeint E f x0 ts tol = Ok xs ->
     exists y, y 0 = x0 /\ solves f y (last ts 0) /\ xs = map y ts) /\
  (forall f te x0 ts ev tol us xs, nth_error ts 0 = Some 0 -> solve_ivp E f te x0 ts ev tol = Ok (us, xs) ->
     exists y, y 0 = x0 /\ solves f y (last us 0) /\ xs = map y us).

(** Energy per unit mass in the frame turning with the planet, J/kg, of a point reported at altitude [h] km,
    latitude [lat] degrees, speed [v] km/s: kinetic energy minus the gravitational and centrifugal potentials. *)
Definition energy_at (p : planet) (h lat v : R) : R :=
  let r := RP p + h * 1000 in let ph := lat * PI / 180 in
  (v * 1000) ^ 2 / 2 - zonal_potential_si (GM p) (RP p) (J2 p) (J3 p) r ph - (OMEGA p * r * cos ph) ^ 2 / 2.
(** The energies of all points of a plot-unit history. *)
Definition energies (p : planet) (q : plot) : list R :=
  map (fun w => energy_at p (fst (fst w)) (snd w) (snd (fst w))) (combine (combine (p_h q) (p_v q)) (p_phi q)).
(** A list that never increases. *)
Definition never_up (l : list R) : Prop := forall j k, (j <= k < length l)%nat -> nth k l 0 <= nth j l 0.
(** Every point moves forward, away from the poles, within [g] degrees of the horizontal. *)
Definition upright (g : R) (q : plot) : Prop :=
  Forall (fun v => 0 < v) (p_v q) /\ Forall (fun x => -90 < x < 90) (p_phi q) /\ Forall (fun x => - g < x < g) (p_gamma q).
(** Inside the atmosphere the density is never negative. *)
Definition air (p : planet) (atm : atmosphere) : Prop := forall h, 0 <= h <= h_thres p -> 0 <= density_int atm h.
(** The angle, in degrees, at which cos = -0.01 and the equations of motion divide by zero: a little past the vertical. *)
Definition steepest : R := acos (-0.01) * 180 / PI.
(** A start from which the equations of motion can be followed. *)
Definition good_start (g : R) (i : init) : Prop := 0 < v0_kms i /\ -90 < phi0_deg i < 90 /\ - g < gamma0_deg i < g.
