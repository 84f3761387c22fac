(** Independent vocabulary for C130: what becomes of a flight, whatever is computed about it. *)
From Coq Require Import List.
Require Import Verif.Base Verif.PlanetModel Verif.AeroModel Verif.TrajectoryModel Verif.ConicSpec Verif.OrbitSpec Verif.ExactSpec Verif.DetSpec Verif.ExitSpec Verif.CorridorModel.
Local Open Scope R_scope.

(** The flight leaves the atmosphere at the nondimensional time [T] and stays out of it until [T2]. *)
Definition stays_out (V : vehicle) (i : init) (d T T2 : R) (y : R -> state) : Prop :=
  leaves V i d T y /\ T < T2 /\ solves (fun x => EOM V x (d * PI / 180)) y T2 /\ forall t, T < t <= T2 -> h_thres (vh_planet V) < height (vh_planet V) (y t).
(** Position and velocity through the air, m and m/s, of a nondimensional state. *)
Definition position (p : planet) (x : state) : vec := sph_pos (RP p * s_r x) (s_theta x) (s_phi x).
Definition air_velocity (p : planet) (x : state) : vec := rel_vel (Vref p * s_v x) (s_gamma x) (s_psi x) (s_theta x) (s_phi x).
Definition inertial_velocity (p : planet) (x : state) : vec := inertial_vel (OMEGA p) (RP p * s_r x) (Vref p * s_v x) (s_gamma x) (s_psi x) (s_theta x) (s_phi x).
(** From position [r] with velocity [v] a body would fly past the altitude [target] km and come back from higher up, or not come back at all;
    or its apoapsis is below that altitude. *)
Definition overshoots (p : planet) (r v : vec) (target : R) : Prop :=
  let E := energy (GM p) r v in 0 < E \/ E < 0 /\ exists ra, is_apoapsis (GM p) E (norm (ang_mom r v)) ra /\ target < (ra - RP p) / 1000.
Definition undershoots (p : planet) (r v : vec) (target : R) : Prop :=
  let E := energy (GM p) r v in E < 0 /\ exists ra, is_apoapsis (GM p) E (norm (ang_mom r v)) ra /\ (ra - RP p) / 1000 < target.
(** The velocity the two versions of the predicate judge by. *)
Definition judged (two : bool) (p : planet) (x : state) : vec := if two then inertial_velocity p x else air_velocity p x.
(** The flight leaves the atmosphere before [secs] seconds have passed, does not come back before, and is then too high. *)
Definition too_high (two : bool) (V : vehicle) (i : init) (d target secs : R) : Prop :=
  let p := vh_planet V in exists T T2 y, stays_out V i d T T2 y /\ tau p * T < secs < tau p * T2 /\ judged two p (y T) <> vzero /\ overshoots p (position p (y T)) (judged two p (y T)) target.
(** It leaves and its apoapsis is below the target. *)
Definition too_low (two : bool) (V : vehicle) (i : init) (d target secs : R) : Prop :=
  let p := vh_planet V in exists T T2 y, stays_out V i d T T2 y /\ tau p * T < secs < tau p * T2 /\ judged two p (y T) <> vzero /\ undershoots p (position p (y T)) (judged two p (y T)) target.
(** It sinks below the trap altitude before [secs] seconds have passed, and is not at the surface yet by then. *)
Definition lost (V : vehicle) (i : init) (d secs : R) : Prop :=
  let p := vh_planet V in exists T T2 y, passage V i d T2 y /\ 0 <= T < T2 /\ sinks V T y /\ tau p * T < secs < tau p * T2.
(** What the predicate should say of this flight: -1 for too high, 1 for too low or lost. *)
Definition verdict (V : vehicle) (i : init) (d target secs a : R) : Prop :=
  a = -1 /\ too_high false V i d target secs \/ a = 1 /\ (too_low false V i d target secs \/ lost V i d secs).
(** The angles that divide the bracket into 2^n equal parts. *)
Definition division (low high : R) (n : nat) (g : R) : Prop := exists k, (k <= 2 ^ n)%nat /\ g = low + INR k * ((high - low) / 2 ^ n).
(** Seen from the angles that divide the bracket, none of which is [b], the flights below [b] are too high and those above too low or lost, or the other way round. *)
Definition true_boundary (V : vehicle) (i : init) (bank target secs low high : R) (n : nat) (b : R) : Prop :=
  low < b < high /\ ~ division low high n b /\ exists s, forall g, division low high n g -> (g < b -> verdict V (with_gamma0 i g) bank target secs s) /\ (b < g -> verdict V (with_gamma0 i g) bank target secs (- s)).
