(** Independent vocabulary for C129 and C132: flights that enter and leave the atmosphere. *)
From Coq Require Import List.
Require Import Verif.Base Verif.PlanetModel Verif.AeroModel Verif.TrajectoryModel Verif.ExactSpec Verif.DetSpec.
Local Open Scope R_scope.

(** Altitude of a nondimensional state, m. *)
Definition height (p : planet) (x : state) : R := RP p * s_r x - RP p.
(** At the time [t] the flight [y] is inside the atmosphere, or just entering it: at its top, at the start, descending. *)
Definition inside (p : planet) (y : R -> state) (t : R) : Prop :=
  in_air p (y t) \/ t = 0 /\ height p (y 0) = h_thres p /\ s_v (y 0) * sin (s_gamma (y 0)) < 0.
(** [y] flies from [i] with bank angle [d] degrees through the atmosphere until the nondimensional time [T]; it may start at the top. *)
Definition passage (V : vehicle) (i : init) (d T : R) (y : R -> state) : Prop :=
  y 0 = entry_state (vh_planet V) i /\ solves (fun x => EOM V x (d * PI / 180)) y T /\ forall t, 0 <= t <= T -> inside (vh_planet V) y t.
(** [y] flies from [i] with bank angle [d] degrees inside the atmosphere until the nondimensional time [T], when it passes its top, climbing. *)
Definition leaves (V : vehicle) (i : init) (d T : R) (y : R -> state) : Prop :=
  0 <= T /\ y 0 = entry_state (vh_planet V) i /\ solves (fun x => EOM V x (d * PI / 180)) y T /\
  (forall t, 0 <= t < T -> inside (vh_planet V) y t) /\ height (vh_planet V) (y T) = h_thres (vh_planet V) /\ 0 < s_v (y T) * sin (s_gamma (y T)).
(** At the nondimensional time [T] the flight passes the trap altitude, descending; before, it was above. *)
Definition sinks (V : vehicle) (T : R) (y : R -> state) : Prop :=
  (forall t, 0 <= t < T -> h_trap (vh_planet V) < height (vh_planet V) (y t)) /\ height (vh_planet V) (y T) = h_trap (vh_planet V) /\ s_v (y T) * sin (s_gamma (y T)) < 0.
