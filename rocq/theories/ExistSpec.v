(** Independent vocabulary for C126: states away from everything that can end a flight. *)
Require Import Verif.Base Verif.PlanetModel Verif.TrajectoryModel.
Local Open Scope R_scope.

(** More than [m] metres above the surface and below the top of the atmosphere, faster than [m] m/s, more than [m] (in the cosine)
    away from the poles and from the attitude, a little past the vertical, at which the equations of motion divide by zero. *)
Definition well_clear (m : R) (p : planet) (x : state) : Prop :=
  m < RP p * s_r x - RP p < h_thres p - m /\ m < Rabs (Vref p * s_v x) /\ m < Rabs (cos (s_phi x)) /\ m < Rabs (cos (s_gamma x) + 0.01).
(** Not faster than [w] m/s. *)
Definition no_faster (w : R) (p : planet) (x : state) : Prop := Rabs (Vref p * s_v x) <= w.
