(** Independent vocabulary for C133: level flight at the top of the atmosphere. *)
Require Import Verif.Base Verif.PlanetModel Verif.AeroModel Verif.TrajectoryModel Verif.CorridorModel.
Local Open Scope R_scope.

(** The start is at the top of the atmosphere, the vehicle moves, and if it flew level there with bank angle [d] degrees the equations of motion would change its flight-path angle at the rate [r]. *)
Definition bends (V : vehicle) (i : init) (d r : R) : Prop :=
  h0_km i * 1000 = h_thres (vh_planet V) /\ 0 < v0_kms i /\ exists x, EOM V (entry_state (vh_planet V) (with_gamma0 i 0)) (d * PI / 180) = Ok (Some x) /\ s_gamma x = r.
(** The same start, descending at [g] degrees. *)
Definition at_angle (i : init) (g : R) : init := with_gamma0 i (- g).
