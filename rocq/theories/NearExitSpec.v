(** Independent vocabulary for C131: flights near a flight through the atmosphere. *)
Require Import Verif.Base Verif.PlanetModel Verif.AeroModel Verif.TrajectoryModel Verif.ExactSpec Verif.NearSpec.
Local Open Scope R_scope.

(** The starts differ by at most [eta] km, km/s and degrees, and the second is not above the top of the atmosphere. *)
Definition starts_near (eta : R) (p : planet) (i i' : init) : Prop := start_within eta i i' /\ h0_km i' * 1000 <= h_thres p.
(** The integrators are within [eta] of exact for the vehicle flown at the bank angle flown, and vehicle, start and bank angle are within [eta] of the true ones. *)
Definition nearby (eta : R) (E : engine) (V V' : vehicle) (i i' : init) (d d' : R) : Prop :=
  exact_within eta E (fun x => EOM V' x (d' * PI / 180)) /\ vehicle_within eta V V' /\ starts_near eta (vh_planet V) i i' /\ Rabs (d - d') <= eta.
(** The flight starts above the trap altitude, inside the atmosphere or, descending, at its top. *)
Definition from_inside (p : planet) (i : init) : Prop :=
  h_trap p < h0_km i * 1000 /\ (h0_km i * 1000 < h_thres p \/ h0_km i * 1000 = h_thres p /\ v0_kms i * sin (gamma0_deg i * PI / 180) < 0).
