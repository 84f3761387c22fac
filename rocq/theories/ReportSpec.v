(** Independent vocabulary for the flight report: what a stored point must say. *)
From Coq Require Import List.
Require Import Verif.Base Verif.PlanetModel Verif.AeroModel Verif.HeatModel Verif.TrajectoryModel.

(** The entries of a stored flight at point [k] in SI units, read off the plotted channels. *)
Definition altitude_at (f : flight) (k : nat) : R := nth k (p_h (f_plot f)) 0 * 1000.
Definition speed_at (f : flight) (k : nat) : R := nth k (p_v (f_plot f)) 0 * 1000.
(** The load in Earth g the code reports for accelerations along the drag, lift and side directions: not a
    number when the radicand is negative. *)
Definition load_is (x : R) (q : option R) : Prop := (0 <= x -> q = Some (sqrt x / 9.80665)) /\ (x < 0 -> q = None).

(** Point [k] of the report is the physics of the altitude and the speed at point [k]. *)
Definition reported (V : vehicle) (delta : R) (f : flight) (k : nat) : Prop :=
  let h := altitude_at f k in let v := speed_at f k in
  let rho := density_int (vh_atm V) h in let q := rho * v * v / 2 in
  let drag := q * vh_A V * vh_CD V / vh_mass V in let lift := q * vh_A V * vh_CL V / vh_mass V in
  nth k (f_dyn f) 0 * 101325 = q /\
  nth k (f_stag f) 0 * 101325 = pressure_int (vh_atm V) h + q /\
  nth k (f_acc_drag f) None = Some (Rabs drag / 9.80665) /\
  load_is (drag * drag + (lift * cos delta) * (lift * cos delta) + 2 * (lift * sin delta)) (nth k (f_acc_net f) None) /\
  (forall law, con_law (ID (vh_planet V)) = Some law -> nth k (f_qcon f) None = law (vh_RN V) rho v) /\
  (forall law, rad_law (ID (vh_planet V)) = Some law -> nth k (f_qrad f) None = law (vh_RN V) rho v) /\
  nth k (f_qtot f) None = match nth k (f_qcon f) None, nth k (f_qrad f) None with Some a, Some b => Some (a + b) | _, _ => None end.

(** An integrator that ends at the first crossing of the event: no returned state is on the other side. *)
Definition stops_at_event (E : engine) : Prop := forall f te x0 ts ev tol us xs, solve_ivp E f te x0 ts ev tol = Ok (us, xs) ->
  (0 < ev x0 -> forall x, In x xs -> 0 <= ev x) /\ (ev x0 < 0 -> forall x, In x xs -> ev x <= 0).
