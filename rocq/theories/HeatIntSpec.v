(** Independent vocabulary for C127: the heat absorbed along a way of flying, as a time integral. *)
From Coq Require Import String List.
Require Import Verif.Base Verif.PlanetModel Verif.AeroModel Verif.HeatModel Verif.TrajectoryModel.
Import ListNotations.
Local Open Scope R_scope.

(** Stagnation-point heating, W/cm^2, of a vehicle in state [x]: convective plus radiative at the density and the speed of [x]. *)
Definition heat_rate (V : vehicle) (x : state) : option R :=
  let p := vh_planet V in let rho := density_int (vh_atm V) (RP p * s_r x - RP p) in let v := Vref p * s_v x in
  match con_law (ID p), rad_law (ID p) with
  | Some c, Some r => match c (vh_RN V) rho v, r (vh_RN V) rho v with Some a, Some b => Some (a + b) | _, _ => None end
  | _, _ => None
  end.
(** The speeds, m/s, at which the radiative correlations change from one formula to the next. *)
Definition heat_breaks (id : string) : list R :=
  if string_dec id "VENUS" then [8000; 10000] else if string_dec id "EARTH" then [9000] else [].
(** [l] lists, in seconds, every time up to the nondimensional time [T] at which [y] flies at one of these speeds. *)
Definition breaks_listed (V : vehicle) (y : R -> state) (T : R) (l : list R) : Prop :=
  forall t, 0 <= t <= T -> In (Vref (vh_planet V) * s_v (y t)) (heat_breaks (ID (vh_planet V))) -> In (tau (vh_planet V) * t) l.
(** [J s] is the integral of the heating rate along [y] over the first [s] seconds, J/cm^2: it starts at 0, it is continuous, and at
    every time but those in [l] it grows at the heating rate. *)
Definition heat_so_far (V : vehicle) (y : R -> state) (T : R) (l : list R) (J : R -> R) : Prop :=
  let p := vh_planet V in
  J 0 = 0 /\ forall s, 0 <= s <= tau p * T -> continuity_pt J s /\
    exists q, heat_rate V (y (s / tau p)) = Some q /\ (0 < s < tau p * T -> ~ In s l -> derivable_pt_lim J s q).
(** There is air everywhere between the surface and the top. *)
Definition some_air (p : planet) (atm : atmosphere) : Prop := forall h, 0 <= h <= h_thres p -> 0 < density_int atm h.
