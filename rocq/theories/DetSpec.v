(** Independent vocabulary for C106: which state a reported point is, and where the equations of motion are well posed. *)
From Coq Require Import List.
Require Import Verif.Base Verif.PlanetModel Verif.AeroModel Verif.TrajectoryModel Verif.ExactSpec.
Local Open Scope R_scope.

(** Point [k] of a plot-unit history is the nondimensional state [x]: lengths in planet radii, speeds in units of the reference
    speed, angles in radians. *)
Definition shows (p : planet) (q : plot) (k : nat) (x : state) : Prop :=
  RP p + nth k (p_h q) 0 * 1000 = RP p * s_r x /\ nth k (p_v q) 0 * 1000 = Vref p * s_v x /\
  nth k (p_theta q) 0 * PI / 180 = s_theta x /\ nth k (p_phi q) 0 * PI / 180 = s_phi x /\
  nth k (p_psi q) 0 * PI / 180 = s_psi x /\ nth k (p_gamma q) 0 * PI / 180 = s_gamma x /\
  nth k (p_drange q) 0 * 1000 = RP p * s_drange x.
(** The nondimensional time of point [k]; the histories are in minutes. *)
Definition time_of (p : planet) (q : plot) (k : nat) : R := nth k (p_t q) 0 * 60 / tau p.
(** Two reported points agree in every channel but the time. *)
Definition same_point (q : plot) (k : nat) (q' : plot) (k' : nat) : Prop :=
  nth k (p_h q) 0 = nth k' (p_h q') 0 /\ nth k (p_v q) 0 = nth k' (p_v q') 0 /\ nth k (p_theta q) 0 = nth k' (p_theta q') 0 /\
  nth k (p_phi q) 0 = nth k' (p_phi q') 0 /\ nth k (p_psi q) 0 = nth k' (p_psi q') 0 /\ nth k (p_gamma q) 0 = nth k' (p_gamma q') 0 /\
  nth k (p_drange q) 0 = nth k' (p_drange q') 0.
(** Strictly between the surface and the top of the atmosphere. *)
Definition in_air (p : planet) (x : state) : Prop := 0 < RP p * s_r x - RP p < h_thres p.
(** Between the surface and the top the density profile is Lipschitz, as every linearly interpolated table is. *)
Definition lipschitz_air (p : planet) (atm : atmosphere) : Prop :=
  exists L, forall h h', 0 <= h <= h_thres p -> 0 <= h' <= h_thres p -> Rabs (density_int atm h - density_int atm h') <= L * Rabs (h - h').
(** [y] is a way to fly from [i] with bank angle [d] degrees up to the nondimensional time [T] without leaving the atmosphere. *)
Definition way (V : vehicle) (i : init) (d T : R) (y : R -> state) : Prop :=
  y 0 = entry_state (vh_planet V) i /\ solves (fun x => EOM V x (d * PI / 180)) y T /\ forall t, 0 <= t <= T -> in_air (vh_planet V) (y t).
(** Two stored flights report the same at their points [k] and [k']: position, motion, loads, pressures and heating rates. *)
Definition same_report (f : flight) (k : nat) (f' : flight) (k' : nat) : Prop :=
  same_point (f_plot f) k (f_plot f') k' /\
  nth k (f_dyn f) 0 = nth k' (f_dyn f') 0 /\ nth k (f_stag f) 0 = nth k' (f_stag f') 0 /\
  nth k (f_acc_net f) None = nth k' (f_acc_net f') None /\ nth k (f_acc_drag f) None = nth k' (f_acc_drag f') None /\
  nth k (f_qcon f) None = nth k' (f_qcon f') None /\ nth k (f_qrad f) None = nth k' (f_qrad f') None /\ nth k (f_qtot f) None = nth k' (f_qtot f') None.
(** Initial conditions [i] read off point [k] of a history. *)
Definition read_off (q : plot) (k : nat) (i : init) : Prop :=
  h0_km i = nth k (p_h q) 0 /\ theta0_deg i = nth k (p_theta q) 0 /\ phi0_deg i = nth k (p_phi q) 0 /\ v0_kms i = nth k (p_v q) 0 /\
  psi0_deg i = nth k (p_psi q) 0 /\ gamma0_deg i = nth k (p_gamma q) 0 /\ drange0_km i = nth k (p_drange q) 0.
