(** Independent vocabulary for C135: nearby builds of a vehicle, and nearby instrument readings. *)
From Coq Require Import List.
Require Import Verif.Base Verif.PlanetModel Verif.AeroModel Verif.TrajectoryModel.
Local Open Scope R_scope.

(** Between the surface and the top the pressure profile is Lipschitz, as every linearly interpolated table is. *)
Definition lipschitz_pressure (p : planet) (atm : atmosphere) : Prop :=
  exists L, forall h h', 0 <= h <= h_thres p -> 0 <= h' <= h_thres p -> Rabs (pressure_int atm h - pressure_int atm h') <= L * Rabs (h - h').
(** Two vehicles whose drag area and lift area per kg and nose radii differ by at most [eta], in atmospheres whose pressures differ by at most [eta]. *)
Definition build_within (eta : R) (V V' : vehicle) : Prop :=
  Rabs (vh_A V * vh_CD V / vh_mass V - vh_A V' * vh_CD V' / vh_mass V') <= eta /\ Rabs (vh_A V * vh_CL V / vh_mass V - vh_A V' * vh_CL V' / vh_mass V') <= eta /\
  Rabs (vh_RN V - vh_RN V') <= eta /\ forall h, 0 <= h <= h_thres (vh_planet V) -> Rabs (pressure_int (vh_atm V) h - pressure_int (vh_atm V') h) <= eta.
(** Two readings are numbers that differ by less than [eps]. *)
Definition numbers_within (eps : R) (a b : option R) : Prop := exists x y, a = Some x /\ b = Some y /\ Rabs (x - y) < eps.
(** Pressures in atm and loads in Earth g at points [k] and [k'] differ by less than [eps]; the net load, which is not a number for some lift
    vectors, is a number at both points or at neither wherever it is not exactly zero. *)
Definition loads_within (eps : R) (f : flight) (k : nat) (f' : flight) (k' : nat) : Prop :=
  Rabs (nth k (f_dyn f) 0 - nth k' (f_dyn f') 0) < eps /\ Rabs (nth k (f_stag f) 0 - nth k' (f_stag f') 0) < eps /\
  numbers_within eps (nth k (f_acc_drag f) None) (nth k' (f_acc_drag f') None) /\
  (nth k (f_acc_net f) None = Some 0 \/ numbers_within eps (nth k (f_acc_net f) None) (nth k' (f_acc_net f') None) \/
   nth k (f_acc_net f) None = None /\ nth k' (f_acc_net f') None = None).
(** So do the convective, radiative and total heating rates in W/cm2. *)
Definition heating_within (eps : R) (f : flight) (k : nat) (f' : flight) (k' : nat) : Prop :=
  numbers_within eps (nth k (f_qcon f) None) (nth k' (f_qcon f') None) /\ numbers_within eps (nth k (f_qrad f) None) (nth k' (f_qrad f') None) /\
  numbers_within eps (nth k (f_qtot f) None) (nth k' (f_qtot f') None).
