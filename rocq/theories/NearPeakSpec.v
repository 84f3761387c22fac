(** Independent vocabulary for C136: gauges without jumps along a flight. *)
From Coq Require Import List.
Require Import Verif.Base Verif.PlanetModel Verif.AeroModel Verif.TrajectoryModel Verif.HeatIntSpec Verif.PeakSpec.
Local Open Scope R_scope.

(** All along [y] up to [T] the quantity is a number; for the heating the vehicle moves at a speed where the radiative law does not jump; the net load is not zero. *)
Definition smooth_gauge (V : vehicle) (delta : R) (g : gauge) (y : R -> state) (T : R) : Prop := forall t, 0 <= t <= T -> exists m, truth V delta g (y t) = Some m /\
  match g with Heat => 0 < s_v (y t) /\ ~ In (Vref (vh_planet V) * s_v (y t)) (heat_breaks (ID (vh_planet V))) | Load => 0 < m | _ => True end.
