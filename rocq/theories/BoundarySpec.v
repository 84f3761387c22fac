(** Independent vocabulary for C134: where the verdict on the flights changes. *)
Require Import Verif.Base Verif.PlanetModel Verif.AeroModel Verif.TrajectoryModel Verif.CorridorModel Verif.VerdictSpec.
Local Open Scope R_scope.

(** The flight is neither too high, nor too low, nor lost. *)
Definition undecided (V : vehicle) (i : init) (d target secs : R) : Prop := forall a, ~ verdict V i d target secs a.
(** [b] lies strictly between [g] and [g']. *)
Definition between (g b g' : R) : Prop := g < b < g' \/ g' < b < g.
(** [x] lies between [g] and [b] and is not [b]. *)
Definition this_side (g x b : R) : Prop := g <= x < b \/ b < x <= g.
(** Seen from the entry angle [g], the first flight without a verdict towards [g'] is the one at [b]: all on this side of it have the verdict [a]. *)
Definition turns_at (V : vehicle) (i : init) (bank target secs g g' a b : R) : Prop :=
  between g b g' /\ undecided V (with_gamma0 i b) bank target secs /\ forall x, this_side g x b -> verdict V (with_gamma0 i x) bank target secs a.
