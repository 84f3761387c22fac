(** Independent vocabulary for the corridor searches: an answering function of the entry angle. *)
Require Import Verif.Base.

(** [g] lies in the bracket. *)
Definition within (low high g : R) : Prop := Rmin low high <= g <= Rmax low high.
(** The answers at the two angles are 1 and -1, in either order. *)
Definition opposite (ans : R -> res R) (g1 g2 : R) : Prop :=
  ans g1 = Ok 1 /\ ans g2 = Ok (-1) \/ ans g1 = Ok (-1) /\ ans g2 = Ok 1.
(** [b] is the only change of answer over the bracket: answer s below it, -s above it. *)
Definition only_change (ans : R -> res R) (low high b s : R) : Prop :=
  low <= b <= high /\ (s = 1 \/ s = -1) /\ (forall g, low <= g < b -> ans g = Ok s) /\ (forall g, b < g <= high -> ans g = Ok (- s)).
(** What a search reports: with flag 1 a limit that is one end of an interval inside the bracket, no wider
    than the tolerance, whose two ends get opposite answers, as the two ends of the bracket do; with flag 0
    the limit 0, the two ends of the bracket having got the same answer. *)
Definition is_limit (ans : R -> res R) (low high tol lim flag : R) : Prop :=
  flag = 1 /\ opposite ans low high /\ (exists other, Rabs (lim - other) <= tol /\ within low high lim /\ within low high other /\ opposite ans other lim) \/
  flag = 0 /\ lim = 0 /\ (exists a, ans low = Ok a /\ ans high = Ok a).
