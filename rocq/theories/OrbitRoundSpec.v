(** Independent vocabulary for C119: the ellipse through a state, and what is assumed of the machine's functions. *)
Require Import Verif.Base.
Local Open Scope R_scope.

(** The state at distance [r] with inertial speed [v] and flight-path angle [g] is on the ellipse with semi-major axis [a] and
    eccentricity [ecc]: vis-viva and the angular momentum. *)
Definition on_ellipse (gm r v g a ecc : R) : Prop :=
  0 < a /\ 0 <= ecc /\ v * v = gm * (2 / r - 1 / a) /\ (r * v * cos g) * (r * v * cos g) = gm * a * (1 - ecc * ecc).
(** Squares to two roundings; the cosine [c] of [g] to two roundings of 1. *)
Definition good_square (sq : R -> R) (e eta : R) : Prop := forall x, Rabs (sq x - x * x) <= 2 * e * (x * x) + eta.
Definition good_cos (c g e : R) : Prop := Rabs (c - cos g) <= 2 * e.
(** A state a machine computes with: distances in metres and speeds in metres per second, at least a metre from the
    centre of a planet on which a metre from the centre is deep inside. *)
Record ordinary (rnd : R -> R) (gm r v : R) : Prop := mkOrdinary {
  or_gm : rnd gm = gm;
  or_r : 1 <= r <= gm;
  or_v : 0 <= v }.
