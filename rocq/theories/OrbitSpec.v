(** Independent description of the apsides of a two-body orbit: no definition of the model is used. *)
Require Import Verif.Base.

(** A body of specific energy E and angular momentum h about a mass mu can be at distance x when the
    squared radial speed left by the conservation laws is not negative. *)
Definition radial_speed_sq (mu E h x : R) : R := 2 * (E + mu / x) - h * h / (x * x).
Definition can_be_at (mu E h x : R) : Prop := 0 < x /\ 0 <= radial_speed_sq mu E h x.
(** Farthest and nearest such distance. *)
Definition is_apoapsis (mu E h ra : R) : Prop := can_be_at mu E h ra /\ forall x, can_be_at mu E h x -> x <= ra.
Definition is_periapsis (mu E h rp : R) : Prop := can_be_at mu E h rp /\ forall x, can_be_at mu E h x -> rp <= x.

(** Speed at distance r on the orbit whose two apsides are at distances r and q: energy -mu/(r+q). *)
Definition is_speed_at (mu r q v : R) : Prop := 0 <= v /\ v * v / 2 - mu / r = - mu / (r + q).
