(** Independent geometric vocabulary for visibility: no definition of the model is used. *)
Require Import Verif.Base.

(** Point at parameter s on the half-line from a in direction n. *)
Definition ray (a n : vec) (s : R) : vec := vadd a (vscale s n).

(** The half-line from a in direction n meets the open ball of radius rad about the origin. *)
Definition blocked (rad : R) (a n : vec) : Prop := exists s, 0 <= s /\ norm2 (ray a n s) < rad * rad.

(** The open segment from a to b stays strictly outside the closed ball of radius rad. *)
Definition clear_segment (rad : R) (a b : vec) : Prop :=
  forall s, 0 < s <= 1 -> rad * rad < norm2 (ray a (vsub b a) s).

(** Unit vector at the given declination and right ascension / latitude and longitude, in radians. *)
Definition direction (lat lon : R) : vec := V3 (cos lat * cos lon) (cos lat * sin lon) (sin lat).
