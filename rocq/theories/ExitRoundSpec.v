(** Independent vocabulary for C121. *)
Require Import Verif.Base Verif.OrbiterModel Verif.ConicSpec Verif.ExitRoundModel.
Local Open Scope R_scope.

(** Sine and cosine to two roundings of 1, the arc cosine to eight, scalar products to four roundings of the sizes of their
    terms: more than the usual libraries and any order of additions need. *)
Record good_lib (L : mathlib) (e eta : R) : Prop := mkGood {
  gl_sin : forall x, Rabs (m_sin L x - sin x) <= 2 * e;
  gl_cos : forall x, Rabs (m_cos L x - cos x) <= 2 * e;
  gl_acos : forall x, -1 <= x <= 1 -> Rabs (m_acos L x - acos x) <= 8 * e;
  gl_dot : forall a b, Rabs (m_dot L a b - dot a b) <= 4 * e * (Rabs (vx a * vx b) + Rabs (vy a * vy b) + Rabs (vz a * vz b)) + 4 * eta }.
(** The inertial velocity of an exit state on a planet turning at [omega]. *)
Definition inertial (omega : R) (x : exit_state) : vec := inertial_vel omega (x_r x) (x_v x) (x_g x) (x_psi x) (x_theta x) (x_phi x).
(** The inertial speed [n] is at least a metre per second and at least the [k]th part of the speeds it is put together
    from: relative to the planet, and of the planet. *)
Record well_posed (omega : R) (x : exit_state) (n k : R) : Prop := mkPosed {
  wp_r : 1 <= x_r x;
  wp_v : 0 <= x_v x;
  wp_n : 1 <= n;
  wp_k : 1 <= k;
  wp_sum : 1 + x_v x + x_r x * Rabs omega <= k * n }.
