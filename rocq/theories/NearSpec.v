(** Independent vocabulary for C125: nearby starts, nearby vehicles, nearly exact integrators and nearby reports. *)
From Coq Require Import List.
Require Import Verif.Base Verif.PlanetModel Verif.AeroModel Verif.TrajectoryModel Verif.ExactSpec.
Local Open Scope R_scope.

(** The seven components of [a] and [b] differ by at most [eta]. *)
Definition within (eta : R) (a b : state) : Prop :=
  Rabs (s_r a - s_r b) <= eta /\ Rabs (s_theta a - s_theta b) <= eta /\ Rabs (s_phi a - s_phi b) <= eta /\ Rabs (s_v a - s_v b) <= eta /\
  Rabs (s_psi a - s_psi b) <= eta /\ Rabs (s_gamma a - s_gamma b) <= eta /\ Rabs (s_drange a - s_drange b) <= eta.
(** [y] solves y' = f(y) up to [T] with an error in the derivative of at most [eta]: like [solves], but where [y] has to have
    a derivative, that may differ from f(y). *)
Definition nearly_solves (eta : R) (f : state -> res (option state)) (y : R -> state) (T : R) : Prop :=
  exists corners : list R, forall t, 0 <= t <= T -> continuous_at y t /\
    exists d, f (y t) = Ok (Some d) /\ (0 < t < T -> ~ In t corners -> exists e, moving_by y t e /\ within eta e d).
(** For the equations y' = f(y), the integrators return values of a curve that solves them with that error. *)
Definition exact_within (eta : R) (E : engine) (f : state -> res (option state)) : Prop :=
  (forall x0 ts tol xs, nth_error ts 0 = Some 0 -> odeint E f x0 ts tol = Ok xs ->
     exists y, y 0 = x0 /\ nearly_solves eta f y (last ts 0) /\ xs = map y ts) /\
  (forall te x0 ts ev tol us xs, nth_error ts 0 = Some 0 -> solve_ivp E f te x0 ts ev tol = Ok (us, xs) ->
     exists y, y 0 = x0 /\ nearly_solves eta f y (last us 0) /\ xs = map y us).
(** Initial conditions that differ by at most [eta] km, km/s and degrees. *)
Definition start_within (eta : R) (i i' : init) : Prop :=
  Rabs (h0_km i - h0_km i') <= eta /\ Rabs (theta0_deg i - theta0_deg i') <= eta /\ Rabs (phi0_deg i - phi0_deg i') <= eta /\ Rabs (v0_kms i - v0_kms i') <= eta /\
  Rabs (psi0_deg i - psi0_deg i') <= eta /\ Rabs (gamma0_deg i - gamma0_deg i') <= eta /\ Rabs (drange0_km i - drange0_km i') <= eta.
(** Two vehicles at the same planet, with fixed drag coefficients, whose drag and lift per unit of mass and of dynamic pressure (in the
    units of the equations of motion) differ by at most [eta], in atmospheres whose densities differ by at most [eta]. *)
Definition vehicle_within (eta : R) (V V' : vehicle) : Prop :=
  vh_planet V' = vh_planet V /\ vh_user V' = false /\
  Rabs (vh_Abar V * vh_CD V / vh_mbar V - vh_Abar V' * vh_CD V' / vh_mbar V') <= eta /\ Rabs (vh_Abar V * vh_CL V / vh_mbar V - vh_Abar V' * vh_CL V' / vh_mbar V') <= eta /\
  forall h, 0 <= h <= h_thres (vh_planet V) -> Rabs (density_int (vh_atm V) h - density_int (vh_atm V') h) <= eta.
(** Point [k] of a plot-unit history differs from the nondimensional state [x] by less than [eps] km, km/s and degrees. *)
Definition shows_within (eps : R) (p : planet) (q : plot) (k : nat) (x : state) : Prop :=
  Rabs (nth k (p_h q) 0 - (RP p * s_r x - RP p) / 1000) < eps /\ Rabs (nth k (p_v q) 0 - Vref p * s_v x / 1000) < eps /\
  Rabs (nth k (p_theta q) 0 - s_theta x * 180 / PI) < eps /\ Rabs (nth k (p_phi q) 0 - s_phi x * 180 / PI) < eps /\
  Rabs (nth k (p_psi q) 0 - s_psi x * 180 / PI) < eps /\ Rabs (nth k (p_gamma q) 0 - s_gamma x * 180 / PI) < eps /\
  Rabs (nth k (p_drange q) 0 - RP p * s_drange x / 1000) < eps.
(** Two reported points differ by less than [eps] in every channel but the time. *)
Definition point_within (eps : R) (q : plot) (k : nat) (q' : plot) (k' : nat) : Prop :=
  Rabs (nth k (p_h q) 0 - nth k' (p_h q') 0) < eps /\ Rabs (nth k (p_v q) 0 - nth k' (p_v q') 0) < eps /\
  Rabs (nth k (p_theta q) 0 - nth k' (p_theta q') 0) < eps /\ Rabs (nth k (p_phi q) 0 - nth k' (p_phi q') 0) < eps /\
  Rabs (nth k (p_psi q) 0 - nth k' (p_psi q') 0) < eps /\ Rabs (nth k (p_gamma q) 0 - nth k' (p_gamma q') 0) < eps /\
  Rabs (nth k (p_drange q) 0 - nth k' (p_drange q') 0) < eps.
