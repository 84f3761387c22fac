(** Independent vocabulary for C105: an integrator that honours a terminal event. *)
From Coq Require Import List.
Require Import Verif.Base Verif.AeroModel Verif.TrajectoryModel Verif.ExactSpec.
Local Open Scope R_scope.

(** solve_ivp samples some continuous path from the initial state, and the event function is not zero along it before the last
    time it returns (it stops at the first zero, which may be the initial state). *)
Definition stops (E : engine) : Prop :=
  forall f te x0 ts ev tol us xs, nth_error ts 0 = Some 0 -> solve_ivp E f te x0 ts ev tol = Ok (us, xs) ->
  exists y, y 0 = x0 /\ xs = map y us /\ (forall t, 0 <= t <= last us 0 -> continuous_at y t) /\ forall t, 0 <= t < last us 0 -> ev (y t) <> 0.
