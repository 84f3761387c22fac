(** Independent vocabulary for the trajectory properties. *)
Require Import Verif.Base Verif.PlanetModel Verif.TrajectoryModel.

(** [k] is the first position of [l] whose entry satisfies [P]. *)
Definition first_at (P : R -> Prop) (l : list R) (k : nat) : Prop :=
  (k < length l)%nat /\ P (nth k l 0) /\ forall j, (j < k)%nat -> ~ P (nth j l 0).
(** Some entry satisfies / every entry satisfies. *)
Definition some_entry (P : R -> Prop) (l : list R) : Prop := exists k, (k < length l)%nat /\ P (nth k l 0).
Definition every_entry (P : R -> Prop) (l : list R) : Prop := forall k, (k < length l)%nat -> P (nth k l 0).

(** What is assumed of the integrators: odeint returns one state per requested time, the first being
    the initial state; solve_ivp returns the states at a non-empty initial part of the requested times,
    the first being the initial state. *)
Definition engine_ok (E : engine) : Prop :=
  (forall f x0 ts tol xs, odeint E f x0 ts tol = Ok xs -> length xs = length ts /\ (ts <> [] -> nth_error xs 0 = Some x0)) /\
  (forall f te x0 ts ev tol us xs, solve_ivp E f te x0 ts ev tol = Ok (us, xs) ->
     length xs = length us /\ (exists n, us = firstn n ts) /\ (ts <> [] -> us <> [] /\ nth_error xs 0 = Some x0)).

(** All eight channels have [n] entries. *)
Definition traj_len (c : traj) (n : nat) : Prop :=
  length (c_t c) = n /\ length (c_r c) = n /\ length (c_theta c) = n /\ length (c_phi c) = n /\
  length (c_v c) = n /\ length (c_psi c) = n /\ length (c_gamma c) = n /\ length (c_drange c) = n.
Definition plot_len (c : plot) (n : nat) : Prop :=
  length (p_t c) = n /\ length (p_h c) = n /\ length (p_v c) = n /\ length (p_phi c) = n /\
  length (p_psi c) = n /\ length (p_theta c) = n /\ length (p_gamma c) = n /\ length (p_drange c) = n.
(** Point [k] of a trajectory, as (time, state). *)
Definition point (c : traj) (k : nat) : R * state :=
  (nth k (c_t c) 0, mkState (nth k (c_r c) 0) (nth k (c_theta c) 0) (nth k (c_phi c) 0) (nth k (c_v c) 0)
     (nth k (c_psi c) 0) (nth k (c_gamma c) 0) (nth k (c_drange c) 0)).
