(** The entry-corridor search of /repo/AMAT/vehicle.py as the machine runs it: [rnd] is applied after every
    arithmetic operation of the loop.  CorridorModel has the same text with exact arithmetic. *)
From Coq Require Import String List.
Require Import Verif.Base Verif.Numpy Verif.PlanetModel Verif.AeroModel Verif.HeatModel Verif.TrajectoryModel Verif.OrbitScalarModel Verif.OrbiterModel Verif.CorridorModel.

(** vehicle.py:3295-3317 (same text at 3397-3419, 3499-3521, 3601-3623, 3819-3845, 3919-3945).  The answers are -1 and
    1, so that their products are exact. *)
Fixpoint bisect_r (rnd : R -> R) (ask : vobj -> vobj * res R) (tol : R) (fuel : nat) (o : vobj) (low high : R) (lim : option (R * R))
  : option (vobj * res (option (R * R))) :=
  if Rltb tol (Rabs (rnd (high - low))) then
    match fuel with
    | O => None
    | S fuel =>
        let mid := rnd (0.5 * rnd (low + high)) in
        call (ask (set_gamma0 o low)) (fun o ans1 =>
        call (ask (set_gamma0 o mid)) (fun o ans2 =>
        call (ask (set_gamma0 o high)) (fun o ans3 =>
          if Rltb (ans1 * ans2) 0 then bisect_r rnd ask tol fuel o low mid (Some (mid, 1))
          else if Rltb (ans2 * ans3) 0 then bisect_r rnd ask tol fuel o mid high (Some (high, 1))
          else bisect_r rnd ask tol fuel o low high (Some (high, 1)))))
    end
  else Some (o, Ok lim).
(** vehicle.py:3279-3324. *)
Definition search_r (rnd : R -> R) (ask : vobj -> vobj * res R) (tol : R) (fuel : nat) (o : vobj) (low high : R) : option (vobj * res (option (R * R))) :=
  call (ask (set_gamma0 o low)) (fun o ans1 =>
  call (ask (set_gamma0 o high)) (fun o ans2 =>
    if Rltb (ans1 * ans2) 0 then bisect_r rnd ask tol fuel o low high None
    else Some (o, Ok (Some (0, 0))))).
(** findOverShootLimit, findUnderShootLimit and their second versions, vehicle.py:3275-3328, 3377-3430, 3480-3533,
    3583-3636. *)
Definition limit_search_r (rnd : R -> R) (ask : vobj -> vobj * res R) (tol : R) (fuel : nat) (o : vobj) (low high : R) : option (vobj * res (R * R)) :=
  then_ (search_r rnd ask tol fuel o low high) (fun o' lim => Some (set_gamma0 o' (gamma0_deg (ob_init o)), bound lim)).
(** findEFPALimitD, findEFPALimitD2, vehicle.py:3795-3857, 3895-3957. *)
Definition efpa_search_r (rnd : R -> R) (ask : vobj -> vobj * res R) (tol : R) (fuel : nat) (o : vobj) (low high : R) : option (vobj * res (R * R)) :=
  then_ (search_r rnd ask tol fuel (set_LD o 0) low high) (fun o' lim =>
    Some (set_LD (set_gamma0 o' (gamma0_deg (ob_init o))) (vh_LD (ob_veh o)), bound lim)).

(** The time grid of solveTrajectory and solveTrajectory2, vehicle.py:1729, 1806, as the machine computes it:
    np.arange(0, (t_sec+dt)/tau, dt/tau) takes the ceiling of the rounded quotient as its length and i*step as its
    entries. *)
Definition time_grid_r (rnd : R -> R) (tau t_sec dt : R) : list R :=
  let stop := rnd (rnd (t_sec + dt) / tau) in let step := rnd (dt / tau) in
  map (fun i => rnd (INR i * step)) (seq 0 (ceil_nat (rnd (stop / step)))).
