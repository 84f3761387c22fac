(** Model of the capture predicates and the entry-corridor searches of /repo/AMAT/vehicle.py, lines
    2985-4216.  Simplifications: the attributes terminal_r .. hp_km that hitsTargetApoapsis also stores
    are left out (nothing modelled here reads them); console output is left out. *)
From Coq Require Import String List.
Require Import Verif.Base Verif.Numpy Verif.PlanetModel Verif.AeroModel Verif.HeatModel Verif.TrajectoryModel Verif.OrbitScalarModel Verif.OrbiterModel.

(** Attribute assignments self.gamma0_deg = g, self.LD = x, self.beta = b, self.CD = c. *)
Definition with_gamma0 (i : init) (g : R) : init :=
  mkInit (h0_km i) (theta0_deg i) (phi0_deg i) (v0_kms i) (psi0_deg i) g (drange0_km i) (heatLoad0 i).
Definition set_veh (o : vobj) (V : vehicle) : vobj := mkObj V (ob_init o) (ob_tol o) (ob_flight o) (ob_heat o).
Definition set_gamma0 (o : vobj) (g : R) : vobj := mkObj (ob_veh o) (with_gamma0 (ob_init o) g) (ob_tol o) (ob_flight o) (ob_heat o).
Definition with_LD (V : vehicle) (x : R) : vehicle :=
  mkVehicle (vh_mass V) (vh_beta V) x (vh_A V) (vh_alpha V) (vh_RN V) (vh_planet V) (vh_atm V) (vh_user V) (vh_CDMach V)
    (vh_Abar V) (vh_mbar V) (vh_CD V) (vh_CL V).
Definition with_beta (V : vehicle) (b : R) : vehicle :=
  mkVehicle (vh_mass V) b (vh_LD V) (vh_A V) (vh_alpha V) (vh_RN V) (vh_planet V) (vh_atm V) (vh_user V) (vh_CDMach V)
    (vh_Abar V) (vh_mbar V) (vh_CD V) (vh_CL V).
Definition with_CD (V : vehicle) (c : R) : vehicle :=
  mkVehicle (vh_mass V) (vh_beta V) (vh_LD V) (vh_A V) (vh_alpha V) (vh_RN V) (vh_planet V) (vh_atm V) (vh_user V) (vh_CDMach V)
    (vh_Abar V) (vh_mbar V) c (vh_CL V).
Definition set_LD (o : vobj) (x : R) : vobj := set_veh o (with_LD (ob_veh o) x).

(** The last stored point, x[self.index-1]: vehicle.py:3079-3081, 3150-3156. *)
Definition terminal (f : flight) : exit_state :=
  let k := (f_index f - 1)%nat in let c := f_si f in
  mkExit (nth k (c_r c) 0) (nth k (c_theta c) 0) (nth k (c_phi c) 0) (nth k (c_v c) 0) (nth k (c_gamma c) 0) (nth k (c_psi c) 0).

(** Run a propagation and answer from the flight it stored. *)
Definition ask_flight {A} (pr : vobj * res unit) (f : flight -> res A) : vobj * res A :=
  match pr with
  | (o, Err e) => (o, Err e)
  | (o, Ok _) => match ob_flight o with Some w => (o, f w) | None => (o, Err TypeError) end
  end.

(** isCaptured, vehicle.py:3029-3041.  A zero radius gives an energy of minus infinity. *)
Definition isCaptured (E : engine) (o : vobj) (t_sec dt delta_deg : R) : vobj * res R :=
  ask_flight (propogateEntry E o t_sec dt delta_deg) (fun f =>
    match nth (f_index f - 1) (computeEnergy (vh_planet (ob_veh o)) (c_r (f_si f)) (c_v (f_si f))) None with
    | Some e => Ok (if Rltb e 0 then -1 else 1)
    | None => Ok (-1)
    end).

(** vehicle.py:3085-3107 and 3199-3220: the decision from radius, speed and flight-path angle ([None] =
    NaN).  At zero energy the semi-major axis is minus infinity; at zero radius it is 0 and e is NaN. *)
Definition apo_answer (p : planet) (target_km r v : R) (g : option R) : R :=
  match computeEnergyScalar p r v with
  | None => 1
  | Some en =>
      match computeSemiMajorAxisScalar p en with
      | None => -1
      | Some a =>
          let hp_km := leto h := leto g := g in Some (computeAngMomScalar r v g) in
                       leto e := computeEccScalar p h en in Some ((a * (1 + e) - RP p) / 1e3) in
          if (match hp_km with Some x => Rleb target_km x | None => false end) || Rltb a 0 then -1 else 1
      end
  end.
(** vehicle.py:3109-3113, 3222-3226: planetObj.h_low does not exist for JUPITER and SATURN. *)
Definition low_override (p : planet) (r ans : R) : res R :=
  match h_low p with
  | None => Err AttributeError
  | Some hl => Ok (if Rltb ((r - RP p) / 1000) (hl / 1000) then 1 else ans)
  end.
(** hitsTargetApoapsis, vehicle.py:3070-3113: planet-relative speed and angle. *)
Definition hitsTargetApoapsis (E : engine) (o : vobj) (t_sec dt delta_deg target_km : R) : vobj * res R :=
  ask_flight (propogateEntry E o t_sec dt delta_deg) (fun f =>
    let p := vh_planet (ob_veh o) in let x := terminal f in
    low_override p (x_r x) (apo_answer p target_km (x_r x) (x_v x) (Some (x_g x)))).
(** hitsTargetApoapsis2, vehicle.py:3141-3226: inertial speed and angle. *)
Definition hitsTargetApoapsis2 (E : engine) (o : vobj) (t_sec dt delta_deg target_km : R) : vobj * res R :=
  ask_flight (propogateEntry2 E o t_sec dt delta_deg) (fun f =>
    let p := vh_planet (ob_veh o) in let x := terminal f in
    low_override p (x_r x) (apo_answer p target_km (x_r x) (norm (exit_v_ie p x)) (fpa_ie (exit_r_vec x) (exit_v_ie p x)))).

(** Sequencing of calls on the object. *)
Definition call {A B} (r : vobj * res A) (k : vobj -> A -> option (vobj * res B)) : option (vobj * res B) :=
  match r with (o, Err e) => Some (o, Err e) | (o, Ok a) => k o a end.
(** The same for a call that contains a loop, None meaning that the loop has not ended within [fuel] rounds. *)
Definition then_ {A B} (r : option (vobj * res A)) (k : vobj -> A -> option (vobj * res B)) : option (vobj * res B) :=
  match r with None => None | Some q => call q k end.

(** The while loop, vehicle.py:3295-3317 (same text at 3397-3419, 3499-3521, 3601-3623, 3819-3845,
    3919-3945).  [lim] is the pair (limit, exitflag), None while the variables are unbound. *)
Fixpoint bisect (ask : vobj -> vobj * res R) (tol : R) (fuel : nat) (o : vobj) (low high : R) (lim : option (R * R))
  : option (vobj * res (option (R * R))) :=
  if Rltb tol (Rabs (high - low)) then
    match fuel with
    | O => None
    | S fuel =>
        let mid := 0.5 * (low + high) in
        call (ask (set_gamma0 o low)) (fun o ans1 =>
        call (ask (set_gamma0 o mid)) (fun o ans2 =>
        call (ask (set_gamma0 o high)) (fun o ans3 =>
          if Rltb (ans1 * ans2) 0 then bisect ask tol fuel o low mid (Some (mid, 1))
          else if Rltb (ans2 * ans3) 0 then bisect ask tol fuel o mid high (Some (high, 1))
          else bisect ask tol fuel o low high (Some (high, 1)))))
    end
  else Some (o, Ok lim).

(** The search up to the restoration of the attributes: vehicle.py:3279-3324. *)
Definition search (ask : vobj -> vobj * res R) (tol : R) (fuel : nat) (o : vobj) (low high : R) : option (vobj * res (option (R * R))) :=
  call (ask (set_gamma0 o low)) (fun o ans1 =>
  call (ask (set_gamma0 o high)) (fun o ans2 =>
    if Rltb (ans1 * ans2) 0 then bisect ask tol fuel o low high None
    else Some (o, Ok (Some (0, 0))))).

(** Reading variables that were never assigned. *)
Definition bound {A} (x : option A) : res A := match x with Some a => Ok a | None => Err UnboundLocalError end.
(** vehicle.py:3275-3328 *)
Definition limit_search (ask : vobj -> vobj * res R) (tol : R) (fuel : nat) (o : vobj) (low high : R) : option (vobj * res (R * R)) :=
  then_ (search ask tol fuel o low high) (fun o' lim => Some (set_gamma0 o' (gamma0_deg (ob_init o)), bound lim)).

(** findOverShootLimit, findOverShootLimit2, vehicle.py:3273-3328, 3375-3430. *)
Definition findOverShootLimit (E : engine) (fuel : nat) (o : vobj) (t_sec dt low high tol target_km : R) : option (vobj * res (R * R)) :=
  limit_search (fun o => hitsTargetApoapsis E o t_sec dt 180 target_km) tol fuel o low high.
Definition findOverShootLimit2 (E : engine) (fuel : nat) (o : vobj) (t_sec dt low high tol target_km : R) : option (vobj * res (R * R)) :=
  limit_search (fun o => hitsTargetApoapsis2 E o t_sec dt 180 target_km) tol fuel o low high.
(** findUnderShootLimit, findUnderShootLimit2, vehicle.py:3478-3533, 3581-3636. *)
Definition findUnderShootLimit (E : engine) (fuel : nat) (o : vobj) (t_sec dt low high tol target_km : R) : option (vobj * res (R * R)) :=
  limit_search (fun o => hitsTargetApoapsis E o t_sec dt 0 target_km) tol fuel o low high.
Definition findUnderShootLimit2 (E : engine) (fuel : nat) (o : vobj) (t_sec dt low high tol target_km : R) : option (vobj * res (R * R)) :=
  limit_search (fun o => hitsTargetApoapsis2 E o t_sec dt 0 target_km) tol fuel o low high.

(** computeTCW, vehicle.py:3673-3689: the exit flags are dropped. *)
Definition computeTCW (E : engine) (fuel : nat) (o : vobj) (t_sec dt low_os high_os low_us high_us tol_os tol_us target_km : R) : option (vobj * res R) :=
  then_ (findOverShootLimit E fuel o t_sec dt low_os high_os tol_os target_km) (fun o os =>
  then_ (findUnderShootLimit E fuel o t_sec dt low_us high_us tol_us target_km) (fun o us => Some (o, Ok (fst os - fst us)))).
(** computeTCW2, vehicle.py:3726-3742. *)
Definition computeTCW2 (E : engine) (fuel : nat) (o : vobj) (t_sec dt low_os high_os low_us high_us tol_os tol_us target_km : R) : option (vobj * res R) :=
  then_ (findOverShootLimit2 E fuel o t_sec dt low_os high_os tol_os target_km) (fun o os =>
  then_ (findUnderShootLimit2 E fuel o t_sec dt low_us high_us tol_us target_km) (fun o us => Some (o, Ok (fst os - fst us)))).

(** findEFPALimitD, findEFPALimitD2, vehicle.py:3795-3857, 3895-3957. *)
Definition efpa_search (ask : vobj -> vobj * res R) (tol : R) (fuel : nat) (o : vobj) (low high : R) : option (vobj * res (R * R)) :=
  then_ (search ask tol fuel (set_LD o 0) low high) (fun o' lim =>
    Some (set_LD (set_gamma0 o' (gamma0_deg (ob_init o))) (vh_LD (ob_veh o)), bound lim)).
Definition findEFPALimitD (E : engine) (fuel : nat) (o : vobj) (t_sec dt low high tol target_km : R) : option (vobj * res (R * R)) :=
  efpa_search (fun o => hitsTargetApoapsis E o t_sec dt 0 target_km) tol fuel o low high.
Definition findEFPALimitD2 (E : engine) (fuel : nat) (o : vobj) (t_sec dt low high tol target_km : R) : option (vobj * res (R * R)) :=
  efpa_search (fun o => hitsTargetApoapsis2 E o t_sec dt 0 target_km) tol fuel o low high.

(** setDragModulationVehicleParams stores beta1 and betaRatio, vehicle.py:3756-3757; here they are the
    parameter [dm], None before the call (vehicle.py:427-428). *)
Definition dm_params := option (R * R).
(** self.beta = b; self.CD = self.mass / (self.beta*self.A): vehicle.py:3994-3995, 4038-4039, 4081-4082,
    4124-4125.  The first assignment happens even when the second raises. *)
Definition set_ballistic (o : vobj) (b : R) : vobj * res unit :=
  let V := with_beta (ob_veh o) b in
  if Reqb (b * vh_A V) 0 then (set_veh o V, Err ZeroDivisionError)
  else (set_veh o (with_CD V (vh_mass V / (b * vh_A V))), Ok tt).
(** findUnderShootLimitD, findUnderShootLimitD2, vehicle.py:3994-4001, 4038-4045 (None * None raises). *)
Definition undershootD (find : vobj -> option (vobj * res (R * R))) (dm : dm_params) (o : vobj) : option (vobj * res (R * R)) :=
  match dm with
  | None => Some (o, Err TypeError)
  | Some (b1, ratio) => call (set_ballistic o (b1 * ratio)) (fun o _ => find o)
  end.
(** findOverShootLimitD, findOverShootLimitD2, vehicle.py:4081-4088, 4124-4132: with beta1 None the
    first statement stores None and the second raises; the stored None is not modelled. *)
Definition overshootD (find : vobj -> option (vobj * res (R * R))) (dm : dm_params) (o : vobj) : option (vobj * res (R * R)) :=
  match dm with
  | None => Some (o, Err TypeError)
  | Some (b1, _) => call (set_ballistic o b1) (fun o _ => find o)
  end.
Definition findUnderShootLimitD (E : engine) (fuel : nat) (dm : dm_params) (o : vobj) (t_sec dt low high tol target_km : R) :=
  undershootD (fun o => findEFPALimitD E fuel o t_sec dt low high tol target_km) dm o.
Definition findUnderShootLimitD2 (E : engine) (fuel : nat) (dm : dm_params) (o : vobj) (t_sec dt low high tol target_km : R) :=
  undershootD (fun o => findEFPALimitD2 E fuel o t_sec dt low high tol target_km) dm o.
Definition findOverShootLimitD (E : engine) (fuel : nat) (dm : dm_params) (o : vobj) (t_sec dt low high tol target_km : R) :=
  overshootD (fun o => findEFPALimitD E fuel o t_sec dt low high tol target_km) dm o.
Definition findOverShootLimitD2 (E : engine) (fuel : nat) (dm : dm_params) (o : vobj) (t_sec dt low high tol target_km : R) :=
  overshootD (fun o => findEFPALimitD2 E fuel o t_sec dt low high tol target_km) dm o.
(** computeTCWD, computeTCWD2, vehicle.py:4163-4173, 4204-4216. *)
Definition computeTCWD (E : engine) (fuel : nat) (dm : dm_params) (o : vobj) (t_sec dt low high tol target_km : R) : option (vobj * res R) :=
  then_ (findUnderShootLimitD E fuel dm o t_sec dt low high tol target_km) (fun o us =>
  then_ (findOverShootLimitD E fuel dm o t_sec dt low high tol target_km) (fun o os => Some (o, Ok (fst os - fst us)))).
Definition computeTCWD2 (E : engine) (fuel : nat) (dm : dm_params) (o : vobj) (t_sec dt low high tol target_km : R) : option (vobj * res R) :=
  then_ (findUnderShootLimitD2 E fuel dm o t_sec dt low high tol target_km) (fun o us =>
  then_ (findOverShootLimitD2 E fuel dm o t_sec dt low high tol target_km) (fun o os => Some (o, Ok (fst os - fst us)))).
