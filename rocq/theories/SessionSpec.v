(** Specification for C84: what a user believes is in force on a vehicle object after a sequence of calls. *)
From Coq Require Import String List.
Require Import Verif.Base Verif.PlanetModel Verif.AeroModel Verif.TrajectoryModel Verif.CorridorModel Verif.SessionModel.

(** Everything the user configures: the vehicle, the initial state, the solver tolerance and the pair
    (beta1, ratio) of the drag-modulation vehicle. *)
Record config := mkConfig { cf_veh : vehicle; cf_init : init; cf_tol : R; cf_dm : option (R * R) }.
Definition config_of (s : sess) : config := mkConfig (ob_veh (se_obj s)) (ob_init (se_obj s)) (ob_tol (se_obj s)) (se_dm s).

(** The vehicle flying with ballistic coefficient b. *)
Definition flying_with (V : vehicle) (b : R) : vehicle :=
  mkVehicle (vh_mass V) b (vh_LD V) (vh_A V) (vh_alpha V) (vh_RN V) (vh_planet V) (vh_atm V) (vh_user V) (vh_CDMach V)
    (vh_Abar V) (vh_mbar V) (vh_mass V / (b * vh_A V)) (vh_CL V).

(** The three setters set what they name; the drag-modulation queries leave the vehicle in the
    configuration they tried last; every other call changes nothing. *)
Definition after (c : req) (k : config) : config :=
  match c with
  | SetInitialState i => mkConfig (cf_veh k) i (cf_tol k) (cf_dm k)
  | SetSolverParams tol => mkConfig (cf_veh k) (cf_init k) tol (cf_dm k)
  | SetDragModulationVehicleParams b r => mkConfig (cf_veh k) (cf_init k) (cf_tol k) (Some (b, r))
  | FindUnderShootLimitD _ _ _ _ _ _ _ =>
      match cf_dm k with Some (b, r) => mkConfig (flying_with (cf_veh k) (b * r)) (cf_init k) (cf_tol k) (cf_dm k) | None => k end
  | FindOverShootLimitD _ _ _ _ _ _ _ | ComputeTCWD _ _ _ _ _ _ _ =>
      match cf_dm k with Some (b, _) => mkConfig (flying_with (cf_veh k) b) (cf_init k) (cf_tol k) (cf_dm k) | None => k end
  | _ => k
  end.
Definition after_all (l : list req) (k : config) : config := fold_left (fun k c => after c k) l k.

Definition returned {A} (r : res A) : Prop := exists a, r = Ok a.

(** The setters alone. *)
Definition set_by (c : req) (k : config) : config :=
  match c with
  | SetInitialState _ | SetSolverParams _ | SetDragModulationVehicleParams _ _ => after c k
  | _ => k
  end.
Definition set_by_all (l : list req) (k : config) : config := fold_left (fun k c => set_by c k) l k.

(** Two configurations that differ at most in the entry flight-path angle and in the vehicle's LD, beta,
    CD and nose radius. *)
Definition same_but_trial (k k' : config) : Prop :=
  cf_dm k' = cf_dm k /\ cf_tol k' = cf_tol k /\
  (let i := cf_init k in let i' := cf_init k' in
   h0_km i' = h0_km i /\ theta0_deg i' = theta0_deg i /\ phi0_deg i' = phi0_deg i /\ v0_kms i' = v0_kms i /\ psi0_deg i' = psi0_deg i /\
   drange0_km i' = drange0_km i /\ heatLoad0 i' = heatLoad0 i) /\
  (let V := cf_veh k in let V' := cf_veh k' in
   vh_mass V' = vh_mass V /\ vh_A V' = vh_A V /\ vh_alpha V' = vh_alpha V /\ vh_planet V' = vh_planet V /\ vh_atm V' = vh_atm V /\
   vh_user V' = vh_user V /\ vh_CDMach V' = vh_CDMach V /\ vh_Abar V' = vh_Abar V /\ vh_mbar V' = vh_mbar V /\ vh_CL V' = vh_CL V).

(** Calls that cannot leave anything behind, whatever they do. *)
Definition is_propagation (c : req) : Prop :=
  match c with PropogateEntry _ _ _ _ | IsCaptured _ _ _ | HitsTargetApoapsis _ _ _ _ _ => True | _ => False end.
