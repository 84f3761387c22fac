(** Specification for C116: what a user who also runs Monte Carlo campaigns believes is in force after a sequence of calls. *)
From Coq Require Import String List.
Require Import Verif.Base Verif.PlanetModel Verif.AeroModel Verif.TrajectoryModel Verif.CorridorModel Verif.GuidanceModel Verif.MonteModel Verif.SessionModel Verif.SessionSpec
  Verif.GuidedModel Verif.GuidedSpec Verif.CampaignModel.
Local Open Scope list_scope.

(** Everything later answers can depend on: the configuration of C100, what the campaign setups stored, and the disk. *)
Definition cconfig_of (s : csess) : (config * gparams) * mcattrs * fs := (gconfig_of (cs_g s), cs_at s, cs_fs s).

(** The vehicle in another atmosphere, and in one with another density. *)
Definition in_atmosphere (V : vehicle) (a : atmosphere) : vehicle :=
  mkVehicle (vh_mass V) (vh_beta V) (vh_LD V) (vh_A V) (vh_alpha V) (vh_RN V) (vh_planet V) a (vh_user V) (vh_CDMach V) (vh_Abar V) (vh_mbar V) (vh_CD V) (vh_CL V).
Definition in_density (V : vehicle) (f : R -> R) : vehicle :=
  in_atmosphere V (mkAtm f (temp_int (vh_atm V)) (pressure_int (vh_atm V)) (sonic_int (vh_atm V))).

(** What is known to be in force; [ck_density]: whether the density of the atmosphere is the one that was loaded. *)
Record cknown := mkCK { ck_k : known; ck_density : bool }.
Definition with_veh (k : known) (V : vehicle) : known := mkKnown V (kn_init k) (kn_tol k) (kn_dm k) (kn_P k).
Definition cholds (k : cknown) (s : csess) : Prop :=
  if ck_density k then holds (ck_k k) (cs_g s)
  else exists f, holds (with_veh (ck_k k) (in_density (kn_veh (ck_k k)) f)) (cs_g s).

(** Loading an atmosphere replaces it; setting up a campaign changes nothing the vehicle flies with; a campaign of at
    least one run spoils the initial state and the density and, with drag modulation, leaves the vehicle with the
    ballistic coefficient after jettison. *)
Definition cafter (c : creq) (k : cknown) : cknown :=
  let K := ck_k k in
  match c with
  | Guided c => mkCK (gafter c K) (ck_density k)
  | LoadAtmosphere a => mkCK (with_veh K (in_atmosphere (kn_veh K) a)) true
  | RunMonteCarlo m (Datatypes.S _) _ _ =>
      mkCK (mkKnown (if is_drag m then match kn_dm K with Some (b, r) => flying_with (kn_veh K) (b * r) | None => kn_veh K end else kn_veh K)
              None (kn_tol K) (kn_dm K) (kn_P K)) false
  | _ => k
  end.
Definition cafter_all (l : list creq) (k : cknown) : cknown := fold_left (fun k c => cafter c k) l k.

(** Which setups a history contains. *)
Inductive family := Lift | Drag | Earth.
Definition sets_up (c : creq) : option family :=
  match c with
  | SetupMonteCarloSimulation _ _ _ _ _ _ _ _ _ _ _ _ _ _ _ => Some Lift
  | SetupMonteCarloSimulationD _ _ _ _ _ _ _ _ _ _ _ _ _ _ _ => Some Drag
  | SetupMonteCarloSimulationD_Earth _ _ _ _ _ _ _ _ _ _ _ _ _ _ => Some Earth
  | _ => None
  end.
Definition was_set_up (f : family) (history : list creq) : Prop := exists c, In c history /\ sets_up c = Some f.
(** The setups a run needs: its own one; a drag run can also take its columns from a lift setup and its time steps from
    an Earth setup. *)
Definition prepared (m : mode) (history : list creq) : Prop :=
  match m with
  | MC | MC2 => was_set_up Lift history
  | MCD | MCD2 => was_set_up Drag history \/ was_set_up Lift history /\ was_set_up Earth history
  | MCD_Earth => was_set_up Earth history
  end.
(** An empty new folder, with its missing parents, and no other change. *)
Definition only_made (main : path) (F F' : fs) : Prop :=
  F' main = Some Dir /\ forall p, F' p <> F p -> F p = None /\ F' p = Some Dir /\ exists r, main = p ++ r.
(** A campaign run as C78-C80 describe it, in a session: with the settings [U] and the vehicle as it is. *)
Definition campaign_call (E : engine) (X : gext) (load : string -> res (list (list R))) (fuel : nat) (m : mode) (U : mc_setup) (rnd : random) (N : nat) (main : path)
    (s : csess) : option (csess * res cans) :=
  let g := cs_g s in let q := gs_sess g in
  match runMonteCarlo m (mkWorld E X (gs_P g) (se_dm q) load fuel) U rnd N main (mkMem (se_obj q) (gs_href g)) (cs_fs s) with
  | (_, None) => None
  | (st, Some r) => Some (mkCS (mkGS (mkSess (v_obj (k_mem st)) (se_dm q)) (gs_P g) (v_href (k_mem st))) (cs_at s) (k_fs st),
                          match r with Ok _ => Ok Done | Err e => Err e end)
  end.
(** The settings each setup call makes on a vehicle with the object [o]. *)
Definition settings_of (c : creq) (o : vobj) : option mc_setup :=
  match c with
  | SetupMonteCarloSimulation np nm fs_ hc lc ac hic tc km efpa LD ts dt mt sg => Some (setupMonteCarloSimulation o np nm fs_ hc lc ac hic tc km efpa LD ts dt mt sg)
  | SetupMonteCarloSimulationD np nm fs_ hc lc ac hic tc km efpa b1 te tx dt mt => Some (setupMonteCarloSimulationD o np nm fs_ hc lc ac hic tc km efpa b1 te tx dt mt)
  | SetupMonteCarloSimulationD_Earth np nm fs_ hc ac sd tc km efpa b1 te tx dt mt => Some (setupMonteCarloSimulationD_Earth o np nm fs_ hc ac sd tc km efpa b1 te tx dt mt)
  | _ => None
  end.
Definition own (m : mode) : family := match m with MC | MC2 => Lift | MCD | MCD2 => Drag | MCD_Earth => Earth end.
