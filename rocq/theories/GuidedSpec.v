(** Specification for C100: what a user of guided flights believes is in force after a sequence of calls. *)
From Coq Require Import String List.
Require Import Verif.Base Verif.PlanetModel Verif.AeroModel Verif.TrajectoryModel Verif.CorridorModel Verif.GuidanceModel Verif.SessionModel Verif.SessionSpec Verif.GuidedModel.

(** Everything the user configures: the configuration of C84 and the guidance parameters. *)
Definition gconfig_of (s : gsess) : config * gparams := (config_of (gs_sess s), gs_P s).

(** What is known to be in force: after a guided flight the initial state is not the user's any more ([None]) until it
    is set again. *)
Record known := mkKnown { kn_veh : vehicle; kn_init : option init; kn_tol : R; kn_dm : option (R * R); kn_P : gparams }.
Definition holds (k : known) (s : gsess) : Prop :=
  ob_veh (se_obj (gs_sess s)) = kn_veh k /\ ob_tol (se_obj (gs_sess s)) = kn_tol k /\ se_dm (gs_sess s) = kn_dm k /\ gs_P s = kn_P k /\
  match kn_init k with Some i => ob_init (se_obj (gs_sess s)) = i | None => True end.

(** The setters set what they name, setDragEntryPhaseParams four parameters it shares with setEquilibriumGlideParams.
    A guided flight spoils the initial state; with drag modulation it leaves the vehicle with the ballistic coefficient
    after jettison.  The other calls are those of C84. *)
Definition gafter (c : greq) (k : known) : known :=
  let P := kn_P k in
  let set P := mkKnown (kn_veh k) (kn_init k) (kn_tol k) (kn_dm k) P in
  match c with
  | SetMaxRollRate r => set (mkG r (g_Ghdot P) (g_Gq P) (g_vswitch P) (g_lowAlt P) (g_numLow P) (g_hdotthr P) (g_peri P) (g_apo P) (g_apotol P))
  | SetTargetOrbitParams p a t => set (mkG (g_rate P) (g_Ghdot P) (g_Gq P) (g_vswitch P) (g_lowAlt P) (g_numLow P) (g_hdotthr P) p a t)
  | SetEquilibriumGlideParams gh gq v l n h => set (mkG (g_rate P) gh gq v l n h (g_peri P) (g_apo P) (g_apotol P))
  | SetDragEntryPhaseParams v l n h => set (mkG (g_rate P) (g_Ghdot P) (g_Gq P) v l n h (g_peri P) (g_apo P) (g_apotol P))
  | PropogateGuidedEntry _ _ _ _ => mkKnown (kn_veh k) None (kn_tol k) (kn_dm k) P
  | PropogateGuidedEntryD _ _ _ _ _ =>
      mkKnown (match kn_dm k with Some (b, r) => flying_with (kn_veh k) (b * r) | None => kn_veh k end) None (kn_tol k) (kn_dm k) P
  | Plain (SetInitialState i) => mkKnown (kn_veh k) (Some i) (kn_tol k) (kn_dm k) P
  | Plain (SetSolverParams tol) => mkKnown (kn_veh k) (kn_init k) tol (kn_dm k) P
  | Plain (SetDragModulationVehicleParams b r) => mkKnown (kn_veh k) (kn_init k) (kn_tol k) (Some (b, r)) P
  | Plain (FindUnderShootLimitD _ _ _ _ _ _ _) =>
      match kn_dm k with Some (b, r) => mkKnown (flying_with (kn_veh k) (b * r)) (kn_init k) (kn_tol k) (kn_dm k) P | None => k end
  | Plain (FindOverShootLimitD _ _ _ _ _ _ _) | Plain (ComputeTCWD _ _ _ _ _ _ _) =>
      match kn_dm k with Some (b, _) => mkKnown (flying_with (kn_veh k) b) (kn_init k) (kn_tol k) (kn_dm k) P | None => k end
  | Plain _ => k
  end.
Definition gafter_all (l : list greq) (k : known) : known := fold_left (fun k c => gafter c k) l k.
