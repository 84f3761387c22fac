(** Independent vocabulary for C114: which calls configure a vehicle, which calls need which of them. *)
From Coq Require Import List.
Require Import Verif.Base Verif.AeroModel Verif.TrajectoryModel Verif.CorridorModel Verif.GuidanceModel Verif.SessionModel Verif.GuidedModel Verif.SetupModel.

(** The kinds of setters; setEquilibriumGlideParams also sets what setDragEntryPhaseParams sets. *)
Inductive kind := KInitialState | KTolerance | KDrag | KRollRate | KGlide | KPhase | KTarget.
Definition sets (c : greq) (k : kind) : Prop :=
  match c, k with
  | Plain (SetInitialState _), KInitialState => True
  | Plain (SetSolverParams _), KTolerance => True
  | Plain (SetDragModulationVehicleParams _ _), KDrag => True
  | SetMaxRollRate _, KRollRate => True
  | SetEquilibriumGlideParams _ _ _ _ _ _, KGlide => True
  | SetEquilibriumGlideParams _ _ _ _ _ _, KPhase => True
  | SetDragEntryPhaseParams _ _ _ _, KPhase => True
  | SetTargetOrbitParams _ _ _, KTarget => True
  | _, _ => False
  end.
Definition setter (c : greq) : Prop := exists k, sets c k.
(** Some call of the history sets [k]; some call before number [n] does. *)
Definition set_in (history : list greq) (k : kind) : Prop := exists c, In c history /\ sets c k.
Definition set_before (history : list greq) (n : nat) (k : kind) : Prop := set_in (firstn n history) k.

(** Calls that fly the vehicle at least once, and those that fly it in the two drag configurations. *)
Definition flies (c : greq) : Prop :=
  ~ setter c /\ match c with Plain (ComputeHeatingForMultipleRN _ _ _ _) => False | _ => True end.
Definition two_configurations (c : greq) : Prop :=
  match c with
  | Plain (FindUnderShootLimitD _ _ _ _ _ _ _) | Plain (FindOverShootLimitD _ _ _ _ _ _ _) | Plain (ComputeTCWD _ _ _ _ _ _ _)
  | PropogateGuidedEntryD _ _ _ _ _ => True
  | _ => False
  end.
(** What is certainly enough for a call. *)
Definition enough (c : greq) (has : kind -> Prop) : Prop :=
  (flies c -> has KInitialState /\ has KTolerance) /\
  (two_configurations c -> has KDrag) /\
  match c with
  | PropogateGuidedEntry _ _ _ _ => has KRollRate /\ has KGlide /\ has KPhase /\ has KTarget
  | PropogateGuidedEntryD _ _ _ _ _ => has KPhase /\ has KTarget
  | _ => True
  end.
(** A fully configured object [g] is [s] with something filled in where [s] has nothing yet. *)
Definition fills (s : osess) (g : gsess) : Prop :=
  let o := se_obj (gs_sess g) in let P := gs_P g in
  ob_veh o = os_veh s /\ ob_flight o = os_flight s /\ ob_heat o = os_heat s /\ se_dm (gs_sess g) = os_dm s /\ gs_href g = os_href s /\
  (forall i, os_init s = Some i -> ob_init o = i) /\
  (forall t, os_tol s = Some t -> ob_tol o = t) /\
  (forall r, at_rate (os_att s) = Some r -> g_rate P = r) /\
  (forall gh gq, at_glide (os_att s) = Some (gh, gq) -> g_Ghdot P = gh /\ g_Gq P = gq) /\
  (forall v l n h, at_phase (os_att s) = Some (v, l, n, h) -> g_vswitch P = v /\ g_lowAlt P = l /\ g_numLow P = n /\ g_hdotthr P = h) /\
  (forall pe ap tl, at_target (os_att s) = Some (pe, ap, tl) -> g_peri P = pe /\ g_apo P = ap /\ g_apotol P = tl).
(** The vehicle in a drag configuration of ballistic coefficient [b] (with the drag coefficient that goes with it), and
    without lift; what a flight that raises for want of an initial state leaves of the vehicle. *)
Definition ballistic (V : vehicle) (b : R) : vehicle :=
  mkVehicle (vh_mass V) b (vh_LD V) (vh_A V) (vh_alpha V) (vh_RN V) (vh_planet V) (vh_atm V) (vh_user V) (vh_CDMach V) (vh_Abar V) (vh_mbar V) (vh_mass V / (b * vh_A V)) (vh_CL V).
Definition liftless (V : vehicle) : vehicle :=
  mkVehicle (vh_mass V) (vh_beta V) 0 (vh_A V) (vh_alpha V) (vh_RN V) (vh_planet V) (vh_atm V) (vh_user V) (vh_CDMach V) (vh_Abar V) (vh_mbar V) (vh_CD V) (vh_CL V).
Definition spoilt (c : greq) (V : vehicle) (b1 ratio : R) : vehicle :=
  match c with
  | Plain (FindEFPALimitD _ _ _ _ _ _ _) => liftless V
  | Plain (FindUnderShootLimitD _ _ _ _ _ _ _) | Plain (ComputeTCWD _ _ _ _ _ _ _) => liftless (ballistic V (b1 * ratio))
  | Plain (FindOverShootLimitD _ _ _ _ _ _ _) => liftless (ballistic V b1)
  | PropogateGuidedEntryD _ _ _ _ _ => ballistic V b1
  | _ => V
  end.
