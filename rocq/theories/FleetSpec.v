(** Independent vocabulary for C124: what one vehicle of several shows, and which calls reach the others. *)
From Coq Require Import String List.
Require Import Verif.Base Verif.PlanetModel Verif.AeroModel Verif.TrajectoryModel Verif.CorridorModel Verif.GuidanceModel Verif.MonteModel Verif.SessionModel Verif.GuidedModel
  Verif.CampaignModel Verif.FleetModel.
Local Open Scope list_scope.

(** Vehicle [k] as its user sees it: with the planet object it was made with, as that object is now, and the disk. *)
Definition view (k : nat) (F : fleet) : option csess :=
  match nth_error (fl_members F) k with
  | None => None
  | Some m => match nth_error (fl_planets F) (mb_planet m) with None => None | Some w => Some (mount w (fl_disk F) (mb_self m)) end
  end.
(** The planet object vehicle [k] was made with. *)
Definition planet_of (k : nat) (F : fleet) : option nat := match nth_error (fl_members F) k with None => None | Some m => Some (mb_planet m) end.
Definition share (j k : nat) (F : fleet) : Prop := planet_of j F = planet_of k F.

(** The calls on vehicle [k] among [l], and the answers to them. *)
Fixpoint calls_of (k : nat) (l : list freq) : list creq :=
  match l with
  | [] => []
  | On j c :: l => if Nat.eqb j k then c :: calls_of k l else calls_of k l
  | AssignPlanet _ _ :: l => calls_of k l
  end.
Fixpoint answers_of {A} (k : nat) (l : list freq) (a : list A) : list A :=
  match l, a with
  | On j _ :: l, x :: a => if Nat.eqb j k then x :: answers_of k l a else answers_of k l a
  | AssignPlanet _ _ :: l, _ :: a => answers_of k l a
  | _, _ => []
  end.
Definition is_campaign (c : creq) : Prop := match c with RunMonteCarlo _ _ _ _ => True | _ => False end.
(** Calls that leave the planet object alone. *)
Definition keeps_planet (c : creq) : Prop := match c with RunMonteCarlo _ _ _ _ | LoadAtmosphere _ => False | _ => True end.
(** A call that does not reach vehicle [k] of [F]: on its planet object, only calls that leave the object alone. *)
Definition spares (k : nat) (F : fleet) (c : freq) : Prop :=
  match c with
  | On j c => j = k \/ ~ share j k F \/ keeps_planet c
  | AssignPlanet j _ => planet_of k F <> Some j
  end.
Definition elsewhere_no_campaign (k : nat) (c : freq) : Prop := match c with On j c => j = k \/ ~ is_campaign c | AssignPlanet _ _ => True end.
(** The same vehicle on another disk. *)
Definition on_disk (F : fs) (s : csess) : csess := mkCS (cs_g s) (cs_at s) F.
(** The same vehicle in another atmosphere. *)
Definition in_air (a : atmosphere) (s : csess) : csess :=
  let g := cs_g s in let q := gs_sess g in let o := se_obj q in let V := ob_veh o in
  mkCS (mkGS (mkSess (mkObj (mkVehicle (vh_mass V) (vh_beta V) (vh_LD V) (vh_A V) (vh_alpha V) (vh_RN V) (vh_planet V) a (vh_user V) (vh_CDMach V) (vh_Abar V) (vh_mbar V) (vh_CD V) (vh_CL V))
    (ob_init o) (ob_tol o) (ob_flight o) (ob_heat o)) (se_dm q)) (gs_P g) (gs_href g)) (cs_at s) (cs_fs s).
(** What happens at a bank angle that is not a number does not touch the planet object, like everything else. *)
Definition nan_spares_planet (X : gext) : Prop :=
  forall o t dt, let o' := fst (nan_run X o t dt) in vh_planet (ob_veh o') = vh_planet (ob_veh o) /\ vh_atm (ob_veh o') = vh_atm (ob_veh o).
