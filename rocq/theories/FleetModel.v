(** Model of several Vehicle objects of /repo/AMAT/vehicle.py in one session.  A Vehicle keeps the Planet object it was
    made with, not a copy of it (vehicle.py:352: self.planetObj = planetObj), so that vehicles made with the same object
    read the same constants and profiles; loading an atmosphere replaces the four profiles of that object (planet.py:276-308),
    a Monte Carlo campaign its density (vehicle.py:5784, 5889, 7498, 7605, 7720), and a user can assign its attributes, as the
    notebooks do (examples/iorio-paper: planet.h_skip = 1000e3).  All vehicles write to the same disk.
    Simplifications: those of CampaignModel.v; the vehicles and planets exist from the start and are named by their number;
    a call on a number that names nothing is not modelled (it gives [None], like a call that never returns). *)
From Coq Require Import String List.
Require Import Verif.Base Verif.Numpy Verif.PlanetModel Verif.AeroModel Verif.HeatModel Verif.TrajectoryModel Verif.OrbitScalarModel Verif.OrbiterModel Verif.OrbitModel
  Verif.CorridorModel Verif.GuidanceModel Verif.DragModel Verif.MonteModel Verif.SessionModel Verif.GuidedModel Verif.CampaignModel.
Local Open Scope list_scope.

(** A vehicle: the number of its planet object and everything it owns.  The planet, the atmosphere and the disk inside
    [mb_self] are never read: [mount] puts the current ones there.  vehicle.py:345-505. *)
Record member := mkMember { mb_planet : nat; mb_self : csess }.
Record fleet := mkFleet { fl_planets : list (planet * atmosphere); fl_members : list member; fl_disk : fs }.
Inductive freq :=
| On (k : nat) (c : creq)                          (* a call of a method of vehicle number k *)
| AssignPlanet (j : nat) (p : planet).             (* attributes of planet number j assigned by the user *)

(** self.planetObj.X reads the planet object as it is now. *)
Definition mount_veh (w : planet * atmosphere) (V : vehicle) : vehicle :=
  mkVehicle (vh_mass V) (vh_beta V) (vh_LD V) (vh_A V) (vh_alpha V) (vh_RN V) (fst w) (snd w) (vh_user V) (vh_CDMach V) (vh_Abar V) (vh_mbar V) (vh_CD V) (vh_CL V).
Definition mount (w : planet * atmosphere) (F : fs) (s : csess) : csess :=
  let g := cs_g s in let q := gs_sess g in let o := se_obj q in
  mkCS (mkGS (mkSess (mkObj (mount_veh w (ob_veh o)) (ob_init o) (ob_tol o) (ob_flight o) (ob_heat o)) (se_dm q)) (gs_P g) (gs_href g)) (cs_at s) F.
Fixpoint put {A} (n : nat) (x : A) (l : list A) : list A :=
  match l, n with
  | [], _ => []
  | _ :: l, O => x :: l
  | y :: l, Datatypes.S n => y :: put n x l
  end.
Definition veh_of (s : csess) : vehicle := ob_veh (se_obj (gs_sess (cs_g s))).
(** One call: what it does to the planet object stays there for every vehicle made with it. *)
Definition fserve (E : engine) (X : gext) (load : string -> res (list (list R))) (fuel : nat) (c : freq) (F : fleet) : option (fleet * res cans) :=
  match c with
  | On k c =>
      match nth_error (fl_members F) k with
      | None => None
      | Some m =>
          match nth_error (fl_planets F) (mb_planet m) with
          | None => None
          | Some w =>
              match cserve E X load fuel c (mount w (fl_disk F) (mb_self m)) with
              | None => None
              | Some (s', a) =>
                  Some (mkFleet (put (mb_planet m) (vh_planet (veh_of s'), vh_atm (veh_of s')) (fl_planets F)) (put k (mkMember (mb_planet m) s') (fl_members F)) (cs_fs s'), a)
              end
          end
      end
  | AssignPlanet j p =>
      match nth_error (fl_planets F) j with
      | None => None
      | Some w => Some (mkFleet (put j (p, snd w) (fl_planets F)) (fl_members F) (fl_disk F), Ok Done)
      end
  end.
Fixpoint frun (E : engine) (X : gext) (load : string -> res (list (list R))) (fuel : nat) (l : list freq) (F : fleet) : option (fleet * list (res cans)) :=
  match l with
  | [] => Some (F, [])
  | c :: l =>
      match fserve E X load fuel c F with
      | None => None
      | Some (F, a) => match frun E X load fuel l F with None => None | Some (F, as_) => Some (F, a :: as_) end
      end
  end.
