(** Model of the drag-modulation guidance of /repo/AMAT/vehicle.py: entry phase with the drag skirt, prediction
    after jettison, exit phase without it (lines 5981-6517, 6602-6865, 6867-7291).  Simplifications as in
    GuidanceModel.v. *)
From Coq Require Import String List.
Require Import Verif.Base Verif.Numpy Verif.PlanetModel Verif.AeroModel Verif.HeatModel Verif.TrajectoryModel
  Verif.OrbitScalarModel Verif.OrbiterModel Verif.OrbitModel Verif.CorridorModel Verif.GuidanceModel.

(** The vehicle flown by propogateEntry_utilD, vehicle.py:6613-6614 and 6786-6787: ballistic coefficient
    [b], and the drag coefficient that goes with it. *)
Definition ballistic (V : vehicle) (b : R) : vehicle := with_CD (with_beta V b) (vh_mass V / (b * vh_A V)).
(** predictApoapsisAltitudeKm_afterJettision, vehicle.py:6447-6459 and 6602-6693; version 2: 6505-6517 and
    6775-6865.  Version 1 integrates the heat load from zero (line 6689), version 2 from [heat0]. *)
Definition predictAfterJettison (two : bool) (E : engine) (dm : R * R) (V : vehicle) (tol : R)
    (h theta phi v gamma psi drange : R) (heat0 : option R) (t_sec dt delta_deg : R) (dens : R -> R) : res (option R) :=
  let b := fst dm * snd dm in
  if Reqb (b * vh_A V) 0 then Err ZeroDivisionError
  else predictApoapsis (if two then solveTrajectory2 E else solveTrajectory E) (ballistic V b) tol h theta phi v gamma psi drange
         (if two then heat0 else Some 0) t_sec dt delta_deg dens.

(** One cycle's entries, vehicle.py:6106-6119, 6139-6143: the qref array is not extended. *)
Definition steps_app_d (a : steps) (t hdot q h : R) (net drag net2 dens : option R) : steps :=
  let ts := a_t a ++ [t] in let hdots := a_hdot a ++ [hdot] in
  mkSteps ts (a_delta a ++ [Some 0]) hdots (a_hddot a ++ [hddot_of hdots ts]) (a_qref a) (a_q a ++ [q]) (a_h a ++ [h])
    ((a_acc a ++ [net]) ++ [net2]) (a_drag a ++ [drag]) (a_dens a ++ [dens]) (repeat (Some 0) (length ts)).
(** vehicle.py:6167-6174: the three break conditions. *)
Definition d_break (p : planet) (P : gparams) (apo : option R) (h_last : R) : bool :=
  (match apo with Some a => Rltb 0 a && Rltb a (g_apo P) | None => false end)
  || (match apo with Some a => Rltb (Rabs (a - g_apo P)) (g_apotol P) | None => false end)
  || Rltb (h_skip p / 1000 - 1) h_last.

(** One pass of the entry-phase loop, vehicle.py:6050-6174 (version 2: 6259-6383).  The bank angle is zero. *)
Definition d_step (two : bool) (E : engine) (X : gext) (dm : R * R) (P : gparams) (timeStep dt maxTime : R) (s : gst) : gst * res bool :=
  let o := s_obj s in let V := ob_veh o in let p := vh_planet V in
  let q := y_plot (s_hist s) in
  let h0_km := last (p_h q) 0 in let hi := h0_km * 1e3 in
  let vi := last (p_v q) 0 * 1e3 in let gammai := deg (last (p_gamma q) 0) in
  let qi := 0.5 * density p (density_int (vh_atm V)) hi * vi ^ 2 in
  let hdoti := vi * sin gammai in
  let Ji := match ob_heat o with Some l => last l None | None => None end in
  match propagate two E X (set_init o (last_init q Ji)) timeStep dt (Some 0) with
  | (o2, Err e) => (set_obj s o2, Err e)
  | (o2, Ok _) =>
      match results o2 with
      | Err e => (set_obj s o2, Err e)
      | Ok (f, heat) =>
          let H := hist_app (s_hist s) f heat in
          let q2 := y_plot H in
          let dm_ := measured_density V (last (y_drag H) None) vi (last (p_v q2) 0) in
          let a := steps_app_d (s_arr s) (last (p_t q) 0) hdoti qi h0_km (last (f_acc_net f) None)
                     (last (f_acc_drag f) None) (last (y_net H) None) dm_ in
          let s1 := mkGst o2 a H (s_dens s) (s_delta s) (s_vcur s) (s_hcur s) in
          if Rltb (g_hdotthr P) hdoti then
            match (match s_dens s with
                   | Some d => Ok d
                   | None => createDensityMeasuredFunction p (density_int (vh_atm V)) (nan_dens X) (a_h a) (a_dens a) (g_lowAlt P) (g_numLow P)
                   end) with
            | Err e => (s1, Err e)
            | Ok d =>
                let s2 := mkGst o2 a H (Some d) (s_delta s) (s_vcur s) (s_hcur s) in
                match predictAfterJettison two E dm (ob_veh o2) (ob_tol o2) (last (p_h q2) 0) (last (p_theta q2) 0)
                        (last (p_phi q2) 0) (last (p_v q2) 0) (last (p_gamma q2) 0) (last (p_psi q2) 0) (last (p_drange q2) 0)
                        (last (y_heat H) None) maxTime dt 0 d with
                | Err e => (s2, Err e)
                | Ok apo => (s2, Ok (d_break p P apo (last (p_h q2) 0)))
                end
            end
          else (s1, Ok (d_break p P (Some 0) (last (p_h q2) 0)))
      end
  end.

(** propogateEntryPhaseD and propogateEntryPhaseD2, vehicle.py:6002-6190, 6211-6399: the ballistic
    coefficient becomes beta1, one second is flown, then the loop.  With beta1 None the second assignment
    raises (the stored None is not modelled). *)
Definition propogateEntryPhaseD (two : bool) (E : engine) (X : gext) (dm : dm_params) (P : gparams) (timeStep dt maxTime : R) (n : nat)
    (o : vobj) (hdotref : list (option R)) : option (vobj * res gst) :=
  match dm with
  | None => Some (o, Err TypeError)
  | Some bb =>
      match set_ballistic o (fst bb) with
      | (o0, Err e) => Some (o0, Err e)
      | (o0, Ok _) =>
          match eg_start two E X o0 hdotref dt with
          | (o1, Err e) => Some (o1, Err e)
          | (_, Ok s) =>
              match while_loop (eg_guard P) (d_step two E X bb P timeStep dt maxTime) n s with
              | None => None
              | Some (s', Err e) => Some (s_obj s', Err e)
              | Some (s', Ok _) => Some (s_obj s', Ok s')
              end
          end
      end
  end.

(** One pass of the exit-phase loop, vehicle.py:6927-7026 (version 2: 7122-7221): zero bank, [Ji] the heat
    load at the start of the phase; the phase is left when the cycle started within 1 km of the skip
    altitude or below 20 km. *)
Definition dexit_step (two : bool) (E : engine) (X : gext) (timeStep dt : R) (hdot_ref : R) (Ji : option R) (s : gst) : gst * res bool :=
  let o := s_obj s in let p := vh_planet (ob_veh o) in
  let q := y_plot (s_hist s) in
  let hi := last (p_h q) 0 * 1e3 in
  let hdoti := last (p_v q) 0 * 1e3 * sin (deg (last (p_gamma q) 0)) in
  match propagate two E X (set_init o (last_init q Ji)) timeStep dt (Some 0) with
  | (o2, Err e) => (set_obj s o2, Err e)
  | (o2, Ok _) =>
      match results o2 with
      | Err e => (set_obj s o2, Err e)
      | Ok (f, heat) =>
          let H0 := hist_app (s_hist s) f heat in
          let H := mkHist (y_plot H0) (y_net H0) (y_drag (s_hist s)) (y_dyn H0) (y_stag H0) (y_qtot H0) (y_heat H0) in
          let a := steps_app_exit (s_arr s) (last (p_t q) 0) (Some 0) hdoti hdot_ref in
          if Rltb (h_skip p - 1e3) hi then (mkGst o2 a H (s_dens s) (s_delta s) (s_vcur s) (s_hcur s), Ok true)
          else if Rltb hi 20e3 then (mkGst o2 a H (s_dens s) (s_delta s) (s_vcur s) (s_hcur s), Ok true)
          else (mkGst o2 a H (s_dens s) (s_delta s) (s_vcur s) (last (p_h (y_plot H)) 0), Ok false)
      end
  end.
(** propogateExitPhaseD and propogateExitPhaseD2, vehicle.py:6882-7060, 7077-7250: the ballistic coefficient
    becomes beta1*betaRatio for the rest of the flight. *)
Definition propogateExitPhaseD (two : bool) (E : engine) (X : gext) (dm : dm_params) (P : gparams) (timeStep dt : R) (n : nat) (s : gst) : option (gst * res report) :=
  match dm with
  | None => Some (s, Err TypeError)
  | Some (b1, ratio) =>
      match set_ballistic (s_obj s) (b1 * ratio) with
      | (o0, Err e) => Some (set_obj s o0, Err e)
      | (o0, Ok _) =>
          let hdot_ref := last (a_hdot (s_arr s)) 0 in
          let Ji := last (y_heat (s_hist s)) None in
          match while_loop exit_guard (dexit_step two E X timeStep dt hdot_ref Ji) n (exit_start (set_obj s o0)) with
          | None => None
          | Some (s', Err e) => Some (s', Err e)
          | Some (s', Ok _) => Some (s', Ok (exit_report (vh_planet (ob_veh (s_obj s'))) P (y_plot (s_hist s'))))
          end
      end
  end.
(** propogateGuidedEntryD and propogateGuidedEntryD2, vehicle.py:7269-7270, 7290-7291. *)
Definition propogateGuidedEntryD (two : bool) (E : engine) (X : gext) (dm : dm_params) (P : gparams) (timeStepEntry timeStepExit dt maxTime : R)
    (n : nat) (o : vobj) (hdotref : list (option R)) : option (vobj * res (gst * gst * report)) :=
  match propogateEntryPhaseD two E X dm P timeStepEntry dt maxTime n o hdotref with
  | None => None
  | Some (o1, Err e) => Some (o1, Err e)
  | Some (_, Ok s) =>
      match propogateExitPhaseD two E X dm P timeStepExit dt n s with
      | None => None
      | Some (s', Err e) => Some (s_obj s', Err e)
      | Some (s', Ok r) => Some (s_obj s', Ok (s, s', r))
      end
  end.
