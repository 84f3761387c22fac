(** Model of the lift-modulation guidance of /repo/AMAT/vehicle.py: measured density function, bank
    controller, onboard apoapsis prediction, equilibrium-glide and exit phases (lines 2604-2943 and
    4456-4790, 4792-5668).  Simplifications: the unused counter, t_current_min and minAlt are left out;
    x[-1] is [last], since every array read that way has an entry once a propagation has returned;
    signs of zeros are not tracked. *)
From Coq Require Import String List.
Require Import Verif.Base Verif.Numpy Verif.PlanetModel Verif.AeroModel Verif.HeatModel Verif.TrajectoryModel
  Verif.OrbitScalarModel Verif.OrbiterModel Verif.OrbitModel.

(** IEEE numbers: the guidance law divides by the dynamic pressure, and its saturation tests are applied to
    infinities and NaN. *)
Inductive ext := Fin (x : R) | PInf | NInf | NaN.
Definition xneg (a : ext) : ext := match a with Fin x => Fin (- x) | PInf => NInf | NInf => PInf | NaN => NaN end.
Definition xadd (a b : ext) : ext :=
  match a, b with
  | NaN, _ | _, NaN => NaN
  | Fin x, Fin y => Fin (x + y)
  | PInf, NInf | NInf, PInf => NaN
  | PInf, _ | _, PInf => PInf
  | NInf, _ | _, NInf => NInf
  end.
Definition xsub (a b : ext) : ext := xadd a (xneg b).
Definition xinf (positive : bool) : ext := if positive then PInf else NInf.
Definition xmul (a b : ext) : ext :=
  let scaled (x : R) (pos : bool) := if Reqb x 0 then NaN else xinf (Bool.eqb (Rltb 0 x) pos) in
  match a, b with
  | NaN, _ | _, NaN => NaN
  | Fin x, Fin y => Fin (x * y)
  | Fin x, PInf | PInf, Fin x => scaled x true
  | Fin x, NInf | NInf, Fin x => scaled x false
  | PInf, PInf | NInf, NInf => PInf
  | PInf, NInf | NInf, PInf => NInf
  end.
Definition xdiv (a b : ext) : ext :=
  match a, b with
  | NaN, _ | _, NaN => NaN
  | Fin x, Fin y => if Reqb y 0 then (if Reqb x 0 then NaN else xinf (Rltb 0 x)) else Fin (x / y)
  | Fin x, _ => Fin 0
  | PInf, Fin y => xinf (Rleb 0 y)
  | NInf, Fin y => xinf (Rltb y 0)
  | _, _ => NaN
  end.
(** Comparisons with a number: false on NaN. *)
Definition xgtb (a : ext) (y : R) : bool := match a with Fin x => Rltb y x | PInf => true | _ => false end.
Definition xltb (a : ext) (y : R) : bool := match a with Fin x => Rltb x y | NInf => true | _ => false end.

(** np.sign. *)
Definition np_sign (x : R) : R := if Rltb 0 x then 1 else if Rltb x 0 then -1 else 0.

(** psuedoController, vehicle.py:4556-4574: both returned values are the new angle.  [rate] is
    self.maxRollRate; the bankRate of line 4570 is not used. *)
Definition psuedoController (rate cmd ini timestep : R) : R :=
  if Rltb (rate * timestep) (Rabs (cmd - ini)) then ini + np_sign (cmd - ini) * rate * timestep
  else ini + np_sign (cmd - ini) * rate * timestep.
(** The same on angles that may be NaN. *)
Definition controller (rate : R) (cmd ini : option R) (timestep : R) : option R :=
  leto c := cmd in leto i := ini in Some (psuedoController rate c i timestep).

(** Parameters set by setMaxRollRate, setEquilibriumGlideParams and setTargetOrbitParams
    (vehicle.py:4528, 4785-4790, 4686-4688). *)
Record gparams := mkG { g_rate : R; g_Ghdot : R; g_Gq : R; g_vswitch : R; g_lowAlt : R; g_numLow : nat; g_hdotthr : R;
  g_peri : R; g_apo : R; g_apotol : R }.

(** vehicle.py:4810, 4886, 4895-4898 (and the same lines of version 2): surface gravity, reference dynamic
    pressure and cosine of the commanded bank angle.  mass, CL and A are Python floats, so line 4886 raises
    when CL*A is zero; the other divisions are by numpy numbers. *)
Definition surface_g (p : planet) : R := GM p / RP p ^ 2.
Definition balance (p : planet) (vi ri : R) : ext := xsub (Fin 1) (xdiv (Fin (vi ^ 2)) (Fin (surface_g p * ri))).
Definition qref_of (V : vehicle) (vi ri : R) : res ext :=
  let p := vh_planet V in
  if Reqb (0.75 * vh_CL V * vh_A V) 0 then Err ZeroDivisionError
  else Ok (xmul (Fin (-1 * vh_mass V * surface_g p / (0.75 * vh_CL V * vh_A V))) (balance p vi ri)).
Definition cosDeltaCMD (V : vehicle) (P : gparams) (vi ri qi hdoti : R) (qrefi : ext) : ext :=
  let p := vh_planet V in
  let cosDeltaEQGL := xmul (xdiv (Fin (vh_mass V * surface_g p)) (Fin (vh_CL V * qi * vh_A V))) (balance p vi ri) in
  xadd (xsub cosDeltaEQGL (xdiv (Fin (g_Ghdot P * hdoti)) (Fin qi)))
    (xmul (Fin (g_Gq P)) (xdiv (xsub (Fin qi) qrefi) (Fin qi))).
(** vehicle.py:4901-4910: saturation, arccos and degrees ([None] = NaN). *)
Definition bank_command (c : ext) : option R :=
  let DeltaCMD :=
    if xgtb c 1 then Some 0
    else if xltb c (-1) then Some PI
    else match c with Fin x => np_arccos x | _ => None end in
  leto d := DeltaCMD in Some (d * 180 / PI).

(** createDensityMeasuredFunction, vehicle.py:4488-4517.  [own_int] is the planet's own density function.
    The interpolant of non-empty data never raises.  Infinite or NaN data, and an undefined scale height,
    are left to the oracle [nan_dens]. *)
Definition interp_fun (t : table) (lo hi h : R) : R := match interp1d t lo hi h with Ok y => y | Err _ => 0 end.
Definition measured_tables (h d : list R) (lowAlt_km : R) (numLow : nat) (sH : R) : list R * list R :=
  let minAlt := list_min h * 1e3 in
  let hm := map (fun x => x * 1000) h in
  let upper := interp_fun (combine hm d) (list_max d) (list_min d) in
  let h_low := linspace (minAlt - 1000) (lowAlt_km * 1e3) numLow in
  (hm ++ h_low, d ++ map (fun x => upper minAlt * exp ((minAlt - x) / sH)) h_low).
Definition createDensityMeasuredFunction (p : planet) (own_int : R -> R) (nan_dens : list R -> list (option R) -> R -> R)
    (h_step : list R) (dens : list (option R)) (lowAlt_km : R) (numLow : nat) : res (R -> R) :=
  let h := tl h_step in let dd := tl dens in
  match h with
  | [] => Err ValueError
  | _ =>
      if negb (Nat.eqb (length h) (length dd)) then Err ValueError
      else
        let minAlt := list_min h * 1e3 in
        letr sH := scaleHeight p own_int minAlt (fun _ => 0) in
        match all_some dd, sH with
        | Some d, Some s =>
            if Reqb s 0 then Ok (nan_dens h dd)
            else let (ha, da) := measured_tables h d lowAlt_km numLow s in
                 Ok (interp_fun (combine ha da) (list_max da) (list_min da))
        | _, _ => Ok (nan_dens h dd)
        end
  end.

(** dummyVehicle and the deep copies of propogateEntry_util, vehicle.py:2620-2626, 2706-2712: the copy
    flies the given density function, its planet being otherwise the same. *)
Definition with_density (V : vehicle) (dens : R -> R) : vehicle :=
  mkVehicle (vh_mass V) (vh_beta V) (vh_LD V) (vh_A V) (vh_alpha V) (vh_RN V) (vh_planet V)
    (mkAtm dens (temp_int (vh_atm V)) (pressure_int (vh_atm V)) (sonic_int (vh_atm V))) (vh_user V) (vh_CDMach V)
    (vh_Abar V) (vh_mbar V) (vh_CD V) (vh_CL V).
(** The exit state as the guidance code passes it, from the last entries of the plot-unit channels:
    vehicle.py:4616-4619, 5397-5400. *)
Definition plot_last (p : planet) (q : plot) : exit_state :=
  mkExit (RP p + last (p_h q) 0 * 1e3) (deg (last (p_theta q) 0)) (deg (last (p_phi q) 0)) (last (p_v q) 0 * 1e3)
    (deg (last (p_gamma q) 0)) (deg (last (p_psi q) 0)).
(** propogateEntry_util and predictApoapsisAltitudeKm_withLiftUp, vehicle.py:2706-2786, 4611-4621; version 2:
    2866-2943, 4658-4670 ([solve] is the integration).  The heat load is accumulated from the heat load
    given.  [None]: a NaN heat load, which SciPy refuses like any other non-zero number. *)
Definition predictApoapsis (solve : vehicle -> R -> state -> R -> R -> R -> res traj) (V : vehicle) (tol : R)
    (h theta phi v gamma psi drange : R) (heat0 : option R) (t_sec dt delta_deg : R) (dens : R -> R) : res (option R) :=
  let W := with_density V dens in
  letr f := fly solve W tol (mkInit h theta phi v psi gamma drange 0) t_sec dt delta_deg in
  letr hl := (match heat0 with Some j => ocumtrapz (f_qtot f) (c_t (f_si f)) j | None => Err ValueError end) in
  Ok (compute_ApoapsisAltitudeKm (vh_planet V) (plot_last (vh_planet V) (f_plot f))).

(** The step arrays, vehicle.py:4814-4823, 4938-4949, 4969-4971.  [a_hdotref]: the attribute starts as None,
    which np.append treats as one entry. *)
Record steps := mkSteps { a_t : list R; a_delta : list (option R); a_hdot : list R; a_hddot : list (option R); a_qref : list ext;
  a_q : list R; a_h : list R; a_acc : list (option R); a_drag : list (option R); a_dens : list (option R); a_hdotref : list (option R) }.
Definition steps0 (hdotref : list (option R)) : steps :=
  mkSteps [0] [Some 0] [0] [Some 0] [Fin 0] [0] [0] [Some 0] [Some 0] [Some 0] hdotref.
(** The concatenated histories, vehicle.py:4827-4841, 4952-4967. *)
Record hist := mkHist { y_plot : plot; y_net : list (option R); y_drag : list (option R); y_dyn : list R; y_stag : list R;
  y_qtot : list (option R); y_heat : list (option R) }.
Definition hist_of (f : flight) (heat : list (option R)) : hist :=
  mkHist (f_plot f) (f_acc_net f) (f_acc_drag f) (f_dyn f) (f_stag f) (f_qtot f) heat.
Definition hist_app (H : hist) (f : flight) (heat : list (option R)) : hist :=
  let q := y_plot H in let c := f_plot f in
  mkHist (mkPlot (p_t q ++ map (fun x => x + last (p_t q) 0) (p_t c)) (p_h q ++ p_h c) (p_v q ++ p_v c) (p_phi q ++ p_phi c)
      (p_psi q ++ p_psi c) (p_theta q ++ p_theta c) (p_gamma q ++ p_gamma c) (p_drange q ++ p_drange c))
    (y_net H ++ f_acc_net f) (y_drag H ++ f_acc_drag f) (y_dyn H ++ f_dyn f) (y_stag H ++ f_stag f)
    (y_qtot H ++ f_qtot f) (y_heat H ++ heat).

(** State of the guidance loops: the vehicle object, the step arrays, the local histories, the measured
    density function (None while customFlag is 0), Delta_deg_ini, self.v_current_kms and the exit phase's
    h_current_km. *)
Record gst := mkGst { s_obj : vobj; s_arr : steps; s_hist : hist; s_dens : option (R -> R); s_delta : option R; s_vcur : R; s_hcur : R }.
Definition set_obj (s : gst) (o : vobj) : gst := mkGst o (s_arr s) (s_hist s) (s_dens s) (s_delta s) (s_vcur s) (s_hcur s).

(** External behaviour left open: a propagation at a NaN bank angle and a density function built from data
    that are not numbers. *)
Record gext := mkGext { nan_run : vobj -> R -> R -> vobj * res unit; nan_dens : list R -> list (option R) -> R -> R }.
(** Version 1 propagates with propogateEntry, version 2 with propogateEntry2. *)
Definition propagate (two : bool) (E : engine) (X : gext) (o : vobj) (t_sec dt : R) (delta_deg : option R) : vobj * res unit :=
  match delta_deg with
  | Some d => if two then propogateEntry2 E o t_sec dt d else propogateEntry E o t_sec dt d
  | None => nan_run X o t_sec dt
  end.
(** setInitialState from the last entries of the histories, vehicle.py:4858-4864, 4916.  A NaN heat load is
    represented by 1: SciPy refuses both. *)
Definition set_init (o : vobj) (i : init) : vobj := mkObj (ob_veh o) i (ob_tol o) (ob_flight o) (ob_heat o).
Definition last_init (q : plot) (J : option R) : init :=
  mkInit (last (p_h q) 0) (last (p_theta q) 0) (last (p_phi q) 0) (last (p_v q) 0) (last (p_psi q) 0) (last (p_gamma q) 0)
    (last (p_drange q) 0) (match J with Some j => j | None => 1 end).
(** The propagation's results as read back from the object: vehicle.py:4827-4841, 4919-4933. *)
Definition results (o : vobj) : res (flight * list (option R)) :=
  match ob_flight o, ob_heat o with Some f, Some h => Ok (f, h) | _, _ => Err TypeError end.

(** vehicle.py:4938-4949, 4969-4971: one cycle's entries ([drag], [net]: last entries of the cycle;
    [dens]: the density measured in it). *)
Definition hddot_of (hdots ts : list R) : option R :=
  let n := length hdots in let m := length ts in
  np_div (nth (n - 1) hdots 0 - nth (n - 2) hdots 0) (nth (m - 1) ts 0 * 60 - nth (m - 2) ts 0 * 60).
Definition steps_app (a : steps) (t : R) (delta : option R) (hdot : R) (qref : ext) (q h : R) (net drag net2 dens : option R) : steps :=
  let ts := a_t a ++ [t] in let hdots := a_hdot a ++ [hdot] in
  mkSteps ts (a_delta a ++ [delta]) hdots (a_hddot a ++ [hddot_of hdots ts]) (a_qref a ++ [qref]) (a_q a ++ [q]) (a_h a ++ [h])
    ((a_acc a ++ [net]) ++ [net2]) (a_drag a ++ [drag]) (a_dens a ++ [dens]) (repeat (Some 0) (length ts)).
(** vehicle.py:4970: density_mes. *)
Definition measured_density (V : vehicle) (drag : option R) (vi v_last_kms : R) : option R :=
  leto g := drag in np_div (2 * vh_mass V * g * EARTHG) (vh_CD V * vh_A V * (0.5 * (vi + v_last_kms * 1e3)) ^ 2).
(** vehicle.py:4997-5004: the three break conditions ([None]: the predicted apoapsis is NaN). *)
Definition eg_break (p : planet) (P : gparams) (apo : option R) (h_last : R) : bool :=
  (match apo with Some a => Rltb 0 a && Rltb a (g_apo P) | None => false end)
  || (match apo with Some a => Rltb (Rabs (a - g_apo P)) (g_apotol P) | None => false end)
  || Rltb (h_skip p / 1000 - 2) h_last.

(** One pass of the equilibrium-glide loop, vehicle.py:4858-5004 (version 2: 5088-5237).  The result says
    whether the loop is left by a break.  Both versions predict with the version 1 predictor. *)
Definition eg_step (two : bool) (E : engine) (X : gext) (P : gparams) (timeStep dt maxTime : R) (s : gst) : gst * res bool :=
  let o := s_obj s in let V := ob_veh o in let p := vh_planet V in
  let q := y_plot (s_hist s) in
  let h0_km := last (p_h q) 0 in let hi := h0_km * 1e3 in let ri := hi + RP p in
  let vi := last (p_v q) 0 * 1e3 in let gammai := deg (last (p_gamma q) 0) in
  let qi := 0.5 * density p (density_int (vh_atm V)) hi * vi ^ 2 in
  let hdoti := vi * sin gammai in
  match qref_of V vi ri with
  | Err e => (s, Err e)
  | Ok qrefi =>
      let Ji := match ob_heat o with Some l => last l None | None => None end in
      let delta := controller (g_rate P) (bank_command (cosDeltaCMD V P vi ri qi hdoti qrefi)) (s_delta s) timeStep in
      match propagate two E X (set_init o (last_init q Ji)) timeStep dt delta with
      | (o2, Err e) => (set_obj s o2, Err e)
      | (o2, Ok _) =>
          match results o2 with
          | Err e => (set_obj s o2, Err e)
          | Ok (f, heat) =>
              let H := hist_app (s_hist s) f heat in
              let q2 := y_plot H in
              let dm := measured_density V (last (y_drag H) None) vi (last (p_v q2) 0) in
              let a := steps_app (s_arr s) (last (p_t q) 0) delta hdoti qrefi qi h0_km (last (f_acc_net f) None)
                         (last (f_acc_drag f) None) (last (y_net H) None) dm in
              let s1 := mkGst o2 a H (s_dens s) delta (s_vcur s) (s_hcur s) in
              if Rltb (g_hdotthr P) hdoti then
                match (match s_dens s with
                       | Some d => Ok d
                       | None => createDensityMeasuredFunction p (density_int (vh_atm V)) (nan_dens X) (a_h a) (a_dens a) (g_lowAlt P) (g_numLow P)
                       end) with
                | Err e => (s1, Err e)
                | Ok d =>
                    let s2 := mkGst o2 a H (Some d) delta (s_vcur s) (s_hcur s) in
                    match predictApoapsis (solveTrajectory E) (ob_veh o2) (ob_tol o2) (last (p_h q2) 0) (last (p_theta q2) 0)
                            (last (p_phi q2) 0) (last (p_v q2) 0) (last (p_gamma q2) 0) (last (p_psi q2) 0) (last (p_drange q2) 0)
                            (last (y_heat H) None) maxTime dt 0 d with
                    | Err e => (s2, Err e)
                    | Ok apo => (s2, Ok (eg_break p P apo (last (p_h q2) 0)))
                    end
                end
              else (s1, Ok (eg_break p P (Some 0) (last (p_h q2) 0)))
          end
      end
  end.

(** A Python while loop whose body may break or raise; [None]: not finished within [n] passes. *)
Fixpoint while_loop (guard : gst -> bool) (body : gst -> gst * res bool) (n : nat) (s : gst) : option (gst * res unit) :=
  match n with
  | O => None
  | S n' =>
      if guard s then
        match body s with
        | (s', Err e) => Some (s', Err e)
        | (s', Ok true) => Some (s', Ok tt)
        | (s', Ok false) => while_loop guard body n' s'
        end
      else Some (s, Ok tt)
  end.

(** vehicle.py:4814-4849: the first second of flight and the initial loop state.  [hdotref]: what an earlier
    guided flight left in self.hdotref_array. *)
Definition eg_start (two : bool) (E : engine) (X : gext) (o : vobj) (hdotref : list (option R)) (dt : R) : vobj * res gst :=
  match propagate two E X o 1 dt (Some 0) with
  | (o1, Err e) => (o1, Err e)
  | (o1, Ok _) =>
      (o1, letr fh := results o1 in
           let H := hist_of (fst fh) (snd fh) in
           Ok (mkGst o1 (steps0 hdotref) H None (Some 0) (last (p_v (y_plot H)) 0) (last (p_h (y_plot H)) 0)))
  end.
Definition eg_guard (P : gparams) (s : gst) : bool := Rltb (g_vswitch P) (s_vcur s).
(** propogateEquilibriumGlide and propogateEquilibriumGlide2, vehicle.py:4807-5020, 5037-5253. *)
Definition propogateEquilibriumGlide (two : bool) (E : engine) (X : gext) (P : gparams) (timeStep dt maxTime : R) (n : nat)
    (o : vobj) (hdotref : list (option R)) : option (vobj * res gst) :=
  match eg_start two E X o hdotref dt with
  | (o1, Err e) => Some (o1, Err e)
  | (_, Ok s) =>
      match while_loop (eg_guard P) (eg_step two E X P timeStep dt maxTime) n s with
      | None => None
      | Some (s', Err e) => Some (s_obj s', Err e)
      | Some (s', Ok _) => Some (s_obj s', Ok s')
      end
  end.

(** vehicle.py:5370-5378: one exit-phase cycle's entries. *)
Definition steps_app_exit (a : steps) (t : R) (delta : option R) (hdot hdotref : R) : steps :=
  let ts := a_t a ++ [t] in let hdots := a_hdot a ++ [hdot] in
  mkSteps ts (a_delta a ++ [delta]) hdots (a_hddot a ++ [hddot_of hdots ts]) (a_qref a) (a_q a) (a_h a) (a_acc a) (a_drag a) (a_dens a)
    (a_hdotref a ++ [Some hdotref]).
(** One pass of the exit-phase loop, vehicle.py:5313-5409 (version 2: 5503-5600): full lift up is commanded;
    [Ji] is the heat load at the start of the phase.  acc_drag_g is not concatenated here. *)
Definition exit_step (two : bool) (E : engine) (X : gext) (P : gparams) (timeStep dt : R) (hdot_ref : R) (Ji : option R) (s : gst) : gst * res bool :=
  let o := s_obj s in let p := vh_planet (ob_veh o) in
  let q := y_plot (s_hist s) in
  let hi := last (p_h q) 0 * 1e3 in
  let hdoti := last (p_v q) 0 * 1e3 * sin (deg (last (p_gamma q) 0)) in
  let delta := controller (g_rate P) (Some 0) (s_delta s) timeStep in
  match propagate two E X (set_init o (last_init q Ji)) timeStep dt delta with
  | (o2, Err e) => (set_obj s o2, Err e)
  | (o2, Ok _) =>
      match results o2 with
      | Err e => (set_obj s o2, Err e)
      | Ok (f, heat) =>
          let H0 := hist_app (s_hist s) f heat in
          let H := mkHist (y_plot H0) (y_net H0) (y_drag (s_hist s)) (y_dyn H0) (y_stag H0) (y_qtot H0) (y_heat H0) in
          let a := steps_app_exit (s_arr s) (last (p_t q) 0) delta hdoti hdot_ref in
          if Rltb (h_skip p - 10e3) hi then (mkGst o2 a H (s_dens s) delta (s_vcur s) (s_hcur s), Ok true)
          else (mkGst o2 a H (s_dens s) delta (s_vcur s) (last (p_h (y_plot H)) 0), Ok false)
      end
  end.
Definition exit_guard (s : gst) : bool := Rltb (s_hcur s) (h_skip (vh_planet (ob_veh (s_obj s))) / 1e3).

(** vehicle.py:5427-5440: what the exit phase reports at the end. *)
Record report := mkReport { r_apo : option R; r_peri : option R; r_perc : option R; r_DVperi : option R; r_DVapo : option R }.
Definition exit_report (p : planet) (P : gparams) (q : plot) : report :=
  let x := plot_last p q in
  let apo := compute_ApoapsisAltitudeKm p x in let peri := compute_PeriapsisAltitudeKm p x in
  mkReport apo peri (leto a := apo in np_div ((a - g_apo P) * 100) (g_apo P))
    (leto pe := peri in leto a := apo in compute_periapsis_raise_DV p pe a (g_peri P))
    (leto a := apo in compute_apoapsis_raise_DV p (g_peri P) a (g_apo P)).
(** propogateExitPhase and propogateExitPhase2, vehicle.py:5269-5440, 5459-5630, from the state [s] left by
    the glide phase. *)
Definition exit_start (s : gst) : gst :=
  mkGst (s_obj s) (s_arr s) (s_hist s) (s_dens s) (last (a_delta (s_arr s)) None) (s_vcur s) (last (p_h (y_plot (s_hist s))) 0).
Definition propogateExitPhase (two : bool) (E : engine) (X : gext) (P : gparams) (timeStep dt : R) (n : nat) (s : gst) : option (gst * res report) :=
  let hdot_ref := last (a_hdot (s_arr s)) 0 in
  let Ji := last (y_heat (s_hist s)) None in
  match while_loop exit_guard (exit_step two E X P timeStep dt hdot_ref Ji) n (exit_start s) with
  | None => None
  | Some (s', Err e) => Some (s', Err e)
  | Some (s', Ok _) => Some (s', Ok (exit_report (vh_planet (ob_veh (s_obj s'))) P (y_plot (s_hist s'))))
  end.
(** propogateGuidedEntry and propogateGuidedEntry2, vehicle.py:5650-5651, 5667-5668.  [None]: not finished
    within [n] passes of either loop. *)
Definition propogateGuidedEntry (two : bool) (E : engine) (X : gext) (P : gparams) (timeStep dt maxTime : R) (n : nat)
    (o : vobj) (hdotref : list (option R)) : option (vobj * res (gst * gst * report)) :=
  match propogateEquilibriumGlide two E X P timeStep dt maxTime n o hdotref with
  | None => None
  | Some (o1, Err e) => Some (o1, Err e)
  | Some (_, Ok s) =>
      match propogateExitPhase two E X P timeStep dt n s with
      | None => None
      | Some (s', Err e) => Some (s_obj s', Err e)
      | Some (s', Ok r) => Some (s_obj s', Ok (s, s', r))
      end
  end.
