(** Model of a Vehicle object of /repo/AMAT/vehicle.py before its setters have been called: any sequence of the calls
    of GuidedModel.v on an object as the constructor leaves it.  The initial state and the drag-modulation parameters are
    None then (vehicle.py:361-379, 427-428); the solver tolerance and the guidance parameters do not exist as attributes.
    Every function is the one of GuidanceModel.v, DragModel.v or SessionModel.v with the reads of those attributes made
    explicit, in the order of the code.  Simplifications as there; in addition, a search on an object without initial state
    leaves its trial angle in gamma0_deg, which no call can read before setInitialState overwrites it, and is left out. *)
From Coq Require Import String List.
Require Import Verif.Base Verif.Numpy Verif.PlanetModel Verif.AeroModel Verif.HeatModel Verif.TrajectoryModel Verif.OrbitScalarModel Verif.OrbiterModel
  Verif.CorridorModel Verif.GuidanceModel Verif.DragModel Verif.SessionModel Verif.GuidedModel.
Import ListNotations.

(** Guidance attributes by the setter that creates them: maxRollRate (vehicle.py:4528); Ghdot, Gq (4785-4786); v_switch_kms,
    lowAlt_km, numPoints_lowAlt, hdot_threshold (4787-4790 and 5974-5977); the target orbit (4686-4688). *)
Record gatt := mkAtt { at_rate : option R; at_glide : option (R * R); at_phase : option (R * R * nat * R); at_target : option (R * R * R) }.
Definition getd {A} (d : A) (x : option A) : A := match x with Some a => a | None => d end.
(** The attributes as a full set of parameters, [P0] in place of the ones that do not exist. *)
Definition fillP (P0 : gparams) (a : gatt) : gparams :=
  let '(gh, gq) := getd (g_Ghdot P0, g_Gq P0) (at_glide a) in
  let '(v, l, n, h) := getd (g_vswitch P0, g_lowAlt P0, g_numLow P0, g_hdotthr P0) (at_phase a) in
  let '(pe, ap, tl) := getd (g_peri P0, g_apo P0, g_apotol P0) (at_target a) in
  mkG (getd (g_rate P0) (at_rate a)) gh gq v l n h pe ap tl.
Definition no_params : gparams := mkG 0 0 0 0 0 0 0 0 0 0.
(** What the code can read. *)
Definition filled (a : gatt) : gparams := fillP no_params a.
(** Reading an attribute that may not exist. *)
Definition read {A B} (x : option A) (r : res B) : res B := match x with Some _ => r | None => Err AttributeError end.

(** The glide loop, vehicle.py:4858-5004 (version 2: 5088-5237): the reference dynamic pressure (4886) comes before
    Ghdot and Gq (4898) and maxRollRate (4912, 4556); the target apoapsis (5000) is read at the end of every cycle. *)
Definition o_eg_step (two : bool) (E : engine) (X : gext) (a : gatt) (timeStep dt maxTime : R) (s : gst) : gst * res bool :=
  match at_glide a, at_rate a with
  | Some _, Some _ =>
      let q := eg_step two E X (filled a) timeStep dt maxTime s in (fst q, letr b := snd q in read (at_target a) (Ok b))
  | _, _ =>
      let V := ob_veh (s_obj s) in let q := y_plot (s_hist s) in
      (s, letr _ := qref_of V (last (p_v q) 0 * 1e3) (last (p_h q) 0 * 1e3 + RP (vh_planet V)) in Err AttributeError)
  end.
(** propogateEquilibriumGlide, vehicle.py:4825-5020: one second is flown before v_switch_kms is read (4854). *)
Definition o_glide (two : bool) (E : engine) (X : gext) (a : gatt) (timeStep dt maxTime : R) (n : nat) (o : vobj) (hdotref : list (option R))
  : option (vobj * res gst) :=
  match eg_start two E X o hdotref dt with
  | (o1, Err e) => Some (o1, Err e)
  | (_, Ok s) =>
      match at_phase a with
      | None => Some (s_obj s, Err AttributeError)
      | Some _ =>
          match while_loop (eg_guard (filled a)) (o_eg_step two E X a timeStep dt maxTime) n s with
          | None => None
          | Some (s', Err e) => Some (s_obj s', Err e)
          | Some (s', Ok _) => Some (s_obj s', Ok s')
          end
      end
  end.
(** The exit loop, vehicle.py:5313-5409: maxRollRate is read by the controller before the propagation. *)
Definition o_exit_step (two : bool) (E : engine) (X : gext) (a : gatt) (timeStep dt : R) (hdot_ref : R) (Ji : option R) (s : gst) : gst * res bool :=
  match at_rate a with
  | None => (s, Err AttributeError)
  | Some _ => exit_step two E X (filled a) timeStep dt hdot_ref Ji s
  end.
(** propogateExitPhase, vehicle.py:5269-5440: the target orbit is read for the report (5432-5440), after the flight. *)
Definition o_exit (two : bool) (E : engine) (X : gext) (a : gatt) (timeStep dt : R) (n : nat) (s : gst) : option (gst * res report) :=
  let hdot_ref := last (a_hdot (s_arr s)) 0 in
  let Ji := last (y_heat (s_hist s)) None in
  match while_loop exit_guard (o_exit_step two E X a timeStep dt hdot_ref Ji) n (exit_start s) with
  | None => None
  | Some (s', Err e) => Some (s', Err e)
  | Some (s', Ok _) => Some (s', read (at_target a) (Ok (exit_report (vh_planet (ob_veh (s_obj s'))) (filled a) (y_plot (s_hist s')))))
  end.
(** propogateGuidedEntry and propogateGuidedEntry2, vehicle.py:5650-5651, 5667-5668. *)
Definition o_guided (two : bool) (E : engine) (X : gext) (a : gatt) (timeStep dt maxTime : R) (n : nat) (o : vobj) (hdotref : list (option R))
  : option (vobj * res (gst * gst * report)) :=
  match o_glide two E X a timeStep dt maxTime n o hdotref with
  | None => None
  | Some (o1, Err e) => Some (o1, Err e)
  | Some (_, Ok s) =>
      match o_exit two E X a timeStep dt n s with
      | None => None
      | Some (s', Err e) => Some (s_obj s', Err e)
      | Some (s', Ok r) => Some (s_obj s', Ok (s, s', r))
      end
  end.

(** propogateEntryPhaseD, vehicle.py:6002-6190, 6211-6399: v_switch_kms is read after the first second (6046), the target
    apoapsis at the end of every cycle (6170). *)
Definition o_d_step (two : bool) (E : engine) (X : gext) (dm : R * R) (a : gatt) (timeStep dt maxTime : R) (s : gst) : gst * res bool :=
  let q := d_step two E X dm (filled a) timeStep dt maxTime s in (fst q, letr b := snd q in read (at_target a) (Ok b)).
Definition o_entryD (two : bool) (E : engine) (X : gext) (dm : dm_params) (a : gatt) (timeStep dt maxTime : R) (n : nat)
    (o : vobj) (hdotref : list (option R)) : option (vobj * res gst) :=
  match dm with
  | None => Some (o, Err TypeError)
  | Some bb =>
      match set_ballistic o (fst bb) with
      | (o0, Err e) => Some (o0, Err e)
      | (o0, Ok _) =>
          match eg_start two E X o0 hdotref dt with
          | (o1, Err e) => Some (o1, Err e)
          | (_, Ok s) =>
              match at_phase a with
              | None => Some (s_obj s, Err AttributeError)
              | Some _ =>
                  match while_loop (eg_guard (filled a)) (o_d_step two E X bb a timeStep dt maxTime) n s with
                  | None => None
                  | Some (s', Err e) => Some (s_obj s', Err e)
                  | Some (s', Ok _) => Some (s_obj s', Ok s')
                  end
              end
          end
      end
  end.
(** propogateExitPhaseD, vehicle.py:6882-7060, 7077-7250: the target orbit is read for the report (7052-7060). *)
Definition o_exitD (two : bool) (E : engine) (X : gext) (dm : dm_params) (a : gatt) (timeStep dt : R) (n : nat) (s : gst) : option (gst * res report) :=
  match propogateExitPhaseD two E X dm (filled a) timeStep dt n s with
  | Some (s', Ok r) => Some (s', read (at_target a) (Ok r))
  | r => r
  end.
(** propogateGuidedEntryD and propogateGuidedEntryD2, vehicle.py:7269-7270, 7290-7291. *)
Definition o_guidedD (two : bool) (E : engine) (X : gext) (dm : dm_params) (a : gatt) (timeStepEntry timeStepExit dt maxTime : R)
    (n : nat) (o : vobj) (hdotref : list (option R)) : option (vobj * res (gst * gst * report)) :=
  match o_entryD two E X dm a timeStepEntry dt maxTime n o hdotref with
  | None => None
  | Some (o1, Err e) => Some (o1, Err e)
  | Some (_, Ok s) =>
      match o_exitD two E X dm a timeStepExit dt n s with
      | None => None
      | Some (s', Err e) => Some (s_obj s', Err e)
      | Some (s', Ok r) => Some (s_obj s', Ok (s, s', r))
      end
  end.

(** The object with everything that may be missing. *)
Record osess := mkOS { os_veh : vehicle; os_init : option init; os_tol : option R; os_flight : option flight; os_heat : option (list (option R));
  os_dm : dm_params; os_att : gatt; os_href : list (option R) }.
(** Vehicle.__init__, vehicle.py:345-505: [V] has the constructor's arguments and what is computed from them. *)
Definition fresh (V : vehicle) (hdotref : list (option R)) : osess := mkOS V None None None None None (mkAtt None None None None) hdotref.
(** The object when its initial state is [i]. *)
Definition obj_with (s : osess) (i : init) : vobj := mkObj (os_veh s) i (getd 0 (os_tol s)) (os_flight s) (os_heat s).
Definition put_obj (s : osess) (o : vobj) : osess :=
  mkOS (ob_veh o) (Some (ob_init o)) (match os_tol s with Some _ => Some (ob_tol o) | None => None end) (ob_flight o) (ob_heat o) (os_dm s) (os_att s) (os_href s).
Definition put_veh (s : osess) (V : vehicle) : osess :=
  mkOS V (os_init s) (os_tol s) (os_flight s) (os_heat s) (os_dm s) (os_att s) (os_href s).
Definition put_att (s : osess) (a : gatt) : osess :=
  mkOS (os_veh s) (os_init s) (os_tol s) (os_flight s) (os_heat s) (os_dm s) a (os_href s).
Definition put_href (s : osess) (h : list (option R)) : osess :=
  mkOS (os_veh s) (os_init s) (os_tol s) (os_flight s) (os_heat s) (os_dm s) (os_att s) h.
(** self.tol is read in the call of the integrator, vehicle.py:1733, 1810: after the time grid, before the integration. *)
Definition no_tol : engine := mkEngine (fun _ _ _ _ => Err AttributeError) (fun _ _ _ _ _ _ => Err AttributeError).
Definition eng (E : engine) (s : osess) : engine := match os_tol s with Some _ => E | None => no_tol end.

(** Calls on an object without initial state.  self.h0_km*1.0E3 raises in the first line of a propagation (vehicle.py:2459,
    2546); what was assigned before stays: LD = 0 (3800), beta and CD (3994-3995, 4081-4082, 6002-6003). *)
Definition ballistic_only (s : osess) (b : R) : osess * res unit :=
  let q := set_ballistic (obj_with s (mkInit 0 0 0 0 0 0 0 0)) b in (put_veh s (ob_veh (fst q)), snd q).
Definition no_init_efpa (s : osess) : osess :=
  put_veh s (ob_veh (set_LD (obj_with s (mkInit 0 0 0 0 0 0 0 0)) 0)).
Definition no_init_drag (s : osess) (pick : R * R -> R) (k : osess -> osess) : osess * res gans :=
  match os_dm s with
  | None => (s, Err TypeError)
  | Some bb =>
      match ballistic_only s (pick bb) with
      | (s', Err e) => (s', Err e)
      | (s', Ok _) => (k s', Err TypeError)
      end
  end.
Definition no_init (c : req) (s : osess) : osess * res gans :=
  match c with
  | FindEFPALimitD _ _ _ _ _ _ _ => (no_init_efpa s, Err TypeError)
  | FindUnderShootLimitD _ _ _ _ _ _ _ => no_init_drag s (fun bb => fst bb * snd bb) no_init_efpa
  | ComputeTCWD _ _ _ _ _ _ _ => no_init_drag s (fun bb => fst bb * snd bb) no_init_efpa
  | FindOverShootLimitD _ _ _ _ _ _ _ => no_init_drag s fst no_init_efpa
  | _ => (s, Err TypeError)
  end.

Definition put_gst (s : osess) (q : option (vobj * res (gst * gst * report))) : option (osess * res gans) :=
  match q with
  | None => None
  | Some (o, Err e) => Some (put_obj s o, Err e)
  | Some (o, Ok (a, b, r)) => Some (put_href (put_obj s o) (a_hdotref (s_arr b)), Ok (Flown (see a) (see b) r))
  end.
(** One call; the setters as in GuidedModel.v and SessionModel.v. *)
Definition oserve (E : engine) (X : gext) (fuel : nat) (c : greq) (s : osess) : option (osess * res gans) :=
  let a := os_att s in let done s := Some (s, Ok (Answer Nothing)) in
  match c with
  | Plain (SetInitialState i) => done (mkOS (os_veh s) (Some i) (os_tol s) (os_flight s) (os_heat s) (os_dm s) a (os_href s))
  | Plain (SetSolverParams tol) => done (mkOS (os_veh s) (os_init s) (Some tol) (os_flight s) (os_heat s) (os_dm s) a (os_href s))
  | Plain (SetDragModulationVehicleParams b r) =>
      done (mkOS (os_veh s) (os_init s) (os_tol s) (os_flight s) (os_heat s) (Some (b, r)) a (os_href s))
  | Plain (ComputeHeatingForMultipleRN tc rc vc rns) =>
      let q := computeHeatingForMultipleRN (os_veh s) tc rc vc rns in Some (put_veh s (fst q), rmap (fun x => Answer (Rows x)) (snd q))
  | Plain c =>
      match os_init s with
      | None => Some (no_init c s)
      | Some i =>
          match serve (eng E s) fuel c (mkSess (obj_with s i) (os_dm s)) with
          | None => None
          | Some (s', r) => Some (put_obj s (se_obj s'), rmap Answer r)
          end
      end
  | SetMaxRollRate r => done (put_att s (mkAtt (Some r) (at_glide a) (at_phase a) (at_target a)))
  | SetTargetOrbitParams p ap t => done (put_att s (mkAtt (at_rate a) (at_glide a) (at_phase a) (Some (p, ap, t))))
  | SetEquilibriumGlideParams gh gq v l n h => done (put_att s (mkAtt (at_rate a) (Some (gh, gq)) (Some (v, l, n, h)) (at_target a)))
  | SetDragEntryPhaseParams v l n h => done (put_att s (mkAtt (at_rate a) (at_glide a) (Some (v, l, n, h)) (at_target a)))
  | PropogateGuidedEntry two ts dt mt =>
      match os_init s with
      | None => Some (s, Err TypeError)
      | Some i => put_gst s (o_guided two (eng E s) X a ts dt mt fuel (obj_with s i) (os_href s))
      end
  | PropogateGuidedEntryD two te tx dt mt =>
      match os_init s with
      | None => Some (no_init_drag s fst (fun s => s))
      | Some i => put_gst s (o_guidedD two (eng E s) X (os_dm s) a te tx dt mt fuel (obj_with s i) (os_href s))
      end
  end.
Fixpoint orun (E : engine) (X : gext) (fuel : nat) (l : list greq) (s : osess) : option (osess * list (res gans)) :=
  match l with
  | [] => Some (s, [])
  | c :: l =>
      match oserve E X fuel c s with
      | None => None
      | Some (s, a) => match orun E X fuel l s with None => None | Some (s, as_) => Some (s, a :: as_) end
      end
  end.
