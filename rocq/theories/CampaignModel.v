(** Model of a session with Monte Carlo campaigns: any sequence of the calls of GuidedModel.v, of atmosphere loading, of
    the three campaign setups and of the five campaign runs on one Vehicle object of /repo/AMAT/vehicle.py.
    Simplifications: each run call carries the random numbers it is going to draw; the copies h0_km_ref .. of the
    initial state are the initial state itself (setInitialState writes both, vehicle.py:547-563, guided flights only
    change the state through it, and campaigns do not read gamma0_deg_ref); in a drag campaign set up for Earth only,
    the number of columns of the density file is not NPOS and neither is 1 (then NumPy cannot broadcast). *)
From Coq Require Import String List.
Require Import Verif.Base Verif.Numpy Verif.PlanetModel Verif.AeroModel Verif.HeatModel Verif.TrajectoryModel Verif.OrbitScalarModel Verif.OrbiterModel Verif.OrbitModel
  Verif.CorridorModel Verif.GuidanceModel Verif.DragModel Verif.MonteModel Verif.SessionModel Verif.GuidedModel.
Local Open Scope list_scope.

(** The campaign attributes of the object, by the setups that write them.  All three: NPOS, NMONTE, atmfiles, heightCol,
    densAvgCol, densTotalCol, heightInKmFlag, nominalEFPA and its deviation, vehicleCopy, dt, maxTimeSecs.  Lift and drag:
    densLowCol, densHighCol.  Earth: densSD_percCol.  Lift: nominalLD and its deviation, timeStep, atmSigmaFactor.  Drag
    and Earth: timeStepEntry, timeStepExit (and nominalbeta1, which nothing reads). *)
Record shared := mkShared { sh_npos : nat; sh_nmonte : nat; sh_files : list string; sh_height : nat; sh_avg : nat; sh_total : nat; sh_km : bool;
  sh_efpa : R * R; sh_copy : init; sh_dt : R; sh_maxTime : R }.
Record mcattrs := mkAttrs { at_shared : option shared; at_lowhigh : option (nat * nat); at_sd : option nat;
  at_lift : option ((R * R) * R * R); at_drag : option (R * R) }.
(** Vehicle.__init__, vehicle.py:478-498: None, or no attribute at all (densSD_percCol, atmSigmaFactor, timeStepEntry, timeStepExit). *)
Definition no_attrs : mcattrs := mkAttrs None None None None None.

Inductive creq :=
| Guided (c : greq)
| LoadAtmosphere (a : atmosphere)
| SetupMonteCarloSimulation (npos nmonte : nat) (files : list string) (hcol lcol acol hicol tcol : nat) (km : bool) (efpa LD : R * R) (timeStep dt maxTime sigmaFactor : R)
| SetupMonteCarloSimulationD (npos nmonte : nat) (files : list string) (hcol lcol acol hicol tcol : nat) (km : bool) (efpa beta1 : R * R) (stepEntry stepExit dt maxTime : R)
| SetupMonteCarloSimulationD_Earth (npos nmonte : nat) (files : list string) (hcol acol sdcol tcol : nat) (km : bool) (efpa beta1 : R * R) (stepEntry stepExit dt maxTime : R)
| RunMonteCarlo (m : mode) (N : nat) (main : path) (rnd : random).

Record csess := mkCS { cs_g : gsess; cs_at : mcattrs; cs_fs : fs }.
Inductive cans := GAnswer (a : gans) | Done.

(** The attributes a run of kind [m] reads, if all have been set. *)
Definition setup_for (m : mode) (a : mcattrs) : option mc_setup :=
  match at_shared a with
  | None => None
  | Some c =>
      let mk lh sd LD sigma te tx := mkMC (sh_npos c) (sh_nmonte c) (sh_files c) (sh_height c) (fst lh) (sh_avg c) (snd lh) sd (sh_total c) (sh_km c)
        (sh_efpa c) LD (0, 0) sigma (sh_copy c) te tx (sh_dt c) (sh_maxTime c) in
      match m with
      | MC | MC2 => match at_lowhigh a, at_lift a with Some lh, Some (LD, ts, sg) => Some (mk lh 0%nat LD sg ts ts) | _, _ => None end
      | MCD | MCD2 => match at_lowhigh a, at_drag a with Some lh, Some (te, tx) => Some (mk lh 0%nat (0, 0) 1 te tx) | _, _ => None end
      | MCD_Earth => match at_sd a, at_drag a with Some sd, Some (te, tx) => Some (mk (0%nat, 0%nat) sd (0, 0) 1 te tx) | _, _ => None end
      end
  end.
(** The first run when an attribute is missing: how far it gets, and what it raises.  vehicle.py:5774-5778, 7482-7506, 7703-7718.
    random.choice(None) raises TypeError; a missing attribute raises AttributeError where it is read. *)
Definition broken_run (m : mode) (load : string -> res (list (list R))) (a : mcattrs) (rnd : random) (s : mem) : mem * exn :=
  match at_shared a with
  | None => (s, TypeError)
  | Some c =>
      let S lh := mkMC (sh_npos c) (sh_nmonte c) (sh_files c) (sh_height c) (fst lh) (sh_avg c) (snd lh) 0 (sh_total c) (sh_km c)
        (sh_efpa c) (0, 0) (0, 0) 1 (sh_copy c) 0 0 (sh_dt c) (sh_maxTime c) in
      match m with
      | MC | MC2 =>
          match (letr f := choice (sh_files c) (py rnd 0) in letr pr := randint1 (sh_nmonte c) (py rnd 1) in normal (sh_efpa c) (nz rnd 0)) with
          | Err e => (s, e)
          | Ok _ => (s, AttributeError)                             (* atmSigmaFactor *)
          end
      | MCD | MCD2 | MCD_Earth =>
          let lh := match at_lowhigh a with Some lh => lh | None => (sh_avg c, sh_avg c) end in
          match draws m (S lh) rnd 0 with
          | Err e => (s, e)
          | Ok d =>
              match m with
              | MCD_Earth => (s, AttributeError)                    (* densSD_percCol *)
              | _ =>
                  match at_lowhigh a with
                  | None => match load_rows false (S lh) load (d_file d) with
                            | Err e => (s, e)
                            | Ok _ => (s, ValueError)               (* ATM[:, None] has three axes *)
                            end
                  | Some _ =>
                      match load_density false (S lh) load d with
                      | Err e => (s, e)
                      | Ok f =>
                          let o := v_obj s in let i := sh_copy c in
                          (mkMem (mkObj (with_density (ob_veh o) f)
                                    (mkInit (h0_km i) (theta0_deg i) (phi0_deg i) (v0_kms i) (psi0_deg i) (d_efpa d) (drange0_km i) (heatLoad0 i))
                                    (ob_tol o) (ob_flight o) (ob_heat o)) (v_href s), AttributeError) (* timeStepEntry *)
                      end
                  end
              end
          end
      end
  end.
Definition run_campaign (m : mode) (W : world) (a : mcattrs) (rnd : random) (N : nat) (main : path) (s : mem) (F : fs) : camp * option (res unit) :=
  match setup_for m a with
  | Some U => runMonteCarlo m W U rnd N main s F
  | None =>
      match perform (mkCamp s (map (fun _ => repeat (Some 0) N) summary_names) F []) (fun F => makedirs F main) with
      | (s1, Err e) => (s1, Some (Err e))
      | (s1, Ok _) =>
          match N with
          | O => (s1, Some (Ok tt))
          | _ => let (mm, e) := broken_run m (w_load W) a rnd s in (mkCamp mm (k_arr s1) (k_fs s1) (k_ops s1), Some (Err e))
          end
      end
  end.

Definition with_atm (V : vehicle) (a : atmosphere) : vehicle :=
  mkVehicle (vh_mass V) (vh_beta V) (vh_LD V) (vh_A V) (vh_alpha V) (vh_RN V) (vh_planet V) a (vh_user V) (vh_CDMach V) (vh_Abar V) (vh_mbar V) (vh_CD V) (vh_CL V).
(** One call.  loadAtmosphereModel on the vehicle's planet object, planet.py:276-308 (that returns); the setups vehicle.py:5716-5739,
    7347-7370, 7423-7445 (vehicleCopy: the initial state of the moment); the runs vehicle.py:5742-5950, 7448-7776. *)
Definition cserve (E : engine) (X : gext) (load : string -> res (list (list R))) (fuel : nat) (c : creq) (s : csess) : option (csess * res cans) :=
  let g := cs_g s in let q := gs_sess g in let o := se_obj q in let a := cs_at s in
  match c with
  | Guided c => match gserve E X fuel c g with
                | None => None
                | Some (g', x) => Some (mkCS g' a (cs_fs s), rmap GAnswer x)
                end
  | LoadAtmosphere at_ =>
      Some (mkCS (mkGS (mkSess (mkObj (with_atm (ob_veh o) at_) (ob_init o) (ob_tol o) (ob_flight o) (ob_heat o)) (se_dm q)) (gs_P g) (gs_href g)) a (cs_fs s), Ok Done)
  | SetupMonteCarloSimulation npos nmonte files hc lc ac hic tc km efpa LD ts dt mt sg =>
      Some (mkCS g (mkAttrs (Some (mkShared npos nmonte files hc ac tc km efpa (ob_init o) dt mt)) (Some (lc, hic)) (at_sd a) (Some (LD, ts, sg)) (at_drag a)) (cs_fs s), Ok Done)
  | SetupMonteCarloSimulationD npos nmonte files hc lc ac hic tc km efpa _ te tx dt mt =>
      Some (mkCS g (mkAttrs (Some (mkShared npos nmonte files hc ac tc km efpa (ob_init o) dt mt)) (Some (lc, hic)) (at_sd a) (at_lift a) (Some (te, tx))) (cs_fs s), Ok Done)
  | SetupMonteCarloSimulationD_Earth npos nmonte files hc ac sd tc km efpa _ te tx dt mt =>
      Some (mkCS g (mkAttrs (Some (mkShared npos nmonte files hc ac tc km efpa (ob_init o) dt mt)) (at_lowhigh a) (Some sd) (at_lift a) (Some (te, tx))) (cs_fs s), Ok Done)
  | RunMonteCarlo m N main rnd =>
      match run_campaign m (mkWorld E X (gs_P g) (se_dm q) load fuel) a rnd N main (mkMem o (gs_href g)) (cs_fs s) with
      | (_, None) => None
      | (st, Some r) =>
          Some (mkCS (mkGS (mkSess (v_obj (k_mem st)) (se_dm q)) (gs_P g) (v_href (k_mem st))) a (k_fs st), rmap (fun _ => Done) r)
      end
  end.
Fixpoint crun (E : engine) (X : gext) (load : string -> res (list (list R))) (fuel : nat) (l : list creq) (s : csess) : option (csess * list (res cans)) :=
  match l with
  | [] => Some (s, [])
  | c :: l =>
      match cserve E X load fuel c s with
      | None => None
      | Some (s, a) => match crun E X load fuel l s with None => None | Some (s, as_) => Some (s, a :: as_) end
      end
  end.
