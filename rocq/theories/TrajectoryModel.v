(** Model of the trajectory propagation of /repo/AMAT/vehicle.py: initial state, integration,
    units, classification, truncation, loads (lines 516-577, 1673-2191, 2314-2336, 2430-2943).
    Simplification: the integrator returns finite numbers. *)
From Coq Require Import String List.
Require Import Verif.Base Verif.Numpy Verif.PlanetModel Verif.AeroModel Verif.HeatModel.

(** setInitialState, vehicle.py:547-554. *)
Record init := mkInit { h0_km : R; theta0_deg : R; phi0_deg : R; v0_kms : R; psi0_deg : R; gamma0_deg : R; drange0_km : R; heatLoad0 : R }.

(** Eight channels in the order t, r, theta, phi, v, psi, gamma, drange. *)
Record traj := mkTraj { c_t : list R; c_r : list R; c_theta : list R; c_phi : list R; c_v : list R; c_psi : list R; c_gamma : list R; c_drange : list R }.

(** numpy.arange(0, stop, step): ceil(stop/step) entries i*step.  A zero step raises (the length is infinite). *)
Definition ceil_nat (x : R) : nat := Z.to_nat (- Int_part (- x)).
Definition arange (stop step : R) : res (list R) :=
  if Reqb step 0 then Err ValueError else Ok (map (fun i => INR i * step) (seq 0 (ceil_nat (stop / step)))).

(** External integrators.  odeint(f, x0, times, rtol=atol=tol) returns one state per time or raises;
    solve_ivp(f, (0, t_end), x0, t_eval, events, rtol=atol=tol) returns the times reached and their states. *)
Record engine := mkEngine {
  odeint : (state -> res (option state)) -> state -> list R -> R -> res (list state);
  solve_ivp : (state -> res (option state)) -> R -> state -> list R -> (state -> R) -> R -> res (list R * list state) }.

Definition channels (ts : list R) (xs : list state) : traj :=
  mkTraj ts (map s_r xs) (map s_theta xs) (map s_phi xs) (map s_v xs) (map s_psi xs) (map s_gamma xs) (map s_drange xs).

(** solveTrajectory, vehicle.py:1726-1744. *)
Definition solveTrajectory (E : engine) (V : vehicle) (tol : R) (x0 : state) (t_sec dt delta : R) : res traj :=
  let tau := tau (vh_planet V) in
  letr tbar := arange ((t_sec + dt) / tau) (dt / tau) in
  letr xs := odeint E (fun y => EOM V y delta) x0 tbar tol in
  Ok (channels tbar xs).
(** hit_EFPA_90, vehicle.py:1746-1748. *)
Definition hit_EFPA_90 (y : state) : R := s_gamma y + 88 * PI / 180.
(** solveTrajectory2, vehicle.py:1803-1822. *)
Definition solveTrajectory2 (E : engine) (V : vehicle) (tol : R) (x0 : state) (t_sec dt delta : R) : res traj :=
  let tau := tau (vh_planet V) in
  letr tbar := arange ((t_sec + dt) / tau) (dt / tau) in
  match tbar with
  | [] => Err IndexError
  | _ => letr out := solve_ivp E (fun y => EOM V y delta) (last tbar 0) x0 tbar hit_EFPA_90 tol in
         Ok (channels (fst out) (snd out))
  end.

(** dimensionalize on arrays, planet.py:767-814. *)
Definition dimensionalize_traj (p : planet) (c : traj) : traj :=
  mkTraj (map (fun x => tau p * x) (c_t c)) (map (fun x => x * RP p) (c_r c)) (c_theta c) (c_phi c)
    (map (fun x => x * Vref p) (c_v c)) (c_psi c) (c_gamma c) (map (fun x => x * RP p) (c_drange c)).

(** The plot-unit channels in the order of convertToPlotUnits: t_min, h_km, v_kms, phi_deg, psi_deg,
    theta_deg, gamma_deg, drange_km. *)
Record plot := mkPlot { p_t : list R; p_h : list R; p_v : list R; p_phi : list R; p_psi : list R; p_theta : list R; p_gamma : list R; p_drange : list R }.
(** convertToPlotUnits, vehicle.py:1867-1876. *)
Definition convertToPlotUnits (p : planet) (t r v phi psi theta gamma drange : list R) : plot :=
  mkPlot (map (fun x => x / 60) t) (map (fun x => (x - RP p) * 1e-3) r) (map (fun x => x * 1e-3) v)
    (map (fun x => x * 180 / PI) phi) (map (fun x => x * 180 / PI) psi) (map (fun x => x * 180 / PI) theta)
    (map (fun x => x * 180 / PI) gamma) (map (fun x => x * 1e-3) drange).
(** convertToKPa and convertToPerCm2, vehicle.py:1894, 1912. *)
Definition convertToKPa (x : R) : R := x / 1000.
Definition convertToPerCm2 (x : R) : R := x / 10000.

(** classifyTrajectory, vehicle.py:1955-1997; max of an empty sequence raises ValueError. *)
Definition classifyTrajectory (p : planet) (r : list R) : res (nat * R) :=
  let h := map (computeH p) r in
  match h with
  | [] => Err ValueError
  | _ =>
      let h_max := list_max h in
      let h_min := list_min h in
      Ok (if Rleb 0 h_min && Rltb (h_skip p) h_max then (argmax_bool (map (fun x => Rltb (h_skip p) x) h), 1)
          else if Rleb (h_trap p) h_min && Rltb h_max (h_skip p) then (length h, 0)
          else if Rleb h_min (h_trap p) then (argmax_bool (map (fun x => Rltb x (h_trap p)) h), -1)
          else (length h, 0))
  end.

(** truncateTrajectory, vehicle.py:2054: eight positional slices x[0:index]. *)
Definition truncateTrajectory (a1 a2 a3 a4 a5 a6 a7 a8 : list R) (index : nat) :=
  (firstn index a1, firstn index a2, firstn index a3, firstn index a4, firstn index a5, firstn index a6, firstn index a7, firstn index a8).

(** Loads at one point, in Earth g: vehicle.py:2095-2096 (note acc_w*2.0) and 2138-2139. *)
Definition net_g (s n w : R) : option R := leto q := np_sqrt (s ^ 2 + n ^ 2 + w * 2) in Some (q / EARTHG).
Definition drag_g (s n w : R) : option R := leto q := np_sqrt (s ^ 2 + 0 * n ^ 2 + 0 * w * 2) in Some (q / EARTHG).
Definition zip3 (f : R -> R -> R -> option R) (a b c : list R) : list (option R) :=
  map (fun q => f (fst (fst q)) (snd (fst q)) (snd q)) (combine (combine a b) c).
Definition computeAccelerationLoad (V : vehicle) (rc vc : list R) (delta : R) : list (option R) :=
  zip3 net_g (a_svectorized V rc vc delta) (a_nvectorized V rc vc delta) (a_wvectorized V rc vc delta).
Definition computeAccelerationDrag (V : vehicle) (rc vc : list R) (delta : R) : list (option R) :=
  zip3 drag_g (a_svectorized V rc vc delta) (a_nvectorized V rc vc delta) (a_wvectorized V rc vc delta).

(** computeDynPres and computeStagPres, vehicle.py:2162-2165, 2186-2191. *)
Definition computeDynPres (V : vehicle) (r v : list R) : list R :=
  map (fun q => 0.5 * fst q * snd q ^ 2) (combine (rho_vec V r) v).
Definition computeStagPres (V : vehicle) (r v : list R) : list R :=
  map (fun q => fst q + snd q) (combine (pressurevectorized (vh_planet V) (pressure_int (vh_atm V)) r) (computeDynPres V r v)).
(** computeStagTemp, vehicle.py:2261-2268: reads self.CPCV, which no Vehicle has. *)
Definition computeStagTemp (V : vehicle) (r v : list R) : res (list R) := Err AttributeError.
(** computeEnergy, vehicle.py:2333-2336. *)
Definition computeEnergy (p : planet) (rc vc : list R) : list (option R) :=
  map (fun q => leto k := np_div (-1 * GM p) (fst q) in Some (k + 0.5 * snd q ^ 2)) (combine rc vc).

(** What a propagation stores, except the heat load. *)
Record flight := mkFlight {
  f_index : nat; f_exitflag : R; f_si : traj; f_plot : plot;
  f_acc_net : list (option R); f_acc_drag : list (option R); f_dyn : list R; f_stag : list R;
  f_qcon : list (option R); f_qrad : list (option R); f_qtot : list (option R) }.

(** The initial conditions in SI and nondimensional units, vehicle.py:2459-2475. *)
Definition entry_state (p : planet) (i : init) : state :=
  nonDimState p (mkState (computeR p (h0_km i * 1e3)) (deg (theta0_deg i)) (deg (phi0_deg i)) (v0_kms i * 1e3)
    (deg (psi0_deg i)) (deg (gamma0_deg i)) (drange0_km i * 1e3)).

(** vehicle.py:2482-2513: everything after the integration up to the heating rates. *)
Definition post (V : vehicle) (delta : R) (c0 : traj) : res flight :=
  let p := vh_planet V in
  let c := dimensionalize_traj p c0 in
  let q := convertToPlotUnits p (c_t c) (c_r c) (c_v c) (c_phi c) (c_psi c) (c_theta c) (c_gamma c) (c_drange c) in
  letr cls := classifyTrajectory p (c_r c) in
  let index := fst cls in
  let '(tc, rc, thetac, phic, vc, psic, gammac, drangec) :=
    truncateTrajectory (c_t c) (c_r c) (c_theta c) (c_phi c) (c_v c) (c_psi c) (c_gamma c) (c_drange c) index in
  let '(t_minc, h_kmc, v_kmsc, phi_degc, psi_degc, theta_degc, gamma_degc, drange_kmc) :=
    truncateTrajectory (p_t q) (p_h q) (p_v q) (p_phi q) (p_psi q) (p_theta q) (p_gamma q) (p_drange q) index in
  letr qc := qStagConvective V rc vc in
  letr qr := qStagRadiative V rc vc in
  Ok (mkFlight index (snd cls) (mkTraj tc rc thetac phic vc psic gammac drangec)
    (mkPlot t_minc h_kmc v_kmsc phi_degc psi_degc theta_degc gamma_degc drange_kmc)
    (computeAccelerationLoad V rc vc delta) (computeAccelerationDrag V rc vc delta)
    (map (fun x => x / 1.01325e5) (computeDynPres V rc vc)) (map (fun x => x / 1.01325e5) (computeStagPres V rc vc))
    qc qr (vsum qc qr)).

(** vehicle.py:2459-2513 (and 2546-2600 with solveTrajectory2): [solve] is the integration step. *)
Definition fly (solve : vehicle -> R -> state -> R -> R -> R -> res traj) (V : vehicle) (tol : R) (i : init) (t_sec dt delta_deg : R) : res flight :=
  let delta := deg delta_deg in
  letr c := solve V tol (entry_state (vh_planet V) i) t_sec dt delta in
  post V delta c.

(** The attributes of a Vehicle object that these methods read and write.  [ob_flight], [ob_heat]: None
    until a propagation has stored them. *)
Record vobj := mkObj { ob_veh : vehicle; ob_init : init; ob_tol : R; ob_flight : option flight; ob_heat : option (list (option R)) }.
Definition set_flight (o : vobj) (f : flight) : vobj := mkObj (ob_veh o) (ob_init o) (ob_tol o) (Some f) (ob_heat o).
Definition set_heat (o : vobj) (h : list (option R)) : vobj := mkObj (ob_veh o) (ob_init o) (ob_tol o) (ob_flight o) (Some h).

(** Store a flight, then the heat load accumulated from [h0]: vehicle.py:2491-2515, 2578-2602. *)
Definition store (o : vobj) (f : res flight) (h0 : R) : vobj * res unit :=
  match f with
  | Err e => (o, Err e)
  | Ok f =>
      let o1 := set_flight o f in
      match ocumtrapz (f_qtot f) (c_t (f_si f)) h0 with
      | Err e => (o1, Err e)
      | Ok h => (set_heat o1 h, Ok tt)
      end
  end.
(** propogateEntry, vehicle.py:2430-2515. *)
Definition propogateEntry (E : engine) (o : vobj) (t_sec dt delta_deg : R) : vobj * res unit :=
  store o (fly (solveTrajectory E) (ob_veh o) (ob_tol o) (ob_init o) t_sec dt delta_deg) 0.
(** propogateEntry2, vehicle.py:2517-2602. *)
Definition propogateEntry2 (E : engine) (o : vobj) (t_sec dt delta_deg : R) : vobj * res unit :=
  store o (fly (solveTrajectory2 E) (ob_veh o) (ob_tol o) (ob_init o) t_sec dt delta_deg) (heatLoad0 (ob_init o)).
