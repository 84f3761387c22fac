(** Witness of C125: beside level flight at circular speed above VENUS, flights of a ship with a little more lift, from a start a little off in longitude,
    at another bank angle, by an integrator that drifts. *)
From Coq Require Import String List.
Require Import Verif.Base Verif.Numpy Verif.PlanetModel Verif.AeroModel Verif.HeatModel Verif.TrajectoryModel Verif.TrajectorySpec Verif.TrajectoryProofs
  Verif.GuidanceModel Verif.GuidanceProofs Verif.PlanetProofs Verif.FlightSpec Verif.FlightProofs Verif.DerivTactic Verif.PropFlight Verif.PropTrajectory Verif.PropGuidance Verif.PropGuidanceEx
  Verif.ExactSpec Verif.ExactProofs Verif.PropExact Verif.PropExactEx Verif.DetSpec Verif.DetProofs Verif.PropDet Verif.PropDetEx Verif.NearSpec Verif.NearProofs Verif.PropNear.
Import ListNotations.
Local Open Scope R_scope.

(** Level flight whose longitude drifts by [eta] per unit of time. *)
Definition drift (eta : R) (x : state) (t : R) : state := mkState (s_r x) (s_theta x + (s_v x / s_r x + eta) * t) (s_phi x) (s_v x) (s_psi x) (s_gamma x) (s_drange x + s_v x * t).
Lemma drift_0 : forall eta x, drift eta x 0 = x.
Proof. intros eta []. unfold drift. cbn. f_equal; ring. Qed.
Definition drifter (eta : R) : engine := mkEngine
  (fun f x0 ts _ => if holds (nearly_solves eta f (drift eta x0) (last ts 0) /\ (ts <> [] -> nth_error ts 0 = Some 0)) then Ok (map (drift eta x0) ts) else Err OracleError)
  (fun f _ x0 ts _ _ => if holds (nearly_solves eta f (drift eta x0) (last ts 0) /\ (ts <> [] -> nth_error ts 0 = Some 0)) then Ok (ts, map (drift eta x0) ts) else Err OracleError).
Lemma drifter_ok : forall eta, engine_ok (drifter eta).
Proof.
  intros eta. split.
  - intros f x0 ts tol xs H. cbn in H. destruct (holds _) as [(S & Z)|]; [|discriminate]. injection H as <-. split; [apply map_length|].
    intros Hn. specialize (Z Hn). destruct ts as [|t ts]; [congruence|]. cbn in *. injection Z as ->. rewrite drift_0. reflexivity.
  - intros f te x0 ts ev tol us xs H. cbn in H. destruct (holds _) as [(S & Z)|]; [|discriminate]. injection H as <- <-. split; [apply map_length|].
    split; [exists (length ts); symmetry; apply firstn_all|].
    intros Hn. specialize (Z Hn). split; auto. destruct ts as [|t ts]; [congruence|]. cbn in *. injection Z as ->. rewrite drift_0. reflexivity.
Qed.
Lemma drifter_within : forall eta f, exact_within eta (drifter eta) f.
Proof.
  intros eta f. split.
  - intros x0 ts tol xs _ H. cbn in H. destruct (holds _) as [(S & Z)|]; [|discriminate]. injection H as <-. exists (drift eta x0). split; [apply drift_0|auto].
  - intros te x0 ts ev tol us xs _ H. cbn in H. destruct (holds _) as [(S & Z)|]; [|discriminate]. injection H as <- <-. exists (drift eta x0). split; [apply drift_0|auto].
Qed.
Lemma drift_solves : forall eta V x delta T, 0 <= eta -> vh_planet V = VENUS -> vh_atm V = vac -> vh_user V = false -> orbiting x -> nearly_solves eta (fun z => EOM V z delta) (drift eta x) T.
Proof.
  intros eta V x delta T He EP EA EU X. exists []. intros t Ht.
  assert (M : moving_by (drift eta x) t (mkState 0 (vc / rc + eta) 0 0 0 0 vc)).
  { destruct X as (Xr & Xph & Xv & Xps & Xg). unfold moving_by, drift. cbn [s_r s_theta s_phi s_v s_psi s_gamma s_drange]. rewrite Xr, Xv.
    repeat split; try apply dl_const; (eapply dl_eq; [apply (dl_plus (fun _ => _) (fun u => _ * u)); [apply dl_const|apply (dl_mult (fun _ => _) (fun u => u)); [apply dl_const|apply dl_id]]|ring]). }
  split.
  - destruct M as (M1 & M2 & M3 & M4 & M5 & M6 & M7).
    repeat split; apply derivable_continuous_pt; eexists; eassumption.
  - exists (mkState 0 (vc / rc) 0 0 0 0 vc). split; [apply orbit_rates; auto|]. intros _ _. eexists. split; [exact M|].
    apply dist_within. unfold dist. cbn [s_r s_theta s_phi s_v s_psi s_gamma s_drange]. rewrite (Rminus_diag_eq 0 0 eq_refl), (Rminus_diag_eq vc vc eq_refl), Rabs_R0.
    replace (vc / rc + eta - vc / rc) with eta by ring. rewrite Rabs_right; lra.
Qed.
Lemma drift_run : forall eta (two : bool) V i tol secs dt d ts, 0 <= eta -> vh_planet V = VENUS -> vh_atm V = vac -> vh_user V = false -> on_orbit i -> heatLoad0 i = 0 ->
  arange ((secs + dt) / tau VENUS) (dt / tau VENUS) = Ok ts -> nth_error ts 0 = Some 0 ->
  exists o f, (if two then propogateEntry2 else propogateEntry) (drifter eta) (mkObj V i tol None None) secs dt d = (o, Ok tt) /\ ob_flight o = Some f /\
    p_t (f_plot f) = map (fun t => tau VENUS * t / 60) ts.
Proof.
  intros eta two V i tol secs dt d ts He EP EA EU O H0 Ea Z. pose proof (on_orbit_entry _ O) as Ob. set (x0 := entry_state VENUS i) in *.
  assert (Hne : ts <> []) by (destruct ts; [discriminate|congruence]).
  destruct (level_run (if two then solveTrajectory2 (drifter eta) else solveTrajectory (drifter eta)) "VENUS" V i tol d ts (map (drift eta x0) ts) secs dt None None) as (f & h & S & Ei & Ep); auto; try (rewrite EP; reflexivity).
  - apply map_length.
  - rewrite EP. intros x Hx. apply in_map_iff in Hx. destruct Hx as (t & <- & _). reflexivity.
  - rewrite EP. destruct O as (-> & _). cbn [h_trap h_skip VENUS]. lra.
  - assert (N : nearly_solves eta (fun y => EOM V y (deg d)) (drift eta x0) (last ts 0) /\ (ts <> [] -> nth_error ts 0 = Some 0)) by (split; [apply drift_solves; auto|auto]).
    destruct two; [unfold solveTrajectory2|unfold solveTrajectory]; rewrite EP, Ea; cbn [rbind]; fold x0.
    + destruct ts as [|t ts]; [congruence|]. cbn [solve_ivp drifter]. destruct (holds _) as [_|N']; [reflexivity|contradiction].
    + cbn [odeint drifter]. destruct (holds _) as [_|N']; [reflexivity|contradiction].
  - do 2 eexists. split; [|split; [|]].
    + destruct two; [unfold propogateEntry2; cbn [ob_veh ob_tol ob_init]; rewrite H0; exact S|exact S].
    + reflexivity.
    + rewrite EP in Ep. cbv zeta in Ep. rewrite Ep. cbn [convertToPlotUnits dimensionalize_traj channels p_t c_t]. rewrite map_map. reflexivity.
Qed.
(** However small the allowance: an exact flight of the first ship, and a flight of another one. *)
Example C125_witness : exists V o f, engine_ok circler /\ exact circler /\ Planet "VENUS" = Ok (vh_planet V) /\ vh_user V = false /\ lipschitz_air (vh_planet V) (vh_atm V) /\
  way V start 0 (10 / tau VENUS) (cruise (entry_state VENUS start)) /\ propogateEntry circler (mkObj V start 1 None None) 1 1 0 = (o, Ok tt) /\ ob_flight o = Some f /\
  forall eta, 0 < eta -> exists x V' i' o' f', 0 < x /\ Vehicle 300 50 (0.3 + x) 4.5 0 1.5 VENUS vac false = Ok V' /\ engine_ok (drifter eta) /\
    exact_within eta (drifter eta) (fun z => EOM V' z (eta * PI / 180)) /\ vehicle_within eta V V' /\ start_within eta start i' /\ theta0_deg i' <> theta0_deg start /\ Rabs (0 - eta) <= eta /\
    propogateEntry2 (drifter eta) (mkObj V' i' 2 None None) 1 0.5 eta = (o', Ok tt) /\ ob_flight o' = Some f' /\
    (1 < length (p_t (f_plot f)))%nat /\ (2 < length (p_t (f_plot f')))%nat /\ nth 1 (p_t (f_plot f)) 0 = nth 2 (p_t (f_plot f')) 0 /\ time_of VENUS (f_plot f) 1 <= 10 / tau VENUS.
Proof.
  assert (SM : forall x, exists V, Vehicle 300 50 (0.3 + x) 4.5 0 1.5 VENUS vac false = Ok V /\ vh_planet V = VENUS /\ vh_atm V = vac /\ vh_user V = false /\
    vh_CD V = 300 / (50 * 4.5) /\ vh_CL V = (0.3 + x) * (300 / (50 * 4.5)) /\ vh_mbar V = 300 / 300 /\ vh_Abar V = 4.5 / (300 / (rho0 VENUS * RP VENUS))).
  { intros x. unfold Vehicle. rcases; try lra. eexists. repeat split. }
  destruct (SM 0) as (V & HV & EP & EA & EU & C1 & C2 & C3 & C4).
  destruct (circ_flight false V start 1 1 1 0 EP EA EU start_on eq_refl ltac:(lra)) as (o & f & P & F & L & N). replace (INR 1 * 1) with 1 in P by (cbn; ring).
  exists V, o, f. split; [apply circler_ok|]. split; [apply circler_exact|]. split; [rewrite EP; reflexivity|]. split; auto. split; [rewrite EP, EA; apply vac_lipschitz|].
  split; [apply orbit_way; auto using start_on|]. split; auto. split; auto. intros eta He.
  destruct (SM (eta / 1e8)) as (V' & HV' & EP' & EA' & EU' & C1' & C2' & C3' & C4').
  set (i' := mkInit 179.4 eta 0 (vc * Vref VENUS * 1e-3) 0 0 0 0).
  assert (O' : on_orbit i') by (unfold on_orbit, i'; cbn; repeat split).
  destruct (venus_grid 2 0.5 ltac:(lra)) as (ts & Ea & Lt & Z & Nt). replace (INR 2 * 0.5) with 1 in Ea by (cbn; lra).
  destruct (drift_run eta true V' i' 2 1 0.5 eta ts ltac:(lra) EP' EA' EU' O' eq_refl Ea Z) as (o' & f' & P' & F' & Et').
  assert (Abs0 : forall u : R, Rabs (u - u) <= eta) by (intros u; rewrite Rminus_diag_eq, Rabs_R0 by reflexivity; lra).
  exists (eta / 1e8), V', i', o', f'. split; [lra|]. split; auto. split; [apply drifter_ok|]. split; [apply drifter_within|]. split.
  { unfold vehicle_within. rewrite EP, EP', EA, EA', C1, C2, C3, C4, C1', C2', C3', C4'. split; auto. split; auto. split; [apply Abs0|]. split.
    - cbn [RP rho0 VENUS]. rewrite Rabs_left; lra.
    - intros h _. apply Abs0. }
  split. { unfold start_within, start, i'. cbn [h0_km theta0_deg phi0_deg v0_kms psi0_deg gamma0_deg drange0_km]. repeat split; try apply Abs0. rewrite Rabs_left; lra. }
  split; [unfold start, i'; cbn; lra|]. split; [rewrite Rabs_left; lra|]. split; auto. split; auto. split; [lia|]. split; [rewrite Et', map_length; lia|].
  split; [rewrite N by lia; rewrite Et', (nth_map_lt _ _ _ 0) by lia; rewrite Nt by lia; cbn; lra|]. apply short_time. rewrite N by lia. cbn. lra.
Qed.
