(** Witnesses of C106: level flight at circular speed above VENUS, flown in one go, in halves and guided. *)
From Coq Require Import String List.
Require Import Verif.Base Verif.Numpy Verif.PlanetModel Verif.AeroModel Verif.HeatModel Verif.TrajectoryModel Verif.TrajectorySpec Verif.TrajectoryProofs
  Verif.GuidanceModel Verif.GuidanceProofs Verif.PlanetProofs Verif.FlightSpec Verif.FlightProofs Verif.PropFlight Verif.PropTrajectory Verif.PropGuidance Verif.PropGuidanceEx
  Verif.CorridorModel Verif.DragModel Verif.PropDrag Verif.LegSpec Verif.PropLegs Verif.ExactSpec Verif.ExactProofs Verif.PropExact Verif.PropExactEx Verif.DetSpec Verif.DetProofs Verif.PropDet.
Import ListNotations.
Local Open Scope R_scope.

Lemma vac_lipschitz : lipschitz_air VENUS vac.
Proof. exists 0. intros h h' _ _. cbn [density_int vac]. rewrite Rminus_diag_eq, Rabs_R0 by auto. lra. Qed.
Lemma orbit_way : forall V i d T, vh_planet V = VENUS -> vh_atm V = vac -> vh_user V = false -> on_orbit i -> way V i d T (cruise (entry_state VENUS i)).
Proof.
  intros V i d T EP EA EU O. pose proof (on_orbit_entry _ O) as Ob. split; [rewrite EP; apply cruise_0|]. split; [apply (orbit_solves V); auto|].
  intros t _. unfold in_air. rewrite EP. cbn [cruise s_r]. destruct Ob as (-> & _). unfold rc. cbn [RP VENUS h_thres]. split; lra.
Qed.
(** Any stretch of it, with either version. *)
Lemma circ_run : forall (two : bool) V i tol secs dt d ts, vh_planet V = VENUS -> vh_atm V = vac -> vh_user V = false -> on_orbit i -> heatLoad0 i = 0 ->
  arange ((secs + dt) / tau VENUS) (dt / tau VENUS) = Ok ts -> nth_error ts 0 = Some 0 ->
  exists o f, (if two then propogateEntry2 else propogateEntry) circler (mkObj V i tol None None) secs dt d = (o, Ok tt) /\ ob_flight o = Some f /\
    p_t (f_plot f) = map (fun t => tau VENUS * t / 60) ts.
Proof.
  intros two V i tol secs dt d ts EP EA EU O H0 Ea Z. pose proof (on_orbit_entry _ O) as Ob. set (x0 := entry_state VENUS i) in *.
  assert (Hne : ts <> []) by (destruct ts; [discriminate|congruence]).
  destruct (level_run (if two then solveTrajectory2 circler else solveTrajectory circler) "VENUS" V i tol d ts (map (cruise x0) ts) secs dt None None) as (f & h & S & Ei & Ep); auto; try (rewrite EP; reflexivity).
  - apply map_length.
  - rewrite EP. intros x Hx. apply in_map_iff in Hx. destruct Hx as (t & <- & _). reflexivity.
  - rewrite EP. destruct O as (-> & _). cbn [h_trap h_skip VENUS]. lra.
  - assert (N : solves (fun y => EOM V y (deg d)) (cruise x0) (last ts 0) /\ (ts <> [] -> nth_error ts 0 = Some 0)) by (split; [apply orbit_solves; auto|auto]).
    destruct two; [unfold solveTrajectory2|unfold solveTrajectory]; rewrite EP, Ea; cbn [rbind]; fold x0.
    + destruct ts as [|t ts]; [congruence|]. cbn [solve_ivp circler]. destruct (holds _) as [_|N']; [reflexivity|contradiction].
    + cbn [odeint circler]. destruct (holds _) as [_|N']; [reflexivity|contradiction].
  - do 2 eexists. split; [|split; [|]].
    + destruct two; [unfold propogateEntry2; cbn [ob_veh ob_tol ob_init]; rewrite H0; exact S|exact S].
    + reflexivity.
    + rewrite EP in Ep. cbv zeta in Ep. rewrite Ep. cbn [convertToPlotUnits dimensionalize_traj channels p_t c_t]. rewrite map_map. reflexivity.
Qed.
Lemma venus_grid : forall n dt, 0 < dt -> exists ts, arange ((INR n * dt + dt) / tau VENUS) (dt / tau VENUS) = Ok ts /\ length ts = Datatypes.S n /\ nth_error ts 0 = Some 0 /\
  forall k, (k <= n)%nat -> tau VENUS * nth k ts 0 = INR k * dt.
Proof.
  intros n dt Hdt. destruct (ref_facts "VENUS" VENUS eq_refl) as (_ & _ & Ht & _).
  assert (Hd : 0 < dt / tau VENUS) by (apply Rdiv_lt_0_compat; lra).
  destruct (arange ((INR n * dt + dt) / tau VENUS) (dt / tau VENUS)) as [ts|] eqn:E; [|exfalso; unfold arange in E; revert E; rcases; [lra|discriminate]].
  pose proof (pos_INR n). destruct (C73_time_grid "VENUS" VENUS ts (INR n * dt) dt eq_refl Hdt ltac:(nra) E) as (N & Hne & L). rewrite last_nth in L.
  assert (Ln : (1 <= length ts)%nat) by (destruct ts; [congruence|cbn; lia]). rewrite N in L by lia. destruct L as (L1 & L2).
  assert (A : (n <= length ts - 1)%nat) by (apply INR_le; nra). assert (B : (length ts - 1 < n + 1)%nat) by (apply INR_lt; rewrite plus_INR; cbn [INR]; nra).
  assert (L : length ts = Datatypes.S n) by lia. exists ts. split; auto. split; auto. split; [|intros k Hk; apply N; lia].
  destruct ts as [|t ts]; [congruence|]. cbn. f_equal. specialize (N 0%nat ltac:(cbn; lia)). cbn in N. nra.
Qed.
Lemma circ_flight : forall (two : bool) V i tol n dt d, vh_planet V = VENUS -> vh_atm V = vac -> vh_user V = false -> on_orbit i -> heatLoad0 i = 0 -> 0 < dt ->
  exists o f, (if two then propogateEntry2 else propogateEntry) circler (mkObj V i tol None None) (INR n * dt) dt d = (o, Ok tt) /\ ob_flight o = Some f /\
    length (p_t (f_plot f)) = Datatypes.S n /\ forall k, (k <= n)%nat -> nth k (p_t (f_plot f)) 0 = INR k * dt / 60.
Proof.
  intros two V i tol n dt d EP EA EU O H0 Hdt. destruct (venus_grid n dt Hdt) as (ts & Ea & L & Z & N).
  destruct (circ_run two V i tol (INR n * dt) dt d ts EP EA EU O H0 Ea Z) as (o & f & P & F & Et). exists o, f. split; auto. split; auto. rewrite Et, map_length. split; auto.
  intros k Hk. rewrite (nth_map_lt _ _ _ 0) by lia. rewrite N by auto. reflexivity.
Qed.
Lemma tau_venus : 0 < tau VENUS.
Proof. apply (ref_facts "VENUS" VENUS eq_refl). Qed.
Lemma short_time : forall q k, nth k (p_t q) 0 * 60 <= 10 -> time_of VENUS q k <= 10 / tau VENUS.
Proof. intros q k H. unfold time_of. apply Rmult_le_compat_r; [apply Rlt_le, Rinv_0_lt_compat, tau_venus|exact H]. Qed.
(** The same second, by the first version in one step and by the second in two. *)
Example C106_witness : exists V o o' f f', engine_ok circler /\ exact circler /\ Planet "VENUS" = Ok (vh_planet V) /\ vh_user V = false /\ lipschitz_air (vh_planet V) (vh_atm V) /\
  way V start 0 (10 / tau VENUS) (cruise (entry_state VENUS start)) /\
  propogateEntry circler (mkObj V start 1 None None) 1 1 0 = (o, Ok tt) /\ ob_flight o = Some f /\
  propogateEntry2 circler (mkObj V start 2 None None) 1 0.5 0 = (o', Ok tt) /\ ob_flight o' = Some f' /\
  (1 < length (p_t (f_plot f)))%nat /\ (2 < length (p_t (f_plot f')))%nat /\ nth 1 (p_t (f_plot f)) 0 = nth 2 (p_t (f_plot f')) 0 /\ time_of VENUS (f_plot f) 1 <= 10 / tau VENUS.
Proof.
  destruct ship_made as (V & HV & EP & EA & EU & _).
  destruct (circ_flight false V start 1 1 1 0 EP EA EU start_on eq_refl ltac:(lra)) as (o & f & P & F & L & N). replace (INR 1 * 1) with 1 in P by (cbn; ring).
  destruct (circ_flight true V start 2 2 0.5 0 EP EA EU start_on eq_refl ltac:(lra)) as (o' & f' & P' & F' & L' & N'). replace (INR 2 * 0.5) with 1 in P' by (cbn; lra).
  exists V, o, o', f, f'. split; [apply circler_ok|]. split; [apply circler_exact|]. split; [rewrite EP; reflexivity|]. split; auto. split; [rewrite EP, EA; apply vac_lipschitz|].
  split; [apply orbit_way; auto using start_on|]. do 4 (split; auto). split; [lia|]. split; [lia|]. split; [rewrite N, N' by lia; cbn; lra|].
  apply short_time. rewrite N by lia. cbn. lra.
Qed.
Lemma shown_on_orbit : forall q k t i, shows VENUS q k (cruise (entry_state VENUS start) t) -> read_off q k i -> on_orbit i.
Proof.
  intros q k t i (A1 & A2 & _ & A4 & A5 & A6 & _) (B1 & _ & B3 & B4 & B5 & B6 & _). pose proof (on_orbit_entry _ start_on) as (O1 & O2 & O3 & O4 & O5).
  cbn [cruise s_r s_phi s_v s_psi s_gamma] in *. rewrite O1, O2, O3, O4, O5 in *. pose proof PI_RGT_0.
  assert (Z : forall a, a * PI / 180 = 0 -> a = 0) by (intros a Q; apply (Rmult_eq_reg_r (PI / 180)); [unfold Rdiv in *; lra|apply Rgt_not_eq; lra]).
  unfold on_orbit. rewrite B1, B3, B4, B5, B6. repeat split; try (apply Z; lra).
  - unfold rc in A1. cbn [RP VENUS] in A1. lra.
  - replace 1e-3 with (/ 1000) by lra. lra.
Qed.
(** Two seconds in one go, and one second after another. *)
Example C106_restart_witness : exists V i' o o' o'' f f' f'', way V start 0 (10 / tau VENUS) (cruise (entry_state VENUS start)) /\
  propogateEntry circler (mkObj V start 1 None None) 1 1 0 = (o, Ok tt) /\ ob_flight o = Some f /\ (1 < length (p_t (f_plot f)))%nat /\ read_off (f_plot f) 1 i' /\
  propogateEntry2 circler (mkObj V i' 1 None None) 1 1 0 = (o', Ok tt) /\ ob_flight o' = Some f' /\
  propogateEntry circler (mkObj V start 1 None None) 2 1 0 = (o'', Ok tt) /\ ob_flight o'' = Some f'' /\
  (1 < length (p_t (f_plot f')))%nat /\ (2 < length (p_t (f_plot f'')))%nat /\
  nth 1 (p_t (f_plot f)) 0 + nth 1 (p_t (f_plot f')) 0 = nth 2 (p_t (f_plot f'')) 0 /\ time_of VENUS (f_plot f'') 2 <= 10 / tau VENUS.
Proof.
  destruct ship_made as (V & HV & EP & EA & EU & _). assert (HP : Planet "VENUS" = Ok (vh_planet V)) by (rewrite EP; reflexivity).
  destruct (circ_flight false V start 1 1 1 0 EP EA EU start_on eq_refl ltac:(lra)) as (o & f & P & F & L & N). replace (INR 1 * 1) with 1 in P by (cbn; ring).
  destruct (circ_flight false V start 1 2 1 0 EP EA EU start_on eq_refl ltac:(lra)) as (o'' & f'' & P'' & F'' & L'' & N''). replace (INR 2 * 1) with 2 in P'' by (cbn; ring).
  assert (W : way V start 0 (10 / tau VENUS) (cruise (entry_state VENUS start))) by (apply orbit_way; auto using start_on).
  set (q := f_plot f) in *.
  set (i' := mkInit (nth 1 (p_h q) 0) (nth 1 (p_theta q) 0) (nth 1 (p_phi q) 0) (nth 1 (p_v q) 0) (nth 1 (p_psi q) 0) (nth 1 (p_gamma q) 0) (nth 1 (p_drange q) 0) 0).
  assert (Ro : read_off q 1 i') by (repeat split). assert (S1 : time_of VENUS q 1 <= 10 / tau VENUS) by (apply short_time; rewrite N by lia; cbn; lra).
  pose proof (C106_on_the_way false circler "VENUS" V start 1 1 1 0 o f _ _ circler_ok circler_exact HP ltac:(lra) EU ltac:(rewrite EP, EA; apply vac_lipschitz) W P F 1%nat ltac:(fold q; lia) ltac:(rewrite EP; exact S1)) as Sh.
  rewrite EP in Sh. fold q in Sh. pose proof (shown_on_orbit _ _ _ _ Sh Ro) as O'.
  destruct (circ_flight true V i' 1 1 1 0 EP EA EU O' eq_refl ltac:(lra)) as (o' & f' & P' & F' & L' & N'). replace (INR 1 * 1) with 1 in P' by (cbn; ring).
  exists V, i', o, o', o'', f, f', f''. do 3 (split; auto). split; [fold q; lia|]. do 5 (split; auto). split; [lia|]. split; [lia|]. split; [fold q; rewrite N, N', N'' by lia; cbn; lra|].
  apply short_time. rewrite N'' by lia. cbn. lra.
Qed.
(** The guided flight of C104, seen as two flights. *)
Example C106_drag_witness : exists V X o' s s' rep i', engine_ok circler /\ exact circler /\ Planet "VENUS" = Ok (vh_planet V) /\ vh_user V = false /\ lipschitz_air (vh_planet V) (vh_atm V) /\
  propogateGuidedEntryD false circler X (Some (50, 4)) no_glide 1 1 1 600 5 (mkObj V start 1 None None) [] = Some (o', Ok (s, s', rep)) /\
  let W b := mkVehicle (vh_mass V) b (vh_LD V) (vh_A V) (vh_alpha V) (vh_RN V) (vh_planet V) (vh_atm V) (vh_user V) (vh_CDMach V)
               (vh_Abar V) (vh_mbar V) (vh_mass V / (b * vh_A V)) (vh_CL V) in
  let q := y_plot (s_hist s) in let m := length (p_t q) in
  way (W 50) start 0 (10 / tau VENUS) (cruise (entry_state VENUS start)) /\ read_off q (m - 1) i' /\ 
  way (W (50 * 4)) i' 0 (10 / tau VENUS) (cruise (entry_state VENUS i')) /\ (m < length (p_t (y_plot (s_hist s'))))%nat.
Proof.
  destruct C104_drag_witness as (V & X & o' & s & s' & rep & HV & H & L & L0 & OI).
  destruct ship_made as (V' & HV' & EP & EA & EU & _). assert (V' = V) by congruence. subst V'. assert (HP : Planet "VENUS" = Ok (vh_planet V)) by (rewrite EP; reflexivity).
  destruct (drag_lens false circler X 50 4 no_glide "VENUS" 1 1 1 600 5 V start 1 [] o' s s' rep circler_ok circler_exact HP ltac:(lra) H) as ((E1 & E2 & E3 & E4 & E5 & E6 & E7) & (E1' & _)).
  exists V, X, o', s, s', rep, (last_init (y_plot (s_hist s)) None). split; [apply circler_ok|]. split; [apply circler_exact|]. split; auto. split; auto. split; [rewrite EP, EA; apply vac_lipschitz|].
  split; [exact H|]. cbv zeta. split; [apply orbit_way; auto using start_on|].
  split; [unfold read_off, last_init; cbn [h0_km theta0_deg phi0_deg v0_kms psi0_deg gamma0_deg drange0_km]; rewrite !last_is_nth, E1, E2, E3, E4, E5, E6, E7; repeat split; reflexivity|].
  split; [apply orbit_way; auto|]. lia.
Qed.
(** A table from the surface to the top of the atmosphere of VENUS. *)
Example C106_tables_witness : exists atm t lo hi, NoDup (map fst t) /\ TableSpec.inside t 0 /\ TableSpec.inside t (h_thres VENUS) /\
  (forall h, interp1d t lo hi h = Ok (density_int atm h)) /\ density_int atm 0 = 65 /\ density_int atm 90000 = 10.
Proof.
  set (t := [(0, 65); (90000, 10); (180000, 0)]). exists (mkAtm (interp_fun t 65 0) (fun _ => 0) (fun _ => 0) (fun _ => 0)), t, 65, 0.
  assert (S : sort_rows t = t). { unfold t. cbn. rcases; cbn; rcases; cbn; try lra; auto. }
  split; [cbn; repeat constructor; cbn; intros Hx; decompose [or] Hx; try lra; auto|].
  split; [exists (0, 65), (90000, 10); cbn; repeat split; auto; lra|]. split; [exists (0, 65), (180000, 0); cbn [h_thres VENUS]; cbn; repeat split; auto; lra|].
  split. { intros h. cbn [density_int]. unfold interp_fun, interp1d. rewrite S. unfold t. reflexivity. }
  cbn [density_int]. unfold interp_fun, interp1d. rewrite S. unfold t, last_x. cbn. split; rcases; try lra.
Qed.
