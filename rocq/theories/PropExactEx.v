(** Witnesses of C104: an exact integrator, and flights it completes (level flight at circular speed above VENUS,
    through an atmosphere without density). *)
From Coq Require Import String List Classical.
Require Import Verif.Base Verif.Numpy Verif.PlanetModel Verif.AeroModel Verif.HeatModel Verif.TrajectoryModel Verif.TrajectorySpec Verif.TrajectoryProofs
  Verif.GuidanceModel Verif.GuidanceProofs Verif.PlanetProofs Verif.FlightSpec Verif.FlightProofs Verif.DerivTactic Verif.PropFlight Verif.PropTrajectory Verif.PropGuidance Verif.PropGuidanceEx
  Verif.CorridorModel Verif.DragModel Verif.PropDrag Verif.LegSpec Verif.PropLegs Verif.ExactSpec Verif.ExactProofs Verif.PropExact.
Import ListNotations.
Local Open Scope R_scope.

(** Excluded middle as a test. *)
Definition holds (P : Prop) : {P} + {~ P} :=
  match ClassicalDedekindReals.sig_not_dec P with left n => left (NNPP P n) | right n => right n end.
(** Level flight at constant speed. *)
Definition cruise (x : state) (t : R) : state := mkState (s_r x) (s_theta x + s_v x / s_r x * t) (s_phi x) (s_v x) (s_psi x) (s_gamma x) (s_drange x + s_v x * t).
Lemma cruise_0 : forall x, cruise x 0 = x.
Proof. intros []. unfold cruise. cbn. f_equal; ring. Qed.
(** The integrator that returns level flight where that is the exact solution, and raises elsewhere. *)
Definition circler : engine := mkEngine
  (fun f x0 ts _ => if holds (solves f (cruise x0) (last ts 0) /\ (ts <> [] -> nth_error ts 0 = Some 0)) then Ok (map (cruise x0) ts) else Err OracleError)
  (fun f _ x0 ts _ _ => if holds (solves f (cruise x0) (last ts 0) /\ (ts <> [] -> nth_error ts 0 = Some 0)) then Ok (ts, map (cruise x0) ts) else Err OracleError).
Lemma circler_ok : engine_ok circler.
Proof.
  split.
  - intros f x0 ts tol xs H. cbn in H. destruct (holds _) as [(S & Z)|]; [|discriminate]. injection H as <-. split; [apply map_length|].
    intros Hn. specialize (Z Hn). destruct ts as [|t ts]; [congruence|]. cbn in *. injection Z as ->. rewrite cruise_0. reflexivity.
  - intros f te x0 ts ev tol us xs H. cbn in H. destruct (holds _) as [(S & Z)|]; [|discriminate]. injection H as <- <-. split; [apply map_length|].
    split; [exists (length ts); symmetry; apply firstn_all|].
    intros Hn. specialize (Z Hn). split; auto. destruct ts as [|t ts]; [congruence|]. cbn in *. injection Z as ->. rewrite cruise_0. reflexivity.
Qed.
Lemma circler_exact : exact circler.
Proof.
  split.
  - intros f x0 ts tol xs _ H. cbn in H. destruct (holds _) as [(S & Z)|]; [|discriminate]. injection H as <-. exists (cruise x0). split; [apply cruise_0|auto].
  - intros f te x0 ts ev tol us xs _ H. cbn in H. destruct (holds _) as [(S & Z)|]; [|discriminate]. injection H as <- <-. exists (cruise x0). split; [apply cruise_0|auto].
Qed.

(** The orbit: 179.4 km above VENUS. *)
Definition vac : atmosphere := mkAtm (fun _ => 0) (fun _ => 200) (fun _ => 0) (fun _ => 300).
Definition rc : R := (179.4e3 + RP VENUS) / RP VENUS.
Definition sc : R := 1 / rc + 3 / 2 * J2 VENUS / rc ^ 3.
Definition vc : R := sqrt sc - rc * OMEGAbar VENUS.
Lemma rc_pos : 1 < rc < 2.
Proof. unfold rc. cbn [RP VENUS]. lra. Qed.
Lemma sc_pos : 0 < sc.
Proof.
  pose proof rc_pos. unfold sc. assert (0 < 1 / rc) by (apply Rdiv_lt_0_compat; lra).
  assert (0 < 3 / 2 * J2 VENUS / rc ^ 3) by (apply Rdiv_lt_0_compat; [cbn [J2 VENUS]; lra|apply pow_lt; lra]). lra.
Qed.
Lemma vc_pos : 0 < vc.
Proof. pose proof venus_spin. pose proof rc_pos. assert (0 < sqrt sc) by (apply sqrt_lt_R0, sc_pos). unfold vc. nra. Qed.
Definition orbiting (x : state) : Prop := s_r x = rc /\ s_phi x = 0 /\ s_v x = vc /\ s_psi x = 0 /\ s_gamma x = 0.
Lemma orbit_rates : forall V x delta, vh_planet V = VENUS -> vh_atm V = vac -> vh_user V = false -> orbiting x ->
  EOM V x delta = Ok (Some (mkState 0 (vc / rc) 0 0 0 0 vc)).
Proof.
  intros V x delta EP EA EU (Xr & Xph & Xv & Xps & Xg). pose proof rc_pos as Hr. pose proof vc_pos as Hv.
  assert (D : rhobar_at V (s_r x) (s_theta x) (s_phi x) = 0).
  { unfold rhobar_at, rhobar, rho2, rho. rewrite EP, EA, Xr. replace (density VENUS (density_int vac) (rc * RP VENUS - RP VENUS)) with 0; [unfold Rdiv; ring|].
    assert (rc * RP VENUS - RP VENUS = 179.4e3) by (unfold rc; cbn [RP VENUS]; lra). rewrite H. unfold density. cbn [h_thres VENUS density_int vac]. rcases; cbn [andb]; try lra. }
  assert (As : a_sbar V (s_r x) (s_theta x) (s_phi x) (s_v x) delta = Ok 0).
  { unfold a_sbar, Dbar, CD_scalar. rewrite EU. cbn [rbind]. rewrite D. f_equal. unfold Rdiv. ring. }
  assert (An : a_nbar V (s_r x) (s_theta x) (s_phi x) (s_v x) delta = 0) by (unfold a_nbar, Lbar; rewrite D; unfold Rdiv; ring).
  assert (Aw : a_wbar V (s_r x) (s_theta x) (s_phi x) (s_v x) delta = 0) by (unfold a_wbar, Lbar; rewrite D; unfold Rdiv; ring).
  destruct (EOM_some V x delta 0 As) as (d & Hd); rewrite ?Xr, ?Xv, ?Xph, ?Xg, ?cos_0; try lra.
  rewrite Hd. f_equal. f_equal. apply EOM_inv in Hd. destruct Hd as (_ & _ & _ & _ & asb & Ea & ->). rewrite As in Ea. injection Ea as <-.
  rewrite An, Aw, EP, Xr, Xph, Xv, Xps, Xg, sin_0, cos_0. unfold gp_of, gr_of. replace (J3 VENUS) with 0 by reflexivity.
  f_equal; try (field; repeat split; lra).
  assert (Hsq : sqrt sc * sqrt sc = sc) by (apply sqrt_sqrt; left; apply sc_pos).
    assert (E : (vc + rc * OMEGAbar VENUS) * (vc + rc * OMEGAbar VENUS) = 1 / rc + 3 / 2 * J2 VENUS / rc ^ 3). { rewrite <- (eq_refl : sc = 1 / rc + 3 / 2 * J2 VENUS / rc ^ 3). rewrite <- Hsq. unfold vc. ring. }
    half. set (q := OMEGAbar VENUS) in *. set (j := J2 VENUS) in *. clearbody q j. clear -E Hr Hv. generalize dependent vc. generalize dependent rc. intros r Hr v Hv E.
    apply Rmult_eq_reg_r with (r * v); [|nra]. rewrite Rmult_0_l.
    transitivity ((v + r * q) * (v + r * q) - (1 / r + 3 / 2 * j / r ^ 3)); [field; lra|]. rewrite E. ring.
Qed.
Lemma orbit_solves : forall V x delta T, vh_planet V = VENUS -> vh_atm V = vac -> vh_user V = false -> orbiting x -> solves (fun z => EOM V z delta) (cruise x) T.
Proof.
  intros V x delta T EP EA EU X. exists []. intros t Ht.
  assert (M : moving_by (cruise x) t (mkState 0 (vc / rc) 0 0 0 0 vc)).
  { destruct X as (Xr & Xph & Xv & Xps & Xg). unfold moving_by, cruise. cbn [s_r s_theta s_phi s_v s_psi s_gamma s_drange]. rewrite Xr, Xv.
    repeat split; try apply dl_const; (eapply dl_eq; [apply (dl_plus (fun _ => _) (fun u => _ * u)); [apply dl_const|apply (dl_mult (fun _ => _) (fun u => u)); [apply dl_const|apply dl_id]]|ring]). }
  split.
  - destruct M as (M1 & M2 & M3 & M4 & M5 & M6 & M7).
    repeat split; apply derivable_continuous_pt; eexists; eassumption.
  - exists (mkState 0 (vc / rc) 0 0 0 0 vc). split; auto. apply orbit_rates; auto.
Qed.
(** One second of it, from initial conditions on the orbit. *)
Definition on_orbit (i : init) : Prop := h0_km i = 179.4 /\ phi0_deg i = 0 /\ v0_kms i = vc * Vref VENUS * 1e-3 /\ psi0_deg i = 0 /\ gamma0_deg i = 0.
Lemma on_orbit_entry : forall i, on_orbit i -> orbiting (entry_state VENUS i).
Proof.
  intros i (H1 & H2 & H3 & H4 & H5). destruct (ref_facts "VENUS"%string VENUS eq_refl) as (Hv & _ & _ & _ & HRP & _).
  unfold orbiting, entry_state, nonDimState. cbn [s_r s_phi s_v s_psi s_gamma]. rewrite H1, H2, H3, H4, H5. unfold computeR, deg, rc. repeat split; field; lra.
Qed.
Lemma circ_second : forall X o d, vh_planet (ob_veh o) = VENUS -> vh_atm (ob_veh o) = vac -> vh_user (ob_veh o) = false -> on_orbit (ob_init o) ->
  exists f h, propagate false circler X o 1 1 (Some d) = (mkObj (ob_veh o) (ob_init o) (ob_tol o) (Some f) (Some h), Ok tt) /\
    (forall J, on_orbit (last_init (f_plot f) J)) /\ length (p_h (f_plot f)) = 2%nat /\ length (p_v (f_plot f)) = 2%nat /\ length (p_phi (f_plot f)) = 2%nat /\
    length (p_psi (f_plot f)) = 2%nat /\ length (p_gamma (f_plot f)) = 2%nat.
Proof.
  intros X o d EP EA EU O. pose proof (on_orbit_entry _ O) as Ob. destruct (ref_facts "VENUS"%string VENUS eq_refl) as (Hv & _ & _ & _ & HRP & _).
  destruct (two_points "VENUS" VENUS eq_refl) as (a & b & Ea).
  assert (Ha : a = 0). { destruct (arange_inv _ _ _ Ea) as (_ & N). specialize (N 0%nat ltac:(cbn; lia)). cbn in N. rewrite N. ring. } subst a.
  set (x0 := entry_state VENUS (ob_init o)) in *.
  destruct (level_run (solveTrajectory circler) "VENUS" (ob_veh o) (ob_init o) (ob_tol o) d [0; b] (map (cruise x0) [0; b]) 1 1 (ob_flight o) (ob_heat o)) as (f & h & S & Ei & Ep);
    try reflexivity; try discriminate; try (rewrite EP; reflexivity).
  - rewrite EP. intros x [<-|[<-|[]]]; reflexivity.
  - rewrite EP. destruct O as (-> & _). cbn [h_trap h_skip VENUS]. lra.
  - unfold solveTrajectory. rewrite EP, Ea. cbn [rbind]. fold x0. cbn [odeint circler]. destruct (holds _) as [_|N]; [reflexivity|]. exfalso. apply N. split; [|reflexivity]. apply orbit_solves; auto.
  - exists f, h. split; [cbn [propagate]; unfold propogateEntry; destruct o; exact S|].
    rewrite EP in Ep. cbv zeta in Ep. rewrite Ep. unfold convertToPlotUnits, dimensionalize_traj, channels, last_init, on_orbit. cbn [map p_h p_v p_phi p_psi p_gamma c_r c_v c_phi c_psi c_gamma last length h0_km phi0_deg v0_kms psi0_deg gamma0_deg cruise s_r s_phi s_v s_psi s_gamma].
    destruct Ob as (O1 & O2 & O3 & O4 & O5). rewrite O1, O2, O3, O4, O5. pose proof PI_neq0. repeat split; unfold rc; field; auto; lra.
Qed.

Lemma ship_made : exists V, Vehicle 300 50 0.3 4.5 0 1.5 VENUS vac false = Ok V /\ vh_planet V = VENUS /\ vh_atm V = vac /\ vh_user V = false /\ vh_A V = 4.5.
Proof. unfold Vehicle. rcases; try lra. eexists. repeat split. Qed.
Definition start : init := mkInit 179.4 0 0 (vc * Vref VENUS * 1e-3) 0 0 0 0.
Lemma start_on : on_orbit start.
Proof. unfold on_orbit, start. cbn. repeat split. Qed.
Lemma start_good : good_start steepest start.
Proof.
  pose proof C104_steepest. pose proof vc_pos. destruct (ref_facts "VENUS"%string VENUS eq_refl) as (Hv & _).
  unfold good_start, start. cbn [v0_kms phi0_deg gamma0_deg]. split; [|lra]. apply Rmult_lt_0_compat; [apply Rmult_lt_0_compat; auto|lra].
Qed.
Lemma vac_air : air VENUS vac.
Proof. intros h _. cbn. lra. Qed.
Example C104_witness : exists V o f, engine_ok circler /\ exact circler /\ Planet "VENUS" = Ok VENUS /\ Vehicle 300 50 0.3 4.5 0 1.5 VENUS vac false = Ok V /\ air VENUS vac /\
  good_start steepest start /\ propogateEntry circler (mkObj V start 1 None None) 1 1 0 = (o, Ok tt) /\ ob_flight o = Some f /\ length (p_h (f_plot f)) = 2%nat.
Proof.
  destruct ship_made as (V & HV & EP & EA & EU & _).
  destruct (circ_second (mkGext (fun o _ _ => (o, Err ValueError)) (fun _ _ _ => 0)) (mkObj V start 1 None None) 0 EP EA EU start_on) as (f & h & P & _ & L & _).
  exists V. do 2 eexists. split; [apply circler_ok|]. split; [apply circler_exact|]. split; [reflexivity|]. split; [exact HV|]. split; [apply vac_air|]. split; [apply start_good|].
  split; [exact P|]. split; [reflexivity|exact L].
Qed.
(** A guided flight of two legs: the switch speed is the flight speed, so the glide phase is the first second only. *)
Definition no_glide : gparams := mkG 30 0 1 (vc * Vref VENUS * 1e-3) 50 10 0 200 400 10.
Lemma circ_start : forall X o hr, vh_planet (ob_veh o) = VENUS -> vh_atm (ob_veh o) = vac -> vh_user (ob_veh o) = false -> on_orbit (ob_init o) ->
  exists o1 s0, eg_start false circler X o hr 1 = (o1, Ok s0) /\ ob_veh (s_obj s0) = ob_veh o /\ (forall J, on_orbit (last_init (y_plot (s_hist s0)) J)) /\
    eg_guard no_glide s0 = false /\ s_arr s0 = steps0 hr /\ length (p_h (y_plot (s_hist s0))) = 2%nat.
Proof.
  intros X o hr EP EA EU O. destruct (circ_second X o 0 EP EA EU O) as (f & h & P & OI & L & _).
  unfold eg_start. rewrite P. unfold results. cbn [ob_flight ob_heat rbind fst snd]. do 2 eexists. split; [reflexivity|]. cbn [s_obj ob_veh s_hist hist_of y_plot s_arr].
  repeat split; try apply (OI J); auto. unfold eg_guard. cbn [s_vcur hist_of y_plot no_glide g_vswitch].
  destruct (OI None) as (_ & _ & E & _). cbn [last_init v0_kms] in E. rewrite E. rcases; auto. lra.
Qed.
Example C104_lift_witness : exists V X o' s s' rep, nan_ok X /\ Vehicle 300 50 0.3 4.5 0 1.5 VENUS vac false = Ok V /\
  propogateGuidedEntry false circler X no_glide 1 1 600 5 (mkObj V start 1 None None) [] = Some (o', Ok (s, s', rep)) /\
  Forall (fun d => d <> None) (a_delta (s_arr s')) /\ length (p_h (y_plot (s_hist s'))) = 4%nat.
Proof.
  destruct ship_made as (V & HV & EP & EA & EU & _). set (X := mkGext (fun o _ _ => (o, Err ValueError)) (fun _ _ _ => 0)).
  destruct (circ_start X (mkObj V start 1 None None) [] EP EA EU start_on) as (o1 & s0 & H0 & V0 & OI & Gd & A0 & L0). cbn [ob_veh] in V0.
  set (J := last (y_heat (s_hist s0)) None).
  destruct (OI J) as (K1 & _). cbn [last_init h0_km] in K1.
  destruct (circ_second X (set_init (s_obj s0) (last_init (y_plot (s_hist s0)) J)) (psuedoController 30 0 0 1)) as (f & h & P & _ & L & _); try (cbn [set_init ob_veh]; rewrite V0; assumption).
  { cbn [set_init ob_init]. apply OI. }
  assert (EX : exists s2, exit_step false circler X no_glide 1 1 (last (a_hdot (s_arr s0)) 0) J (exit_start s0) = (s2, Ok true) /\
    a_delta (s_arr s2) = [Some 0; Some (psuedoController 30 0 0 1)] /\ length (p_h (y_plot (s_hist s2))) = 4%nat).
  { unfold exit_step, exit_start. cbn [s_obj s_arr s_hist s_dens s_delta s_vcur s_hcur]. rewrite A0. cbn [steps0 a_delta last controller obind no_glide g_rate].
    unfold controller. cbn [obind]. rewrite P. unfold results. cbn [ob_flight ob_heat]. rewrite V0, K1, EP. cbn [VENUS h_skip]. destruct (Rltb_spec (180000 - 10e3) (179.4 * 1e3)) as [Hx|Hx]; [|exfalso; lra].
    eexists. split; [reflexivity|]. cbn [s_arr steps_app_exit a_delta steps0 app s_hist y_plot hist_app p_h]. split; auto. rewrite app_length. lia. }
  destruct EX as (s2 & EX & ED & EL). exists V, X. do 4 eexists. split; [intros ? ? ? ? Hx; discriminate|]. split; [exact HV|]. split; [|split; [rewrite ED; repeat constructor; discriminate|exact EL]].
  unfold propogateGuidedEntry, propogateEquilibriumGlide. rewrite H0. cbn [while_loop]. rewrite Gd. unfold propogateExitPhase. fold J. cbn [while_loop].
  unfold exit_guard at 1. cbn [exit_start s_hcur s_obj]. fold (exit_start s0). rewrite V0, K1, EP. cbn [VENUS h_skip]. destruct (Rltb_spec 179.4 (180000 / 1e3)) as [Hx|Hx]; [|exfalso; lra]. rewrite EX. reflexivity.
Qed.
Example C104_drag_witness : exists V X o' s s' rep, Vehicle 300 50 0.3 4.5 0 1.5 VENUS vac false = Ok V /\
  propogateGuidedEntryD false circler X (Some (50, 4)) no_glide 1 1 1 600 5 (mkObj V start 1 None None) [] = Some (o', Ok (s, s', rep)) /\
  length (p_h (y_plot (s_hist s'))) = 4%nat /\ length (p_h (y_plot (s_hist s))) = 2%nat /\ forall J, on_orbit (last_init (y_plot (s_hist s)) J).
Proof.
  destruct ship_made as (V & HV & EP & EA & EU & EAr). set (X := mkGext (fun o _ _ => (o, Err ValueError)) (fun _ _ _ => 0)).
  assert (SB : forall o b, vh_A (ob_veh o) = 4.5 -> 0 < b -> set_ballistic o b = (set_veh o (ballistic (ob_veh o) b), Ok tt)).
  { intros o b Hb Hp. unfold set_ballistic. cbn [ob_veh set_veh]. destruct (Reqb_spec (b * vh_A (with_beta (ob_veh o) b)) 0) as [Hx|Hx]; [exfalso; cbn [with_beta vh_A] in Hx; rewrite Hb in Hx; lra|]. reflexivity. }
  set (W := ballistic V 50).
  destruct (circ_start X (mkObj W start 1 None None) [] EP EA EU start_on) as (o1 & s0 & H0 & V0 & OI & Gd & A0 & L0). cbn [ob_veh] in V0.
  set (J := last (y_heat (s_hist s0)) None). set (W2 := ballistic W (50 * 4)).
  destruct (OI J) as (K1 & _). cbn [last_init h0_km] in K1.
  destruct (circ_second X (set_init (set_veh (s_obj s0) W2) (last_init (y_plot (s_hist s0)) J)) 0 EP EA EU) as (f & h & P & _ & L & _).
  { cbn [set_init ob_init]. apply OI. }
  set (s1 := exit_start (set_obj s0 (set_veh (s_obj s0) W2))).
  assert (EX : exists s2, dexit_step false circler X 1 1 (last (a_hdot (s_arr s0)) 0) J s1 = (s2, Ok true) /\ length (p_h (y_plot (s_hist s2))) = 4%nat).
  { unfold dexit_step, s1, exit_start, set_obj. cbn [s_obj s_arr s_hist s_dens s_delta s_vcur s_hcur]. rewrite P. unfold results. cbn [ob_flight ob_heat set_veh ob_veh]. rewrite K1.
    change (vh_planet W2) with (vh_planet V). rewrite EP. cbn [VENUS h_skip]. destruct (Rltb_spec (180000 - 1e3) (179.4 * 1e3)) as [Hx|Hx]; [|exfalso; lra].
    eexists. split; [reflexivity|]. cbn [s_hist y_plot hist_app p_h]. rewrite app_length. lia. }
  destruct EX as (s2 & EX & EL). exists V, X, (s_obj s2), s0, s2. eexists. split; [exact HV|]. split; [|split; [exact EL|split; [exact L0|exact OI]]].
  unfold propogateGuidedEntryD, propogateEntryPhaseD. cbn [fst]. rewrite SB by (cbn [ob_veh]; auto; lra). cbn [ob_veh set_veh]. fold W.
  change (set_veh (mkObj V start 1 None None) W) with (mkObj W start 1 None None). rewrite H0. cbn [while_loop]. rewrite Gd. unfold propogateExitPhaseD.
  rewrite SB by (rewrite ?V0; auto; lra). rewrite V0. fold W2 J s1. cbn [while_loop].
  unfold exit_guard at 1. unfold s1 at 1 2. cbn [exit_start set_obj s_hcur s_obj s_hist set_veh ob_veh]. rewrite K1. change (vh_planet W2) with (vh_planet V). rewrite EP. cbn [VENUS h_skip].
  destruct (Rltb_spec 179.4 (180000 / 1e3)) as [Hx|Hx]; [|exfalso; lra]. rewrite EX. reflexivity.
Qed.
