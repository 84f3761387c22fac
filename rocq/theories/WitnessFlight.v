(** Concrete cases that meet the hypotheses of the flight, corridor, guidance and Monte Carlo theorems that share a
    witness. *)
From Coq Require Import String List ZArith.
Require Import Verif.Base Verif.Numpy Verif.NumpyProofs Verif.PlanetModel Verif.PlanetProofs Verif.AeroModel Verif.FlightSpec Verif.FlightProofs Verif.PropFlight Verif.HeatModel Verif.TrajectoryModel Verif.TrajectorySpec
  Verif.TrajectoryProofs Verif.PropTrajectory Verif.PropHeat Verif.OrbitScalarModel Verif.OrbiterModel Verif.OrbitModel Verif.CorridorModel Verif.CorridorSpec Verif.CorridorProofs Verif.PropCorridor
  Verif.GuidanceModel Verif.GuidanceSpec Verif.GuidanceProofs Verif.PropControl Verif.PropGuidance Verif.PropGuidanceEx Verif.PropGuidanceRecord Verif.DragModel Verif.PropDrag
  Verif.MonteModel Verif.MonteSpec Verif.MonteProofs Verif.PropMonte Verif.PropMonteEx.
Local Open Scope R_scope.
Local Open Scope list_scope.

Example C05_witness : let q := convertToPlotUnits VENUS [0; 60] [6151.8e3; 6150.8e3] [11000; 10990] [0; 0] [0; 0] [0; 0] [0; 0] [0; 5000] in
  p_t q = [0; 1] /\ p_h q = [100; 99] /\ p_v q = [11; 10.99] /\ p_drange q = [0; 5].
Proof. cbv zeta. unfold convertToPlotUnits. cbn [map p_t p_h p_v p_drange]. unfold computeH. cbn [RP VENUS]. repeat split; repeat f_equal; lra. Qed.
(** On the equator of VENUS at one radius the pull is inwards. *)
Example C38_witness : exists g, grbar VENUS 1 0 = Some g /\ g < 0 /\ gphibar VENUS 1 0 = Some 0.
Proof.
  eexists. split; [unfold grbar; rewrite !np_div_some by lra; cbn [obind]; reflexivity|]. rewrite sin_0. split; [cbn [J2 J3 VENUS]; lra|].
  unfold gphibar. rewrite !np_div_some by lra. cbn [obind]. rewrite sin_0. f_equal. cbn [J3 VENUS]. lra.
Qed.
Example C41_witness : exists V y, Vehicle 1000 100 0.25 10 0 1 VENUS wit_atm false = Ok V /\ flies V (fun _ => 0) y (0 / tau VENUS) /\ y 0 = mkState 3 0 0 1 (PI / 2) (PI / 6) 0.
Proof. destruct C40_witness as (V & y & H1 & H2 & H3). exists V, y. unfold Rdiv. rewrite Rmult_0_l. auto. Qed.
(** One history of each kind: escaped, landed, still flying, and touching both limits. *)
Example C42_witness : let r := fun h => RP VENUS + h in
  classifyTrajectory VENUS [r 100e3; r 150e3; r 190e3] = Ok (2%nat, 1) /\ classifyTrajectory VENUS [r 100e3; r 5e3] = Ok (1%nat, -1) /\ classifyTrajectory VENUS [r 100e3; r 90e3] = Ok (2%nat, 0).
Proof.
  cbv zeta. unfold classifyTrajectory. cbn [map]. unfold computeH. replace (RP VENUS + 100e3 - RP VENUS) with 100e3 by ring. replace (RP VENUS + 150e3 - RP VENUS) with 150e3 by ring.
  replace (RP VENUS + 190e3 - RP VENUS) with 190e3 by ring. replace (RP VENUS + 5e3 - RP VENUS) with 5e3 by ring. replace (RP VENUS + 90e3 - RP VENUS) with 90e3 by ring.
  cbn [list_max list_min length map h_skip h_trap VENUS].
  rewrite (Rmax_right 150e3 190e3), (Rmax_right 100e3 190e3), (Rmin_left 150e3 190e3), (Rmin_left 100e3 150e3), (Rmax_left 100e3 5e3), (Rmin_right 100e3 5e3), (Rmax_left 100e3 90e3), (Rmin_right 100e3 90e3) by lra.
  unfold argmax_bool. cbn [first_true].
  repeat split; f_equal;
  repeat (match goal with |- context [Rltb ?a ?b] => destruct (Rltb_spec a b); try (exfalso; lra) | |- context [Rleb ?a ?b] => destruct (Rleb_spec a b); try (exfalso; lra) end); reflexivity.
Qed.
Example C46_witness : forall V, vh_planet V = VENUS -> engine_ok hover /\ (exists o', propogateEntry hover (mkObj V (mkInit 100 0 0 11 0 0 0 5) 1 None None) 10 1 0 = (o', Ok tt)) /\
  heatLoad0 (mkInit 100 0 0 11 0 0 0 5) <> 0.
Proof. intros V HV. destruct (C43_witness V (mkInit 100 0 0 11 0 0 0 5) 1 10 1 0 HV ltac:(cbn; lra) ltac:(lra) ltac:(lra)) as (A & B). split; [exact A|]. split; [exact B|cbn; lra]. Qed.
(** A search that returns, and the same bracket with a tolerance it is already within. *)
Example C49_witness : forall V tol, vh_planet V = EARTH -> let o := mkObj V circ_init tol None None in
  (exists o' lim, findUnderShootLimit hover 10 o 1 1 (-60) 0 0.1 200 = Some (o', Ok (lim, 1))) /\
  opposite (answer (fun o => hitsTargetApoapsis hover o 1 1 0 200) o) (-60) 0 /\ Rabs (0 - -60) <= 70.
Proof. intros V tol HV o. destruct (C48_witness V tol HV) as (_ & A & o' & lim & B & _). split; [eauto|]. split; [exact A|]. rewrite Rabs_right; lra. Qed.
Example C51_witness : forall V tol, vh_planet V = EARTH -> exists o' a, engine_ok hover /\ Planet "EARTH" = Ok (vh_planet V) /\
  hitsTargetApoapsis hover (set_gamma0 (mkObj V circ_init tol None None) 0) 1 1 0 200 = (o', Ok a) /\ (a = -1 \/ a = 1).
Proof.
  intros V tol HV. destruct (circ_answer V tol 0 0 HV ltac:(lra)) as [(A & _)|(A & _)]; unfold answer in A;
    destruct (hitsTargetApoapsis hover (set_gamma0 (mkObj V circ_init tol None None) 0) 1 1 0 200) as [o' r] eqn:E; cbn [snd] in A; subst r;
    exists o'; eexists; (split; [apply hover_ok|]); (split; [rewrite HV; reflexivity|]); (split; [reflexivity|auto]).
Qed.
Example C64_witness : same_but_third (some_random 0) (some_random 1) /\ 0 <= snd (mc_LD (some_setup (0.3, 0.1))) /\
  exists s st st', runMonteCarlo MC some_world (some_setup (0.3, 0.1)) (some_random 0) 2 ["out"%string] s only_root = (st, Some (Ok tt)) /\
    runMonteCarlo MC some_world (some_setup (0.3, 0.1)) (some_random 1) 2 ["out"%string] s only_root = (st', Some (Ok tt)).
Proof. destruct C63_witness as (s & st & st' & _ & _ & _ & A & B & C & _). split; [exact A|]. split; [cbn; lra|]. exists s, st, st'. split; [exact B|exact C]. Qed.
(** The same campaign: a completed one, and its folder, which exists afterwards. *)
Example C65_witness : exists s st, nan_keeps (w_X some_world) /\ sane only_root /\ only_root ["out"%string] = None /\
  runMonteCarlo MC some_world (some_setup (0.3, 0.1)) (some_random 0) 2 ["out"%string] s only_root = (st, Some (Ok tt)).
Proof. destruct C63_witness as (s & st & st' & A & B & C & _ & D & _). exists s, st. split; [exact A|]. split; [exact B|]. split; [exact C|exact D]. Qed.
Example C72_witness : exists V, Vehicle 1000 100 0.25 10 0 1 VENUS wit_atm true = Ok V.
Proof. unfold Vehicle. destruct (Reqb_spec 1000 0); [lra|]. destruct (Reqb_spec (100 * 10) 0); [lra|]. eauto. Qed.
Example C73_witness : exists ts, arange ((10 + 3) / tau VENUS) (3 / tau VENUS) = Ok ts.
Proof.
  unfold arange. destruct (Reqb_spec (3 / tau VENUS) 0) as [E|E]; [|eauto]. exfalso. destruct (Planet_facts "VENUS"%string VENUS eq_refl) as (HRP & HGM & _).
  assert (HVr : 0 < Vref VENUS) by (apply sqrt_lt_R0, Rdiv_lt_0_compat; auto). assert (HT : 0 < tau VENUS) by (apply Rdiv_lt_0_compat; auto).
  assert (0 < 3 / tau VENUS) by (apply Rdiv_lt_0_compat; lra). lra.
Qed.
Example C74_witness : exists X P s s' b, eg_step false (brake (/ 2)) X P 1 1 600 s = (s', Ok b) /\ s_delta s' <> None.
Proof. destruct C90_witness as (X & P & i & o1 & s0 & s' & b & _ & _ & _ & E & _ & _ & _ & _ & _ & D & _). exists X, P, s0, s', b. auto. Qed.
Example C77_witness : exists X P s s' b, engine_ok (brake (/ 2)) /\ nan_ok X /\ Planet "VENUS" = Ok (vh_planet (ob_veh (s_obj s))) /\ eg_step false (brake (/ 2)) X P 1 1 600 s = (s', Ok b).
Proof. destruct C90_witness as (X & P & i & o1 & s0 & s' & b & N & K & _ & E & V & Q & _). exists X, P, s0, s', b. rewrite V. auto. Qed.
Example C78_witness : (exists d q, flown_alone MC some_world (some_setup (0.3, 0.1)) (some_random 0) glider 1 4 = Some (Ok (d, q))) /\
  exists l, makedirs only_root ["out"%string] = Ok l.
Proof. split; [destruct (some_runs (0.3, 0.1) 0 4 ltac:(cbn; lra)) as ((d & q) & H); eauto|]. eexists. reflexivity. Qed.
Example C79_witness : exists s st, nan_keeps (w_X some_world) /\ sane only_root /\
  runMonteCarlo MC some_world (some_setup (0.3, 0.1)) (some_random 0) 2 ["out"%string] s only_root = (st, Some (Ok tt)).
Proof. destruct C65_witness as (s & st & A & B & _ & D). eauto. Qed.
(** A vehicle without lift, and one with. *)
Example C81_witness : Planet "VENUS" = Ok VENUS /\ (exists V, Vehicle 1000 100 0 10 0 1 VENUS wit_atm false = Ok V) /\ exists V, Vehicle 1000 100 0.25 10 0 1 VENUS wit_atm false = Ok V.
Proof. split; [reflexivity|]. unfold Vehicle. destruct (Reqb_spec 1000 0); [lra|]. destruct (Reqb_spec (100 * 10) 0); [lra|]. eauto. Qed.
Example C83_witness : exists V, Vehicle 1000 100 0.25 10 0 1 VENUS wit_atm false = Ok V /\ J3 (vh_planet V) = 0 /\ forall t, flies V (fun _ => 0) circ t.
Proof.
  destruct C39_witness as (V & A & _ & B). exists V. split; [exact A|]. split; [|intros t; apply B].
  destruct (Vehicle_inv _ _ _ _ _ _ _ _ _ _ A) as (_ & _ & _ & _ & _ & _ & _ & E6 & _). rewrite E6. reflexivity.
Qed.
(** Version 2 completes a lift-up cycle from a heat load of zero. *)
Example C75_witness : exists X P s s' b, exit_step true (brake 1) X P 1 1 0 (Some 0) s = (s', Ok b) /\ s_delta s' <> None.
Proof.
  set (X := mkGext (fun o _ _ => (o, Err ValueError)) (fun _ _ _ => 0)). set (q := mkPlot [0] [100] [8] [0] [0] [0] [0] [0]).
  set (i := last_init q (Some 0)). set (s := mkGst (mkObj glider i 1 None None) (steps0 []) (mkHist q [] [] [] [] [] []) None (Some 0) 8 100).
  set (d := psuedoController (g_rate (glide_params 5)) 0 0 1).
  assert (HP : Planet "VENUS" = Ok (vh_planet glider)) by reflexivity. destruct (two_points _ _ HP) as (a & b & Ea).
  set (x0 := entry_state (vh_planet glider) i).
  destruct (level_run (solveTrajectory2 (brake 1)) "VENUS"%string glider i 1 d [a; b] [x0; slowed 1 x0] 1 1 None None HP) as (f & h & S & _); try reflexivity; try discriminate; auto.
  - intros x [<- | [<- | []]]; reflexivity.
  - cbn [i last_init q h0_km p_h last glider vh_planet h_trap h_skip VENUS]. lra.
  - unfold solveTrajectory2. fold x0. rewrite Ea. reflexivity.
  - exists X, (glide_params 5), s. unfold exit_step. cbv zeta. unfold controller. cbn [s s_delta obind]. fold d. cbn [s_obj s_hist y_plot propagate].
    unfold propogateEntry2. change (store _ _ _) with (store (mkObj glider i 1 None None) (fly (solveTrajectory2 (brake 1)) glider 1 i 1 1 d) 0). rewrite S. unfold results. cbn [ob_flight ob_heat].
    match goal with |- context [if ?c then _ else _] => destruct c end; eexists; eexists; (split; [reflexivity|discriminate]).
Qed.
