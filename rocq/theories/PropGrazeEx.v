(** Witnesses of C133: at Venus, a fast vehicle with its lift up skips out, too high for every target, and a slow one with its lift down digs in. *)
From Coq Require Import String List Reals Lra Lia.
Require Import Verif.Base Verif.Numpy Verif.PlanetModel Verif.PlanetProofs Verif.AeroModel Verif.TrajectoryModel Verif.TrajectorySpec Verif.TrajectoryProofs Verif.FlightProofs Verif.PropFlight
  Verif.ExactSpec Verif.DetSpec Verif.DetProofs Verif.NearSpec Verif.NearProofs Verif.PropNear Verif.ExistSpec Verif.ExistProofs Verif.PropExist Verif.PropExistEx Verif.ExitSpec Verif.ExitProofs Verif.PropExit
  Verif.FrameModel Verif.FrameProofs Verif.ConicSpec Verif.ConicProofs Verif.OrbiterModel Verif.OrbiterProofs Verif.OrbitModel Verif.OrbitSpec Verif.OrbitProofs Verif.CorridorModel Verif.CorridorSpec Verif.PropExitOrbit Verif.VerdictSpec Verif.VerdictProofs Verif.PropVerdict Verif.PropVerdictEx
  Verif.NearExitSpec Verif.NearExitProofs Verif.PropNearExit Verif.PropNearVerdict Verif.GrazeSpec Verif.GrazeProofs Verif.PropGraze.
Import ListNotations.
Local Open Scope string_scope.
Local Open Scope R_scope.

Definition top_start (v : R) : init := mkInit 180 0 0 v 0 0 0 0.
Lemma thick_bends : forall V, Vehicle 300 50 0.3 4.5 0 1.5 VENUS thick false = Ok V -> (exists r, bends V (top_start 11) 30 r /\ 0 < r) /\ (exists r, bends V (top_start 3) 180 r /\ r < 0).
Proof.
  intros V HV. split.
  - destruct (C133_criterion "VENUS" 300 50 0.3 4.5 0 1.5 VENUS thick V (top_start 11) 30 eq_refl HV) as (r & B & U & _); try (cbn [top_start h0_km v0_kms phi0_deg h_thres VENUS]; lra). exists r. split; auto. apply U. cbn [top_start v0_kms psi0_deg h_thres RP OMEGA GM J2 VENUS density_int thick].
    replace (0 * PI / 180) with 0 by lra. rewrite cos_0. pose proof PI_RGT_0. assert (0 < cos (30 * PI / 180)) by (apply cos_gt_0; lra). set (c := cos (30 * PI / 180)) in *. lra.
  - destruct (C133_criterion "VENUS" 300 50 0.3 4.5 0 1.5 VENUS thick V (top_start 3) 180 eq_refl HV) as (r & B & _ & U); try (cbn [top_start h0_km v0_kms phi0_deg h_thres VENUS]; lra). exists r. split; auto. apply U. cbn [top_start v0_kms psi0_deg h_thres RP OMEGA GM J2 VENUS density_int thick].
    replace (0 * PI / 180) with 0 by lra. rewrite cos_0. replace (180 * PI / 180) with PI by lra. rewrite cos_PI. lra.
Qed.
Lemma fast_overshoots : forall target, let x := entry_state VENUS (with_gamma0 (top_start 11) 0) in air_velocity VENUS x <> vzero /\ overshoots VENUS (position VENUS x) (air_velocity VENUS x) target.
Proof.
  intros target x. destruct (ref_facts "VENUS" VENUS eq_refl) as (HV & _ & _ & _ & HR & _). destruct (entry_clear "VENUS" VENUS (with_gamma0 (top_start 11) 0) eq_refl) as (E1 & E2 & _). fold x in E1, E2. cbn [with_gamma0 top_start h0_km v0_kms] in E1, E2.
  assert (Hv : 0 < s_v x) by nra. split; [apply moving_air; auto; lra|]. left. unfold position, air_velocity. replace (RP VENUS * s_r x) with 6231800 by (unfold RP, VENUS in *; lra). rewrite energy_norm by lra. rewrite norm_sq, rel_speed, E2. unfold GM, VENUS. lra.
Qed.
Example C133_witness : exists V E, Vehicle 300 50 0.3 4.5 0 1.5 VENUS thick false = Ok V /\ lipschitz_air VENUS thick /\ engine_ok E /\ exact E /\
  (exists r, bends V (top_start 11) 30 r /\ 0 < r) /\ (exists r, bends V (top_start 3) 180 r /\ r < 0) /\
  (exists g secs dt o f, 0 < g < 1 /\ 0 < dt < secs /\ secs < 1 /\ propogateEntry E (mkObj V (at_angle (top_start 11) g) 1 None None) secs dt 30 = (o, Ok tt) /\ ob_flight o = Some f /\ f_exitflag f = 1) /\
  forall target, exists g secs, 0 < g < 1 /\ 0 < secs /\ let i := at_angle (top_start 11) g in from_inside VENUS i /\ h0_km i * 1000 = h_thres VENUS /\ too_high false V i 30 target secs.
Proof.
  destruct thick_made as (V & HV). destruct thick_facts as (Ha & HL). destruct (Vehicle_inv _ _ _ _ _ _ _ _ _ _ HV) as (_ & _ & _ & _ & _ & _ & _ & EP & EA & EU & _). assert (HP : Planet "VENUS" = Ok (vh_planet V)) by (rewrite EP; reflexivity).
  assert (HL' : lipschitz_air (vh_planet V) (vh_atm V)) by (rewrite EP, EA; exact HL). destruct (thick_bends V HV) as ((r & B & Hr) & DN). destruct C133_flown as (E & HE & HX & FL). exists V, E. do 4 (split; [assumption|]). split; [eauto|]. split; [assumption|]. split.
  - destruct (FL "VENUS" V (top_start 11) 30 r HP EU HL' B Hr (1 / 2) ltac:(lra)) as (g0 & Hg0 & S). assert (0 < Rmin g0 1) by (apply Rmin_glb_lt; lra). pose proof (Rmin_l g0 1). pose proof (Rmin_r g0 1). set (g := Rmin g0 1 / 2). assert (Hg : 0 < g < g0 /\ g < 1) by (unfold g; lra).
    destruct (S g (proj1 Hg)) as (s & delta & Hs & Hd & RUN). set (q := Rmin delta (Rmin s (1 / 2)) / 2). assert (0 < Rmin delta (Rmin s (1 / 2))) by (repeat apply Rmin_glb_lt; lra). pose proof (Rmin_l delta (Rmin s (1 / 2))). pose proof (Rmin_r delta (Rmin s (1 / 2))). pose proof (Rmin_l s (1 / 2)). pose proof (Rmin_r s (1 / 2)). assert (Hq : 0 < q < delta /\ q < s /\ q < 1 / 2) by (unfold q; lra).
    destruct (RUN 1 (s + q) q ltac:(lra) ltac:(lra)) as (o & f & h & R1 & R2 & _ & R4). exists g, (s + q), q, o, f. repeat (split; [first [lra|assumption]|]). assumption.
  - intros target. destruct (fast_overshoots target) as (F1 & F2). pose proof (C133_verdict false "VENUS" V (top_start 11) 30 r target HP EU HL' B Hr) as W. cbv zeta in W. rewrite EP in W. destruct (W F1 1 ltac:(lra)) as (W1 & _). destruct (W1 F2) as (g0 & Hg0 & S).
    assert (0 < Rmin g0 1) by (apply Rmin_glb_lt; lra). pose proof (Rmin_l g0 1). pose proof (Rmin_r g0 1). set (g := Rmin g0 1 / 2). assert (Hg : 0 < g < g0 /\ g < 1) by (unfold g; lra). destruct (S g (proj1 Hg)) as (s & s2 & Hs & Hs2 & TH). exists g, ((s + s2) / 2). split; [lra|]. split; [lra|]. cbv zeta.
    cbn [at_angle top_start with_gamma0 h0_km h_thres VENUS]. split; [|split; [lra|apply TH; lra]]. unfold from_inside. cbn [at_angle top_start with_gamma0 h0_km v0_kms gamma0_deg h_thres h_trap VENUS]. split; [lra|right]. split; [lra|]. pose proof PI_RGT_0 as HPI. assert (0 < g * PI < PI) by nra. assert (sin (- g * PI / 180) < 0) by (apply sin_lt_0_var; lra). lra.
Qed.
