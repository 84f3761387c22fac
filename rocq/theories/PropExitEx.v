(** Witnesses of C129: a vehicle leaves the atmosphere of Venus at 9 km/s, climbing at 10 degrees, and a propagation that is a little longer than its flight says so;
    another sinks through the trap altitude at 50 m/s. *)
From Coq Require Import String List Reals Lra Lia.
Require Import Verif.Base Verif.Numpy Verif.PlanetModel Verif.PlanetProofs Verif.AeroModel Verif.TrajectoryModel Verif.TrajectorySpec Verif.TrajectoryProofs Verif.FlightProofs
  Verif.PropFlight Verif.ExactSpec Verif.ExactProofs Verif.PropExact Verif.PropExactEx Verif.DetSpec Verif.DetProofs Verif.NearSpec Verif.ExistSpec Verif.ExistProofs Verif.PropExist Verif.PropExistEx Verif.ExitSpec Verif.ExitProofs Verif.EnterProofs Verif.PropExit Verif.PropTrap Verif.PropExitRun.
Import ListNotations.
Local Open Scope string_scope.
Local Open Scope R_scope.

Definition way_out : init := mkInit 180 20 30 9 45 10 0 0.
Lemma way_out_facts : let x := entry_state VENUS way_out in height VENUS x = h_thres VENUS /\ 0 < s_v x * sin (s_gamma x) /\ cos (s_phi x) <> 0 /\ cos (s_gamma x) <> - 0.01.
Proof.
  cbv zeta. destruct (entry_clear "VENUS" VENUS way_out eq_refl) as (E1 & E2 & E3 & E4). unfold height. rewrite E1, E3, E4. cbn [h0_km v0_kms phi0_deg gamma0_deg way_out h_thres VENUS] in *. pose proof PI_RGT_0. pose proof PI_4.
  destruct (ref_facts "VENUS" VENUS eq_refl) as (HV & _). split; [lra|]. split; [|split].
  - apply Rmult_lt_0_compat; [apply (Rmult_lt_reg_l (Vref VENUS)); auto; rewrite E2; lra|apply sin_gt_0; lra].
  - apply Rgt_not_eq, cos_gt_0; lra.
  - assert (0 < cos (10 * PI / 180)) by (apply cos_gt_0; lra). lra.
Qed.
Example C129_witness : exists V i T y E, Vehicle 300 50 0.3 4.5 0 1.5 VENUS thick false = Ok V /\ lipschitz_air VENUS thick /\ 0 < T /\ leaves V i 30 T y /\ y T = entry_state VENUS way_out /\ engine_ok E /\ exact E /\
  forall eps, 0 < eps -> exists secs dt o f h k, 0 < dt /\ propogateEntry E (mkObj V i 1 None None) secs dt 30 = (o, Ok tt) /\ ob_flight o = Some f /\ ob_heat o = Some h /\ f_exitflag f = 1 /\
    length (p_t (f_plot f)) = S k /\ shows_within eps VENUS (f_plot f) k (entry_state VENUS way_out).
Proof.
  destruct thick_made as (V & HV). destruct thick_facts as (Ha & HL). destruct way_out_facts as (F1 & F2 & F3 & F4).
  destruct (Vehicle_inv _ _ _ _ _ _ _ _ _ _ HV) as (_ & _ & _ & _ & _ & _ & _ & EP & EA & EU & _). assert (HP : Planet "VENUS" = Ok (vh_planet V)) by (rewrite EP; reflexivity).
  destruct (ref_facts "VENUS" VENUS eq_refl) as (_ & _ & Ht & _). assert (HL' : lipschitz_air (vh_planet V) (vh_atm V)) by (rewrite EP, EA; exact HL).
  destruct (C129_reached "VENUS" V (entry_state VENUS way_out) 30 100000 HP EU HL') as (i & T & y & HT & LV & YT & UP & IA); try (rewrite EP); auto; [cbn [h_thres VENUS]; lra|].
  destruct C129_flown as (E & E1 & E2 & FL). exists V, i, T, y, E. do 7 (split; [assumption|]). intros eps Heps. rewrite EP in *.
  destruct (FL "VENUS" V i 30 T y) as (d1 & Hd1 & RUN); try (rewrite EP); auto. { intros t Htt. specialize (UP t Htt). cbn [h_trap VENUS]. lra. }
  destruct (C129_exit "VENUS" V i 30 T y) with (eps := eps) as (d2 & Hd2 & EX); try (rewrite EP); auto. rewrite EP in RUN, EX.
  set (dt := Rmin d1 d2 / 2). assert (0 < Rmin d1 d2) by (apply Rmin_glb_lt; auto). pose proof (Rmin_l d1 d2). pose proof (Rmin_r d1 d2).
  destruct (RUN 1 (tau VENUS * T + d1 / 2) dt) as (o & f & h & R1 & R2 & R3 & R4); [unfold dt; lra|lra|].
  destruct (EX false E 1 (tau VENUS * T + d1 / 2) dt o f E1 E2 ltac:(unfold dt; lra) R1 R2 R4) as (k & K1 & _ & K2). rewrite YT in K2.
  exists (tau VENUS * T + d1 / 2), dt, o, f, h, k. split; [unfold dt; lra|]. auto 10.
Qed.
Definition way_down : init := mkInit 10 20 30 0.05 45 (-80) 0 0.
Lemma way_down_facts : let x := entry_state VENUS way_down in height VENUS x = h_trap VENUS /\ s_v x * sin (s_gamma x) < 0 /\ cos (s_phi x) <> 0 /\ cos (s_gamma x) <> - 0.01.
Proof.
  cbv zeta. destruct (entry_clear "VENUS" VENUS way_down eq_refl) as (E1 & E2 & E3 & E4). unfold height. rewrite E1, E3, E4. cbn [h0_km v0_kms phi0_deg gamma0_deg way_down h_trap VENUS] in *. pose proof PI_RGT_0. pose proof PI_4.
  destruct (ref_facts "VENUS" VENUS eq_refl) as (HV & _). split; [lra|]. split; [|split].
  - assert (0 < s_v (entry_state VENUS way_down)) by (apply (Rmult_lt_reg_l (Vref VENUS)); auto; rewrite E2; lra). assert (sin (-80 * PI / 180) < 0) by (apply sin_lt_0_var; lra). nra.
  - apply Rgt_not_eq, cos_gt_0; lra.
  - assert (0 < cos (-80 * PI / 180)) by (apply cos_gt_0; lra). lra.
Qed.
Example C129_trap_witness : exists V i T2 y T E, Vehicle 300 50 0.3 4.5 0 1.5 VENUS thick false = Ok V /\ lipschitz_air VENUS thick /\ 0 < T < T2 /\ way V i 30 T2 y /\ sinks V T y /\ y T = entry_state VENUS way_down /\ engine_ok E /\ exact E /\
  forall eps, 0 < eps -> exists secs dt o f h k, 0 < dt /\ propogateEntry E (mkObj V i 1 None None) secs dt 30 = (o, Ok tt) /\ ob_flight o = Some f /\ ob_heat o = Some h /\ f_exitflag f = -1 /\
    length (p_t (f_plot f)) = S k /\ shows_within eps VENUS (f_plot f) k (entry_state VENUS way_down).
Proof.
  destruct thick_made as (V & HV). destruct thick_facts as (Ha & HL). destruct way_down_facts as (F1 & F2 & F3 & F4).
  destruct (Vehicle_inv _ _ _ _ _ _ _ _ _ _ HV) as (_ & _ & _ & _ & _ & _ & _ & EP & EA & EU & _). assert (HP : Planet "VENUS" = Ok (vh_planet V)) by (rewrite EP; reflexivity).
  assert (HL' : lipschitz_air (vh_planet V) (vh_atm V)) by (rewrite EP, EA; exact HL).
  destruct (C129_trap_reached "VENUS" V (entry_state VENUS way_down) 30 HP EU HL') as (i & T2 & y & T & HT & W & SK & YT); try (rewrite EP); auto.
  destruct C129_trap_flown as (E & E1 & E2 & FL). exists V, i, T2, y, T, E. do 8 (split; [assumption|]). intros eps Heps.
  destruct (FL "VENUS" V i 30 T2 y T HP EU HL' (way_passage _ _ _ _ _ W) HT SK) as (d1 & Hd1 & RUN).
  destruct (C129_trap "VENUS" V i 30 T2 y T HP EU HL' (way_passage _ _ _ _ _ W) ltac:(lra) SK eps Heps) as (d2 & Hd2 & EX). rewrite EP in RUN, EX.
  set (dt := Rmin d1 d2 / 2). assert (0 < Rmin d1 d2) by (apply Rmin_glb_lt; auto). pose proof (Rmin_l d1 d2). pose proof (Rmin_r d1 d2).
  destruct (RUN 1 (tau VENUS * T + d1 / 2) dt) as (o & f & h & R1 & R2 & R3 & R4); [unfold dt; lra|lra|].
  destruct (EX false E 1 (tau VENUS * T + d1 / 2) dt o f E1 E2 ltac:(unfold dt; lra) R1 R2 R4) as (k & K1 & _ & K2). rewrite YT in K2.
  exists (tau VENUS * T + d1 / 2), dt, o, f, h, k. split; [unfold dt; lra|]. auto 10.
Qed.
