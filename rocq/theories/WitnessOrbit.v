(** Concrete cases that meet the hypotheses of the approach, maneuver and orbiter theorems that share a witness. *)
From Coq Require Import String Nsatz.
Require Import Verif.Base Verif.Numpy Verif.NumpyProofs Verif.PlanetModel Verif.PlanetProofs Verif.FrameModel Verif.FrameProofs Verif.ConicSpec Verif.ConicProofs
  Verif.OrbitScalarModel Verif.OrbiterModel Verif.OrbitModel Verif.ApproachModel Verif.ApproachProofs Verif.PropApproach Verif.ManeuverModel Verif.PropManeuver Verif.PropOrbiter Verif.PropProbe Verif.GeomSpec Verif.PropOrbit.
Local Open Scope R_scope.

Definition neptune_v : vec := icrf_of NEPTUNE (V3 3 0 4).
(** The constructor returns for every input with a known planet and an entry altitude. *)
Lemma approach_returns : forall v rp psi, exists A s, Approach "NEPTUNE" v rp psi true (Some 1000e3) = Ok (A, Entry s).
Proof. intros. eexists; eexists. unfold Approach. rewrite Neptune_ok. reflexivity. Qed.
Example C20_witness : mvmul (R3 (PI / 2)) (V3 0 1 0) = V3 1 0 0.
Proof. unfold R3. rewrite cos_PI2, sin_PI2. apply vec_eq; vsimpl; ring. Qed.
Example C21_witness : exists A t, Approach "NEPTUNE" neptune_v 24764e3 1 true (Some 1000e3) = Ok (A, t) /\ neptune_v <> vzero /\ 0 < 24764e3.
Proof. destruct C23_witness as (A & s & E & V & _). exists A, (Entry s). split; [exact E|]. split; [exact V|lra]. Qed.
(** Along the pole too. *)
Example C22_witness : (exists A t, Approach "NEPTUNE" neptune_v 24764e3 1 true (Some 1000e3) = Ok (A, t) /\ neptune_v <> vzero) /\
  exists A t, Approach "NEPTUNE" (icrf_of NEPTUNE (V3 0 0 5)) 24764e3 1 true (Some 1000e3) = Ok (A, t) /\ icrf_of NEPTUNE (V3 0 0 5) <> vzero /\
    vx (v_inf_bi A) = 0 /\ vy (v_inf_bi A) = 0.
Proof.
  split; [destruct C21_witness as (A & t & E & V & _); eauto|].
  eexists; eexists. split; [unfold Approach; rewrite Neptune_ok; reflexivity|]. split; [apply icrf_nonzero; intros E; injection E; intros; lra|].
  change (v_inf_bi (Approach_core NEPTUNE (icrf_of NEPTUNE (V3 0 0 5)) 24764e3 1)) with (vscale 1e3 (ICRF_to_BI (a0 NEPTUNE) (d0 NEPTUNE) (icrf_of NEPTUNE (V3 0 0 5)))).
  rewrite icrf_bi. cbn [vscale vx vy]. split; ring.
Qed.
Example C24_witness : exists A t, Approach "NEPTUNE" neptune_v 24764e3 1 true (Some 1000e3) = Ok (A, t) /\ neptune_v <> vzero /\ inclined A.
Proof. destruct C23_witness as (A & s & E & V & I & _). exists A, (Entry s). auto. Qed.
(** Entries that reach the interface and that pass above it. *)
Example C25_witness : (exists A s, Approach "NEPTUNE" neptune_v 24764e3 1 true (Some 1000e3) = Ok (A, Entry s) /\ neptune_v <> vzero /\ inclined A /\ 24764e3 <= RP NEPTUNE + 1000e3) /\
  exists A s, Approach "NEPTUNE" neptune_v 30000e3 1 true (Some 1000e3) = Ok (A, Entry s) /\ RP NEPTUNE + 1000e3 < 30000e3.
Proof.
  split; [destruct C23_witness as (A & s & E & V & I & _ & B & _); exists A, s; auto|].
  destruct (approach_returns neptune_v 30000e3 1) as (A & s & E). exists A, s. split; [exact E|cbn [RP NEPTUNE]; lra].
Qed.
Example C27_witness : (exists A t, Approach "NEPTUNE" neptune_v 24764e3 1 true (Some 1000e3) = Ok (A, t) /\ neptune_v <> vzero /\ (vx (v_inf_bi A) <> 0 \/ vy (v_inf_bi A) <> 0)) /\
  exists A t, Approach "NEPTUNE" (icrf_of NEPTUNE (V3 0 0 5)) 24764e3 1 true (Some 1000e3) = Ok (A, t) /\ vx (v_inf_bi A) = 0 /\ vy (v_inf_bi A) = 0.
Proof.
  split; [destruct C23_witness as (A & s & E & V & _ & N & _); exists A, (Entry s); auto|]. destruct C22_witness as (_ & A & t & E & _ & X & Y). eauto.
Qed.
Example C29_witness : exists D1 D2, ProbeOrbiterDeflection "NEPTUNE" wit_v 24000e3 1 1000e3 26000e3 2 100 = Ok D1 /\
  ProbeOrbiterDeflection "NEPTUNE" wit_v 24000e3 1 1000e3 26000e3 2 200 = Ok D2 /\ wit_v <> vzero /\ 24000e3 < 100 * RP NEPTUNE.
Proof.
  destruct C28_witness as (D & _ & _ & _ & _ & E & V & _). exists D. eexists. split; [exact E|]. split; [unfold ProbeOrbiterDeflection, Approach; rewrite Neptune_ok; cbn [rbind fst]; reflexivity|]. split; [exact V|cbn [RP NEPTUNE]; lra].
Qed.
Example C30_witness : exists D, ProbeProbeDeflection "NEPTUNE" wit_v 24000e3 1 1000e3 24000e3 2 1000e3 100 = Ok D /\ wit_v <> vzero /\ inclined (pp_probe1 D) /\ cos (1 - 2) <> 1 /\ 24000e3 < 100 * RP NEPTUNE.
Proof. destruct C28_witness as (_ & _ & D & _ & _ & _ & V & K & _ & _ & _ & _ & _ & E & I & C). exists D. auto. Qed.
(** Inbound at a true anomaly of minus a right angle. *)
Example C32_witness : exists ob e, Planet "NEPTUNE"%string = Ok (fl_planet (wit_flown 20000 (PI / 6))) /\ Orbiter (wit_flown 20000 (PI / 6)) 4000 = Ok ob /\ 0 < ob_rp ob /\ captured ob /\
  o_e (ob_orb ob) = Some e /\ e * sin (- (PI / 2)) < 0.
Proof.
  destruct C31_witness as (ob & A & B & C & D & _). exists ob.
  destruct (C33_requested_apsides _ _ _ _ A B C D) as (a & e & h & ra & _ & E & _ & _ & Erp & Ra & H1 & H2 & _ & _ & H3 & _).
  destruct (wit_orbiter 20000 (PI / 6) 4000 ltac:(lra)) as (ob' & B' & A1 & _ & A3 & _). rewrite B in B'. apply Ok_injr in B'. subst ob'.
  destruct wit_angle as (G1 & _). destruct (wit_captured (PI / 6) 4000 ob G1 ltac:(lra) B) as (_ & _ & _ & HE).
  exists e. do 5 (split; [assumption|]). rewrite sin_neg, sin_PI2.
  assert (X : 48e6 < ra).
  { rewrite Ra. pose proof (norm_nonneg (ecc_vector (GM (ob_planet ob)) (ob_r_vec ob) (ob_v_ie ob))) as N. replace (GM (ob_planet ob)) with 6.8365299e15 in * by (rewrite A1; reflexivity). set (M := 6.8365299e15) in *. set (En := energy _ _ _) in *. set (k := norm _) in *.
    assert (Hm : - M / (2 * En) * (-2 * En) = M) by (field; lra). set (m := - M / (2 * En)) in *. unfold M in Hm. assert (48e6 < m) by nra. nra. }
  rewrite A3 in H2. nra.
Qed.
Example C33_witness : exists ob, Planet "NEPTUNE"%string = Ok (fl_planet (wit_flown 20000 (PI / 6))) /\ Orbiter (wit_flown 20000 (PI / 6)) 4000 = Ok ob /\ 0 < ob_rp ob /\ captured ob.
Proof. destruct C31_witness as (ob & A & B & C & D & _). exists ob. auto. Qed.
Example C68_witness : exists ob, Planet "NEPTUNE"%string = Ok (fl_planet (wit_flown 20000 (- (PI / 6)))) /\ Orbiter (wit_flown 20000 (- (PI / 6))) 4000 = Ok ob /\ 0 < ob_rp ob /\ captured ob.
Proof. destruct C67_inbound_witness as (ob & A & B & C & D & _). exists ob. auto. Qed.
Example C70_witness : exists ob dV r v, Planet "NEPTUNE"%string = Ok (fl_planet (wit_flown 20000 (PI / 6))) /\ Orbiter (wit_flown 20000 (PI / 6)) 80000 = Ok ob /\
  0 < ob_rp ob /\ captured ob /\ enters ob PI dV /\ ob_pos ob PI = Some r /\ ob_vel ob PI = Some v /\
  let mu := GM (ob_planet ob) in let v2 := vadd v (vscale (dV / norm v) v) in
  - norm v < dV /\ ecc_vector mu r v2 <> vzero /\ energy mu r v2 <> 0 /\ RP (ob_planet ob) + h_skip (ob_planet ob) <= norm r /\ 1 + norm (ecc_vector mu r v2) * cos PI <> 0.
Proof.
  destruct C36_witness as (ob & dV & A & B & C & D & E & _ & r & v & H1 & H2 & H3 & H4 & H5 & H6 & H7). exists ob, dV, r, v. do 7 (split; [assumption|]). cbv zeta. split; [lra|]. split; [assumption|]. split; [lra|]. split; assumption.
Qed.
Example C53_witness : (let x := mkExit (RP VENUS + 100e3) 0 0 8000 0 0 in 0 < x_r x /\ exit_v_ie VENUS x <> vzero) /\
  exists ob, Orbiter (wit_flown 20000 (PI / 6)) 4000 = Ok ob.
Proof.
  split; [|destruct C31_witness as (ob & _ & B & _); eauto]. intros x. split; [cbn; lra|].
  destruct (C53_inertial_velocity VENUS x) as (_ & _ & -> & _). destruct C52_witness as (V & _). exact V.
Qed.
(** An entry with an atmosphere-relative velocity and its angles. *)
Example C66_witness : exists A s r w u g chi, Approach "NEPTUNE" (icrf_of NEPTUNE (V3 5 0 0)) (RP NEPTUNE + 1000e3) 0 true (Some 1000e3) = Ok (A, Entry s) /\
  r_entry s = Some r /\ v_entry s = Some w /\ vx r <> 0 /\ v_entry_atm s = Some u /\ u <> vzero /\ has_fpa_heading r u g chi /\ - (PI / 2) <= g <= PI / 2.
Proof.
  destruct C26_witness as ((A & s & r & w & u & E & H1 & H2 & H3 & H4) & _). replace (5 * 1) with 5 in E by ring.
  assert (NZ : icrf_of NEPTUNE (V3 5 0 0) <> vzero) by (apply icrf_nonzero; intros Z; injection Z; intros; lra).
  assert (P1 : 0 < RP NEPTUNE + 1000e3) by (cbn [RP NEPTUNE]; lra).
  assert (I : inclined A).
  { destruct (Classical_Prop.classic (inclined A)) as [I|I]; [exact I|exfalso]. destruct (C24_equatorial_undefined _ _ _ _ _ _ _ _ E NZ P1 I) as (_ & _ & N).
    unfold Approach in E. rewrite Neptune_ok in E. cbn [rbind] in E. injection E as <- <-. cbn [Approach_entry r_entry] in H1.
    match type of H1 with obind ?t _ = _ => destruct t as [th|] end; [|discriminate]. cbn [obind] in H1. rewrite (proj1 (N th)) in H1. discriminate. }
  destruct (C25_entry_interface _ _ _ _ _ _ _ _ E Neptune_ok NZ P1 P1) as (_ & K). destruct (K ltac:(lra)) as (th & vm & g0 & e & _ & _ & _ & _ & _ & V1 & V2 & _ & _ & K2). destruct (K2 I) as (r' & w' & R1 & _ & R2 & R3 & _ & R4 & _).
  rewrite H1 in R1. rewrite H2 in R2. injection R1 as <-. injection R2 as <-.
  destruct (C26_atmosphere_relative_velocity _ _ _ _ _ _ _ _ _ _ E Neptune_ok H1 H2) as (U & _). destruct (U ltac:(lra)) as (U1 & _). rewrite H4 in U1. injection U1 as U1.
  change (u = vsub w (air_velocity (OMEGA NEPTUNE) r)) in U1.
  assert (Hu : u <> vzero).
  { intros Z. assert (W : norm2 w = OMEGA NEPTUNE ^ 2 * (norm2 r - vz r ^ 2)).
    { assert (X : forall a b : vec, vadd (vsub a b) b = a) by (intros [] []; apply vec_eq; vsimpl; ring). rewrite <- (X w (air_velocity (OMEGA NEPTUNE) r)), <- U1, Z. clear. unfold air_velocity, vzero, norm2. destruct r. vsimpl. ring. }
    rewrite <- !norm_sq, R3, R4 in W. pose proof (pow2_ge_0 (vz r)) as Z2. set (V := norm (icrf_of NEPTUNE (V3 5 0 0))) in *.
    assert (Q : 2.6e8 <= GM NEPTUNE / (RP NEPTUNE + 1000e3)) by (cbn [GM RP NEPTUNE]; lra). cbn [RP OMEGA NEPTUNE] in W. nra. }
  destruct (every_velocity_has_angles r u) as (g & chi & G & B); [lra|exact Hu|]. exists A, s, r, w, u, g, chi. do 3 (split; [assumption|]). split; [lra|]. auto.
Qed.
