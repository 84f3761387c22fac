(** Witness of C129_orbit: the vehicle that leaves the atmosphere of Venus at 9 km/s is on a bound orbit, and long enough propagations report its apsides. *)
From Coq Require Import String List Reals Lra Lia.
Require Import Verif.Base Verif.Numpy Verif.PlanetModel Verif.PlanetProofs Verif.AeroModel Verif.TrajectoryModel Verif.TrajectorySpec Verif.TrajectoryProofs Verif.FlightProofs
  Verif.PropFlight Verif.ExactSpec Verif.ExactProofs Verif.PropExact Verif.PropExactEx Verif.DetSpec Verif.DetProofs Verif.NearSpec Verif.ExistSpec Verif.ExistProofs Verif.PropExist Verif.PropExistEx Verif.ExitSpec Verif.ExitProofs Verif.EnterProofs Verif.PropExit Verif.PropTrap Verif.PropExitRun Verif.PropExitEx
  Verif.FrameModel Verif.FrameProofs Verif.ConicSpec Verif.ConicProofs Verif.OrbiterModel Verif.OrbitModel Verif.OrbitSpec Verif.OrbitProofs Verif.CorridorModel Verif.PropExitOrbit.
Import ListNotations.
Local Open Scope string_scope.
Local Open Scope R_scope.

Lemma norm2_sum : forall a b, norm2 (vadd a b) <= 1.1 * norm2 a + 11 * norm2 b.
Proof.
  assert (Q : forall u w, (u + w) * (u + w) <= 1.1 * (u * u) + 11 * (w * w)). { intros u w. assert (0 <= (u - 10 * w) * (u - 10 * w)) by (apply Rle_0_sqr). lra. }
  intros [a1 a2 a3] [b1 b2 b3]. vsimpl. pose proof (Q a1 b1). pose proof (Q a2 b2). pose proof (Q a3 b3). lra.
Qed.
Lemma spin_speed : forall Om r th ph, norm2 (cross (V3 0 0 Om) (sph_pos r th ph)) <= (Om * r) * (Om * r).
Proof.
  intros. unfold sph_pos, up_dir. vsimpl. match goal with |- ?L <= _ => replace L with ((Om * r) * (Om * r) * (cos ph * cos ph * (sin th * sin th + cos th * cos th))) by ring end.
  rewrite sin2cos2. pose proof (sin2cos2 ph). assert (0 <= sin ph * sin ph) by nra. assert (0 <= (Om * r) * (Om * r)) by nra. nra.
Qed.
Lemma way_out_orbit : let x := entry_state VENUS way_out in
  let rv := sph_pos (RP VENUS * s_r x) (s_theta x) (s_phi x) in let vv := inertial_vel (OMEGA VENUS) (RP VENUS * s_r x) (Vref VENUS * s_v x) (s_gamma x) (s_psi x) (s_theta x) (s_phi x) in
  vv <> vzero /\ energy (GM VENUS) rv vv < 0.
Proof.
  cbv zeta. destruct (entry_clear "VENUS" VENUS way_out eq_refl) as (E1 & E2 & _). cbn [h0_km v0_kms way_out] in *. set (x := entry_state VENUS way_out) in *. rewrite E2. assert (Er : RP VENUS * s_r x = 6231800) by (unfold RP, VENUS in *; lra). rewrite Er.
  unfold inertial_vel. set (w := rel_vel _ _ _ _ _). set (c := cross _ _). assert (Hw : norm2 w = 9 * 1000 * (9 * 1000)) by apply rel_speed.
  assert (Hc : norm2 c <= 4). { eapply Rle_trans; [apply spin_speed|]. unfold OMEGA, VENUS. lra. } split.
  - intros Z. pose proof (norm2_sum (vadd w c) (vscale (-1) c)) as S. rewrite Z in S. assert (Ew : vadd vzero (vscale (-1) c) = w). { rewrite <- Z. clear. destruct w, c. apply vec_eq; vsimpl; ring. }
    rewrite Ew, Hw in S. replace (norm2 vzero) with 0 in S by (vsimpl; ring). replace (norm2 (vscale (-1) c)) with (norm2 c) in S by (destruct c; vsimpl; ring). lra.
  - rewrite energy_norm by lra. rewrite norm_sq. pose proof (norm2_sum w c) as S. unfold GM, VENUS. rewrite Hw in S. lra.
Qed.
Example C129_orbit_witness : exists V i T y E ra rp h, Vehicle 300 50 0.3 4.5 0 1.5 VENUS thick false = Ok V /\ lipschitz_air VENUS thick /\ 0 < T /\ leaves V i 30 T y /\ engine_ok E /\ exact E /\
  (exists En, En < 0 /\ is_apoapsis (GM VENUS) En h (RP VENUS + 1000 * ra) /\ (h <> 0 -> is_periapsis (GM VENUS) En h (RP VENUS + 1000 * rp))) /\
  forall eps, 0 < eps -> exists secs dt o f ra' rp', 0 < dt /\ propogateEntry E (mkObj V i 1 None None) secs dt 30 = (o, Ok tt) /\ ob_flight o = Some f /\
    compute_ApoapsisAltitudeKm VENUS (terminal f) = Some ra' /\ compute_PeriapsisAltitudeKm VENUS (terminal f) = Some rp' /\ Rabs (ra' - ra) < eps /\ Rabs (rp' - rp) < eps.
Proof.
  destruct thick_made as (V & HV). destruct thick_facts as (Ha & HL). destruct way_out_facts as (F1 & F2 & F3 & F4). destruct way_out_orbit as (O1 & O2).
  destruct (Vehicle_inv _ _ _ _ _ _ _ _ _ _ HV) as (_ & _ & _ & _ & _ & _ & _ & EP & EA & EU & _). assert (HP : Planet "VENUS" = Ok (vh_planet V)) by (rewrite EP; reflexivity).
  destruct (ref_facts "VENUS" VENUS eq_refl) as (_ & _ & Ht & _). assert (HL' : lipschitz_air (vh_planet V) (vh_atm V)) by (rewrite EP, EA; exact HL).
  destruct (C129_reached "VENUS" V (entry_state VENUS way_out) 30 100000 HP EU HL') as (i & T & y & HT & LV & YT & UP & IA); try (rewrite EP); auto; [cbn [h_thres VENUS]; lra|].
  destruct C129_flown as (E & E1 & E2 & FL). pose proof (C129_orbit "VENUS" V i 30 T y HP EU HL' LV) as OR. cbv zeta in OR. rewrite YT, EP in OR. destruct (OR O1 (Rlt_not_eq _ _ O2)) as (ra & rp & A1 & A2 & CV).
  eexists V, i, T, y, E, ra, rp, _. do 6 (split; [eassumption|]). split; [eexists; split; [exact O2|split; [apply A1; exact O2|exact A2]]|]. intros eps Heps. rewrite EP in *.
  destruct (FL "VENUS" V i 30 T y) as (d1 & Hd1 & RUN); try (rewrite EP); auto. { intros t Htt. specialize (UP t Htt). cbn [h_trap VENUS]. lra. } rewrite EP in RUN.
  destruct (CV eps Heps) as (d2 & Hd2 & EX).
  set (dt := Rmin d1 d2 / 2). assert (0 < Rmin d1 d2) by (apply Rmin_glb_lt; auto). pose proof (Rmin_l d1 d2). pose proof (Rmin_r d1 d2).
  destruct (RUN 1 (tau VENUS * T + d1 / 2) dt) as (o & f & h & R1 & R2 & R3 & R4); [unfold dt; lra|lra|].
  destruct (EX false E 1 (tau VENUS * T + d1 / 2) dt o f E1 E2 ltac:(unfold dt; lra) R1 R2 R4) as (ra' & rp' & K). 
  exists (tau VENUS * T + d1 / 2), dt, o, f, ra', rp'. split; [unfold dt; lra|]. auto 10.
Qed.
