(** Witnesses of C130: flights out of the atmosphere of Venus, one too high and one too low for two targets, a lost one, a lost one at Uranus
    that is reported as flying away, and a search for the entry angle at which a vehicle at circular speed reaches 1.7 planet radii. *)
From Coq Require Import String List Reals Lra Lia.
Require Import Verif.Base Verif.Numpy Verif.PlanetModel Verif.PlanetProofs Verif.AeroModel Verif.TrajectoryModel Verif.TrajectorySpec Verif.TrajectoryProofs Verif.FlightProofs
  Verif.PropFlight Verif.ExactSpec Verif.ExactProofs Verif.PropExact Verif.PropExactEx Verif.DetSpec Verif.DetProofs Verif.NearSpec Verif.ExistSpec Verif.ExistProofs Verif.PropExist Verif.PropExistEx Verif.ExitSpec Verif.ExitProofs Verif.EnterProofs Verif.PropExit Verif.PropTrap Verif.PropExitRun Verif.PropExitEx
  Verif.FrameModel Verif.FrameProofs Verif.ConicSpec Verif.ConicProofs Verif.OrbiterModel Verif.OrbiterProofs Verif.OrbitModel Verif.OrbitSpec Verif.OrbitProofs Verif.CorridorModel Verif.CorridorSpec Verif.CorridorProofs Verif.PropCorridor Verif.PropExitOrbit Verif.VerdictSpec Verif.VerdictProofs Verif.PropVerdict.
Import ListNotations.
Local Open Scope string_scope.
Local Open Scope R_scope.

Lemma stays : forall name V i d T y, Planet name = Ok (vh_planet V) -> vh_user V = false -> lipschitz_air (vh_planet V) (vh_atm V) -> leaves V i d T y ->
  exists T2 Z, stays_out V i d T T2 Z /\ Z T = y T.
Proof.
  intros name V i d T y HP Hu HL LV. destruct (ref_facts _ _ HP) as (_ & _ & Ht & _ & HR & _). destruct (Planet_facts _ _ HP) as (_ & _ & _ & _ & (Ht0 & Hts) & Hthr & _).
  assert (H0 : 0 < h_thres (vh_planet V)) by lra. destruct (goes_on V i d T y Hu HR H0 HL LV) as (a & Z & Ha & (Z0 & SZ) & EZ & _). pose proof (leaves_top _ _ _ _ _ Hu LV) as AT. pose proof LV as (HT & _ & _ & I & Etop & Hc).
  destruct (climbs_out V (d * PI / 180) (y T) Hu HR H0 HL AT Hc 1 ltac:(lra)) as (eta & Heta & CO). assert (ET : Z T = y T) by (apply EZ; lra).
  set (m := Rmin a eta). assert (Hm : 0 < m) by (apply Rmin_glb_lt; auto). pose proof (Rmin_l a eta : m <= _). pose proof (Rmin_r a eta : m <= _).
  exists (T + m), Z. split; auto. split; [|split; [lra|split; [eapply solves_upto; [exact SZ|lra]|intros t Htt; exact (proj1 (CO Z T (T + a) SZ HT ET t ltac:(lra) ltac:(lra)))]]].
  split; auto. split; auto. split; [eapply solves_upto; [exact SZ|lra]|]. rewrite ET. split; auto. intros t Htt. unfold inside. rewrite (EZ t), (EZ 0) by lra. apply I. auto.
Qed.
Lemma way_out_air : let x := entry_state VENUS way_out in energy (GM VENUS) (position VENUS x) (air_velocity VENUS x) < 0 /\ 0 < norm (position VENUS x).
Proof.
  cbv zeta. destruct (entry_clear "VENUS" VENUS way_out eq_refl) as (E1 & E2 & _). cbn [h0_km v0_kms way_out] in *. set (x := entry_state VENUS way_out) in *. unfold position, air_velocity. rewrite E2. assert (Er : RP VENUS * s_r x = 6231800) by (unfold RP, VENUS in *; lra). rewrite Er.
  split; [|rewrite sph_norm; lra]. rewrite energy_norm by lra. rewrite norm_sq, rel_speed. unfold GM, VENUS. lra.
Qed.
Example C130_answer_witness : exists V, Vehicle 300 50 0.3 4.5 0 1.5 VENUS thick false = Ok V /\ lipschitz_air VENUS thick /\
  (exists i secs target, 0 < secs /\ too_high false V i 30 (target - 1) secs /\ too_low false V i 30 (target + 1) secs) /\ (exists i secs, 0 < secs /\ lost V i 30 secs).
Proof.
  destruct thick_made as (V & HV). destruct thick_facts as (Ha & HL). destruct way_out_facts as (F1 & F2 & F3 & F4). destruct way_out_air as (O1 & O2).
  destruct (Vehicle_inv _ _ _ _ _ _ _ _ _ _ HV) as (_ & _ & _ & _ & _ & _ & _ & EP & EA & EU & _). assert (HP : Planet "VENUS" = Ok (vh_planet V)) by (rewrite EP; reflexivity).
  destruct (ref_facts "VENUS" VENUS eq_refl) as (HVr & _ & Ht & _). assert (HL' : lipschitz_air (vh_planet V) (vh_atm V)) by (rewrite EP, EA; exact HL).
  exists V. split; auto. split; auto. split.
  - destruct (C129_reached "VENUS" V (entry_state VENUS way_out) 30 100000 HP EU HL') as (i & T & y & HT & LV & YT & UP & IA); try (rewrite EP); auto; [cbn [h_thres VENUS]; lra|].
    destruct (stays "VENUS" V i 30 T y HP EU HL' LV) as (T2 & Z & SO & ZT). rewrite YT in ZT. pose proof SO as (_ & HT2 & _). destruct (apoapsis_of VENUS _ _ ltac:(unfold GM, VENUS; lra) O2 O1) as (_ & AP). set (ra := - GM VENUS / _ * _) in AP.
    assert (Hv : judged false VENUS (entry_state VENUS way_out) <> vzero) by (apply moving_air; auto; intros K; rewrite K in F2; lra).
    exists i, (tau VENUS * ((T + T2) / 2)), ((ra - RP VENUS) / 1000).
    assert (Hs : tau VENUS * T < tau VENUS * ((T + T2) / 2) < tau VENUS * T2) by (split; apply Rmult_lt_compat_l; lra).
    split; [apply Rmult_lt_0_compat; lra|]. split; exists T, T2, Z; (split; [exact SO|]); rewrite ZT, EP; (split; [exact Hs|]); (split; [exact Hv|]).
    + right. split; auto. exists ra. split; auto. lra.
    + split; auto. exists ra. split; auto. lra.
  - set (p := VENUS). set (x := mkState ((RP p + h_trap p) / RP p) 0 0 1 0 (- (PI / 4)) 0). pose proof PI_RGT_0 as HPI. pose proof PI_4.
    assert (S1 : s_v x * sin (s_gamma x) < 0) by (cbn [x s_v s_gamma]; rewrite sin_neg; assert (0 < sin (PI / 4)) by (apply sin_gt_0; lra); lra).
    assert (Ex : height (vh_planet V) x = h_trap (vh_planet V)) by (rewrite EP; unfold height, x; cbn [s_r RP h_trap VENUS URANUS p]; lra).
    assert (Cx : cos (s_gamma x) <> - 0.01) by (cbn [x s_gamma]; rewrite cos_neg; assert (0 < cos (PI / 4)) by (apply cos_gt_0; lra); lra).
    assert (Px : cos (s_phi x) <> 0) by (cbn [x s_phi]; rewrite cos_0; lra).
    destruct (C129_trap_reached "VENUS" V x 30 HP EU HL' Ex S1 Px Cx) as (i & T2 & y & T & HT & W & SK & _). pose proof (way_passage _ _ _ _ _ W) as PW.
    exists i, (tau VENUS * ((T + T2) / 2)). split; [apply Rmult_lt_0_compat; lra|]. exists T, T2, y. rewrite EP. split; auto. split; [lra|]. split; auto. split; apply Rmult_lt_compat_l; lra.
Qed.

(** A fast plunge into Uranus. *)
Lemma thick_uranus : lipschitz_air URANUS thick.
Proof.
  exists 65. intros h h' _ _. cbn [density_int thick]. replace (65 * (1 - h / 200000) - 65 * (1 - h' / 200000)) with (- (65 / 200000) * (h - h')) by lra. rewrite Rabs_mult, Rabs_Ropp, (Rabs_right (65 / 200000)) by lra. pose proof (Rabs_pos (h - h')). nra.
Qed.
Example C130_uranus_witness : exists V i secs E, Vehicle 300 50 0.3 4.5 0 1.5 URANUS thick false = Ok V /\ engine_ok E /\ exact E /\ lost V i 30 secs /\
  exists delta, 0 < delta /\ forall dt, 0 < dt < delta -> exists o f, hitsTargetApoapsis E (mkObj V i 1 None None) secs dt 30 1000 = (o, Ok (-1)) /\ ob_flight o = Some f /\ f_exitflag f = -1.
Proof.
  assert (HV : exists V, Vehicle 300 50 0.3 4.5 0 1.5 URANUS thick false = Ok V) by (unfold Vehicle; rcases; try lra; eexists; reflexivity). destruct HV as (V & HV).
  destruct (Vehicle_inv _ _ _ _ _ _ _ _ _ _ HV) as (_ & _ & _ & _ & _ & _ & _ & EP & EA & EU & _). assert (HP : Planet "URANUS" = Ok (vh_planet V)) by (rewrite EP; reflexivity).
  destruct (ref_facts "URANUS" URANUS eq_refl) as (HVr & HV2 & Ht & _). assert (HL' : lipschitz_air (vh_planet V) (vh_atm V)) by (rewrite EP, EA; exact thick_uranus).
  set (x := mkState ((RP URANUS + h_trap URANUS) / RP URANUS) 0 0 2 0 (- (PI / 4)) 0). pose proof PI_RGT_0 as HPI. pose proof PI_4.
  assert (S1 : s_v x * sin (s_gamma x) < 0) by (cbn [x s_v s_gamma]; rewrite sin_neg; assert (0 < sin (PI / 4)) by (apply sin_gt_0; lra); lra).
  assert (Ex : height (vh_planet V) x = h_trap (vh_planet V)) by (rewrite EP; unfold height, x; cbn [s_r RP h_trap URANUS]; lra).
  assert (Cx : cos (s_gamma x) <> - 0.01) by (cbn [x s_gamma]; rewrite cos_neg; assert (0 < cos (PI / 4)) by (apply cos_gt_0; lra); lra).
  assert (Px : cos (s_phi x) <> 0) by (cbn [x s_phi]; rewrite cos_0; lra).
  destruct (C129_trap_reached "URANUS" V x 30 HP EU HL' Ex S1 Px Cx) as (i & T2 & y & T & HT & W & SK & YT). pose proof (way_passage _ _ _ _ _ W) as PW.
  destruct C129_trap_flown as (E & HE & HX & FL). destruct (FL "URANUS" V i 30 T2 y T HP EU HL' (way_passage _ _ _ _ _ W) HT SK) as (d1 & Hd1 & RUN). clear FL. rewrite EP in RUN.
  assert (OV : overshoots URANUS (position URANUS x) (air_velocity URANUS x) 1000).
  { left. unfold position, air_velocity. cbn [x s_r s_v s_theta s_phi s_gamma s_psi]. replace (RP URANUS * ((RP URANUS + h_trap URANUS) / RP URANUS)) with 25569e3 by (cbn [RP h_trap URANUS]; lra). rewrite energy_norm by lra. rewrite norm_sq, rel_speed. replace (Vref URANUS * 2 * (Vref URANUS * 2)) with (4 * (Vref URANUS * Vref URANUS)) by ring.
    replace (Vref URANUS * Vref URANUS) with (GM URANUS / RP URANUS) by (rewrite <- HV2; cbn; ring). cbn [GM RP URANUS]. lra. }
  set (secs := tau URANUS * T + Rmin d1 (tau URANUS * (T2 - T)) / 2). assert (Hm : 0 < Rmin d1 (tau URANUS * (T2 - T))) by (apply Rmin_glb_lt; auto; apply Rmult_lt_0_compat; lra). pose proof (Rmin_l d1 (tau URANUS * (T2 - T))). pose proof (Rmin_r d1 (tau URANUS * (T2 - T))).
  assert (Hs : tau URANUS * T < secs < tau URANUS * T2) by (unfold secs; split; lra).
  destruct (C130_uranus_lost V i 30 1000 T2 T y secs HP EU HL' (way_passage _ _ _ _ _ W) ltac:(lra) SK) as (d2 & Hd2 & G); [rewrite EP; exact Hs|rewrite EP, YT; exact OV|].
  exists V, i, secs, E. split; auto. split; auto. split; auto. split; [exists T, T2, y; rewrite EP; split; auto; split; [lra|]; split; auto|].
  exists (Rmin d1 d2). split; [apply Rmin_glb_lt; auto|]. pose proof (Rmin_l d1 d2). pose proof (Rmin_r d1 d2). intros dt Hdt. destruct (RUN 1 secs dt ltac:(lra) ltac:(unfold secs; lra)) as (o & f & h & R1 & R2 & _ & R4).
  assert (Q : exists a, hitsTargetApoapsis E (mkObj V i 1 None None) secs dt 30 1000 = (o, Ok a)). { unfold hitsTargetApoapsis. rewrite R1. cbn [ask_flight]. rewrite R2. unfold low_override. cbn [ob_veh]. rewrite EP. cbn [h_low URANUS]. eexists. reflexivity. }
  destruct Q as (a & Q). pose proof (G E 1 None None dt o a HE HX ltac:(lra) Q) as ->. exists o, f. auto.
Qed.

(** At the top of the atmosphere of Venus at circular speed: climbing at the angle [g] the vehicle will get to 1 + sin g radii. *)
Definition circle (g : R) : init := mkInit 180 0 0 (sqrt (GM VENUS / 6231800) / 1000) 0 g 0 0.
Lemma circle_clear : forall g, let x := entry_state VENUS (circle g) in RP VENUS * s_r x = 6231800 /\ (Vref VENUS * s_v x) * (Vref VENUS * s_v x) = GM VENUS / 6231800 /\ 0 < s_v x /\ s_phi x = 0 /\ s_gamma x = g * PI / 180.
Proof.
  intros g x. destruct (entry_clear "VENUS" VENUS (circle g) eq_refl) as (E1 & E2 & E3 & E4). fold x in E1, E2, E3, E4. cbn [h0_km v0_kms phi0_deg gamma0_deg circle] in *. destruct (ref_facts "VENUS" VENUS eq_refl) as (HV & _).
  assert (Q : 0 < GM VENUS / 6231800) by (unfold GM, VENUS; lra). pose proof (sqrt_lt_R0 _ Q) as Q1. pose proof (sqrt_sqrt _ (Rlt_le _ _ Q)) as Q2. set (w := sqrt (GM VENUS / 6231800)) in *. assert (E2' : Vref VENUS * s_v x = w) by (rewrite E2; field).
  split; [unfold RP, VENUS in *; lra|]. split; [rewrite E2'; exact Q2|]. split; [apply (Rmult_lt_reg_l (Vref VENUS)); auto; rewrite E2'; lra|]. split; [rewrite E3; field|exact E4].
Qed.
Lemma circle_apoapsis : forall g, 0 <= sin (g * PI / 180) -> let x := entry_state VENUS (circle g) in let r := position VENUS x in let v := air_velocity VENUS x in
  energy (GM VENUS) r v < 0 /\ is_apoapsis (GM VENUS) (energy (GM VENUS) r v) (norm (ang_mom r v)) (6231800 * (1 + sin (g * PI / 180))).
Proof.
  intros g Hs x r v. destruct (circle_clear g) as (E1 & E2 & _ & _ & E5). fold x in E1, E2, E5. set (mu := GM VENUS) in *. assert (Hm : 0 < mu) by (unfold mu, GM, VENUS; lra).
  assert (EE : energy mu r v = - mu / (2 * 6231800)). { unfold r, v, position, air_velocity. rewrite E1. rewrite energy_norm by lra. rewrite norm_sq, rel_speed, E2. lra. }
  assert (HH : norm (ang_mom r v) * norm (ang_mom r v) = mu * 6231800 * (cos (g * PI / 180) * cos (g * PI / 180))).
  { unfold r, v, position, air_velocity. rewrite E1, rel_ang_mom by lra. rewrite E5. replace (6231800 * (Vref VENUS * s_v x) * cos (g * PI / 180) * (6231800 * (Vref VENUS * s_v x) * cos (g * PI / 180))) with (6231800 * 6231800 * ((Vref VENUS * s_v x) * (Vref VENUS * s_v x)) * (cos (g * PI / 180) * cos (g * PI / 180))) by ring. rewrite E2. lra. }
  assert (Neg : energy mu r v < 0) by (rewrite EE; lra). split; auto.
  replace (6231800 * (1 + sin (g * PI / 180))) with (- mu / (2 * energy mu r v) * (1 + sin (g * PI / 180))) by (rewrite EE; field; lra).
  apply apoapsis_formula; auto. rewrite HH, EE. pose proof (sin2cos2 (g * PI / 180)) as SC. replace (sin (g * PI / 180) * sin (g * PI / 180)) with (1 - cos (g * PI / 180) * cos (g * PI / 180)) by lra. field. lra.
Qed.
Lemma circle_leaves : forall V g d, vh_planet V = VENUS -> vh_user V = false -> 0 < g <= 90 -> leaves V (circle g) d 0 (fun _ => entry_state VENUS (circle g)).
Proof.
  intros V g d EP EU Hg. destruct (circle_clear g) as (E1 & _ & E3 & E4 & E5). set (x := entry_state VENUS (circle g)) in *. pose proof PI_RGT_0 as HPI.
  assert (Hr : s_r x <> 0) by (intros Z; rewrite Z in E1; lra). assert (S1 : 0 < sin (s_gamma x)) by (rewrite E5; apply sin_gt_0; nra). assert (C1 : 0 <= cos (s_gamma x)) by (rewrite E5; apply cos_ge_0; nra).
  split; [lra|]. rewrite EP. split; [reflexivity|]. split; [|split; [intros; lra|split; [unfold height; rewrite E1; unfold RP, h_thres, VENUS; lra|nra]]].
  exists []. intros t Ht. split; [repeat split; apply continuity_pt_const; intros a b; reflexivity|]. eexists. split; [apply field_defined; auto; [lra|rewrite E4, cos_0; lra|lra]|intros; lra].
Qed.
Lemma one_round : forall ask o low high tol a, good ask -> tol < Rabs (high - low) -> Rabs (0.5 * (low + high) - low) <= tol ->
  answer ask o low = Ok a -> answer ask o (0.5 * (low + high)) = Ok (- a) -> answer ask o high = Ok (- a) -> exists o', limit_search ask tol 1 o low high = Some (o', Ok (0.5 * (low + high), 1)).
Proof.
  intros ask o low high tol a G T1 T2 A1 A2 A3. unfold answer in *. set (mid := 0.5 * (low + high)) in *.
  assert (Ha : a * - a < 0) by (destruct (g_pm _ G _ _ A1) as [-> | ->]; lra).
  assert (K : forall o1 g r, reached o o1 -> snd (ask (set_gamma0 o g)) = r -> exists o2, ask (set_gamma0 o1 g) = (o2, r) /\ reached o o2).
  { intros o1 g r R1 <-. destruct (ask_reached ask G o o1 g R1) as (E & Sm). destruct (ask (set_gamma0 o1 g)) as [o2 r2]. cbn [fst snd] in *. exists o2. split; [f_equal; exact E|exists g; exact Sm]. }
  assert (R0 : reached o o) by (exists (gamma0_deg (ob_init o)); apply same_sym, set_own). unfold limit_search, search.
  destruct (K _ _ _ R0 A1) as (o1 & -> & R1). cbn [call]. destruct (K _ _ _ R1 A3) as (o2 & -> & R2). cbn [call]. rewrite (proj2 (Rltb_true _ _) Ha).
  cbn [bisect]. rewrite (proj2 (Rltb_true _ _) T1). fold mid. destruct (K _ _ _ R2 A1) as (o3 & -> & R3). cbn [call]. destruct (K _ _ _ R3 A2) as (o4 & -> & R4). cbn [call]. destruct (K _ _ _ R4 A3) as (o5 & -> & R5). cbn [call]. rewrite (proj2 (Rltb_true _ _) Ha).
  destruct (Rltb_spec tol (Rabs (mid - low))); [lra|]. cbn [then_ call bound]. eexists. reflexivity.
Qed.
Lemma thirty : forall g, division 30 90 1 g -> g = 30 \/ g = 60 \/ g = 90.
Proof. intros g (k & Hk & ->). destruct k as [|[|[|k]]]; [left; cbn; lra|right; left; cbn; lra|right; right; cbn; lra|cbn in Hk; lia]. Qed.
Example C130_witness : exists V b target secs E, Vehicle 300 50 0.3 4.5 0 1.5 VENUS thick false = Ok V /\ 0 < secs /\ true_boundary V (circle 45) 180 target secs 30 90 1 b /\ engine_ok E /\ exact E /\
  exists delta, 0 < delta /\ forall dt, 0 < dt < delta -> exists o, findOverShootLimit E 1 (mkObj V (circle 45) 1 None None) secs dt 30 90 30 target = Some (o, Ok (60, 1)) /\ Rabs (60 - b) <= 30.
Proof.
  destruct thick_made as (V & HV). destruct thick_facts as (Ha & HL).
  destruct (Vehicle_inv _ _ _ _ _ _ _ _ _ _ HV) as (_ & _ & _ & _ & _ & _ & _ & EP & EA & EU & _). assert (HP : Planet "VENUS" = Ok (vh_planet V)) by (rewrite EP; reflexivity).
  destruct (ref_facts "VENUS" VENUS eq_refl) as (HVr & _ & Ht & _). assert (HL' : lipschitz_air (vh_planet V) (vh_atm V)) by (rewrite EP, EA; exact HL).
  destruct C129_flown as (E & HE & HX & FL). set (target := (1.7 * 6231800 - RP VENUS) / 1000).
  assert (ONE : forall g, 0 < g <= 90 -> exists m, 0 < m /\ (forall secs, 0 < secs < m -> exists T2 Z, stays_out V (circle g) 180 0 T2 Z /\ Z 0 = entry_state VENUS (circle g) /\ secs < tau VENUS * T2) /\
    exists d, 0 < d /\ forall secs dt, 0 < secs < m -> 0 < dt < d -> exists a, snd (hitsTargetApoapsis E (mkObj V (circle g) 1 None None) secs dt 180 target) = Ok a).
  { intros g Hg. pose proof (circle_leaves V g 180 EP EU Hg) as LV. destruct (stays "VENUS" V (circle g) 180 0 _ HP EU HL' LV) as (T2 & Z & SO & ZT). cbv beta in ZT. pose proof SO as (_ & HT2 & _).
    destruct (FL "VENUS" V (circle g) 180 0 _ HP EU HL' LV) as (d & Hd & RUN). { intros t Htt. rewrite EP. destruct (circle_clear g) as (E1 & _). unfold height. rewrite E1. unfold RP, h_trap, VENUS. lra. }
    rewrite EP in RUN. assert (H2 : 0 < tau VENUS * T2) by (apply Rmult_lt_0_compat; lra). exists (Rmin d (tau VENUS * T2)). split; [apply Rmin_glb_lt; auto|]. pose proof (Rmin_l d (tau VENUS * T2)). pose proof (Rmin_r d (tau VENUS * T2)). split.
    - intros secs Hs. exists T2, Z. split; auto. split; auto. lra.
    - exists d. split; auto. intros secs dt Hs Hdt. destruct (RUN 1 secs dt Hdt ltac:(lra)) as (o & f & h & R1 & R2 & _). unfold hitsTargetApoapsis. rewrite R1. cbn [ask_flight]. rewrite R2. unfold low_override. cbn [ob_veh]. rewrite EP. cbn [h_low VENUS snd]. eexists. reflexivity. }
  destruct (ONE 30 ltac:(lra)) as (m1 & Hm1 & S1 & e1 & He1 & A1). destruct (ONE 60 ltac:(lra)) as (m2 & Hm2 & S2 & e2 & He2 & A2). destruct (ONE 90 ltac:(lra)) as (m3 & Hm3 & S3 & e3 & He3 & A3). clear ONE FL.
  set (m := Rmin m1 (Rmin m2 m3)). assert (Hm : 0 < m) by (repeat apply Rmin_glb_lt; auto). pose proof (Rmin_l m1 (Rmin m2 m3) : m <= _). pose proof (Rmin_r m1 (Rmin m2 m3) : m <= _). pose proof (Rmin_l m2 m3). pose proof (Rmin_r m2 m3).
  set (secs := m / 2). assert (Hs : 0 < secs) by (unfold secs; lra).
  assert (Q1 : sin (30 * PI / 180) = 1 / 2) by (replace (30 * PI / 180) with (PI / 6) by lra; apply sin_PI6). assert (Q2 : 1.4 / 2 < sin (60 * PI / 180)).
  { replace (60 * PI / 180) with (PI / 3) by lra. rewrite sin_PI3. assert (1.4 < sqrt 3); [|lra]. rewrite <- (sqrt_Rsqr 1.4) by lra. apply sqrt_lt_1; unfold Rsqr; lra. }
  assert (Q3 : sin (90 * PI / 180) = 1) by (replace (90 * PI / 180) with (PI / 2) by lra; apply sin_PI2).
  assert (MV : forall g, 0 < g <= 90 -> judged false VENUS (entry_state VENUS (circle g)) <> vzero) by (intros g Hg; apply moving_air; auto; destruct (circle_clear g) as (_ & _ & K & _); lra).
  assert (W1 : verdict V (circle 30) 180 target secs 1).
  { right. split; auto. left. destruct (S1 secs ltac:(unfold secs; lra)) as (T2 & Z & SO & Z0 & K). exists 0, T2, Z. rewrite EP, Z0. split; auto. split; [lra|]. split; [apply MV; lra|]. destruct (circle_apoapsis 30 ltac:(lra)) as (N & AP). split; [exact N|]. eexists. split; [exact AP|]. rewrite Q1. unfold target. lra. }
  assert (W2 : verdict V (circle 60) 180 target secs (-1)).
  { left. split; auto. destruct (S2 secs ltac:(unfold secs; lra)) as (T2 & Z & SO & Z0 & K). exists 0, T2, Z. rewrite EP, Z0. split; auto. split; [lra|]. split; [apply MV; lra|]. destruct (circle_apoapsis 60 ltac:(lra)) as (N & AP). right. split; [exact N|]. eexists. split; [exact AP|]. unfold target. lra. }
  assert (W3 : verdict V (circle 90) 180 target secs (-1)).
  { left. split; auto. destruct (S3 secs ltac:(unfold secs; lra)) as (T2 & Z & SO & Z0 & K). exists 0, T2, Z. rewrite EP, Z0. split; auto. split; [lra|]. split; [apply MV; lra|]. destruct (circle_apoapsis 90 ltac:(lra)) as (N & AP). right. split; [exact N|]. eexists. split; [exact AP|]. rewrite Q3. unfold target. lra. }
  assert (TB : true_boundary V (circle 45) 180 target secs 30 90 1 40).
  { split; [lra|]. split; [intros D; apply thirty in D; lra|]. exists 1. intros g D. apply thirty in D. destruct D as [-> |[-> | ->]]; (split; intros K; try lra; assumption). }
  exists V, 40, target, secs, E. split; auto. split; auto. split; auto. split; auto. split; auto.
  destruct (C130_boundary "VENUS" V (circle 45) 180 target secs 30 90 30 1 40 HP ltac:(discriminate) EU HL' ltac:(cbn; lra) TB) as (d0 & Hd0 & BD).
  assert (EXACT : forall g a, verdict V (circle g) 180 target secs a -> exists d, 0 < d /\ forall dt o r, 0 < dt < d -> hitsTargetApoapsis E (mkObj V (circle g) 1 None None) secs dt 180 target = (o, Ok r) -> r = a).
  { intros g a W. destruct (C130_answer "VENUS" V (circle g) 180 target secs HP EU HL') as (B1 & B2). destruct W as [(-> & W)|(-> & W)].
    - destruct (B1 W) as (d & Hd & B). exists d. split; auto. intros dt o r Hdt. apply B; auto.
    - destruct B2 as (d & Hd & B); [destruct W; [left; auto|right; split; [discriminate|auto]]|]. exists d. split; auto. intros dt o r Hdt. apply B; auto. }
  destruct (EXACT _ _ W1) as (f1 & Hf1 & X1). destruct (EXACT _ _ W2) as (f2 & Hf2 & X2). destruct (EXACT _ _ W3) as (f3 & Hf3 & X3).
  exists (Rmin d0 (Rmin (Rmin e1 (Rmin e2 e3)) (Rmin f1 (Rmin f2 f3)))). split; [repeat apply Rmin_glb_lt; auto|]. intros dt (Hdt0 & Hdt). apply Rmin_Rgt_l in Hdt. destruct Hdt as (Hdt1 & Hdt). apply Rmin_Rgt_l in Hdt. destruct Hdt as (Hdt2 & Hdt3). apply Rmin_Rgt_l in Hdt2. destruct Hdt2 as (K1 & K2). apply Rmin_Rgt_l in K2. apply Rmin_Rgt_l in Hdt3. destruct Hdt3 as (K3 & K4). apply Rmin_Rgt_l in K4.
  assert (AN : forall g a, (exists r, snd (hitsTargetApoapsis E (mkObj V (circle g) 1 None None) secs dt 180 target) = Ok r) -> (forall o r, hitsTargetApoapsis E (mkObj V (circle g) 1 None None) secs dt 180 target = (o, Ok r) -> r = a) ->
    answer (fun o => hitsTargetApoapsis E o secs dt 180 target) (mkObj V (circle 45) 1 None None) g = Ok a).
  { intros g a (r & R) U. unfold answer. change (set_gamma0 (mkObj V (circle 45) 1 None None) g) with (mkObj V (circle g) 1 None None). destruct (hitsTargetApoapsis E (mkObj V (circle g) 1 None None) secs dt 180 target) as [o q]. cbn [snd] in R |- *. subst q. rewrite (U o r eq_refl). reflexivity. }
  assert (Emid : 0.5 * (30 + 90) = 60) by lra.
  destruct (one_round (fun o => hitsTargetApoapsis E o secs dt 180 target) (mkObj V (circle 45) 1 None None) 30 90 30 1 (good_hits _ _ _ _ _)) as (o & F); try rewrite Emid.
  - rewrite Rabs_right; lra.
  - rewrite Rabs_right; lra.
  - apply AN; [apply A1; unfold secs; lra|intros o r; apply X1; lra].
  - apply AN; [apply A2; unfold secs; lra|intros o r; apply X2; lra].
  - apply AN; [apply A3; unfold secs; lra|intros o r; apply X3; lra].
  - rewrite Emid in F. exists o. split; [exact F|]. exact (proj2 (BD E _ 1 None None dt 1%nat o 60 1 HE HX ltac:(lra) (or_introl eq_refl) F)).
Qed.
