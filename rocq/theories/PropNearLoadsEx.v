(** Witness of C135: the steep entry of C126 through thick air, and entries a little faster. *)
From Coq Require Import String List.
Require Import Verif.Base Verif.Numpy Verif.PlanetModel Verif.PlanetProofs Verif.AeroModel Verif.TrajectoryModel Verif.TrajectorySpec Verif.TrajectoryProofs Verif.FlightProofs
  Verif.PropFlight Verif.ReportSpec Verif.ExactSpec Verif.ExactProofs Verif.PropExact Verif.PropExactEx Verif.DetSpec Verif.DetProofs Verif.PropDet Verif.ExistSpec Verif.ExistProofs Verif.PropExist Verif.PropExistEx Verif.PropExistRun
  Verif.HeatIntSpec Verif.PropHeatInt Verif.PropHeatIntEx Verif.NearSpec Verif.NearProofs Verif.PropNear Verif.ExitSpec Verif.EnterProofs Verif.NearExitSpec Verif.PropBoundary Verif.PropEnter Verif.PropEnterRun Verif.PropEnterEx Verif.NearLoadSpec.
Import ListNotations.
Local Open Scope string_scope.
Local Open Scope R_scope.

Definition faster_start (q : R) : init := mkInit 120 10 60 (11 + q) 45 (-60) 0 0.
Example C135_witness : exists V E T y secs dt o f, Vehicle 300 50 0.3 4.5 0 1.5 VENUS thick false = Ok V /\ lipschitz_air VENUS thick /\ lipschitz_pressure VENUS thick /\ some_air VENUS thick /\ engine_ok E /\ exact E /\
  passage V steep_start 30 T y /\ 0 <= T /\ 0 < dt /\ propogateEntry E (mkObj V steep_start 1 None None) secs dt 30 = (o, Ok tt) /\ ob_flight o = Some f /\
  (1 < length (p_t (f_plot f)))%nat /\ time_of VENUS (f_plot f) 1 <= T /\ 0 < nth 1 (f_dyn f) 0 /\ 0 < speed_at f 1 /\ ~ In (speed_at f 1) (heat_breaks (ID VENUS)) /\
  forall eta, 0 < eta -> exists q o' f', 0 < q /\ exact_within eta E (fun x => EOM V x (30 * PI / 180)) /\ vehicle_within eta V V /\ build_within eta V V /\ starts_near eta VENUS steep_start (faster_start q) /\
    propogateEntry2 E (mkObj V (faster_start q) 2 None None) secs dt 30 = (o', Ok tt) /\ ob_flight o' = Some f' /\ (1 < length (p_t (f_plot f')))%nat /\ nth 1 (p_t (f_plot f)) 0 = nth 1 (p_t (f_plot f')) 0.
Proof.
  destruct thick_made as (V & HV). destruct thick_facts as (Ha & HL).
  destruct (Vehicle_inv _ _ _ _ _ _ _ _ _ _ HV) as (_ & _ & _ & _ & _ & _ & _ & EP & EA & EU & _). assert (HP : Planet "VENUS" = Ok (vh_planet V)) by (rewrite EP; reflexivity).
  assert (HL' : lipschitz_air (vh_planet V) (vh_atm V)) by (rewrite EP, EA; exact HL).
  destruct (ref_facts _ _ HP) as (HVr & _ & Ht & _ & HRP & _). destruct (entry_clear "VENUS" _ steep_start HP) as (E1 & E2 & _).
  destruct (C126_exists "VENUS" V steep_start 30) as (T0 & y & HT0 & W0); auto.
  { rewrite EP. cbn. lra. } { cbn. lra. }
  { cbn [phi0_deg steep_start]. replace (60 * PI / 180) with (PI / 3) by lra. rewrite cos_PI3. lra. }
  { cbn [gamma0_deg steep_start]. replace (-60 * PI / 180) with (- (PI / 3)) by lra. rewrite cos_neg, cos_PI3. lra. }
  destruct W0 as (Y0 & S & I). pose proof S as (cs & SC).
  destruct (stays_above (fun t => Vref (vh_planet V) * s_v (y t)) 10000 T0 HT0) as (T1 & HT1 & Fast).
  { intros t Htt. apply (continuity_pt_scal (fun u => s_v (y u))). apply (SC t Htt). }
  { rewrite Y0, E2. cbn. lra. }
  destruct (stays_above (fun t => RP (vh_planet V) * s_r (y t)) (RP (vh_planet V) + 100000) T1 ltac:(lra)) as (T & HT & High).
  { intros t Htt. apply (continuity_pt_scal (fun u => s_r (y u))). apply (SC t). lra. }
  { rewrite Y0. assert (100000 < h0_km steep_start * 1000) by (cbn; lra). lra. }
  assert (W : way V steep_start 30 T y) by (split; [auto|split; [eapply solves_upto; [exact S|lra]|intros t Htt; apply I; lra]]).
  destruct C126_flown as (E & HE & HX & FL). set (X := tau (vh_planet V) * T). assert (HXp : 0 < X) by (apply Rmult_lt_0_compat; lra).
  assert (Htrap : h_trap (vh_planet V) = 10000) by (rewrite EP; reflexivity).
  destruct (FL "VENUS" V steep_start 30 T y 1 (X / 2) (X / 4)) with (two := false) as (o & f & h & P & F & Hh & Ln & N); auto; try lra.
  { fold X. lra. } { intros t Htt. specialize (High t ltac:(lra)). cbv beta in High. lra. }
  assert (LN : forall n : nat, X / 2 <= INR (n - 1) * (X / 4) < X / 2 + X / 4 -> (1 < n)%nat) by (intros n Hn; assert (1 < n - 1 \/ n - 1 <= 1)%nat as [?|Z] by lia; [lia|]; apply le_INR in Z; cbn [INR] in Z; nra).
  pose proof (LN _ Ln) as L1. destruct (N 1%nat L1) as (N1 & Sh). pose proof Sh as (S1 & S2 & _). cbn [INR] in *. set (s := 1 * (X / 4) / tau (vh_planet V)) in *.
  assert (Es : s = T / 4) by (unfold s, X; field; lra).
  pose proof (Fast s ltac:(lra)) as F1. pose proof (I s ltac:(lra)) as I1. cbv beta in F1. unfold in_air in I1.
  assert (Sp : 10000 < speed_at f 1) by (unfold speed_at; lra). assert (Al : 0 < altitude_at f 1 < h_thres (vh_planet V)) by (unfold altitude_at; lra).
  destruct (flight_laws false E "VENUS" V steep_start 1 (X / 2) (X / 4) 30 o f HE HP EU P F) as (_ & _ & RR). destruct (RR 1%nat L1) as (D1 & _). cbv zeta in D1.
  exists V, E, T, y, (X / 2), (X / 4), o, f. split; auto. split; auto. split.
  { exists 0. intros a b _ _. cbn [pressure_int thick]. rewrite Rminus_diag_eq, Rabs_R0 by reflexivity. lra. }
  split; [exact thick_some|]. split; auto. split; auto. split; [exact (way_passage _ _ _ _ _ W)|]. split; [lra|]. split; [lra|]. split; auto. split; auto. split; auto.
  split. { unfold time_of. rewrite N1. rewrite <- EP. fold s. lra. }
  split. { pose proof (thick_some (altitude_at f 1) ltac:(rewrite EP in Al; lra)) as PR. rewrite EA in D1. assert (0 < speed_at f 1 * speed_at f 1) by nra. assert (0 < density_int thick (altitude_at f 1) * (speed_at f 1 * speed_at f 1)) by (apply Rmult_lt_0_compat; auto). lra. }
  split; [lra|]. split. { intros [Z|[Z|[]]]; rewrite <- Z in Sp; lra. }
  intros eta Heta. destruct (C134_flights "VENUS" V steep_start 30 T y 0.001 HP EU HL' (way_passage _ _ _ _ _ W) ltac:(lra) ltac:(lra)) as (e & He & FLI).
  set (q := Rmin e eta). assert (Hq : 0 < q) by (apply Rmin_glb_lt; auto). pose proof (Rmin_l e eta : q <= e). pose proof (Rmin_r e eta : q <= eta).
  assert (SW : forall c, q <= c -> start_within c steep_start (faster_start q)).
  { intros c Hc. unfold start_within, steep_start, faster_start. cbn [h0_km theta0_deg phi0_deg v0_kms psi0_deg gamma0_deg drange0_km]. assert (Z : forall u : R, Rabs (u - u) <= c) by (intros u; rewrite Rminus_diag_eq, Rabs_R0 by reflexivity; lra).
    repeat split; try apply Z. rewrite Rabs_left; lra. }
  destruct (FLI (faster_start q)) as (z & PZ & DZ); [split; [auto|rewrite EP; cbn; lra]|].
  assert (WZ : way V (faster_start q) 30 T z).
  { apply passage_way; auto. destruct (entry_clear "VENUS" _ (faster_start q) HP) as (G1 & _). unfold in_air. rewrite G1, EP. cbn. lra. }
  destruct (FL "VENUS" V (faster_start q) 30 T z 2 (X / 2) (X / 4)) with (two := true) as (o' & f' & h' & P' & F' & Hh' & Ln' & N'); auto; try lra.
  { fold X. lra. }
  { intros t Htt. specialize (High t ltac:(lra)). cbv beta in High. destruct (DZ t Htt) as (D & _). assert (RPV : RP (vh_planet V) = 6051.8e3) by (rewrite EP; reflexivity).
    assert (s_r (y t) - s_r (z t) <= 0.001) by (pose proof (Rle_abs (s_r (y t) - s_r (z t))); lra). rewrite RPV in *. lra. }
  pose proof (LN _ Ln') as L1'. destruct (N' 1%nat L1') as (N1' & _). cbn [INR] in N1'.
  assert (Z : forall u, Rabs (u - u) <= eta) by (intros u; rewrite Rminus_diag_eq, Rabs_R0 by reflexivity; lra).
  exists q, o', f'. split; auto. split; [apply exact_nearly; auto; lra|]. split; [apply within_self; auto; lra|]. split; [repeat split; try apply Z; intros; apply Z|]. split; [split; [apply SW; lra|cbn; lra]|]. split; auto. split; auto. split; auto. lra.
Qed.
(** From the top: the entry of C132, and faster ones, each flown by both versions. *)
Definition faster_in (q : R) : init := mkInit 180 20 30 (11 + q) 45 (-8) 0 0.
Example C125_top_witness : exists V T y E, Vehicle 300 50 0.3 4.5 0 1.5 VENUS thick false = Ok V /\ lipschitz_air VENUS thick /\ 0 < T /\ passage V way_in 30 T y /\ height VENUS (y 0) = h_thres VENUS /\ engine_ok E /\ exact E /\
  forall eta, 0 < eta -> exists q, 0 < q /\ starts_near eta VENUS way_in (faster_in q) /\ exact_within eta E (fun x => EOM V x (30 * PI / 180)) /\ vehicle_within eta V V /\
    forall two : bool, exists o f o' f', (if two then propogateEntry2 else propogateEntry) E (mkObj V way_in 1 None None) (tau VENUS * T / 2) (tau VENUS * T / 20) 30 = (o, Ok tt) /\ ob_flight o = Some f /\
      (if two then propogateEntry2 else propogateEntry) E (mkObj V (faster_in q) 1 None None) (tau VENUS * T / 2) (tau VENUS * T / 20) 30 = (o', Ok tt) /\ ob_flight o' = Some f'.
Proof.
  destruct C132_witness as (V & T0 & y & _ & HV & HL & HT0 & PA0 & Top & _). destruct (Vehicle_inv _ _ _ _ _ _ _ _ _ _ HV) as (_ & _ & _ & _ & _ & _ & _ & EP & EA & EU & _). assert (HP : Planet "VENUS" = Ok (vh_planet V)) by (rewrite EP; reflexivity).
  assert (HL' : lipschitz_air (vh_planet V) (vh_atm V)) by (rewrite EP, EA; exact HL). destruct (ref_facts "VENUS" VENUS eq_refl) as (_ & _ & Ht & _).
  pose proof PA0 as (_ & (cs & SC) & _).
  destruct (stays_above (fun t => RP VENUS * s_r (y t)) (RP VENUS + 100000) T0 HT0) as (T & HT & High).
  { intros t Htt. apply (continuity_pt_scal (fun u => s_r (y u))). apply (SC t). lra. }
  { unfold height in Top. cbn [h_thres VENUS] in Top. lra. }
  pose proof (shorter V way_in 30 T0 y T PA0 ltac:(lra)) as PA. assert (RPV : RP VENUS = 6051.8e3) by reflexivity.
  destruct C132_flown as (E & HE & HX & FL). exists V, T, y, E. split; auto. split; auto. split; [lra|]. do 4 (split; auto). intros eta Heta.
  destruct (C134_flights "VENUS" V way_in 30 T y 0.001 HP EU HL' PA ltac:(lra) ltac:(lra)) as (e & He & FLI).
  set (q := Rmin e eta). assert (Hq : 0 < q) by (apply Rmin_glb_lt; auto). pose proof (Rmin_l e eta : q <= e). pose proof (Rmin_r e eta : q <= eta).
  assert (SW : forall c, q <= c -> starts_near c VENUS way_in (faster_in q)).
  { intros c Hc. split; [|cbn; lra]. unfold start_within, way_in, faster_in. cbn [h0_km theta0_deg phi0_deg v0_kms psi0_deg gamma0_deg drange0_km]. assert (Z : forall u, Rabs (u - u) <= c) by (intros u; rewrite Rminus_diag_eq, Rabs_R0 by reflexivity; lra).
    repeat split; try apply Z. rewrite Rabs_left; lra. }
  destruct (FLI (faster_in q)) as (z & PZ & DZ); [rewrite EP; apply SW; lra|].
  exists q. split; auto. split; [apply SW; lra|]. split; [apply exact_nearly; auto; lra|]. split; [apply within_self; auto; lra|]. intros two.
  assert (Hp : 0 < tau VENUS * T) by (apply Rmult_lt_0_compat; lra).
  destruct (FL two "VENUS" V way_in 30 T y) with (tol := 1) (secs := tau VENUS * T / 2) (dt := tau VENUS * T / 20) as (o & f & h & R1 & R2 & _ & _); auto; try lra; try (rewrite EP; lra).
  { intros t Htt. specialize (High t Htt). cbv beta in High. rewrite EP. unfold height. cbn [h_trap VENUS]. lra. }
  destruct (FL two "VENUS" V (faster_in q) 30 T z) with (tol := 1) (secs := tau VENUS * T / 2) (dt := tau VENUS * T / 20) as (o' & f' & h' & R1' & R2' & _ & _); auto; try lra; try (rewrite EP; lra).
  { intros t Htt. specialize (High t Htt). cbv beta in High. rewrite EP. unfold height. cbn [h_trap VENUS]. destruct (DZ t Htt) as (D & _). assert (s_r (y t) - s_r (z t) <= 0.001) by (pose proof (Rle_abs (s_r (y t) - s_r (z t))); lra). rewrite RPV in *. lra. }
  exists o, f, o', f'. auto.
Qed.
