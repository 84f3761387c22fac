(** Witness of C136: all five quantities of the steep entry through thick air, and small-step reports that reach past the peak. *)
From Coq Require Import String List.
Require Import Verif.Base Verif.Numpy Verif.PlanetModel Verif.PlanetProofs Verif.AeroModel Verif.TrajectoryModel Verif.TrajectorySpec Verif.PropFlight Verif.ExactSpec Verif.PropExact Verif.DetSpec Verif.DetProofs
  Verif.PropExistEx Verif.HeatIntSpec Verif.HeatIntProofs Verif.PropHeatInt Verif.PropHeatIntEx Verif.PeakSpec Verif.PropPeak Verif.NearSpec Verif.NearProofs Verif.PropNear Verif.ExitSpec Verif.NearExitSpec Verif.PropBoundary Verif.EnterProofs Verif.PropExist Verif.PropHeat Verif.HeatIntProofs Verif.TrajectoryProofs Verif.FlightProofs Verif.ExactProofs Verif.PropExactEx Verif.ExistSpec Verif.ExistProofs Verif.PropExistRun Verif.NearLoadSpec Verif.NearPeakSpec.
Import ListNotations.
Local Open Scope string_scope.
Local Open Scope R_scope.

Lemma steep_way2 : exists V T y, Vehicle 300 50 0.3 4.5 0 1.5 VENUS thick false = Ok V /\ Planet "VENUS" = Ok (vh_planet V) /\ vh_user V = false /\ lipschitz_air (vh_planet V) (vh_atm V) /\ some_air (vh_planet V) (vh_atm V) /\ 0 < vh_RN V /\ good_start steepest steep_start /\
  way V steep_start 30 T y /\ 0 < T /\ (forall t, 0 <= t <= T -> ~ In (Vref (vh_planet V) * s_v (y t)) (heat_breaks (ID (vh_planet V)))) /\
  forall delta, 0 < delta -> exists E dt secs o f h, engine_ok E /\ exact E /\ 0 < dt < delta /\ propogateEntry E (mkObj V steep_start 1 None None) secs dt 30 = (o, Ok tt) /\ ob_flight o = Some f /\ ob_heat o = Some h /\
    (2 < length (p_t (f_plot f)))%nat /\ time_of (vh_planet V) (f_plot f) (length (p_t (f_plot f)) - 1) <= T /\ T <= time_of (vh_planet V) (f_plot f) (length (p_t (f_plot f)) - 1) + 2 * (dt / tau (vh_planet V)).
Proof.
  destruct thick_made as (V & HV). exists V. destruct thick_facts as (Ha & HL). destruct steep_facts as (Hg & Hw).
  destruct (Vehicle_inv _ _ _ _ _ _ _ _ _ _ HV) as (_ & _ & _ & _ & _ & _ & ERN & EP & EA & EU & _). assert (HP : Planet "VENUS" = Ok (vh_planet V)) by (rewrite EP; reflexivity).
  assert (HL' : lipschitz_air (vh_planet V) (vh_atm V)) by (rewrite EP, EA; exact HL). assert (HS : some_air (vh_planet V) (vh_atm V)) by (rewrite EP, EA; exact thick_some). assert (HR : 0 < vh_RN V) by (rewrite ERN; lra).
  destruct (ref_facts _ _ HP) as (HVr & _ & Ht & _ & HRP & _). destruct (entry_clear "VENUS" _ steep_start HP) as (E1 & E2 & _).
  destruct (C126_exists "VENUS" V steep_start 30) as (T0 & y & HT0 & W); auto.
  { rewrite EP. cbn. lra. } { cbn. lra. }
  { cbn [phi0_deg steep_start]. replace (60 * PI / 180) with (PI / 3) by lra. rewrite cos_PI3. lra. }
  { cbn [gamma0_deg steep_start]. replace (-60 * PI / 180) with (- (PI / 3)) by lra. rewrite cos_neg, cos_PI3. lra. }
  destruct W as (Y0 & S & I). pose proof S as (cs & SC).
  destruct (Verif.PropHeatIntEx.stays_above (fun t => Vref (vh_planet V) * s_v (y t)) 10000 T0 HT0) as (T1 & HT1 & Fast).
  { intros t Htt. apply (continuity_pt_scal (fun u => s_v (y u))). apply (SC t Htt). }
  { rewrite Y0, E2. cbn. lra. }
  destruct (Verif.PropHeatIntEx.stays_above (fun t => RP (vh_planet V) * s_r (y t)) (RP (vh_planet V) + h_trap (vh_planet V)) T1 ltac:(lra)) as (T & HT & High).
  { intros t Htt. apply (continuity_pt_scal (fun u => s_r (y u))). apply (SC t). lra. }
  { rewrite Y0. assert (h_trap (vh_planet V) < h0_km steep_start * 1000) by (rewrite EP; cbn; lra). lra. }
  assert (W : way V steep_start 30 T y) by (split; [auto|split; [eapply solves_upto; [exact S|lra]|intros t Htt; apply I; lra]]).
  assert (HB : forall t, 0 <= t <= T -> ~ In (Vref (vh_planet V) * s_v (y t)) (heat_breaks (ID (vh_planet V)))).
  { intros t Htt Hin. specialize (Fast t ltac:(lra)). cbv beta in Fast. exfalso. unfold heat_breaks in Hin. destruct (string_dec _ _) as [_|N]; [|apply N; rewrite EP; reflexivity]. destruct Hin as [Z|[Z|[]]]; rewrite <- Z in Fast; lra. }
  exists T, y. do 8 (split; [assumption|]). split; [lra|]. split; [assumption|].
  intros delta Hd. destruct C126_flown as (E & HE & HX & FL). set (X := tau (vh_planet V) * T). assert (HXp : 0 < X) by (apply Rmult_lt_0_compat; lra).
  set (dt := Rmin (delta / 2) (X / 4)). assert (0 < dt) by (apply Rmin_glb_lt; lra). pose proof (Rmin_l (delta / 2) (X / 4)). pose proof (Rmin_r (delta / 2) (X / 4)). fold dt in H0, H1.
  destruct (FL "VENUS" V steep_start 30 T y 1 (X - dt) dt) with (two := false) as (o & f & h & P & F & Hh & Ln & N); auto; try lra.
  { fold X. lra. } { intros t Htt. specialize (High t ltac:(lra)). cbv beta in High. lra. }
  exists E, dt, (X - dt), o, f, h. do 2 (split; auto). split; [lra|]. do 3 (split; auto).
  assert (L : (2 < length (p_t (f_plot f)))%nat). { assert (2 <= length (p_t (f_plot f)) - 1)%nat; [|lia]. apply INR_le. cbn [INR]. nra. }
  split; auto. set (k := (length (p_t (f_plot f)) - 1)%nat) in *. unfold time_of. rewrite (proj1 (N k ltac:(lia))).
  split; apply (Rmult_le_reg_r (tau (vh_planet V))); auto; unfold Rdiv; rewrite ?Rmult_plus_distr_r, ?Rmult_assoc, ?Rinv_l, ?Rmult_1_r by lra; fold X; unfold X in *; lra.
Qed.
(** The net load of that vehicle, banked by 30 degrees, is positive wherever there is air and speed. *)
Lemma loaded : forall V x, Vehicle 300 50 0.3 4.5 0 1.5 VENUS thick false = Ok V -> 0 < density_int (vh_atm V) (RP (vh_planet V) * s_r x - RP (vh_planet V)) -> 0 < Vref (vh_planet V) * s_v x ->
  exists m, truth V (30 * PI / 180) Load x = Some m /\ 0 < m.
Proof.
  intros V x HV Hd Hv. destruct (Vehicle_inv _ _ _ _ _ _ _ _ _ _ HV) as (_ & _ & Em & _ & _ & EA & _ & _ & _ & _ & _ & ECD & ECL & _). unfold truth. cbv zeta. rewrite Em, EA, ECD, ECL.
  set (q := density_int _ _ * _ * _ / 2). assert (Hq : 0 < q) by (unfold q; apply Rdiv_lt_0_compat; [|lra]; apply Rmult_lt_0_compat; auto; apply Rmult_lt_0_compat; auto).
  replace (30 * PI / 180) with (PI / 6) by lra. rewrite sin_PI6.
  set (a := q * 4.5 * (300 / (50 * 4.5)) / 300). set (b := q * 4.5 * (0.3 * (300 / (50 * 4.5))) / 300). assert (Hb : 0 < b) by (unfold b; lra).
  assert (P : 0 < a * a + b * cos (PI / 6) * (b * cos (PI / 6)) + 2 * (b * (1 / 2))) by nra. destruct (Rle_dec _ _) as [_|N]; [|lra]. eexists. split; [reflexivity|]. apply Rdiv_lt_0_compat; [apply sqrt_lt_R0; auto|lra].
Qed.
Example C136_witness : exists V T y, Planet "VENUS" = Ok (vh_planet V) /\ vh_user V = false /\ lipschitz_air (vh_planet V) (vh_atm V) /\ some_air (vh_planet V) (vh_atm V) /\ 0 < vh_RN V /\
  passage V steep_start 30 T y /\ 0 <= T /\
  forall g, smooth_gauge V (30 * PI / 180) g y T /\ exists t0 M, peak V (30 * PI / 180) g y T t0 M /\
    (t0 < T -> forall eta, 0 < eta -> exists E dt secs o f j, engine_ok E /\ exact_within eta E (fun x => EOM V x (30 * PI / 180)) /\ 0 < dt < eta /\ vehicle_within eta V V /\ build_within eta V V /\ starts_near eta (vh_planet V) steep_start steep_start /\
       propogateEntry E (mkObj V steep_start 1 None None) secs dt 30 = (o, Ok tt) /\ ob_flight o = Some f /\ (j < length (p_t (f_plot f)))%nat /\ t0 <= time_of (vh_planet V) (f_plot f) j <= T).
Proof.
  destruct steep_way2 as (V & T & y & HV & HP & HU & HL & HS & HR & Hg & W & HT & NB & FL). exists V, T, y. do 5 (split; [assumption|]). split; [exact (way_passage _ _ _ _ _ W)|]. split; [lra|]. intros g.
  assert (LD : forall t, 0 <= t <= T -> exists m, truth V (30 * PI / 180) Load (y t) = Some m /\ 0 < m).
  { intros t Ht. pose proof (fast_enough "VENUS" V steep_start 30 T y HP Hg W t Ht). destruct (ref_facts _ _ HP) as (HVr & _). destruct W as (_ & _ & I). specialize (I t Ht). unfold in_air in I. apply loaded; auto; [apply HS; lra|apply Rmult_lt_0_compat; auto]. }
  split.
  { intros t Ht. destruct g; [|apply LD; auto|eexists; split; [reflexivity|exact I]..].
    destruct (law_pieces (ID (vh_planet V)) (vh_RN V) (planet_known _ _ HP) HR) as (P & ix & P1 & P2 & _). pose proof (fast_enough "VENUS" V steep_start 30 T y HP Hg W t Ht). destruct (ref_facts _ _ HP) as (HVr & _).
    destruct W as (_ & _ & I). specialize (I t Ht). unfold in_air in I. eexists. split; [apply P2; [apply HS; lra|apply Rmult_lt_0_compat; auto]|]. split; auto. }
  destruct (C128_peak_exists "VENUS" V steep_start 30 T y g HP HL HS HR Hg W ltac:(lra)) as (t0 & M & Pk & PP); [auto|auto|]. exists t0, M. split; auto. intros Lt delta Hd.
  destruct (ref_facts _ _ HP) as (_ & _ & Ht & _). set (m := Rmin delta ((T - t0) * tau (vh_planet V) / 2)).
  assert (Hm : 0 < m) by (apply Rmin_glb_lt; [auto|]; apply Rdiv_lt_0_compat; [apply Rmult_lt_0_compat; lra|lra]). destruct (FL m Hm) as (E & dt & secs & o & f & h & A1 & A2 & A3 & A4 & A5 & A6 & A7 & A8 & A9).
  pose proof (Rmin_l delta ((T - t0) * tau (vh_planet V) / 2)) as Q1. pose proof (Rmin_r delta ((T - t0) * tau (vh_planet V) / 2)) as Q2. fold m in Q1, Q2.
  assert (Z : forall u : R, Rabs (u - u) <= delta) by (intros u; rewrite Rminus_diag_eq, Rabs_R0 by reflexivity; lra).
  exists E, dt, secs, o, f, (length (p_t (f_plot f)) - 1)%nat. split; auto. split; [apply exact_nearly; [lra|auto]|]. split; [lra|].
  split; [unfold vehicle_within; repeat split; auto|]. split; [unfold build_within; repeat split; auto|]. split; [split; [unfold start_within; repeat split; auto|]|].
  { destruct W as (Y0 & _ & I). specialize (I 0 ltac:(lra)). destruct (entry_clear "VENUS" _ steep_start HP) as (G1 & _). unfold in_air in I. rewrite Y0 in I. rewrite G1 in I. lra. }
  do 2 (split; auto). split; [lia|]. split; auto.
  assert (2 * (dt / tau (vh_planet V)) <= T - t0); [|lra]. apply (Rmult_le_reg_r (tau (vh_planet V))); auto. unfold Rdiv. rewrite !Rmult_assoc, Rinv_l, Rmult_1_r by lra. lra.
Qed.
