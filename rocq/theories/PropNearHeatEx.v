(** Witness of C137: the heat load of the steep entry through thick air. *)
From Coq Require Import String List.
Require Import Verif.Base Verif.Numpy Verif.PlanetModel Verif.PlanetProofs Verif.AeroModel Verif.TrajectoryModel Verif.TrajectorySpec Verif.PropFlight Verif.ExactSpec Verif.PropExact Verif.DetSpec Verif.DetProofs
  Verif.PropExistEx Verif.HeatIntSpec Verif.HeatIntProofs Verif.PropHeatInt Verif.PropHeatIntEx Verif.PeakSpec Verif.PropPeak Verif.NearSpec Verif.NearProofs Verif.PropNear Verif.ExitSpec Verif.NearExitSpec Verif.PropBoundary Verif.EnterProofs Verif.PropExist Verif.PropHeat Verif.HeatIntProofs Verif.TrajectoryProofs Verif.FlightProofs Verif.ExactProofs Verif.PropExactEx Verif.ExistSpec Verif.ExistProofs Verif.PropExistRun Verif.NearLoadSpec Verif.NearPeakSpec Verif.PropNearPeakEx Verif.PropNearHeat.
Import ListNotations.
Local Open Scope string_scope.
Local Open Scope R_scope.

Example C137_witness : exists V T y J, Planet "VENUS" = Ok (vh_planet V) /\ vh_user V = false /\ lipschitz_air (vh_planet V) (vh_atm V) /\ some_air (vh_planet V) (vh_atm V) /\ 0 < vh_RN V /\
  passage V steep_start 30 T y /\ 0 < T /\ smooth_gauge V (30 * PI / 180) Heat y T /\ heat_so_far V y T [] J /\
  forall eta, 0 < eta -> exists E dt secs o f h, engine_ok E /\ exact_within eta E (fun x => EOM V x (30 * PI / 180)) /\ 0 < dt < eta /\ vehicle_within eta V V /\ build_within eta V V /\ starts_near eta (vh_planet V) steep_start steep_start /\
    propogateEntry E (mkObj V steep_start 1 None None) secs dt 30 = (o, Ok tt) /\ ob_flight o = Some f /\ ob_heat o = Some h /\ (2 < length (p_t (f_plot f)))%nat /\ time_of (vh_planet V) (f_plot f) (length (p_t (f_plot f)) - 1) <= T.
Proof.
  destruct steep_way2 as (V & T & y & HV & HP & HU & HL & HS & HR & Hg & W & HT & NB & FL).
  assert (SG : smooth_gauge V (30 * PI / 180) Heat y T).
  { intros t Ht. destruct (law_pieces (ID (vh_planet V)) (vh_RN V) (planet_known _ _ HP) HR) as (P & ix & P1 & P2 & _). pose proof (fast_enough "VENUS" V steep_start 30 T y HP Hg W t Ht). destruct (ref_facts _ _ HP) as (HVr & _).
    destruct W as (_ & _ & I). specialize (I t Ht). unfold in_air in I. eexists. split; [apply P2; [apply HS; lra|apply Rmult_lt_0_compat; auto]|]. split; auto. }
  pose proof (way_passage _ _ _ _ _ W) as WP. destruct (C137_integral "VENUS" V steep_start 30 T y HP HU HL HS HR WP ltac:(lra) SG) as (J & HJ & _).
  exists V, T, y, J. do 9 (split; [assumption|]). intros eta He. destruct (FL eta He) as (E & dt & secs & o & f & h & A1 & A2 & A3 & A4 & A5 & A6 & A7 & A8 & A9).
  assert (Z : forall u : R, Rabs (u - u) <= eta) by (intros u; rewrite Rminus_diag_eq, Rabs_R0 by reflexivity; lra).
  exists E, dt, secs, o, f, h. split; auto. split; [apply exact_nearly; [lra|auto]|]. split; auto.
  split; [unfold vehicle_within; repeat split; auto|]. split; [unfold build_within; repeat split; auto|]. split; [split; [unfold start_within; repeat split; auto|]|auto].
  destruct W as (Y0 & _ & I). specialize (I 0 ltac:(lra)). destruct (entry_clear "VENUS" _ steep_start HP) as (G1 & _). unfold in_air in I. rewrite Y0 in I. rewrite G1 in I. lra.
Qed.
