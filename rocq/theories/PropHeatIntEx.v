(** Witness of C127: the first moments of the steep entry of C126, at more than 10 km/s, flown by an exact integrator with ever smaller steps. *)
From Coq Require Import String List.
Require Import Verif.Base Verif.Numpy Verif.PlanetModel Verif.PlanetProofs Verif.AeroModel Verif.TrajectoryModel Verif.TrajectorySpec Verif.TrajectoryProofs Verif.FlightProofs
  Verif.PropFlight Verif.ExactSpec Verif.ExactProofs Verif.PropExact Verif.PropExactEx Verif.DetSpec Verif.DetProofs Verif.ExistSpec Verif.ExistProofs Verif.PropExist Verif.PropExistEx Verif.PropExistRun
  Verif.HeatIntSpec Verif.PropHeatInt.
Import ListNotations.
Local Open Scope string_scope.
Local Open Scope R_scope.

Lemma thick_some : some_air VENUS thick.
Proof. intros h Hh. cbn [h_thres VENUS density_int thick] in *. lra. Qed.
Lemma stays_above : forall f c T, 0 < T -> (forall t, 0 <= t <= T -> continuity_pt f t) -> c < f 0 -> exists T', 0 < T' <= T /\ forall t, 0 <= t <= T' -> c < f t.
Proof.
  intros f c T HT C Hc. destruct (C 0 ltac:(lra) (f 0 - c) ltac:(lra)) as (a & Ha & H). exists (Rmin T (a / 2)). pose proof (Rmin_l T (a / 2)). pose proof (Rmin_r T (a / 2)).
  split; [split; [apply Rmin_glb_lt; lra|lra]|]. intros t Ht. destruct (Req_dec t 0) as [->|N]; auto.
  assert (D : R_dist (f t) (f 0) < f 0 - c). { apply H. split; [split; [exact I|auto]|]. cbn. unfold R_dist. rewrite Rabs_right; lra. }
  unfold R_dist in D. apply Rabs_def2 in D. lra.
Qed.
(** The flight used below: faster than 10 km/s and above the trap altitude all along. *)
Lemma steep_way : exists V T y, Planet "VENUS" = Ok (vh_planet V) /\ vh_user V = false /\ lipschitz_air (vh_planet V) (vh_atm V) /\ some_air (vh_planet V) (vh_atm V) /\ 0 < vh_RN V /\ good_start steepest steep_start /\
  way V steep_start 30 T y /\ 0 < T /\ (forall t, 0 <= t <= T -> ~ In (Vref (vh_planet V) * s_v (y t)) (heat_breaks (ID (vh_planet V)))) /\
  forall delta, 0 < delta -> exists E dt secs o f h, engine_ok E /\ exact E /\ 0 < dt < delta /\ propogateEntry E (mkObj V steep_start 1 None None) secs dt 30 = (o, Ok tt) /\ ob_flight o = Some f /\ ob_heat o = Some h /\
    (2 < length (p_t (f_plot f)))%nat /\ time_of (vh_planet V) (f_plot f) (length (p_t (f_plot f)) - 1) <= T /\ T <= time_of (vh_planet V) (f_plot f) (length (p_t (f_plot f)) - 1) + 2 * (dt / tau (vh_planet V)).
Proof.
  destruct thick_made as (V & HV). exists V. destruct thick_facts as (Ha & HL). destruct steep_facts as (Hg & Hw).
  destruct (Vehicle_inv _ _ _ _ _ _ _ _ _ _ HV) as (_ & _ & _ & _ & _ & _ & ERN & EP & EA & EU & _). assert (HP : Planet "VENUS" = Ok (vh_planet V)) by (rewrite EP; reflexivity).
  assert (HL' : lipschitz_air (vh_planet V) (vh_atm V)) by (rewrite EP, EA; exact HL). assert (HS : some_air (vh_planet V) (vh_atm V)) by (rewrite EP, EA; exact thick_some). assert (HR : 0 < vh_RN V) by (rewrite ERN; lra).
  destruct (ref_facts _ _ HP) as (HVr & _ & Ht & _ & HRP & _). destruct (entry_clear "VENUS" _ steep_start HP) as (E1 & E2 & _).
  destruct (C126_exists "VENUS" V steep_start 30) as (T0 & y & HT0 & W); auto.
  { rewrite EP. cbn. lra. } { cbn. lra. }
  { cbn [phi0_deg steep_start]. replace (60 * PI / 180) with (PI / 3) by lra. rewrite cos_PI3. lra. }
  { cbn [gamma0_deg steep_start]. replace (-60 * PI / 180) with (- (PI / 3)) by lra. rewrite cos_neg, cos_PI3. lra. }
  destruct W as (Y0 & S & I). pose proof S as (cs & SC).
  destruct (stays_above (fun t => Vref (vh_planet V) * s_v (y t)) 10000 T0 HT0) as (T1 & HT1 & Fast).
  { intros t Htt. apply (continuity_pt_scal (fun u => s_v (y u))). apply (SC t Htt). }
  { rewrite Y0, E2. cbn. lra. }
  destruct (stays_above (fun t => RP (vh_planet V) * s_r (y t)) (RP (vh_planet V) + h_trap (vh_planet V)) T1 ltac:(lra)) as (T & HT & High).
  { intros t Htt. apply (continuity_pt_scal (fun u => s_r (y u))). apply (SC t). lra. }
  { rewrite Y0. assert (h_trap (vh_planet V) < h0_km steep_start * 1000) by (rewrite EP; cbn; lra). lra. }
  assert (W : way V steep_start 30 T y) by (split; [auto|split; [eapply solves_upto; [exact S|lra]|intros t Htt; apply I; lra]]).
  assert (HB : forall t, 0 <= t <= T -> ~ In (Vref (vh_planet V) * s_v (y t)) (heat_breaks (ID (vh_planet V)))).
  { intros t Htt Hin. specialize (Fast t ltac:(lra)). cbv beta in Fast. exfalso. unfold heat_breaks in Hin. destruct (string_dec _ _) as [_|N]; [|apply N; rewrite EP; reflexivity]. destruct Hin as [Z|[Z|[]]]; rewrite <- Z in Fast; lra. }
  exists T, y. do 7 (split; [assumption|]). split; [lra|]. split; [assumption|].
  intros delta Hd. destruct C126_flown as (E & HE & HX & FL). set (X := tau (vh_planet V) * T). assert (HXp : 0 < X) by (apply Rmult_lt_0_compat; lra).
  set (dt := Rmin (delta / 2) (X / 4)). assert (0 < dt) by (apply Rmin_glb_lt; lra). pose proof (Rmin_l (delta / 2) (X / 4)). pose proof (Rmin_r (delta / 2) (X / 4)). fold dt in H0, H1.
  destruct (FL "VENUS" V steep_start 30 T y 1 (X - dt) dt) with (two := false) as (o & f & h & P & F & Hh & Ln & N); auto; try lra.
  { fold X. lra. } { intros t Htt. specialize (High t ltac:(lra)). cbv beta in High. lra. }
  exists E, dt, (X - dt), o, f, h. do 2 (split; auto). split; [lra|]. do 3 (split; auto).
  assert (L : (2 < length (p_t (f_plot f)))%nat). { assert (2 <= length (p_t (f_plot f)) - 1)%nat; [|lia]. apply INR_le. cbn [INR]. nra. }
  split; auto. set (k := (length (p_t (f_plot f)) - 1)%nat) in *. unfold time_of. rewrite (proj1 (N k ltac:(lia))).
  split; apply (Rmult_le_reg_r (tau (vh_planet V))); auto; unfold Rdiv; rewrite ?Rmult_plus_distr_r, ?Rmult_assoc, ?Rinv_l, ?Rmult_1_r by lra; fold X; unfold X in *; lra.
Qed.
Example C127_witness : exists V T y J, Planet "VENUS" = Ok (vh_planet V) /\ vh_user V = false /\ lipschitz_air (vh_planet V) (vh_atm V) /\ some_air (vh_planet V) (vh_atm V) /\ 0 < vh_RN V /\ good_start steepest steep_start /\
  way V steep_start 30 T y /\ 0 < T /\ breaks_listed V y T [] /\ heat_so_far V y T [] J /\
  forall delta, 0 < delta -> exists E dt secs o f h, engine_ok E /\ exact E /\ 0 < dt < delta /\ propogateEntry E (mkObj V steep_start 1 None None) secs dt 30 = (o, Ok tt) /\ ob_flight o = Some f /\ ob_heat o = Some h /\
    (2 < length (p_t (f_plot f)))%nat /\ time_of (vh_planet V) (f_plot f) (length (p_t (f_plot f)) - 1) <= T.
Proof.
  destruct steep_way as (V & T & y & HP & HU & HL & HS & HR & Hg & W & HT & NB & FL). assert (HB : breaks_listed V y T []) by (intros t Ht Hin; exfalso; exact (NB t Ht Hin)).
  destruct (C127_integral "VENUS" V steep_start 30 T y [] HP HL HS HR Hg W ltac:(lra) HB) as (J & HJ & _). exists V, T, y, J. do 10 (split; [assumption|]).
  intros delta Hd. destruct (FL delta Hd) as (E & dt & secs & o & f & h & A1 & A2 & A3 & A4 & A5 & A6 & A7 & A8 & _). exists E, dt, secs, o, f, h. auto 12.
Qed.
