(** Witness of C128: heating and drag load of the flight of C127, which peak somewhere, and reports that reach past the peak. *)
From Coq Require Import String List.
Require Import Verif.Base Verif.Numpy Verif.PlanetModel Verif.PlanetProofs Verif.AeroModel Verif.TrajectoryModel Verif.TrajectorySpec Verif.PropFlight Verif.ExactSpec Verif.PropExact Verif.DetSpec Verif.DetProofs
  Verif.PropExistEx Verif.HeatIntSpec Verif.PropHeatIntEx Verif.PeakSpec Verif.PropPeak.
Import ListNotations.
Local Open Scope string_scope.
Local Open Scope R_scope.

Example C128_witness : exists V T y, Planet "VENUS" = Ok (vh_planet V) /\ vh_user V = false /\ lipschitz_air (vh_planet V) (vh_atm V) /\ some_air (vh_planet V) (vh_atm V) /\ 0 < vh_RN V /\ good_start steepest steep_start /\
  way V steep_start 30 T y /\ 0 < T /\
  forall g, g <> Load -> exists t0 M, peak V (30 * PI / 180) g y T t0 M /\ plain_peak V g (y t0) M /\
    (t0 < T -> forall delta, 0 < delta -> exists E dt secs o f j, engine_ok E /\ exact E /\ 0 < dt < delta /\ propogateEntry E (mkObj V steep_start 1 None None) secs dt 30 = (o, Ok tt) /\ ob_flight o = Some f /\
       (j < length (p_t (f_plot f)))%nat /\ t0 <= time_of (vh_planet V) (f_plot f) j <= T).
Proof.
  destruct steep_way as (V & T & y & HP & HU & HL & HS & HR & Hg & W & HT & NB & FL). exists V, T, y. do 8 (split; [assumption|]). intros g Ng.
  destruct (C128_peak_exists "VENUS" V steep_start 30 T y g HP HL HS HR Hg W ltac:(lra)) as (t0 & M & Pk & PP); [auto|contradiction|]. exists t0, M. split; auto. split; auto. intros Lt delta Hd.
  destruct (ref_facts _ _ HP) as (_ & _ & Ht & _). set (m := Rmin delta ((T - t0) * tau (vh_planet V) / 2)).
  assert (Hm : 0 < m) by (apply Rmin_glb_lt; [auto|]; apply Rdiv_lt_0_compat; [apply Rmult_lt_0_compat; lra|lra]). destruct (FL m Hm) as (E & dt & secs & o & f & h & A1 & A2 & A3 & A4 & A5 & A6 & A7 & A8 & A9).
  pose proof (Rmin_l delta ((T - t0) * tau (vh_planet V) / 2)). pose proof (Rmin_r delta ((T - t0) * tau (vh_planet V) / 2)). fold m in H, H0.
  exists E, dt, secs, o, f, (length (p_t (f_plot f)) - 1)%nat. do 2 (split; auto). split; [lra|]. do 2 (split; auto). split; [lia|]. split; auto.
  assert (2 * (dt / tau (vh_planet V)) <= T - t0); [|lra]. apply (Rmult_le_reg_r (tau (vh_planet V))); auto. unfold Rdiv. rewrite !Rmult_assoc, Rinv_l, Rmult_1_r by lra. lra.
Qed.
