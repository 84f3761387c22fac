(** Witness of C132: an entry at 180 km, the top of the atmosphere of Venus, at 11 km/s and 8 degrees below the horizon. *)
From Coq Require Import String List Reals Lra Lia.
Require Import Verif.Base Verif.Numpy Verif.PlanetModel Verif.PlanetProofs Verif.AeroModel Verif.TrajectoryModel Verif.TrajectorySpec Verif.TrajectoryProofs Verif.FlightProofs
  Verif.PropFlight Verif.ExactSpec Verif.ExactProofs Verif.PropExact Verif.PropExactEx Verif.DetSpec Verif.DetProofs Verif.NearSpec Verif.NearProofs Verif.ExistSpec Verif.ExistProofs Verif.PropExist Verif.PropExistEx Verif.ExitSpec Verif.ExitProofs Verif.EnterProofs Verif.PropEnter Verif.PropExit Verif.PropTrap Verif.PropExitRun Verif.PropEnterRun.
Import ListNotations.
Local Open Scope string_scope.
Local Open Scope R_scope.

Definition way_in : init := mkInit 180 20 30 11 45 (-8) 0 0.
Lemma shorter : forall V i d T y T', passage V i d T y -> T' <= T -> passage V i d T' y.
Proof. intros V i d T y T' (Y0 & Sy & I) H. split; auto. split; [eapply solves_upto; eauto|]. intros t Ht. apply I. lra. Qed.
Example C132_witness : exists V T y E, Vehicle 300 50 0.3 4.5 0 1.5 VENUS thick false = Ok V /\ lipschitz_air VENUS thick /\ 0 < T /\ passage V way_in 30 T y /\ height VENUS (y 0) = h_thres VENUS /\ height VENUS (y T) < h_thres VENUS /\ engine_ok E /\ exact E /\
  forall two : bool, exists o f h, (if two then propogateEntry2 else propogateEntry) E (mkObj V way_in 1 None None) (tau VENUS * T / 2) (tau VENUS * T / 20) 30 = (o, Ok tt) /\ ob_flight o = Some f /\ ob_heat o = Some h /\
    forall k, (k < length (p_t (f_plot f)))%nat -> time_of VENUS (f_plot f) k <= T -> shows VENUS (f_plot f) k (y (time_of VENUS (f_plot f) k)).
Proof.
  destruct thick_made as (V & HV). destruct thick_facts as (Ha & HL). destruct (Vehicle_inv _ _ _ _ _ _ _ _ _ _ HV) as (_ & _ & _ & _ & _ & _ & _ & EP & EA & EU & _). assert (HP : Planet "VENUS" = Ok (vh_planet V)) by (rewrite EP; reflexivity).
  destruct (ref_facts "VENUS" VENUS eq_refl) as (HVr & _ & Ht & _ & HR & _). assert (HL' : lipschitz_air (vh_planet V) (vh_atm V)) by (rewrite EP, EA; exact HL). pose proof PI_RGT_0. pose proof PI_4.
  destruct (C132_enters "VENUS" V way_in 30 HP EU HL') as (T & y & HT & W); try (rewrite EP); cbn [way_in h0_km v0_kms phi0_deg gamma0_deg h_thres VENUS].
  - lra.
  - assert (sin (-8 * PI / 180) < 0) by (apply sin_lt_0_var; lra). lra.
  - apply Rgt_not_eq, cos_gt_0; lra.
  - assert (0 < cos (-8 * PI / 180)) by (apply cos_gt_0; lra). lra.
  - pose proof W as (Y0 & (lc & Sy) & I). destruct (Sy 0 ltac:(lra)) as (C0 & _). rewrite EP in *. destruct (entry_clear "VENUS" VENUS way_in eq_refl) as (E1 & _).
    assert (Etop : height VENUS (y 0) = h_thres VENUS) by (rewrite Y0; unfold height; rewrite E1; cbn [way_in h0_km h_thres VENUS]; lra).
    destruct (ll_pos (fun a => height VENUS a - h_trap VENUS) (y 0) ltac:(unfold height; ll) ltac:(cbv beta; rewrite Etop; cbn [h_thres h_trap VENUS]; lra)) as (e & He & P). cbv beta in P.
    destruct (curve_near y 0 e He C0) as (a & Ha' & CN). set (T' := Rmin T (a / 2)). assert (HT' : 0 < T') by (apply Rmin_glb_lt; lra). pose proof (Rmin_l T (a / 2) : T' <= _). pose proof (Rmin_r T (a / 2) : T' <= _).
    destruct C132_flown as (E & HE & HX & FL). pose proof (shorter V way_in 30 T y T' W ltac:(lra)) as W'. exists V, T', y, E. split; auto. split; auto. split; auto. split; auto. split; auto. split.
    { pose proof (inside_after _ y T' (I T' ltac:(lra)) HT') as A. unfold in_air in A. try rewrite EP in A. cbn [h_thres VENUS] in A. unfold height. lra. }
    split; auto. split; auto. intros two. assert (Hp : 0 < tau VENUS * T') by (apply Rmult_lt_0_compat; auto).
    pose proof (FL two "VENUS" V way_in 30 T' y) as Q. rewrite EP in Q. apply (Q eq_refl EU); auto; try lra. intros t Htt. specialize (P (y t)). assert (0 < height VENUS (y t) - h_trap VENUS) by (apply P, CN; rewrite Rminus_0_r, Rabs_right; lra). lra.
Qed.
