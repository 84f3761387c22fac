(** Witness of C126: a steep entry at mid latitude into air of linearly falling density. *)
From Coq Require Import String List.
Require Import Verif.Base Verif.Numpy Verif.PlanetModel Verif.PlanetProofs Verif.AeroModel Verif.TrajectoryModel Verif.TrajectorySpec Verif.TrajectoryProofs Verif.FlightProofs
  Verif.PropFlight Verif.ExactSpec Verif.ExactProofs Verif.PropExact Verif.PropExactEx Verif.DetSpec Verif.DetProofs Verif.ExistSpec Verif.ExistProofs Verif.PropExist.
Import ListNotations.
Local Open Scope string_scope.
Local Open Scope R_scope.

Definition thick : atmosphere := mkAtm (fun h => 65 * (1 - h / 200000)) (fun _ => 200) (fun _ => 50000) (fun _ => 230).
Lemma thick_made : exists V, Vehicle 300 50 0.3 4.5 0 1.5 VENUS thick false = Ok V.
Proof. unfold Vehicle. rcases; try lra. eexists. reflexivity. Qed.
Definition steep_start : init := mkInit 120 10 60 11 45 (-60) 0 0.
Lemma thick_facts : air VENUS thick /\ lipschitz_air VENUS thick.
Proof.
  split.
  - intros h Hh. cbn [h_thres VENUS density_int thick] in *. lra.
  - exists 65. intros h h' _ _. cbn [density_int thick]. replace (65 * (1 - h / 200000) - 65 * (1 - h' / 200000)) with (- (65 / 200000) * (h - h')) by lra.
    rewrite Rabs_mult, Rabs_Ropp, (Rabs_right (65 / 200000)) by lra. pose proof (Rabs_pos (h - h')). nra.
Qed.
Lemma steep_facts : good_start steepest steep_start /\ well_clear 0.001 VENUS (entry_state VENUS steep_start).
Proof.
  pose proof C104_steepest. split; [unfold good_start; cbn; lra|].
  destruct (entry_clear "VENUS" VENUS steep_start eq_refl) as (E1 & E2 & E3 & E4). unfold well_clear. rewrite E1, E2, E3, E4. cbn [h0_km v0_kms phi0_deg gamma0_deg steep_start h_thres VENUS].
  replace (60 * PI / 180) with (PI / 3) by lra. replace (-60 * PI / 180) with (- (PI / 3)) by lra. rewrite cos_neg, cos_PI3. rewrite !Rabs_right by lra. repeat split; lra.
Qed.
Example C126_witness : exists V, Vehicle 300 50 0.3 4.5 0 1.5 VENUS thick false = Ok V /\ air VENUS thick /\ lipschitz_air VENUS thick /\ good_start steepest steep_start /\
  well_clear 0.001 VENUS (entry_state VENUS steep_start) /\ 0 < density VENUS (density_int thick) 120000 /\
  (exists T y, 0 < T /\ way V steep_start 30 T y /\ exists E ts, engine_ok E /\ exact E /\ solveTrajectory E V 1 (entry_state VENUS steep_start) 0 (tau VENUS * T) (30 * PI / 180) = Ok (channels ts (map y ts)) /\ ts <> []) /\
  exists T y, 0 <= T <= 10 /\ way V steep_start 30 T y /\ (T = 10 \/ ~ well_clear 0.001 VENUS (y T)).
Proof.
  destruct thick_made as (V & HV). exists V. destruct thick_facts as (Ha & HL). destruct steep_facts as (Hg & Hw).
  destruct (Vehicle_inv _ _ _ _ _ _ _ _ _ _ HV) as (_ & _ & _ & _ & _ & _ & _ & EP & EA & EU & _). assert (HP : Planet "VENUS" = Ok (vh_planet V)) by (rewrite EP; reflexivity).
  destruct (ref_facts "VENUS" VENUS eq_refl) as (_ & _ & Ht & _).
  do 5 (split; auto). split.
  { unfold density. destruct (Rleb_spec 0 120000); [|lra]. cbn [h_thres VENUS density_int thick]. destruct (Rleb_spec 120000 180000); cbn; lra. }
  split.
  - destruct (C126_exists "VENUS" V steep_start 30) as (T & y & HT & W); auto; try (rewrite EP, ?EA; auto).
    + cbn. lra.
    + cbn. lra.
    + cbn [phi0_deg steep_start]. replace (60 * PI / 180) with (PI / 3) by lra. rewrite cos_PI3. lra.
    + cbn [gamma0_deg steep_start]. replace (-60 * PI / 180) with (- (PI / 3)) by lra. rewrite cos_neg, cos_PI3. lra.
    + exists T, y. split; auto. split; auto. destruct C126_ideal as (E & E1 & E2 & H). destruct (H "VENUS" V steep_start 30 T y 1 0 (tau VENUS * T)) as (ts & _ & N & S1 & _); auto; try (rewrite EP, ?EA; auto); try lra.
      * apply Rmult_lt_0_compat; auto.
      * exists E, ts. rewrite EP in S1. auto.
  - destruct (C126_flies_on "VENUS" 300 50 0.3 4.5 0 1.5 VENUS thick V steep_start 30 0.001 10) as (T & y & A & B & C & _); auto; try lra. exists T, y. auto.
Qed.
