(** Property C102: what a history of planning calls leaves on one Orbiter object. *)
From Coq Require Import List.
Require Import Verif.Base Verif.Numpy Verif.PlanetModel Verif.FrameModel Verif.ApproachModel Verif.OrbitScalarModel Verif.OrbiterModel Verif.OrbitModel Verif.PropProbe.
Import ListNotations.
Local Open Scope R_scope.

(** What the constructor computed: planet, periapsis radius, exit state, coast orbit, final orbit, periapsis raise and
    the two trajectory arrays. *)
Definition built (ob : orbiter) :=
  (ob_planet ob, ob_rp ob, ob_exit ob, ob_r_vec ob, ob_v_ie ob, (ob_coast ob, ob_theta_exit ob, ob_coast_arr ob, ob_r_apo ob, ob_v_coast ob),
   (ob_orb ob, ob_v_orbit ob, ob_PRM_dv ob, ob_PRM_dv_mag ob, ob_orbit_arr ob)).
(** What the targeting call and the deflection call report. *)
Definition release (ob : orbiter) := (ob_probe ob, ob_theta_entry ob, ob_entry ob, ob_probe_arr ob).
Definition deflection (ob : orbiter) := (ob_defl ob, ob_defl_arr ob).
Definition is_deflect (c : ocall) : Prop := match c with Deflect _ _ _ => True | Target _ _ _ => False end.

Lemma target_built : forall ob th dV n, built (fst (compute_probe_targeting_trajectory ob th dV n)) = built ob /\ deflection (fst (compute_probe_targeting_trajectory ob th dV n)) = deflection ob.
Proof.
  intros ob th dV n. unfold compute_probe_targeting_trajectory. destruct (below _ _); cbn [ob_theta_entry set_entry set_probe]; [split; reflexivity|].
  destruct (ob_theta_entry ob); split; reflexivity.
Qed.
Lemma defl_built : forall ob th dV n, built (fst (compute_orbiter_deflection_trajectory ob th dV n)) = built ob /\ release (fst (compute_orbiter_deflection_trajectory ob th dV n)) = release ob.
Proof. intros ob th dV n. unfold compute_orbiter_deflection_trajectory. destruct (ob_probe ob); split; reflexivity. Qed.

(** No planning call disturbs what the constructor computed. *)
Theorem C102_constructor_attributes_stay : forall ob hist, built (after_calls ob hist) = built ob.
Proof.
  intros ob hist. revert ob. induction hist as [|c hist IH]; intros ob; [reflexivity|]. unfold after_calls in *. cbn [fold_left]. rewrite IH.
  destruct c; cbn [ostep]; [apply target_built|apply defl_built].
Qed.

(** A deflection call leaves the probe alone; a targeting call leaves the deflection alone. *)
Theorem C102_calls_do_not_interfere : forall ob th dV n,
  release (fst (compute_orbiter_deflection_trajectory ob th dV n)) = release ob /\
  deflection (fst (compute_probe_targeting_trajectory ob th dV n)) = deflection ob.
Proof. intros. split; [apply defl_built|apply target_built]. Qed.
Lemma deflects_release : forall hist ob, Forall is_deflect hist -> release (after_calls ob hist) = release ob.
Proof.
  induction hist as [|c hist IH]; intros ob H; [reflexivity|]. inversion H; subst. unfold after_calls in *. cbn [fold_left]. rewrite IH by auto.
  destruct c; [contradiction|]. apply defl_built.
Qed.

Lemma built_fields : forall ob1 ob2, built ob1 = built ob2 -> ob_planet ob1 = ob_planet ob2 /\ ob_orb ob1 = ob_orb ob2.
Proof. intros ob1 ob2 H. unfold built in H. injection H. intros. auto. Qed.
Lemma entry_same : forall ob1 ob2 o, ob_planet ob1 = ob_planet ob2 -> ob_orb ob1 = ob_orb ob2 -> probe_entry_of (set_probe ob1 o) o = probe_entry_of (set_probe ob2 o) o.
Proof.
  intros ob1 ob2 o HP HO. unfold probe_entry_of, vel_vec_bi_probe, pos_vec_bi_probe. cbn [set_probe ob_planet ob_probe ob_orb]. rewrite HP, HO. reflexivity.
Qed.

(** A release that enters the atmosphere is reported as on a fresh orbiter, whatever was planned before, and later
    deflection calls do not change the report. *)
Theorem C102_release_as_on_a_fresh_orbiter : forall ob before th dV n after, enters ob th dV -> Forall is_deflect after ->
  release (after_calls ob (before ++ Target th dV n :: after)) = release (after_calls ob [Target th dV n]) /\
  snd (compute_probe_targeting_trajectory (after_calls ob before) th dV n) = Ok tt.
Proof.
  intros ob before th dV n after He Ha. unfold after_calls at 1. rewrite fold_left_app. fold (after_calls ob before). cbn [fold_left].
  fold (after_calls (ostep (after_calls ob before) (Target th dV n)) after). rewrite deflects_release by auto.
  destruct (built_fields _ _ (C102_constructor_attributes_stay ob before)) as [HP HO]. set (ob' := after_calls ob before) in *. clearbody ob'.
  unfold after_calls. cbn [fold_left ostep]. apply enters_dec in He. unfold compute_probe_targeting_trajectory, ob_pos, ob_vel. rewrite HP, HO.
  unfold probe_orbit, ob_pos, ob_vel in He. rewrite He. cbn [ob_theta_entry set_entry fst snd].
  split; [|reflexivity]. unfold release. cbn [ob_probe ob_theta_entry ob_entry ob_probe_arr set_probe_arr set_entry set_probe]. rewrite (entry_same ob' ob _ HP HO).
  do 2 f_equal. unfold pos_vec_bi_probe. cbn [ob_planet ob_orb ob_probe set_entry set_probe]. rewrite HP, HO. reflexivity.
Qed.

(** A deflection is planned from the last released probe alone: it is the one planned on a fresh orbiter right after that
    release. *)
Theorem C102_deflection_as_on_a_fresh_orbiter : forall ob before th dV n between th2 dV2 n2, Forall is_deflect between ->
  deflection (after_calls ob (before ++ Target th dV n :: between ++ [Deflect th2 dV2 n2])) =
  deflection (after_calls ob [Target th dV n; Deflect th2 dV2 n2]).
Proof.
  intros ob before th dV n between th2 dV2 n2 Hb. unfold after_calls at 1. rewrite fold_left_app. fold (after_calls ob before). cbn [fold_left]. rewrite fold_left_app.
  fold (after_calls (ostep (after_calls ob before) (Target th dV n)) between).
  destruct (built_fields _ _ (C102_constructor_attributes_stay ob before)) as [HP HO]. set (ob' := after_calls ob before) in *. clearbody ob'.
  set (ob1 := ostep ob' (Target th dV n)). pose proof (deflects_release between ob1 Hb) as HR. pose proof (C102_constructor_attributes_stay ob1 between) as HB.
  set (ob2 := after_calls ob1 between) in *. clearbody ob2.
  destruct (target_keeps ob' th dV n) as (A1 & A2 & A3). destruct (target_keeps ob th dV n) as (B1 & B2 & B3). cbv zeta in *.
  change (fst (compute_probe_targeting_trajectory ob' th dV n)) with ob1 in A1, A2, A3.
  unfold after_calls. cbn [fold_left ostep]. set (ob3 := fst (compute_probe_targeting_trajectory ob th dV n)) in *.
  destruct (built_fields _ _ HB) as [C1 C2]. unfold release in HR. injection HR as R1 _ _ _.
  assert (EP : ob_planet ob2 = ob_planet ob3) by (rewrite C1, A1, HP, B1; reflexivity).
  assert (EO : ob_orb ob2 = ob_orb ob3) by (rewrite C2, A2, HO, B2; reflexivity).
  assert (Eb : ob_probe ob2 = ob_probe ob3) by (rewrite R1, A3, B3; f_equal; unfold probe_orbit, ob_pos, ob_vel; rewrite HP, HO; reflexivity).
  clearbody ob3. unfold compute_orbiter_deflection_trajectory, pos_vec_bi_orbiter_defl, vel_vec_bi_probe, pos_vec_bi_probe. rewrite B3 in Eb. rewrite Eb, B3. cbn [fst].
  unfold deflection. cbn [ob_defl ob_defl_arr set_defl_arr set_defl ob_planet ob_orb ob_probe]. rewrite EP, EO. reflexivity.
Qed.

(** An orbiter and a burn whose probe enters, after a release that misses and a deflection. *)
Example C102_witness : exists ob dV, enters ob PI dV /\ ~ enters ob PI 0 /\
  release (after_calls ob ([Target PI 0 2; Deflect PI 0 2] ++ Target PI dV 2 :: [Deflect 0 0 2])) = release (after_calls ob [Target PI dV 2]).
Proof.
  destruct C36_witness as (ob & dV & _ & _ & _ & _ & E & N & _). exists ob, dV. split; [exact E|]. split; [exact N|].
  refine (proj1 (C102_release_as_on_a_fresh_orbiter ob [Target PI 0 2; Deflect PI 0 2] PI dV 2 [Deflect 0 0 2] E _)). repeat constructor.
Qed.
