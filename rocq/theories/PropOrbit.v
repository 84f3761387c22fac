(** Properties C52-C54: terminal orbit, inertial velocity, orbit-change impulses. *)
From Coq Require Import Nsatz.
From Coq Require Import String.
Require Import Verif.Base Verif.Numpy Verif.NumpyProofs Verif.PlanetModel Verif.PlanetProofs Verif.FrameModel Verif.FrameProofs Verif.ConicSpec Verif.ConicProofs
  Verif.OrbitScalarModel Verif.OrbiterModel Verif.OrbiterProofs Verif.OrbitModel Verif.OrbitSpec Verif.OrbitProofs.
Local Open Scope R_scope.

(** * C52 *)
(** Scalar element formulas at any state (r, v, g): the radicand is fine, and for a bound state the apsides
    a(1-e) <= r <= a(1+e) are distances where the radial speed vanishes at the state's own energy and
    angular momentum; between them and nowhere else the body can be. *)
Theorem C52_elements : forall name p r v g, Planet name = Ok p -> 0 < r ->
  exists E h e, computeEnergyScalar p r v = Some E /\ computeAngMomScalar r v g = h /\ computeEccScalar p h E = Some e /\
    E = v * v / 2 - GM p / r /\ h = r * (v * cos g) /\ 0 <= e /\
    (E < 0 -> exists a, computeSemiMajorAxisScalar p E = Some a /\ 0 < a /\ e <= 1 /\ a * (1 - e) <= r <= a * (1 + e) /\
       (forall x, 0 < x -> (can_be_at (GM p) E h x <-> a * (1 - e) <= x <= a * (1 + e))) /\
       radial_speed_sq (GM p) E h (a * (1 + e)) = 0 /\ (h <> 0 -> 0 < a * (1 - e) /\ radial_speed_sq (GM p) E h (a * (1 - e)) = 0)).
Proof.
  intros name p r v g HP Hr. destruct (Planet_facts _ _ HP) as (_ & HGM & _).
  destruct (scalar_elements p r v g HGM Hr) as (E1 & E2 & e & E3 & He & Hee). cbv zeta in *.
  set (E := v * v / 2 - GM p / r) in *. set (h := r * v * cos g) in *.
  exists E, h, e. do 3 (split; [assumption|]). split; [reflexivity|]. split; [unfold h; ring|]. split; [auto|]. intros HE.
  exists (- GM p / (2 * E)). split; [apply semi_major; lra|]. destruct (bound_range (GM p) E h e HGM He Hee HE) as (Ha & H1 & B).
  split; [auto|]. split; [auto|]. split.
  { apply B; auto. apply can_be_at_poly; auto. unfold h, E. pose proof (COS_bound g). assert (cos g * cos g <= 1) by nra.
    replace (2 * (v * v / 2 - GM p / r) * (r * r) + 2 * GM p * r) with (r * r * (v * v)) by (field; lra).
    replace (r * v * cos g * (r * v * cos g)) with (r * r * (v * v) * (cos g * cos g)) by ring. assert (0 <= r * r * (v * v)) by nra. nra. }
  split; [exact B|]. pose proof (hh_eq (GM p) E h e HGM Hee ltac:(lra)) as Hh. cbv zeta in Hh. set (a := - GM p / (2 * E)) in *.
  assert (EE : E = - GM p / (2 * a)) by (unfold a; field; lra). unfold radial_speed_sq. rewrite Hh.
  split.
  - rewrite EE. field. split; nra.
  - intros Hh0. assert (Q : 0 < h * h) by nra. assert (e <> 1) by (intros ->; lra). assert (0 < a * (1 - e)) by nra. split; auto. rewrite EE. field. split; nra.
Qed.

(** The queries: position rv and inertial velocity vv of the exit state, their energy and angular
    momentum; reported altitudes are those of the farthest and nearest points of that orbit. *)
Theorem C52_reported_apsides : forall name p x, Planet name = Ok p -> 0 < x_r x ->
  let rv := sph_pos (x_r x) (x_theta x) (x_phi x) in
  let vv := inertial_vel (OMEGA p) (x_r x) (x_v x) (x_g x) (x_psi x) (x_theta x) (x_phi x) in
  let E := energy (GM p) rv vv in let h := norm (ang_mom rv vv) in
  (vv = vzero -> compute_ApoapsisAltitudeKm p x = None /\ compute_PeriapsisAltitudeKm p x = None) /\
  (vv <> vzero ->
   (E < 0 -> exists ra, compute_ApoapsisAltitudeKm p x = Some ((ra - RP p) / 1000) /\ is_apoapsis (GM p) E h ra /\ x_r x <= ra) /\
   (E <> 0 -> h <> 0 -> exists rp, compute_PeriapsisAltitudeKm p x = Some ((rp - RP p) / 1000) /\ is_periapsis (GM p) E h rp /\ rp <= x_r x) /\
   (E < 0 -> h = 0 -> compute_PeriapsisAltitudeKm p x = Some (- RP p / 1000)) /\
   (0 < E -> exists k, compute_ApoapsisAltitudeKm p x = Some k /\ k < - RP p / 1000) /\
   (E = 0 -> compute_ApoapsisAltitudeKm p x = None /\ compute_PeriapsisAltitudeKm p x = None)).
Proof.
  intros name p x HP Hr rv vv E h. destruct (Planet_facts _ _ HP) as (HRP & HGM & _).
  assert (Evv : exit_v_ie p x = vv) by apply exit_v_ie_spec. assert (Erv : exit_r_vec x = rv) by apply exit_r_vec_spec.
  assert (Nr : norm rv = x_r x) by (apply sph_norm; lra).
  assert (Hrv : rv <> vzero). { intros Z. rewrite Z in Nr. unfold norm, norm2, dot, vzero in Nr. cbn in Nr. replace (0 * 0 + 0 * 0 + 0 * 0) with 0 in Nr by ring. rewrite sqrt_0 in Nr. lra. }
  assert (EE : E = norm vv * norm vv / 2 - GM p / x_r x) by (apply energy_norm; auto).
  split.
  { intros Hv. assert (T : terminal_orbit p x = None); [|unfold compute_ApoapsisAltitudeKm, compute_PeriapsisAltitudeKm; rewrite T; auto].
    unfold terminal_orbit. rewrite Evv, Erv. destruct (computeEnergyScalar _ _ _); cbn [obind]; auto.
    assert (F : fpa_ie rv vv = None); [|rewrite F; reflexivity]. unfold fpa_ie. rewrite (unit_of_some rv Hrv). cbn [obind].
    rewrite Hv. unfold unit_of, norm, norm2, dot, vzero. cbn [vx vy vz]. replace (0 * 0 + 0 * 0 + 0 * 0) with 0 by ring. rewrite sqrt_0. unfold np_div. destruct (Reqb_spec 0 0); [reflexivity|congruence]. }
  intros Hv. destruct (fpa_horizontal rv vv Hrv Hv) as (g & Eg & Cg & Sg & _). fold (ang_mom rv vv) in Cg. fold h in Cg. rewrite Nr in Cg.
  destruct (scalar_elements p (x_r x) (norm vv) g HGM Hr) as (E1 & E2 & e & E3 & He & Hee). cbv zeta in *. rewrite <- EE, Cg in *.
  assert (T : E <> 0 -> terminal_orbit p x = Some (- GM p / (2 * E), e)).
  { intros HE. unfold terminal_orbit. rewrite Evv, Erv, E1, Eg. cbn [obind]. rewrite E2, semi_major by auto. cbn [obind]. rewrite E3. reflexivity. }
  assert (At : can_be_at (GM p) E h (x_r x)).
  { apply can_be_at_poly; auto. rewrite EE, <- Cg.
    replace (2 * (norm vv * norm vv / 2 - GM p / x_r x) * (x_r x * x_r x) + 2 * GM p * x_r x) with (x_r x * x_r x * (norm vv * norm vv)) by (field; lra).
    pose proof (COS_bound g). assert (cos g * cos g <= 1) by nra. assert (0 <= x_r x * x_r x * (norm vv * norm vv)) by nra.
    replace (x_r x * norm vv * cos g * (x_r x * norm vv * cos g)) with (x_r x * x_r x * (norm vv * norm vv) * (cos g * cos g)) by ring. nra. }
  unfold compute_ApoapsisAltitudeKm, compute_PeriapsisAltitudeKm. split; [|split; [|split; [|split]]].
  - intros HE. rewrite T by lra. cbn [obind fst snd]. pose proof (apoapsis_formula (GM p) E h e HGM He Hee HE) as A.
    exists (- GM p / (2 * E) * (1 + e)). split; [f_equal; lra|]. split; [exact A|]. apply A; auto.
  - intros HE Hh. rewrite T by lra. cbn [obind fst snd]. pose proof (periapsis_formula (GM p) E h e HGM He Hee HE Hh) as A.
    exists (- GM p / (2 * E) * (1 - e)). split; [f_equal; lra|]. split; [exact A|]. apply A; auto.
  - intros HE Hh. rewrite T by lra. cbn [obind fst snd]. rewrite Hh in Hee. assert (e = 1) by (assert (e * e = 1) by (rewrite Hee; field; lra); nra). subst e. f_equal. lra.
  - intros HE. rewrite T by lra. cbn [obind fst snd]. eexists. split; [reflexivity|].
    assert (0 < GM p / (2 * E)) by (apply Rdiv_lt_0_compat; lra). replace (- GM p / (2 * E)) with (- (GM p / (2 * E))) by (field; lra). nra.
  - intros HE. assert (T0 : terminal_orbit p x = None).
    { unfold terminal_orbit. rewrite Evv, Erv, E1, Eg. cbn [obind]. unfold computeSemiMajorAxisScalar, np_div. destruct (Reqb_spec (2 * E) 0); [reflexivity|lra]. }
    rewrite T0. auto.
Qed.

(** * C53 *)
(** The velocity assembled from speed, flight-path angle and heading has that speed, that radial
    component and that east and north components; the inertial one adds Omega x r; the inertial
    flight-path angle is the angle of the inertial velocity above the local horizontal. *)
Theorem C53_inertial_velocity : forall p x, 
  let rv := sph_pos (x_r x) (x_theta x) (x_phi x) in
  let rel := rel_vel (x_v x) (x_g x) (x_psi x) (x_theta x) (x_phi x) in
  exit_r_vec x = rv /\ exit_v_vec x = rel /\ exit_v_ie p x = vadd rel (cross (V3 0 0 (OMEGA p)) rv) /\
  norm rel = Rabs (x_v x) /\ dot rel (up_dir (x_theta x) (x_phi x)) = x_v x * sin (x_g x) /\
  dot rel (east_dir (x_theta x)) = x_v x * cos (x_g x) * cos (x_psi x) /\
  dot rel (north_dir (x_theta x) (x_phi x)) = x_v x * cos (x_g x) * sin (x_psi x) /\
  dot (exit_v_ie p x) rv = dot rel rv /\
  (0 < x_r x -> exit_v_ie p x <> vzero -> exists g, fpa_ie (exit_r_vec x) (exit_v_ie p x) = Some g /\
     - (PI / 2) <= g <= PI / 2 /\ x_r x * norm (exit_v_ie p x) * sin g = dot rv (exit_v_ie p x) /\
     x_r x * norm (exit_v_ie p x) * cos g = norm (ang_mom rv (exit_v_ie p x))).
Proof.
  intros p x rv rel.
  assert (D : exit_r_vec x = rv /\ exit_v_vec x = rel /\ exit_v_ie p x = vadd rel (cross (V3 0 0 (OMEGA p)) rv)).
  { split; [reflexivity|]. split; [|rewrite exit_v_ie_spec; reflexivity].
    unfold exit_v_vec, rel, rel_vel, up_dir, east_dir, north_dir. apply vec_eq; vsimpl; ring. }
  destruct D as (D1 & D2 & D3). do 3 (split; [assumption|]). split.
  { unfold norm, rel. rewrite rel_speed. apply sqrt_Rsqr_abs. }
  assert (T : dot rel (up_dir (x_theta x) (x_phi x)) = x_v x * sin (x_g x) /\
    dot rel (east_dir (x_theta x)) = x_v x * cos (x_g x) * cos (x_psi x) /\
    dot rel (north_dir (x_theta x) (x_phi x)) = x_v x * cos (x_g x) * sin (x_psi x)).
  { unfold rel, rel_vel, up_dir, east_dir, north_dir. vsimpl.
    pose proof (sin2cos2 (x_theta x)) as Ht. pose proof (sin2cos2 (x_phi x)) as Hh. revert Ht Hh.
    generalize (sin (x_g x)) (cos (x_g x)) (sin (x_psi x)) (cos (x_psi x)) (sin (x_theta x)) (cos (x_theta x)) (sin (x_phi x)) (cos (x_phi x)).
    intros a b c d e f k l Ht Hh. repeat split; nsatz. }
  destruct T as (T1 & T2 & T3). do 3 (split; [assumption|]). split.
  { rewrite D3. generalize rel. intros w. unfold rv, sph_pos, up_dir. destruct w. vsimpl. ring. }
  intros Hr Hv. assert (Nr : norm rv = x_r x) by (apply sph_norm; lra).
  assert (Hrv : rv <> vzero). { intros Z. rewrite Z in Nr. unfold norm, norm2, dot, vzero in Nr. cbn in Nr. replace (0 * 0 + 0 * 0 + 0 * 0) with 0 in Nr by ring. rewrite sqrt_0 in Nr. lra. }
  rewrite D1. destruct (fpa_horizontal rv (exit_v_ie p x) Hrv Hv) as (g & Eg & Cg & Sg & B). rewrite Nr in *. exists g. repeat split; auto; apply B.
Qed.

(** The attributes of an Orbiter built from a flown vehicle. *)
Theorem C53_orbiter : forall w pk ob, Orbiter w pk = Ok ob -> exists x, exit_state_atm w = Ok x /\
  ob_r_vec ob = sph_pos (x_r x) (x_theta x) (x_phi x) /\
  ob_v_ie ob = inertial_vel (OMEGA (fl_planet w)) (x_r x) (x_v x) (x_g x) (x_psi x) (x_theta x) (x_phi x).
Proof.
  intros w pk ob H. destruct (Orbiter_inv _ _ _ H) as (x & Ex & ->). exists x. split; auto. split; [reflexivity|].
  rewrite <- exit_v_ie_spec. reflexivity.
Qed.

(** * C54 *)
Lemma apsis_speed : forall mu r q, 0 < mu -> 0 < r -> 0 < q -> exists v, np_sqrt (2 * (- mu / (r + q)) + 2 * mu / r) = Some v /\ is_speed_at mu r q v /\ v * v = 2 * mu * q / (r * (r + q)).
Proof.
  intros mu r q Hm Hr Hq. assert (EQ : 2 * (- mu / (r + q)) + 2 * mu / r = 2 * mu * q / (r * (r + q))) by (field; lra).
  assert (Q : 0 < 2 * mu * q / (r * (r + q))) by (apply Rdiv_lt_0_compat; nra). rewrite EQ, np_sqrt_some by lra.
  eexists. split; [reflexivity|]. split; [split; [apply sqrt_pos|]|]; rewrite sqrt_sqrt by lra; [field; lra|reflexivity].
Qed.
Lemma speed_mono : forall mu r q q' v v', 0 < mu -> 0 < r -> 0 < q -> 0 < q' -> is_speed_at mu r q v -> is_speed_at mu r q' v' -> (v < v' <-> q < q') /\ (v = v' <-> q = q').
Proof.
  intros mu r q q' v v' Hm Hr Hq Hq' (V & EV) (V' & EV').
  assert (D : v' * v' - v * v = 2 * mu * (q' - q) / ((r + q) * (r + q'))). { replace (v' * v' - v * v) with (2 * (v' * v' / 2 - mu / r - (v * v / 2 - mu / r))) by lra. rewrite EV, EV'. field. lra. }
  assert (K : 0 < 2 * mu / ((r + q) * (r + q'))) by (apply Rdiv_lt_0_compat; nra).
  replace (2 * mu * (q' - q) / ((r + q) * (r + q'))) with (2 * mu / ((r + q) * (r + q')) * (q' - q)) in D by (field; lra).
  set (k := 2 * mu / ((r + q) * (r + q'))) in *. split; split; intros H.
  - apply Rnot_le_lt. intros L. assert (0 < v' * v' - v * v) by nra. nra.
  - apply Rnot_le_lt. intros L. assert (0 < k * (q' - q)) by (apply Rmult_lt_0_compat; lra). nra.
  - subst v'. assert (k * (q' - q) = 0) by lra. apply Rmult_integral in H. lra.
  - subst q'. assert (v' * v' = v * v) by lra. nra.
Qed.
Definition radius_km (p : planet) (alt_km : R) : R := RP p + alt_km * 1000.
(** The impulse is the difference of the speeds, at the shared apsis, of the target and current orbits. *)
Theorem C54_periapsis_raise : forall name p peri apo target, Planet name = Ok p ->
  0 < radius_km p peri -> 0 < radius_km p apo -> 0 < radius_km p target ->
  exists v v', compute_periapsis_raise_DV p peri apo target = Some (v' - v) /\
    is_speed_at (GM p) (radius_km p apo) (radius_km p peri) v /\ is_speed_at (GM p) (radius_km p apo) (radius_km p target) v' /\
    (0 < v' - v <-> peri < target) /\ (v' - v = 0 <-> peri = target).
Proof.
  intros name p peri apo target HP H1 H2 H3. destruct (Planet_facts _ _ HP) as (HRP & HGM & _).
  destruct (apsis_speed (GM p) _ _ HGM H2 H1) as (v & E & S & _). destruct (apsis_speed (GM p) _ _ HGM H2 H3) as (v' & E' & S' & _).
  unfold radius_km in *. exists v, v'. unfold compute_periapsis_raise_DV. rewrite !np_div_some by lra. cbn [obind].
  replace (RP p + apo * 1e3 + peri * 1e3 + RP p) with (RP p + apo * 1000 + (RP p + peri * 1000)) by lra.
  replace (RP p + apo * 1e3 + target * 1e3 + RP p) with (RP p + apo * 1000 + (RP p + target * 1000)) by lra.
  replace (RP p + apo * 1e3) with (RP p + apo * 1000) by lra. rewrite E, E'. cbn [obind]. split; [reflexivity|]. do 2 (split; [assumption|]).
  destruct (speed_mono _ _ _ _ _ _ HGM H2 H1 H3 S S') as (M1 & M2). split; split; intros H.
  - assert (v < v') by lra. apply M1 in H0. lra.
  - assert (v < v') by (apply M1; lra). lra.
  - assert (v = v') by lra. apply M2 in H0. lra.
  - assert (v = v') by (apply M2; subst; auto). lra.
Qed.
Theorem C54_apoapsis_raise : forall name p peri apo target, Planet name = Ok p ->
  0 < radius_km p peri -> 0 < radius_km p apo -> 0 < radius_km p target ->
  exists v v', compute_apoapsis_raise_DV p peri apo target = Some (v' - v) /\
    is_speed_at (GM p) (radius_km p peri) (radius_km p apo) v /\ is_speed_at (GM p) (radius_km p peri) (radius_km p target) v' /\
    (0 < v' - v <-> apo < target) /\ (v' - v = 0 <-> apo = target).
Proof.
  intros name p peri apo target HP H1 H2 H3. destruct (Planet_facts _ _ HP) as (HRP & HGM & _).
  destruct (apsis_speed (GM p) _ _ HGM H1 H2) as (v & E & S & _). destruct (apsis_speed (GM p) _ _ HGM H1 H3) as (v' & E' & S' & _).
  unfold radius_km in *. exists v, v'. unfold compute_apoapsis_raise_DV. rewrite !np_div_some by lra. cbn [obind].
  replace (RP p + apo * 1e3 + peri * 1e3 + RP p) with (RP p + peri * 1000 + (RP p + apo * 1000)) by lra.
  replace (target * 1e3 + RP p + peri * 1e3 + RP p) with (RP p + peri * 1000 + (RP p + target * 1000)) by lra.
  replace (peri * 1e3 + RP p) with (RP p + peri * 1000) by lra. rewrite E, E'. cbn [obind]. split; [reflexivity|]. do 2 (split; [assumption|]).
  destruct (speed_mono _ _ _ _ _ _ HGM H1 H2 H3 S S') as (M1 & M2). split; split; intros H.
  - assert (v < v') by lra. apply M1 in H0. lra.
  - assert (v < v') by (apply M1; lra). lra.
  - assert (v = v') by lra. apply M2 in H0. lra.
  - assert (v = v') by (apply M2; subst; auto). lra.
Qed.
(** Strictly monotone in the target; impulses compose. *)
Theorem C54_monotone : forall name p peri apo t1 t2 d1 d2, Planet name = Ok p ->
  0 < radius_km p peri -> 0 < radius_km p apo -> 0 < radius_km p t1 -> 0 < radius_km p t2 ->
  (compute_periapsis_raise_DV p peri apo t1 = Some d1 -> compute_periapsis_raise_DV p peri apo t2 = Some d2 ->
     (d1 < d2 <-> t1 < t2) /\ compute_periapsis_raise_DV p t1 apo t2 = Some (d2 - d1)) /\
  (compute_apoapsis_raise_DV p peri apo t1 = Some d1 -> compute_apoapsis_raise_DV p peri apo t2 = Some d2 ->
     (d1 < d2 <-> t1 < t2) /\ compute_apoapsis_raise_DV p peri t1 t2 = Some (d2 - d1)).
Proof.
  assert (U : forall mu r q v v', is_speed_at mu r q v -> is_speed_at mu r q v' -> v = v').
  { intros mu r q v v' (A & B) (A' & B'). assert (v * v = v' * v') by lra. nra. }
  intros name p peri apo t1 t2 d1 d2 HP H1 H2 H3 H4. destruct (Planet_facts _ _ HP) as (HRP & HGM & _). split; intros D1 D2.
  - destruct (C54_periapsis_raise _ _ _ _ _ HP H1 H2 H3) as (v & v1 & E1 & S & S1 & _).
    destruct (C54_periapsis_raise _ _ _ _ _ HP H1 H2 H4) as (w & v2 & E2 & S' & S2 & _).
    destruct (C54_periapsis_raise _ _ _ _ _ HP H3 H2 H4) as (w1 & w2 & E3 & S1' & S2' & _).
    rewrite D1 in E1. rewrite D2 in E2. injection E1 as ->. injection E2 as ->.
    rewrite <- (U _ _ _ _ _ S S') in *. rewrite <- (U _ _ _ _ _ S1 S1') in *. rewrite <- (U _ _ _ _ _ S2 S2') in *.
    destruct (speed_mono _ _ _ _ _ _ HGM H2 H3 H4 S1 S2) as (M & _). split; [|rewrite E3; f_equal; lra].
    unfold radius_km in M. split; intros; [assert (v1 < v2) by lra; apply M in H0; lra|assert (v1 < v2) by (apply M; lra); lra].
  - destruct (C54_apoapsis_raise _ _ _ _ _ HP H1 H2 H3) as (v & v1 & E1 & S & S1 & _).
    destruct (C54_apoapsis_raise _ _ _ _ _ HP H1 H2 H4) as (w & v2 & E2 & S' & S2 & _).
    destruct (C54_apoapsis_raise _ _ _ _ _ HP H1 H3 H4) as (w1 & w2 & E3 & S1' & S2' & _).
    rewrite D1 in E1. rewrite D2 in E2. injection E1 as ->. injection E2 as ->.
    rewrite <- (U _ _ _ _ _ S S') in *. rewrite <- (U _ _ _ _ _ S1 S1') in *. rewrite <- (U _ _ _ _ _ S2 S2') in *.
    destruct (speed_mono _ _ _ _ _ _ HGM H1 H3 H4 S1 S2) as (M & _). split; [|rewrite E3; f_equal; lra].
    unfold radius_km in M. split; intros; [assert (v1 < v2) by lra; apply M in H0; lra|assert (v1 < v2) by (apply M; lra); lra].
Qed.
(** A periapsis target below the planet's centre gives NaN. *)
Theorem C54_below_centre : forall name p peri apo target, Planet name = Ok p ->
  0 < radius_km p peri -> 0 < radius_km p apo -> radius_km p target < 0 -> 0 < radius_km p apo + radius_km p target ->
  compute_periapsis_raise_DV p peri apo target = None.
Proof.
  intros name p peri apo target HP H1 H2 H3 H4. destruct (Planet_facts _ _ HP) as (HRP & HGM & _).
  unfold compute_periapsis_raise_DV. unfold radius_km in *. rewrite !np_div_some by lra. cbn [obind].
  match goal with |- obind ?x _ = _ => destruct x end; cbn [obind]; auto.
  match goal with |- obind (np_sqrt ?y) _ = _ => assert (Q : y < 0); [|rewrite np_sqrt_none by auto; reflexivity] end.
  set (ra := RP p + apo * 1e3) in *. set (q := RP p + target * 1000) in *. replace (ra + target * 1e3 + RP p) with (ra + q) by (unfold ra, q; lra).
  assert (0 < ra) by (unfold ra; lra). assert (0 < ra + q) by (unfold ra, q in *; lra).
  replace (2 * (- GM p / (ra + q)) + 2 * GM p / ra) with (- (2 * GM p * (- q) / (ra * (ra + q)))) by (field; lra).
  assert (0 < 2 * GM p * - q / (ra * (ra + q))) by (apply Rdiv_lt_0_compat; nra). lra.
Qed.

(** * Witnesses *)
Example C54_witness : 0 < radius_km VENUS (-50) /\ 0 < radius_km VENUS 400 /\ 0 < radius_km VENUS 200 /\ Planet "VENUS"%string = Ok VENUS.
Proof. unfold radius_km, VENUS. cbn [RP]. repeat split; lra. Qed.
(** A circular-speed exit on the equator of Venus heading east at 100 km altitude is bound and not radial. *)
Example C52_witness : let x := mkExit (RP VENUS + 100e3) 0 0 8000 0 0 in
  let rv := sph_pos (x_r x) 0 0 in let vv := inertial_vel (OMEGA VENUS) (x_r x) (x_v x) 0 0 0 0 in
  vv <> vzero /\ energy (GM VENUS) rv vv < 0 /\ norm (ang_mom rv vv) <> 0.
Proof.
  intros x rv vv. 
  assert (Ev : vv = V3 0 (8000 + OMEGA VENUS * (RP VENUS + 100e3)) 0).
  { unfold vv, inertial_vel, rel_vel, sph_pos, up_dir, east_dir, north_dir, x. rewrite sin_0, cos_0. apply vec_eq; vsimpl; cbn [x_r x_v]; ring. }
  assert (Er : rv = V3 (RP VENUS + 100e3) 0 0).
  { unfold rv, sph_pos, up_dir, x. rewrite sin_0, cos_0. apply vec_eq; vsimpl; cbn [x_r]; ring. }
  rewrite Ev, Er. unfold VENUS. cbn [RP OMEGA GM]. split; [|split].
  - intros H. apply (f_equal vy) in H. cbn [vy vzero] in H. lra.
  - unfold energy. rewrite (norm_eq (V3 _ 0 0) (6051.8e3 + 100e3)) by (vsimpl; lra). vsimpl. lra.
  - intros H. match type of H with norm ?w = 0 => assert (0 < norm w); [|lra] end.
    apply norm_pos. intros Z. apply (f_equal vz) in Z. revert Z. unfold ang_mom. vsimpl. intros Z. nra.
Qed.
