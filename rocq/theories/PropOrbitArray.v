(** Theorems about the trajectory arrays an Orbiter offers for plotting, and the geometry of the orbiter's
    deflection: C92.  Where a probe enters, as seen from the ground: C93. *)
From Coq Require Import String List.
Require Import Verif.Base Verif.Numpy Verif.NumpyProofs Verif.PlanetModel Verif.PlanetProofs Verif.FrameModel Verif.FrameProofs Verif.ConicSpec Verif.ConicProofs
  Verif.HyperbolaProofs Verif.StateProofs Verif.EllipseProofs Verif.ApproachModel Verif.ApproachProofs Verif.OrbitScalarModel Verif.OrbiterModel Verif.OrbiterProofs
  Verif.PropApproach Verif.PropOrbiter Verif.PropProbe Verif.PropPropulsive Verif.OrbitArraySpec.
Import ListNotations.
Local Open Scope R_scope.

Lemma scaled_samples : forall p pos a b n, 0 < RP p -> (2 <= n)%nat -> samples (RP p) pos a b n (scaled p pos (linspace_opt (Some a) (Some b) n)).
Proof.
  intros p pos a b n HR Hn. unfold scaled, linspace_opt. split; [rewrite !map_length; apply linspace_length|].
  intros k Hk. rewrite map_map.
  rewrite (nth_map_lt _ _ _ (linspace a b n) k 0) by (rewrite linspace_length; auto).
  rewrite linspace_nth by auto. cbn [obind]. destruct (pos _) as [r|]; cbn [obind]; auto.
  destruct r; apply vec_eq; vsimpl; field; lra.
Qed.
Lemma scaled_nth : forall p pos a b n k, (2 <= n)%nat -> (k < n)%nat ->
  nth k (scaled p pos (linspace_opt (Some a) (Some b) n)) None = leto r := pos (a + INR k * ((b - a) / INR (n - 1))) in Some (vscale (1 / RP p) r).
Proof.
  intros p pos a b n k Hn Hk. unfold scaled, linspace_opt. rewrite map_map.
  rewrite (nth_map_lt _ _ _ (linspace a b n) k 0) by (rewrite linspace_length; auto). rewrite linspace_nth by auto. reflexivity.
Qed.
Lemma scaled_hd : forall p pos a b n, (2 <= n)%nat ->
  hd None (scaled p pos (linspace_opt (Some a) (Some b) n)) = leto r := pos a in Some (vscale (1 / RP p) r).
Proof.
  intros p pos a b n Hn. transitivity (nth 0 (scaled p pos (linspace_opt (Some a) (Some b) n)) None); [destruct (scaled _ _ _); reflexivity|].
  rewrite scaled_nth by lia. cbn [INR]. rewrite Rmult_0_l, Rplus_0_r. reflexivity.
Qed.
Lemma scaled_last : forall p pos a b n, (2 <= n)%nat ->
  last (scaled p pos (linspace_opt (Some a) (Some b) n)) None = leto r := pos b in Some (vscale (1 / RP p) r).
Proof. intros p pos a b n Hn. destruct n as [|[|n]]; try lia. apply last_scaled. Qed.

Lemma cos_turn : forall x, cos (x + 2 * PI) = cos x.
Proof. intros. rewrite cos_plus, cos_2PI, sin_2PI. ring. Qed.
Lemma sin_turn : forall x, sin (x + 2 * PI) = sin x.
Proof. intros. rewrite sin_plus, cos_2PI, sin_2PI. ring. Qed.
Lemma orb_pos_2PI : forall p o th, orb_pos p o (th + 2 * PI) = orb_pos p o th.
Proof.
  intros. unfold orb_pos, orb_r. rewrite cos_turn.
  destruct (o_h o); cbn [obind]; auto. destruct (o_e o); cbn [obind]; auto. destruct (np_div _ _); cbn [obind]; auto.
  destruct (o_omega o) as [om|]; cbn [obind]; auto. destruct (o_OMEGA o); cbn [obind]; auto. destruct (o_i o); cbn [obind]; auto.
  f_equal. f_equal. unfold dir_vec. replace (th + 2 * PI + om) with (th + om + 2 * PI) by ring.
  rewrite cos_turn, sin_turn. reflexivity.
Qed.
Lemma defl_pos_2PI : forall ob th, pos_vec_bi_orbiter_defl ob (th + 2 * PI) = pos_vec_bi_orbiter_defl ob th.
Proof.
  intros. unfold pos_vec_bi_orbiter_defl, orb_r. rewrite cos_turn.
  destruct (ob_defl ob) as [o|]; cbn [obind]; auto.
  destruct (o_h o); cbn [obind]; auto. destruct (o_e o); cbn [obind]; auto. destruct (np_div _ _); cbn [obind]; auto.
  destruct (o_omega (ob_orb ob)) as [om|]; cbn [obind]; auto. destruct (o_OMEGA o); cbn [obind]; auto. destruct (o_i o); cbn [obind]; auto.
  f_equal. f_equal. unfold dir_vec. replace (th + 2 * PI + om) with (th + om + 2 * PI) by ring.
  rewrite cos_turn, sin_turn. reflexivity.
Qed.

Lemma plotted_at : forall p pos a b n k r d, 0 < RP p -> (2 <= n)%nat -> (k < n)%nat ->
  pos (a + INR k * ((b - a) / INR (n - 1))) = Some r -> norm r = d ->
  plotted_distance (RP p) (scaled p pos (linspace_opt (Some a) (Some b) n)) k d.
Proof.
  intros p pos a b n k r d HR Hn Hk Hr Hd. exists (vscale (1 / RP p) r). split.
  - rewrite scaled_nth, Hr by auto. reflexivity.
  - rewrite norm_vscale by (apply Rmult_le_pos; [lra|left; apply Rinv_0_lt_compat; auto]). rewrite Hd. field. lra.
Qed.
Lemma mid_600 : forall a b, a + INR 300 * ((b - a) / INR (601 - 1)) = (a + b) / 2.
Proof.
  intros. replace (INR 300) with 300 by (rewrite INR_IZR_INZ; reflexivity). replace (INR (601 - 1)) with 600 by (rewrite INR_IZR_INZ; reflexivity). lra.
Qed.

(** C92: the orbit array of every captured orbiter samples one full revolution of the final orbit: 601
    points from apoapsis to apoapsis, closed, with periapsis in the middle. *)
Theorem C92_orbit_array : forall name w pk ob, Planet name = Ok (fl_planet w) -> Orbiter w pk = Ok ob ->
  samples (RP (ob_planet ob)) (ob_pos ob) PI (3 * PI) 601 (ob_orbit_arr ob) /\ closed_curve (ob_orbit_arr ob) /\
  (0 < ob_rp ob -> captured ob -> exists ra, ob_r_apo ob = Some ra /\
     plotted_distance (RP (ob_planet ob)) (ob_orbit_arr ob) 0 ra /\
     plotted_distance (RP (ob_planet ob)) (ob_orbit_arr ob) 300 (ob_rp ob) /\
     plotted_distance (RP (ob_planet ob)) (ob_orbit_arr ob) 600 ra).
Proof.
  intros name w pk ob HP HO.
  assert (HR : 0 < RP (ob_planet ob)). { destruct (Orbiter_inv _ _ _ HO) as (x & _ & ->). apply (Planet_facts _ _ HP). }
  assert (Earr : ob_orbit_arr ob = scaled (ob_planet ob) (ob_pos ob) (linspace_opt (Some PI) (Some (3 * PI)) 601)).
  { destruct (Orbiter_inv _ _ _ HO) as (x & _ & ->). reflexivity. }
  rewrite Earr. split; [apply scaled_samples; auto; lia|]. split.
  - unfold closed_curve. rewrite scaled_hd, scaled_last by lia. replace (3 * PI) with (PI + 2 * PI) by ring.
    unfold ob_pos. rewrite orb_pos_2PI. reflexivity.
  - intros Hrp Hc. destruct (C33_requested_apsides _ _ _ _ HP HO Hrp Hc) as (a & e & h & ra & _ & _ & _ & Hra & _ & _ & _ & _ & _ & _ & _ & _ & r0 & r1 & H0 & H1 & N0 & N1).
    exists ra. split; auto. split; [|split].
    + eapply plotted_at; try lia; eauto. cbn [INR]. rewrite Rmult_0_l, Rplus_0_r. exact H1.
    + eapply plotted_at; try lia; eauto. rewrite mid_600. replace ((PI + 3 * PI) / 2) with (0 + 2 * PI) by field. unfold ob_pos. rewrite orb_pos_2PI. exact H0.
    + eapply plotted_at; try lia; eauto. change (601 - 1)%nat with 600%nat. replace (PI + INR 600 * ((3 * PI - PI) / INR 600)) with (PI + 2 * PI).
      * unfold ob_pos. rewrite orb_pos_2PI. exact H1.
      * assert (INR 600 <> 0) by (rewrite INR_IZR_INZ; apply IZR_neq; discriminate). field. auto.
Qed.

(** The coast array samples the exit orbit from the exit anomaly to apoapsis. *)
Theorem C92_coast_array : forall name w pk ob t, Planet name = Ok (fl_planet w) -> Orbiter w pk = Ok ob -> ob_theta_exit ob = Some t ->
  samples (RP (ob_planet ob)) (orb_pos (ob_planet ob) (ob_coast ob)) t PI 301 (ob_coast_arr ob).
Proof.
  intros name w pk ob t HP HO Ht.
  assert (HR : 0 < RP (ob_planet ob)). { destruct (Orbiter_inv _ _ _ HO) as (x & _ & ->). apply (Planet_facts _ _ HP). }
  assert (Earr : ob_coast_arr ob = scaled (ob_planet ob) (orb_pos (ob_planet ob) (ob_coast ob)) (linspace_opt (ob_theta_exit ob) (Some PI) 301)).
  { destruct (Orbiter_inv _ _ _ HO) as (x & _ & ->). reflexivity. }
  rewrite Earr, Ht. apply scaled_samples; auto; lia.
Qed.

(** The array of a propulsive orbiter samples one full revolution from periapsis to periapsis. *)
Theorem C92_propulsive_array : forall name p v rp psi hEI A t alt po,
  Approach name v rp psi false hEI = Ok (A, t) -> Planet name = Ok p -> PropulsiveOrbiter A t alt = Ok po ->
  samples (RP p) (orb_pos p (po_orb po)) 0 (2 * PI) 601 (po_arr po) /\ closed_curve (po_arr po) /\
  (v <> vzero -> 0 < rp -> 0 < RP p + alt * 1e3 -> inclined A ->
    plotted_distance (RP p) (po_arr po) 0 rp /\ plotted_distance (RP p) (po_arr po) 300 (RP p + alt * 1e3) /\
    plotted_distance (RP p) (po_arr po) 600 rp).
Proof.
  intros name p v rp psi hEI A t alt po HA Hp HPO.
  assert (HR : 0 < RP p) by apply (Planet_facts _ _ Hp).
  assert (Epl : ap_planet A = p).
  { destruct (Approach_inv _ _ _ _ _ _ _ _ HA) as (p' & Hp' & EA & _). rewrite Hp in Hp'. injection Hp' as <-. rewrite EA. reflexivity. }
  assert (Earr : po_arr po = scaled p (orb_pos p (po_orb po)) (linspace_opt (Some 0) (Some (2 * PI)) 601)).
  { unfold PropulsiveOrbiter in HPO. destruct t; [discriminate|]. rewrite Epl in HPO. apply Ok_injr in HPO. rewrite <- HPO. reflexivity. }
  rewrite Earr. split; [apply scaled_samples; auto; lia|]. split.
  - unfold closed_curve. rewrite scaled_hd, scaled_last by lia. rewrite <- (orb_pos_2PI p _ 0), Rplus_0_l. reflexivity.
  - intros Hv Hrp Hra Hinc. destruct (C34_capture_orbit _ _ _ _ _ _ _ _ _ _ HA Hp HPO Hv Hrp Hra Hinc) as (a & e & h & r & _ & _ & _ & _ & _ & _ & _ & _ & H0 & N0 & H1 & _).
    split; [|split].
    + eapply plotted_at; try lia; eauto. cbn [INR]. rewrite Rmult_0_l, Rplus_0_r. exact H0.
    + eapply plotted_at; try lia; auto. rewrite mid_600. replace ((0 + 2 * PI) / 2) with PI by field. exact H1.
      replace (vscale (- ((RP p + alt * 1e3) / rp)) r) with (vscale ((RP p + alt * 1e3) / rp) (vscale (-1) r)) by (generalize ((RP p + alt * 1e3) / rp); intros; destruct r; apply vec_eq; vsimpl; ring).
      rewrite norm_vscale by (left; apply Rdiv_lt_0_compat; lra). replace (norm (vscale (-1) r)) with (norm r) by (unfold norm; f_equal; destruct r; vsimpl; ring).
      rewrite N0. field. lra.
    + eapply plotted_at; try lia; eauto. change (601 - 1)%nat with 600%nat. replace (0 + INR 600 * ((2 * PI - 0) / INR 600)) with (0 + 2 * PI).
      * rewrite orb_pos_2PI. exact H0.
      * assert (INR 600 <> 0) by (rewrite INR_IZR_INZ; apply IZR_neq; discriminate). field. auto.
Qed.

(** The array of a probe that enters samples its reported positions from the burn to the entry anomaly. *)
Theorem C92_probe_array : forall name w pk ob hist th dV n, Planet name = Ok (fl_planet w) -> Orbiter w pk = Ok ob ->
  let out := compute_probe_targeting_trajectory (after_calls ob hist) th dV n in
  (2 <= n)%nat -> enters ob th dV -> forall t, entry_anomaly ob th dV = Some t ->
  exists arr, ob_probe_arr (fst out) = Some arr /\ samples (RP (ob_planet ob)) (pos_vec_bi_probe (fst out)) th t n arr.
Proof.
  intros name w pk ob hist th dV n HP HO out Hn He t Ht.
  assert (HR : 0 < RP (ob_planet ob)). { destruct (Orbiter_inv _ _ _ HO) as (x & _ & ->). apply (Planet_facts _ _ HP). }
  destruct (history_keeps hist ob) as (A & B).
  destruct (probe_orbit_keeps ob (after_calls ob hist) th dV A B) as (E1 & E2 & E3).
  apply E2 in He. destruct (target_entry (after_calls ob hist) th dV n He) as (T1 & T2 & T3). cbv zeta in T1, T2, T3. fold out in T1, T2, T3.
  rewrite E3, Ht, A in T3. eexists. split; [exact T3|].
  destruct (target_keeps (after_calls ob hist) th dV n) as (K1 & K2 & K3). cbv zeta in K1, K2, K3. fold out in K1, K2, K3.
  replace (pos_vec_bi_probe (fst out)) with (pos_vec_bi_probe (set_probe (after_calls ob hist) (probe_orbit (after_calls ob hist) th dV))).
  - apply scaled_samples; auto.
  - unfold pos_vec_bi_probe. rewrite K1, K2, K3. reflexivity.
Qed.

(** C92: an orbiter deflection.  From the reported probe position and velocity [q], [u] at the anomaly,
    the burn changes the speed by dV along the velocity.  The stored elements are those of the state
    after the burn; the array samples one revolution and closes; and every reported position is at the
    distance of the deflected orbit and in its plane, but turned from where it belongs by the difference
    of the two arguments of periapsis. *)
Theorem C92_deflection : forall ob th dV n q u, 0 < GM (ob_planet ob) -> 0 < RP (ob_planet ob) ->
  pos_vec_bi_probe ob th = Some q -> vel_vec_bi_probe ob th = Some u -> u <> vzero -> (2 <= n)%nat ->
  let mu := GM (ob_planet ob) in let u2 := vadd u (vscale (dV / norm u) u) in
  let e := norm (ecc_vector mu q u2) in let h := norm (ang_mom q u2) in
  let P := vscale (1 / e) (ecc_vector mu q u2) in let W := vscale (1 / h) (ang_mom q u2) in
  tilted (ang_mom q u2) -> ecc_vector mu q u2 <> vzero -> energy mu q u2 <> 0 ->
  let out := compute_orbiter_deflection_trajectory ob th dV n in
  snd out = Ok tt /\
  exists o arr om2, ob_defl (fst out) = Some o /\
    o_a o = Some (- mu / (2 * energy mu q u2)) /\ o_e o = Some e /\ o_h o = Some h /\ o_omega o = Some om2 /\
    (forall t, 1 + e * cos t <> 0 -> orb_pos (ob_planet ob) o t = Some (conic_pos mu h e P W t)) /\
    ob_defl_arr (fst out) = Some arr /\
    samples (RP (ob_planet ob)) (pos_vec_bi_orbiter_defl (fst out)) 0 (2 * PI) n arr /\ closed_curve arr /\
    forall om, o_omega (ob_orb ob) = Some om -> forall t, 1 + e * cos t <> 0 ->
      pos_vec_bi_orbiter_defl (fst out) t = Some (vscale (conic_radius mu h e t) (perifocal P W (t + (om - om2)))).
Proof.
  intros ob th dV n q u Hmu HR Hq Hu Hu0 Hn mu u2 e h P W Ht He HE out.
  pose proof (norm_pos u Hu0) as Hnu.
  destruct (ob_probe ob) as [o0|] eqn:Eo; [|unfold pos_vec_bi_probe in Hq; rewrite Eo in Hq; discriminate].
  assert (Eb : orbit_after (ob_planet ob) (pos_vec_bi_probe ob th) (vel_vec_bi_probe ob th) dV = orbit_elements (ob_planet ob) q u2 (norm q) (norm u2)).
  { unfold orbit_after. rewrite Hq, Hu. cbn [obind]. unfold after_burn. rewrite np_div_some by lra. cbn [obind].
    replace (dV * (1 / norm u)) with (dV / norm u) by (field; lra). reflexivity. }
  assert (Eout : out = (set_defl_arr (set_defl ob (orbit_elements (ob_planet ob) q u2 (norm q) (norm u2)))
     (scaled (ob_planet ob) (pos_vec_bi_orbiter_defl (set_defl ob (orbit_elements (ob_planet ob) q u2 (norm q) (norm u2)))) (linspace_opt (Some 0) (Some (2 * PI)) n)), Ok tt)).
  { unfold out, compute_orbiter_deflection_trajectory. rewrite Eo, Eb. reflexivity. }
  rewrite Eout. cbn [fst snd]. split; [reflexivity|].
  destruct (elements_of_state (ob_planet ob) q u2 Hmu Ht He HE) as (i & Om & om2 & K & _). fold mu e h P W in K.
  set (o := orbit_elements (ob_planet ob) q u2 (norm q) (norm u2)) in *.
  eexists o, _, om2. split; [reflexivity|]. split; [apply K|]. split; [apply K|]. split; [apply K|]. split; [apply K|].
  split. { intros t Hd. apply (orb_pos_eq _ _ _ _ _ _ _ _ _ _ _ K Hd). }
  split; [reflexivity|].
  assert (Ef : forall l, pos_vec_bi_orbiter_defl (set_defl_arr (set_defl ob o) l) = pos_vec_bi_orbiter_defl (set_defl ob o)) by reflexivity.
  rewrite Ef. split; [apply scaled_samples; auto|]. split.
  - unfold closed_curve. rewrite scaled_hd, scaled_last by auto. rewrite <- (defl_pos_2PI _ 0), Rplus_0_l. reflexivity.
  - intros om Hom t Hd. unfold pos_vec_bi_orbiter_defl. cbn [ob_defl set_defl obind ob_orb ob_planet].
    rewrite (orb_r_eq _ _ _ _ _ _ _ _ _ _ _ K Hd), Hom, (pl_O _ _ _ _ _ _ _ _ _ K), (pl_i _ _ _ _ _ _ _ _ _ K). cbn [obind]. f_equal. f_equal.
    rewrite <- (pl_dir _ _ _ _ _ _ _ _ _ K). unfold orbit_dir, dir_vec. replace (t + (om - om2) + om2) with (t + om) by ring. reflexivity.
Qed.

Lemma ecc_dot_pos : forall mu r v, mu <> 0 -> r <> vzero -> dot (ecc_vector mu r v) r = norm2 (ang_mom r v) / mu - norm r.
Proof.
  intros mu r v Hmu Hr. pose proof (norm_pos r Hr) as Hn. pose proof (norm_sq r) as H2.
  transitivity (norm2 (ang_mom r v) / mu - norm2 r / norm r).
  - unfold ecc_vector, ang_mom. generalize dependent (norm r). intros n Hn H2. clear H2. destruct r, v. vsimpl. field. split; auto; lra.
  - f_equal. rewrite <- H2. field. lra.
Qed.

(** A captured orbiter whose probe follows the orbiter's own orbit meets the hypotheses of C92_deflection
    with no burn, at periapsis or at apoapsis. *)
Lemma deflection_case : forall name w pk ob0, Planet name = Ok (fl_planet w) -> Orbiter w pk = Ok ob0 -> 0 < ob_rp ob0 -> captured ob0 ->
  let ob := set_probe ob0 (ob_orb ob0) in
  exists th q u, pos_vec_bi_probe ob th = Some q /\ vel_vec_bi_probe ob th = Some u /\ u <> vzero /\
    tilted (ang_mom q u) /\ ecc_vector (GM (ob_planet ob)) q u <> vzero /\ energy (GM (ob_planet ob)) q u <> 0.
Proof.
  intros name w pk ob0 HP HO Hrp Hc ob.
  destruct (captured_bound _ _ _ _ HP HO Hrp Hc) as (Hmu & HRP & a & e & h & ra & a' & e' & h' & P & W & i & Om & om & K).
  destruct (post_facts _ _ _ _ _ _ _ _ _ _ _ _ _ K Hrp) as (Hra & Ha' & He' & Hd).
  pose proof (post_state _ _ _ _ _ _ _ _ _ _ _ _ _ Hmu Hrp K) as Sn.
  destruct K as [Kco Ka Ke Kh Kh2 KaE Kfr Kra Kapo Korb Ki KO Ka' Ke' Kh' Kh2' Kvc Kvo].
  change (ob_planet ob) with (ob_planet ob0). set (mu := GM (ob_planet ob0)) in *.
  assert (Hkf : 1 < kf) by (unfold kf; lra).
  assert (Hth : exists th, conic_radius mu h' e' th <> h' / kf * (h' / kf) / mu).
  { assert (Hx : 0 < h' * h' / mu) by (apply Rdiv_lt_0_compat; nra). set (X := h' * h' / mu) in *.
    assert (E : h' / kf * (h' / kf) / mu = X / (kf * kf)) by (unfold X; field; lra). rewrite E.
    destruct (Req_dec (1 + e') (kf * kf)) as [Z|Z].
    - exists PI. unfold conic_radius. fold X. rewrite cos_PI. intros Q.
      assert (X * (kf * kf) = X * (1 + e' * -1)).
      { replace (X * (kf * kf)) with (X / (1 + e' * -1) * (1 + e' * -1) * (kf * kf)) by (field; lra). rewrite Q. field. lra. }
      assert (kf * kf = 1 + e' * -1) by (apply Rmult_eq_reg_l with X; lra). nra.
    - exists 0. unfold conic_radius. fold X. rewrite cos_0, Rmult_1_r. intros Q. apply Z.
      apply Rmult_eq_reg_l with X; [|lra]. replace (X * (kf * kf)) with (X / (1 + e') * (1 + e') * (kf * kf)) by (field; lra). rewrite Q. field. lra. }
  destruct Hth as (th & Hth). destruct (Sn th) as (Hp & _ & Hr & HU & HWU & Hvv & Hlt). set (rr := conic_radius mu h' e' th) in *.
  pose proof (pl_W _ _ _ _ _ _ _ _ _ Korb) as HW.
  pose proof (Rle_0_sqr (mu / h' * (e' * sin th))) as Hsq. unfold Rsqr in Hsq.
  assert (Hq : 0 < h' / rr) by (apply Rdiv_lt_0_compat; auto).
  destruct (loaded_invariants mu (-1) a' h' rr (perifocal P W th) W HU HW HWU Hr Hmu ltac:(auto) ltac:(lra)) as (L1 & L2 & L3 & L4).
  set (q := vscale rr (perifocal P W th)) in *. set (u := loaded_vel mu (-1) a' h' rr (perifocal P W th) W) in *.
  exists th, q, u.
  assert (Epos : pos_vec_bi_probe ob th = Some q).
  { pose proof (Hd th). apply (probe_pos ob0 ob (ob_orb ob0) _ _ _ _ _ _ _ _ _ _ _ _ _ th Korb Korb); auto. lra. }
  split; [exact Epos|]. split.
  { unfold vel_vec_bi_probe. rewrite Epos. cbn [ob_probe ob set_probe obind]. rewrite L1.
    change (GM (ob_planet ob)) with mu.
    apply (orb_vel_at_eq (ob_planet ob0) _ _ _ _ _ _ _ _ _ _ _ _ Korb); [right; reflexivity|lra|lra| |]; fold mu; rewrite Hvv; [|lra].
    assert (0 < h' / rr * (h' / rr)) by (apply Rmult_lt_0_compat; auto). lra. }
  assert (Hv2 : 0 < norm2 u). { rewrite L2, Hvv. assert (0 < h' / rr * (h' / rr)) by (apply Rmult_lt_0_compat; auto). lra. }
  split. { intros Z. rewrite Z in Hv2. unfold vzero, norm2, dot in Hv2. cbn [vx vy vz] in Hv2. lra. }
  split. { rewrite L3. destruct Hc as (_ & Ht & _). rewrite (of_hW _ _ _ _ _ _ _ Kfr) in Ht.
    assert (Hhk : h' / kf <> 0) by (apply Rgt_not_eq, Rdiv_lt_0_compat; lra).
    unfold tilted in *. destruct W as [wx wy wz]. cbn [vx vy vz vscale] in *.
    destruct Ht as [Ht|Ht]; [left|right]; apply Rmult_integral_contrapositive_currified; auto; intros Z; apply Ht; rewrite Z; ring. }
  split.
  - intros Z. assert (Hq0 : q <> vzero). { intros Y. rewrite Y in L1. rewrite (norm_eq vzero 0) in L1 by (try lra; unfold vzero; vsimpl; ring). lra. }
    pose proof (ecc_dot_pos mu q u ltac:(lra) Hq0) as D. rewrite Z, L3, L1, norm2_vscale, HW in D. unfold vzero, dot in D. cbn [vx vy vz] in D.
    apply Hth. lra.
  - unfold energy. rewrite L1, L2. assert (0 < mu * / a') by (apply Rmult_lt_0_compat; [auto|apply Rinv_0_lt_compat; auto]).
    replace (mu * (2 / rr - 1 / a') / 2 - mu / rr) with (- (mu * / a') / 2) by (field; lra). lra.
Qed.
Example C92_witness : exists ob0, Planet "NEPTUNE"%string = Ok (fl_planet (wit_flown 20000 (PI / 6))) /\ Orbiter (wit_flown 20000 (PI / 6)) 4000 = Ok ob0 /\
  0 < ob_rp ob0 /\ captured ob0 /\
  let ob := set_probe ob0 (ob_orb ob0) in let mu := GM (ob_planet ob) in
  exists th q u, pos_vec_bi_probe ob th = Some q /\ vel_vec_bi_probe ob th = Some u /\ u <> vzero /\
    let u2 := vadd u (vscale (0 / norm u) u) in tilted (ang_mom q u2) /\ ecc_vector mu q u2 <> vzero /\ energy mu q u2 <> 0.
Proof.
  destruct C31_witness as (ob & HP & HO & Hrp & Hc & _). exists ob. do 4 (split; auto). intros ob' mu.
  destruct (deflection_case _ _ _ _ HP HO Hrp Hc) as (th & q & u & H1 & H2 & H3 & H4). exists th, q, u. do 3 (split; auto).
  intros u2. replace u2 with u; auto. unfold u2, Rdiv. rewrite Rmult_0_l. destruct u; apply vec_eq; vsimpl; ring.
Qed.

(** C93: where and how a probe enters, as seen from the ground.
    What the entry block computes from a position [r] off the plane x = 0. *)
Lemma ground_frame : forall r, vx r <> 0 ->
  exists lat lon, np_arcsin (vz (vscale (1 / norm r) r)) = Some lat /\
    atan_ratio (vy (vscale (1 / norm r) r)) (vx (vscale (1 / norm r) r)) = Some lon /\ - (PI / 2) < lon < PI / 2 /\
    sin lat = vz r / norm r /\ - (PI / 2) <= lat <= PI / 2 /\ norm r * cos lat = sqrt (vx r * vx r + vy r * vy r) /\
    let sg := vx r / Rabs (vx r) in
    V3 (- sin lon) (cos lon) 0 = vscale sg (east_of r) /\
    (forall p w, vel_vec_entry_atm p w (norm r) lat lon = vsub w (vscale sg (air_velocity (OMEGA p) r))).
Proof.
  intros r Hx.
  assert (Hnz : r <> vzero) by (intros ->; apply Hx; reflexivity).
  pose proof (norm_pos r Hnz) as Hn. pose proof (norm_sq r) as Hn2.
  set (n := norm r) in *. destruct r as [x y z]. unfold norm2, dot in Hn2; cbn [vx vy vz vscale] in *.
  set (d := sqrt (x * x + y * y)) in *.
  assert (Hd : 0 < d) by (apply sqrt_lt_R0; nra).
  assert (Hdd : d * d = x * x + y * y) by (apply sqrt_sqrt; nra).
  assert (Hzn : -1 <= z / n <= 1).
  { split; apply Rmult_le_reg_r with n; auto; replace (z / n * n) with z by (field; lra); nra. }
  assert (Hzn' : 1 / n * z = z / n) by (field; lra).
  set (lat := asin (z / n)).
  destruct (asin_facts (z / n) Hzn) as (L1 & L2 & L3). fold lat in L1, L2, L3.
  assert (Hcl : n * cos lat = d).
  { apply sq_eq_nonneg; [nra|lra|]. replace (n * cos lat * (n * cos lat)) with (n * n * (cos lat * cos lat)) by ring. rewrite L3, Hdd.
    replace (n * n * (1 - z / n * (z / n))) with (n * n - z * z) by (field; lra). lra. }
  set (lon := atan (y / x)).
  destruct (lon_facts x y Hx) as (C1 & C2). fold lon in C1, C2. fold d in C1, C2.
  pose proof (Rabs_pos_lt x Hx) as Hax.
  assert (Haa : Rabs x * Rabs x = x * x) by (rewrite <- Rabs_mult; apply Rabs_pos_eq; nra).
  set (sg := x / Rabs x).
  assert (Hsgx : Rabs x = sg * x) by (unfold sg; replace (x / Rabs x * x) with (x * x / Rabs x) by (field; lra); rewrite <- Haa; field; lra).
  assert (Hsgy : y / x * Rabs x = sg * y) by (rewrite Hsgx; field; lra).
  rewrite Hsgy in C2. rewrite Hsgx in C1.
  exists lat, lon. split; [rewrite Hzn'; apply np_arcsin_some; auto|]. split.
  { unfold atan_ratio. destruct (Reqb_spec (1 / n * x) 0) as [Hc|Hc]; [exfalso; apply Hx|f_equal; unfold lon; f_equal; field; split; lra].
    replace x with (n * (1 / n * x)) by (field; lra). rewrite Hc; ring. }
  split; [pose proof (atan_bound (y / x)) as AB; unfold lon; lra|]. split; [assumption|]. split; [apply asin_bound|]. split; [assumption|].
  cbv zeta. split. { unfold east_of; cbn [vx vy vz]. fold d. apply vec_eq; cbn [vx vy vz vscale].
    - apply Rmult_eq_reg_r with d; [|lra]. replace (sg * (1 / d * - y) * d) with (- (sg * y)) by (field; lra). lra.
    - apply Rmult_eq_reg_r with d; [|lra]. rewrite C1. field; lra.
    - ring. }
  intros p w. unfold vel_vec_entry_atm, air_velocity. apply vec_eq; cbn [vx vy vz vsub vscale cross].
  - replace (n * OMEGA p * cos lat * - sin lon) with (- OMEGA p * ((n * cos lat) * sin lon)) by ring.
    rewrite Hcl. rewrite (Rmult_comm d), C2. ring.
  - replace (n * OMEGA p * cos lat * cos lon) with (OMEGA p * ((n * cos lat) * cos lon)) by ring.
    rewrite Hcl. rewrite (Rmult_comm d), C1. ring.
  - ring.
Qed.


(** The same for every position not on the polar axis: [sg] is -1 exactly when x is negative. *)
Lemma ground_any : forall r, vx r <> 0 \/ vy r <> 0 ->
  exists lat lon sg, np_arcsin (vz (vscale (1 / norm r) r)) = Some lat /\
    atan_ratio (vy (vscale (1 / norm r) r)) (vx (vscale (1 / norm r) r)) = Some lon /\
    (0 <= vx r -> sg = 1) /\ (vx r < 0 -> sg = -1) /\
    norm r * cos lat = sqrt (vx r * vx r + vy r * vy r) /\
    V3 (- sin lon) (cos lon) 0 = vscale sg (east_of r) /\
    (forall p w, vel_vec_entry_atm p w (norm r) lat lon = vsub w (vscale sg (air_velocity (OMEGA p) r))).
Proof.
  intros r Hxy. destruct (Req_dec (vx r) 0) as [Hx|Hx].
  - destruct Hxy as [Hxy|Hy]; [contradiction|].
    assert (Hnz : r <> vzero) by (intros ->; apply Hy; reflexivity).
    pose proof (norm_pos r Hnz) as Hn. pose proof (norm_sq r) as Hn2. destruct r as [x y z]. cbn [vx vy vz vscale] in *. subst x. set (n := norm (V3 0 y z)) in *.
    unfold norm2, dot in Hn2; cbn [vx vy vz] in Hn2.
    assert (Hzn : -1 <= z / n <= 1).
    { split; apply Rmult_le_reg_r with n; auto; replace (z / n * n) with z by (field; lra); nra. }
    destruct (asin_facts (z / n) Hzn) as (L1 & L2 & L3). set (lat := asin (z / n)) in *.
    assert (Hd : sqrt (0 * 0 + y * y) = Rabs y) by (replace (0 * 0 + y * y) with (Rsqr y) by (unfold Rsqr; ring); apply sqrt_Rsqr_abs).
    assert (Hay : 0 < Rabs y) by (apply Rabs_pos_lt; auto).
    assert (Hyy : Rabs y * Rabs y = y * y) by (rewrite <- Rabs_mult; apply Rabs_pos_eq; nra).
    assert (Hcl : n * cos lat = Rabs y).
    { apply sq_eq_nonneg; [nra|lra|]. replace (n * cos lat * (n * cos lat)) with (n * n * (cos lat * cos lat)) by ring. rewrite L3, Hyy.
      replace (n * n * (1 - z / n * (z / n))) with (n * n - z * z) by (field; lra). lra. }
    assert (Hlon : exists lon, atan_ratio (1 / n * y) (1 / n * 0) = Some lon /\ cos lon = 0 /\ sin lon = y / Rabs y).
    { unfold atan_ratio. destruct (Reqb_spec (1 / n * 0) 0) as [_|Z]; [|exfalso; apply Z; ring].
      assert (Hin : 0 < 1 / n) by (apply Rdiv_lt_0_compat; lra).
      destruct (Rltb_spec 0 (1 / n * y)) as [Z|Z].
      - exists (PI / 2). split; auto. split; [apply cos_PI2|]. rewrite sin_PI2, Rabs_pos_eq by nra. field. auto.
      - destruct (Rltb_spec (1 / n * y) 0) as [Z'|Z'].
        + exists (- (PI / 2)). split; auto. split; [rewrite cos_neg; apply cos_PI2|]. rewrite sin_neg, sin_PI2, Rabs_left by nra. field. auto.
        + exfalso. apply Hy. assert (1 / n * y = 0) by lra. replace y with (n * (1 / n * y)) by (field; lra). rewrite H. ring. }
    destruct Hlon as (lon & G2 & Cl & Sl). exists lat, lon, 1.
    split. { replace (1 / n * z) with (z / n) by (field; lra). apply np_arcsin_some; auto. }
    split; [exact G2|]. split; [auto|]. split; [lra|]. rewrite Hd. split; [exact Hcl|]. split.
    + unfold east_of. cbn [vx vy vz]. rewrite Hd, Cl, Sl. apply vec_eq; cbn [vx vy vz vscale]; field; lra.
    + intros p w. unfold vel_vec_entry_atm, air_velocity. rewrite Cl, Sl. apply vec_eq; cbn [vx vy vz vsub vscale cross]; try ring.
      transitivity (vx w + OMEGA p * (n * cos lat) * (y / Rabs y)); [ring|]. rewrite Hcl. field. lra.
  - destruct (ground_frame r Hx) as (lat & lon & G1 & G2 & G3 & G4 & G5 & G6 & G7 & G8).
    exists lat, lon, (vx r / Rabs (vx r)). split; auto. split; auto. split.
    { intros Hs. rewrite Rabs_pos_eq by lra. field. auto. } split. { intros Hs. rewrite Rabs_left by lra. field. auto. }
    auto.
Qed.
Lemma east_any : forall r, vx r <> 0 \/ vy r <> 0 -> norm2 (east_of r) = 1 /\ dot (east_of r) r = 0 /\ dot (north_of r) (east_of r) = 0 /\ dot (north_of r) r = 0.
Proof.
  intros [x y z] Hxy; cbn [vx vy] in Hxy. unfold north_of, east_of; cbn [vx vy vz]. set (d := sqrt (x * x + y * y)).
  assert (Hxx : 0 < x * x + y * y) by (destruct Hxy as [Z|Z]; [assert (0 < x * x) by nra|assert (0 < y * y) by nra]; nra).
  assert (Hd : 0 < d) by (apply sqrt_lt_R0; auto).
  assert (Hdd : d * d = x * x + y * y) by (apply sqrt_sqrt; lra).
  generalize (1 / norm (V3 x y z)); intros k.
  repeat split; vsimpl; try ring.
  transitivity ((x * x + y * y) / (d * d)); [field; lra|]. rewrite Hdd. field. lra.
Qed.

(** What a targeting call that makes the probe enter stores, in terms of the entry position and velocity. *)
Lemma entry_fields : forall ob th dV n pe r v, enters ob th dV ->
  ob_entry (fst (compute_probe_targeting_trajectory ob th dV n)) = Some pe -> pe_r pe = Some r -> pe_v pe = Some v -> r <> vzero ->
  let rh := vscale (1 / norm r) r in
  pe_lat pe = np_arcsin (vz rh) /\ pe_lon pe = atan_ratio (vy rh) (vx rh) /\
  pe_v_atm pe = (leto la := pe_lat pe in leto lo := pe_lon pe in Some (vel_vec_entry_atm (ob_planet ob) v (norm r) la lo)) /\
  pe_heading pe = (leto u := (leto x := pe_v_atm pe in unit_of x) in leto lo := pe_lon pe in
                   np_arccos (dot (vsub u (vscale (dot u rh) rh)) (V3 (- sin lo) (cos lo) 0))).
Proof.
  intros ob th dV n pe r v He Hpe Hr Hv Hnz rh.
  destruct (target_entry ob th dV n He) as (T1 & _). rewrite Hpe in T1. injection T1 as ->.
  set (ob1 := set_probe ob (probe_orbit ob th dV)) in *. set (o := probe_orbit ob th dV) in *.
  assert (Hru : (leto x := pe_r (probe_entry_of ob1 o) in unit_of x) = Some rh) by (rewrite Hr; cbn [obind]; apply unit_of_some; auto).
  assert (F1 : pe_lat (probe_entry_of ob1 o) = leto x := (leto x := pe_r (probe_entry_of ob1 o) in unit_of x) in np_arcsin (vz x)) by reflexivity.
  assert (F2 : pe_lon (probe_entry_of ob1 o) = leto x := (leto x := pe_r (probe_entry_of ob1 o) in unit_of x) in atan_ratio (vy x) (vx x)) by reflexivity.
  assert (F3 : pe_v_atm (probe_entry_of ob1 o) = leto x := pe_v (probe_entry_of ob1 o) in leto y := pe_r (probe_entry_of ob1 o) in
     leto la := pe_lat (probe_entry_of ob1 o) in leto lo := pe_lon (probe_entry_of ob1 o) in Some (vel_vec_entry_atm (ob_planet ob) x (norm y) la lo)) by reflexivity.
  assert (F4 : pe_heading (probe_entry_of ob1 o) = leto x := (leto x := pe_r (probe_entry_of ob1 o) in unit_of x) in
     leto y := (leto x := pe_v_atm (probe_entry_of ob1 o) in unit_of x) in leto lo := pe_lon (probe_entry_of ob1 o) in
     np_arccos (dot (vsub y (vscale (dot y x) x)) (V3 (- sin lo) (cos lo) 0))) by reflexivity.
  rewrite Hru in F1, F2, F4. rewrite Hr, Hv in F3. cbn [obind] in F1, F2, F3, F4. auto.
Qed.

(** Latitude and longitude are those of the entry point, and the air velocity is removed, when its x
    coordinate is not negative; when it is negative the longitude is half a turn off and the velocity of
    the air is added instead of removed; over a pole there is no longitude, velocity or heading. *)
Theorem C93_entry_place : forall ob th dV n pe r v, enters ob th dV ->
  ob_entry (fst (compute_probe_targeting_trajectory ob th dV n)) = Some pe -> pe_r pe = Some r -> pe_v pe = Some v -> r <> vzero ->
  exists lat, pe_lat pe = Some lat /\ sin lat = vz r / norm r /\ - (PI / 2) <= lat <= PI / 2 /\
  (vx r <> 0 \/ vy r <> 0 -> exists lon, pe_lon pe = Some lon /\
    (0 <= vx r -> r = sph_pos (norm r) lon lat /\ pe_v_atm pe = Some (vsub v (air_velocity (OMEGA (ob_planet ob)) r))) /\
    (vx r < 0 -> r = sph_pos (norm r) (lon + PI) lat /\ pe_v_atm pe = Some (vadd v (air_velocity (OMEGA (ob_planet ob)) r)))) /\
  (vx r = 0 -> vy r = 0 -> pe_lon pe = None /\ pe_v_atm pe = None /\ pe_heading pe = None).
Proof.
  intros ob th dV n pe r v He Hpe Hr Hv Hnz.
  destruct (entry_fields ob th dV n pe r v He Hpe Hr Hv Hnz) as (F1 & F2 & F3 & F4).
  pose proof (norm_pos r Hnz) as Hn. pose proof (norm_sq r) as Hn2.
  assert (Hzn : -1 <= vz r / norm r <= 1).
  { unfold norm2, dot in Hn2. split; apply Rmult_le_reg_r with (norm r); auto; replace (vz r / norm r * norm r) with (vz r) by (field; lra); nra. }
  assert (Ez : vz (vscale (1 / norm r) r) = vz r / norm r) by (cbn [vz vscale]; field; lra).
  rewrite Ez in F1. rewrite np_arcsin_some in F1 by auto.
  set (lat := asin (vz r / norm r)) in *. destruct (asin_facts (vz r / norm r) Hzn) as (L1 & L2 & L3). fold lat in L1, L2, L3.
  exists lat. split; [exact F1|]. split; [exact L1|]. split; [apply asin_bound|].
  assert (Hz : vz r = norm r * sin lat) by (rewrite L1; field; lra). split.
  - intros Hxy. destruct (ground_any r Hxy) as (lat' & lon & sg & G1 & G2 & S1 & S2 & G6 & G7 & G8).
    assert (lat' = lat). { rewrite Ez in G1. rewrite np_arcsin_some in G1 by auto. injection G1 as <-. reflexivity. } subst lat'.
    rewrite G2 in F2. rewrite F1, F2 in F3. cbn [obind] in F3. rewrite G8 in F3.
    exists lon. split; auto. injection G7 as E1 E2 _. set (d := sqrt (vx r * vx r + vy r * vy r)) in *.
    assert (Hd : 0 < d). { apply sqrt_lt_R0. destruct Hxy as [Z|Z]; [assert (0 < vx r * vx r) by nra|assert (0 < vy r * vy r) by nra]; nra. }
    assert (Ex : cos lon = sg * (vx r / d)) by (rewrite E2; unfold east_of; cbn [vx vy vscale]; fold d; field; lra).
    assert (Ey : sin lon = sg * (vy r / d)).
    { assert (- sin lon = - (sg * (vy r / d))); [|lra]. rewrite E1; unfold east_of; cbn [vx vy vscale]; fold d; field; lra. }
    split; intros Hs.
    + rewrite (S1 Hs) in *. split.
      * unfold sph_pos, up_dir. apply vec_eq; cbn [vx vy vz vscale]; auto.
        { transitivity (norm r * cos lat * cos lon); [rewrite G6, Ex; field; lra|ring]. }
        { transitivity (norm r * cos lat * sin lon); [rewrite G6, Ey; field; lra|ring]. }
      * rewrite F3. f_equal. unfold air_velocity. destruct r; apply vec_eq; vsimpl; ring.
    + rewrite (S2 Hs) in *. split.
      * unfold sph_pos, up_dir. rewrite neg_cos, neg_sin. apply vec_eq; cbn [vx vy vz vscale]; auto.
        { transitivity (- (norm r * cos lat * cos lon)); [rewrite G6, Ex; field; lra|ring]. }
        { transitivity (- (norm r * cos lat * sin lon)); [rewrite G6, Ey; field; lra|ring]. }
      * rewrite F3. f_equal. unfold air_velocity. destruct r; apply vec_eq; vsimpl; ring.
  - intros Hx Hy. assert (Ex : vx (vscale (1 / norm r) r) = 0) by (cbn [vx vscale]; rewrite Hx; ring).
    assert (Ey : vy (vscale (1 / norm r) r) = 0) by (cbn [vy vscale]; rewrite Hy; ring). rewrite Ex, Ey in F2.
    unfold atan_ratio in F2. destruct (Reqb_spec 0 0) as [_|Z]; [|contradiction]. destruct (Rltb_spec 0 0) as [Z|_]; [lra|].
    split; auto. rewrite F1, F2 in F3. cbn [obind] in F3. split; auto. rewrite F3 in F4. exact F4.
Qed.

(** The heading is not the direction of flight: with [g] and [chi] the flight-path angle and the heading
    from east towards north of the reported atmosphere-relative velocity it is the angle whose cosine is
    cos g cos chi, of the opposite sign when the longitude is half a turn off. *)
Theorem C93_entry_heading : forall ob th dV n pe r v u g chi, enters ob th dV ->
  ob_entry (fst (compute_probe_targeting_trajectory ob th dV n)) = Some pe -> pe_r pe = Some r -> pe_v pe = Some v -> vx r <> 0 \/ vy r <> 0 ->
  pe_v_atm pe = Some u -> u <> vzero -> has_fpa_heading r u g chi ->
  (0 <= vx r -> pe_heading pe = Some (acos (cos g * cos chi))) /\
  (vx r < 0 -> pe_heading pe = Some (acos (- (cos g * cos chi)))).
Proof.
  intros ob th dV n pe r v u g chi He Hpe Hr Hv Hxy Hu Hunz Hfh.
  assert (Hnz : r <> vzero) by (intros Z; rewrite Z in Hxy; destruct Hxy as [Hx|Hx]; apply Hx; reflexivity).
  destruct (entry_fields ob th dV n pe r v He Hpe Hr Hv Hnz) as (F1 & F2 & F3 & F4).
  destruct (ground_any r Hxy) as (lat & lon & sg & G1 & G2 & S1 & S2 & G6 & G7 & G8).
  pose proof (norm_pos r Hnz) as Hn. pose proof (norm_pos u Hunz) as Hnu.
  rewrite Hu, F2, G2 in F4. cbn [obind] in F4. rewrite unit_of_some in F4 by auto. cbn [obind] in F4. rewrite G7 in F4.
  set (rh := vscale (1 / norm r) r) in *. set (E := east_of r) in *. set (N := north_of r) in *.
  assert (Hrh1 : norm2 rh = 1) by (apply unit_norm2; auto).
  destruct (east_any r Hxy) as (Q1 & Q2 & Q3 & Q4). fold E N in Q1, Q2, Q3, Q4.
  assert (Q2' : dot E rh = 0) by (unfold rh; rewrite dot_vscale_r, Q2; ring).
  assert (Q4' : dot N rh = 0) by (unfold rh; rewrite dot_vscale_r, Q4; ring).
  set (uh := vscale (1 / norm u) u) in *.
  assert (Huh : uh = vadd (vscale (sin g) rh) (vscale (cos g) (vadd (vscale (cos chi) E) (vscale (sin chi) N)))).
  { unfold uh. unfold has_fpa_heading in Hfh. fold E N rh in Hfh. rewrite Hfh at 2. generalize (norm u) Hnu. intros k Hk.
    destruct rh, E, N; apply vec_eq; vsimpl; field; lra. }
  assert (Hde : dot uh E = cos g * cos chi).
  { rewrite Huh. transitivity (sin g * dot E rh + cos g * cos chi * norm2 E + cos g * sin chi * dot N E); [destruct rh, E, N; vsimpl; ring|]. rewrite Q1, Q2', Q3; ring. }
  assert (Hh : pe_heading pe = np_arccos (sg * (cos g * cos chi))).
  { rewrite F4. f_equal. rewrite dot_vscale_r. f_equal.
    transitivity (dot uh E - dot uh rh * dot E rh); [destruct uh, E, rh; vsimpl; ring|]. rewrite Q2', Hde. ring. }
  assert (Hb : -1 <= cos g * cos chi <= 1).
  { pose proof (COS_bound g). pose proof (COS_bound chi). split; nra. }
  rewrite Hh. split; intros Hsx.
  - rewrite (S1 Hsx), Rmult_1_l. apply np_arccos_some; auto.
  - rewrite (S2 Hsx). replace (-1 * (cos g * cos chi)) with (- (cos g * cos chi)) by ring. apply np_arccos_some; lra.
Qed.

(** Every velocity has a flight-path angle and a heading at a point off the polar axis. *)
Lemma angles_any : forall r u, vx r <> 0 \/ vy r <> 0 -> u <> vzero ->
  exists g chi, has_fpa_heading r u g chi /\ - (PI / 2) <= g <= PI / 2.
Proof.
  intros r u Hx Hu. set (rh := vscale (1 / norm r) r). set (E := east_of r). set (N := north_of r).
  assert (Hrz : r <> vzero) by (intros Z; rewrite Z in Hx; destruct Hx as [Hx|Hx]; apply Hx; reflexivity).
  assert (Hrh : norm2 rh = 1) by (apply unit_norm2; auto).
  destruct (east_any r Hx) as (F1 & F2 & F3 & F4). fold E N in F1, F2, F3, F4.
  assert (F2' : dot E rh = 0) by (unfold rh; rewrite dot_vscale_r, F2; ring).
  assert (HN : N = cross rh E) by reflexivity.
  pose proof (norm_pos u Hu) as Hnu. set (uh := vscale (1 / norm u) u).
  assert (Huh : norm2 uh = 1) by (apply unit_norm2; auto).
  pose proof (basis_decomp rh E uh Hrh F1 F2') as D. rewrite <- HN in D.
  set (s := dot uh rh) in *. set (x := dot uh E) in *. set (y := dot uh N) in *.
  assert (Hsum : s * s + (x * x + y * y) = 1).
  { rewrite <- Huh. unfold norm2. rewrite D at 2. unfold s, x, y. clear. destruct uh, rh, E, N; vsimpl; ring. }
  assert (Hs : -1 <= s <= 1) by nra.
  destruct (asin_facts s Hs) as (A1 & A2 & A3).
  destruct (atan2_spec y x) as (B1 & B2).
  assert (Hc : cos (asin s) = sqrt (x * x + y * y)).
  { apply sq_eq_nonneg; [auto|apply sqrt_pos|]. rewrite A3, sqrt_sqrt by nra. lra. }
  exists (asin s), (atan2 y x). split; [|apply asin_bound].
  unfold has_fpa_heading. fold rh E N. rewrite A1, Hc.
  transitivity (vscale (norm u) uh).
  - unfold uh. destruct u; apply vec_eq; vsimpl; field; lra.
  - f_equal. rewrite D at 1. f_equal. revert B1 B2. generalize (sqrt (x * x + y * y)) (cos (atan2 y x)) (sin (atan2 y x)).
    intros k c q B1 B2. clearbody x y E N. subst x y. destruct E, N; apply vec_eq; vsimpl; ring.
Qed.

(** An entering probe that meets the hypotheses of C93_entry_place and C93_entry_heading. *)
Example C93_witness : exists ob dV pe r v u g chi, Orbiter (wit_flown 20000 (PI / 6)) 80000 = Ok ob /\ enters ob PI dV /\
  ob_entry (fst (compute_probe_targeting_trajectory ob PI dV 2)) = Some pe /\ pe_r pe = Some r /\ pe_v pe = Some v /\
  r <> vzero /\ (vx r <> 0 \/ vy r <> 0) /\ pe_v_atm pe = Some u /\ u <> vzero /\ has_fpa_heading r u g chi.
Proof.
  destruct C36_witness as (ob & dV & HP & HO & Hrp & Hc & Hent & _ & r & v & Hp & Hv & Hb).
  set (mu := GM (ob_planet ob)) in *. cbv zeta in Hb. set (v2 := vadd v (vscale (dV / norm v) v)) in *. destruct Hb as (Hd1 & He & HE & HrE & _).
  destruct (C71_inertial_entry _ _ _ _ [] PI dV 2 HP HO Hrp Hc) as (r' & v' & Hp' & Hv' & HI).
  assert (r' = r) by congruence. assert (v' = v) by congruence. subst r' v'. cbv zeta in HI.
  change (after_calls ob []) with ob in HI. fold mu in HI. fold v2 in HI.
  destruct (HI ltac:(lra) He ltac:(lra) Hent HrE) as (pe & q & w & g & Epe & Eq & Nq & Ew & EE & _). clear HI.
  destruct (wit_orbiter 20000 (PI / 6) 80000 ltac:(lra)) as (ob' & HO' & A1 & A2 & A3 & A4 & A5 & A6 & A7).
  assert (ob' = ob) by (rewrite HO in HO'; apply Ok_injr in HO'; auto). subst ob'.
  destruct wit_angle as (G1 & _). destruct (wit_captured (PI / 6) 80000 ob G1 ltac:(lra) HO) as (_ & _ & _ & HEb).
  assert (HrE0 : RP (ob_planet ob) + h_skip (ob_planet ob) = 25622e3) by (rewrite A1; cbn [RP h_skip NEPTUNE]; lra).
  assert (Hq0 : q <> vzero). { intros Z. rewrite Z in Nq. rewrite (norm_eq vzero 0) in Nq by (try lra; unfold vzero; vsimpl; ring). lra. }
  (* the orbit plane does not contain the polar axis *)
  destruct (captured_bound _ _ _ _ HP HO Hrp Hc) as (Hmu & HRP & a & e & h & ra & a' & e' & h' & P & W & i & Om & om & K).
  destruct (post_facts _ _ _ _ _ _ _ _ _ _ _ _ _ K Hrp) as (Hra & Ha' & He' & Hd).
  destruct K as [Kco Ka Ke Kh Kh2 KaE Kfr Kra Kapo Korb Ki KO Ka' Ke' Kh' Kh2' Kvc Kvo].
  assert (HWz : vz W <> 0).
  { intros Z. pose proof (of_hW _ _ _ _ _ _ _ Kfr) as HhW. rewrite A4, A5 in HhW. apply (f_equal vz) in HhW. unfold ang_mom in HhW. cbn [cross vscale vx vy vz] in HhW.
    rewrite Z in HhW. unfold w_r in HhW. lra. }
  assert (HWq : dot W q = 0).
  { destruct (probe_placed _ _ _ _ PI dV HP HO Hrp Hc) as (b1 & b2 & b3 & P' & W' & i' & Om' & om' & r' & v' & K' & _ & _ & _ & _ & Hp2 & Hv2 & _ & _ & _ & _ & Hrest).
    assert (r' = r) by congruence. assert (v' = v) by congruence. subst r' v'. cbv zeta in Hrest. fold mu v2 in Hrest.
    destruct (Hrest ltac:(lra) He ltac:(lra)) as (_ & a2 & e2 & h2 & P2 & om2 & K2 & _).
    assert (EW : W' = W).
    { pose proof (pl_i _ _ _ _ _ _ _ _ _ K') as X1. pose proof (pl_O _ _ _ _ _ _ _ _ _ K') as X2. rewrite (pl_i _ _ _ _ _ _ _ _ _ Korb) in X1. rewrite (pl_O _ _ _ _ _ _ _ _ _ Korb) in X2.
      rewrite <- (pl_nrm _ _ _ _ _ _ _ _ _ K'), <- (pl_nrm _ _ _ _ _ _ _ _ _ Korb). congruence. }
    destruct (target_entry ob PI dV 2 Hent) as (T1 & _). rewrite Epe in T1. injection T1 as Epe'.
    set (ob1 := set_probe ob (probe_orbit ob PI dV)) in *.
    assert (Eq' : (leto t := pe_theta pe in pos_vec_bi_probe ob1 t) = Some q) by (rewrite <- Eq, Epe'; reflexivity).
    destruct (pe_theta pe) as [t|]; [|discriminate]. cbn [obind] in Eq'. unfold pos_vec_bi_probe in Eq'.
    change (ob_probe ob1) with (Some (probe_orbit ob PI dV)) in Eq'. change (ob_orb ob1) with (ob_orb ob) in Eq'. cbn [obind] in Eq'.
    rewrite (pl_o _ _ _ _ _ _ _ _ _ K'), (pl_i _ _ _ _ _ _ _ _ _ K'), (pl_O _ _ _ _ _ _ _ _ _ K2), (pl_i _ _ _ _ _ _ _ _ _ K2) in Eq'.
    destruct (orb_r _ _ t) as [rr|]; [|discriminate]. cbn [obind] in Eq'. injection Eq' as Eq'. rewrite <- Eq', <- EW, <- (pl_nrm _ _ _ _ _ _ _ _ _ K2).
    unfold orbit_normal, dir_vec. generalize (t + om'). intros x. unfold dot. cbn [vx vy vz vscale].
    transitivity (rr * sin x * (- cos i' * sin i' * (sin Om' * sin Om' + cos Om' * cos Om') + cos i' * sin i')); [ring|].
    pose proof (sin2_cos2 Om') as S2. unfold Rsqr in S2. rewrite S2. ring. }
  assert (Hxy : vx q <> 0 \/ vy q <> 0).
  { destruct (Req_dec (vx q) 0) as [Zx|Zx]; auto. destruct (Req_dec (vy q) 0) as [Zy|Zy]; auto. exfalso. apply Hq0.
    unfold dot in HWq. rewrite Zx, Zy in HWq. assert (Zz : vz q = 0). { assert (Z : vz W * vz q = 0) by lra. apply Rmult_integral in Z. destruct Z; [contradiction|auto]. }
    destruct q as [x1 x2 x3]; cbn [vx vy vz] in *. subst. reflexivity. }
  destruct (C93_entry_place ob PI dV 2 pe q w Hent Epe Eq Ew Hq0) as (lat & Hlat & _ & _ & Hplace & _).
  destruct (Hplace Hxy) as (lon & Hlon & Hpos & Hneg).
  (* the probe is faster than the air *)
  assert (Hra48 : 48e6 < ra).
  { set (E0 := energy (GM (ob_planet ob)) (ob_r_vec ob) (ob_v_ie ob)) in *. assert (48e6 < a). { assert (X : a * (-2 * E0) = GM (ob_planet ob)) by (rewrite KaE; field; lra). rewrite A1 in X. cbn [GM NEPTUNE] in X. nra. } nra. }
  assert (Nr : norm r = ra).
  { destruct (C33_requested_apsides _ _ _ _ HP HO Hrp Hc) as (c1 & c2 & c3 & ra' & _ & _ & _ & Hra' & _ & _ & _ & _ & _ & _ & _ & _ & q0 & q1 & _ & Q1 & _ & N1).
    congruence. }
  assert (Hw2 : 1e8 < norm2 w).
  { unfold energy in EE. rewrite Nq, HrE0, Nr in EE. assert (Hk : 0 <= norm2 v2) by (rewrite <- norm_sq; apply Rle_0_sqr).
    assert (Hm : mu = 6.8365299e15) by (unfold mu; rewrite A1; reflexivity). rewrite Hm in EE.
    assert (/ ra < / 48e6) by (apply Rinv_lt_contravar; [apply Rmult_lt_0_compat; lra|lra]). unfold Rdiv in EE. nra. }
  assert (Hair : norm2 (air_velocity (OMEGA (ob_planet ob)) q) <= 1e8).
  { unfold air_velocity. rewrite A1. cbn [OMEGA NEPTUNE]. assert (Hn2 : norm2 q = 25622e3 * 25622e3) by (rewrite <- norm_sq, Nq, HrE0; ring).
    destruct q as [x y z]. unfold norm2, dot in *. cbn [cross vx vy vz] in *. assert (0 <= z * z) by apply Rle_0_sqr. nra. }
  assert (Hu : exists u, pe_v_atm pe = Some u /\ u <> vzero).
  { destruct (Rle_or_lt 0 (vx q)) as [S|S].
    - eexists. split; [apply (Hpos S)|]. intros Z. assert (Ew' : w = air_velocity (OMEGA (ob_planet ob)) q).
      { revert Z. generalize (air_velocity (OMEGA (ob_planet ob)) q). intros [b1 b2 b3] Z. destruct w as [w1 w2 w3]. unfold vsub, vzero in Z. cbn [vx vy vz] in Z. injection Z as Z1 Z2 Z3. apply vec_eq; cbn [vx vy vz]; lra. }
      rewrite <- Ew' in Hair. lra.
    - eexists. split; [apply (Hneg S)|]. intros Z. assert (Ew' : norm2 w = norm2 (air_velocity (OMEGA (ob_planet ob)) q)).
      { revert Z. generalize (air_velocity (OMEGA (ob_planet ob)) q). intros [b1 b2 b3] Z. destruct w as [w1 w2 w3]. unfold vadd, vzero in Z. cbn [vx vy vz] in Z. injection Z as Z1 Z2 Z3.
        replace w1 with (- b1) by lra. replace w2 with (- b2) by lra. replace w3 with (- b3) by lra. unfold norm2, dot. cbn [vx vy vz]. ring. }
      rewrite <- Ew' in Hair. lra. }
  destruct Hu as (u & Hu & Hu0). destruct (angles_any q u Hxy Hu0) as (g0 & chi & Hf & _).
  exists ob, dV, pe, q, w, u, g0, chi. auto 20.
Qed.
