(** The state reported for a probe at entry: where it is put, which way it moves there: C110. *)
From Coq Require Import String List Nsatz.
Require Import Verif.Base Verif.Numpy Verif.NumpyProofs Verif.PlanetModel Verif.PlanetProofs Verif.FrameModel Verif.FrameProofs Verif.ConicSpec Verif.ConicProofs
  Verif.HyperbolaProofs Verif.StateProofs Verif.EllipseProofs Verif.ApproachModel Verif.ApproachProofs Verif.OrbitScalarModel Verif.OrbiterModel Verif.OrbiterProofs
  Verif.PropApproach Verif.PropOrbiter Verif.PropProbe Verif.WitnessOrbit.
Import ListNotations.
Local Open Scope R_scope.

(** The vector q turned by the angle d about the unit vector W it is perpendicular to (counter-clockwise
    as seen from the tip of W). *)
Definition turned (W : vec) (d : R) (q : vec) : vec := vadd (vscale (cos d) q) (vscale (sin d) (cross W q)).

Lemma turned_perifocal : forall P W t d, norm2 P = 1 -> norm2 W = 1 -> dot W P = 0 -> perifocal P W (t + d) = turned W d (perifocal P W t).
Proof.
  intros P W t d HP HW HWP. unfold turned, perifocal. rewrite cos_plus, sin_plus.
  assert (E : cross W (cross W P) = vscale (-1) P).
  { destruct P as [p1 p2 p3], W as [w1 w2 w3]. unfold norm2, dot in *. cbn [vx vy vz] in *. apply vec_eq; vsimpl; nsatz. }
  replace (cross W (vadd (vscale (cos t) P) (vscale (sin t) (cross W P)))) with (vadd (vscale (cos t) (cross W P)) (vscale (sin t) (cross W (cross W P)))) by (destruct P, W; apply vec_eq; vsimpl; ring).
  rewrite E. generalize (cross W P). intros Q. destruct P, Q; apply vec_eq; vsimpl; ring.
Qed.
Lemma turned_scale : forall W d k q, turned W d (vscale k q) = vscale k (turned W d q).
Proof. intros. unfold turned. destruct W, q; apply vec_eq; vsimpl; ring. Qed.
(** How far a turn moves a vector. *)
Lemma turned_distance : forall W d q, norm2 W = 1 -> dot W q = 0 -> norm (vsub (turned W d q) q) = 2 * norm q * Rabs (sin (d / 2)).
Proof.
  intros W d q HW Hq. apply norm_eq. { pose proof (norm_nonneg q). pose proof (Rabs_pos (sin (d / 2))). nra. }
  assert (E : 2 * norm q * Rabs (sin (d / 2)) * (2 * norm q * Rabs (sin (d / 2))) = norm2 q * (4 * (sin (d / 2) * sin (d / 2)))).
  { rewrite <- norm_sq. assert (X : Rabs (sin (d / 2)) * Rabs (sin (d / 2)) = sin (d / 2) * sin (d / 2)) by (rewrite <- Rabs_mult; apply Rabs_right; nra). rewrite <- X. ring. }
  rewrite E. assert (C : cos d = 1 - 2 * (sin (d / 2) * sin (d / 2))). { replace d with (2 * (d / 2)) at 1 by field. rewrite cos_2a_sin. ring. }
  replace (4 * (sin (d / 2) * sin (d / 2))) with (2 - 2 * cos d) by lra.
  unfold turned. generalize (sin2cos2 d). generalize (sin d) (cos d). intros s c H.
  destruct W as [w1 w2 w3], q as [q1 q2 q3]. unfold norm2, dot in *. cbn [vx vy vz] in *. vsimpl. nsatz.
Qed.

(** The entry state in the frame of the probe's own orbit. *)
Lemma entry_state : forall name w pk ob hist th dV n, Planet name = Ok (fl_planet w) -> Orbiter w pk = Ok ob -> 0 < ob_rp ob -> captured ob ->
  let ob1 := after_calls ob hist in let out := compute_probe_targeting_trajectory ob1 th dV n in
  exists r v, ob_pos ob th = Some r /\ ob_vel ob th = Some v /\
  let mu := GM (ob_planet ob) in let v2 := vadd v (vscale (dV / norm v) v) in
  let rE := RP (ob_planet ob) + h_skip (ob_planet ob) in
  - norm v < dV -> ecc_vector mu r v2 <> vzero -> energy mu r v2 <> 0 -> enters ob th dV -> rE <= norm r ->
  0 < mu /\ 0 < rE /\
  exists pe t q u a2 e2 h2 P P2 W i Om om om2 a' e' h', ob_entry (fst out) = Some pe /\ pe_theta pe = Some t /\ PI <= t <= 2 * PI /\ pe_r pe = Some q /\ pe_v pe = Some u /\
    placed (ob_orb ob) a' e' h' P W i Om om /\ placed (probe_orbit ob th dV) a2 e2 h2 P2 W i Om om2 /\ ob_probe (fst out) = Some (probe_orbit ob th dV) /\
    oframe mu r v2 h2 e2 P2 W /\ a2 = - mu / (2 * energy mu r v2) /\ e2 = norm (ecc_vector mu r v2) /\ h2 = norm (ang_mom r v2) /\
    0 < dot r v2 /\ r = vscale (norm r) (perifocal P W th) /\
    conic_radius mu h2 e2 t = rE /\ q = vscale rE (perifocal P W t) /\ u = loaded_vel mu (-1) a2 h2 rE (perifocal P2 W t) W /\
    0 <= mu * (2 / rE - 1 / a2) - h2 / (rE * kf) * (h2 / (rE * kf)).
Proof.
  intros name w pk ob hist th dV n HP HO Hrp Hc ob1 out.
  destruct (C70_entry_on_boundary _ _ _ _ hist th dV 0 HP HO Hrp Hc) as (r' & v' & Hp' & Hv' & Hmain).
  destruct (probe_placed _ _ _ _ th dV HP HO Hrp Hc) as (a' & e' & h' & P & W & i & Om & om & r & v & K & Hd & Hmu & HRP & Hh' & Hp & Hv & Er & Hnr & Hdot & Hv0 & Hrest).
  assert (Zr : r' = r) by congruence. assert (Zv : v' = v) by congruence. rewrite Zr, Zv in Hmain. clear Hp' Hv' Zr Zv r' v'.
  exists r, v. split; auto. split; auto.
  intros mu v2 rE Hs He HE Hent HrE. destruct (Hmain Hs He HE Hent HrE) as (_ & pe & t & q & arr & u0 & T1 & PT & Htb & Pr & Nq & Pq & _). clear Hmain.
  destruct (Hrest Hs He HE) as (Hdot2 & a2 & e2 & h2 & P2 & om2 & K2 & F & Ea & Eh & Ee & Eh2). fold mu v2 in Hdot2, F, Ea, Eh, Ee, Eh2. fold mu in Hmu. clear Hrest.
  destruct (history_keeps hist ob) as (A & B). fold ob1 in A, B.
  destruct (probe_orbit_keeps ob ob1 th dV A B) as (E1 & E2 & E3).
  assert (Hent1 : enters ob1 th dV) by (apply E2; auto).
  destruct (target_entry ob1 th dV 2 Hent1) as (T1' & _). destruct (target_entry ob1 th dV n Hent1) as (T2 & _). cbv zeta in T1', T2. fold out in T2. fold ob1 in T1.
  rewrite T1' in T1. injection T1 as Epe. rewrite Epe in T2. rewrite E1 in Epe.
  set (ob2 := set_probe ob1 (probe_orbit ob th dV)) in *.
  assert (Hth : theta_exit_of (ob_planet ob) (probe_orbit ob th dV) rE = Some (2 * PI - t)).
  { rewrite <- Epe in PT. cbn [pe_theta probe_entry_of] in PT. change (ob_planet ob2) with (ob_planet ob1) in PT. rewrite A in PT. fold rE in PT.
    destruct (theta_exit_of (ob_planet ob) (probe_orbit ob th dV) rE) as [x|]; cbn [obind] in PT; [|discriminate]. injection PT as PT. f_equal. lra. }
  pose proof (of_h _ _ _ _ _ _ _ F) as Hh20. pose proof (of_e _ _ _ _ _ _ _ F) as He20.
  assert (HrE0 : 0 < rE). { assert (Ep : ob_planet ob = fl_planet w) by (destruct (Orbiter_inv _ _ _ HO) as (x & _ & ->); reflexivity).
    unfold rE. rewrite Ep. rewrite Ep in HRP. destruct (Planet_facts _ _ HP) as (_ & _ & _ & _ & ? & _). lra. }
  assert (Hct : cos t = (h2 * h2 / (mu * rE) - 1) * (1 / e2)).
  { unfold theta_exit_of in Hth. rewrite (pl_h _ _ _ _ _ _ _ _ _ K2), (pl_e _ _ _ _ _ _ _ _ _ K2) in Hth. cbn [obind] in Hth. fold mu in Hth.
    rewrite (np_div_some (h2 * h2)) in Hth by nra. cbn [obind] in Hth. rewrite (np_div_some 1 e2) in Hth by lra. cbn [obind] in Hth.
    apply np_arccos_inv in Hth. destruct Hth as (Hb & Hth). rewrite <- (cos_acos _ Hb), <- Hth.
    replace t with (- (2 * PI - t) + 2 * PI) at 1 by ring. rewrite cos_plus, cos_2PI, sin_2PI, cos_neg. ring. }
  assert (Hden : 1 + e2 * cos t = h2 * h2 / (mu * rE)) by (rewrite Hct; field; lra).
  assert (Hden0 : 0 < h2 * h2 / (mu * rE)) by (apply Rdiv_lt_0_compat; nra).
  assert (Hrad : conic_radius mu h2 e2 t = rE). { unfold conic_radius. rewrite Hden. field. split; [|split]; lra. }
  assert (Ha2 : a2 <> 0). { rewrite Ea. unfold Rdiv. apply Rmult_integral_contrapositive_currified; [lra|]. apply Rinv_neq_0_compat. lra. }
  destruct (conic_visviva mu a2 e2 h2 t Hmu Ha2 Hh20 Eh ltac:(lra)) as (_ & Hvv). rewrite Hrad in Hvv.
  pose proof (Rle_0_sqr (mu / h2 * (e2 * sin t))) as Hsq. unfold Rsqr in Hsq.
  assert (Hhr : 0 < h2 / rE) by (apply Rdiv_lt_0_compat; auto).
  assert (Hv2p : 0 < mu * (2 / rE - 1 / a2)) by nra.
  assert (Hle : h2 / rE * (h2 / rE) <= mu * (2 / rE - 1 / a2)) by lra.
  pose proof (orb_vel_at_eq (ob_planet ob) (-1) _ _ _ _ _ _ _ _ _ rE t K2 ltac:(auto) Ha2 ltac:(lra) Hv2p Hle) as Hov. fold mu in Hov.
  set (u := loaded_vel mu (-1) a2 h2 rE (perifocal P2 W t) W) in *.
  destruct (perifocal_unit P2 W t (pl_P _ _ _ _ _ _ _ _ _ K2) (pl_W _ _ _ _ _ _ _ _ _ K2) (pl_WP _ _ _ _ _ _ _ _ _ K2)) as (U & V).
  assert (Hkf : 1 < kf) by (unfold kf; lra). assert (Hj : 0 < 1 / kf < 1) by (unfold kf; lra).
  assert (Hlt : 0 <= mu * (2 / rE - 1 / a2) - h2 / (rE * kf) * (h2 / (rE * kf))).
  { replace (h2 / (rE * kf)) with (h2 / rE * (1 / kf)) by (field; lra). set (x := h2 / rE) in *. set (j := 1 / kf) in *. clearbody x j.
    assert (x * j <= x) by nra. assert (0 <= x * j) by nra. nra. }
  destruct (loaded_invariants mu (-1) a2 h2 rE (perifocal P2 W t) W U (pl_W _ _ _ _ _ _ _ _ _ K2) V HrE0 Hmu ltac:(auto) Hlt) as (_ & N2 & _). fold u in N2.
  assert (Hpv : pe_v pe = Some u).
  { rewrite <- Epe. change (pe_v (probe_entry_of ob2 (probe_orbit ob th dV))) with (leto x := pe_theta (probe_entry_of ob2 (probe_orbit ob th dV)) in vel_vec_bi_probe ob2 x).
    rewrite Epe, PT. cbn [obind]. unfold vel_vec_bi_probe. replace (ob_probe ob2) with (Some (probe_orbit ob th dV)) by reflexivity. cbn [obind].
    assert (Pq2 : pos_vec_bi_probe ob2 t = Some q).
    { assert (X : pe_r pe = leto x := pe_theta (probe_entry_of ob2 (probe_orbit ob th dV)) in pos_vec_bi_probe ob2 x) by (rewrite <- Epe; reflexivity).
      rewrite Epe, PT in X. cbn [obind] in X. congruence. }
    rewrite Pq2. cbn [obind]. rewrite Nq. change (ob_planet ob2) with (ob_planet ob1). rewrite A. exact Hov. }
  split; [exact Hmu|]. split; [exact HrE0|].
  destruct (target_keeps ob1 th dV n) as (_ & _ & C'). cbv zeta in C'. fold out in C'. rewrite E1 in C'.
  exists pe, t, q, u, a2, e2, h2, P, P2, W, i, Om, om, om2, a', e', h'.
  split; [exact T2|]. split; [exact PT|]. split; [exact Htb|]. split; [exact Pr|]. split; [exact Hpv|]. split; [exact K|]. split; [exact K2|]. split; [exact C'|].
  split; [exact F|]. split; [exact Ea|]. split; [exact Ee|]. split; [exact Eh2|]. split; [exact Hdot2|].
  destruct (perifocal_unit P W th (pl_P _ _ _ _ _ _ _ _ _ K) (pl_W _ _ _ _ _ _ _ _ _ K) (pl_WP _ _ _ _ _ _ _ _ _ K)) as (U1 & _).
  assert (Hd' := Hd th).
  assert (Hr : 0 < conic_radius mu h' e' th). { unfold conic_radius. apply Rdiv_lt_0_compat; auto. apply Rdiv_lt_0_compat; auto. nra. }
  assert (Nr : norm r = conic_radius mu h' e' th).
  { rewrite Er. unfold conic_pos. fold mu. rewrite norm_vscale by lra. rewrite (norm_eq (perifocal P W th) 1) by lra. ring. }
  split. { rewrite Nr, Er. reflexivity. }
  split; [exact Hrad|]. split; [|split; [reflexivity|exact Hlt]].
  assert (Epos : pos_vec_bi_probe ob2 t = Some (conic_pos mu h2 e2 P W t)).
  { eapply (probe_pos ob ob2); eauto. lra. }
  assert (X : pe_r pe = leto x := pe_theta (probe_entry_of ob2 (probe_orbit ob th dV)) in pos_vec_bi_probe ob2 x) by (rewrite <- Epe; reflexivity).
  rewrite Epe, PT in X. cbn [obind] in X. rewrite Pr, Epos in X. injection X as X. rewrite X. unfold conic_pos. rewrite Hrad. reflexivity.
Qed.

(** C110: the entry state of a released probe.  The probe's own orbit is the conic through the state the
    burn leaves it in, with periapsis direction P2 and normal W; q' is the point of that conic at the
    reported anomaly and lies on the boundary.  The reported position is q' turned in the orbit plane by
    the difference of the two arguments of periapsis; the reported velocity is that at q' (the flight-path
    angle up to the factor 1.0000001), not that at the reported position. *)
Theorem C110_entry_state : forall name w pk ob hist th dV n, Planet name = Ok (fl_planet w) -> Orbiter w pk = Ok ob -> 0 < ob_rp ob -> captured ob ->
  let out := compute_probe_targeting_trajectory (after_calls ob hist) th dV n in
  exists r v, ob_pos ob th = Some r /\ ob_vel ob th = Some v /\
  let mu := GM (ob_planet ob) in let v2 := vadd v (vscale (dV / norm v) v) in
  let rE := RP (ob_planet ob) + h_skip (ob_planet ob) in
  let e2 := norm (ecc_vector mu r v2) in let h2 := norm (ang_mom r v2) in
  let P2 := vscale (1 / e2) (ecc_vector mu r v2) in let W := vscale (1 / h2) (ang_mom r v2) in
  - norm v < dV -> ecc_vector mu r v2 <> vzero -> energy mu r v2 <> 0 -> enters ob th dV -> rE <= norm r ->
  exists pe t q u om o om2, ob_entry (fst out) = Some pe /\ pe_theta pe = Some t /\ pe_r pe = Some q /\ pe_v pe = Some u /\
    o_omega (ob_orb ob) = Some om /\ ob_probe (fst out) = Some o /\ o_omega o = Some om2 /\
    (exists t0, r = conic_pos mu h2 e2 P2 W t0 /\ v2 = conic_vel mu h2 e2 P2 W t0) /\
    let q' := conic_pos mu h2 e2 P2 W t in
    norm q' = rE /\ q = turned W (om - om2) q' /\ norm (vsub q q') = 2 * rE * Rabs (sin ((om - om2) / 2)) /\
    (q = q' <-> cos (om - om2) = 1) /\
    dot q' u <= 0 /\ energy mu q' u = energy mu r v2 /\ ang_mom q' u = vscale (1 / 1.0000001) (ang_mom r v2) /\
    dot q u = cos (om - om2) * dot q' u + sin (om - om2) * (h2 / 1.0000001) /\
    (cos th = -1 -> q <> q').
Proof.
  intros name w pk ob hist th dV n HP HO Hrp Hc out.
  destruct (entry_state _ _ _ _ hist th dV n HP HO Hrp Hc) as (r & v & Hp & Hv & Hmain). fold out in Hmain.
  exists r, v. split; auto. split; auto. intros mu v2 rE e2 h2 P2 W Hs He HE Hent HrE.
  destruct (Hmain Hs He HE Hent HrE) as (Hmu & HrE0 & pe & t & q & u & a2 & e2' & h2' & P & P2' & W' & i & Om & om & om2 & a' & e' & h' & Epe & Et & Htb & Eq & Eu & K & K2 & Ho & F & Ea & Ee & Eh & Hdot & Er & Hrad & Hq & Hu & Hlt).
  clear Hmain. fold mu v2 in Hmu, F, Ee, Eh, Hdot, Hrad, Hu, Hlt, Ea. fold rE in HrE0, Hrad, Hq, Hu, Hlt. fold e2 in Ee. fold h2 in Eh. subst e2' h2'.
  assert (EP : P2 = P2').
  { unfold P2. rewrite (of_eP _ _ _ _ _ _ _ F). pose proof (of_e _ _ _ _ _ _ _ F). fold mu v2. destruct P2'; apply vec_eq; vsimpl; field; lra. }
  assert (EW : W = W').
  { unfold W. rewrite (of_hW _ _ _ _ _ _ _ F). pose proof (of_h _ _ _ _ _ _ _ F). destruct W'; apply vec_eq; vsimpl; field; lra. }
  clearbody P2 W. subst P2' W'.
  pose proof (pl_P _ _ _ _ _ _ _ _ _ K2) as HP1. pose proof (pl_W _ _ _ _ _ _ _ _ _ K2) as HW1. pose proof (pl_WP _ _ _ _ _ _ _ _ _ K2) as HWP.
  pose proof (of_h _ _ _ _ _ _ _ F) as Hh0. pose proof (of_e _ _ _ _ _ _ _ F) as He0.
  destruct (perifocal_unit P2 W t HP1 HW1 HWP) as (U & V).
  set (q' := conic_pos mu h2 e2 P2 W t). assert (Eq' : q' = vscale rE (perifocal P2 W t)) by (unfold q', conic_pos; rewrite Hrad; reflexivity).
  set (d := om - om2).
  assert (Dir : forall x, perifocal P W x = turned W d (perifocal P2 W x)).
  { intros x. rewrite <- turned_perifocal by auto. rewrite <- (pl_dir _ _ _ _ _ _ _ _ _ K), <- (pl_dir _ _ _ _ _ _ _ _ _ K2). unfold orbit_dir, d.
    replace (x + (om - om2) + om2) with (x + om) by ring. reflexivity. }
  assert (Qt : q = turned W d q') by (rewrite Eq', turned_scale, <- Dir; exact Hq).
  assert (Nq' : norm q' = rE). { rewrite Eq', norm_vscale by lra. rewrite (norm_eq (perifocal P2 W t) 1) by lra. ring. }
  assert (HWq : dot W q' = 0) by (rewrite Eq', dot_vscale_r, V; ring).
  assert (Hdist : norm (vsub q q') = 2 * rE * Rabs (sin (d / 2))) by (rewrite Qt, turned_distance, Nq' by auto; reflexivity).
  destruct (loaded_invariants mu (-1) a2 h2 rE (perifocal P2 W t) W U HW1 V HrE0 Hmu ltac:(auto) Hlt) as (_ & N2 & L3 & L4).
  rewrite <- Hu in N2, L3, L4. rewrite <- Eq' in L3, L4.
  assert (Hiff : q = q' <-> cos d = 1).
  { assert (C : cos d = 1 - 2 * (sin (d / 2) * sin (d / 2))). { replace d with (2 * (d / 2)) at 1 by field. rewrite cos_2a_sin. ring. }
    split.
    - intros Z. rewrite Z in Hdist. replace (vsub q' q') with vzero in Hdist by (destruct q'; apply vec_eq; vsimpl; ring).
      rewrite (norm_eq vzero 0) in Hdist by (try lra; unfold vzero; vsimpl; ring).
      assert (X : Rabs (sin (d / 2)) = 0) by (apply Rmult_eq_reg_l with (2 * rE); lra).
      destruct (Req_dec (sin (d / 2)) 0) as [Y|Y]; [rewrite C, Y; ring|apply Rabs_no_R0 in Y; lra].
    - intros Z. assert (S : sin d = 0) by (pose proof (sin2cos2 d) as X; rewrite Z in X; nra).
      rewrite Qt. unfold turned. rewrite Z, S. generalize (cross W q'). intros y. destruct q', y; apply vec_eq; vsimpl; ring. }
  exists pe, t, q, u, om, (probe_orbit ob th dV), om2.
  split; [exact Epe|]. split; [exact Et|]. split; [exact Eq|]. split; [exact Eu|]. split; [exact (pl_o _ _ _ _ _ _ _ _ _ K)|]. split; [exact Ho|]. split; [exact (pl_o _ _ _ _ _ _ _ _ _ K2)|].
  destruct (state_components _ _ _ _ _ _ _ Hmu F) as (Hr0 & Hrx & Hxy & Hex & Hey & _).
  assert (HrW : dot W r = 0).
  { assert (h2 * dot W r = 0) by (rewrite <- dot_vscale_l, <- (of_hW _ _ _ _ _ _ _ F); unfold ang_mom; destruct r, v2; vsimpl; ring). nra. }
  split.
  { destruct (atan2_spec (dot r (cross W P2)) (dot r P2)) as (A1 & A2).
    exists (atan2 (dot r (cross W P2)) (dot r P2)). rewrite Hxy, sqrt_square in A1, A2 by lra.
    apply (state_on_conic mu r v2 h2 e2 P2 W); auto.
    - apply Rmult_eq_reg_r with (norm r); [rewrite A1; field|]; lra.
    - apply Rmult_eq_reg_r with (norm r); [rewrite A2; field|]; lra. }
  cbv zeta. fold q' d. split; [exact Nq'|]. split; [exact Qt|]. split; [exact Hdist|]. split; [exact Hiff|].
  fold kf in *. assert (Hkf : 1 < kf) by (unfold kf; lra).
  split. { rewrite L4. pose proof (sqrt_pos (mu * (2 / rE - 1 / a2) - h2 / (rE * kf) * (h2 / (rE * kf)))). nra. }
  split. { unfold energy at 1. rewrite Nq', N2, Ea. revert HE. generalize (energy mu r v2). intros en HE. field. repeat split; auto; lra. }
  split. { rewrite L3, (of_hW _ _ _ _ _ _ _ F). destruct W; apply vec_eq; vsimpl; field; lra. }
  split.
  { rewrite Qt. unfold turned. replace (dot (vadd (vscale (cos d) q') (vscale (sin d) (cross W q'))) u) with (cos d * dot q' u + sin d * dot W (ang_mom q' u)) by (unfold ang_mom; generalize (cos d) (sin d); intros; destruct W, q', u; vsimpl; ring).
    rewrite L3, dot_vscale_r. fold (norm2 W). rewrite HW1. ring. }
  intros Hcos Z. apply Hiff in Z.
  assert (S : sin th = 0) by (pose proof (sin2cos2 th) as X; rewrite Hcos in X; nra).
  assert (S' : sin d = 0) by (pose proof (sin2cos2 d) as X; rewrite Z in X; nra).
  assert (Er' : r = vscale (- norm r) P2).
  { rewrite Er at 1. rewrite Dir. unfold turned, perifocal. rewrite Z, S', Hcos, S. generalize (norm r) (cross W P2). intros k y.
    destruct P2, y, W; apply vec_eq; vsimpl; ring. }
  assert (Y : dot r (cross W P2) = 0) by (rewrite Er', dot_vscale_l; replace (dot P2 (cross W P2)) with 0 by (destruct P2, W; vsimpl; ring); ring).
  rewrite Y in Hey. assert (0 < h2 * dot r v2 / mu) by (apply Rdiv_lt_0_compat; auto; nra). lra.
Qed.

(** C110: the two reported entry angles.  g is the reported inertial flight-path angle and g' that of the
    reported velocity at the true entry point q' (their cosines differ by the factor 1.0000001); measured
    at the reported position, the same velocity has the angle g' + (om - om2). *)
Theorem C110_two_angles : forall name w pk ob hist th dV n, Planet name = Ok (fl_planet w) -> Orbiter w pk = Ok ob -> 0 < ob_rp ob -> captured ob ->
  let out := compute_probe_targeting_trajectory (after_calls ob hist) th dV n in
  exists r v, ob_pos ob th = Some r /\ ob_vel ob th = Some v /\
  let mu := GM (ob_planet ob) in let v2 := vadd v (vscale (dV / norm v) v) in
  let rE := RP (ob_planet ob) + h_skip (ob_planet ob) in
  - norm v < dV -> ecc_vector mu r v2 <> vzero -> energy mu r v2 <> 0 -> enters ob th dV -> rE <= norm r ->
  exists pe q u g g' om o om2, ob_entry (fst out) = Some pe /\ pe_r pe = Some q /\ pe_v pe = Some u /\ u <> vzero /\ norm q = rE /\
    o_omega (ob_orb ob) = Some om /\ ob_probe (fst out) = Some o /\ o_omega o = Some om2 /\
    pe_gamma_inertial pe = Some g /\ - (PI / 2) <= g <= 0 /\ - (PI / 2) <= g' <= 0 /\ cos g = 1.0000001 * cos g' /\
    dot q u = norm q * norm u * sin (g' + (om - om2)).
Proof.
  intros name w pk ob hist th dV n HP HO Hrp Hc out.
  destruct (C110_entry_state _ _ _ _ hist th dV n HP HO Hrp Hc) as (r & v & Hp & Hv & M1). fold out in M1.
  destruct (C71_inertial_entry _ _ _ _ hist th dV n HP HO Hrp Hc) as (r' & v' & Hp' & Hv' & M2). fold out in M2.
  assert (r' = r) by congruence. assert (v' = v) by congruence. subst r' v'.
  exists r, v. split; auto. split; auto. intros mu v2 rE Hs He HE Hent HrE.
  destruct (M1 Hs He HE Hent HrE) as (pe & t & q & u & om & o & om2 & Epe & Et & Eq & Eu & E1 & E2 & E3 & _ & M). clear M1.
  destruct (M2 Hs He HE Hent HrE) as (pe' & q1 & u1 & g & Epe' & Eq1 & Nq & Eu1 & _ & Eg & Hg & Hcos). clear M2.
  assert (pe' = pe) by congruence. subst pe'. assert (q1 = q) by congruence. assert (u1 = u) by congruence. subst q1 u1.
  cbv zeta in M. fold mu v2 rE in M, Nq, Hcos. set (q' := conic_pos _ _ _ _ _ _) in M. set (d := om - om2) in *.
  destruct M as (Nq' & _ & _ & _ & Hdown & _ & Hang & Hdot & _). set (h2 := norm (ang_mom r v2)) in *.
  assert (Hh2 : 0 < h2).
  { destruct (Rle_lt_or_eq_dec 0 h2 (norm_nonneg _)) as [L|L]; [exact L|exfalso].
    destruct (entry_state _ _ _ _ hist th dV n HP HO Hrp Hc) as (r' & v' & Hp2 & Hv2 & M). assert (r' = r) by congruence. assert (v' = v) by congruence. subst r' v'.
    destruct (M Hs He HE Hent HrE) as (_ & _ & ? & ? & ? & ? & ? & ? & ? & ? & ? & ? & ? & ? & ? & ? & ? & ? & ? & _ & _ & _ & _ & _ & _ & _ & _ & F & _ & _ & Eh & _).
    apply of_h in F. fold v2 in Eh. fold h2 in Eh. lra. }
  assert (Hrn : 0 < rE * norm u). { pose proof (norm_nonneg u). pose proof (norm_nonneg q). pose proof (COS_bound g). rewrite Nq in *. destruct (Rle_or_lt (rE * norm u) 0); nra. }
  assert (HrE0 : 0 < rE) by (pose proof (norm_nonneg q'); pose proof (norm_nonneg u); nra).
  assert (Hu : 0 < norm u) by nra.
  (* Lagrange: (q'.u)^2 + |q' x u|^2 = |q'|^2 |u|^2 *)
  assert (Lag : dot q' u * dot q' u + norm2 (ang_mom q' u) = norm2 q' * norm2 u) by (unfold ang_mom, norm2; destruct q', u; vsimpl; ring).
  set (k := 1 / 1.0000001) in *. assert (Hk : 0 < k < 1) by (unfold k; lra).
  assert (Na : norm2 (ang_mom q' u) = k * h2 * (k * h2)). { rewrite Hang. rewrite norm2_vscale, <- norm_sq. fold h2. ring. }
  rewrite <- (norm_sq q'), <- (norm_sq u), Nq', Na in Lag.
  set (c := k * h2 / (rE * norm u)).
  assert (Ec : rE * norm u * c = k * h2) by (unfold c; field; lra).
  assert (Hc0 : 0 < c) by (apply Rdiv_lt_0_compat; nra).
  assert (Hc1 : c <= 1).
  { destruct (Rle_or_lt c 1) as [L|L]; [exact L|exfalso]. assert (rE * norm u < k * h2) by (rewrite <- Ec; nra). nra. }
  destruct (cos_sin_acos c ltac:(lra)) as (C1 & C2 & C3).
  assert (Hb : 0 <= acos c <= PI / 2).
  { pose proof (acos_bound c). split; [lra|]. destruct (Rle_or_lt (acos c) (PI / 2)) as [L|L]; auto. exfalso. pose proof PI_RGT_0. assert (cos (acos c) < 0) by (apply cos_lt_0; lra). lra. }
  assert (Hsin : dot q' u = rE * norm u * sin (- acos c)).
  { rewrite sin_neg. assert (X : (- dot q' u) = rE * norm u * sin (acos c)); [|lra].
    apply sq_eq_nonneg; [lra|nra|]. replace (rE * norm u * sin (acos c) * (rE * norm u * sin (acos c))) with (rE * norm u * (rE * norm u) * (sin (acos c) * sin (acos c))) by ring.
    rewrite C3. replace (rE * norm u * (rE * norm u) * (1 - c * c)) with (rE * norm u * (rE * norm u) - (rE * norm u * c) * (rE * norm u * c)) by ring. rewrite Ec. lra. }
  exists pe, q, u, g, (- acos c), om, o, om2. do 3 (split; [assumption|]).
  split. { intros Z. rewrite Z in Hu. rewrite (norm_eq vzero 0) in Hu by (try lra; unfold vzero; vsimpl; ring). lra. }
  do 6 (split; [assumption|]). split; [lra|].
  split. { rewrite cos_neg, C1. apply Rmult_eq_reg_l with (rE * norm u); [|lra]. rewrite Hcos. transitivity (1.0000001 * (rE * norm u * c)); [|ring]. rewrite Ec. unfold k. fold h2. lra. }
  fold d. rewrite Nq, Hdot, Hsin, sin_plus, cos_neg, C1. replace (h2 / 1.0000001) with (k * h2) by (unfold k; lra). rewrite <- Ec. ring.
Qed.

(** A release at apoapsis: the reported entry position is not on the probe's orbit. *)
Example C110_witness : exists ob dV pe t q u r v, Orbiter (wit_flown 20000 (PI / 6)) 80000 = Ok ob /\ enters ob PI dV /\
  ob_pos ob PI = Some r /\ ob_vel ob PI = Some v /\
  ob_entry (fst (compute_probe_targeting_trajectory ob PI dV 2)) = Some pe /\ pe_theta pe = Some t /\ pe_r pe = Some q /\ pe_v pe = Some u /\
  let mu := GM (ob_planet ob) in let v2 := vadd v (vscale (dV / norm v) v) in
  q <> conic_pos mu (norm (ang_mom r v2)) (norm (ecc_vector mu r v2)) (vscale (1 / norm (ecc_vector mu r v2)) (ecc_vector mu r v2)) (vscale (1 / norm (ang_mom r v2)) (ang_mom r v2)) t.
Proof.
  destruct C70_witness as (ob & dV & r & v & HP & HO & Hrp & Hc & Hent & Hp & Hv & Hb). cbv zeta in Hb. destruct Hb as (H1 & H2 & H3 & H4 & _).
  destruct (C110_entry_state _ _ _ _ [] PI dV 2 HP HO Hrp Hc) as (r' & v' & Hp' & Hv' & M).
  assert (r' = r) by congruence. assert (v' = v) by congruence. subst r' v'.
  destruct (M H1 H2 H3 Hent H4) as (pe & t & q & u & om & o & om2 & Epe & Et & Eq & Eu & E1 & E2 & E3 & _ & M'). cbv zeta in M'.
  exists ob, dV, pe, t, q, u, r, v. do 4 (split; [assumption|]). split; [exact Epe|]. do 3 (split; [assumption|]). cbv zeta. apply M'. exact cos_PI.
Qed.
