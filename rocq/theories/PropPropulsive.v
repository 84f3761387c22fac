(** Theorems about propulsive orbit insertion and timed orbit positions: C34, C35. *)
From Coq Require Import Nsatz.
Require Import Verif.Base Verif.Numpy Verif.NumpyProofs Verif.PlanetModel Verif.PlanetProofs Verif.FrameModel Verif.FrameProofs Verif.ConicSpec Verif.ConicProofs
  Verif.HyperbolaProofs Verif.StateProofs Verif.EllipseProofs Verif.ApproachModel Verif.ApproachProofs Verif.OrbitScalarModel Verif.OrbiterModel Verif.OrbiterProofs
  Verif.PropApproach.
From Coq Require Import String List.
Import ListNotations.
Local Open Scope R_scope.

(** Facts about a constructed PropulsiveOrbiter; [vh] is the arrival speed at periapsis, [vp] the speed
    at periapsis of the capture ellipse. *)
Record capture (po : prop_orbiter) (p : planet) (V rp ra a e h : R) (P W : vec) (i Om om vh vp : R) : Prop := mkCapture {
  cp_p : po_planet po = p; cp_rp : po_rp po = rp; cp_ra : po_ra po = ra;
  cp_o : placed (po_orb po) a e h P W i Om om;
  cp_a : a = (rp + ra) / 2; cp_e : e = (ra - rp) / (ra + rp); cp_h : 0 < h; cp_h2 : h * h = a * GM p * (1 - e * e);
  cp_vh : 0 < vh; cp_vh2 : vh * vh = V * V + 2 * GM p / rp; cp_vrp : po_v_rp po = Some (vscale vh (cross W P));
  cp_vp : 0 < vp; cp_vp2 : vp * vp = GM p * (2 / rp - 1 / a); cp_h_vp : h = rp * vp;
  cp_vpv : po_vp_vec po = Some (loaded_vel (GM p) 1 a h rp P W);
  cp_vpc : po_vp_check po = Some vp }.

Lemma Ok_inj : forall (T : Type) (x y : T), Ok x = Ok y -> x = y.
Proof. intros T x y H. congruence. Qed.
Lemma nth_map_lt : forall (X Y : Type) (f : X -> Y) l k d d', (k < length l)%nat -> nth k (map f l) d' = f (nth k l d).
Proof. intros X Y f l k d d' H. rewrite nth_indep with (d' := f d) by (rewrite map_length; auto). apply map_nth. Qed.
Lemma perifocal_0 : forall P W, perifocal P W 0 = P.
Proof. intros [p1 p2 p3] [w1 w2 w3]. unfold perifocal. rewrite cos_0, sin_0. apply vec_eq; vsimpl; ring. Qed.

Lemma capture_of : forall name p v rp psi hEI A t alt po,
  Approach name v rp psi false hEI = Ok (A, t) -> Planet name = Ok p -> PropulsiveOrbiter A t alt = Ok po ->
  v <> vzero -> 0 < rp -> 0 < RP p + alt * 1e3 -> inclined A ->
  exists a e h P W i Om om vh vp,
    capture po p (norm v * 1000) rp (RP p + alt * 1e3) a e h P W i Om om vh vp /\
    rp_unit A = Some P /\ h_unit A = Some W /\ rp_vec A = Some (vscale rp P) /\
    po_DV_OI_vec po = Some (vsub (vscale vh (cross W P)) (loaded_vel (GM p) 1 a h rp P W)) /\
    po_DV_OI_mag po = Some (norm (vsub (vscale vh (cross W P)) (loaded_vel (GM p) 1 a h rp P W))) /\
    po_DV_OI_mag_check po = Some (vh - vp) /\ 0 < GM p /\ 0 < RP p.
Proof.
  intros name p v rp psi hEI A t alt po HA Hp HPO Hv Hrp Hra Hinc.
  destruct (Approach_inv _ _ _ _ _ _ _ _ HA) as (p' & Hp' & EA & _ & Ht). rewrite Hp in Hp'. inversion Hp'; subst p'; clear Hp'.
  specialize (Ht eq_refl). destruct (Planet_facts _ _ Hp) as (HRP & HGM & _).
  destruct (core_hyper name p v rp psi Hp Hv Hrp) as (V & a0 & e0 & b & h0 & P & W & K).
  assert (EV : V = norm v * 1000). { rewrite <- (hy_V _ _ _ _ _ _ _ _ K). change (v_inf_mag _) with (norm v * 1e3). lra. }
  assert (HW : ~ equatorial W). { rewrite EA in Hinc. apply (inclined_W _ _ _ _ _ _ _ _ K). auto. }
  destruct (hyper_elements _ _ _ _ _ _ _ _ _ _ _ K Hrp HW) as (i & Om & om & Q).
  pose proof (vel_eq _ _ _ _ _ _ _ _ _ _ _ 0 K Q) as Hvel. rewrite <- EA in K, Q, Hvel.
  assert (EP : ap_planet A = p) by (subst A; auto). assert (Er : ap_rp A = rp) by (subst A; auto). rewrite EP, Er in Hvel.
  pose proof (hy_e1 _ _ _ _ _ _ _ _ K) as He1. pose proof (hy_hpos _ _ _ _ _ _ _ _ K) as Hh0.
  specialize (Hvel HGM Hrp ltac:(rewrite cos_0; lra)).
  set (mu := GM p) in *. set (ra := RP p + alt * 1e3) in *.
  assert (Hcr : conic_radius mu h0 e0 0 = rp).
  { unfold conic_radius. rewrite (hy_h2 _ _ _ _ _ _ _ _ K), EP, Er, cos_0. fold mu. field. split; lra. }
  set (vh := h0 / rp). assert (Hvh : 0 < vh) by (apply Rdiv_lt_0_compat; auto).
  assert (Hvh2 : vh * vh = V * V + 2 * mu / rp).
  { pose proof (hyper_V2 _ _ _ _ _ _ _ _ K ltac:(rewrite EP; auto) ltac:(rewrite Er; auto)) as HV2. rewrite EP in HV2. fold mu in HV2.
    pose proof (conic_speed2 mu h0 e0 0 HGM Hh0 ltac:(rewrite cos_0; lra)) as HS. cbv zeta in HS. rewrite Hcr, sin_0 in HS. fold vh in HS. rewrite HV2, HS. ring. }
  assert (Hv0 : vel_vec_bi A 0 = Some (vscale vh (cross W P))).
  { rewrite Hvel. f_equal. unfold inward_vel. rewrite perifocal_0, Hcr, sin_0. fold vh.
    replace (mu / h0 * (e0 * 0)) with 0 by (field; lra). rewrite Rabs_R0. destruct (cross W P), P; apply vec_eq; vsimpl; ring. }
  rewrite Ht in HPO. unfold PropulsiveOrbiter in HPO. rewrite EP, Er, Hv0 in HPO. fold mu ra in HPO.
  set (a := (rp + ra) / 2) in *. assert (Ha : 0 < a) by (unfold a; lra).
  rewrite (np_div_some (ra - rp)) in HPO by lra. set (e := (ra - rp) / (ra + rp)) in *.
  assert (K1 : 1 - e = 2 * rp / (ra + rp)) by (unfold e; field; lra).
  assert (K2 : 1 + e = 2 * ra / (ra + rp)) by (unfold e; field; lra).
  assert (P1 : 0 < 2 * rp / (ra + rp)) by (apply Rdiv_lt_0_compat; lra).
  assert (P2 : 0 < 2 * ra / (ra + rp)) by (apply Rdiv_lt_0_compat; lra).
  assert (Hee : 0 < 1 - e * e) by nra.
  assert (Hq : 0 < a * mu * (1 - e * e)) by (apply Rmult_lt_0_compat; auto; apply Rmult_lt_0_compat; auto).
  cbn [obind] in HPO. rewrite (np_sqrt_some (a * mu * (1 - e * e))) in HPO by lra.
  set (h := sqrt (a * mu * (1 - e * e))) in *. assert (Hh : 0 < h) by (apply sqrt_lt_R0; auto).
  assert (Hh2 : h * h = a * mu * (1 - e * e)) by (apply sqrt_sqrt; lra).
  rewrite (np_div_some 2 rp), (np_div_some 1 a) in HPO by lra. cbn [obind] in HPO.
  set (v2 := mu * (2 / rp - 1 / a)) in *.
  assert (Ev2 : v2 = mu * ra / (rp * a)) by (unfold v2, a; field; repeat split; lra).
  assert (Hv2 : 0 < v2). { rewrite Ev2. apply Rdiv_lt_0_compat; apply Rmult_lt_0_compat; auto. }
  rewrite (np_sqrt_some v2) in HPO by lra. cbn [obind] in HPO.
  set (vp := sqrt v2) in *. assert (Hvp : 0 < vp) by (apply sqrt_lt_R0; auto). assert (Hvp2 : vp * vp = v2) by (apply sqrt_sqrt; lra).
  set (o := mkOrb (Some a) (Some e) (Some h) (ap_i A) (ap_OMEGA A) (ap_omega A)) in *.
  assert (PL : placed o a e h P W i Om om).
  { constructor; try reflexivity; try apply Q; try apply K. }
  assert (Hd : 1 + e * cos 0 <> 0) by (rewrite cos_0; lra).
  assert (Hrad : conic_radius mu h e 0 = rp).
  { unfold conic_radius. rewrite Hh2, cos_0. replace (a * mu * (1 - e * e) / mu / (1 + e * 1)) with (a * (1 - e)) by (field; split; lra).
    rewrite K1. unfold a. field. lra. }
  assert (Hov : orb_vel p o 0 = Some (loaded_vel mu 1 a h rp P W)).
  { rewrite (orb_vel_eq _ _ _ _ _ _ _ _ _ _ _ PL HGM ltac:(lra) Hh Hh2 Hd). fold mu. rewrite Hrad, perifocal_0. reflexivity. }
  rewrite Hov in HPO. cbn [obind] in HPO.
  apply Ok_inj in HPO. subst po. exists a, e, h, P, W, i, Om, om, vh, vp.
  split; [constructor; cbn [po_planet po_rp po_ra po_orb po_v_rp po_vp_vec po_vp_check]; auto|].
  - rewrite <- EV. auto.
  - apply sq_eq_nonneg; try nra. rewrite Hh2. replace (rp * vp * (rp * vp)) with (rp * rp * (vp * vp)) by ring.
    rewrite Hvp2, Ev2. unfold e, a. field. lra.
  - split; [apply K|]. split; [apply K|]. split; [rewrite (hy_rv _ _ _ _ _ _ _ _ K), Er; reflexivity|].
    cbn [po_DV_OI_vec po_DV_OI_mag po_DV_OI_mag_check]. split; [reflexivity|]. split; [reflexivity|]. split; [|split; auto].
    f_equal. f_equal. rewrite norm_vscale by lra. rewrite (norm_eq (cross W P) 1); [ring|lra|].
    destruct (frame_facts P W (hy_P1 _ _ _ _ _ _ _ _ K) (hy_W1 _ _ _ _ _ _ _ _ K) (hy_WP _ _ _ _ _ _ _ _ K)) as (F1 & _). rewrite F1. ring.
Qed.

Lemma capture_e : forall rp ra e, 0 < rp -> 0 < ra -> e = (ra - rp) / (ra + rp) -> -1 < e < 1.
Proof.
  intros rp ra e Hrp Hra ->.
  assert (K1 : 1 - (ra - rp) / (ra + rp) = 2 * rp / (ra + rp)) by (field; lra).
  assert (K2 : 1 + (ra - rp) / (ra + rp) = 2 * ra / (ra + rp)) by (field; lra).
  assert (0 < 2 * rp / (ra + rp)) by (apply Rdiv_lt_0_compat; lra).
  assert (0 < 2 * ra / (ra + rp)) by (apply Rdiv_lt_0_compat; lra). lra.
Qed.

(** C34: the capture orbit has the requested apsides: its points have conic radius h^2/(mu (1+e cos)),
    the approach periapsis is its point at anomaly 0, and the point at anomaly pi is opposite, at the
    requested apoapsis radius. *)
Theorem C34_capture_orbit : forall name p v rp psi hEI A t alt po,
  Approach name v rp psi false hEI = Ok (A, t) -> Planet name = Ok p -> PropulsiveOrbiter A t alt = Ok po ->
  v <> vzero -> 0 < rp -> 0 < RP p + alt * 1e3 -> inclined A ->
  let ra := RP p + alt * 1e3 in
  exists a e h r, o_a (po_orb po) = Some a /\ o_e (po_orb po) = Some e /\ o_h (po_orb po) = Some h /\
    a * (1 - e) = rp /\ a * (1 + e) = ra /\ 0 < h /\ h * h = GM p * a * (1 - e * e) /\
    rp_vec A = Some r /\ orb_pos p (po_orb po) 0 = Some r /\ norm r = rp /\
    orb_pos p (po_orb po) PI = Some (vscale (- (ra / rp)) r) /\
    (forall th, exists q, orb_pos p (po_orb po) th = Some q /\ Rmin rp ra <= norm q <= Rmax rp ra).
Proof.
  intros name p v rp psi hEI A t alt po HA Hp HPO Hv Hrp Hra Hinc ra.
  destruct (capture_of _ _ _ _ _ _ _ _ _ _ HA Hp HPO Hv Hrp Hra Hinc) as (a & e & h & P & W & i & Om & om & vh & vp & C & H1 & H2 & H3 & H4 & H5 & H6 & Hmu & HRP).
  fold ra in C, Hra. destruct C as [Cp Crp Cra Co Ca Ce Ch Ch2 Cvh Cvh2 Cvrp Cvp Cvp2 Chv Cvpv Cvpc].
  pose proof (capture_e rp ra e Hrp Hra Ce) as He.
  assert (Hd : forall th, 0 < 1 + e * cos th). { intros th. pose proof (ecos_pos (- e) th ltac:(lra)). lra. }
  assert (Hmin : a * (1 - e) = rp) by (rewrite Ca, Ce; field; lra).
  assert (Hmax : a * (1 + e) = ra) by (rewrite Ca, Ce; field; lra).
  assert (Hpos : forall th, orb_pos p (po_orb po) th = Some (conic_pos (GM p) h e P W th)).
  { intros th. apply (orb_pos_eq _ _ _ _ _ _ _ _ _ _ _ Co). specialize (Hd th). lra. }
  assert (Hrad : forall th, conic_radius (GM p) h e th = a * (1 - e) * (1 + e) / (1 + e * cos th)).
  { intros th. unfold conic_radius. rewrite Ch2. specialize (Hd th). field. lra. }
  exists a, e, h, (vscale rp P). split; [apply Co|]. split; [apply Co|]. split; [apply Co|]. split; auto. split; auto. split; auto.
  split; [rewrite Ch2; ring|]. split; auto.
  split. { rewrite Hpos. unfold conic_pos. rewrite Hrad, perifocal_0, cos_0, Hmin. f_equal. f_equal. field. lra. }
  split. { rewrite norm_vscale by lra. rewrite (norm_eq P 1) by (try lra; rewrite (pl_P _ _ _ _ _ _ _ _ _ Co); ring). ring. }
  split.
  { rewrite Hpos. f_equal. unfold conic_pos, perifocal. rewrite Hrad, cos_PI, sin_PI.
    replace (a * (1 - e) * (1 + e) / (1 + e * -1)) with ra by (rewrite <- Hmax; field; lra).
    destruct P as [p1 p2 p3], W as [w1 w2 w3]. apply vec_eq; vsimpl; field; lra. }
  intros th. eexists. split; [apply Hpos|].
  destruct (perifocal_unit P W th (pl_P _ _ _ _ _ _ _ _ _ Co) (pl_W _ _ _ _ _ _ _ _ _ Co) (pl_WP _ _ _ _ _ _ _ _ _ Co)) as (U & _).
  assert (Hr0 : 0 < conic_radius (GM p) h e th).
  { rewrite Hrad. apply Rdiv_lt_0_compat; auto. rewrite Hmin. nra. }
  unfold conic_pos. rewrite norm_vscale by lra. rewrite (norm_eq (perifocal P W th) 1) by lra. rewrite Rmult_1_r.
  pose proof (Hd th) as Hdt. pose proof (COS_bound th) as Hc.
  assert (Ex : conic_radius (GM p) h e th * (1 + e * cos th) = a * (1 - e) * (1 + e)) by (rewrite Hrad; field; lra).
  set (q := conic_radius (GM p) h e th) in *. 
  destruct (Rle_or_lt rp ra) as [L|L]; [rewrite Rmin_left, Rmax_right by lra|rewrite Rmin_right, Rmax_left by lra].
  - assert (0 <= e) by (rewrite Ce; apply Rmult_le_pos; [lra|left; apply Rinv_0_lt_compat; lra]).
    split.
    + apply Rmult_le_reg_r with (1 + e * cos th); auto. rewrite Ex, Hmin. apply Rmult_le_compat_l; nra.
    + apply Rmult_le_reg_r with (1 + e * cos th); auto. rewrite Ex. replace (a * (1 - e) * (1 + e)) with (ra * (1 - e)) by (rewrite <- Hmax; ring). apply Rmult_le_compat_l; nra.
  - assert (e < 0). { rewrite Ce. apply Ropp_lt_cancel. rewrite Ropp_0. replace (- ((ra - rp) / (ra + rp))) with ((rp - ra) / (ra + rp)) by (field; lra). apply Rdiv_lt_0_compat; lra. }
    split.
    + apply Rmult_le_reg_r with (1 + e * cos th); auto. rewrite Ex. replace (a * (1 - e) * (1 + e)) with (ra * (1 - e)) by (rewrite <- Hmax; ring). apply Rmult_le_compat_l; nra.
    + apply Rmult_le_reg_r with (1 + e * cos th); auto. rewrite Ex, Hmin. apply Rmult_le_compat_l; nra.
Qed.

(** C34: insertion delta-V.  Arrival speed at periapsis follows from v_inf, orbit speed from vis-viva;
    the scalar check is their difference and is positive; the reported vector delta-V exceeds it by the
    1.0000001 artefact. *)
Theorem C34_insertion_dv : forall name p v rp psi hEI A t alt po,
  Approach name v rp psi false hEI = Ok (A, t) -> Planet name = Ok p -> PropulsiveOrbiter A t alt = Ok po ->
  v <> vzero -> 0 < rp -> 0 < RP p + alt * 1e3 -> inclined A ->
  let V := norm v * 1000 in let ra := RP p + alt * 1e3 in
  exists w u d m vp, po_v_rp po = Some w /\ po_vp_vec po = Some u /\ po_vp_check po = Some vp /\
    norm w * norm w / 2 - GM p / rp = V * V / 2 /\
    0 < vp /\ vp * vp / 2 - GM p / rp = - GM p / (rp + ra) /\ norm u = vp /\
    po_DV_OI_mag_check po = Some d /\ d = norm w - vp /\ norm w - sqrt (2 * GM p / rp) < d /\ 0 < d /\
    po_DV_OI_vec po = Some (vsub w u) /\ po_DV_OI_mag po = Some m /\ m = norm (vsub w u) /\
    m * m = d * d + 2 * (norm w * vp) * (1 - 1 / 1.0000001) /\ d < m.
Proof.
  intros name p v rp psi hEI A t alt po HA Hp HPO Hv Hrp Hra Hinc V ra.
  destruct (capture_of _ _ _ _ _ _ _ _ _ _ HA Hp HPO Hv Hrp Hra Hinc) as (a & e & h & P & W & i & Om & om & vh & vp & C & H1 & H2 & H3 & H4 & H5 & H6 & Hmu & HRP).
  fold ra V in C, Hra. destruct C as [Cp Crp Cra Co Ca Ce Ch Ch2 Cvh Cvh2 Cvrp Cvp Cvp2 Chv Cvpv Cvpc].
  pose proof (pl_P _ _ _ _ _ _ _ _ _ Co) as HP1. pose proof (pl_W _ _ _ _ _ _ _ _ _ Co) as HW1. pose proof (pl_WP _ _ _ _ _ _ _ _ _ Co) as HWP.
  destruct (frame_facts P W HP1 HW1 HWP) as (F1 & F2 & _).
  set (w := vscale vh (cross W P)) in *. set (u := loaded_vel (GM p) 1 a h rp P W) in *.
  assert (Nw : norm w = vh). { unfold w. rewrite norm_vscale by lra. rewrite (norm_eq (cross W P) 1) by lra. ring. }
  assert (Ehr : h / (rp * kf) = vp / kf) by (rewrite Chv; field; unfold kf; split; lra).
  assert (Hkf : 1 < kf) by (unfold kf; lra).
  assert (Hj : 0 < 1 / kf < 1) by (unfold kf; lra).
  assert (Hlt : 0 < GM p * (2 / rp - 1 / a) - h / (rp * kf) * (h / (rp * kf))).
  { rewrite Ehr, <- Cvp2. replace (vp / kf) with (vp * (1 / kf)) by (field; lra). set (j := 1 / kf) in *. clearbody j. assert (vp * j < vp) by nra. assert (0 < vp * j) by nra. nra. }
  destruct (loaded_invariants (GM p) 1 a h rp P W HP1 HW1 HWP Hrp Hmu ltac:(auto) ltac:(lra)) as (_ & N2 & _). fold u in N2.
  assert (Nu : norm u = vp) by (apply norm_eq; lra).
  exists w, u, (vh - vp), (norm (vsub w u)), vp. rewrite Nw. split; auto. split; auto. split; auto.
  split. { rewrite Cvh2. field. lra. }
  split; auto. split. { rewrite Cvp2, Ca. field. lra. }
  split; auto. split; auto. split; auto.
  assert (Hesc : vp < sqrt (2 * GM p / rp)).
  { assert (0 < 2 * GM p / rp) by (apply Rdiv_lt_0_compat; lra). apply Rsqr_incrst_0; try apply sqrt_pos; try lra. rewrite Rsqr_sqrt by lra. unfold Rsqr. rewrite Cvp2.
    assert (0 < GM p / a) by (apply Rdiv_lt_0_compat; auto; rewrite Ca; lra). replace (GM p * (2 / rp - 1 / a)) with (2 * GM p / rp - GM p / a) by (field; rewrite Ca; lra). lra. }
  assert (HV : 0 < V). { unfold V. pose proof (norm_pos v Hv). lra. }
  assert (Hesc2 : sqrt (2 * GM p / rp) < vh).
  { assert (0 < 2 * GM p / rp) by (apply Rdiv_lt_0_compat; lra). apply Rsqr_incrst_0; try apply sqrt_pos; try lra. rewrite Rsqr_sqrt by lra. unfold Rsqr. rewrite Cvh2. nra. }
  split; [lra|]. split; [lra|]. split; auto. split; auto. split; auto.
  assert (Em : norm (vsub w u) * norm (vsub w u) = (vh - vp) * (vh - vp) + 2 * (vh * vp) * (1 - 1 / 1.0000001)).
  { rewrite norm_sq. transitivity (norm2 w + norm2 u - 2 * dot w u). { destruct w, u. vsimpl. ring. }
    rewrite <- (norm_sq w), Nw, N2, <- Cvp2.
    assert (Ed : dot w u = vh * (vp / kf)).
    { unfold w, u, loaded_vel. rewrite Ehr. rewrite dot_vscale_l. f_equal. generalize (1 * sqrt (GM p * (2 / rp - 1 / a) - vp / kf * (vp / kf))). intros k.
      transitivity (k * dot P (cross W P) + vp / kf * norm2 (cross W P)).
      - generalize (cross W P) (vp / kf). intros [x y z] j. destruct P. vsimpl. ring.
      - rewrite F1. replace (dot P (cross W P)) with 0; [ring|]. destruct P, W. vsimpl. ring. }
    rewrite Ed. unfold kf. field; lra. }
  split; auto. set (m := norm (vsub w u)) in *. assert (0 <= m) by apply sqrt_pos.
  assert (0 < 2 * (vh * vp) * (1 - 1 / 1.0000001)). { apply Rmult_lt_0_compat; [|lra]. apply Rmult_lt_0_compat; [lra|]. apply Rmult_lt_0_compat; lra. }
  apply Rsqr_incrst_0; try lra. unfold Rsqr. lra.
Qed.
(** The scalar insertion delta-V strictly decreases with the apoapsis altitude. *)
Theorem C34_dv_decreasing : forall name p v rp psi hEI A t alt1 alt2 po1 po2,
  Approach name v rp psi false hEI = Ok (A, t) -> Planet name = Ok p ->
  PropulsiveOrbiter A t alt1 = Ok po1 -> PropulsiveOrbiter A t alt2 = Ok po2 ->
  v <> vzero -> 0 < rp -> 0 < RP p + alt1 * 1e3 -> alt1 < alt2 -> inclined A ->
  exists d1 d2, po_DV_OI_mag_check po1 = Some d1 /\ po_DV_OI_mag_check po2 = Some d2 /\ 0 < d2 < d1.
Proof.
  intros name p v rp psi hEI A t alt1 alt2 po1 po2 HA Hp H1 H2 Hv Hrp Hra Hlt Hinc.
  destruct (Planet_facts _ _ Hp) as (_ & Hmu & _).
  assert (Hra2 : 0 < RP p + alt2 * 1e3) by lra.
  destruct (C34_insertion_dv _ _ _ _ _ _ _ _ _ _ HA Hp H1 Hv Hrp Hra Hinc) as (w1 & u1 & d1 & m1 & q1 & A1 & A2 & A3 & A4 & A5 & A6 & A7 & A8 & A9 & A10 & A11 & _).
  destruct (C34_insertion_dv _ _ _ _ _ _ _ _ _ _ HA Hp H2 Hv Hrp Hra2 Hinc) as (w2 & u2 & d2 & m2 & q2 & B1 & B2 & B3 & B4 & B5 & B6 & B7 & B8 & B9 & B10 & B11 & _).
  exists d1, d2. split; auto. split; auto. split; auto.
  assert (norm w1 = norm w2). { apply sq_eq_nonneg; try apply sqrt_pos. lra. }
  assert (q1 < q2); [|lra]. apply Rsqr_incrst_0; try lra. unfold Rsqr.
  set (r1 := RP p + alt1 * 1e3) in *. set (r2 := RP p + alt2 * 1e3) in *. assert (r1 < r2) by (unfold r1, r2; lra).
  assert (GM p / (rp + r2) < GM p / (rp + r1)). { apply Rmult_lt_compat_l; auto. apply Rinv_lt_contravar; nra. }
  unfold Rdiv in *. lra.
Qed.
(** An approach built for an entry system has no periapsis state: insertion raises AttributeError. *)
Theorem C34_entry_approach_raises : forall name v rp psi hEI A t alt,
  Approach name v rp psi true hEI = Ok (A, t) -> PropulsiveOrbiter A t alt = Err AttributeError.
Proof.
  intros name v rp psi hEI A t alt H. destruct (Approach_inv _ _ _ _ _ _ _ _ H) as (p & _ & _ & Ht & _).
  destruct (Ht eq_refl) as (hh & _ & ->). reflexivity.
Qed.

(** C35.  The root finder is an external engine; the theorem holds for any engine that returns some
    eccentric anomaly within [eps] of solving Kepler's equation. *)
Definition solves_kepler (newton : R -> R -> res R) (eps : R) : Prop :=
  forall e M, -1 < e < 1 -> exists E, newton e M = Ok E /\ Rabs (E - e * sin E - M) <= eps.

Lemma timed_list : forall (newton : R -> R -> res R) e Pd ts, (forall M, exists E, newton e M = Ok E) ->
  exists ths, fold_right (fun t acc => letr E := newton e (2 * PI * t / Pd) in letr l := acc in Ok (compute_theta_star e E :: l)) (Ok []) ts = Ok ths /\
  length ths = length ts /\
  forall k, (k < length ts)%nat -> exists E, newton e (2 * PI * nth k ts 0 / Pd) = Ok E /\ nth k ths None = compute_theta_star e E.
Proof.
  intros newton e Pd ts Hn. induction ts as [|t ts IH].
  - exists []. split; [reflexivity|]. split; [reflexivity|]. intros k Hk. simpl in Hk. inversion Hk.
  - destruct IH as (ths & E1 & E2 & E3). destruct (Hn (2 * PI * t / Pd)) as (E & HE).
    exists (compute_theta_star e E :: ths). split; [simpl; rewrite HE; cbn [rbind]; rewrite E1; reflexivity|]. split; [simpl; auto|].
    intros [|k] Hk.
    + exists E. split; auto.
    + simpl in *. apply E3. apply Nat.succ_lt_mono. auto.
Qed.

Theorem C35_timed_trajectory : forall name p v rp psi hEI A t alt po newton eps T n,
  Approach name v rp psi false hEI = Ok (A, t) -> Planet name = Ok p -> PropulsiveOrbiter A t alt = Ok po ->
  v <> vzero -> 0 < rp -> 0 < RP p + alt * 1e3 -> inclined A -> solves_kepler newton eps -> (2 <= n)%nat ->
  exists a e P W ts ths arr, o_a (po_orb po) = Some a /\ o_e (po_orb po) = Some e /\ 0 < a /\ -1 < e < 1 /\
    rp_vec A = Some (vscale rp P) /\ h_unit A = Some W /\ norm2 P = 1 /\ norm2 W = 1 /\ dot W P = 0 /\
    compute_timed_orbit_trajectory newton po T n = Ok (ts, ths, arr) /\ length ts = n /\ length arr = n /\
    forall k, (k < n)%nat -> let tk := INR k * (T / INR (n - 1)) in nth k ts 0 = tk /\
      exists Etrue E, ell_time (GM p) a e Etrue = tk /\ (forall E', ell_time (GM p) a e E' = tk -> E' = Etrue) /\
        Rabs (E - Etrue) <= eps / (1 - Rabs e) /\
        nth k arr None = Some (vscale (1 / RP p) (ell_pos a e P W E)).
Proof.
  intros name p v rp psi hEI A t alt po newton eps T n HA Hp HPO Hv Hrp Hra Hinc Hnw Hn.
  destruct (capture_of _ _ _ _ _ _ _ _ _ _ HA Hp HPO Hv Hrp Hra Hinc) as (a & e & h & P & W & i & Om & om & vh & vp & C & H1 & H2 & H3 & H4 & H5 & H6 & Hmu & HRP).
  destruct C as [Cp Crp Cra Co Ca Ce Ch Ch2 Cvh Cvh2 Cvrp Cvp Cvp2 Chv Cvpv Cvpc].
  pose proof (capture_e _ _ _ Hrp Hra Ce) as He. assert (Ha : 0 < a) by (rewrite Ca; lra).
  assert (Hae : Rabs e < 1) by (apply Rabs_def1; lra).
  assert (Hd : forall th, 0 < 1 + e * cos th). { intros th. pose proof (ecos_pos (- e) th ltac:(lra)). lra. }
  set (q := sqrt (a * a * a / GM p)).
  assert (Hq0 : 0 < a * a * a / GM p). { apply Rdiv_lt_0_compat; auto. pos. }
  assert (Hq : 0 < q) by (apply sqrt_lt_R0; auto).
  set (Pd := 2 * PI * q). pose proof PI_RGT_0 as HPI.
  destruct (timed_list newton e Pd (linspace 0 T n)) as (ths & L1 & L2 & L3).
  { intros M. destruct (Hnw e M He) as (E & HE & _). eauto. }
  rewrite linspace_length in L2, L3.
  exists a, e, P, W, (linspace 0 T n), ths, (scaled p (orb_pos p (po_orb po)) ths).
  split; [apply Co|]. split; [apply Co|]. split; auto. split; auto. split; auto. split; auto. split; [apply Co|]. split; [apply Co|]. split; [apply Co|].
  split.
  { unfold compute_timed_orbit_trajectory. rewrite Cp, (pl_a _ _ _ _ _ _ _ _ _ Co), (pl_e _ _ _ _ _ _ _ _ _ Co). cbn [obind].
    rewrite np_sqrt_some by lra. cbn [obind]. fold q Pd. rewrite L1. reflexivity. }
  split; [apply linspace_length|]. split; [unfold scaled; rewrite map_length; auto|].
  intros k Hk tk. assert (Htk : nth k (linspace 0 T n) 0 = tk) by (rewrite linspace_nth by auto; unfold tk; rewrite Rminus_0_r; ring).
  split; auto.
  destruct (L3 k Hk) as (E & HE & Hth). rewrite Htk in HE.
  destruct (Hnw e (2 * PI * tk / Pd) He) as (E' & HE' & Hres). rewrite HE in HE'. injection HE' as <-.
  assert (EM : 2 * PI * tk / Pd = tk / q) by (unfold Pd; field; lra). rewrite EM in Hres.
  destruct (kepler_exists e (tk / q) Hae) as (Es & HEs).
  assert (Eq3 : sqrt (a ^ 3 / GM p) = q) by (unfold q; f_equal; field; lra).
  exists Es, E. split. { unfold ell_time. rewrite Eq3, HEs. field. lra. }
  split.
  { intros E' HE'. apply (kepler_unique e); auto. rewrite HEs. unfold ell_time in HE'. rewrite Eq3 in HE'. rewrite <- HE'. field. lra. }
  split.
  { rewrite <- HEs in Hres. assert (H0 : 0 <= Rabs e < 1) by (split; auto; apply Rabs_pos).
    apply Rmult_le_reg_l with (1 - Rabs e); [lra|]. replace ((1 - Rabs e) * (eps / (1 - Rabs e))) with eps by (field; lra).
    apply Rle_trans with (2 := Hres). destruct (Rle_or_lt Es E) as [L|L].
    - pose proof (kepler_lipschitz e Es E H0 L). rewrite (Rabs_pos_eq (E - Es)) by lra. apply Rle_trans with (2 := Rle_abs _). lra.
    - pose proof (kepler_lipschitz e E Es H0 ltac:(lra)). rewrite (Rabs_left (E - Es)) by lra. rewrite <- (Rabs_Ropp (E - e * sin E - (Es - e * sin Es))). apply Rle_trans with (2 := Rle_abs _). lra. }
  assert (Hts : compute_theta_star e E = Some (if Reqb (cos (E / 2)) 0 then PI else 2 * atan (sqrt ((1 + e) / (1 - e)) * tan (E / 2)))).
  { unfold compute_theta_star. rewrite np_div_some by lra. cbn [obind]. rewrite np_sqrt_some by (left; apply Rdiv_lt_0_compat; lra). reflexivity. }
  set (th := if Reqb (cos (E / 2)) 0 then PI else _) in Hts.
  destruct (anomaly_conversion e E th He eq_refl) as (Hc & Hs & Hpos).
  unfold scaled. rewrite (nth_map_lt _ _ _ _ _ None) by (rewrite L2; auto). rewrite Hth, Hts. cbn [obind].
  rewrite (orb_pos_eq _ _ _ _ _ _ _ _ _ _ _ Co) by lra. cbn [obind]. f_equal. f_equal.
  apply (conic_is_ell (GM p) a e h P W E th); auto.
Qed.
(** The motion those points lie on: Newtonian, periodic, starting at periapsis, opposite at half period. *)
Theorem C35_kepler_motion : forall mu a e P W, 0 < mu -> 0 < a -> -1 < e < 1 -> norm2 P = 1 -> norm2 W = 1 -> dot W P = 0 ->
  let period := 2 * PI * sqrt (a ^ 3 / mu) in
  (forall t, exists! E, ell_time mu a e E = t) /\
  (forall E, ell_time mu a e (E + 2 * PI) = ell_time mu a e E + period /\ ell_pos a e P W (E + 2 * PI) = ell_pos a e P W E) /\
  ell_time mu a e 0 = 0 /\ ell_pos a e P W 0 = vscale (a * (1 - e)) P /\
  ell_time mu a e PI = period / 2 /\ ell_pos a e P W PI = vscale (- (a * (1 + e))) P /\
  (forall E, exists d, 0 < d /\ derivable_pt_lim (ell_time mu a e) E d /\
     vderiv (ell_pos a e P W) E (vscale d (ell_vel mu a e P W E)) /\
     vderiv (ell_vel mu a e P W) E (vscale d (vscale (- mu / (norm (ell_pos a e P W E)) ^ 3) (ell_pos a e P W E)))).
Proof.
  intros mu a e P W Hmu Ha He HP HW HWP period.
  assert (Hae : Rabs e < 1) by (apply Rabs_def1; lra).
  assert (Hq : 0 < sqrt (a ^ 3 / mu)) by (apply sqrt_lt_R0; pos). set (q := sqrt (a ^ 3 / mu)) in *.
  split.
  { intros t. destruct (kepler_exists e (t / q) Hae) as (E & HE). exists E. split.
    - unfold ell_time. fold q. rewrite HE. field. lra.
    - intros E' HE'. apply (kepler_unique e); auto. rewrite HE. unfold ell_time in HE'. fold q in HE'. rewrite <- HE'. field. lra. }
  split.
  { intros E. unfold ell_time, ell_pos. rewrite sin_plus, cos_plus, sin_2PI, cos_2PI. fold q. split; [unfold period; ring|].
    f_equal. f_equal; f_equal; ring. }
  split. { unfold ell_time. rewrite sin_0. ring. }
  split. { unfold ell_pos. rewrite sin_0, cos_0. destruct P as [p1 p2 p3], W as [w1 w2 w3]. apply vec_eq; vsimpl; ring. }
  split. { unfold ell_time. fold q. rewrite sin_PI. unfold period. field. }
  split. { unfold ell_pos. rewrite sin_PI, cos_PI. destruct P as [p1 p2 p3], W as [w1 w2 w3]. apply vec_eq; vsimpl; ring. }
  intros E. destruct (ell_motion_newtonian mu a e P W E Hmu Ha He HP HW HWP) as (D1 & D2 & D3 & D4). eexists. split; [exact D1|]. auto.
Qed.
(** If the root finder raises for some requested time, the whole call raises. *)
Theorem C35_root_failure_raises : forall newton po T n a e k x, (2 <= n)%nat -> (k < n)%nat ->
  o_a (po_orb po) = Some a -> 0 < a -> 0 < GM (po_planet po) -> o_e (po_orb po) = Some e ->
  newton e (INR k * (T / INR (n - 1)) / sqrt (a ^ 3 / GM (po_planet po))) = Err x ->
  exists y, compute_timed_orbit_trajectory newton po T n = Err y.
Proof.
  intros newton po T n a e k x Hn Hk Ha Ha0 Hmu He Hnw. unfold compute_timed_orbit_trajectory. rewrite Ha, He. cbn [obind].
  assert (Hq0 : 0 < a * a * a / GM (po_planet po)). { apply Rdiv_lt_0_compat; auto. pos. }
  rewrite np_sqrt_some by lra. cbn [obind].
  assert (Eq3 : sqrt (a ^ 3 / GM (po_planet po)) = sqrt (a * a * a / GM (po_planet po))) by (f_equal; field; lra). rewrite Eq3 in Hnw.
  assert (Hq : 0 < sqrt (a * a * a / GM (po_planet po))) by (apply sqrt_lt_R0; auto). set (q := sqrt _) in *. pose proof PI_RGT_0.
  assert (Hin : In (INR k * (T / INR (n - 1))) (linspace 0 T n)).
  { replace (INR k * (T / INR (n - 1))) with (nth k (linspace 0 T n) 0) by (rewrite linspace_nth by auto; rewrite Rminus_0_r; ring). apply nth_In. rewrite linspace_length. auto. }
  set (tk := INR k * (T / INR (n - 1))) in *. 
  assert (Hf : exists y, fold_right (fun t acc => letr E := newton e (2 * PI * t / (2 * PI * q)) in letr l := acc in Ok (compute_theta_star e E :: l)) (Ok []) (linspace 0 T n) = Err y).
  { induction (linspace 0 T n) as [|t l IH]; [destruct Hin|]. cbn [fold_right]. destruct Hin as [->|Hin].
    - replace (2 * PI * tk / (2 * PI * q)) with (tk / q) by (field; lra). rewrite Hnw. cbn [rbind]. eauto.
    - destruct (newton e (2 * PI * t / (2 * PI * q))); cbn [rbind]; [|eauto]. destruct (IH Hin) as (y & ->). cbn [rbind]. eauto. }
  destruct Hf as (y & ->). cbn [rbind]. eauto.
Qed.

(** An exact solver, showing that the assumption on the root finder of C35 can be met with eps = 0. *)
Lemma kepler_root : forall e M, -1 < e < 1 -> {E : R | E - e * sin E - M = 0}.
Proof.
  intros e M He. set (f := fun E => E - e * sin E - M).
  assert (Hc : continuity f) by (unfold f; reg).
  assert (S : forall x, -1 <= sin x <= 1) by (intros; apply SIN_bound).
  assert (H1 : f (M - 2) < 0) by (unfold f; pose proof (S (M - 2)); nra).
  assert (H2 : 0 < f (M + 2)) by (unfold f; pose proof (S (M + 2)); nra).
  destruct (IVT f (M - 2) (M + 2) Hc ltac:(lra) H1 H2) as (z & _ & Hz). exists z. exact Hz.
Qed.
Definition exact_newton (e M : R) : res R :=
  match Rlt_dec (-1) e, Rlt_dec e 1 with
  | left a, left b => Ok (proj1_sig (kepler_root e M (conj a b)))
  | _, _ => Err OracleError
  end.
Example C35_solver_witness : solves_kepler exact_newton 0.
Proof.
  intros e M He. unfold exact_newton. destruct (Rlt_dec (-1) e) as [a|n]; [|lra]. destruct (Rlt_dec e 1) as [b|n]; [|lra].
  destruct (kepler_root e M (conj a b)) as [E HE]. cbn [proj1_sig]. exists E. split; auto. rewrite HE, Rabs_R0. lra.
Qed.
Example C34_witness : exists A t po, Approach "NEPTUNE" (icrf_of NEPTUNE (V3 3 0 4)) 25000e3 1 false None = Ok (A, t) /\
  Planet "NEPTUNE" = Ok NEPTUNE /\ PropulsiveOrbiter A t 400000 = Ok po /\
  icrf_of NEPTUNE (V3 3 0 4) <> vzero /\ 0 < RP NEPTUNE + 400000 * 1e3 /\ inclined A.
Proof.
  do 2 eexists. set (po0 := PropulsiveOrbiter (Approach_core NEPTUNE (icrf_of NEPTUNE (V3 3 0 4)) 25000e3 1) (Periapsis (rp_vec (Approach_core NEPTUNE (icrf_of NEPTUNE (V3 3 0 4)) 25000e3 1)) (vel_vec_bi (Approach_core NEPTUNE (icrf_of NEPTUNE (V3 3 0 4)) 25000e3 1) 0)) 400000).
  assert (X : exists po, po0 = Ok po) by (unfold po0, PropulsiveOrbiter; eexists; reflexivity). destruct X as (po & Hpo). exists po.
  split; [unfold Approach; rewrite Neptune_ok; reflexivity|]. split; [reflexivity|]. split; [exact Hpo|].
  split; [apply icrf_nonzero; intros E; injection E; intros; lra|]. split; [cbn [RP NEPTUNE]; lra|].
  apply (inclined_if_vz "NEPTUNE"); [reflexivity|cbn [vz]; lra|lra].
Qed.
