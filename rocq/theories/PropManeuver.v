(** Properties C28-C30: deflection maneuvers (maneuver.py). *)
From Coq Require Import Nsatz.
Require Import Verif.Base Verif.PlanetModel Verif.PlanetProofs Verif.FrameModel Verif.FrameProofs Verif.ApproachModel Verif.ConicSpec
  Verif.ConicProofs Verif.ApproachProofs Verif.ManeuverModel Verif.HyperbolaProofs Verif.LambertProofs Verif.ManeuverProofs Verif.PropApproach.
From Coq Require Import String.
Local Open Scope R_scope.

Lemma inward_is_conic : forall mu h e P W th, 0 < mu -> 0 < h -> 0 < e -> norm2 P = 1 -> norm2 W = 1 -> dot W P = 0 ->
  0 < 1 + e * cos th -> sin th <= 0 -> inward_vel mu h e P W th = conic_vel mu h e P W th.
Proof.
  intros mu h e P W th Hmu Hh He HP HW HWP Hd Hs.
  destruct (conic_state mu h e P W th Hmu Hh HP HW HWP Hd) as (_ & _ & _ & _ & E). rewrite E. unfold inward_vel.
  assert (0 < mu / h) by (apply Rdiv_lt_0_compat; auto).
  rewrite Rabs_left1; [f_equal; f_equal; ring|]. assert (0 <= mu / h * e * - sin th); [|lra]. apply Rmult_le_pos; [|lra]. nra.
Qed.

(** Everything the constructors need about one approach of given target. *)
Lemma leg_setup : forall name p v rp psi, Planet name = Ok p -> v <> vzero -> 0 < rp ->
  let A := Approach_core p v rp psi in
  exists V a e b h P W, hyper A V a e b h P W /\ V = norm v * 1000 /\ ap_planet A = p /\ ap_rp A = rp /\
   Rabs a = GM p / (V * V) /\ 0 < GM p /\ norm (vscale rp P) = rp /\ rp_vec A = Some (vscale rp P).
Proof.
  intros name p v rp psi Hp Hv Hrp A. destruct (core_hyper name p v rp psi Hp Hv Hrp) as (V & a & e & b & h & P & W & K).
  destruct (Planet_facts _ _ Hp) as (_ & HGM & _). exists V, a, e, b, h, P, W. split; [exact K|].
  split. { rewrite <- (hy_V _ _ _ _ _ _ _ _ K). change (v_inf_mag _) with (norm v * 1e3). lra. }
  split; [reflexivity|]. split; [reflexivity|]. split; [apply (hyper_size _ _ _ _ _ _ _ _ K); auto|]. split; [auto|]. split.
  - apply norm_eq; [lra|]. rewrite norm2_vscale, (hy_P1 _ _ _ _ _ _ _ _ K). ring.
  - exact (hy_rv _ _ _ _ _ _ _ _ K).
Qed.

Lemma elements_of : forall p v rp psi V a e b h P W, let A := Approach_core p v rp psi in hyper A V a e b h P W -> inclined A -> 0 < rp ->
  exists i Om om, elements A P W i Om om.
Proof. intros. eapply hyper_elements; eauto. apply (inclined_W _ _ _ _ _ _ _ _ H). auto. Qed.

(** Position at the maneuver and undeflected velocity reported by the approach itself. *)
Lemma maneuver_point : forall p v rp psi V a e b h P W rho th, let A := Approach_core p v rp psi in
  hyper A V a e b h P W -> inclined A -> 0 < GM p -> 0 < rp -> rp < rho -> theta_star_dv A (GM p) rho = Some th ->
  pos_vec_bi A th = Some (conic_pos (GM p) h e P W th) /\ vel_vec_bi A th = Some (conic_vel (GM p) h e P W th).
Proof.
  intros p v rp psi V a e b h P W rho th A K Hi Hmu Hrp Hlt Hth.
  destruct (elements_of _ _ _ _ _ _ _ _ _ _ _ K Hi Hrp) as (i & Om & om & E).
  destruct (dv_anomaly A V a e b h P W rho K Hmu Hrp ltac:(lra)) as (_ & D).
  destruct D as (th' & D1 & D2 & _ & D4 & _); [change (ap_rp A) with rp; lra|]. change (ap_planet A) with p in D1. rewrite Hth in D1. injection D1 as <-.
  pose proof (hy_e1 _ _ _ _ _ _ _ _ K) as He. split.
  - apply (pos_eq _ _ _ _ _ _ _ _ _ _ _ th K E); auto. lra.
  - rewrite <- inward_is_conic; try apply K; auto; try lra; [apply (vel_eq _ _ _ _ _ _ _ _ _ _ _ th K E); auto|].
    assert (0 <= sin (- th)) by (apply sin_ge_0; lra). rewrite sin_neg in H. lra.
Qed.

Lemma vdiff_none_r : forall x, vdiff x None = None.
Proof. intros [x|]; reflexivity. Qed.

(** C28 *)
(** The probe's departure velocity is that of its own approach; it reaches the probe's periapsis after
    the reported time.  The orbiter's departure velocity carries it, at the same energy, from the same
    point to its periapsis vector in the reported time, and the delta-V is the difference. *)
Theorem C28_probe_orbiter : forall name p v rp_p psi_p hEI rp_s psi_s k D,
  ProbeOrbiterDeflection name v rp_p psi_p hEI rp_s psi_s k = Ok D -> Planet name = Ok p -> v <> vzero ->
  0 < rp_p -> 0 < rp_s -> rp_p < k * RP p -> inclined (po_probe D) ->
  let V := norm v * 1000 in let a := GM p / (V * V) in
  exists th r v1 T1 P1 P2, rp_vec (po_probe D) = Some P1 /\ norm P1 = rp_p /\ rp_vec (po_space D) = Some P2 /\ norm P2 = rp_s /\
    po_theta D = Some th /\ th < 0 /\ po_r_vec D = Some r /\ norm r = k * RP p /\
    pos_vec_bi (po_probe D) th = Some r /\ vel_vec_bi (po_probe D) th = Some v1 /\ po_v_probe D = Some v1 /\
    energy (GM p) r v1 = V * V / 2 /\ po_TOF_probe D = Some T1 /\ 0 < T1 /\ coasts_to (GM p) a r v1 P1 (T1 * 86400) /\
    (cross r P2 = vzero -> po_v_space D = None /\ po_dv_mag D = None) /\
    (cross r P2 <> vzero -> exists v2 T2, po_v_space D = Some v2 /\ energy (GM p) r v2 = V * V / 2 /\
       po_TOF_space D = Some T2 /\ 0 < T2 /\ coasts_to (GM p) a r v2 P2 (T2 * 86400) /\
       po_dv D = Some (vsub v2 v1) /\ po_dv_mag D = Some (norm (vsub v2 v1))).
Proof.
  intros name p v rp_p psi_p hEI rp_s psi_s k D HD Hp Hv Hrp Hrs Hlt Hi V0 a0.
  unfold ProbeOrbiterDeflection in HD. rewrite Hp in HD. cbn [rbind] in HD.
  unfold Approach in HD. rewrite Hp in HD. cbn [rbind fst] in HD.
  destruct (leg_setup name p v rp_p psi_p Hp Hv Hrp) as (V & a & e & b & h & P & W & K & HV & EP & Er & Ha & Hmu & Hn1 & Hv1).
  destruct (leg_setup name p v rp_s psi_s Hp Hv Hrs) as (V' & a' & e' & b' & h' & P' & W' & K' & HV' & EP' & Er' & Ha' & _ & Hn2 & Hv2).
  set (A := Approach_core p v rp_p psi_p) in *. set (B := Approach_core p v rp_s psi_s) in *.
  set (rho := k * RP p) in *. set (mu := GM p) in *.
  injection HD as HD. subst D. cbn [po_probe po_space po_theta po_r_vec po_v_probe po_TOF_probe po_v_space po_dv_mag po_TOF_space po_dv] in *.
  destruct (dv_anomaly A V a e b h P W rho K ltac:(rewrite EP; auto) ltac:(lra) ltac:(lra)) as (_ & Dv).
  destruct Dv as (th & D1 & D2 & _ & D4 & D5 & D6 & _); [lra|]. rewrite Er in D6. specialize (D6 Hlt). rewrite EP in D1, D5. fold mu in D1, D5.
  destruct (maneuver_point p v rp_p psi_p V a e b h P W rho th K Hi Hmu Hrp Hlt D1) as (M1 & M2). fold A mu in M1, M2.
  pose proof (probe_leg A V a e b h P W W rho th K) as PL. cbv zeta in PL. rewrite EP, Er in PL. fold mu in PL.
  destruct (PL Hmu Hrp Hlt (hy_W1 _ _ _ _ _ _ _ _ K) (hy_WP _ _ _ _ _ _ _ _ K) D1) as (T & H & B1 & B2 & B3 & B4 & B5 & B6 & B7 & B8). clear PL.
  set (r := conic_pos mu h e P W th) in *. set (v1 := conic_vel mu h e P W th) in *.
  assert (HT : 0 < T).
  { pose proof (ekepler_mono e 0 H (hy_e1 _ _ _ _ _ _ _ _ K) B4) as Q. rewrite sinh_0 in Q.
    assert (0 < sqrt (Rabs a ^ 3 / mu)). { apply sqrt_lt_R0. apply Rdiv_lt_0_compat; auto. apply pow_lt. rewrite Ha. pose proof (hy_Vpos _ _ _ _ _ _ _ _ K). pos. }
    nra. }
  assert (Hr0 : r <> vzero). { intros Z. rewrite Z in B1. unfold norm in B1. replace (norm2 vzero) with 0 in B1 by (vsimpl; ring). rewrite sqrt_0 in B1. lra. }
  assert (EV : V = V0) by (unfold V0; auto). assert (EV' : V' = V0) by (unfold V0; auto).
  assert (Eaa : Rabs a = a0) by (rewrite Ha, EV; reflexivity). assert (Eaa' : Rabs a' = a0) by (rewrite Ha', EV'; reflexivity).
  assert (Hx : forall u, cross r (vscale rp_s u) = vzero <-> cross r u = vzero).
  { intros u. replace (cross r (vscale rp_s u)) with (vscale rp_s (cross r u)) by (apply vec_eq; vsimpl; ring).
    split; [intros Z|intros Z; rewrite Z; apply vec_eq; vsimpl; ring].
    destruct (cross r u) as [x y z]. inversion Z. apply vec_eq; cbn; nra. }
  exists th, r, v1, T, (vscale rp_p P), (vscale rp_s P').
  split; [exact Hv1|]. split; [exact Hn1|]. split; [exact Hv2|]. split; [exact Hn2|].
  rewrite D1. cbn [obind]. rewrite M1. cbn [obind].
  split; [reflexivity|]. split; [exact D6|]. split; [reflexivity|]. split; [exact B1|]. split; [reflexivity|]. split; [exact M2|].
  split; [exact B2|]. split; [rewrite B7, EV; auto|]. split; [exact B3|]. split; [exact HT|]. split; [rewrite <- Eaa; exact B8|].
  pose proof (lambert_leg B V' a' e' b' h' P' W' r K') as LL. cbv zeta in LL. rewrite EP', Er', B1 in LL. fold mu in LL.
  destruct (LL Hmu Hrs Hr0) as (d & L1 & L2 & L3). clear LL. rewrite L1. cbn [obind].
  split.
  - intros Hc. apply (proj1 (Hx P')) in Hc. specialize (L2 Hc).
    destruct (lambert_of B rho d) as [l|] eqn:EL; cbn [obind] in L2 |- *; [rewrite L2|]; auto.
  - intros Hc. destruct L3 as (L & v2 & T2 & N1 & N2 & N3 & N4 & N5 & N6 & _); [intros Z; apply Hc; apply (proj2 (Hx P')); auto|].
    exists v2, T2. rewrite N1. cbn [obind]. rewrite N2, B2. cbn [obind vdiff onorm].
    split; [reflexivity|]. split; [rewrite N5, EV'; auto|]. split; [exact N3|]. split; [exact N4|]. split; [rewrite <- Eaa'; exact N6|]. auto.
Qed.

(** Inside (or at) the probe's periapsis there is no maneuver: every result is NaN. *)
Theorem C28_inside_periapsis_undefined : forall name p v rp_p psi_p hEI rp_s psi_s k D,
  ProbeOrbiterDeflection name v rp_p psi_p hEI rp_s psi_s k = Ok D -> Planet name = Ok p -> v <> vzero ->
  0 < rp_p -> 0 < k * RP p ->
  (k * RP p < rp_p -> po_theta D = None /\ po_r_vec D = None /\ po_v_space D = None /\ po_TOF_probe D = None) /\
  (k * RP p <= rp_p -> po_v_probe D = None /\ po_dv_mag D = None).
Proof.
  intros name p v rp_p psi_p hEI rp_s psi_s k D HD Hp Hv Hrp Hk.
  unfold ProbeOrbiterDeflection in HD. rewrite Hp in HD. cbn [rbind] in HD.
  unfold Approach in HD. rewrite Hp in HD. cbn [rbind fst] in HD.
  destruct (leg_setup name p v rp_p psi_p Hp Hv Hrp) as (V & a & e & b & h & P & W & K & HV & EP & Er & Ha & Hmu & Hn1 & Hv1).
  set (A := Approach_core p v rp_p psi_p) in *. set (B := Approach_core p v rp_s psi_s) in *.
  set (rho := k * RP p) in *. set (mu := GM p) in *.
  injection HD as HD. subst D. cbn [po_probe po_space po_theta po_r_vec po_v_probe po_TOF_probe po_v_space po_dv_mag po_TOF_space po_dv] in *.
  destruct (dv_anomaly A V a e b h P W rho K ltac:(rewrite EP; auto) ltac:(lra) ltac:(lra)) as (Dn & Dv).
  rewrite EP, Er in Dn, Dv. fold mu in Dn, Dv.
  assert (HN : rho < rp_p -> theta_star_dv A mu rho = None) by auto.
  split.
  - intros Hlt. rewrite (HN Hlt). auto.
  - intros [Hlt|Heq].
    + rewrite (HN Hlt). cbn [obind]. auto.
    + destruct Dv as (th & D1 & _ & _ & _ & _ & _ & D7); [lra|]. rewrite D1. specialize (D7 (eq_sym Heq)). subst th. cbn [obind].
      rewrite Rabs_R0.
      assert (HNone : forall r q, arc_velocity A mu rho r q 0 = None).
      { intros r q. unfold arc_velocity, lagrange_f, lagrange_g, lagrange_v.
        destruct (np_div (ap_rp A) q); [|reflexivity]. cbn [obind]. destruct (np_sqrt (mu * q)) as [s|]; [|reflexivity]. cbn [obind].
        destruct (np_div (rho * ap_rp A) s) as [w|]; [|reflexivity]. cbn [obind]. destruct (rp_vec A); [|reflexivity]. cbn [obind].
        rewrite sin_0, Rmult_0_r, np_div_zero. reflexivity. }
      assert (HV1 : (leto r := pos_vec_bi A 0 in leto q := P_conic A in arc_velocity A mu rho r q 0) = None).
      { destruct (pos_vec_bi A 0); [|reflexivity]. cbn [obind]. destruct (P_conic A); [|reflexivity]. cbn [obind]. auto. }
      rewrite HV1. split; [reflexivity|]. rewrite vdiff_none_r. reflexivity.
Qed.

(** Two orbiters: the first departure velocity is that of the first approach; both legs reach their
    periapsis vectors in the reported times. *)
Theorem C28_orbiter_orbiter : forall name p v rp1 psi1 rp2 psi2 k D,
  OrbiterOrbiterDeflection name v rp1 psi1 rp2 psi2 k = Ok D -> Planet name = Ok p -> v <> vzero ->
  0 < rp1 -> 0 < rp2 -> rp1 < k * RP p -> inclined (oo_space1 D) ->
  let V := norm v * 1000 in let a := GM p / (V * V) in
  exists th r v1 T1 P1 P2, rp_vec (oo_space1 D) = Some P1 /\ norm P1 = rp1 /\ rp_vec (oo_space2 D) = Some P2 /\ norm P2 = rp2 /\
    oo_theta D = Some th /\ oo_r_vec D = Some r /\ norm r = k * RP p /\
    pos_vec_bi (oo_space1 D) th = Some r /\ vel_vec_bi (oo_space1 D) th = Some v1 /\ oo_v1 D = Some v1 /\
    oo_TOF1 D = Some T1 /\ 0 < T1 /\ coasts_to (GM p) a r v1 P1 (T1 * 86400) /\
    (cross r P2 = vzero -> oo_v2 D = None /\ oo_dv_mag D = None) /\
    (cross r P2 <> vzero -> exists v2 T2, oo_v2 D = Some v2 /\ energy (GM p) r v2 = V * V / 2 /\
       oo_TOF2 D = Some T2 /\ 0 < T2 /\ coasts_to (GM p) a r v2 P2 (T2 * 86400) /\
       oo_dv D = Some (vsub v2 v1) /\ oo_dv_mag D = Some (norm (vsub v2 v1))).
Proof.
  intros name p v rp1 psi1 rp2 psi2 k D HD Hp Hv Hrp Hrs Hlt Hi V0 a0.
  unfold OrbiterOrbiterDeflection in HD. rewrite Hp in HD. cbn [rbind] in HD.
  unfold Approach in HD. rewrite Hp in HD. cbn [rbind fst] in HD.
  destruct (leg_setup name p v rp1 psi1 Hp Hv Hrp) as (V & a & e & b & h & P & W & K & HV & EP & Er & Ha & Hmu & Hn1 & Hv1).
  destruct (leg_setup name p v rp2 psi2 Hp Hv Hrs) as (V' & a' & e' & b' & h' & P' & W' & K' & HV' & EP' & Er' & Ha' & _ & Hn2 & Hv2).
  set (A := Approach_core p v rp1 psi1) in *. set (B := Approach_core p v rp2 psi2) in *.
  set (rho := k * RP p) in *. set (mu := GM p) in *.
  injection HD as HD. subst D. cbn [oo_space1 oo_space2 oo_theta oo_r_vec oo_v1 oo_TOF1 oo_v2 oo_dv_mag oo_TOF2 oo_dv] in *.
  destruct (dv_anomaly A V a e b h P W rho K ltac:(rewrite EP; auto) ltac:(lra) ltac:(lra)) as (_ & Dv).
  destruct Dv as (th & D1 & D2 & _ & D4 & D5 & D6 & _); [lra|]. rewrite Er in D6. specialize (D6 Hlt). rewrite EP in D1, D5. fold mu in D1, D5.
  destruct (maneuver_point p v rp1 psi1 V a e b h P W rho th K Hi Hmu Hrp Hlt D1) as (M1 & M2). fold A mu in M1, M2.
  pose proof (own_lambert A V a e b h P W rho th K) as OL. cbv zeta in OL. rewrite EP, Er in OL. fold mu in OL.
  destruct (OL Hmu Hrp Hlt D1) as (L & T & O1 & O2 & O3 & O4 & O5 & O6). clear OL.
  assert (B1 : norm (conic_pos mu h e P W th) = rho).
  { destruct (conic_state mu h e P W th Hmu (hy_hpos _ _ _ _ _ _ _ _ K) (hy_P1 _ _ _ _ _ _ _ _ K) (hy_W1 _ _ _ _ _ _ _ _ K) (hy_WP _ _ _ _ _ _ _ _ K) D4) as (S1 & _). rewrite S1; auto. }
  set (r := conic_pos mu h e P W th) in *. set (v1 := conic_vel mu h e P W th) in *.
  assert (Hr0 : r <> vzero). { intros Z. rewrite Z in B1. unfold norm in B1. replace (norm2 vzero) with 0 in B1 by (vsimpl; ring). rewrite sqrt_0 in B1. lra. }
  assert (EV : V = V0) by (unfold V0; auto). assert (EV' : V' = V0) by (unfold V0; auto).
  assert (Eaa : Rabs a = a0) by (rewrite Ha, EV; reflexivity). assert (Eaa' : Rabs a' = a0) by (rewrite Ha', EV'; reflexivity).
  assert (Hx : forall u, cross r (vscale rp2 u) = vzero <-> cross r u = vzero).
  { intros u. replace (cross r (vscale rp2 u)) with (vscale rp2 (cross r u)) by (apply vec_eq; vsimpl; ring).
    split; [intros Z|intros Z; rewrite Z; apply vec_eq; vsimpl; ring].
    destruct (cross r u) as [x y z]. inversion Z. apply vec_eq; cbn; nra. }
  exists th, r, v1, T, (vscale rp1 P), (vscale rp2 P').
  split; [exact Hv1|]. split; [exact Hn1|]. split; [exact Hv2|]. split; [exact Hn2|].
  rewrite D1. cbn [obind]. rewrite M1. cbn [obind]. rewrite O1. cbn [obind]. rewrite O2. cbn [obind].
  split; [reflexivity|]. split; [reflexivity|]. split; [exact B1|]. split; [reflexivity|]. split; [exact M2|].
  split; [exact O3|]. split; [exact O4|]. split; [exact O5|]. split; [rewrite <- Eaa; exact O6|].
  pose proof (lambert_leg B V' a' e' b' h' P' W' r K') as LL. cbv zeta in LL. rewrite EP', Er', B1 in LL. fold mu in LL.
  destruct (LL Hmu Hrs Hr0) as (d & L1 & L2 & L3). clear LL. rewrite L1. cbn [obind].
  split.
  - intros Hc. apply (proj1 (Hx P')) in Hc. specialize (L2 Hc).
    destruct (lambert_of B rho d) as [l|] eqn:EL; cbn [obind] in L2 |- *; [rewrite L2|]; auto.
  - intros Hc. destruct L3 as (L' & v2 & T2 & N1 & N2 & N3 & N4 & N5 & N6 & _); [intros Z; apply Hc; apply (proj2 (Hx P')); auto|].
    exists v2, T2. rewrite N1. cbn [obind]. rewrite N2, O3. cbn [obind vdiff onorm].
    split; [reflexivity|]. split; [rewrite N5, EV'; auto|]. split; [exact N3|]. split; [exact N4|]. split; [rewrite <- Eaa'; exact N6|]. auto.
Qed.

(** C29 *)
(** Probe time of flight: defined beyond periapsis, positive, and larger for a farther maneuver. *)
Theorem C29_probe_time_of_flight : forall name p v rp_p psi_p hEI rp_s psi_s k1 k2 D1 D2,
  ProbeOrbiterDeflection name v rp_p psi_p hEI rp_s psi_s k1 = Ok D1 ->
  ProbeOrbiterDeflection name v rp_p psi_p hEI rp_s psi_s k2 = Ok D2 -> Planet name = Ok p -> v <> vzero ->
  0 < rp_p -> rp_p < k1 * RP p -> k1 < k2 ->
  exists T1 T2, po_TOF_probe D1 = Some T1 /\ po_TOF_probe D2 = Some T2 /\ 0 < T1 < T2.
Proof.
  intros name p v rp_p psi_p hEI rp_s psi_s k1 k2 D1 D2 HD1 HD2 Hp Hv Hrp Hlt1 Hk.
  destruct (Planet_facts _ _ Hp) as (HRP & _).
  assert (Hlt2 : k1 * RP p < k2 * RP p) by nra.
  unfold ProbeOrbiterDeflection in HD1, HD2. rewrite Hp in HD1, HD2. cbn [rbind] in HD1, HD2.
  unfold Approach in HD1, HD2. rewrite Hp in HD1, HD2. cbn [rbind fst] in HD1, HD2.
  destruct (leg_setup name p v rp_p psi_p Hp Hv Hrp) as (V & a & e & b & h & P & W & K & HV & EP & Er & Ha & Hmu & Hn1 & Hv1).
  set (A := Approach_core p v rp_p psi_p) in *. set (rho1 := k1 * RP p) in *. set (rho2 := k2 * RP p) in *.
  set (mu := GM p) in *.
  injection HD1 as HD1. injection HD2 as HD2. subst D1 D2. cbn [po_TOF_probe].
  assert (HA : 0 < Rabs a). { rewrite Ha. pose proof (hy_Vpos _ _ _ _ _ _ _ _ K). pos. }
  assert (Leg : forall rho, rp_p < rho -> exists T H, (leto d := (leto t := theta_star_dv A mu rho in Some (Rabs t)) in TOF_conic A mu d) = Some T /\
     0 < H /\ e * cosh H = 1 + rho / Rabs a /\ T * 86400 = sqrt (Rabs a ^ 3 / mu) * (e * sinh H - H)).
  { intros rho Hl.
    destruct (dv_anomaly A V a e b h P W rho K ltac:(rewrite EP; auto) ltac:(lra) ltac:(lra)) as (_ & Dv).
    destruct Dv as (th & E1 & _); [lra|]. rewrite EP in E1. fold mu in E1.
    pose proof (probe_leg A V a e b h P W W rho th K) as PL. cbv zeta in PL. rewrite EP, Er in PL. fold mu in PL.
    destruct (PL Hmu Hrp Hl (hy_W1 _ _ _ _ _ _ _ _ K) (hy_WP _ _ _ _ _ _ _ _ K) E1) as (T & H & _ & _ & B3 & B4 & B5 & B6 & _).
    exists T, H. rewrite E1. cbn [obind]. auto. }
  destruct (Leg rho1 Hlt1) as (T1 & H1 & F1 & F2 & F3 & F4).
  destruct (Leg rho2 ltac:(lra)) as (T2 & H2 & G1 & G2 & G3 & G4).
  exists T1, T2. split; [exact F1|]. split; [exact G1|].
  pose proof (hy_e1 _ _ _ _ _ _ _ _ K) as He.
  assert (Hsq : 0 < sqrt (Rabs a ^ 3 / mu)) by (apply sqrt_lt_R0, Rdiv_lt_0_compat; auto; apply pow_lt; auto).
  assert (Hq : rho1 / Rabs a < rho2 / Rabs a) by (apply Rmult_lt_compat_r; auto; apply Rinv_0_lt_compat; auto).
  assert (Hc : cosh H1 < cosh H2) by nra.
  assert (HH : H1 < H2).
  { destruct (Rlt_le_dec H1 H2) as [|Z]; auto. exfalso. pose proof (cosh_sq H1). pose proof (cosh_sq H2).
    pose proof (sinh_nonneg H2 ltac:(lra)). assert (sinh H2 <= sinh H1) by (destruct Z as [Z|Z]; [left; apply sinh_lt; auto|rewrite Z; lra]).
    pose proof (cosh_pos H1). nra. }
  pose proof (ekepler_mono e 0 H1 He F2) as Q1. rewrite sinh_0 in Q1. pose proof (ekepler_mono e H1 H2 He HH) as Q2.
  split; nra.
Qed.

(** C30 *)
Lemma hyp_momentum : forall mu a e P W H, 0 < mu -> 0 < a -> 1 < e -> norm2 P = 1 -> norm2 W = 1 -> dot W P = 0 ->
  let r := hyp_pos a e P W H in let v := hyp_vel mu a e P W H in
  ang_mom r v = vscale (sqrt (mu * a) * sqrt (e * e - 1)) W /\ ecc_vector mu r v = vscale e P.
Proof.
  intros mu a e P W H Hmu Ha He HP HW HWP r v.
  pose proof (ecosh_pos e H He) as HD. set (D := e * cosh H - 1) in *.
  assert (Hr : norm r = a * D) by (apply hyp_radius; auto).
  destruct (frame_facts P W HP HW HWP) as (F1 & F2 & F3 & F4 & F5).
  set (Q := cross W P) in *. set (m := sqrt (mu * a)). set (b := sqrt (e * e - 1)).
  assert (Hm : 0 < m) by (apply sqrt_lt_R0; nra). assert (Hb : 0 < b) by (apply sqrt_lt_R0; nra).
  assert (Hmm : m * m = mu * a) by (apply sqrt_sqrt; nra). assert (Hbb : b * b = e * e - 1) by (apply sqrt_sqrt; nra).
  assert (HL : ang_mom r v = vscale (m * b) W).
  { unfold ang_mom, r, v, hyp_pos, hyp_vel. fold Q m b. fold D.
    assert (G : forall k1 k2 x1 y1 x2 y2, cross (vscale k1 (vadd (vscale x1 P) (vscale y1 Q))) (vscale k2 (vadd (vscale x2 P) (vscale y2 Q)))
      = vscale (k1 * k2 * (x1 * y2 - y1 * x2)) (cross P Q)) by (intros; generalize Q; intros; apply vec_eq; vsimpl; ring).
    rewrite G, F4. f_equal. pose proof (cosh_sq H) as CS.
    transitivity (m * b / D * (e * cosh H - (cosh H * cosh H - sinh H * sinh H))); [field; lra|].
    replace (cosh H * cosh H - sinh H * sinh H) with 1 by lra. fold D. field. lra. }
  split; [exact HL|]. unfold ecc_vector. change (cross r v) with (ang_mom r v). rewrite HL, Hr. unfold r, v, hyp_pos, hyp_vel. fold Q m b. fold D.
  assert (G : forall k x y, cross (vscale k (vadd (vscale x P) (vscale y Q))) (vscale (m * b) W) = vscale (k * (m * b)) (vadd (vscale (- x) Q) (vscale y P))).
  { intros. replace (cross P W) with (vscale (-1) Q) by (unfold Q; apply vec_eq; vsimpl; ring) || idtac.
    transitivity (vscale (k * (m * b)) (vadd (vscale (- x) (cross W P)) (vscale y (cross Q W)))); [unfold Q; apply vec_eq; vsimpl; ring|].
    rewrite F5. reflexivity. }
  rewrite G.
  assert (C1 : 1 / mu * (m / (a * D) * (m * b)) = b / D).
  { transitivity (m * m * b / (mu * a * D)); [field; lra|]. rewrite Hmm. field. lra. }
  assert (HD' : e * cosh H = 1 + D) by (unfold D; ring).
  assert (C2 : b / D * (b * cosh H) - 1 / (a * D) * a * (e - cosh H) = e).
  { transitivity ((b * b * cosh H - e + cosh H) / D); [field; lra|]. rewrite Hbb. transitivity (e * (e * cosh H - 1) / D); [field; lra|]. fold D. field. lra. }
  generalize Q. intros [q1 q2 q3]. destruct P as [p1 p2 p3]. clear -C1 C2 Ha HD Hmu. apply vec_eq; vsimpl;
   [transitivity ((1 / mu * (m / (a * D) * (m * b)) * (b * cosh H) - 1 / (a * D) * a * (e - cosh H)) * p1 + (1 / mu * (m / (a * D) * (m * b)) * sinh H - b / D * sinh H) * q1)
   |transitivity ((1 / mu * (m / (a * D) * (m * b)) * (b * cosh H) - 1 / (a * D) * a * (e - cosh H)) * p2 + (1 / mu * (m / (a * D) * (m * b)) * sinh H - b / D * sinh H) * q2)
   |transitivity ((1 / mu * (m / (a * D) * (m * b)) * (b * cosh H) - 1 / (a * D) * a * (e - cosh H)) * p3 + (1 / mu * (m / (a * D) * (m * b)) * sinh H - b / D * sinh H) * q3)];
   first [field; repeat split; lra | rewrite C1, C2; ring].
Qed.

(** A body that coasts through R2 satisfies the orbit equation there. *)
Lemma coasts_orbit_equation : forall mu a r v R2 T, 0 < mu -> 0 < a -> coasts_to mu a r v R2 T ->
  ang_mom r v <> vzero /\ norm R2 + dot R2 (ecc_vector mu r v) = norm2 (ang_mom r v) / mu.
Proof.
  intros mu a r v R2 T Hmu Ha (e & P & W & H1 & H2 & He & HP & HW & HWP & E1 & E2 & E3 & _).
  destruct (hyp_momentum mu a e P W H1 Hmu Ha He HP HW HWP) as (L & X). rewrite <- E1, <- E2 in L, X.
  set (m := sqrt (mu * a)) in *. set (b := sqrt (e * e - 1)) in *.
  assert (Hm : 0 < m) by (apply sqrt_lt_R0; nra). assert (Hb : 0 < b) by (apply sqrt_lt_R0; nra).
  assert (Hmm : m * m = mu * a) by (apply sqrt_sqrt; nra). assert (Hbb : b * b = e * e - 1) by (apply sqrt_sqrt; nra).
  assert (HN : norm2 (ang_mom r v) = mu * a * (e * e - 1)).
  { rewrite L, norm2_vscale, HW. transitivity (m * m * (b * b)); [ring|]. rewrite Hmm, Hbb. ring. }
  split.
  - intros Z. rewrite Z in HN. replace (norm2 vzero) with 0 in HN by (vsimpl; ring).
    assert (0 < mu * a * (e * e - 1)) by (apply Rmult_lt_0_compat; nra). lra.
  - rewrite HN, X. assert (Hn : norm R2 = a * (e * cosh H2 - 1)) by (rewrite E3; apply hyp_radius; auto). rewrite Hn, dot_vscale_r.
    assert (Hd : dot R2 P = a * (e - cosh H2)).
    { rewrite E3. unfold hyp_pos. fold b. destruct (frame_facts P W HP HW HWP) as (F1 & F2 & _). rewrite dot_vscale_l. f_equal.
      transitivity ((e - cosh H2) * norm2 P + b * sinh H2 * dot (cross W P) P); [unfold norm2; generalize (cross W P); intros; vsimpl; ring|]. rewrite HP, F2. ring. }
    rewrite Hd. field. lra.
Qed.

(** A velocity built from Lagrange coefficients for the angle cosine y aims at R2 only if y is the
    actual angle cosine. *)
Lemma lagrange_wrong_angle : forall mu p r1 r2 x y s R1 R2, 0 < mu -> 0 < p -> 0 < r1 -> 0 < r2 -> 0 < s -> s * s = 1 - y * y ->
  norm R1 = r1 -> norm R2 = r2 -> dot R1 R2 = r1 * r2 * x ->
  let f := 1 - r2 / p * (1 - y) in let g := r1 * r2 / sqrt (mu * p) * s in let v := vscale (1 / g) (vsub R2 (vscale f R1)) in
  ang_mom R1 v <> vzero -> norm R2 + dot R2 (ecc_vector mu R1 v) = norm2 (ang_mom R1 v) / mu -> x = y.
Proof.
  intros mu p r1 r2 x y s R1 R2 Hmu Hp H1 H2 Hs Hss N1 N2 Hdot f g v HL HO.
  assert (Hsq : 0 < sqrt (mu * p)) by (apply sqrt_lt_R0; nra).
  assert (Hsqq : sqrt (mu * p) * sqrt (mu * p) = mu * p) by (apply sqrt_sqrt; nra).
  assert (Hg : 0 < g) by (unfold g; apply Rmult_lt_0_compat; auto; apply Rdiv_lt_0_compat; nra).
  assert (Hgg : g * g * (mu * p) = r1 * r1 * (r2 * r2) * (s * s)).
  { unfold g. clear -Hsq Hsqq. revert Hsq Hsqq. generalize (sqrt (mu * p)). intros q Hq Hqq. rewrite <- Hqq. field. lra. }
  assert (Hr1 : norm2 R1 = r1 * r1) by (rewrite <- norm_sq, N1; auto). assert (Hr2 : norm2 R2 = r2 * r2) by (rewrite <- norm_sq, N2; auto).
  assert (HLv : ang_mom R1 v = vscale (1 / g) (cross R1 R2)) by (unfold ang_mom, v; apply vec_eq; vsimpl; ring).
  set (kap := (1 - x * x) / (s * s)).
  assert (Hig : 1 / g * (1 / g) * (r1 * r1 * (r2 * r2)) = mu * p / (s * s)).
  { apply Rmult_eq_reg_r with (g * g * (s * s)); [|apply Rgt_not_eq; unfold Rgt; mpos]. transitivity (r1 * r1 * (r2 * r2) * (s * s)); [field; lra|]. rewrite <- Hgg. field. lra. }
  assert (HN : norm2 (ang_mom R1 v) = mu * p * kap).
  { rewrite HLv, norm2_vscale, cross_norm2, Hr1, Hr2, Hdot. unfold kap.
    transitivity (1 / g * (1 / g) * (r1 * r1 * (r2 * r2)) * (1 - x * x)); [ring|]. rewrite Hig. field. lra. }
  assert (Hv1 : dot R1 v = (r1 * r2 * x - f * (r1 * r1)) / g).
  { unfold v. rewrite dot_vscale_r. replace (dot R1 (vsub R2 (vscale f R1))) with (dot R1 R2 - f * norm2 R1) by (vsimpl; ring). rewrite Hdot, Hr1. field; lra. }
  assert (Hv2 : dot R2 v = (r2 * r2 - f * (r1 * r2 * x)) / g).
  { unfold v. rewrite dot_vscale_r. replace (dot R2 (vsub R2 (vscale f R1))) with (norm2 R2 - f * dot R1 R2) by (vsimpl; ring). rewrite Hdot, Hr2. field; lra. }
  assert (HE : dot R2 (ecc_vector mu R1 v) = f * p * kap - r2 * x).
  { unfold ecc_vector. rewrite N1. change (cross R1 v) with (ang_mom R1 v). rewrite HLv.
    replace (dot R2 (vsub (vscale (1 / mu) (cross v (vscale (1 / g) (cross R1 R2)))) (vscale (1 / r1) R1)))
      with (1 / mu * (1 / g) * (dot R1 R2 * dot R2 v - norm2 R2 * dot R1 v) - 1 / r1 * dot R1 R2) by (generalize v; intros w; vsimpl; ring).
    rewrite Hdot, Hr2, Hv1, Hv2. unfold kap.
    transitivity (f / mu * (1 / g * (1 / g) * (r1 * r1 * (r2 * r2))) * (1 - x * x) - r2 * x); [field; lra|]. rewrite Hig. field. lra. }
  rewrite HE, HN, N2 in HO.
  assert (Hk : kap <> 0).
  { intros Z. apply HL. apply norm2_zero. rewrite HN, Z. ring. }
  assert (E1 : r2 * (1 - x) = r2 * ((1 - y) * kap)).
  { assert (p * (1 - f) = r2 * (1 - y)) by (unfold f; field; lra).
    replace (mu * p * kap / mu) with (p * kap) in HO by (field; lra).
    transitivity (p * (1 - f) * kap); [lra|]. rewrite H. ring. }
  apply Rmult_eq_reg_l in E1; [|lra]. unfold kap in E1, Hk. rewrite Hss in E1, Hk.
  assert (Hy : 0 < 1 - y * y) by nra. assert (Hx : 1 - x <> 0).
  { intros Z. apply Hk. replace x with 1 by lra. field. lra. }
  assert (E2 : (1 - x) * (1 + y) = (1 - x) * (1 + x)).
  { assert (1 - y <> 0) by (intros Z; replace y with 1 in Hy by lra; lra). apply Rmult_eq_reg_l with (1 - y); auto.
    transitivity ((1 - y) * ((1 - x * x) / (1 - y * y)) * (1 - y * y)); [rewrite <- E1; ring|field; lra]. }
  apply Rmult_eq_reg_l in E2; auto. lra.
Qed.

(** The first probe's leg is right.  The second probe's departure velocity leads to its own periapsis
    vector, on any hyperbola and at any time, exactly when the angle from the maneuver point to that
    periapsis equals the second probe's own true-anomaly change; then the reported time is right too. *)
Theorem C30_second_probe_angle : forall name p v rp1 psi1 h1 rp2 psi2 h2 k D,
  ProbeProbeDeflection name v rp1 psi1 h1 rp2 psi2 h2 k = Ok D -> Planet name = Ok p -> v <> vzero ->
  0 < rp1 -> 0 < rp2 -> rp1 < k * RP p -> rp2 < k * RP p -> inclined (pp_probe1 D) ->
  let V := norm v * 1000 in let a := GM p / (V * V) in
  exists th2 r v1 v2 T1 T2 P1 P2, rp_vec (pp_probe1 D) = Some P1 /\ norm P1 = rp1 /\ rp_vec (pp_probe2 D) = Some P2 /\ norm P2 = rp2 /\
    pp_theta2 D = Some th2 /\ pp_r_vec D = Some r /\ norm r = k * RP p /\ pp_v1 D = Some v1 /\ pp_v2 D = Some v2 /\
    pp_TOF1 D = Some T1 /\ pp_TOF2 D = Some T2 /\ 0 < T1 /\ 0 < T2 /\
    coasts_to (GM p) a r v1 P1 (T1 * 86400) /\
    pp_dv D = Some (vsub v2 v1) /\ pp_dv_mag D = Some (norm (vsub v2 v1)) /\
    ((exists a' T, 0 < a' /\ coasts_to (GM p) a' r v2 P2 T) <-> dot r P2 = norm r * norm P2 * cos th2) /\
    (dot r P2 = norm r * norm P2 * cos th2 -> coasts_to (GM p) a r v2 P2 (T2 * 86400)).
Proof.
  intros name p v rp1 psi1 h1 rp2 psi2 h2 k D HD Hp Hv Hrp Hrs Hlt Hlt2 Hi V0 a0.
  unfold ProbeProbeDeflection in HD. rewrite Hp in HD. cbn [rbind] in HD.
  unfold Approach in HD. rewrite Hp in HD. cbn [rbind fst] in HD.
  destruct (leg_setup name p v rp1 psi1 Hp Hv Hrp) as (V & a & e & b & h & P & W & K & HV & EP & Er & Ha & Hmu & Hn1 & Hv1).
  destruct (leg_setup name p v rp2 psi2 Hp Hv Hrs) as (V' & a' & e' & b' & h' & P' & W' & K' & HV' & EP' & Er' & Ha' & _ & Hn2 & Hv2).
  set (A := Approach_core p v rp1 psi1) in *. set (B := Approach_core p v rp2 psi2) in *.
  set (rho := k * RP p) in *. set (mu := GM p) in *.
  injection HD as HD. subst D. cbn [pp_probe1 pp_probe2 pp_theta1 pp_theta2 pp_r_vec pp_v1 pp_v2 pp_TOF1 pp_TOF2 pp_dv pp_dv_mag] in *.
  destruct (dv_anomaly A V a e b h P W rho K ltac:(rewrite EP; auto) ltac:(lra) ltac:(lra)) as (_ & Dv).
  destruct Dv as (th & D1 & D2 & _ & D4 & D5 & D6 & _); [lra|]. rewrite EP in D1, D5. fold mu in D1, D5.
  destruct (dv_anomaly B V' a' e' b' h' P' W' rho K' ltac:(rewrite EP'; auto) ltac:(lra) ltac:(lra)) as (_ & Dv).
  destruct Dv as (th2 & G1 & G2 & _ & G4 & G5 & G6 & _); [lra|]. rewrite EP' in G1, G5. fold mu in G1, G5. rewrite Er' in G6. specialize (G6 Hlt2).
  destruct (maneuver_point p v rp1 psi1 V a e b h P W rho th K Hi Hmu Hrp Hlt D1) as (M1 & M2). fold A mu in M1, M2.
  pose proof (probe_leg A V a e b h P W W rho th K) as PL. cbv zeta in PL. rewrite EP, Er in PL. fold mu in PL.
  destruct (PL Hmu Hrp Hlt (hy_W1 _ _ _ _ _ _ _ _ K) (hy_WP _ _ _ _ _ _ _ _ K) D1) as (T & H & B1 & B2 & B3 & B4 & B5 & B6 & B7 & B8). clear PL.
  pose proof (fun W0 => probe_leg B V' a' e' b' h' P' W' W0 rho th2 K') as PL. cbv zeta in PL. rewrite EP', Er' in PL. fold mu in PL.
  destruct (PL W' Hmu Hrs Hlt2 (hy_W1 _ _ _ _ _ _ _ _ K') (hy_WP _ _ _ _ _ _ _ _ K') G1) as (T2 & H2 & _ & _ & C3 & C4 & C5 & C6 & _).
  set (r := conic_pos mu h e P W th) in *. set (v1 := conic_vel mu h e P W th) in *.
  pose proof (hy_e1 _ _ _ _ _ _ _ _ K) as He. pose proof (hy_e1 _ _ _ _ _ _ _ _ K') as He'.
  assert (Pa : 0 < Rabs a) by (rewrite Ha; pose proof (hy_Vpos _ _ _ _ _ _ _ _ K); pos).
  assert (Pa' : 0 < Rabs a') by (rewrite Ha'; pose proof (hy_Vpos _ _ _ _ _ _ _ _ K'); pos).
  assert (HT : 0 < T).
  { pose proof (ekepler_mono e 0 H He B4) as Q. rewrite sinh_0 in Q.
    assert (0 < sqrt (Rabs a ^ 3 / mu)). { apply sqrt_lt_R0. apply Rdiv_lt_0_compat; auto. apply pow_lt; auto. } nra. }
  assert (HT2 : 0 < T2).
  { pose proof (ekepler_mono e' 0 H2 He' C4) as Q. rewrite sinh_0 in Q.
    assert (0 < sqrt (Rabs a' ^ 3 / mu)). { apply sqrt_lt_R0. apply Rdiv_lt_0_compat; auto. apply pow_lt; auto. } nra. }
  assert (EV : V = V0) by (unfold V0; auto). assert (EV' : V' = V0) by (unfold V0; auto).
  assert (Eaa : Rabs a = a0) by (rewrite Ha, EV; reflexivity). assert (Eaa' : Rabs a' = a0) by (rewrite Ha', EV'; reflexivity).
  (* the second velocity *)
  destruct (hyper_size _ _ _ _ _ _ _ _ K' ltac:(rewrite EP'; auto) ltac:(rewrite Er'; auto)) as (_ & _ & Z3 & Z4 & Z5 & _). rewrite EP' in Z5. rewrite Er' in Z3. fold mu in Z5.
  set (al := Rabs a') in *. set (pp := al * (e' * e' - 1)) in *.
  assert (Hpp : 0 < pp) by (unfold pp; apply Rmult_lt_0_compat; nra).
  assert (Hd : Rabs th2 = - th2) by (apply Rabs_left; auto).
  assert (Hs : 0 < sin (- th2)) by (apply sin_gt_0; lra).
  assert (Hsq : 0 < sqrt (mu * pp)) by (apply sqrt_lt_R0; nra).
  set (R2 := vscale rp2 P') in *.
  set (f := 1 - rp2 / pp * (1 - cos th2)). set (g := rho * rp2 / sqrt (mu * pp) * sin (- th2)).
  set (v2 := vscale (1 / g) (vsub R2 (vscale f r))).
  assert (Hg : 0 < g) by (unfold g; apply Rmult_lt_0_compat; auto; apply Rdiv_lt_0_compat; nra).
  assert (HV2 : (leto P0 := P_conic B in arc_velocity B mu rho r P0 (Rabs th2)) = Some v2).
  { unfold P_conic. rewrite (hy_a _ _ _ _ _ _ _ _ K'), (hy_e _ _ _ _ _ _ _ _ K'). cbn [obind]. rewrite Z4. fold pp.
    unfold arc_velocity, lagrange_f, lagrange_g, lagrange_v. rewrite Er'. rewrite np_div_some by lra. cbn [obind].
    rewrite np_sqrt_some by nra. cbn [obind]. rewrite np_div_some by lra. cbn [obind]. rewrite Hv2. cbn [obind]. rewrite Hd.
    rewrite np_div_some by (fold g; lra). cbn [obind]. rewrite cos_neg. reflexivity. }
  assert (Hss : sin (- th2) * sin (- th2) = 1 - cos th2 * cos th2) by (rewrite sin_neg; generalize (sin2cos2 th2); lra).
  assert (Hr0 : r <> vzero). { intros Z. rewrite Z in B1. unfold norm in B1. replace (norm2 vzero) with 0 in B1 by (vsimpl; ring). rewrite sqrt_0 in B1. lra. }
  assert (Fwd : dot r R2 = norm r * norm R2 * cos th2 -> coasts_to mu al r v2 R2 (T2 * 86400)).
  { intros Hdot. rewrite B1, Hn2 in Hdot. unfold R2 in Hdot. rewrite dot_vscale_r in Hdot.
    assert (HdP : dot r P' = rho * cos th2) by (apply Rmult_eq_reg_l with rp2; lra).
    pose proof (hy_P1 _ _ _ _ _ _ _ _ K') as HP1. 
    set (s2 := sin th2). assert (Hs2 : s2 < 0) by (unfold s2; rewrite sin_neg in Hs; lra).
    assert (Hss2 : s2 * s2 = 1 - cos th2 * cos th2) by (unfold s2; generalize (sin2cos2 th2); lra).
    set (Q := vscale (1 / s2) (vsub (vscale (1 / rho) r) (vscale (cos th2) P'))).
    assert (Hr2 : norm2 r = rho * rho) by (rewrite <- norm_sq, B1; auto).
    assert (HQP : dot Q P' = 0).
    { unfold Q. rewrite dot_vscale_l. replace (dot (vsub (vscale (1 / rho) r) (vscale (cos th2) P')) P') with (1 / rho * dot r P' - cos th2 * norm2 P') by (unfold norm2; generalize r; intros; vsimpl; ring).
      rewrite HdP, HP1. field. lra. }
    assert (HQ1 : norm2 Q = 1).
    { unfold Q. rewrite norm2_vscale. replace (norm2 (vsub (vscale (1 / rho) r) (vscale (cos th2) P'))) with (1 / rho * (1 / rho) * norm2 r - 2 * (1 / rho) * cos th2 * dot r P' + cos th2 * cos th2 * norm2 P') by (generalize r; intros; vsimpl; ring).
      rewrite Hr2, HdP, HP1. transitivity ((1 - cos th2 * cos th2) / (s2 * s2)); [field; lra|]. rewrite <- Hss2. field. lra. }
    set (W0 := cross P' Q).
    assert (HW0 : cross W0 P' = Q).
    { unfold W0. clear -HQP HP1. destruct P' as [p1 p2 p3], Q as [q1 q2 q3]. unfold norm2, dot in *; cbn [vx vy vz] in *. apply vec_eq; vsimpl; nsatz. }
    assert (HW1 : norm2 W0 = 1). { unfold W0. rewrite cross_norm2, HQ1, HP1. replace (dot P' Q) with (dot Q P') by (vsimpl; ring). rewrite HQP. ring. }
    assert (HWP : dot W0 P' = 0) by (unfold W0; vsimpl; ring).
    assert (Hrr : r = conic_pos mu h' e' P' W0 th2).
    { unfold conic_pos, perifocal. rewrite HW0, G5. fold s2. unfold Q. generalize r; intros r'. apply vec_eq; vsimpl; field; lra. }
    destruct (PL W0 Hmu Hrs Hlt2 HW1 HWP G1) as (T2' & H2' & _ & Y2 & Y3 & _ & _ & _ & _ & Y8). fold al in Y8.
    rewrite C3 in Y3. injection Y3 as <-. rewrite <- Hrr in Y2, Y8. rewrite HV2 in Y2. assert (Y2' : v2 = conic_vel mu h' e' P' W0 th2) by congruence. rewrite Y2'. exact Y8. }
  exists th2, r, v1, v2, T, T2, (vscale rp1 P), R2.
  split; [exact Hv1|]. split; [exact Hn1|]. split; [exact Hv2|]. split; [exact Hn2|].
  rewrite D1, G1. cbn [obind]. rewrite M1. cbn [obind]. rewrite HV2, B2, B3, C3.
  split; [reflexivity|]. split; [reflexivity|]. split; [exact B1|]. split; [reflexivity|]. split; [reflexivity|]. split; [reflexivity|]. split; [reflexivity|].
  split; [exact HT|]. split; [exact HT2|]. split; [rewrite <- Eaa; exact B8|]. split; [reflexivity|]. split; [reflexivity|].
  split; [|rewrite <- Eaa'; exact Fwd].
  split.
  - intros (a'' & T'' & Hpos & Hc). destruct (coasts_orbit_equation _ _ _ _ _ _ Hmu Hpos Hc) as (Q1 & Q2).
    set (x := dot r R2 / (rho * rp2)).
    assert (Hx : dot r R2 = rho * rp2 * x) by (unfold x; field; lra).
    assert (x = cos th2).
    { apply (lagrange_wrong_angle mu pp rho rp2 x (cos th2) (sin (- th2)) r R2 Hmu Hpp ltac:(lra) Hrs Hs Hss B1 Hn2 Hx); auto. }
    rewrite Hx, H0, B1, Hn2. reflexivity.
  - intros Hd2. exists al, (T2 * 86400). auto.
Qed.

(** Two probes with the same periapsis radius but different B-plane angles: the computed second
    departure velocity never leads to the second probe's periapsis. *)
Theorem C30_same_radius_refuted : forall name p v rp psi1 h1 psi2 h2 k D,
  ProbeProbeDeflection name v rp psi1 h1 rp psi2 h2 k = Ok D -> Planet name = Ok p -> v <> vzero ->
  0 < rp -> rp < k * RP p -> inclined (pp_probe1 D) -> cos (psi1 - psi2) <> 1 ->
  exists r v2 P2, pp_r_vec D = Some r /\ pp_v2 D = Some v2 /\ rp_vec (pp_probe2 D) = Some P2 /\
    ~ exists a T, 0 < a /\ coasts_to (GM p) a r v2 P2 T.
Proof.
  intros name p v rp psi1 h1 psi2 h2 k D HD Hp Hv Hrp Hlt Hi Hpsi.
  destruct (C30_second_probe_angle _ _ _ _ _ _ _ _ _ _ _ HD Hp Hv Hrp Hrp Hlt Hlt Hi) as
    (th2 & r & v1 & v2 & T1 & T2 & P1 & P2 & X1 & X2 & X3 & X4 & X5 & X6 & X7 & X8 & X9 & _ & _ & _ & _ & _ & _ & _ & X10 & _).
  exists r, v2, P2. split; [auto|]. split; [auto|]. split; [auto|]. rewrite X10. clear X10. intros Hdot.
  unfold ProbeProbeDeflection in HD. rewrite Hp in HD. cbn [rbind] in HD.
  unfold Approach in HD. rewrite Hp in HD. cbn [rbind fst] in HD.
  destruct (leg_setup name p v rp psi1 Hp Hv Hrp) as (V & a & e & b & h & P & W & K & HV & EP & Er & Ha & Hmu & Hn1 & Hv1).
  destruct (leg_setup name p v rp psi2 Hp Hv Hrp) as (V' & a' & e' & b' & h' & P' & W' & K' & HV' & EP' & Er' & Ha' & _ & Hn2 & Hv2).
  set (A := Approach_core p v rp psi1) in *. set (B := Approach_core p v rp psi2) in *.
  set (rho := k * RP p) in *. set (mu := GM p) in *.
  injection HD as HD. subst D. cbn [pp_probe1 pp_probe2 pp_theta1 pp_theta2 pp_r_vec pp_v1 pp_v2 pp_TOF1 pp_TOF2 pp_dv pp_dv_mag] in *.
  rewrite Hv2 in X3. injection X3 as <-.
  destruct (dv_anomaly A V a e b h P W rho K ltac:(rewrite EP; auto) ltac:(lra) ltac:(lra)) as (_ & Dv).
  destruct Dv as (th & D1 & D2 & D3 & D4 & D5 & D6 & _); [lra|]. rewrite EP in D1, D5. rewrite Er in D3, D6. fold mu in D1, D5. specialize (D6 Hlt).
  destruct (dv_anomaly B V' a' e' b' h' P' W' rho K' ltac:(rewrite EP'; auto) ltac:(lra) ltac:(lra)) as (_ & Dv).
  destruct Dv as (th2' & G1 & G2 & G3 & G4 & _); [lra|]. rewrite EP' in G1. rewrite Er' in G3. fold mu in G1. rewrite X5 in G1. injection G1 as <-.
  assert (EV : V' = V) by lra.
  assert (Ee : e' = e). { rewrite (hy_ev _ _ _ _ _ _ _ _ K'), (hy_ev _ _ _ _ _ _ _ _ K), EP, EP', Er, Er', EV. reflexivity. }
  pose proof (hy_e1 _ _ _ _ _ _ _ _ K) as He.
  assert (Ec : cos th2 = cos th). { rewrite Ee in G3. apply Rmult_eq_reg_l with e; lra. }
  destruct (maneuver_point p v rp psi1 V a e b h P W rho th K Hi Hmu Hrp Hlt D1) as (M1 & _). fold A mu in M1.
  rewrite D1 in X6. cbn [obind] in X6. rewrite M1 in X6. assert (X6' : r = conic_pos mu h e P W th) by congruence. clear X6.
  rewrite Hn2, X7, Ec in Hdot. rewrite dot_vscale_r in Hdot.
  assert (HdP : dot r P' = rho * cos th) by (apply Rmult_eq_reg_l with rp; lra). clear Hdot.
  rewrite X6' in HdP. unfold conic_pos in HdP. rewrite D5, dot_vscale_l in HdP. apply Rmult_eq_reg_l in HdP; [|lra].
  unfold perifocal in HdP. set (Q := cross W P) in *.
  assert (HdQ : cos th * dot P P' + sin th * dot Q P' = cos th) by (etransitivity; [|exact HdP]; generalize Q; intros; vsimpl; ring). clear HdP.
  pose proof (hy_cb _ _ _ _ _ _ _ _ K) as Hcb. pose proof (hy_sb _ _ _ _ _ _ _ _ K) as Hsb.
  assert (Eb : b' = b). { rewrite (hy_bv _ _ _ _ _ _ _ _ K'), (hy_bv _ _ _ _ _ _ _ _ K), Ee; auto. }
  (* dot products in the frame of v_inf *)
  assert (HPP : dot P P' = sin b * sin b * cos (psi1 - psi2) + cos b * cos b).
  { pose proof (hy_Pd _ _ _ _ _ _ _ _ K) as Z1. pose proof (hy_Pd _ _ _ _ _ _ _ _ K') as Z2.
    change (ap_psi A) with psi1 in Z1. change (ap_psi B) with psi2 in Z2. change (phi_1 B) with (phi_1 A) in Z2. change (phi_2 B) with (phi_2 A) in Z2.
    destruct (dprime_rot (phi_1 A) (phi_2 A)) as (Rd & _).
    unfold BI_to_BI_dprime in Z1, Z2. rewrite <- (Rd P P'). rewrite Z1, Z2, Eb. rewrite cos_minus. vsimpl. ring. }
  assert (HvP : dot (v_inf_bi A) P' = V * cos b).
  { change (v_inf_bi A) with (v_inf_bi B). pose proof (hy_Pdot _ _ _ _ _ _ _ _ K') as Z. rewrite EV, Eb in Z. rewrite <- Z. generalize (v_inf_bi B); intros; vsimpl; ring. }
  pose proof (hy_Vpos _ _ _ _ _ _ _ _ K) as HVp.
  assert (HQP : sin b * dot Q P' = cos b - cos b * dot P P').
  { rewrite (hy_sv _ _ _ _ _ _ _ _ K) in HvP. fold Q in HvP. rewrite dot_vscale_l in HvP. apply Rmult_eq_reg_l in HvP; [|lra].
    assert (Z : dot (vadd (vscale (cos b) P) (vscale (sin b) Q)) P' = cos b * dot P P' + sin b * dot Q P') by (generalize Q; intros; vsimpl; ring). rewrite Z in HvP. lra. }
  set (u := dot P P') in *. clearbody u. set (w := dot Q P') in *. clearbody w.
  assert (F : (1 - u) * (sin b * cos th - cos b * sin th) = 0).
  { assert (sin b * (cos th * u + sin th * w) = sin b * cos th) by (rewrite HdQ; auto).
    replace (sin b * (cos th * u + sin th * w)) with (sin b * cos th * u + sin th * (sin b * w)) in H by ring. rewrite HQP in H. lra. }
  destruct (Rmult_integral _ _ F) as [F1|F1].
  - apply Hpsi. pose proof (sin2cos2 b). assert (0 < sin b * sin b) by nra.
    assert (sin b * sin b * (cos (psi1 - psi2) - 1) = 0) by lra. destruct (Rmult_integral _ _ H1); lra.
  - assert (Hs : sin th < 0). { assert (0 < sin (- th)) by (apply sin_gt_0; lra). rewrite sin_neg in H; lra. }
    assert (Hcb0 : 0 < cos b). { rewrite Hcb. apply Rdiv_lt_0_compat; lra. }
    assert (Hec : e * cos b = 1) by (rewrite Hcb; field; lra).
    assert (Hgt : - cos b < cos th) by nra.
    pose proof (sin2cos2 b) as S1. pose proof (sin2cos2 th) as S2.
    assert (Hneg : cos th < 0) by nra.
    assert (Hsq : sin b * cos th * (sin b * cos th) = cos b * sin th * (cos b * sin th)) by (replace (sin b * cos th) with (cos b * sin th) by lra; auto).
    assert (Hcc : cos th * cos th = cos b * cos b).
    { transitivity (cos th * cos th * (sin b * sin b + cos b * cos b)); [rewrite S1; ring|].
      transitivity (cos b * cos b * (sin th * sin th + cos th * cos th)); [|rewrite S2; ring]. lra. }
    nra.
Qed.

(** Neptune, 5 km/s approach inclined to the equator, maneuver at 100 planet radii. *)
Definition wit_v : vec := icrf_of NEPTUNE (V3 3 0 4).
Example C28_witness : exists D D' D'' r v2,
  ProbeOrbiterDeflection "NEPTUNE" wit_v 24000e3 1 1000e3 26000e3 2 100 = Ok D /\ wit_v <> vzero /\
  24000e3 < 100 * RP NEPTUNE /\ inclined (po_probe D) /\
  OrbiterOrbiterDeflection "NEPTUNE" wit_v 26000e3 1 26000e3 1 100 = Ok D' /\ inclined (oo_space1 D') /\
  oo_r_vec D' = Some r /\ oo_v2 D' = Some v2 /\
  ProbeProbeDeflection "NEPTUNE" wit_v 24000e3 1 1000e3 24000e3 2 1000e3 100 = Ok D'' /\ inclined (pp_probe1 D'') /\ cos (1 - 2) <> 1.
Proof.
  assert (Hnz : wit_v <> vzero) by (apply icrf_nonzero; intros E; injection E; intros; lra).
  assert (Hi : forall rp psi, 0 < rp -> inclined (Approach_core NEPTUNE wit_v rp psi)) by (intros; apply (inclined_if_vz "NEPTUNE"); [reflexivity|cbn [vz]; lra|auto]).
  assert (HOO : exists D', OrbiterOrbiterDeflection "NEPTUNE" wit_v 26000e3 1 26000e3 1 100 = Ok D' /\ oo_space1 D' = Approach_core NEPTUNE wit_v 26000e3 1 /\ oo_v2 D' = oo_v1 D').
  { eexists. split; [unfold OrbiterOrbiterDeflection, Approach; rewrite Neptune_ok; cbn [rbind fst]; reflexivity|]. split; reflexivity. }
  destruct HOO as (D' & E1 & E2 & E3).
  destruct (C28_orbiter_orbiter "NEPTUNE" NEPTUNE wit_v 26000e3 1 26000e3 1 100 D' E1 Neptune_ok Hnz ltac:(lra) ltac:(lra) ltac:(cbn [RP NEPTUNE]; lra) ltac:(rewrite E2; apply Hi; lra))
    as (th & r & v1 & T1 & P1 & P2 & _ & _ & _ & _ & _ & X1 & _ & _ & _ & X2 & _).
  eexists; exists D'; eexists; exists r, v1.
  split; [unfold ProbeOrbiterDeflection, Approach; rewrite Neptune_ok; cbn [rbind fst]; reflexivity|].
  split; [auto|]. split; [cbn [RP NEPTUNE]; lra|]. split; [apply Hi; lra|]. split; [exact E1|]. split; [rewrite E2; apply Hi; lra|].
  split; [auto|]. split; [rewrite E3; auto|].
  split; [unfold ProbeProbeDeflection, Approach; rewrite Neptune_ok; cbn [rbind fst]; reflexivity|]. split; [apply Hi; lra|].
  replace (1 - 2) with (Ropp 1) by ring. rewrite (cos_neg 1). pose proof (cos_decreasing_1 0 1) as Q. rewrite cos_0 in Q. pose proof PI_RGT_0. pose proof PI2_3_2.
  assert (cos 1 < 1); [|lra]. apply Q; lra.
Qed.
