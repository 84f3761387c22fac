(** Property C107: which instant the reported times of flight of a deflected probe run to. *)
Require Import Verif.Base Verif.PlanetModel Verif.PlanetProofs Verif.FrameModel Verif.FrameProofs Verif.ApproachModel Verif.ConicSpec
  Verif.ConicProofs Verif.ApproachProofs Verif.ManeuverModel Verif.HyperbolaProofs Verif.LambertProofs Verif.ManeuverProofs Verif.PropApproach Verif.PropManeuver.
From Coq Require Import String.
Local Open Scope R_scope.

(** The two approaches of each maneuver object are the Approach objects of its arguments. *)
Theorem C28_legs_are_approaches : forall name v,
  (forall rp psi h rs psis k D, ProbeOrbiterDeflection name v rp psi h rs psis k = Ok D ->
     Approach name v rp psi true (Some h) = Ok (po_probe D, po_probe_at D) /\ (exists s, po_probe_at D = Entry s) /\
     Approach name v rs psis false None = Ok (po_space D, po_space_at D)) /\
  (forall rp1 psi1 h1 rp2 psi2 h2 k D, ProbeProbeDeflection name v rp1 psi1 h1 rp2 psi2 h2 k = Ok D ->
     Approach name v rp1 psi1 true (Some h1) = Ok (pp_probe1 D, pp_probe1_at D) /\ (exists s, pp_probe1_at D = Entry s) /\
     Approach name v rp2 psi2 true (Some h2) = Ok (pp_probe2 D, pp_probe2_at D) /\ (exists s, pp_probe2_at D = Entry s)) /\
  (forall rp1 psi1 rp2 psi2 k D, OrbiterOrbiterDeflection name v rp1 psi1 rp2 psi2 k = Ok D ->
     Approach name v rp1 psi1 false None = Ok (oo_space1 D, oo_space1_at D) /\
     Approach name v rp2 psi2 false None = Ok (oo_space2 D, oo_space2_at D)).
Proof.
  intros name v. split; [|split].
  - intros rp psi h rs psis k D H. unfold ProbeOrbiterDeflection in H. unfold Approach in *. destruct (Planet name) as [p|]; [|discriminate]. cbn [rbind fst snd] in H |- *.
    injection H as <-. cbn [po_probe po_probe_at po_space po_space_at]. split; [reflexivity|]. split; [eexists; reflexivity|reflexivity].
  - intros rp psi h rs psis h2 k D H. unfold ProbeProbeDeflection in H. unfold Approach in *. destruct (Planet name) as [p|]; [|discriminate]. cbn [rbind fst snd] in H |- *.
    injection H as <-. cbn [pp_probe1 pp_probe1_at pp_probe2 pp_probe2_at]. split; [reflexivity|]. split; [eexists; reflexivity|]. split; [reflexivity|eexists; reflexivity].
  - intros rp psi rs psis k D H. unfold OrbiterOrbiterDeflection in H. unfold Approach in *. destruct (Planet name) as [p|]; [|discriminate]. cbn [rbind fst snd] in H |- *.
    injection H as <-. split; reflexivity.
Qed.

Lemma maneuver_point_le : forall p v rp psi V a e b h P W rho th, let A := Approach_core p v rp psi in
  hyper A V a e b h P W -> inclined A -> 0 < GM p -> 0 < rp -> rp <= rho -> theta_star_dv A (GM p) rho = Some th ->
  pos_vec_bi A th = Some (conic_pos (GM p) h e P W th) /\ vel_vec_bi A th = Some (conic_vel (GM p) h e P W th).
Proof.
  intros p v rp psi V a e b h P W rho th A K Hi Hmu Hrp Hlt Hth.
  destruct (elements_of _ _ _ _ _ _ _ _ _ _ _ K Hi Hrp) as (i & Om & om & E).
  destruct (dv_anomaly A V a e b h P W rho K Hmu Hrp ltac:(lra)) as (_ & D).
  destruct D as (th' & D1 & D2 & _ & D4 & _); [change (ap_rp A) with rp; lra|]. change (ap_planet A) with p in D1. rewrite Hth in D1. injection D1 as <-.
  pose proof (hy_e1 _ _ _ _ _ _ _ _ K) as He. split.
  - apply (pos_eq _ _ _ _ _ _ _ _ _ _ _ th K E); auto. lra.
  - rewrite <- inward_is_conic; try apply K; auto; try lra; [apply (vel_eq _ _ _ _ _ _ _ _ _ _ _ th K E); auto|].
    assert (0 <= sin (- th)) by (apply sin_ge_0; lra). rewrite sin_neg in H. lra.
Qed.

(** The point of the approach conic at distance rho, inbound, as a point of the Keplerian motion. *)
Lemma inbound_at : forall A V a e b h P W rho th, hyper A V a e b h P W -> let mu := GM (ap_planet A) in let rp := ap_rp A in
  0 < mu -> 0 < rp -> rp <= rho -> theta_star_dv A mu rho = Some th ->
  exists H, 0 <= H /\ (0 < H <-> rp < rho) /\ e * cosh H = 1 + rho / Rabs a /\
    conic_pos mu h e P W th = hyp_pos (Rabs a) e P W (- H) /\ conic_vel mu h e P W th = hyp_vel mu (Rabs a) e P W (- H).
Proof.
  intros A V a e b h P W rho th K mu rp Hmu Hrp Hlt Hth.
  destruct (hyper_size _ _ _ _ _ _ _ _ K Hmu Hrp) as (Ha & Ha0 & Hrpv & Hpv & Hh & Hen). fold mu rp in Ha, Hrpv, Hh, Hen.
  destruct (dv_anomaly A V a e b h P W rho K Hmu Hrp ltac:(lra)) as (_ & D).
  destruct D as (th' & D1 & D2 & D3 & D4 & D5 & D6 & D7); [fold rp; lra|]. fold mu in D1, D5. fold rp in D3, D6, D7. rewrite Hth in D1. injection D1 as <-.
  pose proof (hy_e1 _ _ _ _ _ _ _ _ K) as He.
  set (al := Rabs a) in *. set (d := - th). assert (Hthd : th = - d) by (unfold d; ring).
  assert (Hdr : 0 <= d < PI) by (unfold d; lra).
  assert (Hcd : cos th = cos d) by (rewrite Hthd, cos_neg; auto). rewrite Hcd in D4, D3.
  assert (Hsd : 0 <= sin d) by (apply sin_ge_0; lra).
  destruct (conic_anomaly e d He Hdr D4) as (k & t & Hh2 & E1 & E2 & E3 & E4 & E5 & E6).
  set (H := 2 * Hh2) in *.
  destruct (conic_is_hyp mu al e P W d H Hmu Ha0 He D4 E5 E6) as (Cp & Cv). rewrite <- Hh in Cp, Cv. rewrite <- Hthd in Cp, Cv.
  assert (Hb : 0 < sqrt (e * e - 1)) by (apply sqrt_lt_R0; nra).
  assert (Hsh : 0 <= sinh H). { rewrite E6. apply Rle_mult_inv_pos; auto. apply Rmult_le_pos; lra. }
  assert (HH : 0 <= H).
  { destruct (Rle_lt_dec 0 H) as [Z|Z]; auto. exfalso. pose proof (sinh_lt H 0 Z) as Q. rewrite sinh_0 in Q. lra. }
  exists H. split; [exact HH|]. split; [|split; [|split; [exact Cp|exact Cv]]].
  - split; intros Q.
    + destruct Hlt as [|Z]; auto. exfalso. specialize (D7 Z). assert (d = 0) by (unfold d; lra). rewrite H0, sin_0 in E6.
      replace (sqrt (e * e - 1) * 0 / (1 + e * cos 0)) with 0 in E6 by (unfold Rdiv; ring). pose proof (sinh_lt 0 H Q) as Q'. rewrite sinh_0 in Q'. lra.
    + specialize (D6 Q). assert (0 < sin d) by (apply sin_gt_0; unfold d in *; lra).
      assert (0 < sinh H) by (rewrite E6; apply Rdiv_lt_0_compat; auto; apply Rmult_lt_0_compat; auto).
      destruct HH as [|<-]; auto. rewrite sinh_0 in H1. lra.
  - assert (Hpp : 0 < al * (e * e - 1)) by (apply Rmult_lt_0_compat; nra). rewrite E5. rewrite <- D5. unfold conic_radius. rewrite Hcd. replace (h * h) with (mu * al * (e * e - 1)) by (rewrite Hh; symmetry; apply sqrt_sqrt; nra). field. lra.
Qed.

Lemma norm2_eq1_scale : forall e e' P P', 0 < e -> 0 < e' -> norm2 P = 1 -> norm2 P' = 1 -> vscale e P = vscale e' P' -> e = e' /\ P = P'.
Proof.
  intros e e' P P' He He' HP HP' E.
  assert (N : e * e = e' * e'). { transitivity (norm2 (vscale e P)); [rewrite norm2_vscale, HP; ring|]. rewrite E, norm2_vscale, HP'. ring. }
  assert (e = e') by nra. subst e'. split; auto.
  destruct P as [x y z], P' as [x' y' z']. injection E as E1 E2 E3. f_equal; apply (Rmult_eq_reg_l e); auto; lra.
Qed.
(** Position and velocity determine the hyperbola and the place on it. *)
Lemma hyp_determined : forall mu a e P W H e' P' W' H', 0 < mu -> 0 < a -> 1 < e -> norm2 P = 1 -> norm2 W = 1 -> dot W P = 0 ->
  1 < e' -> norm2 P' = 1 -> norm2 W' = 1 -> dot W' P' = 0 ->
  hyp_pos a e P W H = hyp_pos a e' P' W' H' -> hyp_vel mu a e P W H = hyp_vel mu a e' P' W' H' ->
  e = e' /\ P = P' /\ W = W' /\ H = H'.
Proof.
  intros mu a e P W H e' P' W' H' Hmu Ha He HP HW HWP He' HP' HW' HWP' Ep Ev.
  destruct (hyp_momentum mu a e P W H Hmu Ha He HP HW HWP) as (L & X).
  destruct (hyp_momentum mu a e' P' W' H' Hmu Ha He' HP' HW' HWP') as (L' & X').
  rewrite <- Ep, <- Ev in L', X'. rewrite L in L'. rewrite X in X'.
  assert (Q : forall x, 1 < x -> 0 < sqrt (mu * a) * sqrt (x * x - 1)) by (intros; apply Rmult_lt_0_compat; apply sqrt_lt_R0; nra).
  destruct (norm2_eq1_scale e e' P P' ltac:(lra) ltac:(lra) HP HP' X') as (<- & <-).
  destruct (norm2_eq1_scale _ _ _ _ (Q _ He) (Q _ He) HW HW' L') as (_ & <-).
  split; [auto|]. split; [auto|]. split; [auto|].
  destruct (frame_facts P W HP HW HWP) as (F1 & F2 & _).
  assert (S : forall x, dot (hyp_pos a e P W x) (cross W P) = a * (sqrt (e * e - 1) * sinh x)).
  { intros x. unfold hyp_pos. rewrite dot_vscale_l. f_equal.
    transitivity ((e - cosh x) * dot (cross W P) P + sqrt (e * e - 1) * sinh x * norm2 (cross W P)); [unfold norm2; generalize (cross W P); intros; vsimpl; ring|]. rewrite F1, F2. ring. }
  assert (E : a * (sqrt (e * e - 1) * sinh H) = a * (sqrt (e * e - 1) * sinh H')) by (rewrite <- !S, Ep; reflexivity).
  apply Rmult_eq_reg_l in E; [|lra]. apply Rmult_eq_reg_l in E; [|apply Rgt_not_eq, sqrt_lt_R0; nra].
  destruct (Rtotal_order H H') as [Z|[Z|Z]]; auto; apply sinh_lt in Z; lra.
Qed.
Lemma cosh_abs_eq : forall x y, 0 <= y -> cosh x = cosh y -> x = y \/ x = - y.
Proof.
  intros x y Hy E. pose proof (cosh_sq x) as C1. pose proof (cosh_sq y) as C2. rewrite E in C1.
  assert (Z : (sinh x - sinh y) * (sinh x + sinh y) = 0) by nra. apply Rmult_integral in Z. destruct Z as [Z|Z].
  - left. destruct (Rtotal_order x y) as [Q|[Q|Q]]; auto; apply sinh_lt in Q; lra.
  - right. assert (S : sinh x = sinh (- y)) by (rewrite sinh_neg; lra).
    destruct (Rtotal_order x (- y)) as [Q|[Q|Q]]; auto; apply sinh_lt in Q; lra.
Qed.

(** One probe leg.  Departing from the maneuver point, the probe is at its own reported entry state
    [rE], [w] after the time [TE] and at its periapsis after the reported time; the only instants at
    which it is at the interface distance are [TE] and, had it not met the atmosphere, the mirror
    instant on its way out. *)
Definition entry_before_periapsis (mu a : R) (r v rE w P1 : vec) (TE Tp : R) : Prop :=
  coasts_to mu a r v rE TE /\ coasts_to mu a rE w P1 (Tp - TE) /\ coasts_to mu a r v P1 Tp /\ 0 < TE /\
  forall r2 T, coasts_to mu a r v r2 T -> norm r2 = norm rE -> T = TE \/ T = Tp + (Tp - TE).
Lemma leg_interface : forall name p v rp psi rho rE, Planet name = Ok p -> v <> vzero -> 0 < rp -> rp <= rE -> rE < rho ->
  let A := Approach_core p v rp psi in let mu := GM p in inclined A ->
  let V := norm v * 1000 in let a := GM p / (V * V) in
  exists th thE r v1 rv w P1 T1 TE, theta_star_dv A mu rho = Some th /\ theta_star_dv A mu rE = Some thE /\
    pos_vec_bi A th = Some r /\ (leto P := P_conic A in arc_velocity A mu rho r P (Rabs th)) = Some v1 /\ TOF_conic A mu (Rabs th) = Some T1 /\
    pos_vec_bi A thE = Some rv /\ vel_vec_bi A thE = Some w /\ norm rv = rE /\ rp_vec A = Some P1 /\
    entry_before_periapsis mu a r v1 rv w P1 TE (T1 * 86400) /\ (TE < T1 * 86400 <-> rp < rE) /\ TE <= T1 * 86400.
Proof.
  intros name p v rp psi rho rE Hp Hv Hrp HrE Hrho A mu Hi V0 a0.
  destruct (leg_setup name p v rp psi Hp Hv Hrp) as (V & a & e & b & h & P & W & K & HV & EP & Er & Ha & Hmu & Hn1 & Hv1).
  fold A in K, EP, Er, Hv1. fold mu in Ha, Hmu.
  pose proof (hy_e1 _ _ _ _ _ _ _ _ K) as He. pose proof (hy_P1 _ _ _ _ _ _ _ _ K) as HP1. pose proof (hy_W1 _ _ _ _ _ _ _ _ K) as HW1. pose proof (hy_WP _ _ _ _ _ _ _ _ K) as HWP.
  assert (Ea : Rabs a = a0) by (rewrite Ha, HV; reflexivity).
  assert (Ha0 : 0 < a0). { rewrite <- Ea, Ha. pose proof (hy_Vpos _ _ _ _ _ _ _ _ K). pos. }
  assert (DV : forall x, rp <= x -> exists t, theta_star_dv A mu x = Some t /\ conic_radius mu h e t = x /\ 0 < 1 + e * cos t).
  { intros x Hx. destruct (dv_anomaly A V a e b h P W x K ltac:(rewrite EP; auto) ltac:(lra) ltac:(lra)) as (_ & D).
    destruct D as (t & D1 & _ & _ & D4 & D5 & _); [lra|]. rewrite EP in D1, D5. exists t. auto. }
  destruct (DV rho ltac:(lra)) as (th & T1 & _ & _). destruct (DV rE HrE) as (thE & T2 & R2 & Q2). clear DV.
  destruct (maneuver_point_le p v rp psi V a e b h P W rho th K Hi Hmu Hrp ltac:(lra) T1) as (M1 & _).
  destruct (maneuver_point_le p v rp psi V a e b h P W rE thE K Hi Hmu Hrp HrE T2) as (N1 & N2). fold A mu in M1, N1, N2.
  pose proof (inbound_at A V a e b h P W rho th K) as I1. cbv zeta in I1. rewrite EP, Er in I1. fold mu in I1.
  destruct (I1 Hmu Hrp ltac:(lra) T1) as (H & HH0 & HH & Hc & Hpos & Hvel). clear I1.
  pose proof (inbound_at A V a e b h P W rE thE K) as I1. cbv zeta in I1. rewrite EP, Er in I1. fold mu in I1.
  destruct (I1 Hmu Hrp HrE T2) as (G & GG0 & GG & Gc & Gpos & Gvel). clear I1.
  pose proof (probe_leg A V a e b h P W W rho th K) as PL. cbv zeta in PL. rewrite EP, Er in PL. fold mu in PL.
  destruct (PL Hmu Hrp ltac:(lra) HW1 HWP T1) as (T & H' & B1 & B2 & B3 & B4 & B5 & B6 & B7 & B8). clear PL.
  assert (H' = H). { assert (C : cosh H' = cosh H) by (apply Rmult_eq_reg_l with e; lra). destruct (cosh_abs_eq _ _ HH0 C); auto. lra. } subst H'.
  rewrite Ea in *.
  set (r := conic_pos mu h e P W th) in *. set (v1 := conic_vel mu h e P W th) in *. set (rv := conic_pos mu h e P W thE) in *. set (w := conic_vel mu h e P W thE) in *.
  set (q := sqrt (a0 ^ 3 / mu)) in *. assert (Hq : 0 < q) by (apply sqrt_lt_R0, Rdiv_lt_0_compat; auto; apply pow_lt; auto).
  set (TE := hyp_time mu a0 e (- G) - hyp_time mu a0 e (- H)).
  assert (HTE : TE = T * 86400 - q * (e * sinh G - G)). { unfold TE, hyp_time. fold q. rewrite B6, !sinh_neg. ring. }
  assert (GH : G < H).
  { destruct (Rlt_le_dec G H) as [|Z]; auto. exfalso. assert (C : e * cosh G < e * cosh H). { rewrite Hc, Gc. apply Rplus_lt_compat_l. apply Rmult_lt_compat_r; auto. apply Rinv_0_lt_compat; auto. }
    assert (cosh G < cosh H) by nra. pose proof (cosh_sq G). pose proof (cosh_sq H). pose proof (sinh_nonneg H HH0). assert (sinh H <= sinh G) by (destruct Z as [Z|Z]; [left; apply sinh_lt; auto|rewrite Z; lra]).
    pose proof (cosh_pos G). nra. }
  assert (Nrv : norm rv = rE).
  { destruct (conic_state mu h e P W thE Hmu (hy_hpos _ _ _ _ _ _ _ _ K) HP1 HW1 HWP Q2) as (S1 & _). fold rv in S1. rewrite S1. auto. }
  exists th, thE, r, v1, rv, w, (vscale rp P), T, TE.
  split; [auto|]. split; [auto|]. split; [auto|]. split; [auto|]. split; [auto|]. split; [auto|]. split; [auto|]. split; [auto|]. split; [auto|].
  pose proof (hyper_size _ _ _ _ _ _ _ _ K) as HS. cbv zeta in HS. rewrite EP, Er in HS. destruct (HS Hmu Hrp) as (_ & _ & Hrpv & _). clear HS. rewrite Ea in Hrpv.
  split; [split; [|split; [|split; [|split]]]|].
  - exists e, P, W, (- H), (- G). repeat (split; [assumption|]). reflexivity.
  - exists e, P, W, (- G), 0. repeat (split; [assumption|]). split; [rewrite hyp_pos_0, Hrpv; auto|].
    rewrite HTE. unfold hyp_time. fold q. rewrite sinh_0, sinh_neg. ring.
  - exact B8.
  - unfold TE, hyp_time. fold q. rewrite !sinh_neg. pose proof (ekepler_mono e G H He GH). nra.
  - intros r2 Tx (e' & P' & W' & X1 & X2 & C1 & C2 & C3 & C4 & C5 & C6 & C7 & C8) Hn. rewrite Hpos in C5. rewrite Hvel in C6.
    destruct (hyp_determined mu a0 e P W (- H) e' P' W' X1 Hmu Ha0 He HP1 HW1 HWP C1 C2 C3 C4 C5 C6) as (<- & <- & <- & <-).
    rewrite C7, hyp_radius, Nrv in Hn by auto.
    assert (Cx : cosh X2 = cosh G). { apply Rmult_eq_reg_l with e; [|lra]. rewrite Gc. rewrite <- Hn. field. lra. }
    rewrite C8, HTE. destruct (cosh_abs_eq _ _ GG0 Cx) as [-> | ->]; [right|left]; unfold hyp_time; fold q; rewrite B6, ?sinh_neg; ring.
  - assert (Z : 0 <= e * sinh G - G /\ (0 < e * sinh G - G <-> 0 < G)).
    { destruct GG0 as [GG0| <-].
      - pose proof (ekepler_mono e 0 G He GG0) as Q. rewrite sinh_0 in Q. split; [lra|]. split; intros; lra.
      - rewrite sinh_0. split; [lra|]. split; intros; lra. }
    destruct Z as (Z1 & Z2). rewrite HTE. split; [|nra]. split; intros Q.
    + apply GG, Z2. nra.
    + apply GG, Z2 in Q. nra.
Qed.

(** The entry state an approach reports, for the anomaly at the interface distance. *)
Lemma entry_state_at : forall p v rp psi h t, let A := Approach_core p v rp psi in theta_star_dv A (GM p) (RP p + h) = Some t ->
  theta_entry (Approach_entry A h) = Some t /\ r_entry (Approach_entry A h) = pos_vec_bi A t /\ v_entry (Approach_entry A h) = vel_vec_bi A t.
Proof.
  intros p v rp psi h t A E. assert (T : theta_entry (Approach_entry A h) = Some t) by exact E. split; [exact T|].
  change (r_entry (Approach_entry A h)) with (leto u := theta_entry (Approach_entry A h) in pos_vec_bi A u).
  change (v_entry (Approach_entry A h)) with (leto u := theta_entry (Approach_entry A h) in vel_vec_bi A u).
  rewrite T. split; reflexivity.
Qed.

(** The reported time of flight of the probe runs to its periapsis.  The documentation says it runs to
    the atmospheric entry interface: the probe is there earlier, by the time from the interface down to
    periapsis, and at no coasting instant equal to the reported one unless the interface is at periapsis. *)
Theorem C107_probe_time_is_to_periapsis : forall name p v rp psi h rs psis k D,
  ProbeOrbiterDeflection name v rp psi h rs psis k = Ok D -> Planet name = Ok p -> v <> vzero ->
  0 < rp -> rp <= RP p + h -> RP p + h < k * RP p -> inclined (po_probe D) ->
  let V := norm v * 1000 in let a := GM p / (V * V) in
  exists s r v1 rE w P1 T1 TE, po_probe_at D = Entry s /\ po_r_vec D = Some r /\ po_v_probe D = Some v1 /\ po_TOF_probe D = Some T1 /\
    r_entry s = Some rE /\ v_entry s = Some w /\ norm rE = RP p + h /\ rp_vec (po_probe D) = Some P1 /\ norm P1 = rp /\
    entry_before_periapsis (GM p) a r v1 rE w P1 TE (T1 * 86400) /\ (TE < T1 * 86400 <-> rp < RP p + h) /\ TE <= T1 * 86400.
Proof.
  intros name p v rp psi h rs psis k D HD Hp Hv Hrp HE Hk Hi V a.
  destruct (leg_setup name p v rp psi Hp Hv Hrp) as (_ & _ & _ & _ & _ & P & _ & _ & _ & _ & _ & _ & _ & Hn1 & Hv1).
  unfold ProbeOrbiterDeflection in HD. rewrite Hp in HD. cbn [rbind] in HD. unfold Approach in HD. rewrite Hp in HD. cbn [rbind fst snd] in HD.
  injection HD as <-. cbn [po_probe po_probe_at po_r_vec po_v_probe po_TOF_probe] in *.
  destruct (leg_interface name p v rp psi (k * RP p) (RP p + h) Hp Hv Hrp HE Hk Hi) as (th & thE & r & v1 & rv & w & P1 & T1 & TE & X1 & X2 & X3 & X4 & X5 & X6 & X7 & X8 & X9 & X10 & X11 & X12).
  destruct (entry_state_at p v rp psi h thE X2) as (_ & Y1 & Y2).
  exists (Approach_entry (Approach_core p v rp psi) h), r, v1, rv, w, P1, T1, TE.
  split; [reflexivity|]. rewrite X1. cbn [obind]. rewrite X3. cbn [obind]. split; [reflexivity|]. split; [exact X4|]. split; [exact X5|].
  rewrite Y1, Y2. split; [exact X6|]. split; [exact X7|]. split; [exact X8|]. split; [exact X9|].
  rewrite Hv1 in X9. injection X9 as <-. auto.
Qed.
(** The same for the first of two probes. *)
Theorem C107_first_probe_time_is_to_periapsis : forall name p v rp psi h rp2 psi2 h2 k D,
  ProbeProbeDeflection name v rp psi h rp2 psi2 h2 k = Ok D -> Planet name = Ok p -> v <> vzero ->
  0 < rp -> rp <= RP p + h -> RP p + h < k * RP p -> inclined (pp_probe1 D) ->
  let V := norm v * 1000 in let a := GM p / (V * V) in
  exists s r v1 rE w P1 T1 TE, pp_probe1_at D = Entry s /\ pp_r_vec D = Some r /\ pp_v1 D = Some v1 /\ pp_TOF1 D = Some T1 /\
    r_entry s = Some rE /\ v_entry s = Some w /\ norm rE = RP p + h /\ rp_vec (pp_probe1 D) = Some P1 /\ norm P1 = rp /\
    entry_before_periapsis (GM p) a r v1 rE w P1 TE (T1 * 86400) /\ (TE < T1 * 86400 <-> rp < RP p + h) /\ TE <= T1 * 86400.
Proof.
  intros name p v rp psi h rp2 psi2 h2 k D HD Hp Hv Hrp HE Hk Hi V a.
  destruct (leg_setup name p v rp psi Hp Hv Hrp) as (_ & _ & _ & _ & _ & P & _ & _ & _ & _ & _ & _ & _ & Hn1 & Hv1).
  unfold ProbeProbeDeflection in HD. rewrite Hp in HD. cbn [rbind] in HD. unfold Approach in HD. rewrite Hp in HD. cbn [rbind fst snd] in HD.
  injection HD as <-. cbn [pp_probe1 pp_probe1_at pp_r_vec pp_v1 pp_TOF1] in *.
  destruct (leg_interface name p v rp psi (k * RP p) (RP p + h) Hp Hv Hrp HE Hk Hi) as (th & thE & r & v1 & rv & w & P1 & T1 & TE & X1 & X2 & X3 & X4 & X5 & X6 & X7 & X8 & X9 & X10 & X11 & X12).
  destruct (entry_state_at p v rp psi h thE X2) as (_ & Y1 & Y2).
  exists (Approach_entry (Approach_core p v rp psi) h), r, v1, rv, w, P1, T1, TE.
  split; [reflexivity|]. rewrite X1. cbn [obind]. rewrite X3. cbn [obind]. split; [reflexivity|]. split; [exact X4|]. split; [exact X5|].
  rewrite Y1, Y2. split; [exact X6|]. split; [exact X7|]. split; [exact X8|]. split; [exact X9|].
  rewrite Hv1 in X9. injection X9 as <-. auto.
Qed.
(** So the documented reading fails whenever the aim point is inside the interface sphere: after the
    reported time the coasting probe is nowhere at the interface distance. *)
Theorem C107_entry_time_refuted : forall name p v rp psi h rs psis k D,
  ProbeOrbiterDeflection name v rp psi h rs psis k = Ok D -> Planet name = Ok p -> v <> vzero ->
  0 < rp -> rp < RP p + h -> RP p + h < k * RP p -> inclined (po_probe D) ->
  let V := norm v * 1000 in let a := GM p / (V * V) in
  exists r v1 T1, po_r_vec D = Some r /\ po_v_probe D = Some v1 /\ po_TOF_probe D = Some T1 /\
    forall r2, norm r2 = RP p + h -> ~ coasts_to (GM p) a r v1 r2 (T1 * 86400).
Proof.
  intros name p v rp psi h rs psis k D HD Hp Hv Hrp HE Hk Hi V a.
  destruct (C107_probe_time_is_to_periapsis _ _ _ _ _ _ _ _ _ _ HD Hp Hv Hrp ltac:(lra) Hk Hi) as (s & r & v1 & rE & w & P1 & T1 & TE & _ & X2 & X3 & X4 & _ & _ & X7 & _ & _ & (_ & _ & _ & _ & X) & Y & _).
  exists r, v1, T1. split; [auto|]. split; [auto|]. split; [auto|]. intros r2 Hn C. apply Y in HE.
  destruct (X r2 _ C ltac:(rewrite X7; auto)); lra.
Qed.
(** Neptune: aim point 622 km below the 1000 km interface, maneuver at 100 radii. *)
Example C107_witness : exists D, ProbeOrbiterDeflection "NEPTUNE" wit_v 25000e3 1 1000e3 26000e3 2 100 = Ok D /\ wit_v <> vzero /\
  25000e3 < RP NEPTUNE + 1000e3 /\ RP NEPTUNE + 1000e3 < 100 * RP NEPTUNE /\ inclined (po_probe D).
Proof.
  assert (Hnz : wit_v <> vzero) by (apply icrf_nonzero; intros E; injection E; intros; lra).
  eexists. split; [unfold ProbeOrbiterDeflection, Approach; rewrite Neptune_ok; cbn [rbind fst]; reflexivity|]. split; [exact Hnz|].
  split; [cbn [RP NEPTUNE]; lra|]. split; [cbn [RP NEPTUNE]; lra|]. cbn [po_probe]. apply (inclined_if_vz "NEPTUNE"); [reflexivity|cbn [vz]; lra|lra].
Qed.
