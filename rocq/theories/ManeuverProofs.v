(** Lemmas about maneuver.py: true anomaly at the maneuver, the undeflected (conic) leg, the Lambert leg. *)
From Coq Require Import Nsatz.
Require Import Verif.Base Verif.PlanetModel Verif.PlanetProofs Verif.FrameModel Verif.FrameProofs Verif.ApproachModel Verif.ConicSpec
  Verif.ConicProofs Verif.ApproachProofs Verif.ManeuverModel Verif.HyperbolaProofs Verif.LambertProofs.
Local Open Scope R_scope.

(** True anomaly of the point at radius rho on the inbound branch. *)
Lemma dv_anomaly : forall A V a e b h P W rho, hyper A V a e b h P W -> let mu := GM (ap_planet A) in let rp := ap_rp A in
  0 < mu -> 0 < rp -> 0 < rho ->
  (rho < rp -> theta_star_dv A mu rho = None) /\
  (rp <= rho -> exists th, theta_star_dv A mu rho = Some th /\ - PI < th <= 0 /\ 1 + e * cos th = rp * (1 + e) / rho /\
     0 < 1 + e * cos th /\ conic_radius mu h e th = rho /\ (rp < rho -> th < 0) /\ (rp = rho -> th = 0)).
Proof.
  intros A V a e b h P W rho K mu rp Hmu Hrp Hrho.
  pose proof (hy_e1 _ _ _ _ _ _ _ _ K) as He. pose proof (hy_h2 _ _ _ _ _ _ _ _ K) as Hh2. fold mu rp in Hh2.
  set (arg := (h * h / (mu * rho) - 1) * (1 / e)).
  assert (Hq : h * h / (mu * rho) = rp / rho * (1 + e)) by (rewrite Hh2; field; split; lra).
  assert (Hea : e * arg = rp / rho * (1 + e) - 1) by (unfold arg; rewrite Hq; field; lra).
  assert (Hr0 : 0 < rp / rho) by (apply Rdiv_lt_0_compat; auto).
  assert (HT : theta_star_dv A mu rho = leto c := np_arccos arg in Some (-1 * c)).
  { unfold theta_star_dv. rewrite (hy_h _ _ _ _ _ _ _ _ K), (hy_e _ _ _ _ _ _ _ _ K). cbn [obind].
    rewrite np_div_some by nra. cbn [obind]. rewrite np_div_some by lra. reflexivity. }
  split.
  - intros Hlt. assert (1 < rp / rho) by (apply Rmult_lt_reg_r with rho; [lra|]; field_simplify; lra).
    assert (1 < arg) by nra. rewrite HT, np_arccos_none by lra. reflexivity.
  - intros Hle. assert (Hr1 : rp / rho <= 1) by (apply Rmult_le_reg_r with rho; [lra|]; field_simplify; lra).
    assert (Harg : -1 < arg <= 1) by (split; nra).
    rewrite HT, np_arccos_some by lra. cbn [obind]. exists (-1 * acos arg). split; [reflexivity|].
    replace (-1 * acos arg) with (- acos arg) by ring.
    pose proof (acos_bound arg) as Hab.
    assert (Hcos : cos (- acos arg) = arg) by (rewrite cos_neg; apply cos_acos; lra).
    assert (Hpi : acos arg <> PI).
    { intros Z. rewrite cos_neg, Z, cos_PI in Hcos. lra. }
    assert (H1e : 1 + e * cos (- acos arg) = rp * (1 + e) / rho) by (rewrite Hcos, Hea; field; lra).
    assert (H1p : 0 < rp * (1 + e) / rho) by (apply Rdiv_lt_0_compat; nra).
    split; [lra|]. split; [auto|]. split; [lra|]. split.
    { unfold conic_radius. rewrite H1e, Hh2. field. repeat split; lra. }
    split.
    + intros Hlt. assert (rp / rho < 1) by (apply Rmult_lt_reg_r with rho; [lra|]; field_simplify; lra).
      assert (arg <> 1) by nra. assert (acos arg <> 0); [|lra]. intros Z. rewrite cos_neg, Z, cos_0 in Hcos. lra.
    + intros Heq. assert (arg = 1). { rewrite Heq in Hea. replace (rho / rho) with 1 in Hea by (field; lra). nra. }
      rewrite H, acos_1. ring.
Qed.

Lemma np_div_zero : forall x, np_div x 0 = None.
Proof. intros. unfold np_div. destruct (Reqb_spec 0 0); auto; lra. Qed.

(** numpy.arctanh. *)
Lemma arctanh_facts : forall u, -1 < u < 1 -> exists H, np_arctanh u = Some H /\
  cosh (2 * H) = (1 + u * u) / (1 - u * u) /\ sinh (2 * H) = 2 * u / (1 - u * u).
Proof.
  intros u Hu. unfold np_arctanh. destruct (Rltb_spec (-1) u); [|lra]. destruct (Rltb_spec u 1); [|lra]. cbn [andb].
  eexists. split; [reflexivity|].
  replace (2 * (ln ((1 + u) / (1 - u)) / 2)) with (ln ((1 + u) / (1 - u))) by field.
  assert (0 < (1 + u) / (1 - u)) by (apply Rdiv_lt_0_compat; lra).
  unfold cosh, sinh. rewrite exp_Ropp, exp_ln by auto. split; field; repeat split; nra.
Qed.

(** Hyperbolic anomaly computed for the conic leg from a true-anomaly change d. *)
Lemma conic_anomaly : forall e d, 1 < e -> 0 <= d < PI -> 0 < 1 + e * cos d ->
  exists k t H, np_div (e - 1) (e + 1) = Some (k * k) /\ np_sqrt (k * k) = Some k /\ np_tan (0.5 * d) = Some t /\
   np_arctanh (k * t) = Some H /\ cosh (2 * H) = (e + cos d) / (1 + e * cos d) /\
   sinh (2 * H) = sqrt (e * e - 1) * sin d / (1 + e * cos d).
Proof.
  intros e d He Hd Hpos.
  set (k := sqrt ((e - 1) / (e + 1))). assert (Hq : 0 < (e - 1) / (e + 1)) by (apply Rdiv_lt_0_compat; lra).
  assert (Hk : 0 < k) by (apply sqrt_lt_R0; auto). assert (Hkk : k * k = (e - 1) / (e + 1)) by (apply sqrt_sqrt; lra).
  set (w := 0.5 * d). assert (Hw : d = 2 * w) by (unfold w; lra).
  assert (Hcw : 0 < cos w) by (apply cos_gt_0; unfold w; lra).
  assert (Hsw : 0 <= sin w) by (apply sin_ge_0; unfold w; lra).
  set (t := sin w / cos w).
  pose proof (sin2cos2 w) as SC. assert (Hx : cos d = 2 * (cos w * cos w) - 1) by (rewrite Hw, cos_2a_cos; ring).
  assert (Hs : sin d = 2 * sin w * cos w) by (rewrite Hw, sin_2a; ring).
  set (x := cos d) in *. assert (Hcc : cos w * cos w = (1 + x) / 2) by lra. assert (Hsws : sin w * sin w = (1 - x) / 2) by lra.
  assert (Hx1 : 0 < 1 + x) by nra.
  assert (Htt : t * t = (1 - x) / (1 + x)).
  { unfold t. transitivity (sin w * sin w / (cos w * cos w)); [field; lra|]. rewrite Hcc, Hsws. field. lra. }
  assert (Huu : k * t * (k * t) = (e - 1) * (1 - x) / ((e + 1) * (1 + x))).
  { transitivity (k * k * (t * t)); [ring|]. rewrite Hkk, Htt. field. lra. }
  assert (Ht0 : 0 <= t) by (unfold t; apply Rle_mult_inv_pos; auto).
  assert (Hu1 : k * t * (k * t) < 1).
  { rewrite Huu. apply Rmult_lt_reg_r with ((e + 1) * (1 + x)); [nra|]. unfold Rdiv. rewrite Rmult_assoc, Rinv_l by nra. nra. }
  assert (Hu : -1 < k * t < 1) by nra.
  destruct (arctanh_facts (k * t) Hu) as (H & E1 & E2 & E3).
  exists k, t, H. split; [rewrite Hkk; apply np_div_some; lra|]. split; [rewrite np_sqrt_some by nra; f_equal; apply sqrt_square; lra|].
  split; [unfold np_tan; apply np_div_some; fold w; lra|]. split; [auto|]. split.
  - rewrite E2, Huu. field. repeat split; first [lra | nra].
  - rewrite E3, Huu.
    assert (Hb : sqrt (e * e - 1) = k * (e + 1)).
    { apply sq_eq_nonneg; [apply sqrt_pos|nra|]. rewrite sqrt_sqrt by nra.
      transitivity (k * k * ((e + 1) * (e + 1))); [|ring]. rewrite Hkk. field. lra. }
    assert (Hst : sin d = t * (1 + x)).
    { rewrite Hs. unfold t. replace (1 + x) with (2 * (cos w * cos w)) by lra. field. lra. }
    rewrite Hb, Hst. field. repeat split; first [lra | nra].
Qed.

(** A state on a conic with e > 1 is a state of the hyperbolic motion; H is the anomaly at -d. *)
Lemma conic_is_hyp : forall mu a e P W d H, 0 < mu -> 0 < a -> 1 < e -> 0 < 1 + e * cos d ->
  cosh H = (e + cos d) / (1 + e * cos d) -> sinh H = sqrt (e * e - 1) * sin d / (1 + e * cos d) ->
  let h := sqrt (mu * a * (e * e - 1)) in
  conic_pos mu h e P W (- d) = hyp_pos a e P W (- H) /\ conic_vel mu h e P W (- d) = hyp_vel mu a e P W (- H).
Proof.
  intros mu a e P W d H Hmu Ha He Hpos Hc Hs h.
  assert (Hb0 : 0 < e * e - 1) by nra.
  assert (Hma : 0 < mu * a) by nra.
  assert (Hhh : h * h = mu * a * (e * e - 1)) by (apply sqrt_sqrt; nra).
  assert (Hh : h = sqrt (mu * a) * sqrt (e * e - 1)) by (apply sqrt_mult_alt; lra).
  set (b := sqrt (e * e - 1)) in *. set (m := sqrt (mu * a)) in *.
  assert (Hb : 0 < b) by (apply sqrt_lt_R0; lra). assert (Hm : 0 < m) by (apply sqrt_lt_R0; lra).
  assert (Hbb : b * b = e * e - 1) by (apply sqrt_sqrt; lra). assert (Hmm : m * m = mu * a) by (apply sqrt_sqrt; lra).
  unfold conic_pos, conic_vel, hyp_pos, hyp_vel, perifocal, conic_radius. fold b m.
  rewrite !cosh_neg, !sinh_neg, !cos_neg, !sin_neg, Hc, Hs, Hhh.
  set (x := cos d) in *. set (s := sin d).
  assert (Hee : e * e = 1 + b * b) by lra.
  assert (Hmu' : mu = m * m / a) by (rewrite Hmm; field; lra).
  generalize (cross W P). intros Q. split.
  - assert (K1 : mu * a * (e * e - 1) / mu / (1 + e * x) * x = a * (e - (e + x) / (1 + e * x))) by (field; lra).
    assert (K2 : mu * a * (e * e - 1) / mu / (1 + e * x) * s = a * (b * (b * s / (1 + e * x)))) by (rewrite <- Hbb; field; lra).
    clear -K1 K2. destruct P as [p1 p2 p3], Q as [q1 q2 q3]. apply vec_eq; vsimpl;
      [transitivity (mu * a * (e * e - 1) / mu / (1 + e * x) * x * p1 - mu * a * (e * e - 1) / mu / (1 + e * x) * s * q1)
      |transitivity (mu * a * (e * e - 1) / mu / (1 + e * x) * x * p2 - mu * a * (e * e - 1) / mu / (1 + e * x) * s * q2)
      |transitivity (mu * a * (e * e - 1) / mu / (1 + e * x) * x * p3 - mu * a * (e * e - 1) / mu / (1 + e * x) * s * q3)];
      try ring; rewrite K1, K2; ring.
  - assert (Hcoef : a * (e * ((e + x) / (1 + e * x)) - 1) = a * (b * b) / (1 + e * x)) by (rewrite Hbb; field; lra).
    rewrite Hcoef, Hh, Hmu'. apply vec_eq; vsimpl; field; repeat split; lra.
Qed.

(** Departure velocity computed from Lagrange coefficients on the approach conic itself. *)
Lemma conic_lagrange : forall mu a e P W d, 0 < mu -> 0 < a -> 1 < e -> norm2 P = 1 -> norm2 W = 1 -> dot W P = 0 ->
  0 < 1 + e * cos d -> sin d <> 0 ->
  let h := sqrt (mu * a * (e * e - 1)) in let rho := conic_radius mu h e d in let rp := a * (e - 1) in let p := a * (e * e - 1) in
  let f := 1 - rp / p * (1 - cos d) in let g := rho * rp / h * sin d in
  g <> 0 /\ vscale (1 / g) (vsub (vscale rp P) (vscale f (conic_pos mu h e P W (- d)))) = conic_vel mu h e P W (- d).
Proof.
  intros mu a e P W d Hmu Ha He HP HW HWP Hpos Hs h rho rp p f g.
  assert (Hb0 : 0 < e * e - 1) by nra. assert (Hma : 0 < mu * a) by nra.
  assert (Hhh : h * h = mu * a * (e * e - 1)) by (apply sqrt_sqrt; nra).
  assert (Hh : 0 < h) by (apply sqrt_lt_R0; nra).
  unfold conic_pos, conic_vel, perifocal, g, f, rho, rp, p, conic_radius. rewrite !cos_neg, !sin_neg.
  assert (Hg : a * (e * e - 1) * (a * (e - 1)) * sin d / (h * (1 + e * cos d)) <> 0).
  { unfold Rdiv. repeat apply Rmult_integral_contrapositive_currified; auto; try lra. apply Rinv_neq_0_compat. nra. }
  rewrite Hhh. split.
  - intros Z. apply Hg. rewrite <- Z. field. repeat split; lra.
  - pose proof (sin2cos2 d) as SC. set (x := cos d) in *. set (s := sin d) in *. assert (Hss : s * s = 1 - x * x) by lra.
    generalize (cross W P). intros Q.
    assert (K1 : 1 / (mu * a * (e * e - 1) / mu / (1 + e * x) * (a * (e - 1)) / h * s) *
       (a * (e - 1) - (1 - a * (e - 1) / (a * (e * e - 1)) * (1 - x)) * (mu * a * (e * e - 1) / mu / (1 + e * x)) * x) = mu / h * s).
    { transitivity (h * h / (h * (a * (e * e - 1))) * ((1 - x * x) / s)); [field; repeat split; lra|]. rewrite <- Hss, Hhh. field. repeat split; lra. }
    assert (K2 : 1 / (mu * a * (e * e - 1) / mu / (1 + e * x) * (a * (e - 1)) / h * s) *
       ((1 - a * (e - 1) / (a * (e * e - 1)) * (1 - x)) * (mu * a * (e * e - 1) / mu / (1 + e * x)) * s) = mu / h * (e + x)).
    { transitivity (h * h / h / (a * (e * e - 1)) * (e + x)); [field; repeat split; lra|]. rewrite Hhh. field. repeat split; lra. }
    revert K1 K2. generalize (1 / (mu * a * (e * e - 1) / mu / (1 + e * x) * (a * (e - 1)) / h * s)); intros G.
    generalize (1 - a * (e - 1) / (a * (e * e - 1)) * (1 - x)) (mu * a * (e * e - 1) / mu / (1 + e * x)).
    intros F RR K1 K2. clear -K1 K2. destruct P as [p1 p2 p3], Q as [q1 q2 q3]. apply vec_eq; vsimpl;
      [transitivity (G * (a * (e - 1) - F * RR * x) * p1 + G * (F * RR * s) * q1)
      |transitivity (G * (a * (e - 1) - F * RR * x) * p2 + G * (F * RR * s) * q2)
      |transitivity (G * (a * (e - 1) - F * RR * x) * p3 + G * (F * RR * s) * q3)]; try ring; rewrite K1, K2; ring.
Qed.

(** Size of the approach hyperbola. *)
Lemma hyper_size : forall A V a e b h P W, hyper A V a e b h P W -> let mu := GM (ap_planet A) in 0 < mu -> 0 < ap_rp A ->
  Rabs a = mu / (V * V) /\ 0 < Rabs a /\ ap_rp A = Rabs a * (e - 1) /\ a * (1 - e * e) = Rabs a * (e * e - 1) /\
  h = sqrt (mu * Rabs a * (e * e - 1)) /\ mu / (2 * Rabs a) = V * V / 2.
Proof.
  intros A V a e b h P W K mu Hmu Hrp.
  pose proof (hy_Vpos _ _ _ _ _ _ _ _ K) as HV. pose proof (hy_e1 _ _ _ _ _ _ _ _ K) as He.
  pose proof (hy_av _ _ _ _ _ _ _ _ K) as Hav. pose proof (hy_ev _ _ _ _ _ _ _ _ K) as Hev.
  pose proof (hy_hpos _ _ _ _ _ _ _ _ K) as Hh. pose proof (hy_h2 _ _ _ _ _ _ _ _ K) as Hh2.
  fold mu in Hav, Hev, Hh2.
  assert (Hq : 0 < mu / (V * V)) by pos.
  assert (Ha : Rabs a = mu / (V * V)).
  { rewrite Hav. replace (- mu / (V * V)) with (- (mu / (V * V))) by (field; lra). rewrite Rabs_Ropp. apply Rabs_pos_eq. lra. }
  assert (Haa : a = - Rabs a) by (rewrite Ha, Hav; field; lra).
  assert (Hrp' : ap_rp A = Rabs a * (e - 1)) by (rewrite Ha, Hev; field; lra).
  split; [auto|]. split; [lra|]. split; [auto|]. split; [rewrite Haa at 1; ring|]. split.
  - symmetry. rewrite <- (sqrt_square h) by lra. f_equal. rewrite Hh2, Hrp'. ring.
  - rewrite Ha. field. lra.
Qed.

Lemma hyp_pos_0 : forall a e P W, hyp_pos a e P W 0 = vscale (a * (e - 1)) P.
Proof. intros. unfold hyp_pos. rewrite cosh_0, sinh_0. generalize (cross W P). intros. apply vec_eq; vsimpl; ring. Qed.

Lemma probe_leg : forall A V a e b h P W W' rho th, hyper A V a e b h P W -> let mu := GM (ap_planet A) in let rp := ap_rp A in
  0 < mu -> 0 < rp -> rp < rho -> norm2 W' = 1 -> dot W' P = 0 -> theta_star_dv A mu rho = Some th ->
  let r := conic_pos mu h e P W' th in let v := conic_vel mu h e P W' th in
  exists T H, norm r = rho /\
    (leto p := P_conic A in arc_velocity A mu rho r p (Rabs th)) = Some v /\
    TOF_conic A mu (Rabs th) = Some T /\ 0 < H /\ e * cosh H = 1 + rho / Rabs a /\
    T * 86400 = sqrt (Rabs a ^ 3 / mu) * (e * sinh H - H) /\
    energy mu r v = V * V / 2 /\ coasts_to mu (Rabs a) r v (vscale rp P) (T * 86400).
Proof.
  intros A V a e b h P W W' rho th K mu rp Hmu Hrp Hlt HW' HWP' Hth r v.
  destruct (hyper_size _ _ _ _ _ _ _ _ K Hmu Hrp) as (Ha & Ha0 & Hrpv & Hpv & Hh & Hen). fold mu rp in Ha, Hrpv, Hh, Hen.
  destruct (dv_anomaly A V a e b h P W rho K Hmu Hrp ltac:(lra)) as (_ & D).
  destruct D as (th' & D1 & D2 & D3 & D4 & D5 & D6 & _); [fold rp; lra|]. fold mu in D1, D5. fold rp in D3, D6. rewrite Hth in D1. injection D1 as <-. specialize (D6 Hlt).
  pose proof (hy_e1 _ _ _ _ _ _ _ _ K) as He. pose proof (hy_P1 _ _ _ _ _ _ _ _ K) as HP1. pose proof (hy_hpos _ _ _ _ _ _ _ _ K) as Hhp.
  set (al := Rabs a) in *.
  assert (Hd : Rabs th = - th) by (apply Rabs_left; auto). rewrite Hd. set (d := - th).
  assert (Hthd : th = - d) by (unfold d; ring).
  assert (Hdr : 0 < d < PI) by (unfold d; lra).
  assert (Hcd : cos th = cos d) by (rewrite Hthd, cos_neg; auto). rewrite Hcd in D4, D3.
  assert (Hsd : 0 < sin d) by (apply sin_gt_0; lra).
  destruct (conic_anomaly e d He ltac:(lra) D4) as (k & t & Hh2 & E1 & E2 & E3 & E4 & E5 & E6).
  set (H := 2 * Hh2) in *.
  destruct (conic_is_hyp mu al e P W' d H Hmu Ha0 He D4 E5 E6) as (Cp & Cv). rewrite <- Hh in Cp, Cv.
  destruct (conic_lagrange mu al e P W' d Hmu Ha0 He HP1 HW' HWP' D4 ltac:(lra)) as (Lg & Lv). rewrite <- Hh in Lg, Lv.
  assert (Hrho : conic_radius mu h e d = rho) by (unfold conic_radius in *; rewrite <- Hcd; auto).
  rewrite Hrho in Lg, Lv. rewrite <- Hrpv in Lg, Lv.
  assert (Hr : r = conic_pos mu h e P W' (- d)) by (unfold r; rewrite Hthd; auto).
  assert (Hv : v = conic_vel mu h e P W' (- d)) by (unfold v; rewrite Hthd; auto).
  assert (Hpp : 0 < al * (e * e - 1)) by (apply Rmult_lt_0_compat; nra).
  destruct (conic_state mu h e P W' th Hmu Hhp HP1 HW' HWP' ltac:(rewrite Hcd; auto)) as (S1 & S2 & S3 & S4 & _). fold r v in S1, S2, S3, S4.
  assert (Hsh : 0 < sinh H).
  { rewrite E6. apply Rdiv_lt_0_compat; auto. apply Rmult_lt_0_compat; auto. apply sqrt_lt_R0. nra. }
  assert (HH : 0 < H).
  { destruct (Rle_lt_dec H 0) as [Z|Z]; auto. pose proof (sinh_nonneg (- H) ltac:(lra)) as Q. rewrite sinh_neg in Q. lra. }
  assert (Hek : 0 < e * sinh H - H). { pose proof (ekepler_mono e 0 H He HH) as Q. rewrite sinh_0 in Q. lra. }
  set (T := sqrt (al ^ 3 / mu) * Rabs (e * sinh H - H) / 86400).
  assert (HT : T * 86400 = sqrt (al ^ 3 / mu) * (e * sinh H - H)) by (unfold T; rewrite (Rabs_pos_eq (e * sinh H - H)) by lra; field).
  exists T, H. split; [rewrite S1, D5; auto|]. split; [|split; [|split; [auto|split; [|split; [auto|split]]]]].
  - unfold P_conic. rewrite (hy_a _ _ _ _ _ _ _ _ K), (hy_e _ _ _ _ _ _ _ _ K). cbn [obind]. rewrite Hpv.
    unfold arc_velocity, lagrange_f, lagrange_g, lagrange_v. fold rp. rewrite np_div_some by lra. cbn [obind].
    rewrite np_sqrt_some by nra. cbn [obind]. replace (mu * (al * (e * e - 1))) with (mu * al * (e * e - 1)) by ring. rewrite <- Hh.
    rewrite np_div_some by lra. cbn [obind]. rewrite (hy_rv _ _ _ _ _ _ _ _ K). cbn [obind]. fold rp.
    rewrite np_div_some by exact Lg. cbn [obind]. rewrite Hr, Hv, <- Lv. reflexivity.
  - unfold TOF_conic. rewrite (hy_a _ _ _ _ _ _ _ _ K), (hy_e _ _ _ _ _ _ _ _ K). cbn [obind]. rewrite E1. cbn [obind]. rewrite E2. cbn [obind].
    rewrite E3. cbn [obind]. rewrite E4. cbn [obind]. fold al. rewrite np_div_some by lra. cbn [obind]. rewrite np_sqrt_some by (apply Rle_mult_inv_pos; [apply pow_le; lra|auto]). reflexivity.
  - rewrite E5. rewrite <- D5. unfold conic_radius. rewrite Hcd. replace (h * h) with (mu * al * (e * e - 1)) by (rewrite Hh; symmetry; apply sqrt_sqrt; nra). field. lra.
  - rewrite S4, <- Hen. replace (h * h) with (mu * al * (e * e - 1)) by (rewrite Hh; symmetry; apply sqrt_sqrt; nra). field. repeat split; nra.
  - exists e, P, W', (- H), 0. split; [auto|]. split; [auto|]. split; [auto|]. split; [auto|].
    split; [rewrite Hr; auto|]. split; [rewrite Hv; auto|]. split; [rewrite hyp_pos_0, Hrpv; auto|].
    rewrite HT. unfold hyp_time. rewrite sinh_0, sinh_neg. ring.
Qed.

(** Angle between the maneuver point and a periapsis direction. *)
Lemma angle_to_eq : forall A V a e b h P W r, hyper A V a e b h P W -> r <> vzero ->
  exists d, angle_to A r = Some d /\ 0 <= d <= PI /\ dot r P = norm r * cos d /\
    (cross r P <> vzero -> 0 < d < PI) /\ (cross r P = vzero -> sin d = 0).
Proof.
  intros A V a e b h P W r K Hr. unfold angle_to. rewrite (hy_P _ _ _ _ _ _ _ _ K). cbn [obind].
  rewrite unit_of_some by auto. cbn [obind]. pose proof (hy_P1 _ _ _ _ _ _ _ _ K) as HP1.
  pose proof (norm_pos r Hr) as Hn. set (u := vscale (1 / norm r) r).
  assert (Hu : norm2 u = 1) by (apply unit_norm2; auto).
  assert (Hb : -1 <= dot P u <= 1) by (apply cauchy_unit; auto).
  rewrite np_arccos_some by auto. exists (acos (dot P u)). split; [reflexivity|].
  destruct (cos_sin_acos (dot P u) Hb) as (C1 & C2 & C3). pose proof (acos_bound (dot P u)) as Hab.
  assert (Hd : dot r P = norm r * cos (acos (dot P u))).
  { rewrite C1. unfold u. rewrite dot_vscale_r. replace (dot P r) with (dot r P) by (vsimpl; ring). field. lra. }
  assert (Hx : norm2 (cross r P) = norm r * norm r * (sin (acos (dot P u)) * sin (acos (dot P u)))).
  { rewrite cross_norm2, HP1, Hd, C1, C3, <- (norm_sq r). ring. }
  split; [lra|]. split; [auto|]. split.
  - intros Hc. assert (sin (acos (dot P u)) <> 0).
    { intros Z. apply Hc. rewrite Z in Hx. apply norm2_zero. lra. }
    assert (acos (dot P u) <> 0) by (intros Z; rewrite Z, sin_0 in H; lra).
    assert (acos (dot P u) <> PI) by (intros Z; rewrite Z, sin_PI in H; lra). lra.
  - intros Hc. rewrite Hc in Hx. replace (norm2 vzero) with 0 in Hx by (vsimpl; ring).
    assert (Hnn : norm r * norm r <> 0) by nra. symmetry in Hx. destruct (Rmult_integral _ _ Hx) as [Z|Z]; [contradiction|].
    destruct (Rmult_integral _ _ Z); auto.
Qed.

Lemma lambert_leg : forall B V a e b h P W r, hyper B V a e b h P W -> let mu := GM (ap_planet B) in let rp := ap_rp B in
  0 < mu -> 0 < rp -> r <> vzero -> let rho := norm r in
  exists d, angle_to B r = Some d /\
  (cross r P = vzero -> (leto l := lambert_of B rho d in arc_velocity B mu rho r (lb_P l) d) = None) /\
  (cross r P <> vzero -> exists L v T, lambert_of B rho d = Some L /\ arc_velocity B mu rho r (lb_P L) d = Some v /\
     TOF_lambert B mu L = Some T /\ 0 < T /\ energy mu r v = V * V / 2 /\
     coasts_to mu (Rabs a) r v (vscale rp P) (T * 86400) /\
     0 < lb_P L /\ (let k := rho * rp * (1 - cos d) in let CC := rho * rho + rp * rp - 2 * rho * rp * cos d in
      k * (rho + rp) < lb_P L * CC /\
      Rabs a * (CC * (lb_P L * lb_P L) - 2 * k * (rho + rp) * lb_P L + k * k) = rho * rp * (1 + cos d) * k * lb_P L)).
Proof.
  intros B V a e b h P W r K mu rp Hmu Hrp Hr rho.
  destruct (angle_to_eq _ _ _ _ _ _ _ _ r K Hr) as (d & A1 & A2 & A3 & A4 & A5). exists d. split; [auto|].
  pose proof (norm_pos r Hr) as Hn. fold rho in Hn, A3.
  split.
  - intros Hc. specialize (A5 Hc). destruct (lambert_of B rho d) as [l|]; [|reflexivity]. cbn [obind].
    unfold arc_velocity. destruct (lagrange_f (ap_rp B) (lb_P l) d) as [f|]; [|reflexivity]. cbn [obind].
    unfold lagrange_g. destruct (np_sqrt (mu * lb_P l)) as [s|]; [|reflexivity]. cbn [obind].
    destruct (np_div (rho * ap_rp B) s) as [q|]; [|reflexivity]. cbn [obind].
    destruct (rp_vec B) as [w|]; [|reflexivity]. cbn [obind]. unfold lagrange_v. replace (q * sin d) with 0 by (rewrite A5; ring). rewrite np_div_zero. reflexivity.
  - intros Hc. specialize (A4 Hc). clear A5.
    destruct (hyper_size _ _ _ _ _ _ _ _ K Hmu Hrp) as (Ha & Ha0 & Hrpv & Hpv & Hh & Hen). fold mu rp in Ha, Hrpv, Hh, Hen.
    pose proof (hy_P1 _ _ _ _ _ _ _ _ K) as HP1. set (al := Rabs a) in *. set (R2 := vscale rp P).
    assert (Hn2 : norm R2 = rp). { unfold R2. apply norm_eq; [lra|]. rewrite norm2_vscale, HP1. ring. }
    assert (HR2 : R2 <> vzero). { intros Z. rewrite Z in Hn2. unfold norm in Hn2. replace (norm2 vzero) with 0 in Hn2 by (vsimpl; ring). rewrite sqrt_0 in Hn2. lra. }
    assert (Hdot : dot r R2 = norm r * norm R2 * cos d). { rewrite Hn2. unfold R2. rewrite dot_vscale_r, A3. unfold rho. ring. }
    pose proof (lambert_arc mu al r R2 d Hmu Ha0 Hr HR2 A4 Hdot) as LA. cbv zeta in LA. rewrite Hn2 in LA. fold rho in LA.
    set (C := sqrt (rp * rp + rho * rho - 2 * rp * rho * cos d)) in *.
    set (S := (rp + rho + C) / 2) in *.
    set (a1 := 2 * arcsinh (sqrt (S / (2 * al)))) in *. set (b1 := 2 * arcsinh (sqrt ((S - C) / (2 * al)))) in *.
    set (p := 4 * al * (S - rp) * (S - rho) / (C * C) * (sinh ((a1 + b1) / 2) * sinh ((a1 + b1) / 2))) in *.
    set (f := 1 - rp / p * (1 - cos d)) in *. set (g := rho * rp / sqrt (mu * p) * sin d) in *.
    set (v := vscale (1 / g) (vsub R2 (vscale f r))) in *.
    destruct LA as (L1 & L2 & L3 & L4 & L5 & L6 & L7 & L8).
    set (T := sqrt (al ^ 3 / mu) * ((sinh a1 - a1) - (sinh b1 - b1)) / 86400).
    assert (HC2 : 0 <= rp * rp + rho * rho - 2 * rp * rho * cos d).
    { pose proof (COS_bound d). assert (0 < rp * rho) by nra. generalize (Rle_0_sqr (rp - rho)); unfold Rsqr. nra. }
    exists (mkLambert C S a1 b1 p), v, T. split; [|split; [|split; [|split; [|split; [|split; [|split]]]]]].
    + unfold lambert_of. rewrite (hy_a _ _ _ _ _ _ _ _ K). cbn [obind]. unfold chord. fold rp. rewrite np_sqrt_some by auto. fold C. cbn [obind].
      assert (HS : semiperimeter rp rho C = S) by (unfold semiperimeter, S; lra). rewrite HS. unfold half_angle. fold al.
      rewrite np_div_some by lra. cbn [obind]. rewrite np_sqrt_some by (apply Rle_mult_inv_pos; lra). cbn [obind].
      rewrite np_div_some by lra. cbn [obind]. rewrite np_sqrt_some by (apply Rle_mult_inv_pos; lra). cbn [obind].
      rewrite np_div_some by nra. cbn [obind]. fold a1 b1. replace (0.5 * (a1 + b1)) with ((a1 + b1) / 2) by lra. reflexivity.
    + unfold arc_velocity, lagrange_f, lagrange_g, lagrange_v. cbn [lb_P]. fold rp. rewrite np_div_some by lra. cbn [obind].
      rewrite np_sqrt_some by nra. cbn [obind]. rewrite np_div_some by (apply Rgt_not_eq; apply sqrt_lt_R0; nra). cbn [obind].
      rewrite (hy_rv _ _ _ _ _ _ _ _ K). cbn [obind]. fold rp. rewrite np_div_some by (fold g; lra). reflexivity.
    + unfold TOF_lambert. rewrite (hy_a _ _ _ _ _ _ _ _ K). cbn [obind]. fold al. rewrite np_div_some by lra. cbn [obind].
      rewrite np_sqrt_some by (apply Rle_mult_inv_pos; [apply pow_le; lra|auto]). reflexivity.
    + unfold T. pose proof (sinh_minus_mono b1 a1 ltac:(lra) ltac:(lra)). apply Rdiv_lt_0_compat; [|lra]. apply Rmult_lt_0_compat; [|lra].
      apply sqrt_lt_R0. apply Rdiv_lt_0_compat; auto. apply pow_lt; auto.
    + rewrite L6, <- Hen. reflexivity.
    + replace (T * 86400) with (sqrt (al ^ 3 / mu) * (sinh a1 - a1 - (sinh b1 - b1))) by (unfold T; field). exact L7.
    + exact L3.
    + cbv zeta in L8 |- *. cbn [lb_P]. assert (HCC : C * C = rho * rho + rp * rp - 2 * rho * rp * cos d) by (unfold C; rewrite sqrt_sqrt; lra).
      rewrite HCC in L8. exact L8.
Qed.

Lemma lambert_root_unique : forall a CC c k l m p q, 0 < a -> 0 < c -> c < l -> 0 < k -> CC = c * c ->
  a * (CC * (p * p) - 2 * k * l * p + k * k) = m * k * p -> a * (CC * (q * q) - 2 * k * l * q + k * k) = m * k * q ->
  k * l < p * CC -> k * l < q * CC -> p = q.
Proof.
  intros a CC c k l m p q Ha Hc Hl Hk HCC Hp Hq Hp1 Hq1. destruct (Req_dec p q) as [E|E]; auto. exfalso.
  assert (HC : 0 < CC) by (rewrite HCC; nra).
  assert (S : a * CC * (p + q) = 2 * a * k * l + m * k).
  { apply Rmult_eq_reg_l with (p - q); [|lra]. lra. }
  assert (Pq : CC * (p * q) = k * k).
  { apply Rmult_eq_reg_l with a; auto; [|lra].
    assert (Hm : m * k = a * CC * (p + q) - 2 * a * k * l) by lra. rewrite Hm in Hp. lra. }
  assert (H1 : k * l * (k * l) < p * CC * (q * CC)) by (apply Rmult_le_0_lt_compat; auto; nra).
  replace (p * CC * (q * CC)) with (CC * (CC * (p * q))) in H1 by ring. rewrite Pq, HCC in H1.
  assert (Hcl : c * c < l * l) by nra. assert (Hkk : 0 < k * k) by nra. pose proof (Rmult_lt_compat_l _ _ _ Hkk Hcl). lra.
Qed.

(** On its own approach hyperbola the Lambert leg is that hyperbola. *)
Lemma own_lambert : forall A V a e b h P W rho th, hyper A V a e b h P W -> let mu := GM (ap_planet A) in let rp := ap_rp A in
  0 < mu -> 0 < rp -> rp < rho -> theta_star_dv A mu rho = Some th -> let r := conic_pos mu h e P W th in
  exists L T, angle_to A r = Some (Rabs th) /\ lambert_of A rho (Rabs th) = Some L /\
    arc_velocity A mu rho r (lb_P L) (Rabs th) = Some (conic_vel mu h e P W th) /\
    TOF_lambert A mu L = Some T /\ 0 < T /\ coasts_to mu (Rabs a) r (conic_vel mu h e P W th) (vscale rp P) (T * 86400).
Proof.
  intros A V a e b h P W rho th K mu rp Hmu Hrp Hlt Hth r.
  destruct (dv_anomaly A V a e b h P W rho K Hmu Hrp ltac:(lra)) as (_ & D).
  destruct D as (th' & D1 & D2 & D3 & D4 & D5 & D6 & _); [fold rp; lra|]. fold mu in D1, D5. fold rp in D3, D6. rewrite Hth in D1. injection D1 as <-. specialize (D6 Hlt).
  destruct (hyper_size _ _ _ _ _ _ _ _ K Hmu Hrp) as (Ha & Ha0 & Hrpv & Hpv & Hh & Hen). fold mu rp in Ha, Hrpv, Hh, Hen.
  pose proof (hy_e1 _ _ _ _ _ _ _ _ K) as He. pose proof (hy_P1 _ _ _ _ _ _ _ _ K) as HP1. pose proof (hy_hpos _ _ _ _ _ _ _ _ K) as Hhp.
  pose proof (hy_W1 _ _ _ _ _ _ _ _ K) as HW1. pose proof (hy_WP _ _ _ _ _ _ _ _ K) as HWP.
  destruct (probe_leg A V a e b h P W W rho th K Hmu Hrp Hlt HW1 HWP Hth) as (T0 & H0 & B1 & B2 & _). fold mu in B1, B2. fold r in B1, B2.
  assert (Hr : r <> vzero). { intros Z. rewrite Z in B1. unfold norm in B1. replace (norm2 vzero) with 0 in B1 by (vsimpl; ring). rewrite sqrt_0 in B1. lra. }
  destruct (lambert_leg A V a e b h P W r K Hmu Hrp Hr) as (d & L1 & _ & L2). fold mu in L2. fold rp in L2.
  destruct (angle_to_eq A V a e b h P W r K Hr) as (d' & G1 & G2 & G3 & G4 & _). rewrite L1 in G1. injection G1 as <-.
  assert (Hd : Rabs th = - th) by (apply Rabs_left; auto).
  assert (Hs : 0 < sin (- th)) by (apply sin_gt_0; lra). rewrite sin_neg in Hs.
  assert (Hdot : dot r P = rho * cos th).
  { unfold r, conic_pos. rewrite dot_vscale_l, D5. f_equal. unfold perifocal.
    destruct (frame_facts P W HP1 HW1 HWP) as (F1 & F2 & _).
    replace (dot (vadd (vscale (cos th) P) (vscale (sin th) (cross W P))) P) with (cos th * norm2 P + sin th * dot (cross W P) P) by (unfold norm2; generalize (cross W P); intros; vsimpl; ring).
    rewrite HP1, F2. ring. }
  assert (Hdd : d = Rabs th).
  { rewrite B1 in G3. rewrite Hdot in G3. rewrite Hd. 
    assert (cos d = cos (- th)) by (rewrite cos_neg; apply Rmult_eq_reg_l with rho; lra).
    rewrite <- (acos_cos d) by lra. rewrite H. apply acos_cos. lra. }
  assert (Hc : cross r P <> vzero).
  { intros Z. assert (Q : norm2 (cross r P) = 0) by (rewrite Z; vsimpl; ring). rewrite cross_norm2, HP1, Hdot, <- norm_sq, B1 in Q.
    pose proof (sin2cos2 th) as SC. assert (0 < rho * rho) by nra. assert (rho * rho * (sin th * sin th) = 0) by (replace (sin th * sin th) with (1 - cos th * cos th) by lra; lra).
    destruct (Rmult_integral _ _ H1) as [Z1|Z1]; [lra|]. nra. }
  destruct (L2 Hc) as (L & v & T & M1 & M2 & M3 & M4 & M5 & M6 & M7 & M8 & M9). cbv zeta in M8, M9. rewrite B1 in M1, M2, M8, M9. subst d.
  set (al := Rabs a) in *. set (x := cos (Rabs th)) in *.
  assert (Hxt : x = cos th) by (unfold x; rewrite Hd; apply cos_neg).
  assert (HP : lb_P L = a * (1 - e * e)).
  { rewrite Hpv. assert (Hrho : rho = al * (e * e - 1) / (1 + e * x)).
    { rewrite Hxt, D3, Hrpv. field. repeat split; nra. }
    assert (Hx : -1 < x < 1). { pose proof (sin2cos2 th). rewrite Hxt. split; nra. }
    assert (H1x : 0 < 1 + e * x) by (rewrite Hxt; auto).
    assert (Hrr : 0 < rho * rp) by nra.
    set (CC := rho * rho + rp * rp - 2 * rho * rp * x) in *.
    assert (HCC : 0 < CC). { unfold CC. generalize (Rle_0_sqr (rho - rp)); unfold Rsqr. nra. }
    assert (HCs : CC = sqrt CC * sqrt CC) by (symmetry; apply sqrt_sqrt; lra).
    apply (lambert_root_unique al CC (sqrt CC) (rho * rp * (1 - x)) (rho + rp) (rho * rp * (1 + x))); auto.
    - apply sqrt_lt_R0; auto.
    - assert (CC < (rho + rp) * (rho + rp)) by (unfold CC; nra). pose proof (sqrt_lt_R0 _ HCC). nra.
    - nra.
    - unfold CC. rewrite Hrpv, Hrho. field. lra.
    - assert (al * (e * e - 1) * CC - rho * rp * (1 - x) * (rho + rp) = al * (e * e - 1) * e * rho * rp * (1 - x * x) / (1 + e * x)).
      { unfold CC. rewrite Hrpv, Hrho. field. lra. }
      assert (0 < al * (e * e - 1) * e * rho * rp * (1 - x * x) / (1 + e * x)); [|lra].
      assert (0 < e * e - 1) by nra. assert (0 < 1 - x * x) by nra. apply Rdiv_lt_0_compat; auto. mpos. }
  exists L, T. rewrite HP in M2.
  assert (Hv : v = conic_vel mu h e P W th).
  { unfold P_conic in B2. rewrite (hy_a _ _ _ _ _ _ _ _ K), (hy_e _ _ _ _ _ _ _ _ K) in B2. cbn [obind] in B2. rewrite M2 in B2. congruence. }
  rewrite HP. rewrite <- Hv. auto 10.
Qed.
