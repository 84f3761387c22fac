(** Hyperbolic motion and Lambert's problem. *)
From Coq Require Import Nsatz.
Require Import Verif.Base Verif.FrameModel Verif.FrameProofs Verif.ConicSpec Verif.ConicProofs.
Local Open Scope R_scope.

(** Positivity of syntactic products. *)
Ltac mpos := lazymatch goal with |- 0 < _ * _ => apply Rmult_lt_0_compat; mpos | |- _ => lra end.

Lemma cosh_sq : forall x, cosh x * cosh x = 1 + sinh x * sinh x.
Proof.
  intros. unfold cosh, sinh. assert (exp x * exp (- x) = 1) by (rewrite <- exp_plus; replace (x + - x) with 0 by ring; apply exp_0).
  nra.
Qed.
Lemma cosh_pos : forall x, 0 < cosh x.
Proof. intros. unfold cosh. pose proof (exp_pos x). pose proof (exp_pos (- x)). lra. Qed.
Lemma cosh_ge1 : forall x, 1 <= cosh x.
Proof. intros. pose proof (cosh_sq x). pose proof (cosh_pos x). nra. Qed.
Lemma sinh_plus : forall x y, sinh (x + y) = sinh x * cosh y + cosh x * sinh y.
Proof. intros. unfold sinh, cosh. rewrite Ropp_plus_distr, !exp_plus. field. Qed.
Lemma cosh_plus : forall x y, cosh (x + y) = cosh x * cosh y + sinh x * sinh y.
Proof. intros. unfold sinh, cosh. rewrite Ropp_plus_distr, !exp_plus. field. Qed.
Lemma sinh_neg : forall x, sinh (- x) = - sinh x.
Proof. intros. unfold sinh. rewrite Ropp_involutive. field. Qed.
Lemma cosh_neg : forall x, cosh (- x) = cosh x.
Proof. intros. unfold cosh. rewrite Ropp_involutive. field. Qed.
Lemma sinh_inj : forall x y, sinh x = sinh y -> x = y.
Proof. intros x y H. rewrite <- (arcsinh_sinh x), <- (arcsinh_sinh y), H; auto. Qed.
Lemma cosh_arcsinh : forall x, cosh (arcsinh x) = sqrt (1 + x * x).
Proof.
  intros. pose proof (cosh_sq (arcsinh x)) as H. rewrite sinh_arcsinh in H. pose proof (cosh_pos (arcsinh x)).
  rewrite <- H. symmetry. apply sqrt_square. lra.
Qed.
Lemma sinh_pos : forall x, 0 < x -> 0 < sinh x.
Proof. intros. rewrite <- sinh_0. apply sinh_lt; auto. Qed.
Lemma sinh_nonneg : forall x, 0 <= x -> 0 <= sinh x.
Proof. intros x [H|H]; [left; apply sinh_pos; auto|subst; rewrite sinh_0; lra]. Qed.

(** Equal hyperbolic tangents have equal arguments. *)
Lemma tanh_inj : forall x y, sinh x * cosh y = sinh y * cosh x -> x = y.
Proof.
  intros x y H. assert (sinh (x + - y) = 0) by (rewrite sinh_plus, cosh_neg, sinh_neg; lra).
  rewrite <- sinh_0 in H0. apply sinh_inj in H0. lra.
Qed.
Lemma anomaly_difference : forall e H1 H2 xi eta, 0 < e ->
  e * (cosh H1 + cosh H2) = 2 * cosh xi * cosh eta -> e * (sinh H2 - sinh H1) = 2 * cosh xi * sinh eta ->
  H2 - H1 = 2 * eta.
Proof.
  intros e H1 H2 xi eta He Hc Hs.
  set (m := (H1 + H2) / 2). set (d := (H2 - H1) / 2).
  replace H1 with (m + - d) in Hc, Hs by (unfold m, d; field). replace H2 with (m + d) in Hc, Hs by (unfold m, d; field).
  rewrite !cosh_plus, cosh_neg, sinh_neg in Hc. rewrite !sinh_plus, cosh_neg, sinh_neg in Hs.
  assert (d = eta); [|unfold d in *; lra].
  apply tanh_inj. pose proof (cosh_pos m). pose proof (cosh_pos xi).
  assert (E1 : e * cosh m * cosh d = cosh xi * cosh eta) by lra.
  assert (E2 : e * cosh m * sinh d = cosh xi * sinh eta) by lra.
  apply Rmult_eq_reg_l with (e * cosh m * cosh xi); [|apply Rgt_not_eq; unfold Rgt; mpos].
  transitivity ((e * cosh m * sinh d) * (cosh xi * cosh eta)); [ring|]. rewrite E2, <- E1. ring.
Qed.

(** e*sinh H - H increases for e > 1, and sinh x - x increases on x >= 0. *)
Lemma ekepler_deriv : forall e c, derivable_pt_lim (fun x => e * sinh x - x) c (e * cosh c - 1).
Proof.
  intros. apply derivable_pt_lim_minus; [|apply derivable_pt_lim_id].
  replace (e * cosh c) with (e * cosh c) by ring. apply derivable_pt_lim_scal. apply derivable_pt_lim_sinh.
Qed.
Lemma ekepler_mono : forall e x y, 1 < e -> x < y -> e * sinh x - x < e * sinh y - y.
Proof.
  intros e x y He Hxy.
  destruct (MVT_cor2 (fun x => e * sinh x - x) (fun c => e * cosh c - 1) x y Hxy) as (c & Hc & Hcb); [intros; apply ekepler_deriv|].
  cbv beta in Hc. pose proof (cosh_ge1 c). assert (0 < (e * cosh c - 1) * (y - x)) by (apply Rmult_lt_0_compat; nra). lra.
Qed.
Lemma sinh_minus_mono : forall x y, 0 <= x -> x < y -> sinh x - x < sinh y - y.
Proof.
  intros x y Hx Hxy.
  destruct (MVT_cor2 (fun x => 1 * sinh x - x) (fun c => 1 * cosh c - 1) x y Hxy) as (c & Hc & Hcb); [intros; apply ekepler_deriv|].
  assert (0 < sinh c) by (apply sinh_pos; lra). pose proof (cosh_sq c). pose proof (cosh_pos c).
  assert (1 < cosh c) by nra. cbv beta in Hc. assert (0 < (1 * cosh c - 1) * (y - x)) by (apply Rmult_lt_0_compat; lra). lra.
Qed.

(** The hyperbolic motion of ConicSpec is Newtonian: position, velocity and time satisfy
    dr/dH = v dt/dH and dv/dH = -mu r/|r|^3 dt/dH with dt/dH > 0. *)
Definition dtdH (mu a e H : R) : R := sqrt (a ^ 3 / mu) * (e * cosh H - 1).
Lemma ecosh_pos : forall e H, 1 < e -> 0 < e * cosh H - 1.
Proof. intros e H He. pose proof (cosh_ge1 H). nra. Qed.
Lemma hyp_radius : forall a e P W H, 0 < a -> 1 < e -> norm2 P = 1 -> norm2 W = 1 -> dot W P = 0 ->
  norm (hyp_pos a e P W H) = a * (e * cosh H - 1).
Proof.
  intros a e P W H Ha He HP HW HWP. pose proof (ecosh_pos e H He) as Hc. apply norm_eq; [apply Rmult_le_pos; lra|].
  destruct (frame_facts P W HP HW HWP) as (F1 & F2 & _).
  assert (Hs : sqrt (e * e - 1) * sqrt (e * e - 1) = e * e - 1) by (apply sqrt_sqrt; nra).
  unfold hyp_pos. set (Q := cross W P) in *. clearbody Q. set (b := sqrt (e * e - 1)) in *. clearbody b. pose proof (cosh_sq H) as Hcs.
  set (c := cosh H) in *. set (s := sinh H) in *. clearbody c s.
  rewrite norm2_vscale.
  transitivity (a * a * ((e - c) * (e - c) * norm2 P + (b * b) * (s * s) * norm2 Q + 2 * (e - c) * (b * s) * dot Q P)).
  - f_equal. destruct P, Q; vsimpl; ring.
  - rewrite HP, F1, F2, Hs. replace (s * s) with (c * c - 1) by lra. ring.
Qed.
Lemma deriv_lin : forall k1 k2 k3 H, derivable_pt_lim (fun x => k1 * cosh x + k2 * sinh x + k3) H (k1 * sinh H + k2 * cosh H).
Proof.
  intros. replace (k1 * sinh H + k2 * cosh H) with (k1 * sinh H + k2 * cosh H + 0) by ring.
  apply derivable_pt_lim_plus; [|apply derivable_pt_lim_const].
  apply derivable_pt_lim_plus; apply derivable_pt_lim_scal; [apply derivable_pt_lim_cosh|apply derivable_pt_lim_sinh].
Qed.
Lemma deriv_ext : forall f g x l, (forall y, f y = g y) -> derivable_pt_lim f x l -> derivable_pt_lim g x l.
Proof. intros f g x l E D eps He. destruct (D eps He) as (d & Hd). exists d. intros. rewrite <- !E. auto. Qed.
Definition vderiv (f : R -> vec) (x : R) (d : vec) : Prop :=
  derivable_pt_lim (fun t => vx (f t)) x (vx d) /\ derivable_pt_lim (fun t => vy (f t)) x (vy d) /\ derivable_pt_lim (fun t => vz (f t)) x (vz d).

Lemma sqrt_a3 : forall mu a, 0 < mu -> 0 < a -> sqrt (mu * a) * sqrt (a ^ 3 / mu) = a * a.
Proof.
  intros. rewrite <- sqrt_mult_alt by nra. replace (mu * a * (a ^ 3 / mu)) with (a * a * (a * a)) by (field; lra).
  apply sqrt_square. nra.
Qed.
Lemma hyp_motion_newtonian : forall mu a e P W H, 0 < mu -> 0 < a -> 1 < e -> norm2 P = 1 -> norm2 W = 1 -> dot W P = 0 ->
  0 < dtdH mu a e H /\
  derivable_pt_lim (hyp_time mu a e) H (dtdH mu a e H) /\
  vderiv (hyp_pos a e P W) H (vscale (dtdH mu a e H) (hyp_vel mu a e P W H)) /\
  vderiv (hyp_vel mu a e P W) H
    (vscale (dtdH mu a e H) (vscale (- mu / (norm (hyp_pos a e P W H)) ^ 3) (hyp_pos a e P W H))).
Proof.
  intros mu a e P W H Hmu Ha He HP HW HWP. pose proof (cosh_ge1 H) as Hc.
  assert (Hden : 0 < e * cosh H - 1) by nra.
  assert (Hq : 0 < sqrt (a ^ 3 / mu)) by (apply sqrt_lt_R0; pos).
  assert (Hm : 0 < sqrt (mu * a)) by (apply sqrt_lt_R0; nra).
  pose proof (sqrt_a3 mu a Hmu Ha) as Hsq.
  split; [unfold dtdH; nra|]. split.
  { unfold hyp_time, dtdH. apply derivable_pt_lim_scal, ekepler_deriv. }
  set (b := sqrt (e * e - 1)).
  assert (Hb : b * b = e * e - 1) by (apply sqrt_sqrt; nra).
  split.
  { unfold hyp_pos, hyp_vel, dtdH. fold b. generalize (cross W P). intros Q.
    assert (G : forall p q, derivable_pt_lim (fun t => a * ((e - cosh t) * p + b * sinh t * q)) H
        (sqrt (a ^ 3 / mu) * (e * cosh H - 1) * (sqrt (mu * a) / (a * (e * cosh H - 1)) * (- sinh H * p + b * cosh H * q)))).
    { intros p q.
      replace (sqrt (a ^ 3 / mu) * (e * cosh H - 1) * (sqrt (mu * a) / (a * (e * cosh H - 1)) * (- sinh H * p + b * cosh H * q)))
        with ((- a * p) * sinh H + (a * b * q) * cosh H).
      - eapply deriv_ext; [|apply (deriv_lin (- a * p) (a * b * q) (a * e * p))]. intros; cbv beta. ring.
      - transitivity (sqrt (mu * a) * sqrt (a ^ 3 / mu) / a * (- sinh H * p + b * cosh H * q)); [|field; split; nra].
        rewrite Hsq. field; lra. }
    destruct P, Q; repeat split; apply G. }
  { unfold vderiv. rewrite hyp_radius by auto. unfold hyp_vel, hyp_pos, dtdH. fold b. generalize (cross W P). intros Q.
    assert (G : forall p q, derivable_pt_lim (fun t => sqrt (mu * a) / (a * (e * cosh t - 1)) * (- sinh t * p + b * cosh t * q)) H
        (sqrt (a ^ 3 / mu) * (e * cosh H - 1) * (- mu / (a * (e * cosh H - 1)) ^ 3 * (a * ((e - cosh H) * p + b * sinh H * q))))).
    { intros p q. pose proof (cosh_sq H) as Hcs.
      set (N := fun t => - p * sinh t + b * q * cosh t). set (D := fun t => a * (e * cosh t - 1)).
      assert (DN : derivable_pt_lim N H (- p * cosh H + b * q * sinh H)).
      { unfold N. eapply deriv_ext; [|replace (- p * cosh H + b * q * sinh H) with (b * q * sinh H + - p * cosh H) by ring; apply (deriv_lin (b * q) (- p) 0)]. intros; cbv beta; ring. }
      assert (DD : derivable_pt_lim D H (a * e * sinh H)).
      { unfold D. eapply deriv_ext; [|replace (a * e * sinh H) with (a * e * sinh H + 0 * cosh H) by ring; apply (deriv_lin (a * e) 0 (- a))]. intros; cbv beta; ring. }
      assert (HD : D H <> 0) by (unfold D; nra).
      pose proof (derivable_pt_lim_scal _ (sqrt (mu * a)) _ _ (derivable_pt_lim_div N D H _ _ DN DD HD)) as G.
      eapply deriv_ext; [|replace (sqrt (a ^ 3 / mu) * (e * cosh H - 1) * (- mu / (a * (e * cosh H - 1)) ^ 3 * (a * ((e - cosh H) * p + b * sinh H * q))))
        with (sqrt (mu * a) * (((- p * cosh H + b * q * sinh H) * D H - (a * e * sinh H) * N H) / Rsqr (D H))); [exact G|]].
      - intros t. cbv beta. unfold mult_real_fct, div_fct, N, D. unfold Rdiv. ring.
      - assert (Hma : sqrt (mu * a) * sqrt (mu * a) = mu * a) by (apply sqrt_sqrt; nra).
        assert (Hms : sqrt (a ^ 3 / mu) = a * a / sqrt (mu * a)) by (apply Rmult_eq_reg_l with (sqrt (mu * a)); [rewrite Hsq; field; lra|lra]).
        rewrite Hms. unfold N, D, Rsqr. set (m := sqrt (mu * a)) in *. set (c := cosh H) in *. set (s := sinh H) in *. clearbody m c s.
        assert (Hmu' : mu = m * m / a) by (rewrite Hma; field; lra). rewrite Hmu'.
        transitivity (m * (- p * (c * (e * c - 1) - e * (s * s)) + b * q * (s * (e * c - 1) - e * s * c)) / (a * ((e * c - 1) * (e * c - 1)))); [field; nra|].
        replace (s * s) with (c * c - 1) by lra. field. repeat split; nra. }
    destruct P, Q; repeat split; apply G. }
Qed.

Lemma cross_lin : forall a x y W P Q, cross W (vscale a (vadd (vscale x P) (vscale y Q))) =
  vscale a (vadd (vscale x (cross W P)) (vscale y (cross W Q))).
Proof. intros. apply vec_eq; vsimpl; ring. Qed.

(** Any state with positive energy and non-zero angular momentum lies on such a motion. *)
Lemma state_on_hyperbola : forall mu a r v, 0 < mu -> 0 < a -> energy mu r v = mu / (2 * a) -> ang_mom r v <> vzero ->
  let h := norm (ang_mom r v) in
  exists e P W H, 1 < e /\ norm2 P = 1 /\ norm2 W = 1 /\ dot W P = 0 /\ r = hyp_pos a e P W H /\ v = hyp_vel mu a e P W H /\
    h * h = mu * a * (e * e - 1) /\ ecc_vector mu r v = vscale e P /\ ang_mom r v = vscale h W /\
    e * cosh H = 1 + norm r / a /\ e * sinh H = dot r v / sqrt (mu * a).
Proof.
  intros mu a r v Hmu Ha HE Hh0 h.
  assert (Hh : 0 < h) by (apply norm_pos; auto).
  assert (Hr0 : r <> vzero).
  { intros Z. apply Hh0. rewrite Z. unfold ang_mom. destruct v; apply vec_eq; vsimpl; ring. }
  pose proof (norm_pos r Hr0) as Hr. set (ra := norm r) in *.
  assert (Hrr : ra * ra = norm2 r) by apply norm_sq.
  assert (Hv2 : norm2 v = mu * (2 / ra + 1 / a)).
  { unfold energy in HE. fold ra in HE. assert (norm2 v = 2 * (mu / (2 * a) + mu / ra)) by lra. rewrite H. field. lra. }
  set (s := dot r v). set (W := vscale (1 / h) (ang_mom r v)).
  assert (HW1 : norm2 W = 1) by (apply unit_norm2; auto).
  assert (Hhh : h * h = norm2 r * norm2 v - s * s) by (unfold h; rewrite norm_sq; unfold ang_mom; apply cross_norm2).
  set (E := ecc_vector mu r v).
  (* |E|^2 *)
  assert (HE2 : norm2 E = 1 + h * h / (mu * a)).
  { assert (K : norm2 E = h * h * norm2 v / (mu * mu) - 2 * (h * h) / (mu * ra) + 1).
    { unfold E, ecc_vector. fold ra.
      transitivity (1 / mu * (1 / mu) * norm2 (cross v (cross r v)) - 2 * (1 / mu) * (1 / ra) * dot (cross v (cross r v)) r + 1 / ra * (1 / ra) * norm2 r).
      - generalize (cross v (cross r v)). intros u. destruct u, r; vsimpl; ring.
      - replace (norm2 (cross v (cross r v))) with (norm2 v * (h * h)).
        + replace (dot (cross v (cross r v)) r) with (h * h). { rewrite <- Hrr. field. lra. }
          unfold h; rewrite norm_sq. unfold ang_mom. destruct r, v; vsimpl; ring.
        + unfold h; rewrite norm_sq. unfold ang_mom. rewrite (cross_norm2 v). replace (dot v (cross r v)) with 0; [ring|]. destruct r, v; vsimpl; ring. }
    rewrite K, Hv2. field. lra. }
  set (e := norm E).
  assert (Hee : e * e = 1 + h * h / (mu * a)) by (unfold e; rewrite norm_sq; auto).
  assert (Hpe : 0 < h * h / (mu * a)) by pos.
  assert (He0 : 0 <= e) by apply norm_nonneg.
  assert (He : 1 < e) by nra.
  assert (HEz : E <> vzero) by (intros Z; unfold e in He; rewrite Z in He; unfold norm in He; replace (norm2 vzero) with 0 in He by (vsimpl; ring); rewrite sqrt_0 in He; lra).
  set (P := vscale (1 / e) E).
  assert (HP1 : norm2 P = 1) by (apply unit_norm2; auto).
  assert (HEP : E = vscale e P) by (unfold P; destruct E; apply vec_eq; vsimpl; field; lra).
  assert (HWP : dot W P = 0).
  { unfold W, P. rewrite dot_vscale_l, dot_vscale_r. replace (dot (ang_mom r v) E) with 0; [ring|].
    unfold E, ecc_vector, ang_mom. generalize (1 / mu) (1 / norm r). intros. destruct r, v; vsimpl; ring. }
  assert (HhW : ang_mom r v = vscale h W) by (unfold W; generalize (ang_mom r v); intros [x y z]; apply vec_eq; vsimpl; field; lra).
  set (m := sqrt (mu * a)).
  assert (Hm : 0 < m) by (apply sqrt_lt_R0; nra).
  assert (Hmm : m * m = mu * a) by (apply sqrt_sqrt; nra).
  set (H := arcsinh (s / (m * e))).
  assert (HsH : e * sinh H = s / m) by (unfold H; rewrite sinh_arcsinh; field; lra).
  assert (Hss : s * s = mu * (2 * ra + ra * ra / a) - h * h).
  { rewrite Hhh, <- Hrr, Hv2. field. lra. }
  assert (HcH : e * cosh H = 1 + ra / a).
  { assert (0 < ra / a) by pos. apply sq_eq_nonneg; [pose proof (cosh_pos H); nra|lra|].
    replace (e * cosh H * (e * cosh H)) with (e * e * (cosh H * cosh H)) by ring. rewrite cosh_sq.
    replace (e * e * (1 + sinh H * sinh H)) with (e * e + (e * sinh H) * (e * sinh H)) by ring. rewrite HsH, Hee.
    replace (s / m * (s / m)) with (s * s / (m * m)) by (field; lra). rewrite Hss, Hmm. field. lra. }
  set (b := sqrt (e * e - 1)).
  assert (Hb2 : b * b = e * e - 1) by (apply sqrt_sqrt; nra).
  assert (Hb0 : 0 < b) by (apply sqrt_lt_R0; nra).
  assert (Hmb : m * b = h).
  { apply sq_eq_nonneg; [nra|lra|]. replace (m * b * (m * b)) with (m * m * (b * b)) by ring. rewrite Hmm, Hb2, Hee. field. lra. }
  (* components of r and v along P and Q = W x P *)
  assert (HQ : cross W P = vscale (1 / e) (vsub (vscale (h / mu) v) (vscale (1 / (h * ra)) (cross (ang_mom r v) r)))).
  { unfold P. replace (cross W (vscale (1 / e) E)) with (vscale (1 / e) (cross W E)) by (destruct W, E; apply vec_eq; vsimpl; ring).
    f_equal. unfold E, ecc_vector. fold ra. change (cross r v) with (ang_mom r v).
    assert (Hd0 : dot (ang_mom r v) v = 0) by (unfold ang_mom; destruct r, v; vsimpl; ring).
    assert (HL2 : norm2 (ang_mom r v) = h * h) by (unfold h; rewrite norm_sq; auto).
    unfold W. set (L := ang_mom r v) in *. clearbody L.
    transitivity (vsub (vscale (1 / (h * mu)) (vsub (vscale (norm2 L) v) (vscale (dot L v) L))) (vscale (1 / (h * ra)) (cross L r))).
    - destruct L, v, r; apply vec_eq; vsimpl; field; repeat split; lra.
    - rewrite Hd0, HL2. destruct L, v, r; apply vec_eq; vsimpl; field; repeat split; lra. }
  assert (HPr : dot r P = a * (e - cosh H)).
  { unfold P. rewrite dot_vscale_r. unfold E, ecc_vector. fold ra. change (cross r v) with (ang_mom r v).
    replace (dot r (vsub (vscale (1 / mu) (cross v (ang_mom r v))) (vscale (1 / ra) r))) with (1 / mu * norm2 (ang_mom r v) - 1 / ra * norm2 r)
      by (unfold ang_mom; destruct r, v; vsimpl; ring).
    rewrite <- (norm_sq (ang_mom r v)), <- Hrr. fold h.
    replace (a * (e - cosh H)) with (a * (e * e - e * cosh H) / e) by (field; lra). rewrite HcH, Hee. field. lra. }
  assert (HQr : dot r (cross W P) = a * (b * sinh H)).
  { rewrite HQ, dot_vscale_r.
    replace (dot r (vsub (vscale (h / mu) v) (vscale (1 / (h * ra)) (cross (ang_mom r v) r)))) with (h / mu * dot r v)
      by (generalize (ang_mom r v); intros L; destruct L, r, v; vsimpl; ring).
    fold s. replace (a * (b * sinh H)) with (a * b * (e * sinh H) / e) by (field; lra). rewrite HsH.
    rewrite <- Hmb. apply Rmult_eq_reg_r with (mu * e * m); [|apply Rgt_not_eq; unfold Rgt; mpos].
    transitivity (m * m * b * s); [field; lra|]. rewrite Hmm. field. lra. }
  assert (HWr : dot r W = 0) by (unfold W, ang_mom; destruct r, v; vsimpl; ring).
  assert (HWv : dot v W = 0) by (unfold W, ang_mom; destruct r, v; vsimpl; ring).
  destruct (frame_facts P W HP1 HW1 HWP) as (F1 & F2 & F3 & F4 & F5).
  assert (Basis : forall u, dot u W = 0 -> u = vadd (vscale (dot u P) P) (vscale (dot u (cross W P)) (cross W P))).
  { intros u Hu. clear -HP1 HW1 HWP Hu. destruct u as [x y z], P as [px py pz], W as [wx wy wz]. unfold norm2, dot in *; cbn [vx vy vz] in *.
    apply vec_eq; vsimpl; nsatz. }
  assert (Hpos : r = hyp_pos a e P W H).
  { rewrite (Basis r HWr), HPr, HQr. unfold hyp_pos. fold b. generalize (cross W P). intros Q. destruct P, Q; apply vec_eq; vsimpl; ring. }
  (* velocity from h and s: v = (s r + L x r)/r^2 *)
  assert (Hvd : v = vscale (1 / (ra * ra)) (vadd (vscale s r) (cross (ang_mom r v) r))).
  { rewrite Hrr. assert (norm2 r <> 0) by (rewrite <- Hrr; nra). unfold s, ang_mom. destruct r, v. revert H0. vsimpl. intros N. apply vec_eq; vsimpl; field; auto. }
  assert (Hra : ra = a * (e * cosh H - 1)) by (rewrite HcH; field; lra).
  assert (HWxr : cross (ang_mom r v) r = vscale h (cross W r)) by (rewrite HhW at 1; destruct W, r; apply vec_eq; vsimpl; ring).
  assert (Hvel : v = hyp_vel mu a e P W H).
  { rewrite Hvd, HWxr. assert (Es : s = m * (e * sinh H)) by (rewrite HsH; field; lra). rewrite Es.
    assert (HWr2 : cross W r = vscale a (vadd (vscale (- (b * sinh H)) P) (vscale (e - cosh H) (cross W P)))).
    { rewrite Hpos. unfold hyp_pos. fold b. 
      transitivity (vscale a (vadd (vscale (e - cosh H) (cross W P)) (vscale (b * sinh H) (cross W (cross W P))))).
      - apply cross_lin.
      - replace (cross W (cross W P)) with (vscale (-1) P). + generalize (cross W P). intros Q. destruct P, Q; apply vec_eq; vsimpl; ring.
        + transitivity (vscale (-1) (cross (cross W P) W)); [rewrite F5; auto|]. generalize (cross W P). intros Q. destruct W, Q; apply vec_eq; vsimpl; ring. }
    rewrite HWr2. rewrite Hpos at 1. unfold hyp_pos, hyp_vel. fold b m. rewrite <- Hmb, Hra.
    assert (Hden : 0 < e * cosh H - 1) by (pose proof (cosh_ge1 H); nra).
    pose proof (cosh_sq H) as Hcs. set (c := cosh H) in *. set (q := sinh H) in *. clearbody c q. clear -Hb2 Hcs Ha Hden Hm.
    generalize (cross W P). intros Q.
    assert (G : forall p1 q1, 1 / (a * (e * c - 1) * (a * (e * c - 1))) * (m * (e * q) * (a * ((e - c) * p1 + b * q * q1)) + m * b * (a * (- (b * q) * p1 + (e - c) * q1)))
        = m / (a * (e * c - 1)) * (- q * p1 + b * c * q1)).
    { intros. apply Rmult_eq_reg_r with (a * (e * c - 1) * (a * (e * c - 1))); [|apply Rgt_not_eq; unfold Rgt; mpos].
      transitivity (m * a * ((e * q * (e - c) - b * b * q) * p1 + (b * (e * (q * q)) + b * (e - c)) * q1)); [field; nra|].
      rewrite Hb2. replace (q * q) with (c * c - 1) by lra. field. nra. }
    destruct P as [p1 p2 p3], Q as [q1 q2 q3]; apply vec_eq; cbn [vx vy vz vscale vadd]; apply G. }
  exists e, P, W, H. do 4 (split; [assumption|]). split; [exact Hpos|]. split; [exact Hvel|].
  split. { rewrite <- Hmb. replace (m * b * (m * b)) with (m * m * (b * b)) by ring. rewrite Hmm, Hb2; ring. }
  split; [exact HEP|]. split; [exact HhW|]. split; [exact HcH|]. exact HsH.
Qed.
