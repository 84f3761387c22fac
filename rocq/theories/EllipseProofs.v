(** Elliptic motion: Kepler's equation, its Newtonian character, and the anomaly conversion. *)
From Coq Require Import Nsatz.
Require Import Verif.Base Verif.FrameModel Verif.FrameProofs Verif.ConicSpec Verif.ConicProofs Verif.HyperbolaProofs.
Local Open Scope R_scope.

Lemma ecos_pos : forall e E, -1 < e < 1 -> 0 < 1 - e * cos E.
Proof.
  intros e E He. pose proof (COS_bound E) as Hc. destruct (Rle_or_lt 0 (cos E)) as [L|L].
  - assert (e * cos E <= 1 * cos E) by (apply Rmult_le_compat_r; lra). destruct (Req_dec (cos E) 0) as [Z|Z]; [rewrite Z; lra|].
    assert (e * cos E < 1 * cos E) by (apply Rmult_lt_compat_r; lra). lra.
  - assert (e * cos E < -1 * cos E) by nra. lra.
Qed.

Lemma trig_lin : forall k1 k2 k3 x, derivable_pt_lim (fun t => k1 * cos t + k2 * sin t + k3) x (k1 * - sin x + k2 * cos x).
Proof.
  intros. replace (k1 * - sin x + k2 * cos x) with (k1 * - sin x + k2 * cos x + 0) by ring.
  apply derivable_pt_lim_plus; [|apply derivable_pt_lim_const].
  apply derivable_pt_lim_plus; apply derivable_pt_lim_scal; [apply derivable_pt_lim_cos|apply derivable_pt_lim_sin].
Qed.
Lemma kepler_deriv : forall e x, derivable_pt_lim (fun E => E - e * sin E) x (1 - e * cos x).
Proof.
  intros. apply derivable_pt_lim_minus. { apply derivable_pt_lim_id. }
  apply derivable_pt_lim_scal, derivable_pt_lim_sin.
Qed.

Lemma ell_radius : forall a e P W E, 0 < a -> -1 < e < 1 -> norm2 P = 1 -> norm2 W = 1 -> dot W P = 0 ->
  norm (ell_pos a e P W E) = a * (1 - e * cos E).
Proof.
  intros a e P W E Ha He HP HW HWP. pose proof (ecos_pos e E He) as Hc. apply norm_eq; [apply Rmult_le_pos; lra|].
  destruct (frame_facts P W HP HW HWP) as (F1 & F2 & _).
  assert (Hs : sqrt (1 - e * e) * sqrt (1 - e * e) = 1 - e * e) by (apply sqrt_sqrt; nra).
  unfold ell_pos. set (Q := cross W P) in *. clearbody Q. set (b := sqrt (1 - e * e)) in *. clearbody b. pose proof (sin2cos2 E) as Hcs.
  set (c := cos E) in *. set (s := sin E) in *. clearbody c s.
  rewrite norm2_vscale.
  transitivity (a * a * ((c - e) * (c - e) * norm2 P + (b * b) * (s * s) * norm2 Q + 2 * (c - e) * (b * s) * dot Q P)).
  - f_equal. destruct P, Q; vsimpl; ring.
  - rewrite HP, F1, F2, Hs. replace (s * s) with (1 - c * c) by lra. ring.
Qed.

Definition dtdE (mu a e E : R) : R := sqrt (a ^ 3 / mu) * (1 - e * cos E).
(** Along ell_pos, parametrised by ell_time, velocity is the derivative of position and acceleration is
    the inverse-square attraction. *)
Lemma ell_motion_newtonian : forall mu a e P W E, 0 < mu -> 0 < a -> -1 < e < 1 -> norm2 P = 1 -> norm2 W = 1 -> dot W P = 0 ->
  0 < dtdE mu a e E /\
  derivable_pt_lim (ell_time mu a e) E (dtdE mu a e E) /\
  vderiv (ell_pos a e P W) E (vscale (dtdE mu a e E) (ell_vel mu a e P W E)) /\
  vderiv (ell_vel mu a e P W) E
    (vscale (dtdE mu a e E) (vscale (- mu / (norm (ell_pos a e P W E)) ^ 3) (ell_pos a e P W E))).
Proof.
  intros mu a e P W E Hmu Ha He HP HW HWP. pose proof (ecos_pos e E He) as Hden.
  assert (Hq : 0 < sqrt (a ^ 3 / mu)) by (apply sqrt_lt_R0; pos).
  assert (Hm : 0 < sqrt (mu * a)) by (apply sqrt_lt_R0; nra).
  pose proof (sqrt_a3 mu a Hmu Ha) as Hsq.
  split; [unfold dtdE; nra|]. split.
  { unfold ell_time, dtdE. apply derivable_pt_lim_scal, kepler_deriv. }
  set (b := sqrt (1 - e * e)).
  split.
  { unfold ell_pos, ell_vel, dtdE. fold b. generalize (cross W P). intros Q.
    assert (G : forall p q, derivable_pt_lim (fun t => a * ((cos t - e) * p + b * sin t * q)) E
        (sqrt (a ^ 3 / mu) * (1 - e * cos E) * (sqrt (mu * a) / (a * (1 - e * cos E)) * (- sin E * p + b * cos E * q)))).
    { intros p q.
      replace (sqrt (a ^ 3 / mu) * (1 - e * cos E) * (sqrt (mu * a) / (a * (1 - e * cos E)) * (- sin E * p + b * cos E * q)))
        with ((a * p) * - sin E + (a * b * q) * cos E).
      - eapply deriv_ext; [|apply (trig_lin (a * p) (a * b * q) (- (a * e * p)))]. intros; cbv beta. ring.
      - transitivity (sqrt (mu * a) * sqrt (a ^ 3 / mu) / a * (- sin E * p + b * cos E * q)); [|field; split; nra].
        rewrite Hsq. field; lra. }
    destruct P, Q; repeat split; apply G. }
  { unfold vderiv. rewrite ell_radius by auto. unfold ell_vel, ell_pos, dtdE. fold b. generalize (cross W P). intros Q.
    assert (G : forall p q, derivable_pt_lim (fun t => sqrt (mu * a) / (a * (1 - e * cos t)) * (- sin t * p + b * cos t * q)) E
        (sqrt (a ^ 3 / mu) * (1 - e * cos E) * (- mu / (a * (1 - e * cos E)) ^ 3 * (a * ((cos E - e) * p + b * sin E * q))))).
    { intros p q. pose proof (sin2cos2 E) as Hcs.
      set (N := fun t => - p * sin t + b * q * cos t). set (D := fun t => a * (1 - e * cos t)).
      assert (DN : derivable_pt_lim N E (- p * cos E + b * q * - sin E)).
      { unfold N. eapply deriv_ext; [|replace (- p * cos E + b * q * - sin E) with (b * q * - sin E + - p * cos E) by ring; apply (trig_lin (b * q) (- p) 0)]. intros; cbv beta; ring. }
      assert (DD : derivable_pt_lim D E (a * e * sin E)).
      { unfold D. eapply deriv_ext; [|replace (a * e * sin E) with (- (a * e) * - sin E + 0 * cos E) by ring; apply (trig_lin (- (a * e)) 0 a)]. intros; cbv beta; ring. }
      assert (HD : D E <> 0) by (unfold D; nra).
      pose proof (derivable_pt_lim_scal _ (sqrt (mu * a)) _ _ (derivable_pt_lim_div N D E _ _ DN DD HD)) as G.
      eapply deriv_ext; [|replace (sqrt (a ^ 3 / mu) * (1 - e * cos E) * (- mu / (a * (1 - e * cos E)) ^ 3 * (a * ((cos E - e) * p + b * sin E * q))))
        with (sqrt (mu * a) * (((- p * cos E + b * q * - sin E) * D E - (a * e * sin E) * N E) / Rsqr (D E))); [exact G|]].
      - intros t. cbv beta. unfold mult_real_fct, div_fct, N, D. unfold Rdiv. ring.
      - assert (Hma : sqrt (mu * a) * sqrt (mu * a) = mu * a) by (apply sqrt_sqrt; nra).
        assert (Hms : sqrt (a ^ 3 / mu) = a * a / sqrt (mu * a)) by (apply Rmult_eq_reg_l with (sqrt (mu * a)); [rewrite Hsq; field; lra|lra]).
        rewrite Hms. unfold N, D, Rsqr. set (m := sqrt (mu * a)) in *. set (c := cos E) in *. set (s := sin E) in *. clearbody m c s.
        assert (Hmu' : mu = m * m / a) by (rewrite Hma; field; lra). rewrite Hmu'.
        transitivity (m * (- p * (c * (1 - e * c) - e * (s * s)) - b * q * (s * (1 - e * c) + e * s * c)) / (a * ((1 - e * c) * (1 - e * c)))); [field; nra|].
        replace (s * s) with (1 - c * c) by lra. field. repeat split; nra. }
    destruct P, Q; repeat split; apply G. }
Qed.

(** Kepler's equation: strictly increasing, so at most one root; and a root exists. *)
Lemma kepler_lipschitz : forall e x y, 0 <= Rabs e < 1 -> x <= y -> (1 - Rabs e) * (y - x) <= (y - e * sin y) - (x - e * sin x).
Proof.
  intros e x y He [Hxy|Hxy]; [|subst; lra].
  destruct (MVT_cor2 (fun E => E - e * sin E) (fun E => 1 - e * cos E) x y Hxy) as (c & Hc & _).
  { intros. apply kepler_deriv. }
  cbv beta in Hc. rewrite Hc. apply Rmult_le_compat_r; [lra|].
  pose proof (COS_bound c). unfold Rabs in *. destruct (Rcase_abs e); nra.
Qed.
Lemma kepler_unique : forall e x y, Rabs e < 1 -> x - e * sin x = y - e * sin y -> x = y.
Proof.
  intros e x y He H. assert (0 <= Rabs e < 1) by (split; auto; apply Rabs_pos).
  destruct (Rle_or_lt x y) as [L|L].
  - pose proof (kepler_lipschitz e x y H0 L). nra.
  - pose proof (kepler_lipschitz e y x H0 ltac:(lra)). nra.
Qed.
Lemma kepler_exists : forall e M, Rabs e < 1 -> exists E, E - e * sin E = M.
Proof.
  intros e M He.
  set (f := (id - mult_real_fct e sin - fct_cte M)%F).
  assert (Cf : continuity f).
  { unfold f. repeat apply continuity_minus; [|apply continuity_scal; apply continuity_sin|apply continuity_const; intros ? ?; reflexivity].
    apply derivable_continuous, derivable_id. }
  assert (Hb : forall x, Rabs (e * sin x) <= 1).
  { intros. rewrite Rabs_mult. pose proof (SIN_bound x). pose proof (Rabs_pos e).
    assert (Rabs (sin x) <= 1) by (apply Rabs_le; lra). pose proof (Rabs_pos (sin x)). nra. }
  destruct (IVT_cor f (M - 2) (M + 2) Cf) as (z & _ & Hz); [lra| |].
  - unfold f, minus_fct, mult_real_fct, fct_cte, id.
    pose proof (Hb (M - 2)) as B1. pose proof (Hb (M + 2)) as B2.
    assert (-1 <= e * sin (M - 2) <= 1) by (split; [pose proof (Rle_abs (- (e * sin (M-2)))); rewrite Rabs_Ropp in *; lra|pose proof (Rle_abs (e * sin (M-2))); lra]).
    assert (-1 <= e * sin (M + 2) <= 1) by (split; [pose proof (Rle_abs (- (e * sin (M+2)))); rewrite Rabs_Ropp in *; lra|pose proof (Rle_abs (e * sin (M+2))); lra]).
    nra.
  - exists z. unfold f, minus_fct, mult_real_fct, fct_cte, id in Hz. lra.
Qed.

(** The half-angle conversion from eccentric to true anomaly. *)
Lemma cos_2atan : forall t, cos (2 * atan t) = (1 - t * t) / (1 + t * t) /\ sin (2 * atan t) = 2 * t / (1 + t * t).
Proof.
  intros t. rewrite cos_2a, sin_2a. rewrite cos_atan, sin_atan. unfold Rsqr.
  assert (Hp : 0 < 1 + t * t) by nra. assert (Hs : sqrt (1 + t * t) * sqrt (1 + t * t) = 1 + t * t) by (apply sqrt_sqrt; lra).
  assert (Hq : 0 < sqrt (1 + t * t)) by (apply sqrt_lt_R0; auto). set (q := sqrt (1 + t * t)) in *.
  split; rewrite <- Hs; field; lra.
Qed.
Lemma anomaly_conversion : forall e E th, -1 < e < 1 ->
  th = (if Reqb (cos (E / 2)) 0 then PI else 2 * atan (sqrt ((1 + e) / (1 - e)) * tan (E / 2))) ->
  cos th = (cos E - e) / (1 - e * cos E) /\ sin th = sqrt (1 - e * e) * sin E / (1 - e * cos E) /\ 0 < 1 + e * cos th.
Proof.
  intros e E th He Hth. pose proof (ecos_pos e E He) as Hd.
  assert (HE : E = 2 * (E / 2)) by field. set (x := E / 2) in *. 
  assert (Hcs : cos th = (cos E - e) / (1 - e * cos E) /\ sin th = sqrt (1 - e * e) * sin E / (1 - e * cos E)).
  { rewrite HE in Hd |- *. rewrite cos_2a, sin_2a in *. pose proof (sin2cos2 x) as Hx.
    destruct (Reqb_spec (cos x) 0) as [Z|Z].
    - rewrite Z in *. assert (Hs : sin x * sin x = 1) by lra.
      replace (0 * 0 - sin x * sin x) with (-1) in * by lra. subst th. rewrite cos_PI, sin_PI. split; field; lra.
    - set (s := sqrt ((1 + e) / (1 - e))) in *.
      assert (Hs : s * s = (1 + e) / (1 - e)) by (apply sqrt_sqrt; apply Rlt_le, Rdiv_lt_0_compat; lra).
      assert (Hs0 : 0 <= s) by apply sqrt_pos.
      assert (Hb : sqrt (1 - e * e) = s * (1 - e)).
      { apply sqrt_lem_1; [nra|nra|]. replace (s * (1 - e) * (s * (1 - e))) with (s * s * ((1 - e) * (1 - e))) by ring. rewrite Hs. field. lra. }
      rewrite Hb. destruct (cos_2atan (s * tan x)) as (A & B). rewrite Hth, A, B. unfold tan.
      set (c := cos x) in *. set (t := sin x) in *. clearbody c t s.
      assert (Hcc : c * c = 1 - t * t) by lra.
      assert (Hden : 0 < 1 + s * (t / c) * (s * (t / c))).
      { assert (0 <= s * (t / c) * (s * (t / c))) by nra. lra. }
      assert (Hcc0 : 0 < c * c) by nra.
      assert (Heq : 1 + s * (t / c) * (s * (t / c)) = (1 - e * (c * c - t * t)) / ((1 - e) * (c * c))).
      { replace (s * (t / c) * (s * (t / c))) with (s * s * (t * t) / (c * c)) by (field; auto). rewrite Hs.
        replace (t * t) with (1 - c * c) by lra. field. repeat split; auto; lra. }
      split.
      + replace (1 - s * (t / c) * (s * (t / c))) with ((c * c - t * t - e) / ((1 - e) * (c * c))).
        * rewrite Heq. field. repeat split; auto; lra.
        * replace (s * (t / c) * (s * (t / c))) with (s * s * (t * t) / (c * c)) by (field; auto). rewrite Hs.
          replace (t * t) with (1 - c * c) by lra. field. repeat split; auto; lra.
      + rewrite Heq. field. repeat split; auto; lra. }
  destruct Hcs as (Hc & Hs). split; auto. split; auto.
  rewrite Hc. replace (1 + e * ((cos E - e) / (1 - e * cos E))) with ((1 - e * e) / (1 - e * cos E)) by (field; lra).
  apply Rdiv_lt_0_compat; nra.
Qed.
(** So the conic position at the converted anomaly is the elliptic position. *)
Lemma conic_is_ell : forall mu a e h P W E th, 0 < mu -> 0 < a -> -1 < e < 1 -> h * h = a * mu * (1 - e * e) ->
  cos th = (cos E - e) / (1 - e * cos E) -> sin th = sqrt (1 - e * e) * sin E / (1 - e * cos E) ->
  conic_pos mu h e P W th = ell_pos a e P W E.
Proof.
  intros mu a e h P W E th Hmu Ha He Hh Hc Hs. pose proof (ecos_pos e E He) as Hd.
  unfold conic_pos, conic_radius, perifocal, ell_pos. rewrite Hc, Hs, Hh.
  replace (a * mu * (1 - e * e) / mu / (1 + e * ((cos E - e) / (1 - e * cos E)))) with (a * (1 - e * cos E))
    by (field; repeat split; nra).
  generalize (cross W P); intros [? ? ?]; destruct P; apply vec_eq; vsimpl; field; lra.
Qed.
