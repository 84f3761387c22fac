(** From a state vector to its conic: every non-rectilinear, non-circular state is the conic state of
    its own angular momentum and eccentricity vector. *)
From Coq Require Import Nsatz.
Require Import Verif.Base Verif.FrameModel Verif.FrameProofs Verif.ConicSpec Verif.ConicProofs Verif.HyperbolaProofs.
Local Open Scope R_scope.

Lemma ecc_norm2 : forall mu r v, 0 < mu -> r <> vzero ->
  norm2 (ecc_vector mu r v) = 1 + 2 * energy mu r v * norm2 (ang_mom r v) / (mu * mu).
Proof.
  intros mu r v Hmu Hr0. pose proof (norm_pos r Hr0) as Hr. pose proof (norm_sq r) as Hrr.
  unfold energy, ecc_vector. set (ra := norm r) in *. clearbody ra.
  transitivity (1 / mu * (1 / mu) * norm2 (cross v (cross r v)) - 2 * (1 / mu) * (1 / ra) * dot (cross v (cross r v)) r + 1 / ra * (1 / ra) * norm2 r).
  - generalize (cross v (cross r v)). intros u. destruct u, r; vsimpl; ring.
  - replace (norm2 (cross v (cross r v))) with (norm2 v * norm2 (ang_mom r v)).
    + replace (dot (cross v (cross r v)) r) with (norm2 (ang_mom r v)). { rewrite <- Hrr. field. lra. }
      unfold ang_mom. destruct r, v; vsimpl; ring.
    + unfold ang_mom. rewrite (cross_norm2 v). replace (dot v (cross r v)) with 0; [ring|]. destruct r, v; vsimpl; ring.
Qed.

(** The orbital frame of a state. *)
Record oframe (mu : R) (r v : vec) (h e : R) (P W : vec) : Prop := mkOframe {
  of_h : 0 < h; of_e : 0 < e; of_P : norm2 P = 1; of_W : norm2 W = 1; of_WP : dot W P = 0;
  of_hW : ang_mom r v = vscale h W; of_eP : ecc_vector mu r v = vscale e P }.

Lemma state_frame : forall mu r v, ang_mom r v <> vzero -> ecc_vector mu r v <> vzero ->
  oframe mu r v (norm (ang_mom r v)) (norm (ecc_vector mu r v))
    (vscale (1 / norm (ecc_vector mu r v)) (ecc_vector mu r v)) (vscale (1 / norm (ang_mom r v)) (ang_mom r v)).
Proof.
  intros mu r v Hh He. pose proof (norm_pos _ Hh). pose proof (norm_pos _ He).
  constructor; auto; try (apply unit_norm2; auto).
  - rewrite dot_vscale_l, dot_vscale_r. replace (dot (ang_mom r v) (ecc_vector mu r v)) with 0; [ring|].
    unfold ecc_vector, ang_mom. generalize (1 / mu) (1 / norm r). intros. destruct r, v; vsimpl; ring.
  - revert H. generalize (ang_mom r v); intros [x y z]; intros; apply vec_eq; vsimpl; field; lra.
  - revert H0. generalize (ecc_vector mu r v); intros [x y z]; intros; apply vec_eq; vsimpl; field; lra.
Qed.

(** Components of the state in its frame. *)
Lemma state_components : forall mu r v h e P W, 0 < mu -> oframe mu r v h e P W ->
  let ra := norm r in let x := dot r P in let y := dot r (cross W P) in
  0 < ra /\ r = vadd (vscale x P) (vscale y (cross W P)) /\ x * x + y * y = ra * ra /\
  e * x = h * h / mu - ra /\ e * y = h * dot r v / mu /\
  v = vscale (mu / h) (vadd (vscale (- (y / ra)) P) (vscale (e + x / ra) (cross W P))).
Proof.
  intros mu r v h e P W Hmu [Hh He HP HW HWP HhW HeP] ra x y.
  assert (Hr0 : r <> vzero).
  { intros Z. assert (K : norm2 (ang_mom r v) = h * h) by (rewrite HhW, norm2_vscale, HW; ring).
    rewrite Z in K. unfold ang_mom in K. replace (norm2 (cross vzero v)) with 0 in K by (destruct v; vsimpl; ring). nra. }
  pose proof (norm_pos r Hr0) as Hr. pose proof (norm_sq r) as Hrr. fold ra in Hr, Hrr.
  assert (HWr : dot W r = 0).
  { assert (h * dot W r = 0) by (rewrite <- dot_vscale_l, <- HhW; unfold ang_mom; destruct r, v; vsimpl; ring). nra. }
  assert (HWv : dot W v = 0).
  { assert (h * dot W v = 0) by (rewrite <- dot_vscale_l, <- HhW; unfold ang_mom; destruct r, v; vsimpl; ring). nra. }
  assert (Hrx : r = vadd (vscale x P) (vscale y (cross W P))).
  { unfold x, y. clear -HP HW HWP HWr. destruct r as [r1 r2 r3], P as [p1 p2 p3], W as [w1 w2 w3].
    unfold norm2, dot in *; simpl in *. apply vec_eq; vsimpl; nsatz. }
  destruct (frame_facts P W HP HW HWP) as (F1 & F2 & F3 & F4 & F5).
  assert (Hxy : x * x + y * y = ra * ra).
  { rewrite Hrr. rewrite Hrx at 1. revert F1 F2 HP. generalize (cross W P); clear; intros [q1 q2 q3].
    destruct P as [p1 p2 p3]. generalize x y; clear; intros x y. unfold norm2, dot; simpl; intros. vsimpl. nsatz. }
  split; auto. split; [exact Hrx|]. split; [exact Hxy|].
  assert (Hex : e * x = h * h / mu - ra).
  { unfold x. rewrite <- dot_vscale_r, <- HeP. unfold ecc_vector. fold ra.
    transitivity (1 / mu * norm2 (ang_mom r v) - 1 / ra * norm2 r).
    - unfold ang_mom. generalize (1 / mu) (1 / ra). intros; destruct r, v; vsimpl; ring.
    - rewrite <- Hrr, HhW, norm2_vscale, HW. field. lra. }
  split; [exact Hex|].
  assert (Hey : e * y = h * dot r v / mu).
  { transitivity (dot r (cross W (vscale e P))); [unfold y; clear; destruct r, P, W; vsimpl; ring|].
    rewrite <- HeP. unfold ecc_vector. fold ra.
    transitivity (1 / mu * dot r (cross W (cross v (cross r v)))).
    { generalize (1 / mu) (1 / ra); intros. generalize (cross v (cross r v)). intros [u1 u2 u3]. destruct r, W; vsimpl; ring. }
    fold (ang_mom r v). rewrite HhW.
    replace (cross W (cross v (vscale h W))) with (vscale h v).
    { rewrite dot_vscale_r. field. lra. }
    clear -HW HWv. destruct v as [v1 v2 v3], W as [w1 w2 w3]. unfold norm2, dot in *; simpl in *. apply vec_eq; vsimpl; nsatz. }
  split; [exact Hey|].
  (* v = mu/h * W x (e P + r/ra) *)
  assert (Hv : v = vscale (mu / h) (cross W (vadd (vscale e P) (vscale (1 / ra) r)))).
  { assert (K : vadd (vscale e P) (vscale (1 / ra) r) = vscale (1 / mu) (cross v (vscale h W))).
    { rewrite <- HeP, <- HhW. unfold ecc_vector, ang_mom. fold ra. generalize (vscale (1 / mu) (cross v (cross r v))) (vscale (1 / ra) r).
      intros [? ? ?] [? ? ?]; apply vec_eq; vsimpl; ring. }
    rewrite K. clear -HW HWv Hh Hmu.
    assert (K2 : cross W (vscale (1 / mu) (cross v (vscale h W))) = vscale (h / mu) v).
    { destruct v as [v1 v2 v3], W as [w1 w2 w3]. unfold norm2, dot in *; simpl in *. replace (h / mu) with (1 / mu * h) by (field; lra).
      generalize (1 / mu); intros k. clear Hmu Hh. apply vec_eq; vsimpl; nsatz. }
    rewrite K2. destruct v; apply vec_eq; vsimpl; field; lra. }
  rewrite Hv at 1. f_equal. rewrite Hrx at 1. 
  assert (K : forall al be, cross W (vadd (vscale al P) (vscale be (cross W P))) = vadd (vscale (- be) P) (vscale al (cross W P))).
  { clear -HW HWP. intros. destruct P as [p1 p2 p3], W as [w1 w2 w3]. unfold norm2, dot in *; simpl in *. apply vec_eq; vsimpl; nsatz. }
  replace (vadd (vscale e P) (vscale (1 / ra) (vadd (vscale x P) (vscale y (cross W P)))))
    with (vadd (vscale (e + x / ra) P) (vscale (y / ra) (cross W P))).
  - apply K.
  - generalize (cross W P); intros [? ? ?]. destruct P; apply vec_eq; vsimpl; field; lra.
Qed.

(** At the angle whose cosine and sine are the components, the state is the conic state. *)
Lemma state_on_conic : forall mu r v h e P W th, 0 < mu -> oframe mu r v h e P W ->
  cos th = dot r P / norm r -> sin th = dot r (cross W P) / norm r ->
  0 < 1 + e * cos th /\ r = conic_pos mu h e P W th /\ v = conic_vel mu h e P W th.
Proof.
  intros mu r v h e P W th Hmu F Hc Hs.
  destruct (state_components mu r v h e P W Hmu F) as (Hr & Hrx & Hxy & Hex & Hey & Hv).
  pose proof (of_h _ _ _ _ _ _ _ F) as Hh.
  set (ra := norm r) in *. set (x := dot r P) in *. set (y := dot r (cross W P)) in *.
  assert (Hd : 1 + e * cos th = h * h / mu / ra).
  { rewrite Hc. replace (e * (x / ra)) with (e * x / ra) by (field; lra). rewrite Hex. field. lra. }
  assert (Hp : 0 < h * h / mu) by (apply Rdiv_lt_0_compat; nra).
  assert (Hd0 : 0 < h * h / mu / ra) by (apply Rdiv_lt_0_compat; auto).
  split; [lra|]. split.
  - unfold conic_pos, conic_radius. rewrite Hd. rewrite Hrx at 1. unfold perifocal. rewrite Hc, Hs.
    generalize (cross W P); intros [? ? ?]. destruct P; apply vec_eq; vsimpl; field; repeat split; lra.
  - unfold conic_vel. rewrite Hc, Hs. exact Hv.
Qed.
Lemma state_theta : forall mu r v h e P W, 0 < mu -> oframe mu r v h e P W ->
  exists th, cos th = dot r P / norm r /\ sin th = dot r (cross W P) / norm r.
Proof.
  intros mu r v h e P W Hmu F. destruct (state_components mu r v h e P W Hmu F) as (Hr & _ & Hxy & _).
  set (ra := norm r) in *. set (x := dot r P) in *. set (y := dot r (cross W P)) in *.
  assert (H1 : x / ra * (x / ra) + y / ra * (y / ra) = 1).
  { replace (x / ra * (x / ra) + y / ra * (y / ra)) with ((x * x + y * y) / (ra * ra)) by (field; lra). rewrite Hxy. field. lra. }
  exists (if Rleb 0 (y / ra) then acos (x / ra) else 2 * PI - acos (x / ra)).
  eapply branch_angle; [exact H1| | |reflexivity].
  - intros E; apply Rleb_true; auto.
  - intros E; apply Rleb_false in E; lra.
Qed.
