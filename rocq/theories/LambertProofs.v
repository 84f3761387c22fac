(** Lambert's theorem for the hyperbolic arc used by the deflection maneuvers. *)
From Coq Require Import Nsatz.
Require Import Verif.Base Verif.FrameModel Verif.FrameProofs Verif.ConicSpec Verif.ConicProofs Verif.HyperbolaProofs.
Local Open Scope R_scope.

(** Semi-latus rectum from the half angles: the quadratic it satisfies. *)
Lemma lambert_quadratic : forall a A B ca cb r1 r2 x c p, 0 < a -> A * A <> B * B ->
  ca * ca = 1 + A * A -> cb * cb = 1 + B * B ->
  2 * a * (A * A) = (r1 + r2 + c) / 2 -> 2 * a * (B * B) = (r1 + r2 - c) / 2 ->
  c * c = r1 * r1 + r2 * r2 - 2 * r1 * r2 * x ->
  let k := r1 * r2 * (1 - x) in let m := r1 * r2 * (1 + x) in
  p = 2 * a * k * ((A * cb + ca * B) * (A * cb + ca * B)) / (c * c) ->
  a * (c * c * (p * p) - 2 * k * (r1 + r2) * p + k * k) = m * k * p.
Proof.
  intros a A B ca cb r1 r2 x c p Ha HAB Hca Hcb HA HB Hc k m Hp.
  set (U := A * A) in *. set (V := B * B) in *. set (X2 := (A * cb + ca * B) * (A * cb + ca * B)) in *.
  assert (Hcv : c = 2 * a * (U - V)) by lra.
  assert (Hl : r1 + r2 = 2 * a * (U + V)) by lra.
  assert (Hc0 : c <> 0) by (rewrite Hcv; intros Z; destruct (Rmult_integral _ _ Z); lra).
  assert (Hm : m = 8 * (a * a) * (U * V)).
  { unfold m. assert ((r1 + r2) * (r1 + r2) - c * c = 2 * (r1 * r2 * (1 + x))) by lra. rewrite Hl, Hcv in H. lra. }
  assert (HX : X2 * X2 - 2 * (U + V + 2 * (U * V)) * X2 + (U - V) * (U - V) = 0).
  { unfold X2, U, V. clear -Hca Hcb. unfold U, V in *. assert (Hca' : ca * ca = 1 + A * A) by lra. assert (Hcb' : cb * cb = 1 + B * B) by lra. clear Hca Hcb. nsatz. }
  assert (HUV : U - V <> 0) by lra.
  rewrite Hm, Hl, Hp, Hcv. clearbody X2 k U V. clear -Ha HX HUV.
  apply Rmult_eq_reg_r with ((U - V) * (U - V)); [|apply Rmult_integral_contrapositive; auto].
  transitivity (a * (k * k) * (X2 * X2 - 2 * (U + V) * X2 + (U - V) * (U - V))); [field; split; auto; lra|].
  transitivity (a * (k * k) * (4 * (U * V) * X2)); [f_equal; lra|]. field. split; auto; lra.
Qed.

Lemma lambert_energy : forall a r1 r2 x c p f, 0 < a -> 0 < r1 -> 0 < r2 -> 0 < p ->
  c * c = r1 * r1 + r2 * r2 - 2 * r1 * r2 * x -> f = 1 - r2 / p * (1 - x) ->
  a * (c * c * (p * p) - 2 * (r1 * r2 * (1 - x)) * (r1 + r2) * p + (r1 * r2 * (1 - x)) * (r1 * r2 * (1 - x)))
    = r1 * r2 * (1 + x) * (r1 * r2 * (1 - x)) * p ->
  p * (r2 * r2 + f * f * (r1 * r1) - 2 * f * (r1 * r2 * x)) = r1 * r1 * (r2 * r2) * (1 - x * x) * (2 / r1 + 1 / a).
Proof.
  intros a r1 r2 x c p f Ha H1 H2 Hp Hc Hf HQ. rewrite Hf.
  apply Rmult_eq_reg_r with (a * p); [|nra].
  transitivity (a * (c * c * (p * p) - 2 * p * (r1 * r2 * (1 - x)) * (r1 - r2 * x) + (r1 * r2 * (1 - x)) * (r1 * r2 * (1 - x)))).
  - rewrite Hc. field. lra.
  - transitivity (a * (c * c * (p * p) - 2 * (r1 * r2 * (1 - x)) * (r1 + r2) * p + (r1 * r2 * (1 - x)) * (r1 * r2 * (1 - x))) + a * (2 * (r1 * r2 * (1 - x)) * p * (r2 * (1 + x)))); [ring|].
    rewrite HQ. field. lra.
Qed.

(** Difference of e*sinh(H) between the end points. *)
Lemma lambert_sinh : forall a A B ca cb r1 r2 x s c p b gm, 0 < a -> 0 < B -> B < A -> 0 < ca -> 0 < cb ->
  0 < r1 -> 0 < r2 -> 0 < s -> s * s = 1 - x * x -> 0 < 1 - x -> 0 < c ->
  ca * ca = 1 + A * A -> cb * cb = 1 + B * B ->
  2 * a * (A * A) = (r1 + r2 + c) / 2 -> 2 * a * (B * B) = (r1 + r2 - c) / 2 ->
  c * c = r1 * r1 + r2 * r2 - 2 * r1 * r2 * x ->
  p = 2 * a * (r1 * r2 * (1 - x)) * ((A * cb + ca * B) * (A * cb + ca * B)) / (c * c) ->
  0 < b -> p = a * (b * b) -> gm = r1 * r2 * s / b ->
  p * (gm * (2 * (A * ca - B * cb))) = p * (c * c) - r1 * r2 * (1 - x) * (r1 + r2).
Proof.
  intros a A B ca cb r1 r2 x s c p b gm Ha HB HAB Hca0 Hcb0 H1 H2 Hs Hss Hx Hc0 Hca Hcb HA HBB Hc Hp Hb Hpb Hgm.
  set (k := r1 * r2 * (1 - x)) in *. set (X := A * cb + ca * B) in *.
  assert (Hk : 0 < k) by (unfold k; mpos).
  assert (HX : 0 < X) by (unfold X; nra).
  set (D := A * A - B * B). assert (HD : 0 < D) by (unfold D; nra).
  assert (Hcv : c = 2 * a * D) by (unfold D; lra).
  assert (Hl : r1 + r2 = 2 * a * (A * A + B * B)) by lra.
  assert (Hm : r1 * r2 * (1 + x) = 8 * (a * a) * (A * A * (B * B))).
  { assert ((r1 + r2) * (r1 + r2) - c * c = 2 * (r1 * r2 * (1 + x))) by lra. rewrite Hl, Hcv in H. unfold D in H. lra. }
  assert (Hpg : p * gm = 2 * a * k * (A * B) * X / D).
  { apply sq_eq_nonneg.
    - rewrite Hgm. apply Rmult_le_pos; [rewrite Hpb; nra|]. left. apply Rdiv_lt_0_compat; auto. mpos.
    - left. apply Rdiv_lt_0_compat; auto. mpos.
    - rewrite Hgm. transitivity (p * (p / (b * b)) * (r1 * r2 * (r1 * r2) * (s * s))); [field; lra|].
      replace (p / (b * b)) with a by (rewrite Hpb; field; lra). rewrite Hss.
      transitivity (p * a * (k * (r1 * r2 * (1 + x)))); [unfold k; ring|]. rewrite Hm, Hp, Hcv. field. lra. }
  rewrite <- Rmult_assoc, Hpg, Hp, Hl.
  replace (2 * a * k * (X * X) / (c * c) * (c * c)) with (2 * a * k * (X * X)) by (field; lra).
  apply Rmult_eq_reg_r with D; [|lra].
  transitivity (4 * a * k * (A * B) * (X * (A * ca - B * cb))); [field; lra|].
  assert (E1 : X * (A * ca - B * cb) = D * (A * B + ca * cb)).
  { unfold X, D. transitivity ((A * A - B * B) * (ca * cb) + A * B * (ca * ca - cb * cb)); [ring|]. rewrite Hca, Hcb. ring. }
  assert (E2 : X * X = A * A + B * B + 2 * (A * B) * (A * B + ca * cb)).
  { unfold X. transitivity (A * A * (cb * cb) + B * B * (ca * ca) + 2 * (A * B) * (ca * cb)); [ring|]. rewrite Hca, Hcb. ring. }
  rewrite E1, E2. ring.
Qed.

Lemma dot_lin : forall R P Q y z, dot R (vadd (vscale y P) (vscale z Q)) = y * dot R P + z * dot R Q.
Proof. intros. vsimpl. ring. Qed.

Lemma lambert_arc : forall mu a R1 R2 d, 0 < mu -> 0 < a -> R1 <> vzero -> R2 <> vzero -> 0 < d < PI ->
  dot R1 R2 = norm R1 * norm R2 * cos d ->
  let r1 := norm R1 in let r2 := norm R2 in
  let C := sqrt (r2 * r2 + r1 * r1 - 2 * r2 * r1 * cos d) in
  let S := (r2 + r1 + C) / 2 in
  let al := 2 * arcsinh (sqrt (S / (2 * a))) in let be := 2 * arcsinh (sqrt ((S - C) / (2 * a))) in
  let p := 4 * a * (S - r2) * (S - r1) / (C * C) * (sinh ((al + be) / 2) * sinh ((al + be) / 2)) in
  let f := 1 - r2 / p * (1 - cos d) in let g := r1 * r2 / sqrt (mu * p) * sin d in
  let v := vscale (1 / g) (vsub R2 (vscale f R1)) in
  0 < C /\ 0 < S - C /\ 0 < p /\ 0 < g /\ 0 <= be < al /\ energy mu R1 v = mu / (2 * a) /\
  coasts_to mu a R1 v R2 (sqrt (a ^ 3 / mu) * ((sinh al - al) - (sinh be - be))) /\
  (let k := r1 * r2 * (1 - cos d) in k * (r1 + r2) < p * (C * C) /\
   a * (C * C * (p * p) - 2 * k * (r1 + r2) * p + k * k) = r1 * r2 * (1 + cos d) * k * p).
Proof.
  intros mu a R1 R2 d Hmu Ha HR1 HR2 Hd Hdot r1 r2 C S al be p f g v.
  assert (H1 : 0 < r1) by (apply norm_pos; auto). assert (H2 : 0 < r2) by (apply norm_pos; auto).
  set (x := cos d) in *. set (s := sin d) in *.
  assert (Hs : 0 < s) by (apply sin_gt_0; lra).
  assert (Hss : s * s = 1 - x * x) by (unfold s, x; generalize (sin2cos2 d); lra).
  assert (Hx : -1 < x < 1) by nra.
  assert (Hrr : 0 < r1 * r2) by nra.
  assert (HC2 : 0 < r2 * r2 + r1 * r1 - 2 * r2 * r1 * x).
  { assert (0 < 2 * (r1 * r2) * (1 - x)) by (apply Rmult_lt_0_compat; lra). generalize (Rle_0_sqr (r1 - r2)); unfold Rsqr; lra. }
  assert (HC : 0 < C) by (apply sqrt_lt_R0; auto).
  assert (HCC : C * C = r1 * r1 + r2 * r2 - 2 * r1 * r2 * x) by (unfold C; rewrite sqrt_sqrt; lra).
  assert (HSC : 0 < S - C).
  { assert (0 < 2 * (r1 * r2) * (1 + x)) by (apply Rmult_lt_0_compat; lra). assert (C * C < (r1 + r2) * (r1 + r2)) by lra. assert (C < r1 + r2) by nra. unfold S. lra. }
  assert (HS : 0 < S) by lra.
  set (A := sqrt (S / (2 * a))) in *. set (B := sqrt ((S - C) / (2 * a))) in *.
  assert (HSa : 0 < S / (2 * a)) by (apply Rdiv_lt_0_compat; lra).
  assert (HSCa : 0 < (S - C) / (2 * a)) by (apply Rdiv_lt_0_compat; lra).
  assert (HA0 : 0 < A) by (apply sqrt_lt_R0; auto). assert (HB0 : 0 < B) by (apply sqrt_lt_R0; auto).
  assert (HAA : 2 * a * (A * A) = (r1 + r2 + C) / 2) by (unfold A; rewrite sqrt_sqrt by lra; unfold S; field; lra).
  assert (HBB : 2 * a * (B * B) = (r1 + r2 - C) / 2) by (unfold B; rewrite sqrt_sqrt by lra; unfold S; field; lra).
  assert (HAB : B < A).
  { assert (B * B < A * A); [|nra]. apply Rmult_lt_reg_l with (2 * a); lra. }
  set (ua := arcsinh A) in *. set (ub := arcsinh B) in *.
  set (ca := cosh ua). set (cb := cosh ub).
  assert (SA : sinh ua = A) by apply sinh_arcsinh. assert (SB : sinh ub = B) by apply sinh_arcsinh.
  assert (Hca : ca * ca = 1 + A * A) by (unfold ca; rewrite cosh_sq, SA; auto).
  assert (Hcb : cb * cb = 1 + B * B) by (unfold cb; rewrite cosh_sq, SB; auto).
  assert (Hca0 : 0 < ca) by apply cosh_pos. assert (Hcb0 : 0 < cb) by apply cosh_pos.
  assert (Hhalf : (al + be) / 2 = ua + ub) by (unfold al, be; field).
  assert (HXe : sinh ((al + be) / 2) = A * cb + ca * B) by (rewrite Hhalf, sinh_plus, SA, SB; auto).
  set (k := r1 * r2 * (1 - x)). assert (Hk : 0 < k) by (unfold k; apply Rmult_lt_0_compat; lra).
  assert (Hpv : p = 2 * a * k * ((A * cb + ca * B) * (A * cb + ca * B)) / (C * C)).
  { unfold p. rewrite HXe. replace (4 * a * (S - r2) * (S - r1)) with (2 * a * k); [field; lra|].
    unfold S, k. replace (4 * a * ((r2 + r1 + C) / 2 - r2) * ((r2 + r1 + C) / 2 - r1)) with (a * (C * C - (r1 - r2) * (r1 - r2))) by field. rewrite HCC. ring. }
  assert (Hp : 0 < p).
  { rewrite Hpv. apply Rdiv_lt_0_compat; [|nra]. assert (0 < A * cb + ca * B) by nra. mpos. }
  assert (Hsq : 0 < sqrt (mu * p)) by (apply sqrt_lt_R0; nra).
  assert (Hsqq : sqrt (mu * p) * sqrt (mu * p) = mu * p) by (apply sqrt_sqrt; nra).
  assert (Hg : 0 < g) by (unfold g; apply Rmult_lt_0_compat; auto; apply Rdiv_lt_0_compat; auto).
  assert (Hgg : g * g * (mu * p) = r1 * r1 * (r2 * r2) * (s * s)).
  { unfold g. clear -Hsq Hsqq. revert Hsq Hsqq. generalize (sqrt (mu * p)). intros q Hq Hqq. rewrite <- Hqq. field. lra. }
  assert (HABn : A * A <> B * B) by nra.
  pose proof (lambert_quadratic a A B ca cb r1 r2 x C p Ha HABn Hca Hcb HAA HBB HCC Hpv) as HQ. cbv zeta in HQ.
  pose proof (lambert_energy a r1 r2 x C p f Ha H1 H2 Hp HCC eq_refl HQ) as HEn.
  assert (Hr1 : norm2 R1 = r1 * r1) by (unfold r1; rewrite norm_sq; auto).
  assert (Hr2 : norm2 R2 = r2 * r2) by (unfold r2; rewrite norm_sq; auto).
  fold r1 r2 in Hdot.
  assert (Hv2 : norm2 v = mu * (2 / r1 + 1 / a)).
  { assert (K : norm2 v * (g * g) = r2 * r2 + f * f * (r1 * r1) - 2 * f * (r1 * r2 * x)).
    { unfold v. rewrite norm2_vscale.
      replace (norm2 (vsub R2 (vscale f R1))) with (norm2 R2 + f * f * norm2 R1 - 2 * f * dot R1 R2) by (vsimpl; ring).
      rewrite Hr1, Hr2, Hdot. field. lra. }
    apply Rmult_eq_reg_r with (g * g * (mu * p)); [|apply Rgt_not_eq; unfold Rgt; mpos].
    transitivity (mu * (p * (norm2 v * (g * g)))); [ring|]. rewrite K, HEn, Hgg, Hss. ring. }
  assert (Hen : energy mu R1 v = mu / (2 * a)) by (unfold energy; fold r1; rewrite Hv2; field; lra).
  assert (HL : ang_mom R1 v = vscale (1 / g) (cross R1 R2)) by (unfold ang_mom, v; apply vec_eq; vsimpl; ring).
  assert (HL2 : norm2 (ang_mom R1 v) = mu * p).
  { rewrite HL, norm2_vscale, cross_norm2, Hr1, Hr2, Hdot. apply Rmult_eq_reg_l with (g * g); [|nra].
    rewrite Hgg. transitivity (r1 * r1 * (r2 * r2) * (1 - x * x)); [field; lra|rewrite Hss; ring]. }
  assert (HL0 : ang_mom R1 v <> vzero).
  { intros Z. rewrite Z in HL2. replace (norm2 vzero) with 0 in HL2 by (vsimpl; ring). nra. }
  destruct (state_on_hyperbola mu a R1 v Hmu Ha Hen HL0) as (e & P & W & Ha1 & He & HP1 & HW1 & HWP & Epos & Evel & Ehh & Eecc & EL & Ech & Esh).
  set (h := norm (ang_mom R1 v)) in *.
  assert (Hh : 0 < h) by (apply norm_pos; auto).
  assert (Hhp : h * h = mu * p) by (unfold h; rewrite norm_sq; auto).
  set (b := sqrt (e * e - 1)).
  assert (Hb2 : b * b = e * e - 1) by (apply sqrt_sqrt; nra).
  assert (Hb : 0 < b) by (apply sqrt_lt_R0; nra).
  assert (Hpb : p = a * (b * b)) by (rewrite Hb2; apply Rmult_eq_reg_l with mu; lra).
  set (m := sqrt (mu * a)) in *.
  assert (Hm0 : 0 < m) by (apply sqrt_lt_R0; nra).
  assert (Hmm : m * m = mu * a) by (apply sqrt_sqrt; nra).
  assert (Hhm : h = m * b).
  { apply sq_eq_nonneg; [lra|nra|]. rewrite Hhp, Hpb. transitivity (m * m * (b * b)); [rewrite Hmm; ring|ring]. }
  assert (Hsh : sqrt (mu * p) = h) by (rewrite <- Hhp; apply sqrt_square; lra).
  fold r1 in Ech. set (Q := cross W P).
  (* components of R2 *)
  assert (HRW : dot R2 W = 0).
  { apply Rmult_eq_reg_l with h; [|lra]. rewrite <- dot_vscale_r, <- EL, HL, dot_vscale_r.
    replace (dot R2 (cross R1 R2)) with 0 by (vsimpl; ring). ring. }
  assert (Hv1 : dot R1 v = (r1 * r2 * x - f * (r1 * r1)) / g).
  { unfold v. rewrite dot_vscale_r. replace (dot R1 (vsub R2 (vscale f R1))) with (dot R1 R2 - f * norm2 R1) by (vsimpl; ring). rewrite Hdot, Hr1. field; lra. }
  assert (Hv2' : dot R2 v = (r2 * r2 - f * (r1 * r2 * x)) / g).
  { unfold v. rewrite dot_vscale_r. replace (dot R2 (vsub R2 (vscale f R1))) with (norm2 R2 - f * dot R1 R2) by (vsimpl; ring). rewrite Hdot, Hr2. field; lra. }
  assert (HRP : e * dot R2 P = p - r2).
  { rewrite <- dot_vscale_r, <- Eecc. unfold ecc_vector. fold r1. change (cross R1 v) with (ang_mom R1 v). rewrite HL.
    replace (dot R2 (vsub (vscale (1 / mu) (cross v (vscale (1 / g) (cross R1 R2)))) (vscale (1 / r1) R1)))
      with (1 / mu * (1 / g) * (dot R1 R2 * dot R2 v - norm2 R2 * dot R1 v) - 1 / r1 * dot R1 R2) by (generalize v; intros w; vsimpl; ring).
    rewrite Hdot, Hr2, Hv1, Hv2'.
    transitivity (f * (r1 * r1 * (r2 * r2) * (s * s)) / (mu * (g * g)) - r2 * x); [rewrite Hss; field; lra|].
    rewrite <- Hgg. unfold f. field. lra. }
  assert (HRQ : e * dot R2 Q = h / mu * dot R2 v - g * h / r1).
  { replace (e * dot R2 Q) with (dot R2 (cross W (vscale e P))) by (unfold Q; vsimpl; ring). rewrite <- Eecc.
    unfold ecc_vector. fold r1. change (cross R1 v) with (ang_mom R1 v). rewrite EL.
    assert (HWv : dot W v = 0).
    { apply Rmult_eq_reg_l with h; [|lra]. rewrite <- dot_vscale_l, <- EL. unfold ang_mom. vsimpl; ring. }
    assert (HRR : cross R1 R2 = vscale (g * h) W).
    { assert (EL' : vscale (1 / g) (cross R1 R2) = vscale h W) by (rewrite <- HL; exact EL).
      transitivity (vscale g (vscale (1 / g) (cross R1 R2))); [generalize (cross R1 R2); intros w; apply vec_eq; vsimpl; field; lra|].
      rewrite EL'. apply vec_eq; vsimpl; ring. }
    transitivity (1 / mu * h * (norm2 W * dot R2 v - dot W v * dot R2 W) - 1 / r1 * dot W (cross R1 R2)).
    - generalize v; intros w. vsimpl; ring.
    - rewrite HRR, HW1, HWv, dot_vscale_r. change (dot W W) with (norm2 W). rewrite HW1. field. lra. }
  destruct (frame_facts P W HP1 HW1 HWP) as (F1 & F2 & F3 & F4 & F5). fold Q in F1, F2, F3, F4, F5.
  assert (Basis : R2 = vadd (vscale (dot R2 P) P) (vscale (dot R2 Q) Q)).
  { unfold Q. clear -HP1 HW1 HWP HRW. destruct R2 as [x1 y1 z1], P as [px py pz], W as [wx wy wz]. unfold norm2, dot in *; cbn [vx vy vz] in *. apply vec_eq; vsimpl; nsatz. }
  assert (HPQ2 : dot R2 P * dot R2 P + dot R2 Q * dot R2 Q = r2 * r2).
  { rewrite <- Hr2. transitivity (dot R2 (vadd (vscale (dot R2 P) P) (vscale (dot R2 Q) Q))).
    - rewrite dot_lin. reflexivity.
    - rewrite <- Basis. reflexivity. }
  (* second anomaly *)
  set (q := dot R2 Q / (a * b)). set (H2a := arcsinh q).
  assert (Hab : 0 < a * b) by mpos.
  assert (Sq : sinh H2a = q) by apply sinh_arcsinh.
  assert (Hch2 : e * cosh H2a = 1 + r2 / a).
  { pose proof (cosh_pos H2a). apply sq_eq_nonneg; [apply Rmult_le_pos; lra|left; apply Rplus_lt_0_compat; [lra|apply Rdiv_lt_0_compat; lra]|].
    transitivity (e * e * (cosh H2a * cosh H2a)); [ring|]. rewrite cosh_sq, Sq. unfold q.
    apply Rmult_eq_reg_r with (a * b * (a * b)); [|apply Rgt_not_eq; unfold Rgt; mpos].
    transitivity (e * e * (a * b * (a * b)) + e * e * (dot R2 Q * dot R2 Q)); [field; lra|].
    replace (dot R2 Q * dot R2 Q) with (r2 * r2 - dot R2 P * dot R2 P) by lra.
    replace (e * e * (r2 * r2 - dot R2 P * dot R2 P)) with (e * e * (r2 * r2) - e * dot R2 P * (e * dot R2 P)) by ring.
    rewrite HRP, Hpb. replace (e * e) with (1 + b * b) by lra. field. lra. }
  assert (Hpos2 : R2 = hyp_pos a e P W H2a).
  { unfold hyp_pos. fold b Q. rewrite Sq. rewrite Basis at 1.
    replace (dot R2 P) with (a * (e - cosh H2a)).
    - unfold q. generalize (dot R2 Q). intros z. apply vec_eq; vsimpl; field; lra.
    - apply Rmult_eq_reg_l with e; [|lra]. rewrite HRP, Hpb, Hb2.
      transitivity (a * (e * e - e * cosh H2a)); [ring|]. rewrite Hch2. field. lra. }
  (* time of flight *)
  assert (Hgm : g * m = r1 * r2 * s / b) by (unfold g; rewrite Hsh, Hhm; field; lra).
  assert (HT : e * sinh H2a - e * sinh Ha1 = 2 * (A * ca - B * cb)).
  { rewrite Esh, Sq. unfold q.
    replace (e * (dot R2 Q / (a * b))) with (e * dot R2 Q / (a * b)) by (field; lra).
    apply Rmult_eq_reg_l with (p * (g * m)); [|apply Rgt_not_eq; unfold Rgt; mpos].
    rewrite Rmult_assoc with (r3 := 2 * (A * ca - B * cb)).
    rewrite (lambert_sinh a A B ca cb r1 r2 x s C p b (g * m)); auto; try lra.
    rewrite HRQ, Hv1, Hv2', Hhm.
    transitivity (p * (r2 * r2 - f * (r1 * r2 * x) - (r1 * r2 * x - f * (r1 * r1))) + p * (r2 * r2 - f * (r1 * r2 * x)) * (m * m / (mu * a) - 1) - g * g * (mu * p) / (mu * a) / r1 * (m * m)); [field; lra|].
    rewrite Hmm, Hgg, Hss, HCC. unfold f. field. lra. }
  assert (Hd2 : H2a - Ha1 = 2 * (ua - ub)).
  { apply (anomaly_difference e Ha1 H2a (ua + ub) (ua - ub)); [lra| |].
    - rewrite Rmult_plus_distr_l, Ech, Hch2. unfold Rminus. rewrite !cosh_plus, cosh_neg, sinh_neg, SA, SB. fold ca cb.
      transitivity (2 * (ca * ca * (cb * cb) - A * A * (B * B))); [|ring]. rewrite Hca, Hcb.
      apply Rmult_eq_reg_l with a; [|lra]. transitivity (2 * a + (r1 + r2)); [field; lra|].
      transitivity (2 * a + (2 * a * (A * A) + 2 * a * (B * B))); [lra|ring].
    - replace (e * (sinh H2a - sinh Ha1)) with (e * sinh H2a - e * sinh Ha1) by ring. rewrite HT.
      unfold Rminus. rewrite sinh_plus, cosh_plus, cosh_neg, sinh_neg, SA, SB. fold ca cb.
      transitivity (2 * (A * ca * (cb * cb - B * B) - B * cb * (ca * ca - A * A))); [|ring]. rewrite Hca, Hcb. ring. }
  assert (Sal : sinh al = 2 * (A * ca)).
  { unfold al. replace (2 * ua) with (ua + ua) by ring. rewrite sinh_plus, SA. fold ca. ring. }
  assert (Sbe : sinh be = 2 * (B * cb)).
  { unfold be. replace (2 * ub) with (ub + ub) by ring. rewrite sinh_plus, SB. fold cb. ring. }
  split; [auto|]. split; [auto|]. split; [auto|]. split; [auto|]. split.
  { unfold al, be. assert (0 <= ub). { unfold ub. rewrite <- arcsinh_0. apply arcsinh_le. lra. }
    assert (ub < ua) by (unfold ua, ub; apply arcsinh_lt; auto). lra. }
  split; [auto|].
  split; [|split; [|exact HQ]].
  2:{ fold x. fold k. pose proof (lambert_sinh a A B ca cb r1 r2 x s C p b (g * m) Ha HB0 HAB Hca0 Hcb0 H1 H2 Hs Hss ltac:(lra) HC Hca Hcb HAA HBB HCC Hpv Hb Hpb Hgm) as LS. fold k in LS.
    assert (Hcab : cb < ca) by nra.
    assert (0 < p * (g * m * (2 * (A * ca - B * cb)))); [|lra].
    assert (0 < A * ca - B * cb) by nra. mpos. }
  exists e, P, W, Ha1, H2a. do 7 (split; [assumption|]).
  unfold hyp_time. rewrite Sal, Sbe. unfold al, be. fold ua ub.
  replace (sqrt (a ^ 3 / mu) * (e * sinh H2a - H2a) - sqrt (a ^ 3 / mu) * (e * sinh Ha1 - Ha1))
    with (sqrt (a ^ 3 / mu) * ((e * sinh H2a - e * sinh Ha1) - (H2a - Ha1))) by ring.
  rewrite HT, Hd2. ring.
Qed.
