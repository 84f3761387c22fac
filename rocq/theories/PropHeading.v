(** Property C108: the exit state an Orbiter reports as body-inertial. *)
From Coq Require Import List String.
Require Import Verif.Base Verif.Numpy Verif.PlanetModel Verif.PlanetProofs Verif.FrameModel Verif.FrameProofs Verif.ConicSpec Verif.ConicProofs
  Verif.ApproachModel Verif.ApproachProofs Verif.OrbitScalarModel Verif.OrbiterModel Verif.OrbiterProofs Verif.PropApproach Verif.PropOrbiter Verif.PropProbe.
Local Open Scope R_scope.

(** Up, east and north are orthonormal, and components determine a vector. *)
Lemma une : forall th ph a b c, let w := vadd (vscale a (up_dir th ph)) (vadd (vscale b (east_dir th)) (vscale c (north_dir th ph))) in
  dot w (up_dir th ph) = a /\ dot w (east_dir th) = b /\ dot w (north_dir th ph) = c /\ norm2 w = a * a + b * b + c * c.
Proof.
  intros th ph a b c w. pose proof (sin2_cos2 th) as T. pose proof (sin2_cos2 ph) as P. unfold Rsqr in T, P.
  assert (S1 : sin th * sin th = 1 - cos th * cos th) by lra. assert (S2 : sin ph * sin ph = 1 - cos ph * cos ph) by lra.
  unfold w, up_dir, east_dir, north_dir, norm2, dot, vadd, vscale. cbn [vx vy vz].
  set (x := cos th) in *. set (y := sin th) in *. set (u := cos ph) in *. set (z := sin ph) in *. clearbody x y u z.
  repeat split.
  - transitivity (a * (u * u * (x * x + y * y) + z * z) + c * (u * z * (1 - (x * x + y * y)))); [ring|]. replace (x * x + y * y) with 1 by lra. rewrite S2. ring.
  - transitivity (b * (x * x + y * y)); [ring|]. replace (x * x + y * y) with 1 by lra. ring.
  - transitivity (c * (z * z * (x * x + y * y) + u * u) + a * (u * z * (1 - (x * x + y * y)))); [ring|]. replace (x * x + y * y) with 1 by lra. rewrite S2. ring.
  - transitivity (a * a * (u * u * (x * x + y * y) + z * z) + b * b * (x * x + y * y) + c * c * (z * z * (x * x + y * y) + u * u) + 2 * a * c * (u * z * (1 - (x * x + y * y)))); [ring|].
    replace (x * x + y * y) with 1 by lra. rewrite S2. ring.
Qed.
Lemma inertial_une : forall Om r v g ps th ph, inertial_vel Om r v g ps th ph =
  vadd (vscale (v * sin g) (up_dir th ph)) (vadd (vscale (v * cos g * cos ps + Om * r * cos ph) (east_dir th)) (vscale (v * cos g * sin ps) (north_dir th ph))).
Proof. intros. unfold inertial_vel, rel_vel, sph_pos, up_dir, east_dir, north_dir. apply vec_eq; vsimpl; ring. Qed.

(** The plane problem: [c] is the horizontal speed through the air, [w] the speed of the air. *)
Lemma same_heading : forall c w ps, 0 < c -> let e := c * cos ps + w in let n := c * sin ps in let H := sqrt (e * e + n * n) in
  (H * cos ps = e /\ H * sin ps = n) <-> (w = 0 \/ (sin ps = 0 /\ 0 <= c + w * cos ps)).
Proof.
  intros c w ps Hc e n H. pose proof (sin2_cos2 ps) as SC. unfold Rsqr in SC.
  assert (H0 : 0 <= H) by apply sqrt_pos.
  assert (HH : H * H = e * e + n * n) by (apply sqrt_sqrt; nra).
  split.
  - intros (E1 & E2). destruct (Req_dec (sin ps) 0) as [Z|Z].
    + right. split; auto. assert (C1 : cos ps * cos ps = 1) by nra. unfold e in E1. assert (c + w * cos ps = H); [|lra].
      transitivity ((c * cos ps + w) * cos ps + c * (1 - cos ps * cos ps)); [ring|]. rewrite <- E1, C1. transitivity (H * (cos ps * cos ps)); [ring|]. rewrite C1. ring.
    + left. unfold n in E2. apply Rmult_eq_reg_r in E2; auto. unfold e in E1. rewrite E2 in E1. lra.
  - intros [Z|(Z & Q)].
    + assert (H = c). { assert (H * H = c * c) by (rewrite HH; unfold e, n; rewrite Z; transitivity (c * c * (sin ps * sin ps + cos ps * cos ps)); [ring|rewrite SC; ring]). nra. }
      unfold e, n. rewrite H1, Z. split; ring.
    + assert (C1 : cos ps * cos ps = 1) by nra.
      assert (H = c + w * cos ps).
      { assert (H * H = (c + w * cos ps) * (c + w * cos ps)); [|nra]. rewrite HH. unfold e, n. rewrite Z.
        transitivity (c * c * (cos ps * cos ps) + 2 * c * w * cos ps + w * w); [ring|]. rewrite C1.
        transitivity (c * c + 2 * c * w * cos ps + w * w * (cos ps * cos ps)); [rewrite C1; ring|ring]. }
      unfold e, n. rewrite H1, Z. split; [|ring]. transitivity (c * cos ps + w * (cos ps * cos ps)); [ring|]. rewrite C1. ring.
Qed.

(** Radius, longitude, latitude, speed and flight-path angle of the reported body-inertial state are
    those of the inertial state vector.  The heading is the one through the air: the six reported values
    describe the inertial velocity exactly when the air does not move at that place, or the flight is due
    east or due west and the air does not carry the vehicle backwards faster than it flies. *)
Theorem C108_exit_state_bi : forall name p rs ths phs vs gs pss r th ph v g ps pk ob, Planet name = Ok p ->
  length ths = length rs -> length phs = length rs -> length vs = length rs -> length gs = length rs -> length pss = length rs ->
  Orbiter (mkFlown p (S (length rs)) (rs ++ [r]) (ths ++ [th]) (phs ++ [ph]) (vs ++ [v]) (gs ++ [g]) (pss ++ [ps])) pk = Ok ob ->
  0 < r -> 0 < v * cos g ->
  let w := inertial_vel (OMEGA p) r v g ps th ph in let b := exit_bi ob in w <> vzero ->
  exists g', bi_r b = r /\ bi_theta b = th /\ bi_phi b = ph /\ bi_v b = norm w /\ bi_g b = Some g' /\ bi_psi b = ps /\
    - (PI / 2) <= g' <= PI / 2 /\ norm w * sin g' = dot w (up_dir th ph) /\
    (rel_vel (bi_v b) g' (bi_psi b) (bi_theta b) (bi_phi b) = w <->
      (OMEGA p * r * cos ph = 0 \/ (sin ps = 0 /\ 0 <= v * cos g + OMEGA p * r * cos ph * cos ps))).
Proof.
  intros name p rs ths phs vs gs pss r th ph v g ps pk ob Hp L1 L2 L3 L4 L5 HO Hr Hc w b Hw.
  destruct (C67_exit_state p rs ths phs vs gs pss r th ph v g ps pk L1 L2 L3 L4 L5) as (ob' & HO' & R1 & V1).
  rewrite HO in HO'. injection HO' as <-.
  assert (X : ob_exit ob = mkExit r th ph v g ps).
  { assert (G : forall l x, length l = length rs -> py_get (l ++ [x]) (Z.of_nat (S (length rs)) - 1)%Z = Ok x).
    { intros l x E. rewrite <- (py_get_last l x) at 1. rewrite app_length. cbn [length]. rewrite E, Nat.add_1_r. reflexivity. }
    unfold Orbiter, exit_state_atm in HO. cbn [fl_planet fl_index fl_r fl_theta fl_phi fl_v fl_gamma fl_psi] in HO. rewrite !G in HO by auto. cbn [rbind] in HO. injection HO as <-. reflexivity. }
  unfold b, exit_bi. rewrite X, R1, V1. cbn [x_r x_theta x_phi x_v x_g x_psi bi_r bi_theta bi_phi bi_v bi_g bi_psi]. fold w.
  assert (Hrv : sph_pos r th ph <> vzero).
  { intros Z. pose proof (sph_norm r th ph ltac:(lra)) as N. rewrite Z in N. unfold norm in N. replace (norm2 vzero) with 0 in N by (vsimpl; ring). rewrite sqrt_0 in N. lra. }
  destruct (fpa_horizontal _ _ Hrv Hw) as (g' & F1 & F2 & F3 & F4). rewrite sph_norm in F2, F3 by lra.
  exists g'. rewrite F1. do 6 (split; [reflexivity|]). split; [exact F4|].
  set (c := v * cos g) in *. set (k := OMEGA p * r * cos ph). set (e := c * cos ps + k). set (n := c * sin ps).
  assert (Ew : w = vadd (vscale (v * sin g) (up_dir th ph)) (vadd (vscale e (east_dir th)) (vscale n (north_dir th ph)))) by (unfold w; apply inertial_une).
  destruct (une th ph (v * sin g) e n) as (U1 & U2 & U3 & U4). rewrite <- Ew in U1, U2, U3, U4.
  assert (S1 : norm w * sin g' = v * sin g).
  { apply Rmult_eq_reg_l with r; [|lra]. rewrite <- Rmult_assoc, F3. unfold sph_pos. rewrite dot_vscale_l. f_equal. rewrite <- U1. unfold dot. ring. }
  assert (C1 : norm w * cos g' = sqrt (e * e + n * n)).
  { apply Rmult_eq_reg_l with r; [|lra]. rewrite <- Rmult_assoc, F2. apply norm_eq.
    - apply Rmult_le_pos; [lra|apply sqrt_pos].
    - rewrite cross_norm2. assert (Nr : norm2 (sph_pos r th ph) = r * r) by (rewrite <- norm_sq, sph_norm by lra; reflexivity). rewrite Nr, U4.
      assert (D : dot (sph_pos r th ph) w = r * (v * sin g)) by (rewrite <- F3, Rmult_assoc, S1; reflexivity). rewrite D.
      assert (Q : sqrt (e * e + n * n) * sqrt (e * e + n * n) = e * e + n * n) by (apply sqrt_sqrt; nra).
      transitivity (r * r * (sqrt (e * e + n * n) * sqrt (e * e + n * n))); [rewrite Q; ring|ring]. }
  split; [rewrite U1; exact S1|].
  rewrite <- (same_heading c k ps Hc). fold e n. unfold rel_vel. rewrite S1, C1. split.
  - intros E. destruct (une th ph (v * sin g) (sqrt (e * e + n * n) * cos ps) (sqrt (e * e + n * n) * sin ps)) as (_ & W2 & W3 & _).
    rewrite E in W2, W3. lra.
  - intros (E1 & E2). rewrite E1, E2. symmetry. exact Ew.
Qed.
(** Leaving the air anywhere but at a pole, with any heading that is not due east or west, the reported
    heading is not the inertial one: every planet in the catalogue rotates. *)
Theorem C108_heading_refuted : forall name p rs ths phs vs gs pss r th ph v g ps pk ob, Planet name = Ok p ->
  length ths = length rs -> length phs = length rs -> length vs = length rs -> length gs = length rs -> length pss = length rs ->
  Orbiter (mkFlown p (S (length rs)) (rs ++ [r]) (ths ++ [th]) (phs ++ [ph]) (vs ++ [v]) (gs ++ [g]) (pss ++ [ps])) pk = Ok ob ->
  0 < r -> 0 < v * cos g -> cos ph <> 0 -> sin ps <> 0 ->
  forall g', rel_vel (bi_v (exit_bi ob)) g' (bi_psi (exit_bi ob)) (bi_theta (exit_bi ob)) (bi_phi (exit_bi ob)) <> ob_v_ie ob.
Proof.
  intros name p rs ths phs vs gs pss r th ph v g ps pk ob Hp L1 L2 L3 L4 L5 HO Hr Hc Hph Hps g' E.
  destruct (C67_exit_state p rs ths phs vs gs pss r th ph v g ps pk L1 L2 L3 L4 L5) as (ob' & HO' & R1 & V1).
  rewrite HO in HO'. injection HO' as <-.
  assert (X : bi_psi (exit_bi ob) = ps /\ bi_theta (exit_bi ob) = th /\ bi_phi (exit_bi ob) = ph).
  { assert (G : forall l x, length l = length rs -> py_get (l ++ [x]) (Z.of_nat (S (length rs)) - 1)%Z = Ok x).
    { intros l x Q. rewrite <- (py_get_last l x) at 1. rewrite app_length. cbn [length]. rewrite Q, Nat.add_1_r. reflexivity. }
    unfold Orbiter, exit_state_atm in HO. cbn [fl_planet fl_index fl_r fl_theta fl_phi fl_v fl_gamma fl_psi] in HO. rewrite !G in HO by auto. cbn [rbind] in HO. injection HO as <-. repeat split. }
  destruct X as (X1 & X2 & X3). rewrite X1, X2, X3, V1 in E. set (V := bi_v (exit_bi ob)) in *. clearbody V. rewrite inertial_une in E. unfold rel_vel in E.
  set (c := v * cos g) in *. set (k := OMEGA p * r * cos ph) in *.
  assert (Hk : k <> 0). { unfold k. destruct (Planet_facts _ _ Hp) as (_ & _ & _ & _ & _ & _ & _ & HOm & _). repeat apply Rmult_integral_contrapositive_currified; auto; lra. }
  pose proof (une th ph (V * sin g') (V * cos g' * cos ps) (V * cos g' * sin ps)) as (_ & A2 & A3 & _).
  pose proof (une th ph (v * sin g) (c * cos ps + k) (c * sin ps)) as (_ & B2 & B3 & _). rewrite <- E in B2, B3.
  rewrite A2 in B2. rewrite A3 in B3. apply Rmult_eq_reg_r in B3; auto. rewrite B3 in B2. lra.
Qed.
(** Neptune, climbing out north-east over the equator. *)
Example C108_witness : exists ob, Orbiter (mkFlown NEPTUNE 1 [25622e3] [0] [0] [20000] [PI / 6] [PI / 4]) 4000 = Ok ob /\
  0 < 20000 * cos (PI / 6) /\ cos 0 <> 0 /\ sin (PI / 4) <> 0 /\ inertial_vel (OMEGA NEPTUNE) 25622e3 20000 (PI / 6) (PI / 4) 0 0 <> vzero.
Proof.
  pose proof PI_RGT_0 as HPI. assert (0 < cos (PI / 6)) by (apply cos_gt_0; lra). assert (0 < sin (PI / 4)) by (apply sin_gt_0; lra).
  destruct (C67_exit_state NEPTUNE [] [] [] [] [] [] 25622e3 0 0 20000 (PI / 6) (PI / 4) 4000 eq_refl eq_refl eq_refl eq_refl eq_refl) as (ob & HO & _).
  exists ob. split; [exact HO|]. split; [lra|]. split; [rewrite cos_0; lra|]. split; [lra|].
  intros Z. rewrite inertial_une in Z. pose proof (une 0 0 (20000 * sin (PI / 6)) (20000 * cos (PI / 6) * cos (PI / 4) + OMEGA NEPTUNE * 25622e3 * cos 0) (20000 * cos (PI / 6) * sin (PI / 4))) as (_ & _ & U & _).
  rewrite Z in U. replace (dot vzero (north_dir 0 0)) with 0 in U by (vsimpl; ring). nra.
Qed.
