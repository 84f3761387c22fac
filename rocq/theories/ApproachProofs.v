(** Facts about the approach model used by the property theorems. *)
From Coq Require Import Nsatz.
Require Import Verif.Base Verif.PlanetModel Verif.PlanetProofs Verif.FrameModel Verif.FrameProofs
  Verif.ApproachModel Verif.ConicSpec Verif.ConicProofs.
Local Open Scope R_scope.

Lemma np_arccos_inv : forall x a, np_arccos x = Some a -> -1 <= x <= 1 /\ a = acos x.
Proof. intros x a H. unfold np_arccos in H. rcases; simpl in H; inversion H; auto. Qed.
Lemma np_div_inv : forall x y q, np_div x y = Some q -> y <> 0 /\ q = x / y.
Proof. intros x y q H. unfold np_div in H. rcases; inversion H; auto. Qed.
Lemma np_sqrt_inv : forall x a, np_sqrt x = Some a -> 0 <= x /\ a = sqrt x.
Proof. intros x a H. unfold np_sqrt in H. rcases; inversion H; split; auto; lra. Qed.

Lemma sqrt_ratio : forall x y, x <> 0 -> sqrt (1 + Rsqr (y / x)) = sqrt (x * x + y * y) / Rabs x.
Proof.
  intros x y Hx. pose proof (Rabs_pos_lt x Hx).
  assert (Hxx : Rabs x * Rabs x = x * x) by (rewrite <- Rabs_mult; apply Rabs_pos_eq; nra).
  replace (1 + Rsqr (y / x)) with ((x * x + y * y) / (x * x)) by (unfold Rsqr; field; auto).
  rewrite sqrt_div_alt by nra. f_equal. rewrite <- Hxx. apply sqrt_square. lra.
Qed.
Lemma atan2_spec : forall y x, cos (atan2 y x) * sqrt (x * x + y * y) = x /\ sin (atan2 y x) * sqrt (x * x + y * y) = y.
Proof.
  intros y x. unfold atan2.
  assert (Gen : x <> 0 -> cos (atan (y / x)) * sqrt (x * x + y * y) = Rabs x /\ sin (atan (y / x)) * sqrt (x * x + y * y) = y / x * Rabs x).
  { intros Hx. rewrite cos_atan, sin_atan, sqrt_ratio; auto.
    assert (0 < sqrt (x * x + y * y)) by (apply sqrt_lt_R0; nra). pose proof (Rabs_pos_lt x Hx).
    split; field; repeat split; lra. }
  rcases.
  - destruct Gen as [A B]; [lra|]. rewrite Rabs_pos_eq in A, B by lra. rewrite A, B. split; auto. field; lra.
  - destruct Gen as [A B]; [lra|]. rewrite Rabs_left in A, B by lra.
    rewrite neg_cos, neg_sin. split; [nra|]. replace (y / x * - x) with (- y) in B by (field; lra). nra.
  - destruct Gen as [A B]; [lra|]. rewrite Rabs_left in A, B by lra.
    unfold Rminus. replace (atan (y / x) + - PI) with (- (- atan (y / x) + PI)) by ring.
    rewrite cos_neg, sin_neg, neg_cos, neg_sin, cos_neg, sin_neg. split; [nra|].
    replace (y / x * - x) with (- y) in B by (field; lra). nra.
  - assert (x = 0) by lra. subst. rewrite cos_PI2, sin_PI2.
    replace (0 * 0 + y * y) with (y * y) by ring. rewrite sqrt_square by lra. lra.
  - assert (x = 0) by lra. subst. rewrite cos_neg, sin_neg, cos_PI2, sin_PI2.
    replace (0 * 0 + y * y) with (-y * -y) by ring. rewrite sqrt_square by lra. lra.
  - assert (x = 0) by lra. assert (y = 0) by lra. subst.
    replace (0 * 0 + 0 * 0) with 0 by ring. rewrite sqrt_0. lra.
Qed.

(** The double-prime frame: v_inf is its z axis. *)
Lemma dprime_axis : forall vb, let p1 := atan2 (vy vb) (vx vb) in
  let p2 := atan2 (vx (mvmul (R3 p1) vb)) (vz (mvmul (R3 p1) vb)) in
  BI_to_BI_dprime p1 p2 vb = V3 0 0 (norm vb) /\
  atan2 (vx vb * cos p1 + vy vb * sin p1) (vz vb) = p2.
Proof.
  intros [x y z] p1 p2. unfold vx, vy, vz in p1. 
  destruct (atan2_spec y x) as [A B]. fold p1 in A, B.
  set (d := sqrt (x * x + y * y)) in *.
  assert (Hd : d * d = x * x + y * y) by (apply sqrt_sqrt; nra).
  assert (E1 : mvmul (R3 p1) (V3 x y z) = V3 d 0 z).
  { clearbody p1 d. apply vec_eq; unfold R3; vsimpl; generalize (sin2cos2 p1); revert A B; generalize (cos p1) (sin p1); intros c s A B H.
    - rewrite <- A, <- B. transitivity (d * (s * s + c * c)); [ring|rewrite H; ring].
    - rewrite <- A, <- B. ring.
    - ring. }
  unfold p2. rewrite E1. simpl vx. simpl vy. simpl vz.
  destruct (atan2_spec d z) as [C D]. fold (atan2 d z). set (q := atan2 d z) in *.
  set (n := sqrt (z * z + d * d)) in *.
  assert (Hn : norm (V3 x y z) = n).
  { unfold n, norm. f_equal. vsimpl. lra. }
  split.
  - unfold BI_to_BI_dprime, BI_to_BI_dprime_matrix. rewrite mvmul_mmul. fold p1. rewrite E1, Hn.
    clearbody q n. clear -C D. apply vec_eq; unfold R2; vsimpl; generalize (sin2cos2 q); revert C D; generalize (cos q) (sin q); intros c s C D H.
    + rewrite <- C, <- D. ring.
    + ring.
    + rewrite <- C, <- D. transitivity (n * (s * s + c * c)); [ring|rewrite H; ring].
  - assert (E : vx (mvmul (R3 p1) (V3 x y z)) = d) by (rewrite E1; auto).
    unfold q. f_equal. rewrite <- E. unfold R3; vsimpl. ring.
Qed.

Lemma dprime_rot : forall p1 p2, proper_rotation (BI_to_BI_dprime_matrix p1 p2).
Proof. intros. apply mmul_rot; [apply R2_rot|apply R3_rot]. Qed.

(** The unit periapsis vector is the rotated-back analytic direction. *)
Lemma rp_unit_dprime : forall p1 p2 b psi,
  BI_to_BI_dprime p1 p2 (rp_unit_of p1 p2 b psi) = V3 (sin b * cos psi) (sin b * sin psi) (cos b).
Proof.
  intros. unfold BI_to_BI_dprime, BI_to_BI_dprime_matrix, rp_unit_of. rewrite mvmul_mmul. unfold R2, R3.
  generalize (sin2cos2 p1) (sin2cos2 p2).
  generalize (sin p1) (cos p1) (sin p2) (cos p2) (sin b) (cos b) (sin psi) (cos psi).
  intros s1 c1 s2 c2 sb cb sp cp H1 H2. apply vec_eq; vsimpl; nsatz.
Qed.

(** What every approach with non-zero v_inf and positive rp satisfies. *)
Record hyper (A : approach) (V a e b h : R) (P W : vec) := mkHyper {
  hy_V : v_inf_mag A = V; hy_Vpos : 0 < V; hy_n : norm (v_inf_bi A) = V;
  hy_a : ap_a A = Some a; hy_av : a = - GM (ap_planet A) / (V * V);
  hy_e : ap_e A = Some e; hy_ev : e = 1 + ap_rp A * (V * V) / GM (ap_planet A); hy_e1 : 1 < e;
  hy_b : ap_beta A = Some b; hy_bv : b = acos (1 / e); hy_cb : cos b = 1 / e; hy_sb : 0 < sin b;
  hy_P : rp_unit A = Some P; hy_Pv : P = rp_unit_of (phi_1 A) (phi_2 A) b (ap_psi A); hy_P1 : norm2 P = 1;
  hy_rv : rp_vec A = Some (vscale (ap_rp A) P); hy_eu : e_unit A = Some P;
  hy_Pd : BI_to_BI_dprime (phi_1 A) (phi_2 A) P = V3 (sin b * cos (ap_psi A)) (sin b * sin (ap_psi A)) (cos b);
  hy_vd : BI_to_BI_dprime (phi_1 A) (phi_2 A) (v_inf_bi A) = V3 0 0 V;
  hy_Pdot : dot P (v_inf_bi A) = V * cos b;
  hy_h : ap_h A = Some h; hy_hpos : 0 < h; hy_h2 : h * h = GM (ap_planet A) * ap_rp A * (1 + e);
  hy_hv : h_vec A = Some (cross (vscale (ap_rp A) P) (v_inf_bi A));
  hy_hW : cross (vscale (ap_rp A) P) (v_inf_bi A) = vscale (ap_rp A * V * sin b) W;
  hy_W : h_unit A = Some W; hy_W1 : norm2 W = 1; hy_WP : dot W P = 0; hy_Wv : dot W (v_inf_bi A) = 0;
  hy_sv : v_inf_bi A = vscale V (vadd (vscale (cos b) P) (vscale (sin b) (cross W P))) }.

Lemma core_hyper : forall name p v rp psi, Planet name = Ok p -> v <> vzero -> 0 < rp ->
  exists V a e b h P W, hyper (Approach_core p v rp psi) V a e b h P W.
Proof.
  intros name p v rp psi Hp Hv Hrp. destruct (Planet_facts _ _ Hp) as (_ & HGM & _).
  set (A := Approach_core p v rp psi).
  set (V := norm v * 1e3). set (mu := GM p) in *.
  assert (HV : 0 < V) by (unfold V; pose proof (norm_pos v Hv); lra).
  set (vb := v_inf_bi A).
  assert (Hvb : norm vb = V).
  { unfold vb, A; simpl. rewrite norm_vscale by lra. unfold ICRF_to_BI.
    rewrite rot_norm; [unfold V; ring|]. apply mmul_rot; [apply R1_rot|apply R3_rot]. }
  assert (HVV : 0 < V * V) by nra.
  set (a := - mu / (V * V)).
  assert (Ha : ap_a A = Some a) by (unfold A; simpl; fold V; rewrite np_div_some by lra; auto).
  assert (Hane : a <> 0).
  { unfold a. intro E. assert (- mu = 0); [|lra]. replace (- mu) with (- mu / (V * V) * (V * V)) by (field; lra). rewrite E; ring. }
  set (e := 1 + rp * (V * V) / mu).
  assert (He1 : 1 < e) by (unfold e; assert (0 < rp * (V * V) / mu) by pos; lra).
  assert (He : ap_e A = Some e).
  { change (ap_e A) with (match ap_a A with Some x => leto q := np_div rp x in Some (1 - q) | None => Some 1 end). rewrite Ha; simpl.
    rewrite np_div_some by auto; simpl. f_equal. unfold a, e. field. split; lra. }
  assert (Hie : -1 <= 1 / e <= 1).
  { assert (0 < 1 / e) by pos. split; [lra|]. apply Rmult_le_reg_r with e; [lra|]. field_simplify; lra. }
  assert (Hie1 : 1 / e < 1) by (apply Rmult_lt_reg_r with e; [lra|]; field_simplify; lra).
  set (b := acos (1 / e)).
  assert (Hb : ap_beta A = Some b).
  { change (ap_beta A) with (leto x := ap_e A in leto q := np_div 1 x in np_arccos q). rewrite He; simpl.
    rewrite np_div_some by lra; simpl. rewrite np_arccos_some; auto. }
  destruct (cos_sin_acos (1 / e) Hie) as (Cb & Sb & Sb2). fold b in Cb, Sb, Sb2.
  assert (Hsb : 0 < sin b).
  { destruct Sb as [|E]; auto. exfalso. rewrite <- E in Sb2. assert (0 < 1 / e) by pos. nra. }
  set (P := rp_unit_of (phi_1 A) (phi_2 A) b psi).
  assert (HP : rp_unit A = Some P).
  { change (rp_unit A) with (leto b := ap_beta A in Some (rp_unit_of (phi_1 A) (phi_2 A) b psi)). rewrite Hb; auto. }
  assert (HPd := rp_unit_dprime (phi_1 A) (phi_2 A) b psi). fold P in HPd.
  destruct (dprime_rot (phi_1 A) (phi_2 A)) as (Rd & Rc & _ & _).
  assert (HP1 : norm2 P = 1).
  { unfold norm2. rewrite <- Rd. change (mvmul (BI_to_BI_dprime_matrix (phi_1 A) (phi_2 A)) P) with (BI_to_BI_dprime (phi_1 A) (phi_2 A) P).
    rewrite HPd. vsimpl. generalize (sin2cos2 b) (sin2cos2 psi). generalize (sin b) (cos b) (sin psi) (cos psi); intros; nsatz. }
  assert (Hvd : BI_to_BI_dprime (phi_1 A) (phi_2 A) vb = V3 0 0 V).
  { rewrite <- Hvb. apply dprime_axis. }
  assert (HPdot : dot P vb = V * cos b).
  { rewrite <- Rd. change (mvmul (BI_to_BI_dprime_matrix (phi_1 A) (phi_2 A))) with (BI_to_BI_dprime (phi_1 A) (phi_2 A)).
    rewrite HPd, Hvd. vsimpl. ring. }
  assert (Hrv : rp_vec A = Some (vscale rp P)).
  { change (rp_vec A) with (leto u := rp_unit A in Some (vscale rp u)). rewrite HP; auto. }
  assert (Heu : e_unit A = Some P).
  { change (e_unit A) with (leto x := ap_e A in leto u := rp_unit A in unit_of (vscale x u)). rewrite He, HP; simpl.
    assert (Hn : norm (vscale e P) = e) by (apply norm_eq; [lra|]; rewrite norm2_vscale, HP1; ring).
    rewrite unit_of_some.
    - f_equal. rewrite Hn. destruct P; apply vec_eq; vsimpl; field; lra.
    - intros E. rewrite E in Hn. unfold norm in Hn. replace (norm2 vzero) with 0 in Hn by (vsimpl; ring). rewrite sqrt_0 in Hn. lra. }
  set (h := sqrt (a * mu * (1 - e * e))).
  assert (Hh2 : a * mu * (1 - e * e) = mu * rp * (1 + e)).
  { transitivity ((a * (1 - e)) * mu * (1 + e)); [ring|]. replace (a * (1 - e)) with rp; [ring|]. unfold a, e. field. split; lra. }
  assert (Hh2p : 0 < mu * rp * (1 + e)) by (apply Rmult_lt_0_compat; [nra|lra]).
  assert (Hh : ap_h A = Some h).
  { change (ap_h A) with (leto x := ap_a A in leto y := ap_e A in np_sqrt (x * mu * (1 - y * y))). rewrite Ha, He; simpl.
    apply np_sqrt_some. lra. }
  assert (Hhp : 0 < h) by (apply sqrt_lt_R0; lra).
  assert (Hhh : h * h = mu * rp * (1 + e)) by (rewrite <- Hh2; apply sqrt_sqrt; lra).
  assert (Hvb2 : norm2 vb = V * V) by (rewrite <- norm_sq, Hvb; auto).
  assert (Hcr : norm (cross P vb) = V * sin b).
  { apply norm_eq; [nra|]. rewrite cross_norm2, HP1, Hvb2, HPdot. generalize (sin2cos2 b). intros; nra. }
  set (W := vscale (1 / (V * sin b)) (cross P vb)).
  assert (HVs : 0 < V * sin b) by nra.
  assert (HW1 : norm2 W = 1).
  { unfold W. rewrite norm2_vscale, <- norm_sq, Hcr. field. split; lra. }
  assert (HWP : dot W P = 0) by (unfold W; destruct P, vb; vsimpl; ring).
  assert (HWv : dot W vb = 0) by (unfold W; destruct P, vb; vsimpl; ring).
  assert (HhW : cross (vscale rp P) vb = vscale (rp * V * sin b) W).
  { unfold W. destruct P, vb; apply vec_eq; vsimpl; field; split; lra. }
  assert (Hhv : h_vec A = Some (cross (vscale rp P) vb)).
  { change (h_vec A) with (leto u := rp_vec A in Some (cross u vb)). rewrite Hrv; auto. }
  assert (HW : h_unit A = Some W).
  { change (h_unit A) with (leto u := h_vec A in unit_of u). rewrite Hhv; simpl. rewrite HhW.
    assert (Hk : 0 < rp * V * sin b) by (apply Rmult_lt_0_compat; nra).
    assert (Hn : norm (vscale (rp * V * sin b) W) = rp * V * sin b) by (apply norm_eq; [lra|]; rewrite norm2_vscale, HW1; ring).
    rewrite unit_of_some.
    - f_equal. rewrite Hn. destruct W; apply vec_eq; vsimpl; field; repeat split; lra.
    - intros E. rewrite E in Hn. unfold norm in Hn. replace (norm2 vzero) with 0 in Hn by (vsimpl; ring). rewrite sqrt_0 in Hn. lra. }
  assert (Hsv : vb = vscale V (vadd (vscale (cos b) P) (vscale (sin b) (cross W P)))).
  { replace (vscale V (vadd (vscale (cos b) P) (vscale (sin b) (cross W P)))) with
      (vadd (vscale (V * cos b) P) (cross (cross P vb) P)).
    - rewrite <- HPdot. clear -HP1. destruct P as [px py pz], vb as [x y z]. unfold norm2, dot in HP1; simpl in HP1. apply vec_eq; vsimpl; nsatz.
    - unfold W. generalize (cross P vb); intros [cx cy cz]. destruct P as [px py pz]. apply vec_eq; vsimpl; field; split; lra. }
  exists V, a, e, b, h, P, W.
  constructor; auto.
Qed.

(** The elements exist and describe the frame when the orbit is not equatorial. *)
Record elements (A : approach) (P W : vec) (i Om om : R) := mkElements {
  el_i : ap_i A = Some i; el_O : ap_OMEGA A = Some Om; el_o : ap_omega A = Some om;
  el_dir : forall th, orbit_dir Om i om th = perifocal P W th; el_nrm : orbit_normal Om i = W }.

Definition equatorial (W : vec) : Prop := vx W = 0 /\ vy W = 0.

Lemma hyper_i : forall p v rp psi V a e b h P W, let A := Approach_core p v rp psi in hyper A V a e b h P W ->
  ap_i A = Some (acos (vz W)).
Proof.
  intros p v rp psi V a e b h P W A H. change (ap_i A) with (leto u := h_unit A in np_arccos (vz u)).
  rewrite (hy_W _ _ _ _ _ _ _ _ H); simpl. apply np_arccos_some.
  pose proof (hy_W1 _ _ _ _ _ _ _ _ H) as HW. destruct W as [x y z]; unfold norm2, dot in HW; simpl in *. nra.
Qed.
Lemma vscale_nonzero : forall k u, k <> 0 -> u <> vzero -> vscale k u <> vzero.
Proof.
  intros k [x y z] Hk Hu E. inversion E. apply Hu. apply vec_eq; simpl; nra.
Qed.
Lemma cross_z_zero : forall k W, k <> 0 -> cross zaxis (vscale k W) = vzero -> equatorial W.
Proof.
  intros k [x y z] Hk E. pose proof (f_equal vx E) as E1. pose proof (f_equal vy E) as E2. unfold zaxis in E1, E2.
  cbv [cross vscale vzero vx vy vz] in E1, E2. split; simpl; apply Rmult_eq_reg_l with k; lra.
Qed.
Lemma hyper_elements : forall p v rp psi V a e b h P W, let A := Approach_core p v rp psi in hyper A V a e b h P W ->
  0 < rp -> ~ equatorial W -> exists i Om om, elements A P W i Om om.
Proof.
  intros p v rp psi V a e b h P W A H Hrp Hne.
  pose proof (hyper_i _ _ _ _ _ _ _ _ _ _ _ H) as Hi. fold A in Hi.
  pose proof (hy_W1 _ _ _ _ _ _ _ _ H) as HW1. pose proof (hy_P1 _ _ _ _ _ _ _ _ H) as HP1.
  pose proof (hy_WP _ _ _ _ _ _ _ _ H) as HWP.
  assert (Hk : 0 < rp * V * sin b).
  { pose proof (hy_Vpos _ _ _ _ _ _ _ _ H). pose proof (hy_sb _ _ _ _ _ _ _ _ H). apply Rmult_lt_0_compat; nra. }
  assert (Hx : cross zaxis (vscale (rp * V * sin b) W) <> vzero).
  { intros E. apply Hne. apply cross_z_zero in E; auto; lra. }
  set (N := vscale (1 / norm (cross zaxis (vscale (rp * V * sin b) W))) (cross zaxis (vscale (rp * V * sin b) W))).
  assert (HN : N_unit A = Some N).
  { change (N_unit A) with (leto u := h_vec A in unit_of (cross zaxis u)). rewrite (hy_hv _ _ _ _ _ _ _ _ H); cbn [obind].
    rewrite (hy_hW _ _ _ _ _ _ _ _ H). change (ap_rp A) with rp. rewrite unit_of_some; auto. }
  assert (HNu : unit_of (cross zaxis (vscale (rp * V * sin b) W)) = Some N) by (rewrite unit_of_some; auto).
  assert (HN1 : norm2 N = 1) by (apply unit_norm2; auto).
  assert (HOm : exists Om, OMEGA_of N = Some Om).
  { unfold OMEGA_of. rewrite np_arccos_some; [simpl; eauto|]. destruct N as [x y z]. unfold norm2, dot in HN1; simpl in *. nra. }
  assert (Hom : exists om, omega_of N P = Some om).
  { unfold omega_of. rewrite np_arccos_some; [simpl; eauto|]. apply cauchy_unit; auto. }
  destruct HOm as [Om HOm]. destruct Hom as [om Hom].
  assert (Hiv : np_arccos (vz W) = Some (acos (vz W))).
  { apply np_arccos_some. destruct W as [x y z]; unfold norm2, dot in HW1; simpl in *. nra. }
  destruct (elements_frame W P (rp * V * sin b) N (acos (vz W)) Om om HW1 HP1 HWP Hk HNu Hiv HOm Hom) as (D & E & F & G).
  exists (acos (vz W)), Om, om. constructor; auto.
  - change (ap_OMEGA A) with (leto u := N_unit A in OMEGA_of u). rewrite HN; auto.
  - change (ap_omega A) with (leto u := N_unit A in leto w := e_unit A in omega_of u w). rewrite HN, (hy_eu _ _ _ _ _ _ _ _ H); auto.
Qed.
Lemma hyper_equatorial : forall p v rp psi V a e b h P W, let A := Approach_core p v rp psi in hyper A V a e b h P W ->
  equatorial W -> ap_OMEGA A = None /\ ap_omega A = None.
Proof.
  intros p v rp psi V a e b h P W A H [Hx Hy].
  assert (HN : N_unit A = None).
  { change (N_unit A) with (leto u := h_vec A in unit_of (cross zaxis u)). rewrite (hy_hv _ _ _ _ _ _ _ _ H); cbn [obind].
    rewrite (hy_hW _ _ _ _ _ _ _ _ H). change (ap_rp A) with rp.
    replace (cross zaxis _) with vzero; [apply unit_of_none|]. clear -Hx Hy. destruct W as [x y z]; simpl in Hx, Hy; subst. unfold zaxis. apply vec_eq; vsimpl; ring. }
  split.
  - change (ap_OMEGA A) with (leto u := N_unit A in OMEGA_of u). rewrite HN; auto.
  - change (ap_omega A) with (leto u := N_unit A in leto w := e_unit A in omega_of u w). rewrite HN; auto.
Qed.

(** Radius, position and velocity at a true anomaly. *)
Lemma r_mag_eq : forall A V a e b h P W th, hyper A V a e b h P W -> 0 < GM (ap_planet A) -> 1 + e * cos th <> 0 ->
  r_mag_bi A th = Some (conic_radius (GM (ap_planet A)) h e th).
Proof.
  intros. unfold r_mag_bi. rewrite (hy_h _ _ _ _ _ _ _ _ H), (hy_e _ _ _ _ _ _ _ _ H); simpl. apply np_div_some; auto.
Qed.
Lemma pos_eq : forall A V a e b h P W i Om om th, hyper A V a e b h P W -> elements A P W i Om om ->
  0 < GM (ap_planet A) -> 1 + e * cos th <> 0 ->
  pos_vec_bi A th = Some (conic_pos (GM (ap_planet A)) h e P W th).
Proof.
  intros A V a e b h P W i Om om th H E Hmu Hd. unfold pos_vec_bi. erewrite r_mag_eq; eauto.
  rewrite (el_i _ _ _ _ _ _ E), (el_O _ _ _ _ _ _ E), (el_o _ _ _ _ _ _ E); simpl. unfold conic_pos.
  do 2 f_equal. rewrite <- (el_dir _ _ _ _ _ _ E). reflexivity.
Qed.

(** Square of the in-plane velocity components. *)
Lemma conic_speed2 : forall mu h e th, 0 < mu -> 0 < h -> 0 < 1 + e * cos th ->
  let r := conic_radius mu h e th in
  mu * mu * (e * e - 1) / (h * h) + 2 * mu / r = mu / h * (e * sin th) * (mu / h * (e * sin th)) + h / r * (h / r).
Proof.
  intros mu h e th Hmu Hh Hd r. unfold r, conic_radius. revert Hd. generalize (sin2cos2 th).
  generalize (sin th) (cos th); intros s c Hsc Hd. assert (Hs : s * s = 1 - c * c) by lra.
  replace (mu / h * (e * s) * (mu / h * (e * s))) with (mu * mu / (h * h) * (e * e * (s * s))) by (field; lra).
  rewrite Hs. field. repeat split; lra.
Qed.
Lemma hyper_V2 : forall A V a e b h P W, hyper A V a e b h P W -> 0 < GM (ap_planet A) -> 0 < ap_rp A ->
  V * V = GM (ap_planet A) * GM (ap_planet A) * (e * e - 1) / (h * h).
Proof.
  intros A V a e b h P W H Hmu Hrp. rewrite (hy_h2 _ _ _ _ _ _ _ _ H).
  pose proof (hy_e1 _ _ _ _ _ _ _ _ H). pose proof (hy_ev _ _ _ _ _ _ _ _ H) as He.
  set (mu := GM (ap_planet A)) in *.
  replace (mu * mu * (e * e - 1) / (mu * ap_rp A * (1 + e))) with (mu * (e - 1) / ap_rp A) by (field; repeat split; lra).
  rewrite He. field. split; lra.
Qed.

(** The speed formula and the arccos of the flight-path angle split the speed into radial and
    transverse components; [g] below is what [arccos(h/(r v))] contributes. *)
Lemma fpa_split : forall vr vt, 0 < vt -> let v := sqrt (vr * vr + vt * vt) in
  0 < v /\ v * v = vr * vr + vt * vt /\ 0 < vt / v <= 1 /\
  v * cos (acos (vt / v)) = vt /\ v * sin (acos (vt / v)) = Rabs vr.
Proof.
  intros vr vt Hvt v. assert (Hp : 0 < vr * vr + vt * vt) by nra.
  assert (Hv : 0 < v) by (apply sqrt_lt_R0; auto).
  assert (Hvv : v * v = vr * vr + vt * vt) by (apply sqrt_sqrt; lra).
  assert (Hle : vt <= v) by nra.
  assert (Hq : 0 < vt / v <= 1).
  { split; [apply Rdiv_lt_0_compat; auto|]. apply Rmult_le_reg_r with v; auto.
    replace (vt / v * v) with vt by (field; lra). lra. }
  destruct (cos_sin_acos (vt / v)) as (C & S & S2); [lra|].
  split; auto. split; auto. split; auto. split.
  - rewrite C. field. lra.
  - apply sq_eq_nonneg; [nra|apply Rabs_pos|].
    rewrite <- Rabs_mult, Rabs_pos_eq by nra.
    replace (v * sin (acos (vt / v)) * (v * sin (acos (vt / v)))) with (v * v * (sin (acos (vt / v)) * sin (acos (vt / v)))) by ring.
    rewrite S2. replace (v * v * (1 - vt / v * (vt / v))) with (v * v - vt * vt) by (field; lra). lra.
Qed.

Definition inward_vel (mu h e : R) (P W : vec) (th : R) : vec :=
  vadd (vscale (- Rabs (mu / h * (e * sin th))) (perifocal P W th))
       (vscale (h / conic_radius mu h e th) (cross W (perifocal P W th))).

Lemma vel_eq : forall A V a e b h P W i Om om th, hyper A V a e b h P W -> elements A P W i Om om ->
  0 < GM (ap_planet A) -> 0 < ap_rp A -> 0 < 1 + e * cos th ->
  vel_vec_bi A th = Some (inward_vel (GM (ap_planet A)) h e P W th).
Proof.
  intros A V a e b h P W i Om om th H E Hmu Hrp Hd. unfold vel_vec_bi.
  erewrite r_mag_eq; eauto; [|lra]. cbn [obind].
  set (mu := GM (ap_planet A)) in *. set (r := conic_radius mu h e th).
  pose proof (hy_hpos _ _ _ _ _ _ _ _ H) as Hh.
  assert (Hr : 0 < r) by (unfold r, conic_radius; pos).
  rewrite np_div_some by lra. cbn [obind]. rewrite (hy_V _ _ _ _ _ _ _ _ H).
  rewrite (hyper_V2 _ _ _ _ _ _ _ _ H Hmu Hrp). fold mu. unfold r at 1. rewrite conic_speed2 by auto. fold r.
  set (vr := mu / h * (e * sin th)). set (vt := h / r).
  assert (Hvt : 0 < vt) by (apply Rdiv_lt_0_compat; auto).
  destruct (fpa_split vr vt Hvt) as (B1 & B2 & B3 & B4 & B5).
  rewrite np_sqrt_some by nra. cbn [obind]. rewrite (hy_h _ _ _ _ _ _ _ _ H). cbn [obind].
  set (v := sqrt (vr * vr + vt * vt)) in *.
  rewrite np_div_some by nra. cbn [obind].
  replace (h / (r * v)) with (vt / v) by (unfold vt; field; lra).
  rewrite np_arccos_some by lra. cbn [obind].
  rewrite (el_i _ _ _ _ _ _ E), (el_O _ _ _ _ _ _ E), (el_o _ _ _ _ _ _ E). cbn [obind].
  f_equal. replace (-1 * acos (vt / v)) with (- acos (vt / v)) by ring. rewrite cos_neg, sin_neg, B4.
  replace (v * - sin (acos (vt / v))) with (- Rabs vr) by (rewrite <- B5; ring).
  unfold inward_vel. rewrite <- (el_dir _ _ _ _ _ _ E), <- (el_nrm _ _ _ _ _ _ E), orbit_dir_transverse.
  fold vr r vt. unfold orbit_dir. apply vec_eq; vsimpl; ring.
Qed.
