(** Properties C21-C27 and C66: planetary approach (approach.py). *)
From Coq Require Import Nsatz.
Require Import Verif.Base Verif.PlanetModel Verif.PlanetProofs Verif.FrameModel Verif.FrameProofs
  Verif.ApproachModel Verif.ConicSpec Verif.ConicProofs Verif.ApproachProofs.
From Coq Require Import String List.
Local Open Scope R_scope.

(** The approach orbit plane is not the equator: the orbit normal is not along the pole. *)
Definition inclined (A : approach) : Prop :=
  exists w, h_unit A = Some w /\ (vx w <> 0 \/ vy w <> 0).

Lemma Approach_inv : forall name v rp psi en hEI A t, Approach name v rp psi en hEI = Ok (A, t) ->
  exists p, Planet name = Ok p /\ A = Approach_core p v rp psi /\
  (en = true -> exists h, hEI = Some h /\ t = Entry (Approach_entry A h)) /\
  (en = false -> t = Periapsis (rp_vec A) (vel_vec_bi A 0)).
Proof.
  intros name v rp psi en hEI A t H. unfold Approach in H.
  destruct (Planet name) as [p|x] eqn:Hp; cbn [rbind] in H; [|discriminate].
  exists p. split; auto. destruct en.
  - destruct hEI as [h|]; inversion H; subst. split; auto. split; [eauto|discriminate].
  - inversion H; subst. repeat split; auto; discriminate.
Qed.
Lemma inclined_W : forall A V a e b h P W, hyper A V a e b h P W -> inclined A <-> ~ equatorial W.
Proof.
  intros. unfold inclined, equatorial. rewrite (hy_W _ _ _ _ _ _ _ _ H). split.
  - intros (w & E & [N|N]) [X Y]; inversion E; subst; auto.
  - intros N. exists W. split; auto. destruct (Req_dec (vx W) 0); destruct (Req_dec (vy W) 0); auto.
Qed.

(** C21 *)
Theorem C21_hyperbola_well_formed : forall name v rp psi en hEI A t,
  Approach name v rp psi en hEI = Ok (A, t) -> v <> vzero -> 0 < rp ->
  exists p a e b h, Planet name = Ok p /\ ap_a A = Some a /\ ap_e A = Some e /\ ap_beta A = Some b /\ ap_h A = Some h /\
    a < 0 /\ 1 < e /\ a * (1 - e) = rp /\ 0 < b < PI / 2 /\ cos b = 1 / e /\
    0 < h /\ h * h = GM p * rp * (1 + e) /\
    (norm v * 1000) * (norm v * 1000) / 2 = - GM p / (2 * a).
Proof.
  intros name v rp psi en hEI A t H Hv Hrp. destruct (Approach_inv _ _ _ _ _ _ _ _ H) as (p & Hp & HA & _).
  destruct (Planet_facts _ _ Hp) as (_ & HGM & _).
  destruct (core_hyper name p v rp psi Hp Hv Hrp) as (V & a & e & b & h & P & W & K). rewrite <- HA in K.
  assert (EP : ap_planet A = p) by (subst A; auto). assert (Er : ap_rp A = rp) by (subst A; auto).
  assert (EV : V = norm v * 1000).
  { rewrite <- (hy_V _ _ _ _ _ _ _ _ K). subst A. change (v_inf_mag _) with (norm v * 1e3). lra. }
  destruct K. rewrite EP, Er in *. exists p, a, e, b, h.
  assert (HVV : 0 < V * V) by nra.
  assert (Ha : a < 0). { rewrite hy_av. assert (0 < GM p / (V * V)) by pos. unfold Rdiv in *. lra. }
  do 5 (split; [assumption|]). split; auto. split; auto.
  split. { rewrite hy_av, hy_ev. field. split; lra. }
  split.
  { assert (0 < 1 / e < 1). { split; [pos|]. apply Rmult_lt_reg_r with e; [lra|]. field_simplify; lra. }
    pose proof (acos_bound (1 / e)). rewrite <- hy_bv in H1.
    assert (b <> 0) by (intros E; rewrite E, sin_0 in hy_sb; lra).
    split; [lra|]. destruct (Rlt_le_dec b (PI / 2)) as [|Hge]; auto. exfalso.
    assert (cos b <= 0) by (apply cos_le_0; lra). lra. }
  do 3 (split; [assumption|]). rewrite <- EV, hy_av. field. split; lra.
Qed.
Theorem C21_constructor_errors : forall name v rp psi en hEI,
  (exists x, Approach name v rp psi en hEI = Err x) <->
  (~ In name names \/ (en = true /\ hEI = None)).
Proof.
  intros name v rp psi en hEI. unfold Approach. destruct (Planet name) as [p|x] eqn:Hp; cbn [rbind].
  - destruct (Planet_cases _ _ Hp) as (Hin & Hid).
    assert (In name names) by (subst name; simpl in Hin; decompose [or] Hin; subst; try contradiction; simpl; auto 10).
    split.
    + intros [x Hx]. right. destruct en; [destruct hEI|]; try discriminate Hx; auto.
    + intros [N|[-> ->]]; [contradiction|eauto].
  - split; [intros _|eauto]. left. intros Hin. unfold Planet in Hp.
    repeat match type of Hp with context [string_dec ?a ?b] => destruct (string_dec a b); try discriminate Hp end.
    simpl in Hin. intuition congruence.
Qed.
(** With a zero excess velocity no error is raised: the semi-major axis is infinite, the eccentricity is 1 and the
    periapsis vector has the length asked for, but the angular momentum, the plane, the node, the B-plane axes and the
    velocity at periapsis are not finite. *)
Theorem C21_zero_velocity_silent : forall name p rp psi, Planet name = Ok p ->
  exists A r, Approach name vzero rp psi false None = Ok (A, Periapsis (Some r) None) /\
    ap_a A = None /\ ap_e A = Some 1 /\ rp_vec A = Some r /\ norm r = Rabs rp /\
    ap_h A = None /\ h_unit A = None /\ ap_i A = None /\ ap_OMEGA A = None /\ ap_omega A = None /\
    v_inf_unit A = None /\ T_unit A = None /\ R_unit A = None /\ B_unit A = None /\ b_mag A = None.
Proof.
  intros name p rp psi Hp. unfold Approach. rewrite Hp; cbn [rbind].
  set (A := Approach_core p vzero rp psi).
  assert (N0 : norm vzero = 0).
  { unfold norm. replace (norm2 vzero) with 0 by (vsimpl; ring). apply sqrt_0. }
  assert (U0 : unit_of vzero = None).
  { unfold unit_of. rewrite N0. unfold np_div. rcases; auto. exfalso; apply Hc; auto. }
  assert (Ha : ap_a A = None).
  { change (ap_a A) with (np_div (- GM p) (norm vzero * 1e3 * (norm vzero * 1e3))). rewrite N0.
    unfold np_div. rcases; auto. exfalso; apply Hc; ring. }
  assert (He : ap_e A = Some 1).
  { change (ap_e A) with (match ap_a A with Some x => leto q := np_div rp x in Some (1 - q) | None => Some 1 end). rewrite Ha; auto. }
  assert (Hb : ap_beta A = Some 0).
  { change (ap_beta A) with (leto x := ap_e A in leto q := np_div 1 x in np_arccos q). rewrite He; cbn [obind].
    rewrite np_div_some by lra. replace (1 / 1) with 1 by field. cbn [obind].
    rewrite np_arccos_some, acos_1 by lra. auto. }
  assert (Hh : ap_h A = None).
  { change (ap_h A) with (leto x := ap_a A in leto y := ap_e A in np_sqrt (x * GM p * (1 - y * y))). rewrite Ha; auto. }
  set (u := rp_unit_of (phi_1 A) (phi_2 A) 0 psi).
  assert (Hu : rp_unit A = Some u).
  { change (rp_unit A) with (leto b := ap_beta A in Some (rp_unit_of (phi_1 A) (phi_2 A) b psi)). rewrite Hb; auto. }
  assert (Hr : rp_vec A = Some (vscale rp u)).
  { change (rp_vec A) with (leto u := rp_unit A in Some (vscale rp u)). rewrite Hu; auto. }
  assert (Hv : v_inf_bi A = vzero).
  { change (v_inf_bi A) with (vscale 1e3 (ICRF_to_BI (a0 p) (d0 p) vzero)). unfold ICRF_to_BI.
    match goal with |- context [mvmul ?m vzero] => destruct m as [[? ? ?] [? ? ?] [? ? ?]] end. apply vec_eq; vsimpl; ring. }
  assert (Hvk : unit_of (ICRF_to_BI (a0 p) (d0 p) vzero) = None).
  { replace (ICRF_to_BI (a0 p) (d0 p) vzero) with vzero; auto. unfold ICRF_to_BI.
    match goal with |- context [mvmul ?m vzero] => destruct m as [[? ? ?] [? ? ?] [? ? ?]] end. apply vec_eq; vsimpl; ring. }
  assert (C0 : forall w, cross w vzero = vzero) by (intros [? ? ?]; apply vec_eq; vsimpl; ring).
  assert (C1 : forall w, cross vzero w = vzero) by (intros [? ? ?]; apply vec_eq; vsimpl; ring).
  assert (Hhv : h_vec A = Some vzero).
  { change (h_vec A) with (leto u := rp_vec A in Some (cross u (v_inf_bi A))). rewrite Hr, Hv; simpl. rewrite C0; auto. }
  assert (Hhu : h_unit A = None).
  { change (h_unit A) with (leto u := h_vec A in unit_of u). rewrite Hhv; auto. }
  assert (Hn : N_unit A = None).
  { change (N_unit A) with (leto u := h_vec A in unit_of (cross zaxis u)). rewrite Hhv; simpl. rewrite C0; auto. }
  assert (Hv0 : vel_vec_bi A 0 = None).
  { unfold vel_vec_bi, r_mag_bi. rewrite Hh; auto. }
  exists A, (vscale rp u). rewrite Hr, Hv0. split; [reflexivity|]. do 3 (split; [assumption || reflexivity|]).
  split.
  { unfold norm. rewrite norm2_vscale. replace (norm2 u) with 1.
    - rewrite Rmult_1_r. apply sqrt_Rsqr_abs.
    - unfold u, rp_unit_of. vsimpl. rewrite cos_0, sin_0. generalize (sin2cos2 (phi_1 A)) (sin2cos2 (phi_2 A)).
      generalize (cos (phi_1 A)) (sin (phi_1 A)) (cos (phi_2 A)) (sin (phi_2 A)). intros a b c d H K.
      transitivity ((b * b + a * a) * (d * d) + c * c); [rewrite H; lra|ring]. }
  split; auto. split; auto.
  split. { change (ap_i A) with (leto u := h_unit A in np_arccos (vz u)). rewrite Hhu; auto. }
  split. { change (ap_OMEGA A) with (leto u := N_unit A in OMEGA_of u). rewrite Hn; auto. }
  split. { change (ap_omega A) with (leto u := N_unit A in leto w := e_unit A in omega_of u w). rewrite Hn; auto. }
  split. { exact Hvk. }
  split. { change (T_unit A) with (unit_of (cross (v_inf_bi A) zaxis)). rewrite Hv, C1; auto. }
  split. { change (R_unit A) with (unit_of (cross (v_inf_bi A) (cross (v_inf_bi A) zaxis))). rewrite Hv, !C1; auto. }
  split. { change (B_unit A) with (leto u := h_vec A in unit_of (cross (v_inf_bi A) u)). rewrite Hhv, Hv; simpl. rewrite C1; auto. }
  change (b_mag A) with (leto x := ap_a A in leto y := ap_e A in leto s := np_sqrt (y * y - 1) in Some (Rabs x * s)). rewrite Ha; auto.
Qed.

(** C22 *)
Theorem C22_periapsis_targeting : forall name v rp psi en hEI A t,
  Approach name v rp psi en hEI = Ok (A, t) -> v <> vzero -> 0 < rp ->
  exists r e, rp_vec A = Some r /\ ap_e A = Some e /\
    norm r = rp /\
    dot r (v_inf_bi A) = rp * norm (v_inf_bi A) * (1 / e) /\
    rp_vec_dprime A = Some (BI_to_BI_dprime (phi_1 A) (phi_2 A) r) /\
    BI_to_BI_dprime (phi_1 A) (phi_2 A) r =
      vscale rp (V3 (sqrt (1 - 1 / e * (1 / e)) * cos psi) (sqrt (1 - 1 / e * (1 / e)) * sin psi) (1 / e)) /\
    rp_vec_dprime_analytic A = rp_vec_dprime A /\
    BI_to_BI_dprime (phi_1 A) (phi_2 A) (v_inf_bi A) = V3 0 0 (norm (v_inf_bi A)) /\
    phi_2_analytic A = phi_2 A.
Proof.
  intros name v rp psi en hEI A t H Hv Hrp. destruct (Approach_inv _ _ _ _ _ _ _ _ H) as (p & Hp & HA & _).
  destruct (core_hyper name p v rp psi Hp Hv Hrp) as (V & a & e & b & h & P & W & K). rewrite <- HA in K.
  assert (Er : ap_rp A = rp) by (subst A; auto). assert (Es : ap_psi A = psi) by (subst A; auto).
  pose proof K as K0. destruct K. rewrite Er, Es in *. exists (vscale rp P), e. do 2 (split; [assumption|]).
  assert (Hs : sqrt (1 - 1 / e * (1 / e)) = sin b).
  { rewrite <- hy_cb. replace (1 - cos b * cos b) with (sin b * sin b) by (generalize (sin2cos2 b); lra). apply sqrt_square; lra. }
  split. { apply norm_eq; [lra|]. rewrite norm2_vscale, hy_P1. ring. }
  split. { rewrite dot_vscale_l, hy_Pdot, hy_n, hy_cb. ring. }
  assert (Hd : BI_to_BI_dprime (phi_1 A) (phi_2 A) (vscale rp P) = vscale rp (V3 (sin b * cos psi) (sin b * sin psi) (cos b))).
  { rewrite <- hy_Pd. unfold BI_to_BI_dprime. destruct P; apply vec_eq; vsimpl; ring. }
  split. { rewrite HA. change (rp_vec_dprime (Approach_core p v rp psi)) with (leto u := rp_vec (Approach_core p v rp psi) in Some (BI_to_BI_dprime (phi_1 (Approach_core p v rp psi)) (phi_2 (Approach_core p v rp psi)) u)).
    rewrite <- HA, hy_rv; auto. }
  split. { rewrite Hd, Hs, <- hy_cb; auto. }
  split.
  { rewrite HA. change (rp_vec_dprime (Approach_core p v rp psi)) with (leto u := rp_vec (Approach_core p v rp psi) in Some (BI_to_BI_dprime (phi_1 (Approach_core p v rp psi)) (phi_2 (Approach_core p v rp psi)) u)).
    change (rp_vec_dprime_analytic (Approach_core p v rp psi)) with (leto b := ap_beta (Approach_core p v rp psi) in Some (vscale rp (V3 (sin b * cos psi) (sin b * sin psi) (cos b)))).
    rewrite <- HA, hy_rv, hy_b; cbn [obind]. rewrite Hd; auto. }
  split. { rewrite hy_vd, hy_n; auto. }
  subst A. apply dprime_axis.
Qed.

(** C23 *)
Theorem C23_energy_and_angular_momentum : forall name p v rp psi en hEI A t,
  Approach name v rp psi en hEI = Ok (A, t) -> Planet name = Ok p -> v <> vzero -> 0 < rp -> inclined A ->
  forall e h th, ap_e A = Some e -> ap_h A = Some h -> 0 < 1 + e * cos th ->
  exists r w u n, pos_vec_bi A th = Some r /\ vel_vec_bi A th = Some w /\ e_unit A = Some u /\ h_unit A = Some n /\
    norm r = h * h / GM p / (1 + e * cos th) /\
    energy (GM p) r w = (norm v * 1000) * (norm v * 1000) / 2 /\
    ang_mom r w = vscale h n /\ norm (ang_mom r w) = h /\
    dot r w <= 0 /\
    (ecc_vector (GM p) r w = vscale e u <-> sin th <= 0).
Proof.
  intros name p v rp psi en hEI A t H Hp Hv Hrp Hinc e h th He Hh Hd.
  destruct (Approach_inv _ _ _ _ _ _ _ _ H) as (p' & Hp' & HA & _). rewrite Hp in Hp'; inversion Hp'; subst p'; clear Hp'.
  destruct (Planet_facts _ _ Hp) as (_ & HGM & _).
  destruct (core_hyper name p v rp psi Hp Hv Hrp) as (V & a & e' & b & h' & P & W & K). rewrite <- HA in K.
  assert (e' = e) by (rewrite (hy_e _ _ _ _ _ _ _ _ K) in He; inversion He; auto).
  assert (h' = h) by (rewrite (hy_h _ _ _ _ _ _ _ _ K) in Hh; inversion Hh; auto). subst e' h'.
  assert (HnW : ~ equatorial W) by (apply (inclined_W _ _ _ _ _ _ _ _ K); auto).
  assert (EP : ap_planet A = p) by (subst A; auto). assert (Er : ap_rp A = rp) by (subst A; auto).
  assert (EV : V = norm v * 1000).
  { rewrite <- (hy_V _ _ _ _ _ _ _ _ K). subst A. change (v_inf_mag _) with (norm v * 1e3). lra. }
  assert (Hel : exists i Om om, elements A P W i Om om) by (rewrite HA in K; rewrite HA; eapply hyper_elements; eauto).
  destruct Hel as (i & Om & om & E).
  set (mu := GM p) in *.
  pose proof (hy_P1 _ _ _ _ _ _ _ _ K) as HP1. pose proof (hy_W1 _ _ _ _ _ _ _ _ K) as HW1. pose proof (hy_WP _ _ _ _ _ _ _ _ K) as HWP.
  pose proof (hy_hpos _ _ _ _ _ _ _ _ K) as Hhp. pose proof (hy_e1 _ _ _ _ _ _ _ _ K) as He1.
  exists (conic_pos mu h e P W th), (inward_vel mu h e P W th), P, W.
  split. { erewrite pos_eq; eauto; rewrite ?EP; auto; lra. }
  split. { erewrite vel_eq; eauto; rewrite ?EP, ?Er; auto. }
  split. { apply (hy_eu _ _ _ _ _ _ _ _ K). }
  split. { apply (hy_W _ _ _ _ _ _ _ _ K). }
  destruct (perifocal_unit P W th HP1 HW1 HWP) as (Hu & HWu).
  assert (Hr : 0 < conic_radius mu h e th) by (unfold conic_radius; pos).
  set (vr := mu / h * (e * sin th)). set (r := conic_radius mu h e th) in *.
  destruct (rv_invariants mu (perifocal P W th) W r (- Rabs vr) (h / r) Hu HW1 HWu Hr ltac:(lra)) as (I1 & I2 & I3 & I4 & I5).
  fold (conic_pos mu h e P W th) in I1, I2, I3, I4, I5.
  change (vadd (vscale (- Rabs vr) (perifocal P W th)) (vscale (h / r) (cross W (perifocal P W th)))) with (inward_vel mu h e P W th) in I2, I3, I4, I5.
  change (vscale r (perifocal P W th)) with (conic_pos mu h e P W th) in I1, I3, I4, I5.
  assert (Hrh : r * (h / r) = h) by (field; lra). rewrite Hrh in I3, I5.
  split; [exact I1|]. split.
  { unfold energy. rewrite I1, I2.
    assert (Rabs vr * Rabs vr = vr * vr) by (rewrite <- Rabs_mult; apply Rabs_pos_eq; nra).
    pose proof (conic_speed2 mu h e th HGM Hhp Hd) as Hs. cbv zeta in Hs. fold r vr in Hs.
    pose proof (hyper_V2 _ _ _ _ _ _ _ _ K) as HV2. rewrite EP, Er in HV2. fold mu in HV2. specialize (HV2 HGM Hrp).
    rewrite <- HV2 in Hs. rewrite EV in Hs.
    replace (- Rabs vr * - Rabs vr) with (vr * vr) by lra.
    replace (2 * mu / r) with (2 * (mu / r)) in Hs by (field; lra). lra. }
  split; [exact I3|]. split.
  { rewrite I3. apply norm_eq; [lra|]. rewrite norm2_vscale, HW1. ring. }
  split.
  { rewrite I4. pose proof (Rabs_pos vr). nra. }
  destruct (conic_state mu h e P W th HGM Hhp HP1 HW1 HWP Hd) as (S1 & S2 & S3 & S4 & S5).
  fold r in S5. fold vr in S5.
  destruct (rv_invariants mu (perifocal P W th) W r vr (h / r) Hu HW1 HWu Hr ltac:(lra)) as (J1 & J2 & J3 & J4 & J5).
  change (vscale r (perifocal P W th)) with (conic_pos mu h e P W th) in J5. rewrite <- S5 in J5.
  rewrite Hrh in J5. rewrite S3 in J5. rewrite J5, I5.
  set (Q := cross W (perifocal P W th)) in *. set (u := perifocal P W th) in *.
  destruct (frame_facts u W Hu HW1 HWu) as (F1 & F2 & _). fold Q in F1, F2.
  assert (Hvr : 0 < mu / h * e) by (apply Rmult_lt_0_compat; [pos|lra]).
  assert (Hvrs : vr = mu / h * e * sin th) by (unfold vr; ring).
  split.
  - intros EQ.
    assert (EQ2 : - (h * - Rabs vr / mu) = - (h * vr / mu)).
    { assert (G : forall x y, dot (vadd (vscale x u) (vscale y Q)) Q = y).
      { intros x y. transitivity (x * dot Q u + y * norm2 Q); [destruct u, Q; vsimpl; ring|rewrite F1, F2; ring]. }
      apply (f_equal (fun w => dot w Q)) in EQ. rewrite !G in EQ. auto. }
    assert (Rabs vr = - vr).
    { assert (h / mu * Rabs vr = h / mu * - vr). { unfold Rdiv in *. lra. }
      apply Rmult_eq_reg_l with (h / mu); auto. assert (0 < h / mu) by pos. lra. }
    pose proof (Rabs_pos vr). rewrite Hvrs in *. nra.
  - intros Hs. do 2 f_equal. rewrite Rabs_left1 by (rewrite Hvrs; nra). field_simplify; lra.
Qed.

(** C24 *)
Theorem C24_elements_reproduce_vectors : forall name v rp psi en hEI A t,
  Approach name v rp psi en hEI = Ok (A, t) -> v <> vzero -> 0 < rp -> inclined A ->
  exists i Om om n e, ap_i A = Some i /\ ap_OMEGA A = Some Om /\ ap_omega A = Some om /\ h_unit A = Some n /\ ap_e A = Some e /\
    0 <= i <= PI /\ 0 <= Om <= 2 * PI /\ 0 <= om <= 2 * PI /\
    (* periapsis of the orbit rebuilt from the angles is the targeted periapsis vector *)
    pos_vec_bi A 0 = rp_vec A /\ rp_vec A <> None /\
    (* orbit normal rebuilt from the angles is the direction of h *)
    V3 (sin Om * sin i) (- cos Om * sin i) (cos i) = n /\
    (* the node lies on the ascending side: the orbit crosses the equator there going north *)
    N_unit A = Some (V3 (cos Om) (sin Om) 0) /\ 0 < sin i /\
    (* the incoming asymptote is opposite to v_inf *)
    (forall th, cos th = - 1 / e -> sin th < 0 ->
       vscale (norm (v_inf_bi A)) (V3 (cos Om * cos (th + om) - sin Om * cos i * sin (th + om))
          (sin Om * cos (th + om) + cos Om * cos i * sin (th + om)) (sin i * sin (th + om)))
       = vscale (-1) (v_inf_bi A)).
Proof.
  intros name v rp psi en hEI A t H Hv Hrp Hinc. destruct (Approach_inv _ _ _ _ _ _ _ _ H) as (p & Hp & HA & _).
  destruct (Planet_facts _ _ Hp) as (_ & HGM & _).
  destruct (core_hyper name p v rp psi Hp Hv Hrp) as (V & a & e & b & h & P & W & K). rewrite <- HA in K.
  assert (HnW : ~ equatorial W) by (apply (inclined_W _ _ _ _ _ _ _ _ K); auto).
  assert (Hel : exists i Om om, elements A P W i Om om) by (rewrite HA in K; rewrite HA; eapply hyper_elements; eauto).
  destruct Hel as (i & Om & om & E).
  assert (EP : ap_planet A = p) by (subst A; auto). assert (Er : ap_rp A = rp) by (subst A; auto).
  pose proof (hy_e1 _ _ _ _ _ _ _ _ K) as He1. pose proof (hy_hpos _ _ _ _ _ _ _ _ K) as Hhp.
  pose proof (hy_P1 _ _ _ _ _ _ _ _ K) as HP1. pose proof (hy_W1 _ _ _ _ _ _ _ _ K) as HW1. pose proof (hy_WP _ _ _ _ _ _ _ _ K) as HWP.
  exists i, Om, om, W, e. destruct E as [Ei EO Eo Ed En].
  do 3 (split; [assumption|]). split; [apply (hy_W _ _ _ _ _ _ _ _ K)|]. split; [apply (hy_e _ _ _ _ _ _ _ _ K)|].
  assert (Hia : i = acos (vz W)).
  { rewrite HA in K. pose proof (hyper_i _ _ _ _ _ _ _ _ _ _ _ K) as Q. rewrite <- HA in Q. rewrite Q in Ei. inversion Ei; auto. }
  assert (Hbr : forall (c : bool) x a, Some (if c then acos x else 2 * PI - acos x) = Some a -> 0 <= a <= 2 * PI).
  { intros c x a0 Q. inversion Q. pose proof (acos_bound x). pose proof PI_RGT_0. destruct c; lra. }
  assert (HN : exists N, N_unit A = Some N /\ OMEGA_of N = Some Om /\ omega_of N P = Some om).
  { rewrite HA in EO, Eo. change (ap_OMEGA (Approach_core p v rp psi)) with (leto u := N_unit (Approach_core p v rp psi) in OMEGA_of u) in EO.
    change (ap_omega (Approach_core p v rp psi)) with (leto u := N_unit (Approach_core p v rp psi) in leto w := e_unit (Approach_core p v rp psi) in omega_of u w) in Eo.
    rewrite <- HA in EO, Eo. rewrite (hy_eu _ _ _ _ _ _ _ _ K) in Eo. destruct (N_unit A) as [N|]; [|discriminate]. eauto. }
  destruct HN as (N & HN & HO & Ho).
  split. { rewrite Hia. apply acos_bound. }
  split. { unfold OMEGA_of in HO. destruct (np_arccos (vx N)) eqn:Q; [|discriminate]. apply np_arccos_inv in Q. destruct Q as [_ ->]. eapply Hbr; exact HO. }
  split. { unfold omega_of in Ho. destruct (np_arccos (dot N P)) eqn:Q; [|discriminate]. apply np_arccos_inv in Q. destruct Q as [_ ->]. eapply Hbr; exact Ho. }
  assert (Hper : perifocal P W 0 = P).
  { unfold perifocal. rewrite cos_0, sin_0. generalize (cross W P). intros Q; destruct P, Q; apply vec_eq; vsimpl; ring. }
  split.
  { erewrite pos_eq; eauto; [|constructor; eauto|rewrite EP; auto|rewrite cos_0; lra].
    rewrite (hy_rv _ _ _ _ _ _ _ _ K). f_equal. unfold conic_pos. rewrite Hper. f_equal. unfold conic_radius.
    rewrite cos_0, (hy_h2 _ _ _ _ _ _ _ _ K), EP. field. split; lra. }
  split. { rewrite (hy_rv _ _ _ _ _ _ _ _ K). discriminate. }
  split. { rewrite <- En. reflexivity. }
  assert (HNu : unit_of (cross zaxis (vscale (rp * V * sin b) W)) = Some N).
  { rewrite HA in HN. change (N_unit (Approach_core p v rp psi)) with (leto u := h_vec (Approach_core p v rp psi) in unit_of (cross zaxis u)) in HN.
    rewrite <- HA in HN. rewrite (hy_hv _ _ _ _ _ _ _ _ K) in HN. cbn [obind] in HN. rewrite (hy_hW _ _ _ _ _ _ _ _ K), Er in HN. auto. }
  assert (Hk : 0 < rp * V * sin b).
  { pose proof (hy_Vpos _ _ _ _ _ _ _ _ K). pose proof (hy_sb _ _ _ _ _ _ _ _ K). apply Rmult_lt_0_compat; nra. }
  assert (Hiv : np_arccos (vz W) = Some i).
  { rewrite Hia. apply np_arccos_some. clear -HW1. destruct W as [x y z]; unfold norm2, dot in HW1; simpl in *. nra. }
  destruct (elements_frame W P (rp * V * sin b) N i Om om HW1 HP1 HWP Hk HNu Hiv HO Ho) as (D & D2 & F & G).
  split. { rewrite HN, G; auto. } split; auto.
  intros th Hc Hs. change (V3 _ _ _) with (orbit_dir Om i om th). rewrite Ed. rewrite (hy_n _ _ _ _ _ _ _ _ K).
  rewrite (hy_sv _ _ _ _ _ _ _ _ K). unfold perifocal.
  assert (Hcb : cos th = - cos b) by (rewrite (hy_cb _ _ _ _ _ _ _ _ K), Hc; field; lra).
  assert (Hsb : sin th = - sin b).
  { assert (- sin th = sin b); [|lra]. apply sq_eq_nonneg; [lra|pose proof (hy_sb _ _ _ _ _ _ _ _ K); lra|].
    generalize (sin2cos2 th) (sin2cos2 b). rewrite Hcb. lra. }
  rewrite Hcb, Hsb. generalize (cross W P). intros Q; destruct P, Q; apply vec_eq; vsimpl; ring.
Qed.
(** For an equatorial approach the node is undefined and every position and velocity is NaN. *)
Theorem C24_equatorial_undefined : forall name v rp psi en hEI A t,
  Approach name v rp psi en hEI = Ok (A, t) -> v <> vzero -> 0 < rp -> ~ inclined A ->
  ap_OMEGA A = None /\ ap_omega A = None /\ (forall th, pos_vec_bi A th = None /\ vel_vec_bi A th = None).
Proof.
  intros name v rp psi en hEI A t H Hv Hrp Hinc. destruct (Approach_inv _ _ _ _ _ _ _ _ H) as (p & Hp & HA & _).
  destruct (core_hyper name p v rp psi Hp Hv Hrp) as (V & a & e & b & h & P & W & K). rewrite <- HA in K.
  assert (HnW : equatorial W).
  { destruct (Req_dec (vx W) 0); destruct (Req_dec (vy W) 0); try (split; assumption);
    exfalso; apply Hinc; apply (inclined_W _ _ _ _ _ _ _ _ K); unfold equatorial; intuition. }
  assert (HU : ap_OMEGA A = None /\ ap_omega A = None) by (rewrite HA in K; rewrite HA; eapply hyper_equatorial; eauto).
  destruct HU as (U1 & U2). split; auto. split; auto. intros th. split.
  - unfold pos_vec_bi. destruct (r_mag_bi A th); simpl; auto. rewrite U2; auto.
  - unfold vel_vec_bi. rewrite U2.
    repeat match goal with |- obind ?x _ = None => destruct x; cbn [obind]; auto end.
Qed.
(** The stored h vector has the right direction but not the magnitude of the angular momentum. *)
Theorem C24_h_vector_magnitude_refuted : forall name v rp psi en hEI A t,
  Approach name v rp psi en hEI = Ok (A, t) -> v <> vzero -> 0 < rp ->
  exists hv h e, h_vec A = Some hv /\ ap_h A = Some h /\ ap_e A = Some e /\ norm hv = h * (e - 1) / e /\ norm hv < h.
Proof.
  intros name v rp psi en hEI A t H Hv Hrp. destruct (Approach_inv _ _ _ _ _ _ _ _ H) as (p & Hp & HA & _).
  destruct (Planet_facts _ _ Hp) as (_ & HGM & _).
  destruct (core_hyper name p v rp psi Hp Hv Hrp) as (V & a & e & b & h & P & W & K). rewrite <- HA in K.
  assert (EP : ap_planet A = p) by (subst A; auto). assert (Er : ap_rp A = rp) by (subst A; auto).
  destruct K. rewrite EP, Er in *. eexists; exists h, e. split; [eassumption|]. do 2 (split; auto).
  assert (Hn : norm (cross (vscale rp P) (v_inf_bi A)) = h * (e - 1) / e).
  { rewrite hy_hW. apply norm_eq. { apply Rmult_le_pos; [nra|]. left; apply Rinv_0_lt_compat; lra. }
    rewrite norm2_vscale, hy_W1.
    assert (Hs : sin b * sin b = 1 - 1 / e * (1 / e)) by (rewrite <- hy_cb; generalize (sin2cos2 b); lra).
    replace (rp * V * sin b * (rp * V * sin b) * 1) with (rp * rp * (V * V) * (sin b * sin b)) by ring. rewrite Hs.
    replace (h * (e - 1) / e * (h * (e - 1) / e)) with (h * h * ((e - 1) * (e - 1)) / (e * e)) by (field; lra). rewrite hy_h2.
    assert (HV : rp * (V * V) = GM p * (e - 1)) by (rewrite hy_ev; field; lra).
    replace (rp * rp * (V * V)) with (rp * (rp * (V * V))) by ring. rewrite HV. field. lra. }
  split; auto. rewrite Hn. apply Rmult_lt_reg_r with e; [lra|]. replace (h * (e - 1) / e * e) with (h * (e - 1)) by (field; lra). nra.
Qed.

(** C25 *)
Lemma acos_sin_of : forall g, - (PI / 2) <= g <= PI / 2 -> PI / 2 - acos (sin g) = g.
Proof.
  intros g Hg. rewrite <- (cos_shift g). rewrite acos_cos; lra.
Qed.
Theorem C25_entry_interface : forall name p v rp psi hEI A s,
  Approach name v rp psi true (Some hEI) = Ok (A, Entry s) -> Planet name = Ok p -> v <> vzero -> 0 < rp ->
  0 < RP p + hEI ->
  (RP p + hEI < rp -> theta_entry s = None /\ r_entry s = None /\ v_entry s = None) /\
  (rp <= RP p + hEI -> exists th vm g e, theta_entry s = Some th /\ - PI <= th <= 0 /\
     v_entry_mag s = Some vm /\ gamma_entry s = Some g /\ ap_e A = Some e /\
     0 < vm /\ vm * vm / 2 - GM p / (RP p + hEI) = (norm v * 1000) * (norm v * 1000) / 2 /\
     - (PI / 2) <= g <= 0 /\ 0 < 1 + e * cos th /\
     (inclined A -> exists r w, r_entry s = Some r /\ pos_vec_bi A th = Some r /\
        v_entry s = Some w /\ norm r = RP p + hEI /\ r_entry_mag s = Some (RP p + hEI) /\
        norm w = vm /\ gamma_entry_check s = Some g /\ dot r w = norm r * norm w * sin g)).
Proof.
  intros name p v rp psi hEI A s H Hp Hv Hrp HrE.
  destruct (Approach_inv _ _ _ _ _ _ _ _ H) as (p' & Hp' & HA & Ht & _). rewrite Hp in Hp'; inversion Hp'; subst p'; clear Hp'.
  destruct (Ht eq_refl) as (hh & Hhh & Hs). inversion Hhh; subst hh; clear Hhh. injection Hs as Hs'; clear Ht.
  destruct (Planet_facts _ _ Hp) as (HRP & HGM & _).
  destruct (core_hyper name p v rp psi Hp Hv Hrp) as (V & a & e & b & h & P & W & K). rewrite <- HA in K.
  assert (EP : ap_planet A = p) by (subst A; auto). assert (Er : ap_rp A = rp) by (subst A; auto).
  assert (EV : V = norm v * 1000).
  { rewrite <- (hy_V _ _ _ _ _ _ _ _ K). rewrite HA. change (v_inf_mag _) with (norm v * 1e3). lra. }
  set (rE := RP p + hEI) in *. set (mu := GM p) in *.
  pose proof (hy_hpos _ _ _ _ _ _ _ _ K) as Hhp. pose proof (hy_e1 _ _ _ _ _ _ _ _ K) as He1.
  pose proof (hy_Vpos _ _ _ _ _ _ _ _ K) as HV.
  pose proof (hy_h2 _ _ _ _ _ _ _ _ K) as Hh2. rewrite EP, Er in Hh2. fold mu in Hh2.
  set (arg := (h * h / (mu * rE) - 1) * (1 / e)).
  assert (Hq : h * h / (mu * rE) = rp * (1 + e) / rE) by (rewrite Hh2; field; split; lra).
  assert (Hqp : 0 < rp * (1 + e) / rE) by pos.
  assert (Hea : e * arg = rp * (1 + e) / rE - 1) by (unfold arg; rewrite Hq; field; split; lra).
  assert (Hth : theta_entry s = leto a := np_arccos arg in Some (-1 * a)).
  { rewrite Hs'. unfold Approach_entry; cbn [theta_entry]. rewrite EP. fold rE mu.
    rewrite (hy_h _ _ _ _ _ _ _ _ K), (hy_e _ _ _ _ _ _ _ _ K). cbn [obind].
    rewrite np_div_some by nra. cbn [obind]. rewrite np_div_some by lra. reflexivity. }
  split.
  - intros Hgt. assert (1 < arg).
    { assert (1 < rp / rE) by (apply Rmult_lt_reg_r with rE; [lra|]; field_simplify; lra).
      assert (rp * (1 + e) / rE = rp / rE * (1 + e)) by (field; lra). nra. }
    rewrite np_arccos_none in Hth by lra. cbn [obind] in Hth. split; auto.
    rewrite Hs' in Hth |- *. unfold Approach_entry in *; cbn [theta_entry r_entry v_entry] in *. rewrite Hth. auto.
  - intros Hle.
    assert (Harg : -1 < arg <= 1).
    { assert (rp / rE <= 1) by (apply Rmult_le_reg_r with rE; [lra|]; field_simplify; lra).
      assert (rp * (1 + e) / rE = rp / rE * (1 + e)) by (field; lra). split; nra. }
    rewrite np_arccos_some in Hth by lra. cbn [obind] in Hth.
    set (th := -1 * acos arg) in *. pose proof (acos_bound arg) as Hab.
    assert (Hcos : cos th = arg). { unfold th. replace (-1 * acos arg) with (- acos arg) by ring. rewrite cos_neg. apply cos_acos; lra. }
    assert (Hsin : sin th <= 0). { unfold th. replace (-1 * acos arg) with (- acos arg) by ring. rewrite sin_neg. pose proof (sin_acos_nonneg arg). lra. }
    assert (Hd : 1 + e * cos th = rp * (1 + e) / rE) by (rewrite Hcos; lra).
    assert (Hdp : 0 < 1 + e * cos th) by lra.
    assert (Hr : conic_radius mu h e th = rE) by (unfold conic_radius; rewrite Hd, Hh2; field; repeat split; lra).
    pose proof (conic_speed2 mu h e th HGM Hhp Hdp) as Hsp. cbv zeta in Hsp.
    pose proof (hyper_V2 _ _ _ _ _ _ _ _ K) as HV2. rewrite EP, Er in HV2. fold mu in HV2. specialize (HV2 HGM Hrp).
    rewrite <- HV2, Hr in Hsp.
    set (vr := mu / h * (e * sin th)) in *. set (vt := h / rE) in *.
    assert (Hvt : 0 < vt) by (apply Rdiv_lt_0_compat; auto).
    destruct (fpa_split vr vt Hvt) as (B1 & B2 & B3 & B4 & B5). set (vm := sqrt (vr * vr + vt * vt)) in *.
    assert (Hvm : v_entry_mag s = Some vm).
    { rewrite Hs'. unfold Approach_entry; cbn [v_entry_mag]. rewrite EP. fold rE mu. rewrite np_div_some by lra. cbn [obind].
      rewrite (hy_V _ _ _ _ _ _ _ _ K), Hsp. apply np_sqrt_some. nra. }
    set (g := -1 * acos (vt / vm)).
    assert (Hg : gamma_entry s = Some g).
    { rewrite Hs' in Hvm |- *. unfold Approach_entry in *; cbn [v_entry_mag gamma_entry] in *. rewrite Hvm.
      rewrite (hy_h _ _ _ _ _ _ _ _ K). cbn [obind]. rewrite EP. fold rE. rewrite np_div_some by nra. cbn [obind].
      replace (h / (rE * vm)) with (vt / vm) by (unfold vt; field; lra). rewrite np_arccos_some by lra. auto. }
    pose proof (acos_bound (vt / vm)) as Hga. pose proof PI_RGT_0 as HPI.
    assert (Hg2 : acos (vt / vm) <= PI / 2).
    { destruct (Rle_lt_dec (acos (vt / vm)) (PI / 2)) as [|Hlt]; auto. exfalso.
      assert (cos (acos (vt / vm)) < 0) by (apply cos_lt_0; lra). rewrite cos_acos in H0; lra. }
    assert (Hsg : vm * sin g = - Rabs vr).
    { unfold g. replace (-1 * acos (vt / vm)) with (- acos (vt / vm)) by ring. rewrite sin_neg. rewrite <- B5. ring. }
    exists th, vm, g, e. split; auto. split; [unfold th; lra|]. do 2 (split; [assumption|]).
    split; [apply (hy_e _ _ _ _ _ _ _ _ K)|]. split; auto.
    split. { rewrite B2, <- Hsp, <- EV. field. lra. }
    split; [unfold g; lra|]. split; auto.
    intros Hinc. assert (HnW : ~ equatorial W) by (apply (inclined_W _ _ _ _ _ _ _ _ K); auto).
    assert (Hel : exists i Om om, elements A P W i Om om) by (rewrite HA in K; rewrite HA; eapply hyper_elements; eauto).
    destruct Hel as (i & Om & om & E).
    assert (Hpos : pos_vec_bi A th = Some (conic_pos mu h e P W th)) by (erewrite pos_eq; eauto; rewrite ?EP; auto; lra).
    assert (Hvel : vel_vec_bi A th = Some (inward_vel mu h e P W th)) by (erewrite vel_eq; eauto; rewrite ?EP, ?Er; auto).
    pose proof (hy_P1 _ _ _ _ _ _ _ _ K) as HP1. pose proof (hy_W1 _ _ _ _ _ _ _ _ K) as HW1. pose proof (hy_WP _ _ _ _ _ _ _ _ K) as HWP.
    destruct (perifocal_unit P W th HP1 HW1 HWP) as (Hu & HWu).
    destruct (rv_invariants mu (perifocal P W th) W rE (- Rabs vr) vt Hu HW1 HWu HrE ltac:(lra)) as (I1 & I2 & _ & I4 & _).
    assert (Hre : r_entry s = Some (conic_pos mu h e P W th)).
    { rewrite Hs' in Hth |- *. unfold Approach_entry in *; cbn [theta_entry r_entry] in *. rewrite Hth. auto. }
    assert (Hve : v_entry s = Some (inward_vel mu h e P W th)).
    { rewrite Hs' in Hth |- *. unfold Approach_entry in *; cbn [theta_entry v_entry] in *. rewrite Hth. auto. }
    set (r := conic_pos mu h e P W th) in *. set (w := inward_vel mu h e P W th) in *.
    assert (Er' : r = vscale rE (perifocal P W th)) by (unfold r, conic_pos; rewrite Hr; auto).
    assert (Ew : w = vadd (vscale (- Rabs vr) (perifocal P W th)) (vscale vt (cross W (perifocal P W th)))) by (unfold w, inward_vel; rewrite Hr; auto).
    rewrite <- Er' in I1, I4. rewrite <- Ew in I2, I4.
    assert (Hnw : norm w = vm).
    { apply norm_eq; [lra|]. rewrite I2, B2. assert (Rabs vr * Rabs vr = vr * vr) by (rewrite <- Rabs_mult; apply Rabs_pos_eq; nra). lra. }
    assert (Hdot : dot r w = norm r * norm w * sin g) by (rewrite I4, I1, Hnw, Rmult_assoc, Hsg; ring).
    exists r, w. split; [exact Hre|]. do 2 (split; [assumption|]). split; [exact I1|].
    split. { rewrite Hs' in Hre |- *. unfold Approach_entry in *; cbn [r_entry r_entry_mag] in *. rewrite Hre. cbn [obind]. rewrite I1; auto. }
    split; auto. split; auto.
    assert (Hrn : r <> vzero). { intros Z. rewrite Z in I1. unfold norm in I1. replace (norm2 vzero) with 0 in I1 by (vsimpl; ring). rewrite sqrt_0 in I1. lra. }
    assert (Hwn : w <> vzero). { intros Z. rewrite Z in Hnw. unfold norm in Hnw. replace (norm2 vzero) with 0 in Hnw by (vsimpl; ring). rewrite sqrt_0 in Hnw. lra. }
    rewrite Hs' in Hre, Hve |- *. unfold Approach_entry in *; cbn [r_entry v_entry gamma_entry_check] in *. rewrite Hre, Hve. cbn [obind].
    rewrite unit_of_some by auto. cbn [obind]. rewrite unit_of_some by auto. cbn [obind].
    rewrite dot_vscale_l, dot_vscale_r, Hdot.
    replace (1 / norm r * (1 / norm w * (norm r * norm w * sin g))) with (sin g) by (field; rewrite I1, Hnw; lra).
    rewrite np_arccos_some by (apply SIN_bound). cbn [obind]. f_equal. apply acos_sin_of. unfold g; lra.
Qed.

(** C26 and C66: spherical quantities at the entry point.  Independent vocabulary: the planet turns
    about +z with rate w, so air at r moves with [cross (V3 0 0 w) r]; [east_of r] is the unit vector
    towards increasing longitude. *)
Definition air_velocity (w : R) (r : vec) : vec := cross (V3 0 0 w) r.
Definition east_of (r : vec) : vec :=
  vscale (1 / sqrt (vx r * vx r + vy r * vy r)) (V3 (- vy r) (vx r) 0).

Lemma asin_facts : forall x, -1 <= x <= 1 -> sin (asin x) = x /\ 0 <= cos (asin x) /\ cos (asin x) * cos (asin x) = 1 - x * x.
Proof.
  intros x Hx. pose proof (sin_asin x Hx) as E. split; auto. split.
  - pose proof (asin_bound x). apply cos_ge_0; lra.
  - generalize (sin2cos2 (asin x)). rewrite E. lra.
Qed.
Lemma lon_facts : forall x y, x <> 0 -> let l := atan (y / x) in
  cos l * sqrt (x * x + y * y) = Rabs x /\ sin l * sqrt (x * x + y * y) = y / x * Rabs x.
Proof.
  intros x y Hx l. unfold l. rewrite cos_atan, sin_atan, sqrt_ratio; auto.
  assert (0 < sqrt (x * x + y * y)) by (apply sqrt_lt_R0; nra). pose proof (Rabs_pos_lt x Hx).
  split; field; repeat split; lra.
Qed.

(** Everything the entry block computes from a position off the pole with x <> 0. *)
Lemma entry_geo : forall A hEI r w, let s := Approach_entry A hEI in
  r_entry s = Some r -> v_entry s = Some w -> vx r <> 0 ->
  exists lat lon, lat_entry s = Some lat /\ lon_entry s = Some lon /\ - (PI / 2) < lon < PI / 2 /\
    r_entry_unit s = Some (vscale (1 / norm r) r) /\
    sin lat = vz r / norm r /\ norm r * cos lat = sqrt (vx r * vx r + vy r * vy r) /\
    let sg := vx r / Rabs (vx r) in
    V3 (- sin lon) (cos lon) 0 = vscale sg (east_of r) /\
    v_entry_atm s = Some (vsub w (vscale sg (air_velocity (OMEGA (ap_planet A)) r))) /\
    lat_entry_analytic s = Some (sg * lat).
Proof.
  intros A hEI r w s Hr Hw Hx.
  assert (Hnz : r <> vzero) by (intros ->; apply Hx; reflexivity).
  pose proof (norm_pos r Hnz) as Hn. pose proof (norm_sq r) as Hn2.
  set (n := norm r) in *. destruct r as [x y z]. unfold norm2, dot in Hn2; cbn [vx vy vz] in *.
  set (d := sqrt (x * x + y * y)) in *.
  assert (Hd : 0 < d) by (apply sqrt_lt_R0; nra).
  assert (Hdd : d * d = x * x + y * y) by (apply sqrt_sqrt; nra).
  assert (Hru : r_entry_unit s = Some (vscale (1 / n) (V3 x y z))).
  { unfold s, Approach_entry in Hr |- *; cbn [r_entry r_entry_unit] in *. rewrite Hr. cbn [obind]. apply unit_of_some; auto. }
  assert (Hzn : -1 <= z / n <= 1).
  { split; apply Rmult_le_reg_r with n; auto; replace (z / n * n) with z by (field; lra); nra. }
  assert (Hzn' : 1 / n * z = z / n) by (field; lra).
  set (lat := asin (z / n)).
  destruct (asin_facts (z / n) Hzn) as (L1 & L2 & L3). fold lat in L1, L2, L3.
  assert (Hlat : lat_entry s = Some lat).
  { unfold s, Approach_entry in Hru |- *; cbn [r_entry_unit lat_entry] in *. rewrite Hru. cbn [obind vscale vz]. rewrite Hzn'. apply np_arcsin_some; auto. }
  assert (Hcl : n * cos lat = d).
  { apply sq_eq_nonneg; [nra|lra|]. replace (n * cos lat * (n * cos lat)) with (n * n * (cos lat * cos lat)) by ring. rewrite L3, Hdd.
    replace (n * n * (1 - z / n * (z / n))) with (n * n - z * z) by (field; lra). lra. }
  set (lon := atan (y / x)).
  destruct (lon_facts x y Hx) as (C1 & C2). fold lon in C1, C2. fold d in C1, C2.
  assert (Hlon : lon_entry s = Some lon).
  { unfold s, Approach_entry in Hru |- *; cbn [r_entry_unit lon_entry] in *. rewrite Hru. cbn [obind vscale vx vy].
    unfold atan_ratio. destruct (Reqb_spec (1 / n * x) 0) as [Hc|Hc]; [exfalso; apply Hx|f_equal; unfold lon; f_equal; field; split; lra].
    replace x with (n * (1 / n * x)) by (field; lra). rewrite Hc; ring. }
  pose proof (Rabs_pos_lt x Hx) as Hax.
  assert (Haa : Rabs x * Rabs x = x * x) by (rewrite <- Rabs_mult; apply Rabs_pos_eq; nra).
  set (sg := x / Rabs x).
  assert (Hsg2 : sg * sg = 1) by (unfold sg; replace (x / Rabs x * (x / Rabs x)) with (x * x / (Rabs x * Rabs x)) by (field; lra); rewrite Haa; field; nra).
  assert (Hsgx : Rabs x = sg * x) by (unfold sg; replace (x / Rabs x * x) with (x * x / Rabs x) by (field; lra); rewrite <- Haa; field; lra).
  assert (Hsgy : y / x * Rabs x = sg * y) by (rewrite Hsgx; field; lra).
  rewrite Hsgy in C2. rewrite Hsgx in C1.
  exists lat, lon. do 2 (split; [assumption|]). split; [pose proof (atan_bound (y / x)) as AB; unfold lon; lra|]. split; [exact Hru|]. do 2 (split; [assumption|]).
  cbv zeta. fold sg.
  split. { unfold east_of; cbn [vx vy vz]. fold d. apply vec_eq; cbn [vx vy vz vscale].
    - apply Rmult_eq_reg_r with d; [|lra]. replace (sg * (1 / d * - y) * d) with (- (sg * y)) by (field; lra). lra.
    - apply Rmult_eq_reg_r with d; [|lra]. rewrite C1. field; lra.
    - ring. }
  split.
  { unfold s, Approach_entry in Hr, Hw, Hlat, Hlon |- *; cbn [r_entry v_entry lat_entry lon_entry v_entry_atm] in *. rewrite Hr, Hw.
    rewrite Hr in Hlat, Hlon. cbn [obind] in *. rewrite Hlat, Hlon. cbn [obind]. fold n. f_equal. unfold vel_vec_entry_atm, air_velocity.
    apply vec_eq; cbn [vx vy vz vsub vscale cross].
    - replace (n * OMEGA (ap_planet A) * cos lat * - sin lon) with (- OMEGA (ap_planet A) * ((n * cos lat) * sin lon)) by ring.
      rewrite Hcl. rewrite (Rmult_comm d), C2. ring.
    - replace (n * OMEGA (ap_planet A) * cos lat * cos lon) with (OMEGA (ap_planet A) * ((n * cos lat) * cos lon)) by ring.
      rewrite Hcl. rewrite (Rmult_comm d), C1. ring.
    - ring. }
  { unfold s, Approach_entry in Hru, Hlon |- *; cbn [r_entry_unit lon_entry lat_entry_analytic] in *. rewrite Hru in *. cbn [obind] in *. rewrite Hlon. cbn [obind vscale vx vy vz].
    assert (Hden : 1 / n * x * cos lon + 1 / n * y * sin lon = sg * d / n).
    { apply Rmult_eq_reg_r with d; [|lra].
      transitivity (1 / n * (x * (cos lon * d) + y * (sin lon * d))); [field; lra|]. rewrite C1, C2.
      transitivity (sg / n * (x * x + y * y)); [field; lra|]. rewrite <- Hdd. field; lra. }
    rewrite Hden. assert (Hsgn : sg <> 0) by nra.
    assert (Hdz : sg * d / n <> 0). { intros Z. assert (sg * d = 0) by (replace (sg * d) with (sg * d / n * n) by (field; lra); rewrite Z; ring). nra. }
    unfold atan_ratio. destruct (Reqb_spec (sg * d / n) 0) as [Hc|Hc]; [contradiction|]. f_equal.
    assert (Hcl0 : 0 < cos lat) by nra.
    assert (Htan : 1 / n * z / (sg * d / n) = tan (sg * lat)).
    { assert (T : tan lat = z / d). { unfold tan. rewrite L1. rewrite <- Hcl. field. lra. }
      assert (Hc1 : sg = 1 \/ sg = -1) by (assert ((sg - 1) * (sg + 1) = 0) by lra; destruct (Rmult_integral _ _ H); [left|right]; lra).
      destruct Hc1 as [-> | ->].
      - replace (1 * lat) with lat by ring. rewrite T. field. lra.
      - replace (-1 * lat) with (- lat) by ring. rewrite tan_neg, T. field. lra. }
    rewrite Htan. apply atan_tan.
    assert (Hlb : - (PI / 2) < lat < PI / 2).
    { pose proof (asin_bound (z / n)) as Hb. fold lat in Hb.
      assert (lat <> PI / 2) by (intros Z; rewrite Z, cos_PI2 in Hcl0; lra).
      assert (lat <> - (PI / 2)) by (intros Z; rewrite Z, cos_neg, cos_PI2 in Hcl0; lra). lra. }
    assert (Hc1 : sg = 1 \/ sg = -1) by (assert ((sg - 1) * (sg + 1) = 0) by lra; destruct (Rmult_integral _ _ H); [left|right]; lra).
    destruct Hc1 as [-> | ->]; lra. }
Qed.

Theorem C26_atmosphere_relative_velocity : forall name p v rp psi hEI A s r w,
  Approach name v rp psi true (Some hEI) = Ok (A, Entry s) -> Planet name = Ok p ->
  r_entry s = Some r -> v_entry s = Some w ->
  (0 < vx r -> v_entry_atm s = Some (vsub w (air_velocity (OMEGA p) r)) /\ lat_entry_analytic s = lat_entry s) /\
  (vx r < 0 -> v_entry_atm s = Some (vadd w (air_velocity (OMEGA p) r)) /\
               v_entry_atm s <> Some (vsub w (air_velocity (OMEGA p) r)) /\
               exists l, lat_entry s = Some l /\ lat_entry_analytic s = Some (- l)) /\
  (vx r <> 0 -> exists lon lat, lon_entry s = Some lon /\ lat_entry s = Some lat /\ sin lat = vz r / norm r /\
     - (PI / 2) < lon < PI / 2 /\
     (0 < vx r -> r = vscale (norm r) (V3 (cos lat * cos lon) (cos lat * sin lon) (sin lat))) /\
     (vx r < 0 -> r = vscale (norm r) (V3 (cos lat * cos (lon + PI)) (cos lat * sin (lon + PI)) (sin lat)))).
Proof.
  intros name p v rp psi hEI A s r w H Hp Hr Hw.
  destruct (Approach_inv _ _ _ _ _ _ _ _ H) as (p' & Hp' & HA & Ht & _). rewrite Hp in Hp'; inversion Hp'; subst p'; clear Hp'.
  destruct (Ht eq_refl) as (hh & Hhh & Hs). inversion Hhh; subst hh; clear Hhh. injection Hs as Hs'; clear Ht.
  destruct (Planet_facts _ _ Hp) as (HRP & HGM & _ & _ & _ & _ & _ & HOm & _).
  assert (EP : ap_planet A = p) by (subst A; auto).
  rewrite Hs' in Hr, Hw.
  assert (G : vx r <> 0 -> _) by exact (entry_geo A hEI r w Hr Hw). rewrite <- Hs', EP in G.
  split; [|split].
  - intros Hx. destruct G as (lat & lon & G1 & G2 & G3 & G4 & G5 & G6 & G7 & G8 & G9); [lra|].
    replace (vx r / Rabs (vx r)) with 1 in * by (rewrite Rabs_pos_eq by lra; field; lra).
    rewrite G8, G9, G1. split; f_equal; [|ring]. f_equal. destruct r; unfold air_velocity; apply vec_eq; vsimpl; ring.
  - intros Hx. destruct G as (lat & lon & G1 & G2 & G3 & G4 & G5 & G6 & G7 & G8 & G9); [lra|].
    replace (vx r / Rabs (vx r)) with (-1) in * by (rewrite Rabs_left by lra; field; lra).
    rewrite G8, G9, G1. split; [|split].
    + f_equal. destruct r; unfold air_velocity; apply vec_eq; vsimpl; ring.
    + intros E. injection E as _ E2 _. revert E2. destruct r as [x y z]; unfold air_velocity; vsimpl. cbn [vx] in Hx. intros E2.
      assert (OMEGA p * x = 0) by lra. destruct (Rmult_integral _ _ H0); [contradiction|lra].
    + exists lat. split; auto. f_equal; ring.
  - intros Hx. destruct (G Hx) as (lat & lon & G1 & G2 & G3 & G4 & G5 & G6 & G7 & G8 & G9).
    exists lon, lat. do 2 (split; [assumption|]). split; [exact G5|]. split; [exact G3|].
    assert (Hn : 0 < norm r) by (apply norm_pos; intros Z; rewrite Z in Hx; apply Hx; reflexivity).
    injection G7 as E1 E2 _. 
    set (d := sqrt (vx r * vx r + vy r * vy r)) in *.
    assert (Hd : 0 < d) by (apply sqrt_lt_R0; nra).
    assert (Hz : vz r = norm r * sin lat) by (rewrite G5; field; lra).
    assert (Ex : cos lon = vx r / Rabs (vx r) * (vx r / d)) by (rewrite E2; unfold east_of; cbn [vx vy vscale]; fold d; field; split; [lra|apply Rabs_no_R0; auto]).
    assert (Ey : sin lon = vx r / Rabs (vx r) * (vy r / d)).
    { assert (- sin lon = - (vx r / Rabs (vx r) * (vy r / d))); [|lra]. rewrite E1; unfold east_of; cbn [vx vy vscale]; fold d; field; split; [lra|apply Rabs_no_R0; auto]. }
    split; intros Hs.
    + replace (vx r / Rabs (vx r)) with 1 in * by (rewrite Rabs_pos_eq by lra; field; lra).
      apply vec_eq; cbn [vx vy vz vscale]; auto.
      * rewrite Ex, <- Rmult_assoc, G6. fold d. field. lra.
      * rewrite Ey, <- Rmult_assoc, G6. fold d. field. lra.
    + replace (vx r / Rabs (vx r)) with (-1) in * by (rewrite Rabs_left by lra; field; lra).
      rewrite neg_cos, neg_sin. apply vec_eq; cbn [vx vy vz vscale]; auto.
      * rewrite Ex, <- Rmult_assoc, G6. fold d. field. lra.
      * rewrite Ey, <- Rmult_assoc, G6. fold d. field. lra.
Qed.

(** C66.  [g] is the flight-path angle and [chi] the heading measured from east towards north of a
    velocity [u] at position [r]. *)
Definition north_of (r : vec) : vec := cross (vscale (1 / norm r) r) (east_of r).
Definition has_fpa_heading (r u : vec) (g chi : R) : Prop :=
  u = vscale (norm u) (vadd (vscale (sin g) (vscale (1 / norm r) r))
        (vscale (cos g) (vadd (vscale (cos chi) (east_of r)) (vscale (sin chi) (north_of r))))).

Lemma east_frame : forall r, vx r <> 0 -> norm2 (east_of r) = 1 /\ dot (east_of r) r = 0 /\ dot (north_of r) (east_of r) = 0 /\ dot (north_of r) r = 0.
Proof.
  intros [x y z] Hx; cbn [vx] in Hx. unfold north_of, east_of; cbn [vx vy vz]. set (d := sqrt (x * x + y * y)).
  assert (Hd : 0 < d) by (apply sqrt_lt_R0; nra).
  assert (Hdd : d * d = x * x + y * y) by (apply sqrt_sqrt; nra).
  generalize (1 / norm (V3 x y z)); intros k.
  repeat split; vsimpl; try ring.
  transitivity ((x * x + y * y) / (d * d)); [field; lra|]. rewrite Hdd. field. nra.
Qed.

Theorem C66_heading_formula : forall name v rp psi hEI A s r w u g chi,
  Approach name v rp psi true (Some hEI) = Ok (A, Entry s) ->
  r_entry s = Some r -> v_entry s = Some w -> vx r <> 0 -> v_entry_atm s = Some u -> u <> vzero ->
  has_fpa_heading r u g chi -> - (PI / 2) <= g <= PI / 2 ->
  gamma_entry_atm s = Some g /\
  (0 < vx r -> heading_entry_atm s = Some (acos (cos g * cos chi))) /\
  (vx r < 0 -> heading_entry_atm s = Some (acos (- (cos g * cos chi)))).
Proof.
  intros name v rp psi hEI A s r w u g chi H Hr Hw Hx Hu Hunz Hfh Hg.
  destruct (Approach_inv _ _ _ _ _ _ _ _ H) as (p & Hp & HA & Ht & _).
  destruct (Ht eq_refl) as (hh & Hhh & Hs). inversion Hhh; subst hh; clear Hhh. injection Hs as Hs'; clear Ht.
  rewrite Hs' in Hr, Hw.
  destruct (entry_geo A hEI r w Hr Hw Hx) as (lat & lon & G1 & G2 & G3 & G4 & G5 & G6 & G7 & G8 & G9).
  rewrite Hs' in Hu. rewrite Hs'.
  assert (Hn : 0 < norm r) by (apply norm_pos; intros Z; rewrite Z in Hx; apply Hx; reflexivity).
  pose proof (norm_pos u Hunz) as Hnu.
  set (rh := vscale (1 / norm r) r) in *. set (E := east_of r) in *. set (N := north_of r) in *.
  assert (Hrh1 : norm2 rh = 1) by (apply unit_norm2; intros Z; rewrite Z in Hx; apply Hx; reflexivity).
  destruct (east_frame r Hx) as (F1 & F2 & F3 & F4). fold E N in F1, F2, F3, F4.
  assert (F2' : dot E rh = 0) by (unfold rh; rewrite dot_vscale_r, F2; ring).
  assert (F4' : dot N rh = 0) by (unfold rh; rewrite dot_vscale_r, F4; ring).
  set (uh := vscale (1 / norm u) u).
  assert (Huh : uh = vadd (vscale (sin g) rh) (vscale (cos g) (vadd (vscale (cos chi) E) (vscale (sin chi) N)))).
  { unfold uh. unfold has_fpa_heading in Hfh. fold E N rh in Hfh. rewrite Hfh at 2. generalize (norm u) Hnu. intros k Hk. 
    destruct rh, E, N; apply vec_eq; vsimpl; field; lra. }
  assert (Hdr : dot rh uh = sin g).
  { rewrite Huh. transitivity (sin g * norm2 rh + cos g * cos chi * dot E rh + cos g * sin chi * dot N rh); [destruct rh, E, N; vsimpl; ring|]. rewrite Hrh1, F2', F4'; ring. }
  assert (Hde : dot uh E = cos g * cos chi).
  { rewrite Huh. transitivity (sin g * dot E rh + cos g * cos chi * norm2 E + cos g * sin chi * dot N E); [destruct rh, E, N; vsimpl; ring|]. rewrite F1, F2', F3; ring. }
  assert (Hva : unit_of u = Some uh) by (apply unit_of_some; auto).
  split.
  { change (gamma_entry_atm (Approach_entry A hEI)) with (leto r := r_entry_unit (Approach_entry A hEI) in
      leto v := (leto v := v_entry_atm (Approach_entry A hEI) in unit_of v) in leto a := np_arccos (dot r v) in Some (PI / 2 - a)).
    rewrite G4, Hu. cbn [obind]. rewrite Hva. cbn [obind].
    rewrite Hdr, np_arccos_some by apply SIN_bound. cbn [obind]. f_equal. apply acos_sin_of; auto. }
  assert (Hh : heading_entry_atm (Approach_entry A hEI) = np_arccos (vx r / Rabs (vx r) * (cos g * cos chi))).
  { change (heading_entry_atm (Approach_entry A hEI)) with (leto r := r_entry_unit (Approach_entry A hEI) in
      leto v := (leto v := v_entry_atm (Approach_entry A hEI) in unit_of v) in leto lo := lon_entry (Approach_entry A hEI) in
      let proj := vsub v (vscale (dot v r) r) in np_arccos (dot proj (V3 (- sin lo) (cos lo) 0))).
    rewrite G4, Hu. cbn [obind] in *. rewrite Hva. cbn [obind].
    rewrite G2. cbn [obind]. rewrite G7. fold E. f_equal. rewrite dot_vscale_r. f_equal.
    transitivity (dot uh E - dot uh rh * dot E rh); [destruct uh, E, rh; vsimpl; ring|]. rewrite F2', Hde. ring. }
  assert (Hb : -1 <= cos g * cos chi <= 1).
  { pose proof (COS_bound g). pose proof (COS_bound chi). split; nra. }
  rewrite Hh. split; intros Hsx.
  - replace (vx r / Rabs (vx r)) with 1 by (rewrite Rabs_pos_eq by lra; field; lra). rewrite Rmult_1_l. apply np_arccos_some; auto.
  - replace (vx r / Rabs (vx r)) with (-1) by (rewrite Rabs_left by lra; field; lra).
    replace (-1 * (cos g * cos chi)) with (- (cos g * cos chi)) by ring. apply np_arccos_some; lra.
Qed.
(** Hence the heading is not the direction of flight: any descending entry that is neither due north
    nor due south gets the wrong value, and north- and southbound entries are not distinguished. *)
Theorem C66_heading_refuted : forall g chi, - (PI / 2) < g < 0 -> 0 <= chi <= PI -> chi <> PI / 2 ->
  acos (cos g * cos chi) <> chi /\ acos (cos g * cos chi) = acos (cos g * cos (- chi)).
Proof.
  intros g chi Hg Hchi Hne. split; [|rewrite cos_neg; auto]. intros E.
  assert (Hb : -1 <= cos g * cos chi <= 1).
  { pose proof (COS_bound g). pose proof (COS_bound chi). split; nra. }
  assert (E2 : cos g * cos chi = cos chi) by (rewrite <- E at 2; rewrite cos_acos; auto).
  assert (cos chi <> 0).
  { intros Z. apply Hne. rewrite <- (acos_cos chi) by lra. rewrite Z. apply acos_0. }
  assert (Hc1 : cos g = 1) by (apply Rmult_eq_reg_r with (cos chi); auto; lra).
  assert (0 < - g < PI) by (pose proof PI_RGT_0; lra).
  assert (cos (- g) < cos 0) by (apply cos_decreasing_1; pose proof PI_RGT_0; lra).
  rewrite cos_neg, cos_0 in H1. lra.
Qed.

(** C27 *)
Theorem C27_b_plane : forall name v rp psi en hEI A t,
  Approach name v rp psi en hEI = Ok (A, t) -> v <> vzero -> 0 < rp ->
  (vx (v_inf_bi A) <> 0 \/ vy (v_inf_bi A) <> 0) ->
  exists S T Rv B bm h, v_inf_unit A = Some S /\ T_unit A = Some T /\ R_unit A = Some Rv /\ B_unit A = Some B /\ b_mag A = Some bm /\ ap_h A = Some h /\
    norm2 S = 1 /\ norm2 T = 1 /\ norm2 Rv = 1 /\ dot S T = 0 /\ dot T Rv = 0 /\ dot Rv S = 0 /\ cross S T = Rv /\
    vz T = 0 /\
    norm2 B = 1 /\ dot B S = 0 /\
    B = vadd (vscale (cos (b_plane_angle A)) T) (vscale (sin (b_plane_angle A)) Rv) /\
    b_plane_angle A = psi + PI / 2 /\
    0 < bm /\ h = bm * norm (v_inf_bi A).
Proof.
  intros name v rp psi en hEI A t H Hv Hrp Hoff. destruct (Approach_inv _ _ _ _ _ _ _ _ H) as (p & Hp & HA & _).
  destruct (Planet_facts _ _ Hp) as (_ & HGM & _).
  destruct (core_hyper name p v rp psi Hp Hv Hrp) as (V & a & e & b & h & P & W & K). rewrite <- HA in K.
  assert (EP : ap_planet A = p) by (subst A; auto). assert (Er : ap_rp A = rp) by (subst A; auto). assert (Es : ap_psi A = psi) by (subst A; auto).
  set (vb := v_inf_bi A) in *.
  assert (Hp1 : phi_1 A = atan2 (vy vb) (vx vb)) by (unfold vb; subst A; reflexivity).
  assert (HV : 0 < V) by apply (hy_Vpos _ _ _ _ _ _ _ _ K).
  assert (HnV : norm vb = V) by apply (hy_n _ _ _ _ _ _ _ _ K).
  assert (HSu : v_inf_unit A = Some (vscale (1 / V) vb)).
  { rewrite HA. change (v_inf_unit (Approach_core p v rp psi)) with (unit_of (ICRF_to_BI (a0 p) (d0 p) v)).
    assert (Evb : vb = vscale 1e3 (ICRF_to_BI (a0 p) (d0 p) v)) by (unfold vb; rewrite HA; reflexivity).
    rewrite unit_of_some.
    - f_equal. rewrite <- HnV, Evb. rewrite norm_vscale by lra. generalize (ICRF_to_BI (a0 p) (d0 p) v). intros u.
      destruct u as [x y z]. 
      destruct (Req_dec (norm (V3 x y z)) 0) as [Z|NZ].
      + assert (V3 x y z = vzero) by (apply norm2_zero; rewrite <- norm_sq, Z; ring). rewrite H0. apply vec_eq; vsimpl; ring.
      + apply vec_eq; vsimpl; field; auto.
    - intros Z. rewrite Z in Evb. rewrite Evb in HnV. unfold norm in HnV. replace (norm2 (vscale 1e3 vzero)) with 0 in HnV by (vsimpl; ring). rewrite sqrt_0 in HnV. lra. }
  set (d := sqrt (vx vb * vx vb + vy vb * vy vb)).
  assert (Hd0 : 0 < vx vb * vx vb + vy vb * vy vb) by (destruct Hoff; nra).
  assert (Hd : 0 < d) by (apply sqrt_lt_R0; auto).
  assert (Hdd : d * d = vx vb * vx vb + vy vb * vy vb) by (apply sqrt_sqrt; lra).
  set (T := vscale (1 / d) (cross vb zaxis)). set (Rv := vscale (1 / (V * d)) (cross vb (cross vb zaxis))).
  assert (HV2 : norm2 vb = V * V) by (rewrite <- norm_sq, HnV; auto).
  assert (NT : norm (cross vb zaxis) = d).
  { apply norm_eq; [lra|]. rewrite Hdd. unfold zaxis; destruct vb; vsimpl; ring. }
  assert (NR : norm (cross vb (cross vb zaxis)) = V * d).
  { apply norm_eq; [nra|]. rewrite cross_norm2. rewrite <- (norm_sq (cross vb zaxis)), NT, HV2.
    replace (dot vb (cross vb zaxis)) with 0; [ring|]. unfold zaxis; destruct vb; vsimpl; ring. }
  assert (NZ0 : norm vzero = 0) by (unfold norm; replace (norm2 vzero) with 0 by (vsimpl; ring); apply sqrt_0).
  assert (HVd : 0 < V * d) by nra.
  assert (HTu : T_unit A = Some T).
  { rewrite HA. change (T_unit (Approach_core p v rp psi)) with (unit_of (cross (v_inf_bi (Approach_core p v rp psi)) zaxis)). rewrite <- HA. fold vb.
    rewrite unit_of_some; [rewrite NT; auto|]. intros Z; rewrite Z, NZ0 in NT; lra. }
  assert (HRu : R_unit A = Some Rv).
  { rewrite HA. change (R_unit (Approach_core p v rp psi)) with (unit_of (cross (v_inf_bi (Approach_core p v rp psi)) (cross (v_inf_bi (Approach_core p v rp psi)) zaxis))). rewrite <- HA. fold vb.
    rewrite unit_of_some; [rewrite NR; auto|]. intros Z; rewrite Z, NZ0 in NR; lra. }
  destruct (dprime_rot (phi_1 A) (phi_2 A)) as (Rd & Rc & Rt & _).
  set (M := BI_to_BI_dprime_matrix (phi_1 A) (phi_2 A)) in *.
  assert (MV : mvmul M vb = V3 0 0 V) by apply (hy_vd _ _ _ _ _ _ _ _ K).
  assert (MP : mvmul M P = V3 (sin b * cos psi) (sin b * sin psi) (cos b)) by (rewrite <- Es; apply (hy_Pd _ _ _ _ _ _ _ _ K)).
  assert (MTz : mvmul M (cross vb zaxis) = V3 0 (- d) 0).
  { unfold M, BI_to_BI_dprime_matrix. rewrite mvmul_mmul. rewrite Hp1.
    destruct (atan2_spec (vy vb) (vx vb)) as (A1 & A2). fold d in A1, A2.
    set (q := atan2 (vy vb) (vx vb)) in *. clearbody q.
    assert (Q : mvmul (R3 q) (cross vb zaxis) = V3 0 (- d) 0).
    { unfold zaxis, R3. destruct vb as [x y z]; cbn [vx vy] in A1, A2. 
      generalize (sin2cos2 q). revert A1 A2. generalize (sin q) (cos q). intros s c A1 A2 Hsc.
      apply vec_eq; vsimpl; rewrite <- A1, <- A2; [ring| |ring]. transitivity (- d * (s * s + c * c)); [ring|rewrite Hsc; ring]. }
    rewrite Q. unfold R2. apply vec_eq; vsimpl; ring. }
  assert (MT : mvmul M T = V3 0 (-1) 0).
  { unfold T. transitivity (vscale (1 / d) (mvmul M (cross vb zaxis))); [destruct M as [[? ? ?] [? ? ?] [? ? ?]]; generalize (cross vb zaxis); intros [? ? ?]; apply vec_eq; vsimpl; ring|]. rewrite MTz. apply vec_eq; vsimpl; field; lra. }
  assert (MR : mvmul M Rv = V3 1 0 0).
  { unfold Rv. transitivity (vscale (1 / (V * d)) (mvmul M (cross vb (cross vb zaxis)))); [destruct M as [[? ? ?] [? ? ?] [? ? ?]]; generalize (cross vb (cross vb zaxis)); intros [? ? ?]; apply vec_eq; vsimpl; ring|].
    rewrite <- Rc, MTz, MV. apply vec_eq; vsimpl; field; lra. }
  assert (MS : mvmul M (vscale (1 / V) vb) = V3 0 0 1).
  { transitivity (vscale (1 / V) (mvmul M vb)); [destruct M as [[? ? ?] [? ? ?] [? ? ?]]; destruct vb; apply vec_eq; vsimpl; ring|]. rewrite MV. apply vec_eq; vsimpl; field; lra. }
  set (k := rp * V * V * sin b).
  pose proof (hy_sb _ _ _ _ _ _ _ _ K) as Hsb.
  assert (Hk : 0 < k) by (unfold k; repeat apply Rmult_lt_0_compat; auto).
  set (B := vscale (1 / k) (cross vb (cross (vscale rp P) vb))).
  assert (MB0 : mvmul M (cross vb (cross (vscale rp P) vb)) = vscale k (V3 (cos psi) (sin psi) 0)).
  { rewrite <- Rc, <- Rc, MV. replace (mvmul M (vscale rp P)) with (vscale rp (mvmul M P)) by (destruct M as [[? ? ?] [? ? ?] [? ? ?]]; destruct P; apply vec_eq; vsimpl; ring).
    rewrite MP. unfold k. apply vec_eq; vsimpl; ring. }
  assert (MB : mvmul M B = V3 (cos psi) (sin psi) 0).
  { unfold B. transitivity (vscale (1 / k) (mvmul M (cross vb (cross (vscale rp P) vb)))); [destruct M as [[? ? ?] [? ? ?] [? ? ?]]; generalize (cross vb (cross (vscale rp P) vb)); intros [? ? ?]; apply vec_eq; vsimpl; ring|].
    rewrite MB0. apply vec_eq; vsimpl; field; lra. }
  assert (NB : norm (cross vb (cross (vscale rp P) vb)) = k).
  { rewrite <- (rot_norm M) by apply dprime_rot. rewrite MB0. apply norm_eq; [lra|]. rewrite norm2_vscale. vsimpl.
    generalize (sin2cos2 psi). generalize (sin psi) (cos psi). intros s c Hsc. transitivity (k * k * (s * s + c * c)); [ring|rewrite Hsc; ring]. }
  assert (HBu : B_unit A = Some B).
  { rewrite HA. change (B_unit (Approach_core p v rp psi)) with (leto u := h_vec (Approach_core p v rp psi) in unit_of (cross (v_inf_bi (Approach_core p v rp psi)) u)). rewrite <- HA.
    rewrite (hy_hv _ _ _ _ _ _ _ _ K). cbn [obind]. fold vb. rewrite Er. rewrite unit_of_some; [rewrite NB; auto|]. intros Z; rewrite Z, NZ0 in NB; lra. }
  assert (Minj : forall x y, mvmul M x = mvmul M y -> x = y).
  { intros x y Q. rewrite <- (Rt x), <- (Rt y), Q; auto. }
  assert (Hba : b_plane_angle A = psi + PI / 2) by (subst A; reflexivity).
  pose proof (hy_a _ _ _ _ _ _ _ _ K) as Haa. pose proof (hy_e _ _ _ _ _ _ _ _ K) as Hee. pose proof (hy_e1 _ _ _ _ _ _ _ _ K) as He1.
  assert (Ha0 : a < 0). { rewrite (hy_av _ _ _ _ _ _ _ _ K), EP. assert (0 < GM p / (V * V)) by pos. unfold Rdiv in *. lra. }
  assert (Hee1 : 0 < e * e - 1) by nra.
  set (bm := Rabs a * sqrt (e * e - 1)).
  assert (Hbm : b_mag A = Some bm).
  { rewrite HA. change (b_mag (Approach_core p v rp psi)) with (leto x := ap_a (Approach_core p v rp psi) in leto y := ap_e (Approach_core p v rp psi) in leto s := np_sqrt (y * y - 1) in Some (Rabs x * s)). rewrite <- HA.
    rewrite Haa, Hee. cbn [obind]. rewrite np_sqrt_some by lra. auto. }
  assert (Hbmp : 0 < bm) by (unfold bm; apply Rmult_lt_0_compat; [apply Rabs_pos_lt; lra|apply sqrt_lt_R0; auto]).
  assert (Dot : forall x y, dot x y = dot (mvmul M x) (mvmul M y)) by (intros; rewrite Rd; auto).
  exists (vscale (1 / V) vb), T, Rv, B, bm, h.
  do 5 (split; [assumption|]). split; [apply (hy_h _ _ _ _ _ _ _ _ K)|].
  unfold norm2. do 6 (split; [rewrite Dot, ?MS, ?MT, ?MR; vsimpl; ring|]).
  split. { apply Minj. rewrite <- Rc, MS, MT, MR. apply vec_eq; vsimpl; ring. }
  split. { unfold T, zaxis. destruct vb; vsimpl; ring. }
  split. { rewrite Dot, MB. vsimpl. generalize (sin2cos2 psi). lra. }
  split; [rewrite Dot, MB, MS; vsimpl; ring|].
  split. { apply Minj. rewrite MB, Hba. 
    transitivity (vadd (vscale (cos (psi + PI / 2)) (mvmul M T)) (vscale (sin (psi + PI / 2)) (mvmul M Rv))); [|destruct M as [[? ? ?] [? ? ?] [? ? ?]]; destruct T, Rv; apply vec_eq; vsimpl; ring].
    rewrite MT, MR, cos_plus, sin_plus, cos_PI2, sin_PI2. apply vec_eq; vsimpl; ring. }
  split; [exact Hba|]. split; [exact Hbmp|].
  rewrite HnV. pose proof (hy_hpos _ _ _ _ _ _ _ _ K). apply sq_eq_nonneg; [lra|nra|].
  replace (bm * V * (bm * V)) with (bm * bm * (V * V)) by ring.
  replace (bm * bm) with (a * a * (e * e - 1)).
  - rewrite (hy_h2 _ _ _ _ _ _ _ _ K), EP, Er.
    assert (HVV : rp * (V * V) = GM p * (e - 1)) by (rewrite (hy_ev _ _ _ _ _ _ _ _ K), EP, Er; field; lra).
    assert (Hapa : a * (V * V) = - GM p) by (rewrite (hy_av _ _ _ _ _ _ _ _ K), EP; field; lra).
    assert (Harp : a * (1 - e) = rp).
    { apply Rmult_eq_reg_r with (V * V); [|nra]. rewrite HVV. replace (a * (1 - e) * (V * V)) with (a * (V * V) * (1 - e)) by ring. rewrite Hapa. ring. }
    replace (a * a * (e * e - 1) * (V * V)) with (- (a * (V * V)) * (a * (1 - e)) * (1 + e)) by ring. rewrite Hapa, Harp. ring.
  - unfold bm. assert (Rabs a * Rabs a = a * a) by (rewrite <- Rabs_mult; apply Rabs_pos_eq; nra).
    replace (Rabs a * sqrt (e * e - 1) * (Rabs a * sqrt (e * e - 1))) with (Rabs a * Rabs a * (sqrt (e * e - 1) * sqrt (e * e - 1))) by ring.
    rewrite H1, sqrt_sqrt by lra. ring.
Qed.
Theorem C27_pole_undefined : forall name v rp psi en hEI A t,
  Approach name v rp psi en hEI = Ok (A, t) -> vx (v_inf_bi A) = 0 -> vy (v_inf_bi A) = 0 ->
  T_unit A = None /\ R_unit A = None.
Proof.
  intros name v rp psi en hEI A t H Hx Hy. destruct (Approach_inv _ _ _ _ _ _ _ _ H) as (p & Hp & HA & _).
  set (vb := v_inf_bi A) in *.
  assert (Z : cross vb zaxis = vzero). { clearbody vb. destruct vb as [x y z]; cbn [vx vy] in *. subst. unfold zaxis. apply vec_eq; vsimpl; ring. }
  split; rewrite HA.
  - change (T_unit (Approach_core p v rp psi)) with (unit_of (cross (v_inf_bi (Approach_core p v rp psi)) zaxis)). rewrite <- HA. fold vb. rewrite Z. apply unit_of_none.
  - change (R_unit (Approach_core p v rp psi)) with (unit_of (cross (v_inf_bi (Approach_core p v rp psi)) (cross (v_inf_bi (Approach_core p v rp psi)) zaxis))). rewrite <- HA. fold vb.
    rewrite Z. replace (cross vb vzero) with vzero; [apply unit_of_none|]. apply vec_eq; vsimpl; ring.
Qed.

(** Non-vacuity.  A concrete Neptune approach whose v_inf in the body frame is (3, 0, 4) km/s: its
    orbit is inclined, off the pole and it reaches the 1000 km entry interface. *)
Definition icrf_of (p : planet) (u : vec) : vec := mvmul (transpose (ICRF_to_BI_matrix (a0 p) (d0 p))) u.
Lemma icrf_bi : forall p u, ICRF_to_BI (a0 p) (d0 p) (icrf_of p u) = u.
Proof. intros. unfold ICRF_to_BI, icrf_of. destruct (mmul_rot (R1 (PI / 2 - d0 p)) (R3 (PI / 2 + a0 p)) (R1_rot _) (R3_rot _)) as (_ & _ & _ & Q). apply Q. Qed.
Lemma icrf_nonzero : forall p u, u <> vzero -> icrf_of p u <> vzero.
Proof.
  intros p u Hu E. apply Hu. rewrite <- (icrf_bi p u), E. unfold ICRF_to_BI. generalize (ICRF_to_BI_matrix (a0 p) (d0 p)).
  intros [[? ? ?] [? ? ?] [? ? ?]]. apply vec_eq; vsimpl; ring.
Qed.
Lemma Neptune_ok : Planet "NEPTUNE" = Ok NEPTUNE. Proof. reflexivity. Qed.

Lemma inclined_if_vz : forall name p u rp psi, Planet name = Ok p -> vz u <> 0 -> 0 < rp -> inclined (Approach_core p (icrf_of p u) rp psi).
Proof.
  intros name p u rp psi Hp Hz Hrp. assert (Hu : u <> vzero) by (intros ->; apply Hz; reflexivity).
  destruct (core_hyper name p _ rp psi Hp (icrf_nonzero p u Hu) Hrp) as (V & a & e & b & h & P & W & K).
  apply (inclined_W _ _ _ _ _ _ _ _ K). intros [X Y]. pose proof (hy_W1 _ _ _ _ _ _ _ _ K) as W1. pose proof (hy_Wv _ _ _ _ _ _ _ _ K) as Wv.
  change (v_inf_bi (Approach_core p (icrf_of p u) rp psi)) with (vscale 1e3 (ICRF_to_BI (a0 p) (d0 p) (icrf_of p u))) in Wv. rewrite icrf_bi in Wv.
  clear K. destruct W as [x y z], u as [ux uy uz]. unfold norm2, dot in *; cbn [vx vy vz vscale] in *. subst x y.
  assert (z * uz = 0) by lra. destruct (Rmult_integral _ _ H); [subst; lra|contradiction].
Qed.
Example C23_witness : exists A s, Approach "NEPTUNE" (icrf_of NEPTUNE (V3 3 0 4)) 24764e3 1 true (Some 1000e3) = Ok (A, Entry s) /\
  icrf_of NEPTUNE (V3 3 0 4) <> vzero /\ inclined A /\ (vx (v_inf_bi A) <> 0 \/ vy (v_inf_bi A) <> 0) /\
  24764e3 <= RP NEPTUNE + 1000e3 /\
  exists e h, ap_e A = Some e /\ ap_h A = Some h /\ 0 < 1 + e * cos (- PI / 3) /\ sin (- PI / 3) <= 0.
Proof.
  eexists; eexists. split; [unfold Approach; rewrite Neptune_ok; reflexivity|].
  assert (Hnz : icrf_of NEPTUNE (V3 3 0 4) <> vzero) by (apply icrf_nonzero; intros E; injection E; intros; lra).
  split; auto. split; [apply (inclined_if_vz "NEPTUNE"); [reflexivity|cbn [vz]; lra|lra]|].
  split. { left. change (v_inf_bi (Approach_core NEPTUNE (icrf_of NEPTUNE (V3 3 0 4)) 24764e3 1)) with (vscale 1e3 (ICRF_to_BI (a0 NEPTUNE) (d0 NEPTUNE) (icrf_of NEPTUNE (V3 3 0 4)))).
    rewrite icrf_bi. cbn [vscale vx]. lra. }
  split; [cbn [RP NEPTUNE]; lra|].
  destruct (core_hyper "NEPTUNE" NEPTUNE _ 24764e3 1 Neptune_ok Hnz ltac:(lra)) as (V & a & e & b & h & P & W & K).
  exists e, h. split; [apply (hy_e _ _ _ _ _ _ _ _ K)|]. split; [apply (hy_h _ _ _ _ _ _ _ _ K)|].
  pose proof (hy_e1 _ _ _ _ _ _ _ _ K). replace (- PI / 3) with (- (PI / 3)) by field. rewrite cos_neg, sin_neg, cos_PI3.
  split; [lra|]. assert (0 <= sin (PI / 3)); [|lra]. pose proof PI_RGT_0. apply sin_ge_0; lra.
Qed.

(** Grazing entries on both sides of the x = 0 plane, for C26 and C66. *)
Lemma grazing : forall (sg : R), sg = 1 \/ sg = -1 -> exists A s r w u,
  Approach "NEPTUNE" (icrf_of NEPTUNE (V3 (5 * sg) 0 0)) (RP NEPTUNE + 1000e3) 0 true (Some 1000e3) = Ok (A, Entry s) /\
  r_entry s = Some r /\ v_entry s = Some w /\ 0 < sg * vx r /\ v_entry_atm s = Some u.
Proof.
  intros sg Hsg. set (u0 := V3 (5 * sg) 0 0). set (rp := RP NEPTUNE + 1000e3).
  assert (Hrp : 0 < rp) by (unfold rp; cbn [RP NEPTUNE]; lra).
  assert (Hu0 : u0 <> vzero) by (intros E; injection E; intros; destruct Hsg; subst; lra).
  pose proof (icrf_nonzero NEPTUNE u0 Hu0) as Hnz.
  set (A := Approach_core NEPTUNE (icrf_of NEPTUNE u0) rp 0).
  assert (HAp : Approach "NEPTUNE" (icrf_of NEPTUNE u0) rp 0 true (Some 1000e3) = Ok (A, Entry (Approach_entry A 1000e3))) by (unfold Approach; rewrite Neptune_ok; reflexivity).
  destruct (core_hyper "NEPTUNE" NEPTUNE _ rp 0 Neptune_ok Hnz Hrp) as (V & a & e & b & h & P & W & K). fold A in K.
  assert (Evb : v_inf_bi A = V3 (5000 * sg) 0 0).
  { change (v_inf_bi A) with (vscale 1e3 (ICRF_to_BI (a0 NEPTUNE) (d0 NEPTUNE) (icrf_of NEPTUNE u0))). rewrite icrf_bi. unfold u0. apply vec_eq; vsimpl; lra. }
  pose proof (hy_e1 _ _ _ _ _ _ _ _ K) as He1.
  assert (HV : V = 5000).
  { rewrite <- (hy_n _ _ _ _ _ _ _ _ K), Evb. apply norm_eq; [lra|]. vsimpl. destruct Hsg; subst; ring. }
  assert (HPx : sg * vx P = 1 / e).
  { pose proof (hy_Pdot _ _ _ _ _ _ _ _ K) as Q. rewrite Evb, HV, (hy_cb _ _ _ _ _ _ _ _ K) in Q. clear K. destruct P as [x y z]; unfold dot in Q; cbn [vx vy vz] in *. nra. }
  assert (HPz : vz P <> 0).
  { assert (EPv : P = rp_unit_of (phi_1 A) (phi_2 A) b 0) by apply (hy_Pv _ _ _ _ _ _ _ _ K).
    assert (Hc : cos (phi_2 A) = 0 /\ sin (phi_2 A) = 1).
    { change (phi_2 A) with (atan2 (vx (mvmul (R3 (phi_1 A)) (v_inf_bi A))) (vz (mvmul (R3 (phi_1 A)) (v_inf_bi A)))).
      destruct (atan2_spec (vx (mvmul (R3 (phi_1 A)) (v_inf_bi A))) (vz (mvmul (R3 (phi_1 A)) (v_inf_bi A)))) as (Q1 & Q2).
      assert (Z : vz (mvmul (R3 (phi_1 A)) (v_inf_bi A)) = 0) by (rewrite Evb; unfold R3; vsimpl; ring).
      assert (X : vx (mvmul (R3 (phi_1 A)) (v_inf_bi A)) = 5000).
      { change (phi_1 A) with (atan2 (vy (v_inf_bi A)) (vx (v_inf_bi A))). rewrite Evb. cbn [vx vy].
        destruct (atan2_spec 0 (5000 * sg)) as (Q3 & Q4). revert Q3 Q4. replace (5000 * sg * (5000 * sg) + 0 * 0) with (5000 * 5000) by (destruct Hsg; subst; ring).
        rewrite sqrt_square by lra. intros. unfold R3; vsimpl. destruct Hsg; subst sg; lra. }
      rewrite Z, X in *. replace (0 * 0 + 5000 * 5000) with (5000 * 5000) in * by ring. rewrite sqrt_square in * by lra. lra. }
    rewrite EPv. unfold rp_unit_of; cbn [vz]. destruct Hc as [-> ->]. rewrite cos_0. pose proof (hy_sb _ _ _ _ _ _ _ _ K). lra. }
  assert (Hinc : inclined A).
  { apply (inclined_W _ _ _ _ _ _ _ _ K). intros [X Y]. pose proof (hy_WP _ _ _ _ _ _ _ _ K) as WP. pose proof (hy_W1 _ _ _ _ _ _ _ _ K) as W1.
    clear K. destruct W as [x y z], P as [px py pz]. unfold norm2, dot in *; cbn [vx vy vz] in *. subst.
    assert (z * pz = 0) by lra. destruct (Rmult_integral _ _ H); [subst; lra|contradiction]. }
  destruct (C25_entry_interface "NEPTUNE" NEPTUNE _ _ _ _ A _ HAp Neptune_ok Hnz Hrp Hrp) as (_ & Hok).
  destruct (Hok ltac:(unfold rp; lra)) as (th & vm & g & e' & T1 & T2 & _ & _ & _ & _ & _ & _ & _ & T3).
  destruct (T3 Hinc) as (r & w & R1' & R2' & R3' & Rest).
  exists A, (Approach_entry A 1000e3), r, w.
  assert (Hth0 : cos th = 1).
  { assert (Q : theta_entry (Approach_entry A 1000e3) = leto a := np_arccos ((h * h / (GM NEPTUNE * rp) - 1) * (1 / e)) in Some (-1 * a)).
    { unfold Approach_entry; cbn [theta_entry]. change (ap_planet A) with NEPTUNE. fold rp. rewrite (hy_h _ _ _ _ _ _ _ _ K), (hy_e _ _ _ _ _ _ _ _ K). cbn [obind].
      rewrite np_div_some by (cbn [GM NEPTUNE]; nra). cbn [obind]. rewrite np_div_some by lra. reflexivity. }
    rewrite T1 in Q. replace ((h * h / (GM NEPTUNE * rp) - 1) * (1 / e)) with 1 in Q.
    - rewrite np_arccos_some in Q by lra. cbn [obind] in Q. injection Q as ->. rewrite acos_1. replace (-1 * 0) with 0 by ring. apply cos_0.
    - rewrite (hy_h2 _ _ _ _ _ _ _ _ K). change (ap_planet A) with NEPTUNE. change (ap_rp A) with rp. cbn [GM NEPTUNE]. field. split; lra. }
  assert (Hel : exists i Om om, elements A P W i Om om) by (eapply hyper_elements; eauto; apply (inclined_W _ _ _ _ _ _ _ _ K); auto).
  destruct Hel as (i & Om & om & E).
  assert (Hr : r = conic_pos (GM NEPTUNE) h e P W th).
  { pose proof (pos_eq _ _ _ _ _ _ _ _ _ _ _ th K E) as Q. change (ap_planet A) with NEPTUNE in Q. rewrite Q in R2'; [injection R2'; auto|cbn [GM NEPTUNE]; lra|rewrite Hth0; lra]. }
  assert (Hrx : 0 < sg * vx r).
  { rewrite Hr. unfold conic_pos, perifocal. rewrite Hth0. replace (sin th) with 0 by (pose proof (sin2cos2 th) as Q; rewrite Hth0 in Q; nra).
    unfold conic_radius. rewrite Hth0. pose proof (hy_hpos _ _ _ _ _ _ _ _ K). assert (Hq : 0 < h * h / GM NEPTUNE / (1 + e * 1)) by (cbn [GM NEPTUNE]; pos).
    set (q := h * h / GM NEPTUNE / (1 + e * 1)) in *. clearbody q.
    replace (sg * vx (vscale q (vadd (vscale 1 P) (vscale 0 (cross W P))))) with (q * (sg * vx P)) by (destruct P, W; vsimpl; ring).
    rewrite HPx. pos. }
  assert (Hxn : vx r <> 0) by (intros Z; rewrite Z in Hrx; lra).
  destruct (entry_geo A 1000e3 r w R1' R3' Hxn) as (lat & lon & _ & _ & _ & _ & _ & _ & _ & G8 & _).
  eexists. repeat split; eauto.
Qed.
Example C26_witness : (exists A s r w u,
    Approach "NEPTUNE" (icrf_of NEPTUNE (V3 (5 * 1) 0 0)) (RP NEPTUNE + 1000e3) 0 true (Some 1000e3) = Ok (A, Entry s) /\
    r_entry s = Some r /\ v_entry s = Some w /\ 0 < 1 * vx r /\ v_entry_atm s = Some u) /\
  (exists A s r w u,
    Approach "NEPTUNE" (icrf_of NEPTUNE (V3 (5 * -1) 0 0)) (RP NEPTUNE + 1000e3) 0 true (Some 1000e3) = Ok (A, Entry s) /\
    r_entry s = Some r /\ v_entry s = Some w /\ 0 < -1 * vx r /\ v_entry_atm s = Some u).
Proof. split; apply grazing; auto. Qed.
(** Every velocity has such angles, so C66_heading_formula applies to every entry off the x = 0 plane. *)
Lemma basis_decomp : forall r E u, norm2 r = 1 -> norm2 E = 1 -> dot E r = 0 ->
  u = vadd (vscale (dot u r) r) (vadd (vscale (dot u E) E) (vscale (dot u (cross r E)) (cross r E))).
Proof.
  intros [a b c] [d e f] [x y z] H1 H2 H3. unfold norm2, dot in *; cbn [vx vy vz] in *. apply vec_eq; vsimpl; nsatz.
Qed.
Lemma every_velocity_has_angles : forall r u, vx r <> 0 -> u <> vzero ->
  exists g chi, has_fpa_heading r u g chi /\ - (PI / 2) <= g <= PI / 2.
Proof.
  intros r u Hx Hu. set (rh := vscale (1 / norm r) r). set (E := east_of r). set (N := north_of r).
  assert (Hrz : r <> vzero) by (intros Z; rewrite Z in Hx; apply Hx; reflexivity).
  assert (Hrh : norm2 rh = 1) by (apply unit_norm2; auto).
  destruct (east_frame r Hx) as (F1 & F2 & F3 & F4). fold E N in F1, F2, F3, F4.
  assert (F2' : dot E rh = 0) by (unfold rh; rewrite dot_vscale_r, F2; ring).
  assert (HN : N = cross rh E) by reflexivity.
  pose proof (norm_pos u Hu) as Hnu. set (uh := vscale (1 / norm u) u).
  assert (Huh : norm2 uh = 1) by (apply unit_norm2; auto).
  pose proof (basis_decomp rh E uh Hrh F1 F2') as D. rewrite <- HN in D.
  set (s := dot uh rh) in *. set (x := dot uh E) in *. set (y := dot uh N) in *.
  assert (Hsum : s * s + (x * x + y * y) = 1).
  { rewrite <- Huh. unfold norm2. rewrite D at 2. unfold s, x, y. clear. destruct uh, rh, E, N; vsimpl; ring. }
  assert (Hs : -1 <= s <= 1) by nra.
  destruct (asin_facts s Hs) as (A1 & A2 & A3).
  destruct (atan2_spec y x) as (B1 & B2).
  assert (Hc : cos (asin s) = sqrt (x * x + y * y)).
  { apply sq_eq_nonneg; [auto|apply sqrt_pos|]. rewrite A3, sqrt_sqrt by nra. lra. }
  exists (asin s), (atan2 y x). split; [|apply asin_bound].
  unfold has_fpa_heading. fold rh E N. rewrite A1, Hc.
  transitivity (vscale (norm u) uh).
  - unfold uh. destruct u; apply vec_eq; vsimpl; field; lra.
  - f_equal. rewrite D at 1. f_equal. revert B1 B2. generalize (sqrt (x * x + y * y)) (cos (atan2 y x)) (sin (atan2 y x)).
    intros k c q B1 B2. clearbody x y E N. subst x y. destruct E, N; apply vec_eq; vsimpl; ring.
Qed.
