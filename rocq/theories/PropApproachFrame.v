(** Property C101: the approach seen along v_inf, in the frame whose z axis is the direction of v_inf. *)
From Coq Require Import Nsatz.
Require Import Verif.Base Verif.PlanetModel Verif.PlanetProofs Verif.FrameModel Verif.FrameProofs
  Verif.ApproachModel Verif.ApproachFrameModel Verif.ConicSpec Verif.ConicProofs Verif.ApproachProofs Verif.PropApproach.
From Coq Require Import String List.
Local Open Scope R_scope.

(** The point at distance [r] from the centre, at the angle [al] from the z axis and at the clock angle [psi]. *)
Definition polar (r al psi : R) : vec := vscale r (V3 (sin al * cos psi) (sin al * sin psi) (cos al)).

Lemma dprime_lin : forall M a b u w, mvmul M (vadd (vscale a u) (vscale b w)) = vadd (vscale a (mvmul M u)) (vscale b (mvmul M w)).
Proof. intros [[? ? ?] [? ? ?] [? ? ?]] a b [? ? ?] [? ? ?]. apply vec_eq; vsimpl; ring. Qed.
Lemma dprime_scale : forall M a u, mvmul M (vscale a u) = vscale a (mvmul M u).
Proof. intros [[? ? ?] [? ? ?] [? ? ?]] a [? ? ?]. apply vec_eq; vsimpl; ring. Qed.

(** Where the vehicle is at each true anomaly: in the plane through v_inf at the clock angle psi, at the angle
    beta - theta from v_inf. *)
Theorem C101_path_at_clock_angle : forall name v rp psi en hEI A t,
  Approach name v rp psi en hEI = Ok (A, t) -> v <> vzero -> 0 < rp -> inclined A ->
  exists b e, ap_beta A = Some b /\ ap_e A = Some e /\ 0 < b < PI / 2 /\ cos b = 1 / e /\
    forall th, 0 < 1 + e * cos th ->
      pos_vec_bi_dprime A th = Some (polar (rp * (1 + e) / (1 + e * cos th)) (b - th) psi).
Proof.
  intros name v rp psi en hEI A t H Hv Hrp Hinc. destruct (Approach_inv _ _ _ _ _ _ _ _ H) as (p & Hp & HA & _).
  destruct (Planet_facts _ _ Hp) as (_ & HGM & _).
  destruct (core_hyper name p v rp psi Hp Hv Hrp) as (V & a & e & b & h & P & W & K). rewrite <- HA in K.
  assert (EP : ap_planet A = p) by (subst A; auto). assert (Er : ap_rp A = rp) by (subst A; auto). assert (Es : ap_psi A = psi) by (subst A; auto).
  assert (Hne : ~ equatorial W) by (apply (proj1 (inclined_W _ _ _ _ _ _ _ _ K)); auto).
  pose proof K as K0. rewrite HA in K0. destruct (hyper_elements _ _ _ _ _ _ _ _ _ _ _ K0 Hrp Hne) as (i & Om & om & El). rewrite <- HA in El. clear K0.
  exists b, e. split; [apply (hy_b _ _ _ _ _ _ _ _ K)|]. split; [apply (hy_e _ _ _ _ _ _ _ _ K)|].
  pose proof (hy_e1 _ _ _ _ _ _ _ _ K) as He1. pose proof (hy_sb _ _ _ _ _ _ _ _ K) as Hsb. pose proof (hy_cb _ _ _ _ _ _ _ _ K) as Hcb.
  split.
  { rewrite (hy_bv _ _ _ _ _ _ _ _ K) in *. destruct (acos_bound (1 / e)) as [B1 B2].
    assert (0 < 1 / e) by (apply Rdiv_lt_0_compat; lra). split.
    - destruct B1 as [B1|B1]; auto. rewrite <- B1, sin_0 in Hsb. lra.
    - destruct (Rlt_le_dec (acos (1 / e)) (PI / 2)) as [B|B]; auto. exfalso. assert (cos (acos (1 / e)) <= 0) by (apply cos_le_0; pose proof PI_RGT_0; lra). lra. }
  split; [exact Hcb|]. intros th Hth.
  unfold pos_vec_bi_dprime. rewrite (pos_eq _ _ _ _ _ _ _ _ _ _ _ _ K El) by (rewrite ?EP; lra). cbn [obind]. f_equal.
  rewrite <- mvmul_mmul. fold (BI_to_BI_dprime_matrix (phi_1 A) (phi_2 A)).
  destruct (dprime_rot (phi_1 A) (phi_2 A)) as (Rd & Rc & Rt & _). set (M := BI_to_BI_dprime_matrix (phi_1 A) (phi_2 A)) in *.
  assert (MV : mvmul M (v_inf_bi A) = V3 0 0 V) by apply (hy_vd _ _ _ _ _ _ _ _ K).
  assert (MP : mvmul M P = V3 (sin b * cos psi) (sin b * sin psi) (cos b)) by (rewrite <- Es; apply (hy_Pd _ _ _ _ _ _ _ _ K)).
  pose proof (hy_Vpos _ _ _ _ _ _ _ _ K) as HV.
  assert (MW : mvmul M W = V3 (sin psi) (- cos psi) 0).
  { pose proof (hy_hW _ _ _ _ _ _ _ _ K) as E. rewrite Er in E. apply (f_equal (mvmul M)) in E. rewrite <- Rc, !dprime_scale, MP, MV in E.
    assert (Hk : 0 < rp * V * sin b) by (apply Rmult_lt_0_compat; [apply Rmult_lt_0_compat|]; auto).
    destruct (mvmul M W) as [x y z]. pose proof (f_equal vx E) as E1. pose proof (f_equal vy E) as E2. pose proof (f_equal vz E) as E3. clear E.
    cbv [cross vscale vx vy vz] in E1, E2, E3.
    apply vec_eq; cbn [vx vy vz]; apply Rmult_eq_reg_l with (rp * V * sin b); lra. }
  unfold conic_pos, perifocal, polar. rewrite dprime_scale, dprime_lin, <- Rc, MP, MW.
  replace (conic_radius (GM (ap_planet A)) h e th) with (rp * (1 + e) / (1 + e * cos th)).
  - f_equal. rewrite sin_minus, cos_minus. generalize (sin2cos2 psi). generalize (sin psi) (cos psi) (sin b) (cos b) (sin th) (cos th).
    intros s c sb cb st ct Hsc. apply vec_eq; vsimpl; nsatz.
  - unfold conic_radius. rewrite EP, (hy_h2 _ _ _ _ _ _ _ _ K), EP, Er. field. lra.
Qed.

(** Near the incoming asymptote: how far the path is from its aim point and how far away the vehicle still is. *)
Lemma near_asymptote : forall L k x, 0 < L -> 0 < k -> 0 < x < PI / 3 ->
  let D := 1 - cos x + k * sin x in
  0 < D /\ 0 <= L / k - L / D * sin x <= L * x / (k * k) /\ L / D * - cos x <= - (L / (2 * (1 + k) * x)).
Proof.
  intros L k x HL Hk Hx D. pose proof PI_RGT_0 as HPI.
  assert (Hs : 0 < sin x) by (apply sin_gt_0; lra). assert (Hsx : sin x < x) by (apply sin_lt_x; lra).
  assert (Hc : 1 / 2 < cos x) by (rewrite <- cos_PI3; apply cos_decreasing_1; lra).
  pose proof (sin2cos2 x) as Hsc. assert (Hc1 : cos x <= 1) by apply COS_bound.
  assert (HD : k * sin x <= D) by (unfold D; lra). assert (Hks : 0 < k * sin x) by (apply Rmult_lt_0_compat; auto).
  assert (H1c : 0 <= 1 - cos x <= sin x * sin x) by nra.
  assert (HD2 : D <= (1 + k) * x).
  { assert (sin x <= 1) by apply SIN_bound. assert (sin x * sin x <= sin x) by nra. unfold D. nra. }
  split; [lra|]. split.
  - replace (L / k - L / D * sin x) with (L * (1 - cos x) / (k * D)) by (unfold D; field; unfold D in *; lra). split.
    + unfold Rdiv. apply Rmult_le_pos; [nra|]. apply Rlt_le, Rinv_0_lt_compat. nra.
    + apply Rle_trans with (L * (sin x * sin x) / (k * (k * sin x))).
      * unfold Rdiv. apply Rmult_le_compat; [nra| |nra|apply Rinv_le_contravar; nra]. apply Rlt_le, Rinv_0_lt_compat. nra.
      * replace (L * (sin x * sin x) / (k * (k * sin x))) with (L * sin x / (k * k)) by (field; lra).
        unfold Rdiv. apply Rmult_le_compat_r; [apply Rlt_le, Rinv_0_lt_compat; nra|nra].
  - assert (Hi : / ((1 + k) * x) <= / D) by (apply Rinv_le_contravar; lra).
    replace (L / (2 * (1 + k) * x)) with (L * (1 / 2) * / ((1 + k) * x)) by (field; lra).
    assert (0 < / ((1 + k) * x)) by (apply Rinv_0_lt_compat; nra). assert (L * (1 / 2) <= L * cos x) by nra. unfold Rdiv.
    assert (L * (1 / 2) * / ((1 + k) * x) <= L * cos x * / D) by (apply Rmult_le_compat; lra). lra.
Qed.

(** The aim point.  Far out on the incoming branch the vehicle comes from behind the planet plane (z to minus infinity)
    and its offset from the line through the centre along v_inf tends to b_mag, at the clock angle psi. *)
Theorem C101_aim_point : forall name v rp psi en hEI A t,
  Approach name v rp psi en hEI = Ok (A, t) -> v <> vzero -> 0 < rp -> inclined A ->
  exists b bm, ap_beta A = Some b /\ b_mag A = Some bm /\ 0 < bm /\
    forall eps, 0 < eps -> exists d, 0 < d /\ forall th, b - PI < th < b - PI + d ->
      exists x y z, pos_vec_bi_dprime A th = Some (V3 x y z) /\
        Rabs (x - bm * cos psi) < eps /\ Rabs (y - bm * sin psi) < eps /\ z < - / eps.
Proof.
  intros name v rp psi en hEI A t H Hv Hrp Hinc. pose proof H as H0.
  destruct (C101_path_at_clock_angle _ _ _ _ _ _ _ _ H Hv Hrp Hinc) as (b & e & Hb & He & Bb & Cb & Path).
  destruct (Approach_inv _ _ _ _ _ _ _ _ H0) as (p & Hp & HA & _).
  destruct (Planet_facts _ _ Hp) as (_ & HGM & _).
  destruct (core_hyper name p v rp psi Hp Hv Hrp) as (V & a & e' & b' & h & P & W & K). rewrite <- HA in K.
  rewrite (hy_b _ _ _ _ _ _ _ _ K) in Hb. injection Hb as ->. pose proof (hy_e _ _ _ _ _ _ _ _ K) as He'. rewrite He' in He. injection He as ->.
  assert (EP : ap_planet A = p) by (subst A; auto). assert (Er : ap_rp A = rp) by (subst A; auto).
  pose proof (hy_e1 _ _ _ _ _ _ _ _ K) as He1. pose proof (hy_sb _ _ _ _ _ _ _ _ K) as Hsb. pose proof (hy_Vpos _ _ _ _ _ _ _ _ K) as HV.
  pose proof (hy_a _ _ _ _ _ _ _ _ K) as Ha. pose proof (hy_av _ _ _ _ _ _ _ _ K) as Hav. pose proof (hy_ev _ _ _ _ _ _ _ _ K) as Hev. rewrite EP in Hav, Hev. rewrite Er in Hev.
  assert (HVV : 0 < V * V) by nra. assert (Ha0 : a < 0) by (rewrite Hav; assert (0 < GM p / (V * V)) by (apply Rdiv_lt_0_compat; lra); unfold Rdiv in *; lra).
  assert (Harp : Rabs a * (e - 1) = rp) by (rewrite Rabs_left by auto; rewrite Hav, Hev; field; split; lra).
  set (k := e * sin b). assert (Hk : 0 < k) by (apply Rmult_lt_0_compat; lra).
  assert (Hkk : k = sqrt (e * e - 1)).
  { symmetry. apply sqrt_lem_1; [nra|lra|]. unfold k. pose proof (sin2cos2 b) as Q. rewrite Cb in Q.
    replace (e * sin b * (e * sin b)) with (e * e * (sin b * sin b + 1 / e * (1 / e)) - 1) by (field; lra). rewrite Q. ring. }
  set (L := rp * (1 + e)). assert (HL : 0 < L) by (apply Rmult_lt_0_compat; lra).
  assert (Hbm : b_mag A = Some (L / k)).
  { rewrite HA. change (b_mag (Approach_core p v rp psi)) with (leto x := ap_a (Approach_core p v rp psi) in leto y := ap_e (Approach_core p v rp psi) in leto s := np_sqrt (y * y - 1) in Some (Rabs x * s)).
    rewrite <- HA, Ha, He'. cbn [obind]. rewrite np_sqrt_some by nra. cbn [obind]. f_equal. rewrite <- Hkk. unfold L. rewrite <- Harp.
    assert (Hk2 : k * k = e * e - 1) by (rewrite Hkk; apply sqrt_sqrt; nra).
    replace (Rabs a * (e - 1) * (1 + e)) with (Rabs a * (k * k)) by (rewrite Hk2; ring). field. lra. }
  exists b, (L / k). split; [apply (hy_b _ _ _ _ _ _ _ _ K)|]. split; [exact Hbm|]. split; [apply Rdiv_lt_0_compat; lra|].
  intros eps Heps. pose proof PI_RGT_0 as HPI.
  set (d1 := eps * (k * k) / L). set (d2 := L * eps / (2 * (1 + k))).
  assert (Hd1 : 0 < d1) by (apply Rdiv_lt_0_compat; [apply Rmult_lt_0_compat; [lra|apply Rmult_lt_0_compat; lra]|lra]). assert (Hd2 : 0 < d2) by (apply Rdiv_lt_0_compat; [apply Rmult_lt_0_compat; lra|lra]).
  exists (Rmin (PI / 3) (Rmin d1 d2)). split; [apply Rmin_glb_lt; [lra|apply Rmin_glb_lt; lra]|].
  intros th Hth. set (x := th - (b - PI)). assert (Hx : 0 < x < PI / 3 /\ x < d1 /\ x < d2).
  { pose proof (Rmin_l (PI / 3) (Rmin d1 d2)). pose proof (Rmin_r (PI / 3) (Rmin d1 d2)). pose proof (Rmin_l d1 d2). pose proof (Rmin_r d1 d2). unfold x. lra. }
  destruct Hx as (Hx & Hx1 & Hx2). destruct (near_asymptote L k x HL Hk Hx) as (HD & Hoff & Hz). set (D := 1 - cos x + k * sin x) in *.
  assert (ED : 1 + e * cos th = D).
  { unfold D, k. replace th with (b + x - PI) by (unfold x; ring). rewrite cos_minus, cos_PI, sin_PI, cos_plus, Cb. field. lra. }
  assert (Esi : sin (b - th) = sin x) by (replace (b - th) with (PI - x) by (unfold x; ring); apply sin_PI_x).
  assert (Eco : cos (b - th) = - cos x) by (replace (b - th) with (PI - x) by (unfold x; ring); rewrite cos_minus, cos_PI, sin_PI; ring).
  rewrite (Path th) by lra. unfold polar. rewrite ED, Esi, Eco. fold L.
  do 3 eexists. split; [reflexivity|].
  assert (Hlt : L * x / (k * k) < eps).
  { apply Rmult_lt_reg_r with (k * k); [nra|]. replace (L * x / (k * k) * (k * k)) with (L * x) by (field; lra). unfold d1 in Hx1.
    apply Rmult_lt_reg_r with (/ L); [apply Rinv_0_lt_compat; lra|]. replace (L * x * / L) with x by (field; lra). exact Hx1. }
  assert (Habs : forall c, -1 <= c <= 1 -> Rabs (L / D * (sin x * c) - L / k * c) < eps).
  { intros c Hc. replace (L / D * (sin x * c) - L / k * c) with (- ((L / k - L / D * sin x) * c)) by ring. rewrite Rabs_Ropp, Rabs_mult.
    assert (Rabs c <= 1) by (apply Rabs_le; lra). rewrite (Rabs_pos_eq (L / k - L / D * sin x)) by lra. pose proof (Rabs_pos c). nra. }
  split; [apply Habs, COS_bound|]. split; [apply Habs, SIN_bound|].
  eapply Rle_lt_trans; [exact Hz|]. apply Ropp_lt_contravar.
  apply Rmult_lt_reg_r with (eps * x); [nra|]. replace (/ eps * (eps * x)) with x by (field; lra).
  replace (L / (2 * (1 + k) * x) * (eps * x)) with d2 by (unfold d2; field; lra). exact Hx2.
Qed.

(** The B-plane axes in this frame: R is its x axis and T its negative y axis. *)
Theorem C101_axes : forall name v rp psi en hEI A t,
  Approach name v rp psi en hEI = Ok (A, t) -> v <> vzero -> 0 < rp -> vx (v_inf_bi A) <> 0 \/ vy (v_inf_bi A) <> 0 ->
  T_unit_dprime A = Some (V3 0 (-1) 0) /\ R_unit_dprime A = Some (V3 1 0 0).
Proof.
  intros name v rp psi en hEI A t H Hv Hrp Hoff. pose proof H as H1. destruct (Approach_inv _ _ _ _ _ _ _ _ H1) as (p & Hp & HA & _).
  destruct (C27_b_plane _ _ _ _ _ _ _ _ H Hv Hrp Hoff) as (S & T & Rv & B & bm & h & ES & ET & ER & _ & _ & _ & NS & NT & _ & DST & _ & _ & CR & _).
  unfold T_unit_dprime, R_unit_dprime. rewrite ET, ER. cbn [obind].
  destruct (dprime_rot (phi_1 A) (phi_2 A)) as (Rd & Rc & Rt & _).
  assert (EvT : T = vscale (1 / norm (cross (v_inf_bi A) zaxis)) (cross (v_inf_bi A) zaxis)).
  { assert (E : T_unit A = unit_of (cross (v_inf_bi A) zaxis)) by (rewrite HA; reflexivity). rewrite ET in E. symmetry in E. apply unit_of_inv in E. tauto. }
  assert (Ep1 : phi_1 A = atan2 (vy (v_inf_bi A)) (vx (v_inf_bi A))) by (rewrite HA; reflexivity).
  set (vb := v_inf_bi A) in *. set (d := sqrt (vx vb * vx vb + vy vb * vy vb)).
  assert (Hd : 0 < d) by (apply sqrt_lt_R0; destruct Hoff; nra).
  assert (Hdd : d * d = vx vb * vx vb + vy vb * vy vb) by (apply sqrt_sqrt; nra).
  assert (Nd : norm (cross vb zaxis) = d) by (apply norm_eq; [lra|]; rewrite Hdd; unfold zaxis; destruct vb; vsimpl; ring).
  assert (MT : BI_to_BI_dprime (phi_1 A) (phi_2 A) T = V3 0 (-1) 0).
  { rewrite EvT, Nd. unfold BI_to_BI_dprime. rewrite dprime_scale. unfold BI_to_BI_dprime_matrix. rewrite mvmul_mmul, Ep1.
    destruct (atan2_spec (vy vb) (vx vb)) as (A1 & A2). fold d in A1, A2. set (q := atan2 (vy vb) (vx vb)) in *. clearbody q.
    replace (mvmul (R3 q) (cross vb zaxis)) with (V3 0 (- d) 0).
    - unfold R2. apply vec_eq; vsimpl; field; lra.
    - unfold zaxis, R3. destruct vb as [x y z]; cbn [vx vy] in A1, A2. generalize (sin2cos2 q). revert A1 A2. generalize (sin q) (cos q). intros s c A1 A2 Hsc.
      apply vec_eq; vsimpl; rewrite <- A1, <- A2; [ring| |ring]. transitivity (- d * (s * s + c * c)); [rewrite Hsc; ring|ring]. }
  split; [f_equal; exact MT|]. f_equal. rewrite <- CR. unfold BI_to_BI_dprime in *. rewrite <- Rc, MT.
  destruct (core_hyper name p v rp psi Hp Hv Hrp) as (V & a & e' & b' & h' & P & W & K). rewrite <- HA in K.
  assert (MS : mvmul (BI_to_BI_dprime_matrix (phi_1 A) (phi_2 A)) S = V3 0 0 1).
  { assert (E : v_inf_unit A = unit_of (ICRF_to_BI (a0 p) (d0 p) v)) by (rewrite HA; reflexivity). rewrite ES in E. symmetry in E. apply unit_of_inv in E. destruct E as (Hn & E & _).
    assert (Evb : vb = vscale 1e3 (ICRF_to_BI (a0 p) (d0 p) v)) by (unfold vb; rewrite HA; reflexivity).
    set (u := ICRF_to_BI (a0 p) (d0 p) v) in *. pose proof (norm_pos u Hn) as Hu.
    assert (MV : mvmul (BI_to_BI_dprime_matrix (phi_1 A) (phi_2 A)) vb = V3 0 0 (norm vb)) by (unfold vb; rewrite (hy_n _ _ _ _ _ _ _ _ K); apply (hy_vd _ _ _ _ _ _ _ _ K)).
    rewrite E, dprime_scale. rewrite Evb, dprime_scale, norm_vscale in MV by lra. destruct (mvmul _ u) as [x y z].
    pose proof (f_equal vx MV) as E1. pose proof (f_equal vy MV) as E2. pose proof (f_equal vz MV) as E3. cbv [vscale vx vy vz] in E1, E2, E3.
    assert (x = 0) by lra. assert (y = 0) by lra. assert (z = norm u) by lra. subst x y z. apply vec_eq; vsimpl; field; lra. }
  rewrite MS. apply vec_eq; vsimpl; ring.
Qed.

(** beta is documented as the true anomaly of the outgoing asymptote.  That anomaly (where the radius becomes infinite) is
    PI - beta; at true anomaly beta the orbit is at the finite distance rp*(1+e)/2, straight down the direction of v_inf. *)
Theorem C101_beta_refuted : forall name v rp psi en hEI A t,
  Approach name v rp psi en hEI = Ok (A, t) -> v <> vzero -> 0 < rp -> inclined A ->
  exists b e, ap_beta A = Some b /\ ap_e A = Some e /\ b < PI - b /\
    (forall th, 0 <= th <= PI -> (1 + e * cos th = 0 <-> th = PI - b)) /\
    (forall th, 0 <= th <= PI -> (0 < 1 + e * cos th <-> th < PI - b)) /\
    pos_vec_bi_dprime A b = Some (V3 0 0 (rp * (1 + e) / 2)).
Proof.
  intros name v rp psi en hEI A t H Hv Hrp Hinc.
  destruct (C101_path_at_clock_angle _ _ _ _ _ _ _ _ H Hv Hrp Hinc) as (b & e & Hb & He & Bb & Cb & Path).
  destruct (C21_hyperbola_well_formed _ _ _ _ _ _ _ _ H Hv Hrp) as (p & a & e' & b' & h & _ & _ & He' & _ & _ & _ & He1 & _).
  rewrite He in He'. injection He' as <-. pose proof PI_RGT_0 as HPI.
  exists b, e. split; [exact Hb|]. split; [exact He|]. split; [lra|].
  assert (Z : 1 + e * cos (PI - b) = 0).
  { rewrite cos_minus, cos_PI, sin_PI, Cb. field. lra. }
  assert (L : forall th, 0 <= th <= PI -> th < PI - b -> 0 < 1 + e * cos th).
  { intros th Hth Hl. assert (cos (PI - b) < cos th) by (apply cos_decreasing_1; lra). nra. }
  assert (G : forall th, 0 <= th <= PI -> PI - b < th -> 1 + e * cos th < 0).
  { intros th Hth Hl. assert (cos th < cos (PI - b)) by (apply cos_decreasing_1; lra). nra. }
  split; [|split].
  - intros th Hth. split; [|intros ->; exact Z]. intros E. destruct (Rtotal_order th (PI - b)) as [C|[C|C]]; auto.
    + specialize (L th Hth C). lra.
    + specialize (G th Hth C). lra.
  - intros th Hth. split; [|apply L; auto]. intros E. destruct (Rtotal_order th (PI - b)) as [C|[C|C]]; auto.
    + subst th. lra.
    + specialize (G th Hth C). lra.
  - rewrite Path by (rewrite Cb; replace (e * (1 / e)) with 1 by (field; lra); lra).
    rewrite Cb. unfold polar. replace (b - b) with 0 by ring. rewrite sin_0, cos_0. f_equal.
    replace (1 + e * (1 / e)) with 2 by (field; lra). apply vec_eq; vsimpl; ring.
Qed.

(** B_vec_bi is documented as the B vector in metres.  Its direction is B's (C27), its length is not b_mag: it is
    v_inf^2 * b_mag * (e - 1) / e. *)
Theorem C27_B_vector_magnitude_refuted : forall name v rp psi en hEI A t,
  Approach name v rp psi en hEI = Ok (A, t) -> v <> vzero -> 0 < rp ->
  vx (v_inf_bi A) <> 0 \/ vy (v_inf_bi A) <> 0 ->
  exists Bv bm e, B_vec A = Some Bv /\ b_mag A = Some bm /\ ap_e A = Some e /\ 0 < bm /\ 1 < e /\
    B_unit A = unit_of Bv /\
    norm Bv = norm (v_inf_bi A) * norm (v_inf_bi A) * bm * (e - 1) / e /\
    (norm Bv = bm <-> norm (v_inf_bi A) * norm (v_inf_bi A) * (e - 1) = e).
Proof.
  intros name v rp psi en hEI A t H Hv Hrp Hoff.
  destruct (C27_b_plane _ _ _ _ _ _ _ _ H Hv Hrp Hoff) as (S & T & Rv & B & bm & h & _ & _ & _ & EB & Ebm & Eh & _ & _ & _ & _ & _ & _ & _ & _ & _ & _ & _ & _ & Hbm & Hh).
  destruct (C24_h_vector_magnitude_refuted _ _ _ _ _ _ _ _ H Hv Hrp) as (hv & h' & e & Ehv & Eh' & Ee & Nh & _).
  rewrite Eh in Eh'. injection Eh' as <-.
  destruct (C21_hyperbola_well_formed _ _ _ _ _ _ _ _ H Hv Hrp) as (p & a & e' & b' & h0 & _ & _ & He' & _ & _ & _ & He1 & _).
  rewrite Ee in He'. injection He' as <-.
  destruct (Approach_inv _ _ _ _ _ _ _ _ H) as (p0 & Hp & HA & _).
  exists (cross (v_inf_bi A) hv), bm, e. unfold B_vec. rewrite Ehv. cbn [obind].
  do 5 (split; [auto|]).
  split.
  { rewrite HA. change (B_unit (Approach_core p0 v rp psi)) with (leto u := h_vec (Approach_core p0 v rp psi) in unit_of (cross (v_inf_bi (Approach_core p0 v rp psi)) u)). rewrite <- HA, Ehv. reflexivity. }
  assert (Hperp : dot (v_inf_bi A) hv = 0).
  { assert (E : h_vec A = leto r := rp_vec A in Some (cross r (v_inf_bi A))) by (rewrite HA; reflexivity).
    rewrite Ehv in E. destruct (rp_vec A) as [r|]; cbn [obind] in E; [|discriminate]. injection E as ->. generalize (v_inf_bi A). intros u. destruct r, u; vsimpl; ring. }
  assert (Nn : norm (cross (v_inf_bi A) hv) = norm (v_inf_bi A) * norm hv).
  { apply norm_eq; [apply Rmult_le_pos; apply sqrt_pos|]. rewrite cross_norm2, Hperp, <- !norm_sq. ring. }
  set (V := norm (v_inf_bi A)) in *.
  assert (E : norm (cross (v_inf_bi A) hv) = V * V * bm * (e - 1) / e) by (rewrite Nn, Nh, Hh; field; lra).
  split; [exact E|]. rewrite E. split; intros Q.
  - apply Rmult_eq_reg_l with (bm / e); [|apply Rgt_not_eq, Rdiv_lt_0_compat; lra].
    replace (bm / e * (V * V * (e - 1))) with (V * V * bm * (e - 1) / e) by (field; lra). rewrite Q. field. lra.
  - replace (V * V * bm * (e - 1) / e) with (bm * (V * V * (e - 1)) / e) by (field; lra). rewrite Q. field. lra.
Qed.

Example C101_witness : exists A t, Approach "NEPTUNE" (icrf_of NEPTUNE (V3 3 0 4)) 24764e3 1 true (Some 1000e3) = Ok (A, t) /\ icrf_of NEPTUNE (V3 3 0 4) <> vzero /\ inclined A /\
  (vx (v_inf_bi A) <> 0 \/ vy (v_inf_bi A) <> 0) /\ forall e, 0 < e -> 0 < 1 + e * cos 0.
Proof.
  destruct C23_witness as (A & s & E & V & I & N & _). exists A, (Entry s). split; [exact E|]. split; [exact V|]. split; [exact I|]. split; [exact N|].
  intros e He. rewrite cos_0. lra.
Qed.
