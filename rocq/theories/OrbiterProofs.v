(** Proofs about the orbiter model. *)
From Coq Require Import Nsatz.
Require Import Verif.Base Verif.Numpy Verif.NumpyProofs Verif.PlanetModel Verif.FrameModel Verif.FrameProofs Verif.ConicSpec Verif.ConicProofs
  Verif.HyperbolaProofs Verif.StateProofs Verif.ApproachModel Verif.ApproachProofs Verif.OrbitScalarModel Verif.OrbiterModel.
Local Open Scope R_scope.

(** An orbit whose elements are all defined and whose angles describe the frame P, W. *)
Record placed (o : orb) (a e h : R) (P W : vec) (i Om om : R) : Prop := mkPlaced {
  pl_a : o_a o = Some a; pl_e : o_e o = Some e; pl_h : o_h o = Some h;
  pl_i : o_i o = Some i; pl_O : o_OMEGA o = Some Om; pl_o : o_omega o = Some om;
  pl_P : norm2 P = 1; pl_W : norm2 W = 1; pl_WP : dot W P = 0;
  pl_dir : forall th, orbit_dir Om i om th = perifocal P W th; pl_nrm : orbit_normal Om i = W }.

Lemma exit_r_vec_spec : forall x, exit_r_vec x = sph_pos (x_r x) (x_theta x) (x_phi x).
Proof. reflexivity. Qed.
Lemma exit_v_ie_spec : forall p x, exit_v_ie p x =
  inertial_vel (OMEGA p) (x_r x) (x_v x) (x_g x) (x_psi x) (x_theta x) (x_phi x).
Proof.
  intros. unfold exit_v_ie, exit_v_vec, inertial_vel, rel_vel, sph_pos, up_dir, east_dir, north_dir. apply vec_eq; vsimpl; ring.
Qed.
Lemma up_unit : forall th ph, norm2 (up_dir th ph) = 1.
Proof.
  intros. unfold up_dir. generalize (sin2cos2 th) (sin2cos2 ph). generalize (sin th) (cos th) (sin ph) (cos ph).
  intros. vsimpl. nsatz.
Qed.
Lemma sph_norm : forall r th ph, 0 <= r -> norm (sph_pos r th ph) = r.
Proof. intros. apply norm_eq; auto. unfold sph_pos. rewrite norm2_vscale, up_unit. ring. Qed.

(** The flight-path angle formula gives the horizontal speed component. *)
Lemma fpa_horizontal : forall rv vv, rv <> vzero -> vv <> vzero -> exists g, fpa_ie rv vv = Some g /\
  norm rv * norm vv * cos g = norm (cross rv vv) /\ norm rv * norm vv * sin g = dot rv vv /\ - (PI / 2) <= g <= PI / 2.
Proof.
  intros rv vv Hr Hv. pose proof (norm_pos rv Hr) as Hr'. pose proof (norm_pos vv Hv) as Hv'.
  unfold fpa_ie. rewrite !unit_of_some by auto. cbn [obind].
  set (c := dot (vscale (1 / norm rv) rv) (vscale (1 / norm vv) vv)).
  assert (Hc : -1 <= c <= 1) by (apply cauchy_unit; apply unit_norm2; auto).
  rewrite np_arccos_some by auto. cbn [obind]. eexists; split; [reflexivity|].
  replace ((90 - 180 / PI * acos c) * PI / 180) with (PI / 2 - acos c) by (field; apply PI_neq0).
  rewrite cos_shift, sin_shift. destruct (cos_sin_acos c Hc) as (C & S & S2).
  assert (Ec : norm rv * norm vv * c = dot rv vv).
  { unfold c. rewrite dot_vscale_l, dot_vscale_r. field. lra. }
  split; [|split].
  - symmetry. apply norm_eq. { apply Rmult_le_pos; [nra|auto]. }
    rewrite cross_norm2, <- !norm_sq, <- Ec.
    replace (norm rv * norm vv * sin (acos c) * (norm rv * norm vv * sin (acos c)))
      with (norm rv * norm rv * (norm vv * norm vv) * (sin (acos c) * sin (acos c))) by ring.
    rewrite S2. ring.
  - rewrite C. exact Ec.
  - pose proof (acos_bound c). lra.
Qed.

Lemma unit_of_scale : forall k u, 0 < k -> unit_of (vscale k u) = unit_of u.
Proof.
  intros k u Hk. unfold unit_of. rewrite norm_vscale by lra. unfold np_div.
  destruct (Reqb_spec (norm u) 0) as [Z|Z].
  - rewrite Z. rewrite Rmult_0_r. destruct (Reqb_spec 0 0); [reflexivity|lra].
  - destruct (Reqb_spec (k * norm u) 0) as [Z'|Z']; [exfalso; apply Z; nra|]. cbn [obind]. f_equal.
    destruct u; apply vec_eq; vsimpl; field; lra.
Qed.

Definition tilted (w : vec) : Prop := vx w <> 0 \/ vy w <> 0.

Lemma elements_of_state : forall p rv vv, 0 < GM p -> tilted (ang_mom rv vv) ->
  ecc_vector (GM p) rv vv <> vzero -> energy (GM p) rv vv <> 0 ->
  let o := orbit_elements p rv vv (norm rv) (norm vv) in
  let h := norm (ang_mom rv vv) in let e := norm (ecc_vector (GM p) rv vv) in
  let P := vscale (1 / e) (ecc_vector (GM p) rv vv) in let W := vscale (1 / h) (ang_mom rv vv) in
  exists i Om om, placed o (- GM p / (2 * energy (GM p) rv vv)) e h P W i Om om /\ oframe (GM p) rv vv h e P W /\
    h * h = (- GM p / (2 * energy (GM p) rv vv)) * GM p * (1 - e * e) /\
    i = acos (vz W) /\ (leto n := unit_of (cross zaxis W) in OMEGA_of n) = Some Om.
Proof.
  intros p rv vv Hmu Ht He HE o h e P W.
  assert (Hh0 : ang_mom rv vv <> vzero).
  { intros Z. rewrite Z in Ht. destruct Ht; simpl in *; lra. }
  assert (Hrv : rv <> vzero).
  { intros Z. apply Hh0. rewrite Z. unfold ang_mom. destruct vv; apply vec_eq; vsimpl; ring. }
  assert (Hvv : vv <> vzero).
  { intros Z. apply Hh0. rewrite Z. unfold ang_mom. destruct rv; apply vec_eq; vsimpl; ring. }
  pose proof (norm_pos _ Hrv) as Hr. pose proof (state_frame (GM p) rv vv Hh0 He) as F. fold h e P W in F.
  destruct (fpa_horizontal rv vv Hrv Hvv) as (g & Hg & Hgc & _). fold (ang_mom rv vv) in Hgc. fold h in Hgc.
  assert (Hen : computeEnergyScalar p (norm rv) (norm vv) = Some (energy (GM p) rv vv)).
  { unfold computeEnergyScalar. rewrite np_div_some by lra. cbn [obind]. f_equal. unfold energy. rewrite <- (norm_sq vv). replace 0.5 with (/ 2) by lra. field. lra. }
  assert (Hee : e * e = 1 + 2 * energy (GM p) rv vv * (h * h) / (GM p * GM p)).
  { unfold e, h. rewrite !norm_sq. apply ecc_norm2; auto. }
  pose proof (of_e _ _ _ _ _ _ _ F) as He0. pose proof (of_h _ _ _ _ _ _ _ F) as Hhp.
  set (E := energy (GM p) rv vv) in *.
  assert (Hecc : computeEccScalar p h E = Some e).
  { unfold computeEccScalar. rewrite np_div_some by nra. cbn [obind]. rewrite <- Hee. rewrite np_sqrt_some by nra. f_equal. apply sqrt_square. lra. }
  assert (Hh2 : h * h = (- GM p / (2 * E)) * GM p * (1 - e * e)).
  { rewrite Hee. field. lra. }
  assert (Hn : exists N, unit_of (cross zaxis (ang_mom rv vv)) = Some N).
  { rewrite unit_of_some; eauto. intros Z. destruct Ht as [Ht|Ht]; apply Ht.
    - apply (f_equal vy) in Z. unfold zaxis in Z. revert Z. destruct (ang_mom rv vv); vsimpl. intros; lra.
    - apply (f_equal vx) in Z. unfold zaxis in Z. revert Z. destruct (ang_mom rv vv); vsimpl. intros; lra. }
  destruct Hn as (N & HN).
  destruct (unit_of_inv _ _ HN) as (_ & _ & HN1).
  assert (Hu : unit_of (ang_mom rv vv) = Some W) by (rewrite unit_of_some by auto; reflexivity).
  assert (Hev : vscale (1 / GM p) (vsub (vscale (norm vv * norm vv - GM p / norm rv) rv) (vscale (dot rv vv) vv)) = ecc_vector (GM p) rv vv).
  { rewrite norm_sq. unfold ecc_vector. clear -Hmu Hr. 
    assert (K : cross vv (cross rv vv) = vsub (vscale (norm2 vv) rv) (vscale (dot rv vv) vv)) by (destruct rv, vv; apply vec_eq; vsimpl; ring).
    rewrite K. generalize (norm2 vv) (dot rv vv). revert Hr. generalize (norm rv). intros n Hn s d. destruct rv, vv; apply vec_eq; vsimpl; field; lra. }
  assert (Heu : unit_of (ecc_vector (GM p) rv vv) = Some P) by (rewrite unit_of_some by auto; reflexivity).
  assert (HWz : -1 <= vz W <= 1) by (clear -F; pose proof (of_W _ _ _ _ _ _ _ F) as K; destruct W; unfold norm2, dot in K; simpl in *; nra).
  assert (HNx : -1 <= vx N <= 1) by (clear -HN1; destruct N; unfold norm2, dot in HN1; simpl in *; nra).
  assert (HNP : -1 <= dot N P <= 1) by (apply cauchy_unit; auto; apply (of_P _ _ _ _ _ _ _ F)).
  set (i := acos (vz W)).
  set (Om := if Rleb 0 (vy N) then acos (vx N) else 2 * PI - acos (vx N)).
  set (om := if Rleb 0 (vz P) then acos (dot N P) else 2 * PI - acos (dot N P)).
  assert (Hi : np_arccos (vz W) = Some i) by (apply np_arccos_some; auto).
  assert (HO : OMEGA_of N = Some Om) by (unfold OMEGA_of; rewrite np_arccos_some by auto; reflexivity).
  assert (Ho : omega_of N P = Some om) by (unfold omega_of; rewrite np_arccos_some by auto; reflexivity).
  assert (HN' : unit_of (cross zaxis (vscale h W)) = Some N) by (rewrite <- (of_hW _ _ _ _ _ _ _ F); exact HN).
  destruct (elements_frame W P h N i Om om (of_W _ _ _ _ _ _ _ F) (of_P _ _ _ _ _ _ _ F) (of_WP _ _ _ _ _ _ _ F) Hhp HN' Hi HO Ho) as (Hd & Hnm & _).
  exists i, Om, om. split; [|split; [auto|split; [auto|split; [reflexivity|]]]].
  2:{ replace (unit_of (cross zaxis W)) with (unit_of (cross zaxis (vscale h W))); [rewrite HN'; exact HO|].
      replace (cross zaxis (vscale h W)) with (vscale h (cross zaxis W)) by (destruct W; unfold zaxis; apply vec_eq; vsimpl; ring).
      apply unit_of_scale; auto. }
  unfold o, orbit_elements. fold (ang_mom rv vv). rewrite Hg. cbn [obind]. rewrite Hen. cbn [obind].
  unfold computeAngMomScalar. rewrite Hgc, Hecc. rewrite np_div_some by lra. cbn [obind]. rewrite Hev, Heu, HN, Hu. cbn [obind].
  unfold computeSemiMajorAxisScalar. rewrite np_div_some by lra. cbn [obind]. rewrite Hi, HO, Ho.
  constructor; cbn [o_a o_e o_h o_i o_OMEGA o_omega]; auto; try apply F.
  - rewrite <- Hh2. rewrite np_sqrt_some by nra. f_equal. apply sqrt_square. lra.
Qed.

(** Equatorial states have no node: every element angle but the inclination is NaN. *)
Lemma elements_equatorial : forall p rv vv r v, vx (ang_mom rv vv) = 0 -> vy (ang_mom rv vv) = 0 ->
  o_OMEGA (orbit_elements p rv vv r v) = None /\ o_omega (orbit_elements p rv vv r v) = None.
Proof.
  intros p rv vv r v Hx Hy. unfold orbit_elements. fold (ang_mom rv vv). cbn [o_OMEGA o_omega].
  assert (cross zaxis (ang_mom rv vv) = vzero).
  { unfold zaxis. revert Hx Hy. destruct (ang_mom rv vv); vsimpl; intros; subst; apply vec_eq; vsimpl; ring. }
  rewrite H, unit_of_none. auto.
Qed.

(** Radius, position and velocity of a placed orbit. *)
Lemma orb_r_eq : forall p o a e h P W i Om om th, placed o a e h P W i Om om -> 1 + e * cos th <> 0 ->
  orb_r p o th = Some (conic_radius (GM p) h e th).
Proof.
  intros p o a e h P W i Om om th K Hd. unfold orb_r. rewrite (pl_h _ _ _ _ _ _ _ _ _ K), (pl_e _ _ _ _ _ _ _ _ _ K). cbn [obind].
  rewrite np_div_some by auto. reflexivity.
Qed.
Lemma orb_pos_eq : forall p o a e h P W i Om om th, placed o a e h P W i Om om -> 1 + e * cos th <> 0 ->
  orb_pos p o th = Some (conic_pos (GM p) h e P W th).
Proof.
  intros p o a e h P W i Om om th K Hd. unfold orb_pos. rewrite (orb_r_eq _ _ _ _ _ _ _ _ _ _ _ K Hd). cbn [obind].
  rewrite (pl_o _ _ _ _ _ _ _ _ _ K), (pl_O _ _ _ _ _ _ _ _ _ K), (pl_i _ _ _ _ _ _ _ _ _ K). cbn [obind].
  unfold conic_pos. rewrite <- (pl_dir _ _ _ _ _ _ _ _ _ K). reflexivity.
Qed.

Definition kf : R := 1.0000001.
(** Velocity with outward (sg = 1) or inward (sg = -1) radial part and transverse part h/(kf r). *)
Definition loaded_vel (mu sg a h r : R) (u W : vec) : vec :=
  vadd (vscale (sg * sqrt (mu * (2 / r - 1 / a) - h / (r * kf) * (h / (r * kf)))) u) (vscale (h / (r * kf)) (cross W u)).


Lemma sin_sg : forall sg g, sg = 1 \/ sg = -1 -> sin (sg * g) = sg * sin g /\ cos (sg * g) = cos g.
Proof.
  intros sg g [->| ->].
  - rewrite !Rmult_1_l. auto.
  - replace (-1 * g) with (- g) by ring. rewrite sin_neg, cos_neg. split; auto. ring.
Qed.

(** The velocity formula, for any nonzero radius (negative ones occur for a hyperbola at th = pi). *)
Lemma orb_vel_at_eq : forall p sg o a e h P W i Om om r th, placed o a e h P W i Om om -> (sg = 1 \/ sg = -1) ->
  a <> 0 -> r <> 0 -> 0 < GM p * (2 / r - 1 / a) -> h / r * (h / r) <= GM p * (2 / r - 1 / a) ->
  orb_vel_at p sg o r th = Some (loaded_vel (GM p) sg a h r (perifocal P W th) W).
Proof.
  intros p sg o a e h P W i Om om r th K Hsg Ha Hr Hv2 Hle. unfold orb_vel_at.
  rewrite (pl_a _ _ _ _ _ _ _ _ _ K), (pl_h _ _ _ _ _ _ _ _ _ K), (pl_o _ _ _ _ _ _ _ _ _ K), (pl_O _ _ _ _ _ _ _ _ _ K), (pl_i _ _ _ _ _ _ _ _ _ K). cbn [obind].
  rewrite (np_div_some 2 r), (np_div_some 1 a) by auto. cbn [obind].
  unfold loaded_vel. set (V2 := GM p * (2 / r - 1 / a)) in *.
  rewrite np_sqrt_some by lra. cbn [obind]. set (v := sqrt V2).
  assert (Hv : 0 < v) by (apply sqrt_lt_R0; auto). assert (Hvv : v * v = V2) by (apply sqrt_sqrt; lra).
  fold kf. assert (Hk : 1 < kf) by (unfold kf; lra).
  rewrite np_div_some by (apply Rmult_integral_contrapositive_currified; [apply Rmult_integral_contrapositive_currified; [auto|lra]|lra]). cbn [obind].
  set (c := h / (r * v * kf)). set (vt := h / (r * kf)).
  assert (Ect : v * c = vt) by (unfold c, vt; field; repeat split; auto; lra).
  assert (Hvt : vt * vt <= V2).
  { assert (E : vt = h / r * (1 / kf)) by (unfold vt; field; repeat split; auto; lra).
    assert (0 < 1 / kf <= 1). { split; [apply Rdiv_lt_0_compat; lra|]. apply Rmult_le_reg_r with kf; [lra|]. unfold Rdiv. rewrite Rmult_assoc, Rinv_l by lra. lra. }
    rewrite E. set (q := h / r) in *. set (j := 1 / kf) in *. assert (0 <= q * q) by nra. assert (j * j <= 1) by nra.
    replace (q * j * (q * j)) with (q * q * (j * j)) by ring. nra. }
  assert (Hc : -1 <= c <= 1).
  { assert (c * c <= 1); [|nra]. apply Rmult_le_reg_l with (v * v); [nra|].
    replace (v * v * (c * c)) with (vt * vt) by (rewrite <- Ect; ring). lra. }
  rewrite np_arccos_some by auto. cbn [obind].
  destruct (sin_sg sg (acos c) Hsg) as (S1 & C1). rewrite S1, C1.
  destruct (cos_sin_acos c Hc) as (C & S & S2). rewrite C, Ect.
  replace (v * (sg * sin (acos c))) with (sg * sqrt (V2 - vt * vt)).
  2:{ replace (v * (sg * sin (acos c))) with (sg * (v * sin (acos c))) by ring. f_equal.
      rewrite <- (sqrt_square (v * sin (acos c))) by (apply Rmult_le_pos; lra). f_equal.
      replace (v * sin (acos c) * (v * sin (acos c))) with (v * v * (sin (acos c) * sin (acos c))) by ring.
      rewrite S2, <- Hvv, <- Ect. ring. }
  f_equal. rewrite <- (pl_dir _ _ _ _ _ _ _ _ _ K), <- (pl_nrm _ _ _ _ _ _ _ _ _ K), orbit_dir_transverse.
  unfold orbit_dir. apply vec_eq; vsimpl; ring.
Qed.

(** Vis-viva on the conic: with h^2 = a mu (1 - e^2), the speed bound needed above. *)
Lemma conic_visviva : forall mu a e h th, 0 < mu -> a <> 0 -> 0 < h -> h * h = a * mu * (1 - e * e) -> 1 + e * cos th <> 0 ->
  let r := conic_radius mu h e th in
  r <> 0 /\ mu * (2 / r - 1 / a) = mu / h * (e * sin th) * (mu / h * (e * sin th)) + h / r * (h / r).
Proof.
  intros mu a e h th Hmu Ha Hh Hh2 Hd r.
  assert (Hr : r <> 0).
  { unfold r, conic_radius. assert (0 < h * h / mu) by (apply Rdiv_lt_0_compat; nra).
    unfold Rdiv at 1. apply Rmult_integral_contrapositive_currified; [lra|apply Rinv_neq_0_compat; auto]. }
  split; auto. unfold r, conic_radius. generalize (sin2cos2 th). revert Hd.
  generalize (sin th) (cos th); intros s c Hd Hsc. assert (Hs : s * s = 1 - c * c) by lra.
  replace (mu / h * (e * s) * (mu / h * (e * s))) with (mu * mu / (h * h) * (e * e * (s * s))) by (field; lra). rewrite Hs.
  assert (Hne : 1 - e * e <> 0) by (intros Z; rewrite Z in Hh2; nra).
  assert (Hha : 1 / a = mu * (1 - e * e) / (h * h)) by (rewrite Hh2; field; repeat split; lra).
  rewrite Hha. field. repeat split; lra.
Qed.

Lemma orb_vel_eq : forall p o a e h P W i Om om th, placed o a e h P W i Om om -> 0 < GM p ->
  a <> 0 -> 0 < h -> h * h = a * GM p * (1 - e * e) -> 1 + e * cos th <> 0 ->
  orb_vel p o th = Some (loaded_vel (GM p) 1 a h (conic_radius (GM p) h e th) (perifocal P W th) W).
Proof.
  intros p o a e h P W i Om om th K Hmu Ha Hh Hh2 Hd. unfold orb_vel. rewrite (orb_r_eq _ _ _ _ _ _ _ _ _ _ _ K Hd). cbn [obind].
  destruct (conic_visviva (GM p) a e h th Hmu Ha Hh Hh2 Hd) as (Hr & Hv).
  set (r := conic_radius (GM p) h e th) in *.
  assert (H1 : 0 < h / r * (h / r)).
  { assert (h / r <> 0) by (unfold Rdiv; apply Rmult_integral_contrapositive_currified; [lra|apply Rinv_neq_0_compat; auto]). nra. }
  eapply orb_vel_at_eq; eauto; rewrite Hv; generalize (Rle_0_sqr (GM p / h * (e * sin th))); unfold Rsqr; lra.
Qed.

(** Invariants of the reported state. *)
Lemma loaded_invariants : forall mu sg a h r u W, norm2 u = 1 -> norm2 W = 1 -> dot W u = 0 -> 0 < r -> 0 < mu -> 
  (sg = 1 \/ sg = -1) -> 0 <= mu * (2 / r - 1 / a) - h / (r * kf) * (h / (r * kf)) ->
  let rv := vscale r u in let vv := loaded_vel mu sg a h r u W in
  norm rv = r /\ norm2 vv = mu * (2 / r - 1 / a) /\ ang_mom rv vv = vscale (h / kf) W /\
  dot rv vv = sg * (r * sqrt (mu * (2 / r - 1 / a) - h / (r * kf) * (h / (r * kf)))).
Proof.
  intros mu sg a h r u W Hu HW HWu Hr Hmu Hsg Hp rv vv.
  destruct (rv_invariants mu u W r (sg * sqrt (mu * (2 / r - 1 / a) - h / (r * kf) * (h / (r * kf)))) (h / (r * kf)) Hu HW HWu Hr ltac:(lra)) as (A & B & C & D & _).
  assert (Hk : 1 < kf) by (unfold kf; lra).
  split; [exact A|]. split; [|split].
  - unfold vv, loaded_vel. rewrite B. pose proof (sqrt_sqrt _ Hp) as Hs.
    set (q := sqrt (mu * (2 / r - 1 / a) - h / (r * kf) * (h / (r * kf)))) in *.
    replace (sg * q * (sg * q)) with (sg * sg * (q * q)) by ring. rewrite Hs. destruct Hsg; subst sg; ring.
  - unfold vv, loaded_vel, rv. rewrite C. f_equal. field. lra.
  - unfold vv, loaded_vel, rv. rewrite D. ring.
Qed.

Lemma last_scaled : forall p pos a b n,
  last (scaled p pos (linspace_opt a (Some b) (S (S n)))) None = leto r := pos b in Some (vscale (1 / RP p) r).
Proof.
  intros. unfold scaled, linspace_opt. destruct a as [a|].
  - unfold linspace. rewrite !map_app. cbn [map]. rewrite last_last. reflexivity.
  - rewrite map_app. cbn [map]. rewrite last_last. reflexivity.
Qed.
Lemma first_scaled : forall p pos a b n,
  hd None (scaled p pos (linspace_opt (Some a) (Some b) (S (S n)))) = leto r := pos a in Some (vscale (1 / RP p) r).
Proof.
  intros. unfold scaled, linspace_opt, linspace. cbn [seq map app hd]. cbn [obind].
  replace (a + INR 0 * ((b - a) / INR (S n))) with a by (simpl INR; ring). reflexivity.
Qed.
Lemma scaled_nth : forall p pos a b n k, (2 <= n)%nat -> (k < n)%nat ->
  nth k (scaled p pos (linspace_opt (Some a) (Some b) n)) None =
  leto r := pos (nth k (linspace a b n) 0) in Some (vscale (1 / RP p) r).
Proof.
  intros p pos a b n k Hn Hk. unfold scaled, linspace_opt. rewrite map_map.
  set (f := fun x => _). rewrite nth_indep with (d' := f 0) by (rewrite map_length; rewrite NumpyProofs.linspace_length; auto).
  rewrite map_nth. reflexivity.
Qed.

(** The coast and post-PRM orbits of a constructed orbiter. *)
Record bound_orbiter (ob : orbiter) (a e h ra a' e' h' : R) (P W : vec) (i Om om : R) : Prop := mkBound {
  bo_coast : placed (ob_coast ob) a e h P W i Om om;
  bo_a : 0 < a; bo_e : 0 < e < 1; bo_h : 0 < h; bo_h2 : h * h = a * GM (ob_planet ob) * (1 - e * e);
  bo_a_E : a = - GM (ob_planet ob) / (2 * energy (GM (ob_planet ob)) (ob_r_vec ob) (ob_v_ie ob));
  bo_frame : oframe (GM (ob_planet ob)) (ob_r_vec ob) (ob_v_ie ob) h e P W;
  bo_ra : ra = a * (1 + e); bo_r_apo : ob_r_apo ob = Some ra;
  bo_orb : placed (ob_orb ob) a' e' h' P W i Om om;
  bo_i : i = acos (vz W); bo_O : (leto n := unit_of (cross zaxis W) in OMEGA_of n) = Some Om;
  bo_a' : a' = (ra + ob_rp ob) / 2; bo_e' : e' = (ra - ob_rp ob) / (ra + ob_rp ob);
  bo_h' : 0 < h'; bo_h2' : h' * h' = a' * GM (ob_planet ob) * (1 - e' * e');
  bo_vc : ob_v_coast ob = Some (loaded_vel (GM (ob_planet ob)) 1 a h ra (perifocal P W PI) W);
  bo_vo : ob_v_orbit ob = Some (loaded_vel (GM (ob_planet ob)) 1 a' h' ra (perifocal P W PI) W) }.

Lemma orbiter_bound : forall p rp x, 0 < GM p -> 0 < RP p -> 0 < rp -> 0 < x_r x ->
  let ob := orbiter_of p rp x in
  tilted (ang_mom (ob_r_vec ob) (ob_v_ie ob)) -> ecc_vector (GM p) (ob_r_vec ob) (ob_v_ie ob) <> vzero ->
  energy (GM p) (ob_r_vec ob) (ob_v_ie ob) < 0 ->
  exists a e h ra a' e' h' P W i Om om, bound_orbiter ob a e h ra a' e' h' P W i Om om.
Proof.
  intros p rp x Hmu HRP Hrp Hr ob Ht He HE.
  change (ob_r_vec ob) with (exit_r_vec x) in *. change (ob_v_ie ob) with (exit_v_ie p x) in *.
  set (rv := exit_r_vec x) in *. set (vv := exit_v_ie p x) in *.
  assert (Hn : norm rv = x_r x) by (unfold rv; rewrite exit_r_vec_spec; apply sph_norm; lra).
  destruct (elements_of_state p rv vv Hmu Ht He ltac:(lra)) as (i & Om & om & K & F & Hh2 & Hi & HO).
  set (E := energy (GM p) rv vv) in *. set (a := - GM p / (2 * E)) in *.
  set (e := norm (ecc_vector (GM p) rv vv)) in *. set (h := norm (ang_mom rv vv)) in *.
  set (P := vscale (1 / e) (ecc_vector (GM p) rv vv)) in *. set (W := vscale (1 / h) (ang_mom rv vv)) in *.
  assert (Ha : 0 < a). { unfold a. replace (- GM p / (2 * E)) with (GM p / (2 * - E)) by (field; lra). apply Rdiv_lt_0_compat; lra. }
  pose proof (of_e _ _ _ _ _ _ _ F) as He0. pose proof (of_h _ _ _ _ _ _ _ F) as Hh.
  assert (Hne : 0 < 1 - e * e).
  { assert (0 < a * GM p * (1 - e * e)) by nra. assert (0 < a * GM p) by nra. 
    apply Rmult_lt_reg_l with (a * GM p); lra. }
  assert (He1 : e < 1) by nra.
  rewrite Hn in K. change (orbit_elements p rv vv (x_r x) (norm vv)) with (ob_coast ob) in K.
  assert (Hd : 1 + e * cos PI <> 0) by (rewrite cos_PI; lra).
  set (ra := a * (1 + e)).
  assert (Hra : conic_radius (GM p) h e PI = ra).
  { unfold conic_radius, ra. rewrite Hh2, cos_PI. field. lra. }
  assert (Hra0 : 0 < ra) by (unfold ra; nra).
  assert (Hapo : ob_r_apo ob = Some ra).
  { change (ob_r_apo ob) with (leto u := last (scaled p (orb_pos p (ob_coast ob)) (linspace_opt (ob_theta_exit ob) (Some PI) (S (S 299)))) None in Some (norm u * RP p)).
    rewrite last_scaled, (orb_pos_eq _ _ _ _ _ _ _ _ _ _ _ K Hd). cbn [obind]. f_equal.
    assert (HP1 : 0 < 1 / RP p) by (apply Rdiv_lt_0_compat; lra).
    rewrite norm_vscale by lra. unfold conic_pos. rewrite Hra, norm_vscale by lra.
    destruct (perifocal_unit P W PI (of_P _ _ _ _ _ _ _ F) (of_W _ _ _ _ _ _ _ F) (of_WP _ _ _ _ _ _ _ F)) as (U & _).
    rewrite (norm_eq (perifocal P W PI) 1) by lra. field. lra. }
  set (e' := (ra - rp) / (ra + rp)). set (a' := (ra + rp) / 2).
  assert (Ee : o_e (ob_orb ob) = Some e').
  { change (o_e (ob_orb ob)) with (leto r := ob_r_apo ob in np_div (r - rp) (r + rp)). rewrite Hapo. cbn [obind].
    rewrite np_div_some by lra. reflexivity. }
  assert (E1e : 1 + e' = 2 * ra / (ra + rp)) by (unfold e'; field; lra).
  assert (E1e' : 1 - e' * e' = 4 * ra * rp / ((ra + rp) * (ra + rp))) by (unfold e'; field; lra).
  assert (H1e : 0 < 1 + e') by (rewrite E1e; apply Rdiv_lt_0_compat; lra).
  assert (H1e' : 0 < 1 - e' * e') by (rewrite E1e'; apply Rdiv_lt_0_compat; nra).
  assert (Ea : o_a (ob_orb ob) = Some a').
  { change (o_a (ob_orb ob)) with (leto r := ob_r_apo ob in leto ec := o_e (ob_orb ob) in np_div r (1 + ec)). rewrite Hapo, Ee. cbn [obind].
    rewrite np_div_some by lra. f_equal. rewrite E1e. unfold a'. field. lra. }
  assert (Ha' : 0 < a') by (unfold a'; lra).
  set (h' := sqrt (a' * GM p * (1 - e' * e'))).
  assert (Hp' : 0 < a' * GM p * (1 - e' * e')) by (apply Rmult_lt_0_compat; nra).
  assert (Eh : o_h (ob_orb ob) = Some h').
  { change (o_h (ob_orb ob)) with (leto sm := o_a (ob_orb ob) in leto ec := o_e (ob_orb ob) in np_sqrt (sm * GM p * (1 - ec * ec))).
    rewrite Ea, Ee. cbn [obind]. rewrite np_sqrt_some by lra. reflexivity. }
  assert (Hh' : 0 < h') by (apply sqrt_lt_R0; auto).
  assert (Hh2' : h' * h' = a' * GM p * (1 - e' * e')) by (apply sqrt_sqrt; lra).
  assert (K' : placed (ob_orb ob) a' e' h' P W i Om om).
  { constructor; auto; try apply K; apply F. }
  assert (He' : e' < 1). { assert (K1 : 1 - e' = 2 * rp / (ra + rp)) by (unfold e'; field; lra). assert (0 < 2 * rp / (ra + rp)) by (apply Rdiv_lt_0_compat; lra). lra. }
  assert (Hd' : 1 + e' * cos PI <> 0) by (rewrite cos_PI; lra).
  assert (Hra' : conic_radius (GM p) h' e' PI = ra).
  { unfold conic_radius. rewrite Hh2', cos_PI.
    replace (a' * GM p * (1 - e' * e') / GM p / (1 + e' * -1)) with (a' * (1 + e')) by (field; lra). rewrite E1e. unfold a'. field. lra. }
  exists a, e, h, ra, a', e', h', P, W, i, Om, om. constructor; auto.
  - change (ob_v_coast ob) with (orb_vel p (ob_coast ob) PI). rewrite (orb_vel_eq _ _ _ _ _ _ _ _ _ _ _ K Hmu ltac:(lra) Hh Hh2 Hd). rewrite Hra. reflexivity.
  - change (ob_v_orbit ob) with (orb_vel p (ob_orb ob) PI). rewrite (orb_vel_eq _ _ _ _ _ _ _ _ _ _ _ K' Hmu ltac:(lra) Hh' Hh2' Hd'). rewrite Hra'. reflexivity.
Qed.

Lemma Orbiter_inv : forall w pk ob, Orbiter w pk = Ok ob -> exists x, exit_state_atm w = Ok x /\
  ob = orbiter_of (fl_planet w) (pk * 1e3 + RP (fl_planet w)) x.
Proof.
  intros w pk ob H. unfold Orbiter in H. destruct (exit_state_atm w) as [x|] eqn:E; [|discriminate].
  exists x. split; auto. cbn [rbind] in H. injection H as <-. reflexivity.
Qed.
