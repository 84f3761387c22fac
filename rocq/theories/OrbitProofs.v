(** Proofs about two-body orbits and the orbit queries. *)
From Coq Require Import Nsatz.
Require Import Verif.Base Verif.Numpy Verif.NumpyProofs Verif.PlanetModel Verif.PlanetProofs Verif.FrameModel Verif.FrameProofs Verif.ConicSpec Verif.ConicProofs
  Verif.OrbitScalarModel Verif.OrbiterModel Verif.OrbiterProofs Verif.OrbitModel Verif.OrbitSpec.
Local Open Scope R_scope.

Lemma can_be_at_poly : forall mu E h x, 0 < x -> (can_be_at mu E h x <-> h * h <= 2 * E * (x * x) + 2 * mu * x).
Proof.
  intros mu E h x Hx. unfold can_be_at, radial_speed_sq.
  assert (Q : 2 * (E + mu / x) - h * h / (x * x) = (2 * E * (x * x) + 2 * mu * x - h * h) / (x * x)) by (field; lra).
  rewrite Q. assert (Hx2 : 0 < x * x) by nra. split.
  - intros (_ & H). apply (Rmult_le_compat_r (x * x)) in H; [|lra]. rewrite Rmult_0_l in H. unfold Rdiv in H. rewrite Rmult_assoc, Rinv_l in H by lra. lra.
  - intros H. split; auto. apply Rmult_le_pos; [lra|left; apply Rinv_0_lt_compat; auto].
Qed.

(** The eccentricity radicand is never negative for a real state. *)
Lemma ecc_radicand : forall mu r v h, 0 < mu -> 0 < r -> h * h <= r * r * (v * v) ->
  0 <= 1 + 2 * (v * v / 2 - mu / r) * (h * h) / (mu * mu).
Proof.
  intros mu r v h Hm Hr Hh. set (k := h * h) in *. assert (Hk : 0 <= k) by apply Rle_0_sqr.
  assert (Hv : k / (r * r) <= v * v). { apply (Rmult_le_reg_r (r * r)); [nra|]. unfold Rdiv. rewrite Rmult_assoc, Rinv_l by nra. lra. }
  assert (G : 1 + 2 * (v * v / 2 - mu / r) * k / (mu * mu) = (1 - k / (mu * r)) * (1 - k / (mu * r)) + (v * v - k / (r * r)) * (k / (mu * mu))) by (field; lra).
  rewrite G. apply Rplus_le_le_0_compat; [apply Rle_0_sqr|]. apply Rmult_le_pos; [lra|]. apply Rmult_le_pos; auto. left. apply Rinv_0_lt_compat. nra.
Qed.

Section apsides.
  Variables mu E h e : R.
  Hypothesis Hmu : 0 < mu.
  Hypothesis He : 0 <= e.
  Hypothesis Hee : e * e = 1 + 2 * E * (h * h) / (mu * mu).
  Let a := - mu / (2 * E).

  Lemma hh_eq : E <> 0 -> h * h = mu * a * (1 - e * e).
  Proof. intros HE. unfold a. rewrite Hee. field. lra. Qed.

  Lemma bound_range : E < 0 -> 0 < a /\ e <= 1 /\ forall x, 0 < x -> (can_be_at mu E h x <-> a * (1 - e) <= x <= a * (1 + e)).
  Proof.
    intros HE. assert (Ha : 0 < a). { unfold a. replace (- mu / (2 * E)) with (mu / (- (2 * E))) by (field; lra). apply Rdiv_lt_0_compat; lra. }
    split; auto. pose proof (hh_eq ltac:(lra)) as Hh. assert (Q : 0 <= h * h) by nra.
    assert (E1 : e <= 1). { destruct (Rle_lt_dec e 1); auto. exfalso. assert (1 < e * e) by nra. assert (mu * a * (1 - e * e) < 0); [|lra]. assert (0 < mu * a) by nra. nra. }
    split; auto. intros x Hx. rewrite can_be_at_poly by auto. rewrite Hh.
    assert (EE : 2 * E = - (mu / a)) by (unfold a; field; lra).
    assert (G : 2 * E * (x * x) + 2 * mu * x - mu * a * (1 - e * e) = (mu / a) * ((a * e) * (a * e) - (x - a) * (x - a))) by (rewrite EE; field; lra).
    assert (Hma : 0 < mu / a) by (apply Rdiv_lt_0_compat; auto). assert (Hae : 0 <= a * e) by nra.
    split; intros H.
    - assert ((x - a) * (x - a) <= (a * e) * (a * e)). { apply Rnot_lt_le. intros L. assert (0 < (mu / a) * ((x - a) * (x - a) - (a * e) * (a * e))) by (apply Rmult_lt_0_compat; lra). lra. }
      split; [|]; apply Rnot_lt_le; intros L; nra.
    - assert ((x - a) * (x - a) <= (a * e) * (a * e)) by nra.
      assert (0 <= (mu / a) * ((a * e) * (a * e) - (x - a) * (x - a))) by (apply Rmult_le_pos; lra). lra.
  Qed.

  Lemma apoapsis_formula : E < 0 -> is_apoapsis mu E h (a * (1 + e)).
  Proof.
    intros HE. destruct (bound_range HE) as (Ha & E1 & B). split.
    - apply B; nra.
    - intros x Hx. apply B; auto. apply Hx.
  Qed.
  Lemma periapsis_formula : E <> 0 -> h <> 0 -> is_periapsis mu E h (a * (1 - e)).
  Proof.
    intros HE Hh0. pose proof (hh_eq HE) as Hh. assert (Q : 0 < h * h) by nra.
    destruct (Rlt_le_dec E 0) as [L|L].
    - destruct (bound_range L) as (Ha & E1 & B). assert (e < 1). { destruct E1; auto. subst e. lra. }
      split; [apply B; nra|]. intros x Hx. apply B; auto. apply Hx.
    - assert (L' : 0 < E) by lra. assert (Ha : a < 0). { unfold a. assert (0 < mu / (2 * E)) by (apply Rdiv_lt_0_compat; lra). replace (- mu / (2 * E)) with (- (mu / (2 * E))) by (field; lra). lra. }
      assert (1 < e). { apply Rnot_le_lt. intros Le. assert (e * e <= 1) by nra. assert (0 < mu * (- a)) by nra. nra. }
      assert (EE : 2 * E = - (mu / a)) by (unfold a; field; lra).
      assert (G : forall x, 2 * E * (x * x) + 2 * mu * x - mu * a * (1 - e * e) = (- (mu / a)) * ((x - a) * (x - a) - (a * e) * (a * e))) by (intros; rewrite EE; field; lra).
      assert (Hma : 0 < - (mu / a)). { replace (- (mu / a)) with (mu / - a) by (field; lra). apply Rdiv_lt_0_compat; lra. }
      split.
      + apply can_be_at_poly; [nra|]. rewrite Hh. specialize (G (a * (1 - e))). assert ((a * (1 - e) - a) * (a * (1 - e) - a) - (a * e) * (a * e) = 0) by ring. rewrite H0 in G. lra.
      + intros x Hx. assert (Hx0 : 0 < x) by apply Hx. apply can_be_at_poly in Hx; auto. specialize (G x).
        assert ((a * e) * (a * e) <= (x - a) * (x - a)). { apply Rnot_lt_le. intros K. assert (0 < - (mu / a) * ((a * e) * (a * e) - (x - a) * (x - a))) by (apply Rmult_lt_0_compat; lra). lra. }
        apply Rnot_lt_le. intros K. nra.
  Qed.
End apsides.

(** Uniqueness: an orbit has at most one apoapsis and one periapsis distance. *)
Lemma apoapsis_unique : forall mu E h r1 r2, is_apoapsis mu E h r1 -> is_apoapsis mu E h r2 -> r1 = r2.
Proof. intros mu E h r1 r2 (A1 & B1) (A2 & B2). apply Rle_antisym; auto. Qed.
Lemma periapsis_unique : forall mu E h r1 r2, is_periapsis mu E h r1 -> is_periapsis mu E h r2 -> r1 = r2.
Proof. intros mu E h r1 r2 (A1 & B1) (A2 & B2). apply Rle_antisym; auto. Qed.

(** The scalar formulas at a state given by radius, speed and angle. *)
Lemma scalar_elements : forall p r v g, 0 < GM p -> 0 < r ->
  let E := v * v / 2 - GM p / r in let h := r * v * cos g in
  computeEnergyScalar p r v = Some E /\ computeAngMomScalar r v g = h /\
  exists e, computeEccScalar p h E = Some e /\ 0 <= e /\ e * e = 1 + 2 * E * (h * h) / (GM p * GM p).
Proof.
  intros p r v g Hm Hr E h. split; [|split; [reflexivity|]].
  - unfold computeEnergyScalar. rewrite np_div_some by lra. cbn [obind]. unfold E. f_equal. unfold Rdiv. lra.
  - unfold computeEccScalar. rewrite np_div_some by nra. cbn [obind].
    assert (Q : 0 <= 1 + 2 * E * (h * h) / (GM p * GM p)).
    { apply ecc_radicand; auto. unfold h. pose proof (COS_bound g). assert (cos g * cos g <= 1) by nra.
      replace (r * v * cos g * (r * v * cos g)) with (r * r * (v * v) * (cos g * cos g)) by ring. assert (0 <= r * r * (v * v)) by nra. nra. }
    rewrite np_sqrt_some by auto. eexists. split; [reflexivity|]. split; [apply sqrt_pos|]. apply sqrt_sqrt; auto.
Qed.
Lemma semi_major : forall p E, E <> 0 -> computeSemiMajorAxisScalar p E = Some (- GM p / (2 * E)).
Proof. intros. unfold computeSemiMajorAxisScalar. apply np_div_some. lra. Qed.

(** Energy and angular momentum of the state vectors, in the scalars the code uses. *)
Lemma energy_norm : forall mu r th ph vv, 0 < r -> energy mu (sph_pos r th ph) vv = norm vv * norm vv / 2 - mu / r.
Proof. intros. unfold energy. rewrite sph_norm, norm_sq by lra. reflexivity. Qed.
Lemma rel_speed : forall v g ps th ph, norm2 (rel_vel v g ps th ph) = v * v.
Proof.
  intros. unfold rel_vel, up_dir, east_dir, north_dir. vsimpl.
  pose proof (sin2cos2 g) as Hg. pose proof (sin2cos2 ps) as Hp. pose proof (sin2cos2 th) as Ht. pose proof (sin2cos2 ph) as Hh.
  revert Hg Hp Ht Hh. generalize (sin g) (cos g) (sin ps) (cos ps) (sin th) (cos th) (sin ph) (cos ph). intros a b c d e f k l Hg Hp Ht Hh.
  nsatz.
Qed.
Lemma rel_radial : forall r v g ps th ph, dot (sph_pos r th ph) (rel_vel v g ps th ph) = r * v * sin g.
Proof.
  intros. unfold sph_pos, rel_vel, up_dir, east_dir, north_dir. vsimpl.
  pose proof (sin2cos2 th) as Ht. pose proof (sin2cos2 ph) as Hh.
  revert Ht Hh. generalize (sin g) (cos g) (sin ps) (cos ps) (sin th) (cos th) (sin ph) (cos ph). intros a b c d e f k l Ht Hh.
  nsatz.
Qed.
Lemma rel_ang_mom : forall r v g ps th ph, 0 <= r ->
  norm (ang_mom (sph_pos r th ph) (rel_vel v g ps th ph)) * norm (ang_mom (sph_pos r th ph) (rel_vel v g ps th ph)) = (r * v * cos g) * (r * v * cos g).
Proof.
  intros. unfold ang_mom. rewrite norm_sq, cross_norm2, rel_speed, rel_radial. pose proof (sph_norm r th ph H) as N.
  rewrite <- (norm_sq (sph_pos r th ph)), N. pose proof (sin2cos2 g). replace (cos g) with (cos g) by auto.
  replace (r * v * cos g * (r * v * cos g)) with (r * r * (v * v) * (cos g * cos g)) by ring. replace (cos g * cos g) with (1 - sin g * sin g) by lra. ring.
Qed.
