(** Theorems about the orbiter: C31-C36, C67-C71. *)
From Coq Require Import Nsatz.
Require Import Verif.Base Verif.Numpy Verif.NumpyProofs Verif.PlanetModel Verif.PlanetProofs Verif.FrameModel Verif.FrameProofs Verif.ConicSpec Verif.ConicProofs
  Verif.HyperbolaProofs Verif.StateProofs Verif.EllipseProofs Verif.ApproachModel Verif.ApproachProofs Verif.OrbitScalarModel Verif.OrbiterModel Verif.OrbiterProofs
  Verif.PropApproach.
Local Open Scope R_scope.

(** The vehicle left the atmosphere on a bound, eccentric, non-equatorial orbit. *)
Definition captured (ob : orbiter) : Prop :=
  0 < x_r (ob_exit ob) /\ tilted (ang_mom (ob_r_vec ob) (ob_v_ie ob)) /\
  ecc_vector (GM (ob_planet ob)) (ob_r_vec ob) (ob_v_ie ob) <> vzero /\
  energy (GM (ob_planet ob)) (ob_r_vec ob) (ob_v_ie ob) < 0.

Lemma captured_bound : forall name w pk ob, Planet name = Ok (fl_planet w) -> Orbiter w pk = Ok ob -> 0 < ob_rp ob -> captured ob ->
  0 < GM (ob_planet ob) /\ 0 < RP (ob_planet ob) /\
  exists a e h ra a' e' h' P W i Om om, bound_orbiter ob a e h ra a' e' h' P W i Om om.
Proof.
  intros name w pk ob HP HO Hrp (Hr & Ht & He & HE). destruct (Orbiter_inv _ _ _ HO) as (x & Hx & Hob).
  pose proof (Planet_facts _ _ HP) as Hf. subst ob. cbn [ob_planet orbiter_of] in *. 
  assert (Hmu : 0 < GM (fl_planet w)) by apply Hf. assert (HRP : 0 < RP (fl_planet w)) by apply Hf.
  split; [exact Hmu|]. split; [exact HRP|]. apply orbiter_bound; auto.
Qed.

(** After the periapsis raise, -1 < e' < 1 and every anomaly has a positive conic denominator. *)
Lemma post_facts : forall ob a e h ra a' e' h' P W i Om om, bound_orbiter ob a e h ra a' e' h' P W i Om om -> 0 < ob_rp ob ->
  0 < ra /\ 0 < a' /\ -1 < e' < 1 /\ forall th, 0 < 1 + e' * cos th.
Proof.
  intros ob a e h ra a' e' h' P W i Om om K Hrp. destruct K as [Kco Ka Ke Kh Kh2 KaE Kfr Kra Kapo Korb Ki KO Ka' Ke' Kh' Kh2' Kvc Kvo].
  assert (0 < ra) by (subst ra; nra). split; auto. split; [subst a'; lra|].
  assert (He : -1 < e' < 1).
  { assert (K1 : 1 - e' = 2 * ob_rp ob / (ra + ob_rp ob)) by (rewrite Ke'; field; lra).
    assert (K2 : 1 + e' = 2 * ra / (ra + ob_rp ob)) by (rewrite Ke'; field; lra).
    assert (0 < 2 * ob_rp ob / (ra + ob_rp ob)) by (apply Rdiv_lt_0_compat; lra).
    assert (0 < 2 * ra / (ra + ob_rp ob)) by (apply Rdiv_lt_0_compat; lra). lra. }
  split; auto. intros th. pose proof (ecos_pos (- e') th ltac:(lra)). lra.
Qed.

(** The reported state at any anomaly. *)
Lemma post_state : forall ob a e h ra a' e' h' P W i Om om, 0 < GM (ob_planet ob) -> 0 < ob_rp ob ->
  bound_orbiter ob a e h ra a' e' h' P W i Om om -> forall th,
  let mu := GM (ob_planet ob) in let rr := conic_radius mu h' e' th in
  ob_pos ob th = Some (conic_pos mu h' e' P W th) /\
  ob_vel ob th = Some (loaded_vel mu 1 a' h' rr (perifocal P W th) W) /\
  0 < rr /\ norm2 (perifocal P W th) = 1 /\ dot W (perifocal P W th) = 0 /\
  mu * (2 / rr - 1 / a') = mu / h' * (e' * sin th) * (mu / h' * (e' * sin th)) + h' / rr * (h' / rr) /\
  h' / (rr * kf) * (h' / (rr * kf)) < h' / rr * (h' / rr).
Proof.
  intros ob a e h ra a' e' h' P W i Om om Hmu Hrp K th mu rr.
  destruct (post_facts _ _ _ _ _ _ _ _ _ _ _ _ _ K Hrp) as (Hra & Ha' & He' & Hd). specialize (Hd th).
  destruct K as [Kco Ka Ke Kh Kh2 KaE Kfr Kra Kapo Korb Ki KO Ka' Ke' Kh' Kh2' Kvc Kvo].
  assert (Hr : 0 < rr). { unfold rr, conic_radius. apply Rdiv_lt_0_compat; auto. apply Rdiv_lt_0_compat; auto; nra. }
  destruct (conic_visviva mu a' e' h' th Hmu ltac:(lra) Kh' Kh2' ltac:(lra)) as (_ & Hvv). fold rr in Hvv.
  destruct (perifocal_unit P W th (pl_P _ _ _ _ _ _ _ _ _ Korb) (pl_W _ _ _ _ _ _ _ _ _ Korb) (pl_WP _ _ _ _ _ _ _ _ _ Korb)) as (U & V).
  repeat split; auto.
  - unfold ob_pos. apply (orb_pos_eq _ _ _ _ _ _ _ _ _ _ _ Korb). lra.
  - unfold ob_vel. apply (orb_vel_eq _ _ _ _ _ _ _ _ _ _ _ Korb); auto; lra.
  - assert (Hq : 0 < h' / rr) by (apply Rdiv_lt_0_compat; auto).
    assert (E : h' / (rr * kf) = h' / rr * (1 / kf)) by (field; unfold kf; repeat split; lra).
    assert (0 < 1 / kf < 1) by (unfold kf; lra). rewrite E. set (q := h' / rr) in *. set (j := 1 / kf) in *. clearbody q j.
    assert (q * j < q) by nra. assert (0 < q * j) by nra. nra.
Qed.

(** C31: at every true anomaly the reported position has the conic radius, the state has the orbit's
    energy -mu/(2a), and its angular momentum is the orbit's h divided by 1.0000001, along the normal of
    the exit orbit. *)
Theorem C31_orbit_states : forall name w pk ob, Planet name = Ok (fl_planet w) -> Orbiter w pk = Ok ob ->
  0 < ob_rp ob -> captured ob ->
  exists a e h, o_a (ob_orb ob) = Some a /\ o_e (ob_orb ob) = Some e /\ o_h (ob_orb ob) = Some h /\ 0 < a /\ -1 < e < 1 /\ 0 < h /\
  forall th, exists r v, ob_pos ob th = Some r /\ ob_vel ob th = Some v /\
    norm r = h * h / GM (ob_planet ob) / (1 + e * cos th) /\
    energy (GM (ob_planet ob)) r v = - GM (ob_planet ob) / (2 * a) /\
    norm (ang_mom r v) = h / 1.0000001 /\
    exists k, 0 < k /\ ang_mom r v = vscale k (ang_mom (ob_r_vec ob) (ob_v_ie ob)).
Proof.
  intros name w pk ob HP HO Hrp Hc.
  destruct (captured_bound _ _ _ _ HP HO Hrp Hc) as (Hmu & HRP & a & e & h & ra & a' & e' & h' & P & W & i & Om & om & K).
  destruct (post_facts _ _ _ _ _ _ _ _ _ _ _ _ _ K Hrp) as (Hra & Ha' & He' & Hd).
  pose proof (post_state _ _ _ _ _ _ _ _ _ _ _ _ _ Hmu Hrp K) as S. destruct K as [Kco Ka Ke Kh Kh2 KaE Kfr Kra Kapo Korb Ki KO Ka' Ke' Kh' Kh2' Kvc Kvo].
  exists a', e', h'. split; [apply Korb|]. split; [apply Korb|]. split; [apply Korb|]. split; auto. split; auto. split; auto.
  intros th. destruct (S th) as (Hp & Hv & Hr & HU & HWU & Hvv & Hlt).
  set (mu := GM (ob_planet ob)) in *. set (rr := conic_radius mu h' e' th) in *.
  assert (Hnn : 0 <= mu * (2 / rr - 1 / a') - h' / (rr * kf) * (h' / (rr * kf))).
  { rewrite Hvv. generalize (Rle_0_sqr (mu / h' * (e' * sin th))); unfold Rsqr; lra. }
  destruct (loaded_invariants mu 1 a' h' rr (perifocal P W th) W HU (pl_W _ _ _ _ _ _ _ _ _ Korb) HWU Hr Hmu (or_introl eq_refl) Hnn) as (A & B & C & D).
  assert (Hk : 0 < kf) by (unfold kf; lra).
  eexists _, _. split; [exact Hp|]. split; [exact Hv|]. unfold conic_pos. fold rr.
  split; [rewrite A; reflexivity|]. split.
  { unfold energy. rewrite A, B. field. lra. }
  rewrite C. split.
  { rewrite norm_vscale by (apply Rlt_le, Rdiv_lt_0_compat; auto). rewrite (norm_eq W 1) by (rewrite ?(pl_W _ _ _ _ _ _ _ _ _ Korb); lra). unfold kf. lra. }
  exists (h' / kf / h). split. { apply Rdiv_lt_0_compat; auto. apply Rdiv_lt_0_compat; auto. }
  rewrite (of_hW _ _ _ _ _ _ _ Kfr). destruct W. apply vec_eq; vsimpl; field; lra.
Qed.

(** C32: the reported radial velocity is positive at every true anomaly, whereas Keplerian motion on the
    same orbit has a negative one wherever e sin(th) < 0 (for e > 0: true anomalies in (pi, 2 pi)); there the
    reported velocity is off by at least twice the true radial speed. *)
Theorem C32_velocity_always_outward : forall name w pk ob, Planet name = Ok (fl_planet w) -> Orbiter w pk = Ok ob ->
  0 < ob_rp ob -> captured ob ->
  exists e h P W, o_e (ob_orb ob) = Some e /\ o_h (ob_orb ob) = Some h /\ norm2 P = 1 /\ norm2 W = 1 /\ dot W P = 0 /\
  forall th, exists r v, ob_pos ob th = Some r /\ ob_vel ob th = Some v /\ 0 < dot r v /\
    let mu := GM (ob_planet ob) in let true_v := conic_vel mu h e P W th in
    r = conic_pos mu h e P W th /\ dot r true_v = norm r * (mu / h * e * sin th) /\
    (e * sin th < 0 -> dot r true_v < 0 /\ v <> true_v /\ 2 * (mu / h * Rabs (e * sin th)) <= norm (vsub v true_v)).
Proof.
  intros name w pk ob HP HO Hrp Hc.
  destruct (captured_bound _ _ _ _ HP HO Hrp Hc) as (Hmu & HRP & a & e & h & ra & a' & e' & h' & P & W & i & Om & om & K).
  destruct (post_facts _ _ _ _ _ _ _ _ _ _ _ _ _ K Hrp) as (Hra & Ha' & He' & Hd).
  pose proof (post_state _ _ _ _ _ _ _ _ _ _ _ _ _ Hmu Hrp K) as S. destruct K as [Kco Ka Ke Kh Kh2 KaE Kfr Kra Kapo Korb Ki KO Ka' Ke' Kh' Kh2' Kvc Kvo].
  exists e', h', P, W. split; [apply Korb|]. split; [apply Korb|]. split; [apply Korb|]. split; [apply Korb|]. split; [apply Korb|].
  intros th. destruct (S th) as (Hp & Hv & Hr & HU & HWU & Hvv & Hlt).
  set (mu := GM (ob_planet ob)) in *. set (rr := conic_radius mu h' e' th) in *.
  set (vr := mu / h' * (e' * sin th)) in *.
  assert (Hnn : 0 < mu * (2 / rr - 1 / a') - h' / (rr * kf) * (h' / (rr * kf))).
  { rewrite Hvv. generalize (Rle_0_sqr vr); unfold Rsqr; lra. }
  pose proof (pl_W _ _ _ _ _ _ _ _ _ Korb) as HW.
  destruct (loaded_invariants mu 1 a' h' rr (perifocal P W th) W HU HW HWU Hr Hmu (or_introl eq_refl) ltac:(lra)) as (A & B & C & D).
  eexists _, _. split; [exact Hp|]. split; [exact Hv|]. fold (conic_pos mu h' e' P W th) in *. unfold conic_pos in *. fold rr in Hp |- *.
  split. { rewrite D. pose proof (sqrt_lt_R0 _ Hnn). nra. }
  cbv zeta. split; [reflexivity|].
  destruct (conic_state mu h' e' P W th Hmu Kh' (pl_P _ _ _ _ _ _ _ _ _ Korb) HW (pl_WP _ _ _ _ _ _ _ _ _ Korb) (Hd th)) as (_ & _ & _ & _ & Hcv).
  fold rr vr in Hcv.
  assert (HcWu : dot (perifocal P W th) (cross W (perifocal P W th)) = 0) by (generalize (perifocal P W th); intros [? ? ?]; destruct W; vsimpl; ring).
  assert (Hdot : forall x y, dot (perifocal P W th) (vadd (vscale x (perifocal P W th)) (vscale y (cross W (perifocal P W th)))) = x).
  { intros x y. transitivity (x * norm2 (perifocal P W th) + y * dot (perifocal P W th) (cross W (perifocal P W th))).
    - generalize (cross W (perifocal P W th)) (perifocal P W th). intros [? ? ?] [? ? ?]; vsimpl; ring.
    - rewrite HU, HcWu. ring. }
  assert (Ht : dot (vscale rr (perifocal P W th)) (conic_vel mu h' e' P W th) = rr * vr).
  { rewrite Hcv, dot_vscale_l, Hdot. reflexivity. }
  split. { rewrite Ht, A. unfold vr. ring. }
  intros Hneg. assert (Hmh : 0 < mu / h') by (apply Rdiv_lt_0_compat; auto).
  assert (Hvr : vr < 0) by (unfold vr; nra).
  assert (Hlo : 2 * (mu / h' * Rabs (e' * sin th)) <= norm (vsub (loaded_vel mu 1 a' h' rr (perifocal P W th) W) (conic_vel mu h' e' P W th))).
  { rewrite Rabs_left by auto. replace (2 * (mu / h' * - (e' * sin th))) with (- (2 * vr)) by (unfold vr; ring).
    set (D1 := vsub _ _).
    assert (Hpr : dot (perifocal P W th) D1 = sqrt (mu * (2 / rr - 1 / a') - h' / (rr * kf) * (h' / (rr * kf))) - vr).
    { unfold D1. transitivity (dot (perifocal P W th) (loaded_vel mu 1 a' h' rr (perifocal P W th) W) - dot (perifocal P W th) (conic_vel mu h' e' P W th)).
      - generalize (loaded_vel mu 1 a' h' rr (perifocal P W th) W) (conic_vel mu h' e' P W th) (perifocal P W th). intros [? ? ?] [? ? ?] [? ? ?]; vsimpl; ring.
      - rewrite Hcv. unfold loaded_vel. rewrite !Hdot. ring. }
    assert (Hsq : - vr <= sqrt (mu * (2 / rr - 1 / a') - h' / (rr * kf) * (h' / (rr * kf)))).
    { rewrite <- (sqrt_square (- vr)) by lra. apply sqrt_le_1_alt. rewrite Hvv. lra. }
    pose proof (cauchy (perifocal P W th) D1) as Hcs. rewrite HU, Hpr in Hcs. rewrite <- (norm_sq D1) in Hcs.
    pose proof (norm_nonneg D1). nra. }
  split; [rewrite Ht; nra|]. split; auto.
  intros Heq. rewrite Heq in Hlo. rewrite (norm_eq (vsub (conic_vel mu h' e' P W th) (conic_vel mu h' e' P W th)) 0) in Hlo; [|lra|].
  - rewrite Rabs_left in Hlo by auto. unfold vr in Hvr. nra.
  - generalize (conic_vel mu h' e' P W th); intros [? ? ?]; vsimpl; ring.
Qed.

(** C33: apsides of the orbit after the periapsis raise maneuver. *)
Theorem C33_requested_apsides : forall name w pk ob, Planet name = Ok (fl_planet w) -> Orbiter w pk = Ok ob ->
  0 < ob_rp ob -> captured ob ->
  let mu := GM (ob_planet ob) in let E := energy mu (ob_r_vec ob) (ob_v_ie ob) in
  exists a e h ra, o_a (ob_orb ob) = Some a /\ o_e (ob_orb ob) = Some e /\ o_h (ob_orb ob) = Some h /\
    ob_r_apo ob = Some ra /\ ob_rp ob = pk * 1e3 + RP (ob_planet ob) /\
    (* ra is the apoapsis of the exit orbit *)
    ra = - mu / (2 * E) * (1 + norm (ecc_vector mu (ob_r_vec ob) (ob_v_ie ob))) /\
    a * (1 + e) = ra /\ a * (1 - e) = ob_rp ob /\ h * h = mu * a * (1 - e * e) /\ 0 < h /\
    -1 < e < 1 /\ (0 <= e <-> ob_rp ob <= ra) /\
    (* the positions at anomalies 0 and pi are at those distances *)
    (exists r0 r1, ob_pos ob 0 = Some r0 /\ ob_pos ob PI = Some r1 /\ norm r0 = ob_rp ob /\ norm r1 = ra).
Proof.
  intros name w pk ob HP HO Hrp Hc mu E.
  destruct (captured_bound _ _ _ _ HP HO Hrp Hc) as (Hmu & HRP & a & e & h & ra & a' & e' & h' & P & W & i & Om & om & K).
  destruct (post_facts _ _ _ _ _ _ _ _ _ _ _ _ _ K Hrp) as (Hra & Ha' & He' & Hd).
  pose proof (post_state _ _ _ _ _ _ _ _ _ _ _ _ _ Hmu Hrp K) as S. destruct K as [Kco Ka Ke Kh Kh2 KaE Kfr Kra Kapo Korb Ki KO Ka' Ke' Kh' Kh2' Kvc Kvo]. fold mu in Hmu, Kh2, KaE, Kfr, Kh2', Kvc, Kvo.
  assert (Hee : e = norm (ecc_vector mu (ob_r_vec ob) (ob_v_ie ob))).
  { symmetry. apply norm_eq; [lra|]. rewrite (of_eP _ _ _ _ _ _ _ Kfr), norm2_vscale, (pl_P _ _ _ _ _ _ _ _ _ Korb). ring. }
  assert (E1 : a' * (1 + e') = ra) by (rewrite Ka', Ke'; field; lra).
  assert (E2 : a' * (1 - e') = ob_rp ob) by (rewrite Ka', Ke'; field; lra).
  exists a', e', h', ra. split; [apply Korb|]. split; [apply Korb|]. split; [apply Korb|]. split; auto. split.
  { destruct (Orbiter_inv _ _ _ HO) as (x & _ & ->). reflexivity. }
  split. { rewrite <- Hee. rewrite Kra, KaE. reflexivity. }
  split; auto. split; auto. split; [rewrite Kh2'; ring|]. split; auto. split; auto. split.
  { split; intros L; nra. }
  destruct (S 0) as (P0 & _ & R0 & U0 & _). destruct (S PI) as (P1 & _ & R1 & U1 & _).
  eexists _, _. split; [exact P0|]. split; [exact P1|]. unfold conic_pos. rewrite !norm_vscale by (apply Rlt_le; assumption).
  rewrite (norm_eq (perifocal P W 0) 1), (norm_eq (perifocal P W PI) 1) by lra. rewrite !Rmult_1_r.
  unfold conic_radius. fold mu. rewrite Kh2', cos_0, cos_PI. split.
  - rewrite <- E2. field. lra.
  - rewrite <- E1. field. lra.
Qed.

(** C68: the periapsis-raise delta-V is exactly the change of apoapsis speed given by vis-viva on the two
    orbits (the 1.0000001 in the velocity formula cancels). *)
Lemma apsis_vel : forall mu a e h ra u W, 0 < mu -> 0 < a -> 0 < ra -> 0 < h -> h * h = a * mu * (1 - e * e) -> ra = a * (1 + e) ->
  loaded_vel mu 1 a h ra u W = vscale (sqrt (mu * (2 / ra - 1 / a))) (vadd (vscale (sqrt (1 - 1 / kf * (1 / kf))) u) (vscale (1 / kf) (cross W u))) /\
  0 < mu * (2 / ra - 1 / a) /\ h = ra * sqrt (mu * (2 / ra - 1 / a)).
Proof.
  intros mu a e h ra u W Hmu Ha Hra Hh Hh2 Era.
  assert (Hk : 1 < kf) by (unfold kf; lra).
  assert (E : mu * (2 / ra - 1 / a) = h / ra * (h / ra)).
  { replace (h / ra * (h / ra)) with (h * h / (ra * ra)) by (field; lra). rewrite Hh2, Era. assert (1 + e <> 0) by (intros Z; rewrite Z in Era; lra). field. lra. }
  assert (Hq : 0 < h / ra) by (apply Rdiv_lt_0_compat; auto).
  unfold loaded_vel. rewrite E. rewrite sqrt_square by lra.
  replace (h / (ra * kf)) with (h / ra * (1 / kf)) by (field; lra).
  replace (sqrt (h / ra * (h / ra) - h / ra * (1 / kf) * (h / ra * (1 / kf)))) with (h / ra * sqrt (1 - 1 / kf * (1 / kf))).
  - split; [|split].
    + generalize (cross W u); intros [? ? ?]; destruct u; apply vec_eq; vsimpl; ring.
    + nra.
    + field. lra.
  - replace (h / ra * (h / ra) - h / ra * (1 / kf) * (h / ra * (1 / kf))) with (h / ra * (h / ra) * (1 - 1 / kf * (1 / kf))) by ring.
    rewrite sqrt_mult_alt by nra. rewrite sqrt_square by lra. reflexivity.
Qed.
Lemma kf_unit : forall u W, norm2 u = 1 -> norm2 W = 1 -> dot W u = 0 ->
  norm (vadd (vscale (sqrt (1 - 1 / kf * (1 / kf))) u) (vscale (1 / kf) (cross W u))) = 1.
Proof.
  intros u W Hu HW HWu. apply norm_eq; [lra|].
  destruct (frame_facts u W Hu HW HWu) as (F1 & F2 & _).
  assert (Hs : sqrt (1 - 1 / kf * (1 / kf)) * sqrt (1 - 1 / kf * (1 / kf)) = 1 - 1 / kf * (1 / kf)) by (apply sqrt_sqrt; unfold kf; lra).
  revert F1 F2 Hs. generalize (sqrt (1 - 1 / kf * (1 / kf))) (1 / kf) (cross W u). intros s k [q1 q2 q3] F1 F2 Hs.
  destruct u as [u1 u2 u3]. unfold norm2, dot in *. simpl in *. vsimpl. nsatz.
Qed.
Theorem C68_periapsis_raise_dv : forall name w pk ob, Planet name = Ok (fl_planet w) -> Orbiter w pk = Ok ob ->
  0 < ob_rp ob -> captured ob ->
  let mu := GM (ob_planet ob) in
  exists ac ao ra v_before v_after dv, o_a (ob_coast ob) = Some ac /\ o_a (ob_orb ob) = Some ao /\ ob_r_apo ob = Some ra /\
    v_before = sqrt (mu * (2 / ra - 1 / ac)) /\ v_after = sqrt (mu * (2 / ra - 1 / ao)) /\
    (exists vb va, ob_v_coast ob = Some vb /\ ob_v_orbit ob = Some va /\ norm vb = v_before /\ norm va = v_after /\ ob_PRM_dv ob = Some (vsub va vb)) /\
    ob_PRM_dv_mag ob = Some dv /\ dv = Rabs (v_after - v_before) /\
    (ob_rp ob < 2 * ac - ra <-> v_after < v_before) /\ (2 * ac - ra < ob_rp ob <-> v_before < v_after).
Proof.
  intros name w pk ob HP HO Hrp Hc mu.
  destruct (captured_bound _ _ _ _ HP HO Hrp Hc) as (Hmu & HRP & a & e & h & ra & a' & e' & h' & P & W & i & Om & om & K).
  destruct (post_facts _ _ _ _ _ _ _ _ _ _ _ _ _ K Hrp) as (Hra & Ha' & He' & Hd).
  assert (Hdv : ob_PRM_dv ob = (leto v1 := ob_v_orbit ob in leto v0 := ob_v_coast ob in Some (vsub v1 v0)) /\
          ob_PRM_dv_mag ob = (leto d := ob_PRM_dv ob in Some (norm d))).
  { destruct (Orbiter_inv _ _ _ HO) as (x & _ & ->). split; reflexivity. }
  destruct Hdv as (Hdv & Hdm). destruct K as [Kco Ka Ke Kh Kh2 KaE Kfr Kra Kapo Korb Ki KO Ka' Ke' Kh' Kh2' Kvc Kvo]. fold mu in Hmu, Kh2, KaE, Kfr, Kh2', Kvc, Kvo.
  assert (E1 : ra = a' * (1 + e')) by (rewrite Ka', Ke'; field; lra).
  destruct (perifocal_unit P W PI (pl_P _ _ _ _ _ _ _ _ _ Korb) (pl_W _ _ _ _ _ _ _ _ _ Korb) (pl_WP _ _ _ _ _ _ _ _ _ Korb)) as (U & V).
  destruct (apsis_vel mu a e h ra (perifocal P W PI) W Hmu Ka Hra Kh Kh2 Kra) as (L0 & V0 & H0).
  destruct (apsis_vel mu a' e' h' ra (perifocal P W PI) W Hmu Ha' Hra Kh' Kh2' E1) as (L1 & V1 & H1).
  rewrite L0 in Kvc. rewrite L1 in Kvo.
  pose proof (kf_unit (perifocal P W PI) W U (pl_W _ _ _ _ _ _ _ _ _ Korb) V) as HU.
  set (T := vadd (vscale (sqrt (1 - 1 / kf * (1 / kf))) (perifocal P W PI)) (vscale (1 / kf) (cross W (perifocal P W PI)))) in *.
  set (s0 := sqrt (mu * (2 / ra - 1 / a))) in *. set (s1 := sqrt (mu * (2 / ra - 1 / a'))) in *.
  assert (S0 : 0 < s0) by (apply sqrt_lt_R0; auto). assert (S1 : 0 < s1) by (apply sqrt_lt_R0; auto).
  assert (Hlt : forall x y, 0 < x -> 0 < y -> 0 < mu * (2 / ra - 1 / x) -> 0 < mu * (2 / ra - 1 / y) -> (x < y <-> sqrt (mu * (2 / ra - 1 / x)) < sqrt (mu * (2 / ra - 1 / y)))).
  { intros x y Hx Hy Px Py. assert (Hdf : mu * (2 / ra - 1 / y) - mu * (2 / ra - 1 / x) = mu * (y - x) / (x * y)) by (field; lra).
    assert (0 < x * y) by nra. assert (Hi : 0 < mu / (x * y)) by (apply Rdiv_lt_0_compat; auto).
    replace (mu * (y - x) / (x * y)) with (mu / (x * y) * (y - x)) in Hdf by (field; lra).
    split; intros L.
    - apply sqrt_lt_1_alt. split; [lra|]. assert (0 < mu / (x * y) * (y - x)) by nra. lra.
    - apply sqrt_lt_0_alt in L. nra. }
  exists a, a', ra, s0, s1, (Rabs (s1 - s0)). split; [apply Kco|]. split; [apply Korb|]. split; auto. split; auto. split; auto.
  split.
  { eexists _, _. split; [exact Kvc|]. split; [exact Kvo|]. rewrite !norm_vscale, HU by lra. split; [ring|]. split; [ring|].
    rewrite Hdv, Kvo, Kvc. reflexivity. }
  split.
  { rewrite Hdm, Hdv, Kvo, Kvc. cbn [obind]. f_equal.
    replace (vsub (vscale s1 T) (vscale s0 T)) with (vscale (s1 - s0) T) by (destruct T; apply vec_eq; vsimpl; ring).
    apply norm_eq; [apply Rabs_pos|]. rewrite norm2_vscale, <- (norm_sq T), HU. rewrite <- Rabs_mult, Rabs_pos_eq by apply Rle_0_sqr. ring. }
  split; [reflexivity|].
  unfold s0, s1. rewrite <- (Hlt a' a), <- (Hlt a a') by auto. rewrite Ka'. split; split; intros; lra.
Qed.

(** C67: the inertial exit state is the last flown state, with velocity relative velocity plus Omega x r. *)
Lemma py_get_last : forall l x, py_get (l ++ [x]) (Z.of_nat (length (l ++ [x])) - 1)%Z = Ok x.
Proof.
  intros. unfold py_get. rewrite app_length. cbn [length].
  replace (Z.of_nat (length l + 1) - 1)%Z with (Z.of_nat (length l)) by lia.
  destruct (Z.ltb_spec (Z.of_nat (length l)) 0); [lia|].
  rewrite Nat2Z.id, nth_error_app2 by lia. rewrite Nat.sub_diag. destruct (Z.ltb_spec (Z.of_nat (length l)) 0); [lia|]. reflexivity.
Qed.
Theorem C67_exit_state : forall p rs ths phs vs gs pss r th ph v g ps pk,
  length ths = length rs -> length phs = length rs -> length vs = length rs -> length gs = length rs -> length pss = length rs ->
  exists ob, Orbiter (mkFlown p (S (length rs)) (rs ++ [r]) (ths ++ [th]) (phs ++ [ph]) (vs ++ [v]) (gs ++ [g]) (pss ++ [ps])) pk = Ok ob /\
    ob_r_vec ob = sph_pos r th ph /\ ob_v_ie ob = inertial_vel (OMEGA p) r v g ps th ph.
Proof.
  intros p rs ths phs vs gs pss r th ph v g ps pk L1 L2 L3 L4 L5.
  assert (G : forall l x, length l = length rs -> py_get (l ++ [x]) (Z.of_nat (S (length rs)) - 1)%Z = Ok x).
  { intros l x E. rewrite <- (py_get_last l x) at 1. rewrite app_length. cbn [length]. rewrite E, Nat.add_1_r. reflexivity. }
  unfold Orbiter, exit_state_atm. cbn [fl_planet fl_index fl_r fl_theta fl_phi fl_v fl_gamma fl_psi].
  rewrite !G by auto. cbn [rbind]. eexists. split; [reflexivity|].
  split; [reflexivity|]. exact (exit_v_ie_spec p (mkExit r th ph v g ps)).
Qed.
Theorem C67_no_points_raises : forall p idx th ph v g ps pk,
  Orbiter (mkFlown p idx [] th ph v g ps) pk = Err IndexError.
Proof.
  intros. unfold Orbiter, exit_state_atm. cbn [fl_r fl_index]. set (k := (Z.of_nat idx - 1)%Z).
  replace (py_get [] k) with (@Err R IndexError); [reflexivity|].
  unfold py_get. cbn [length]. destruct (k <? 0)%Z eqn:E.
  - rewrite Z.add_0_r, E. reflexivity.
  - rewrite E. destruct (Z.to_nat k); reflexivity.
Qed.

(** The exit anomaly. *)
Lemma theta_exit_eq : forall name w pk ob a e h ra a' e' h' P W i Om om, Planet name = Ok (fl_planet w) -> Orbiter w pk = Ok ob ->
  0 < x_r (ob_exit ob) -> bound_orbiter ob a e h ra a' e' h' P W i Om om ->
  let c := dot (ob_r_vec ob) P / norm (ob_r_vec ob) in -1 <= c <= 1 /\ ob_theta_exit ob = Some (acos c).
Proof.
  intros name w pk ob a e h ra a' e' h' P W i Om om HP HO Hr K c. pose proof (Planet_facts _ _ HP) as Hf.
  destruct K as [Kco Ka Ke Kh Kh2 KaE Kfr Kra Kapo Korb Ki KO Ka' Ke' Kh' Kh2' Kvc Kvo].
  destruct (Orbiter_inv _ _ _ HO) as (x & _ & Hob).
  assert (Ht : ob_theta_exit ob = theta_exit_of (ob_planet ob) (ob_coast ob) (x_r (ob_exit ob))) by (subst ob; reflexivity).
  assert (Hmu : 0 < GM (ob_planet ob)) by (subst ob; apply Hf).
  assert (Hn : norm (ob_r_vec ob) = x_r (ob_exit ob)) by (subst ob; apply sph_norm; cbn in *; lra).
  destruct (state_components _ _ _ _ _ _ _ Hmu Kfr) as (Hr' & Hrx & Hxy & Hex & Hey & Hv).
  assert (Hc : -1 <= c <= 1).
  { set (rn := norm (ob_r_vec ob)) in *. set (xx := dot (ob_r_vec ob) P) in *.
    assert (c * c <= 1); [|nra]. unfold c. replace (xx / rn * (xx / rn)) with (xx * xx / (rn * rn)) by (field; lra).
    apply Rmult_le_reg_r with (rn * rn); [nra|]. unfold Rdiv. rewrite Rmult_assoc, Rinv_l by nra. nra. }
  split; auto. rewrite Ht. unfold theta_exit_of. rewrite (pl_h _ _ _ _ _ _ _ _ _ Kco), (pl_e _ _ _ _ _ _ _ _ _ Kco). cbn [obind].
  rewrite np_div_some by nra. cbn [obind]. rewrite np_div_some by lra. cbn [obind].
  replace ((h * h / (GM (ob_planet ob) * x_r (ob_exit ob)) - 1) * (1 / e)) with c.
  - apply np_arccos_some; auto.
  - unfold c. rewrite Hn in *. replace (dot (ob_r_vec ob) P) with ((h * h / GM (ob_planet ob) - x_r (ob_exit ob)) / e) by (rewrite <- Hex; field; lra).
    field. lra.
Qed.
Theorem C67_coast_starts_at_exit : forall name w pk ob, Planet name = Ok (fl_planet w) -> Orbiter w pk = Ok ob ->
  0 < ob_rp ob -> captured ob -> 0 <= dot (ob_r_vec ob) (ob_v_ie ob) ->
  exists th ra u, ob_theta_exit ob = Some th /\ 0 <= th <= PI /\
    hd None (ob_coast_arr ob) = Some (vscale (1 / RP (ob_planet ob)) (ob_r_vec ob)) /\
    length (ob_coast_arr ob) = 301%nat /\
    last (ob_coast_arr ob) None = Some u /\ ob_r_apo ob = Some ra /\ ra = RP (ob_planet ob) * norm u /\
    (* the last coast point is the farthest point of the exit orbit *)
    exists h e P W, oframe (GM (ob_planet ob)) (ob_r_vec ob) (ob_v_ie ob) h e P W /\
      vscale (RP (ob_planet ob)) u = conic_pos (GM (ob_planet ob)) h e P W PI /\
      forall t, norm (conic_pos (GM (ob_planet ob)) h e P W t) <= ra.
Proof.
  intros name w pk ob HP HO Hrp Hc Hout. pose proof Hc as (Hr & _).
  destruct (captured_bound _ _ _ _ HP HO Hrp Hc) as (Hmu & HRP & a & e & h & ra & a' & e' & h' & P & W & i & Om & om & K).
  destruct (theta_exit_eq _ _ _ _ _ _ _ _ _ _ _ _ _ _ _ _ HP HO Hr K) as (Hcb & Hth).
  destruct K as [Kco Ka Ke Kh Kh2 KaE Kfr Kra Kapo Korb Ki KO Ka' Ke' Kh' Kh2' Kvc Kvo].
  set (mu := GM (ob_planet ob)) in *.
  destruct (state_components _ _ _ _ _ _ _ Hmu Kfr) as (Hr' & Hrx & Hxy & Hex & Hey & Hv).
  set (c := dot (ob_r_vec ob) P / norm (ob_r_vec ob)) in *.
  destruct (cos_sin_acos c Hcb) as (C & Sn & S2).
  assert (Hy : 0 <= dot (ob_r_vec ob) (cross W P) / norm (ob_r_vec ob)).
  { apply Rmult_le_pos; [|left; apply Rinv_0_lt_compat; auto].
    assert (0 <= e * dot (ob_r_vec ob) (cross W P)). { rewrite Hey. apply Rmult_le_pos; [nra|left; apply Rinv_0_lt_compat; auto]. }
    nra. }
  assert (Hs : sin (acos c) = dot (ob_r_vec ob) (cross W P) / norm (ob_r_vec ob)).
  { apply sq_eq_nonneg; auto. rewrite S2. unfold c.
    set (rn := norm (ob_r_vec ob)) in *. set (xx := dot (ob_r_vec ob) P) in *. set (yy := dot (ob_r_vec ob) (cross W P)) in *.
    replace (yy / rn * (yy / rn)) with (yy * yy / (rn * rn)) by (field; lra).
    replace (yy * yy) with (rn * rn - xx * xx) by lra. field. lra. }
  destruct (state_on_conic _ _ _ _ _ _ _ (acos c) Hmu Kfr C Hs) as (Hd & Hrc & _).
  assert (Harr : ob_coast_arr ob = scaled (ob_planet ob) (orb_pos (ob_planet ob) (ob_coast ob)) (linspace_opt (ob_theta_exit ob) (Some PI) (S (S 299)))).
  { destruct (Orbiter_inv _ _ _ HO) as (x & _ & ->). reflexivity. }
  assert (Hd1 : 1 + e * cos PI <> 0) by (rewrite cos_PI; lra).
  exists (acos c), ra, (vscale (1 / RP (ob_planet ob)) (conic_pos mu h e P W PI)). split; auto. split; [apply acos_bound|].
  assert (Hu : norm (conic_pos mu h e P W PI) = ra).
  { unfold conic_pos. destruct (perifocal_unit P W PI (pl_P _ _ _ _ _ _ _ _ _ Korb) (pl_W _ _ _ _ _ _ _ _ _ Korb) (pl_WP _ _ _ _ _ _ _ _ _ Korb)) as (U & _).
    assert (E : conic_radius mu h e PI = ra) by (unfold conic_radius; rewrite Kh2, cos_PI, Kra; field; lra).
    rewrite E, norm_vscale by (subst ra; nra). rewrite (norm_eq (perifocal P W PI) 1) by lra. ring. }
  split. { rewrite Harr, Hth. rewrite first_scaled, (orb_pos_eq _ _ _ _ _ _ _ _ _ _ _ Kco) by lra. cbn [obind]. fold mu. rewrite <- Hrc. reflexivity. }
  split. { rewrite Harr, Hth. unfold scaled, linspace_opt. rewrite !map_length. apply linspace_length. }
  split. { rewrite Harr, last_scaled, (orb_pos_eq _ _ _ _ _ _ _ _ _ _ _ Kco) by auto. reflexivity. }
  split; auto. split.
  { rewrite norm_vscale by (apply Rlt_le, Rdiv_lt_0_compat; lra). rewrite Hu. field. lra. }
  exists h, e, P, W. split; auto. split.
  { generalize (conic_pos mu h e P W PI). intros [? ? ?]. apply vec_eq; vsimpl; field; lra. }
  intros t. pose proof (COS_bound t).
  destruct (perifocal_unit P W t (pl_P _ _ _ _ _ _ _ _ _ Korb) (pl_W _ _ _ _ _ _ _ _ _ Korb) (pl_WP _ _ _ _ _ _ _ _ _ Korb)) as (U & _).
  assert (Hdt : 1 - e <= 1 + e * cos t) by nra.
  assert (Hpp : 0 < h * h / mu) by (apply Rdiv_lt_0_compat; nra).
  unfold conic_pos, conic_radius. rewrite norm_vscale by (apply Rlt_le, Rdiv_lt_0_compat; lra).
  rewrite (norm_eq (perifocal P W t) 1), Rmult_1_r by lra.
  replace ra with (h * h / mu / (1 - e)) by (rewrite Kh2, Kra; field; lra).
  apply Rmult_le_compat_l; [lra|]. apply Rinv_le_contravar; lra.
Qed.
(** Exit on the way down: the coast trajectory starts at the mirror point instead of the exit point. *)
Theorem C67_inbound_exit_refuted : forall name w pk ob, Planet name = Ok (fl_planet w) -> Orbiter w pk = Ok ob ->
  0 < ob_rp ob -> captured ob -> dot (ob_r_vec ob) (ob_v_ie ob) < 0 ->
  hd None (ob_coast_arr ob) <> Some (vscale (1 / RP (ob_planet ob)) (ob_r_vec ob)).
Proof.
  intros name w pk ob HP HO Hrp Hc Hin. pose proof Hc as (Hr & _).
  destruct (captured_bound _ _ _ _ HP HO Hrp Hc) as (Hmu & HRP & a & e & h & ra & a' & e' & h' & P & W & i & Om & om & K).
  destruct (theta_exit_eq _ _ _ _ _ _ _ _ _ _ _ _ _ _ _ _ HP HO Hr K) as (Hcb & Hth).
  destruct K as [Kco Ka Ke Kh Kh2 KaE Kfr Kra Kapo Korb Ki KO Ka' Ke' Kh' Kh2' Kvc Kvo].
  set (mu := GM (ob_planet ob)) in *.
  destruct (state_components _ _ _ _ _ _ _ Hmu Kfr) as (Hr' & Hrx & Hxy & Hex & Hey & Hv).
  set (c := dot (ob_r_vec ob) P / norm (ob_r_vec ob)) in *.
  destruct (cos_sin_acos c Hcb) as (C & Sn & S2).
  assert (Hy : dot (ob_r_vec ob) (cross W P) < 0).
  { assert (0 < h / mu) by (apply Rdiv_lt_0_compat; auto).
    assert (e * dot (ob_r_vec ob) (cross W P) < 0). { rewrite Hey. replace (h * dot (ob_r_vec ob) (ob_v_ie ob) / mu) with (h / mu * dot (ob_r_vec ob) (ob_v_ie ob)) by (field; lra). nra. }
    nra. }
  assert (Harr : ob_coast_arr ob = scaled (ob_planet ob) (orb_pos (ob_planet ob) (ob_coast ob)) (linspace_opt (ob_theta_exit ob) (Some PI) (S (S 299)))).
  { destruct (Orbiter_inv _ _ _ HO) as (x & _ & ->). reflexivity. }
  rewrite Harr, Hth, first_scaled.
  assert (Hd : 0 < 1 + e * cos (acos c)). { rewrite C. nra. }
  rewrite (orb_pos_eq _ _ _ _ _ _ _ _ _ _ _ Kco) by lra. cbn [obind]. fold mu. intros Heq.
  assert (Heq' : conic_pos mu h e P W (acos c) = ob_r_vec ob).
  { assert (Hs : vscale (RP (ob_planet ob)) (vscale (1 / RP (ob_planet ob)) (conic_pos mu h e P W (acos c))) =
                vscale (RP (ob_planet ob)) (vscale (1 / RP (ob_planet ob)) (ob_r_vec ob))) by congruence.
    clear -Hs HRP. revert Hs. generalize (conic_pos mu h e P W (acos c)) (ob_r_vec ob). intros [x1 x2 x3] [y1 y2 y3] Hs.
    assert (E : forall z, RP (ob_planet ob) * (1 / RP (ob_planet ob) * z) = z) by (intros; field; lra).
    unfold vscale in Hs. simpl in Hs. rewrite !E in Hs. exact Hs. }
  assert (Hq : dot (conic_pos mu h e P W (acos c)) (cross W P) = conic_radius mu h e (acos c) * sin (acos c)).
  { destruct (frame_facts P W (pl_P _ _ _ _ _ _ _ _ _ Korb) (pl_W _ _ _ _ _ _ _ _ _ Korb) (pl_WP _ _ _ _ _ _ _ _ _ Korb)) as (F1 & F2 & _).
    unfold conic_pos, perifocal. rewrite dot_vscale_l. f_equal. revert F1 F2. generalize (cross W P). intros [q1 q2 q3] F1 F2. destruct P as [p1 p2 p3].
    transitivity (cos (acos c) * (q1 * p1 + q2 * p2 + q3 * p3) + sin (acos c) * (q1 * q1 + q2 * q2 + q3 * q3)); [vsimpl; ring|].
    unfold norm2, dot in *. simpl in *. rewrite F1, F2. ring. }
  rewrite Heq' in Hq. assert (0 < conic_radius mu h e (acos c)) by (unfold conic_radius; apply Rdiv_lt_0_compat; auto; apply Rdiv_lt_0_compat; nra).
  nra.
Qed.

(** C69: an exit state that is not captured is accepted without complaint: on a hyperbolic exit orbit,
    which has no apoapsis, an apoapsis radius |a|(1+e) and a finite periapsis-raise delta-V are reported. *)
Theorem C69_escaping_vehicle_silent : forall name w pk ob, Planet name = Ok (fl_planet w) -> Orbiter w pk = Ok ob ->
  0 < ob_rp ob -> 0 < x_r (ob_exit ob) -> tilted (ang_mom (ob_r_vec ob) (ob_v_ie ob)) ->
  let mu := GM (ob_planet ob) in let E := energy mu (ob_r_vec ob) (ob_v_ie ob) in
  0 < E ->
  exists a e dv, 1 < e /\ e = norm (ecc_vector mu (ob_r_vec ob) (ob_v_ie ob)) /\ a = mu / (2 * E) /\ 0 < a /\
    ob_r_apo ob = Some (a * (1 + e)) /\ ob_PRM_dv_mag ob = Some dv.
Proof.
  intros name w pk ob HP HO Hrp Hr Ht mu E HE. pose proof (Planet_facts _ _ HP) as Hf.
  destruct (Orbiter_inv _ _ _ HO) as (x & _ & Hob).
  assert (Hmu : 0 < mu) by (unfold mu; subst ob; apply Hf). assert (HRP : 0 < RP (ob_planet ob)) by (subst ob; apply Hf).
  assert (Hn : norm (ob_r_vec ob) = x_r (ob_exit ob)) by (subst ob; apply sph_norm; cbn in *; lra).
  set (rv := ob_r_vec ob) in *. set (vv := ob_v_ie ob) in *.
  assert (Hrv : rv <> vzero).
  { intros Z. rewrite Z in Hn. rewrite (norm_eq vzero 0) in Hn; [lra|lra|vsimpl; ring]. }
  assert (Hh0 : ang_mom rv vv <> vzero) by (intros Z; rewrite Z in Ht; destruct Ht; simpl in *; lra).
  pose proof (norm_pos _ Hh0) as Hh.
  assert (Hee : norm2 (ecc_vector mu rv vv) = 1 + 2 * E * norm2 (ang_mom rv vv) / (mu * mu)) by (apply ecc_norm2; auto).
  assert (Hgt : 1 < norm2 (ecc_vector mu rv vv)).
  { rewrite Hee. assert (0 < 2 * E * norm2 (ang_mom rv vv) / (mu * mu)); [|lra]. apply Rdiv_lt_0_compat; [|mpos].
    rewrite <- norm_sq. mpos. }
  assert (He0 : ecc_vector mu rv vv <> vzero) by (intros Z; rewrite Z in Hgt; replace (norm2 vzero) with 0 in Hgt by (vsimpl; ring); lra).
  destruct (elements_of_state (ob_planet ob) rv vv Hmu Ht He0 (Rgt_not_eq _ _ HE)) as (i & Om & om & K & F & Hh2 & _). fold mu in K, F, Hh2. fold E in K, F, Hh2.
  set (e := norm (ecc_vector mu rv vv)) in *. set (h := norm (ang_mom rv vv)) in *. set (a := - mu / (2 * E)) in *.
  set (P := vscale (1 / e) (ecc_vector mu rv vv)) in *. set (W := vscale (1 / h) (ang_mom rv vv)) in *.
  assert (He : 1 < e) by (assert (e * e > 1) by (unfold e; rewrite norm_sq; lra); pose proof (of_e _ _ _ _ _ _ _ F); nra).
  assert (Ha : a < 0). { unfold a. replace (- mu / (2 * E)) with (- (mu / (2 * E))) by (field; lra). assert (0 < mu / (2 * E)) by (apply Rdiv_lt_0_compat; lra). lra. }
  assert (Kco : placed (ob_coast ob) a e h P W i Om om).
  { rewrite Hn in K. replace (ob_coast ob) with (orbit_elements (ob_planet ob) rv vv (x_r (ob_exit ob)) (norm vv)); auto. unfold rv, vv. subst ob. reflexivity. }
  assert (Hd : 1 + e * cos PI <> 0) by (rewrite cos_PI; lra).
  assert (Hcr : conic_radius mu h e PI = a * (1 + e)) by (unfold conic_radius; rewrite Hh2, cos_PI; field; lra).
  set (ra := - a * (1 + e)). assert (Hra : 0 < ra) by (unfold ra; nra).
  assert (Hapo : ob_r_apo ob = Some ra).
  { replace (ob_r_apo ob) with (leto u := last (scaled (ob_planet ob) (orb_pos (ob_planet ob) (ob_coast ob)) (linspace_opt (ob_theta_exit ob) (Some PI) (S (S 299)))) None in Some (norm u * RP (ob_planet ob)))
      by (subst ob; reflexivity).
    rewrite last_scaled, (orb_pos_eq _ _ _ _ _ _ _ _ _ _ _ Kco Hd). cbn [obind]. f_equal. fold mu.
    unfold conic_pos. rewrite Hcr.
    destruct (perifocal_unit P W PI (of_P _ _ _ _ _ _ _ F) (of_W _ _ _ _ _ _ _ F) (of_WP _ _ _ _ _ _ _ F)) as (U & _).
    rewrite (norm_eq _ (ra / RP (ob_planet ob))).
    - field. lra.
    - apply Rlt_le, Rdiv_lt_0_compat; lra.
    - rewrite !norm2_vscale, U. unfold ra. field. lra. }
  assert (Hvc : exists vc, ob_v_coast ob = Some vc).
  { replace (ob_v_coast ob) with (orb_vel (ob_planet ob) (ob_coast ob) PI) by (subst ob; reflexivity).
    rewrite (orb_vel_eq _ _ _ _ _ _ _ _ _ _ _ Kco); eauto; lra. }
  set (rp := ob_rp ob) in *.
  set (e' := (ra - rp) / (ra + rp)). set (a' := (ra + rp) / 2).
  assert (Ee : o_e (ob_orb ob) = Some e').
  { replace (o_e (ob_orb ob)) with (leto r := ob_r_apo ob in np_div (r - rp) (r + rp)) by (unfold rp; subst ob; reflexivity). rewrite Hapo. cbn [obind].
    rewrite np_div_some by lra. reflexivity. }
  assert (E1e : 1 + e' = 2 * ra / (ra + rp)) by (unfold e'; field; lra).
  assert (E1e' : 1 - e' * e' = 4 * ra * rp / ((ra + rp) * (ra + rp))) by (unfold e'; field; lra).
  assert (H1e : 0 < 1 + e') by (rewrite E1e; apply Rdiv_lt_0_compat; lra).
  assert (H1e' : 0 < 1 - e' * e') by (rewrite E1e'; apply Rdiv_lt_0_compat; nra).
  assert (Ea : o_a (ob_orb ob) = Some a').
  { replace (o_a (ob_orb ob)) with (leto r := ob_r_apo ob in leto ec := o_e (ob_orb ob) in np_div r (1 + ec)) by (subst ob; reflexivity). rewrite Hapo, Ee. cbn [obind].
    rewrite np_div_some by lra. f_equal. rewrite E1e. unfold a'. field. lra. }
  assert (Ha' : 0 < a') by (unfold a'; lra).
  assert (Hp' : 0 < a' * mu * (1 - e' * e')) by (apply Rmult_lt_0_compat; nra).
  set (h' := sqrt (a' * mu * (1 - e' * e'))).
  assert (Eh : o_h (ob_orb ob) = Some h').
  { replace (o_h (ob_orb ob)) with (leto sm := o_a (ob_orb ob) in leto ec := o_e (ob_orb ob) in np_sqrt (sm * mu * (1 - ec * ec))) by (unfold mu; subst ob; reflexivity).
    rewrite Ea, Ee. cbn [obind]. rewrite np_sqrt_some by lra. reflexivity. }
  assert (K' : placed (ob_orb ob) a' e' h' P W i Om om).
  { constructor; auto; try apply F; try apply (pl_dir _ _ _ _ _ _ _ _ _ Kco); try apply (pl_nrm _ _ _ _ _ _ _ _ _ Kco).
    - replace (o_i (ob_orb ob)) with (o_i (ob_coast ob)) by (subst ob; reflexivity). apply Kco.
    - replace (o_OMEGA (ob_orb ob)) with (o_OMEGA (ob_coast ob)) by (subst ob; reflexivity). apply Kco.
    - replace (o_omega (ob_orb ob)) with (o_omega (ob_coast ob)) by (subst ob; reflexivity). apply Kco. }
  assert (He'1 : 1 + e' * cos PI <> 0).
  { rewrite cos_PI. assert (K1 : 1 - e' = 2 * rp / (ra + rp)) by (unfold e'; field; lra). assert (0 < 2 * rp / (ra + rp)) by (apply Rdiv_lt_0_compat; lra). lra. }
  assert (Hvo : exists vo, ob_v_orbit ob = Some vo).
  { replace (ob_v_orbit ob) with (orb_vel (ob_planet ob) (ob_orb ob) PI) by (subst ob; reflexivity).
    assert (0 < h') by (apply sqrt_lt_R0; auto). assert (h' * h' = a' * mu * (1 - e' * e')) by (apply sqrt_sqrt; lra).
    rewrite (orb_vel_eq _ _ _ _ _ _ _ _ _ _ _ K'); eauto; lra. }
  destruct Hvc as (vc & Hvc). destruct Hvo as (vo & Hvo).
  exists (mu / (2 * E)), e, (norm (vsub vo vc)). split; auto. split; auto. split; auto.
  split. { apply Rdiv_lt_0_compat; lra. }
  split. { rewrite Hapo. f_equal. unfold ra, a. field. lra. }
  replace (ob_PRM_dv_mag ob) with (leto v1 := ob_v_orbit ob in leto v0 := ob_v_coast ob in Some (norm (vsub v1 v0))).
  - rewrite Hvo, Hvc. reflexivity.
  - subst ob. cbn [ob_v_orbit ob_v_coast ob_PRM_dv_mag orbiter_of]. destruct (orb_vel _ _ PI); [|reflexivity]. destruct (orb_vel _ _ PI); reflexivity.
Qed.
(** An exactly equatorial exit gives no node: apoapsis, maneuver and every position are NaN. *)
Theorem C69_equatorial_undefined : forall w pk ob, Orbiter w pk = Ok ob ->
  vx (ang_mom (ob_r_vec ob) (ob_v_ie ob)) = 0 -> vy (ang_mom (ob_r_vec ob) (ob_v_ie ob)) = 0 ->
  ob_r_apo ob = None /\ ob_PRM_dv_mag ob = None /\ forall th, ob_pos ob th = None /\ ob_vel ob th = None.
Proof.
  intros w pk ob HO Hx Hy. destruct (Orbiter_inv _ _ _ HO) as (x & _ & Hob).
  assert (Hel : o_OMEGA (ob_coast ob) = None /\ o_omega (ob_coast ob) = None).
  { subst ob. apply elements_equatorial; auto. }
  destruct Hel as (H1 & H2).
  assert (Hpos : forall th, orb_pos (ob_planet ob) (ob_coast ob) th = None).
  { intros. unfold orb_pos. destruct (orb_r _ _ _); auto. cbn [obind]. rewrite H2. reflexivity. }
  assert (Hapo : ob_r_apo ob = None).
  { replace (ob_r_apo ob) with (leto u := last (scaled (ob_planet ob) (orb_pos (ob_planet ob) (ob_coast ob)) (linspace_opt (ob_theta_exit ob) (Some PI) (S (S 299)))) None in Some (norm u * RP (ob_planet ob)))
      by (subst ob; reflexivity).
    rewrite last_scaled, Hpos. reflexivity. }
  assert (He : o_e (ob_orb ob) = None).
  { replace (o_e (ob_orb ob)) with (leto r := ob_r_apo ob in np_div (r - ob_rp ob) (r + ob_rp ob)) by (subst ob; reflexivity). rewrite Hapo. reflexivity. }
  assert (Hh : o_h (ob_orb ob) = None).
  { replace (o_h (ob_orb ob)) with (leto sm := o_a (ob_orb ob) in leto ec := o_e (ob_orb ob) in np_sqrt (sm * GM (ob_planet ob) * (1 - ec * ec))) by (subst ob; reflexivity).
    rewrite He. destruct (o_a (ob_orb ob)); reflexivity. }
  assert (Hr : forall th, orb_r (ob_planet ob) (ob_orb ob) th = None) by (intros; unfold orb_r; rewrite Hh; reflexivity).
  split; auto. split.
  - replace (ob_PRM_dv_mag ob) with (leto v1 := orb_vel (ob_planet ob) (ob_orb ob) PI in leto v0 := ob_v_coast ob in Some (norm (vsub v1 v0))).
    + unfold orb_vel. rewrite Hr. reflexivity.
    + subst ob. cbn [ob_planet ob_orb ob_v_coast ob_PRM_dv_mag orbiter_of]. destruct (orb_vel _ _ PI); [|reflexivity]. destruct (orb_vel _ _ PI); reflexivity.
  - intros th. unfold ob_pos, ob_vel, orb_pos, orb_vel. rewrite Hr. auto.
Qed.
