(** Theorems about probe targeting from orbit: C36, C70, C71. *)
From Coq Require Import String Nsatz.
Require Import Verif.Base Verif.Numpy Verif.NumpyProofs Verif.PlanetModel Verif.PlanetProofs Verif.FrameModel Verif.FrameProofs Verif.ConicSpec Verif.ConicProofs
  Verif.HyperbolaProofs Verif.StateProofs Verif.EllipseProofs Verif.ApproachModel Verif.ApproachProofs Verif.OrbitScalarModel Verif.OrbiterModel Verif.OrbiterProofs
  Verif.PropApproach Verif.PropOrbiter.
Local Open Scope R_scope.

Lemma Ok_injr : forall (T : Type) (x y : T), Ok x = Ok y -> x = y.
Proof. intros T x y H. congruence. Qed.

(** Histories of maneuver calls on one Orbiter object. *)
Inductive ocall := Target (th dV : R) (n : nat) | Deflect (th dV : R) (n : nat).
Definition ostep (ob : orbiter) (c : ocall) : orbiter :=
  match c with
  | Target th dV n => fst (compute_probe_targeting_trajectory ob th dV n)
  | Deflect th dV n => fst (compute_orbiter_deflection_trajectory ob th dV n)
  end.
Definition after_calls (ob : orbiter) (h : list ocall) : orbiter := fold_left ostep h ob.

(** The orbit of a probe released by a burn dV at true anomaly th; it enters the atmosphere when its
    periapsis altitude is below h_skip. *)
Definition probe_orbit (ob : orbiter) (th dV : R) : orb := orbit_after (ob_planet ob) (ob_pos ob th) (ob_vel ob th) dV.
Definition enters (ob : orbiter) (th dV : R) : Prop :=
  exists hp, periapsis_alt (ob_planet ob) (probe_orbit ob th dV) = Some hp /\ hp < h_skip (ob_planet ob).
(** Entry anomaly of that probe. *)
Definition entry_anomaly (ob : orbiter) (th dV : R) : option R :=
  leto a := theta_exit_of (ob_planet ob) (probe_orbit ob th dV) (RP (ob_planet ob) + h_skip (ob_planet ob)) in Some (2 * PI - a).

Lemma below_iff : forall x y, below x y = true <-> exists z, x = Some z /\ z < y.
Proof.
  intros [z|] y; simpl; split.
  - intros H. apply Rltb_true in H. eauto.
  - intros (z' & E & L). injection E as <-. apply Rltb_true; auto.
  - discriminate.
  - intros (z' & E & _). discriminate.
Qed.
Lemma enters_dec : forall ob th dV, enters ob th dV <-> below (periapsis_alt (ob_planet ob) (probe_orbit ob th dV)) (h_skip (ob_planet ob)) = true.
Proof. intros. rewrite below_iff. reflexivity. Qed.

(** Calls never change the planet or the orbit. *)
Lemma target_keeps : forall ob th dV n, let ob' := fst (compute_probe_targeting_trajectory ob th dV n) in
  ob_planet ob' = ob_planet ob /\ ob_orb ob' = ob_orb ob /\ ob_probe ob' = Some (probe_orbit ob th dV).
Proof.
  intros ob th dV n ob'. unfold ob', compute_probe_targeting_trajectory. fold (probe_orbit ob th dV).
  destruct (below _ _); cbn [ob_theta_entry set_entry]; [repeat split; reflexivity|].
  destruct (ob_theta_entry (set_probe ob (probe_orbit ob th dV))); repeat split; reflexivity.
Qed.
Lemma defl_keeps : forall ob th dV n, let ob' := fst (compute_orbiter_deflection_trajectory ob th dV n) in
  ob_planet ob' = ob_planet ob /\ ob_orb ob' = ob_orb ob /\ ob_theta_entry ob' = ob_theta_entry ob.
Proof.
  intros ob th dV n ob'. unfold ob', compute_orbiter_deflection_trajectory. destruct (ob_probe ob); repeat split; reflexivity.
Qed.
Lemma target_theta : forall ob th dV n,
  ob_theta_entry (fst (compute_probe_targeting_trajectory ob th dV n)) =
  (if below (periapsis_alt (ob_planet ob) (probe_orbit ob th dV)) (h_skip (ob_planet ob)) then Some (entry_anomaly ob th dV) else ob_theta_entry ob).
Proof.
  intros. unfold compute_probe_targeting_trajectory. fold (probe_orbit ob th dV).
  destruct (below _ _); [reflexivity|]. cbn [ob_theta_entry set_probe]. destruct (ob_theta_entry ob) eqn:E; cbn; rewrite ?E; reflexivity.
Qed.
Lemma history_keeps : forall hist ob, ob_planet (after_calls ob hist) = ob_planet ob /\ ob_orb (after_calls ob hist) = ob_orb ob.
Proof.
  induction hist as [|c hist IH]; intros ob; [split; reflexivity|].
  cbn [after_calls fold_left]. destruct (IH (ostep ob c)) as (A & B). unfold after_calls in A, B. rewrite A, B.
  destruct c; cbn [ostep]; [destruct (target_keeps ob th dV n) as (? & ? & _)|destruct (defl_keeps ob th dV n) as (? & ? & _)]; auto.
Qed.
Lemma probe_orbit_keeps : forall ob ob' th dV, ob_planet ob' = ob_planet ob -> ob_orb ob' = ob_orb ob ->
  probe_orbit ob' th dV = probe_orbit ob th dV /\ (enters ob' th dV <-> enters ob th dV) /\ entry_anomaly ob' th dV = entry_anomaly ob th dV.
Proof.
  intros ob ob' th dV A B. assert (E : probe_orbit ob' th dV = probe_orbit ob th dV) by (unfold probe_orbit, ob_pos, ob_vel; rewrite A, B; reflexivity).
  split; auto. unfold enters, entry_anomaly. rewrite E, A. split; reflexivity.
Qed.

(** The entry-anomaly attribute after a history: that of the last probe that entered. *)
Lemma history_theta : forall hist ob,
  (ob_theta_entry (after_calls ob hist) = ob_theta_entry ob /\ forall t d m, In (Target t d m) hist -> ~ enters ob t d) \/
  (exists h1 t d m h2, hist = h1 ++ Target t d m :: h2 /\ enters ob t d /\ (forall t' d' m', In (Target t' d' m') h2 -> ~ enters ob t' d') /\
     ob_theta_entry (after_calls ob hist) = Some (entry_anomaly ob t d)).
Proof.
  induction hist as [|c hist IH] using rev_ind; intros ob; [left; split; [reflexivity|intros ? ? ? []]|].
  unfold after_calls. rewrite fold_left_app. cbn [fold_left]. fold (after_calls ob hist).
  destruct (history_keeps hist ob) as (A & B).
  destruct c as [th dV n|th dV n]; cbn [ostep].
  - rewrite target_theta. destruct (probe_orbit_keeps ob (after_calls ob hist) th dV A B) as (E1 & E2 & E3). rewrite E1, E3, A.
    destruct (below (periapsis_alt (ob_planet ob) (probe_orbit ob th dV)) (h_skip (ob_planet ob))) eqn:Eb.
    + right. exists hist, th, dV, n, []. split; auto. split; [apply enters_dec; auto|]. split; [intros ? ? ? []|reflexivity].
    + assert (Hn : ~ enters ob th dV) by (intros Z; apply enters_dec in Z; congruence).
      destruct (IH ob) as [(H1 & H2)|(h1 & t & d & m & h2 & H1 & H2 & H3 & H4)].
      * left. split; auto. intros t d m Hin. apply in_app_iff in Hin. destruct Hin as [Hin|[Hin|[]]]; [eauto|]. injection Hin as <- <- <-. auto.
      * right. exists h1, t, d, m, (h2 ++ [Target th dV n]). split; [rewrite H1, <- app_assoc; reflexivity|]. split; auto. split; auto.
        intros t' d' m' Hin. apply in_app_iff in Hin. destruct Hin as [Hin|[Hin|[]]]; [eauto|]. injection Hin as <- <- <-. auto.
  - destruct (defl_keeps (after_calls ob hist) th dV n) as (_ & _ & E). cbv zeta in E. rewrite E.
    destruct (IH ob) as [(H1 & H2)|(h1 & t & d & m & h2 & H1 & H2 & H3 & H4)].
    + left. split; auto. intros t d m Hin. apply in_app_iff in Hin. destruct Hin as [Hin|[Hin|[]]]; [eauto|discriminate].
    + right. exists h1, t, d, m, (h2 ++ [Deflect th dV n]). split; [rewrite H1, <- app_assoc; reflexivity|]. split; auto. split; auto.
      intros t' d' m' Hin. apply in_app_iff in Hin. destruct Hin as [Hin|[Hin|[]]]; [eauto|discriminate].
Qed.

Lemma fresh_orbiter : forall w pk ob, Orbiter w pk = Ok ob -> ob_theta_entry ob = None /\ ob_probe ob = None.
Proof. intros w pk ob H. destruct (Orbiter_inv _ _ _ H) as (x & _ & ->). split; reflexivity. Qed.

Lemma target_outcome : forall ob th dV n, let out := compute_probe_targeting_trajectory ob th dV n in
  match ob_theta_entry (fst out) with
  | None => snd out = Err AttributeError
  | Some t => snd out = Ok tt /\
      ob_probe_arr (fst out) = Some (scaled (ob_planet ob) (pos_vec_bi_probe (fst out)) (linspace_opt (Some th) t n))
  end.
Proof.
  intros ob th dV n out. unfold out, compute_probe_targeting_trajectory. fold (probe_orbit ob th dV).
  set (ob2 := if below _ _ then _ else _). destruct (ob_theta_entry ob2) as [t|] eqn:E.
  - cbn [fst snd]. replace (ob_theta_entry (set_probe_arr ob2 _)) with (ob_theta_entry ob2) by reflexivity. rewrite E. split; reflexivity.
  - cbn [fst snd]. rewrite E. reflexivity.
Qed.

(** C36: for every history of maneuver calls on an orbiter, a targeting call raises AttributeError iff
    neither it nor any earlier targeting call produced a probe that enters the atmosphere. *)
Theorem C36_targeting_raises_iff : forall w pk ob0 hist th dV n, Orbiter w pk = Ok ob0 ->
  let out := compute_probe_targeting_trajectory (after_calls ob0 hist) th dV n in
  (snd out = Err AttributeError <-> forall t d m, In (Target t d m) (hist ++ [Target th dV n]) -> ~ enters ob0 t d) /\
  (snd out = Err AttributeError \/ snd out = Ok tt).
Proof.
  intros w pk ob0 hist th dV n HO out. destruct (fresh_orbiter _ _ _ HO) as (Hf & _).
  pose proof (target_outcome (after_calls ob0 hist) th dV n) as HT. cbv zeta in HT. fold out in HT.
  pose proof (history_theta (hist ++ [Target th dV n]) ob0) as HH.
  assert (Ef : after_calls ob0 (hist ++ [Target th dV n]) = fst out).
  { unfold after_calls at 1. rewrite fold_left_app. reflexivity. }
  rewrite Ef in HH. destruct (ob_theta_entry (fst out)) as [t|] eqn:E.
  - destruct HT as (HT & _). split; [|right; auto]. rewrite HT. split; [discriminate|]. intros Hno. exfalso.
    destruct HH as [(H1 & _)|(h1 & t' & d & m & h2 & H1 & H2 & _)].
    + rewrite Hf in H1. discriminate.
    + apply (Hno t' d m); auto. rewrite H1. apply in_app_iff. right. left. reflexivity.
  - split; [|left; auto]. rewrite HT. split; auto. intros _. destruct HH as [(_ & H2)|(h1 & t' & d & m & h2 & H1 & H2 & H3 & H4)]; auto. discriminate.
Qed.
(** On a fresh orbiter: AttributeError iff the probe's periapsis altitude is not below h_skip. *)
Theorem C36_fresh_orbiter : forall w pk ob0 th dV n, Orbiter w pk = Ok ob0 ->
  (snd (compute_probe_targeting_trajectory ob0 th dV n) = Err AttributeError <-> ~ enters ob0 th dV).
Proof.
  intros w pk ob0 th dV n HO. destruct (C36_targeting_raises_iff w pk ob0 [] th dV n HO) as (H & _). cbn in H. unfold after_calls in H. simpl in H.
  rewrite H. split.
  - intros K. apply (K th dV n). auto.
  - intros K t d m [Hin|[]]. injection Hin as <- <- <-. auto.
Qed.
(** A deflection call raises AttributeError iff no targeting call (even a failed one) came before it. *)
Theorem C36_deflection_raises_iff : forall w pk ob0 hist th dV n, Orbiter w pk = Ok ob0 ->
  let out := compute_orbiter_deflection_trajectory (after_calls ob0 hist) th dV n in
  (snd out = Err AttributeError <-> forall t d m, ~ In (Target t d m) hist) /\
  (snd out = Err AttributeError \/ snd out = Ok tt) /\ (snd out = Err AttributeError -> fst out = after_calls ob0 hist).
Proof.
  intros w pk ob0 hist th dV n HO out.
  assert (H0 : ob_probe ob0 = None) by (unfold Orbiter in HO; destruct (exit_state_atm w); cbn [rbind] in HO; [injection HO as <-; reflexivity|discriminate]).
  assert (G : forall h ob, ob_probe (after_calls ob h) = None <-> ob_probe ob = None /\ forall t d m, ~ In (Target t d m) h).
  { induction h as [|c h IH]; intros ob; [cbn; tauto|]. change (after_calls ob (c :: h)) with (after_calls (ostep ob c) h). rewrite IH. destruct c as [t d m|t d m]; cbn [ostep In].
    - destruct (target_keeps ob t d m) as (_ & _ & K). cbv zeta in K. rewrite K. split; [intros (K' & _); discriminate|intros (_ & K'); exfalso; apply (K' t d m); auto].
    - assert (E : ob_probe (fst (compute_orbiter_deflection_trajectory ob t d m)) = ob_probe ob) by (unfold compute_orbiter_deflection_trajectory; destruct (ob_probe ob) eqn:E; cbn; auto).
      rewrite E. split; intros (K1 & K2); split; auto; intros t' d' m'; [intros [K|K]; [discriminate|apply (K2 _ _ _ K)]|intros K; apply (K2 t' d' m'); auto]. }
  specialize (G hist ob0). unfold out, compute_orbiter_deflection_trajectory. destruct (ob_probe (after_calls ob0 hist)) as [o|]; cbn [fst snd].
  - split; [|split; [auto|discriminate]]. split; [discriminate|]. intros K. assert (Z : Some o = None) by (apply G; auto). discriminate.
  - split; [|auto]. split; auto. intros _. apply G. auto.
Qed.
(** After an earlier probe that entered, a later probe that misses the atmosphere is silently given the
    entry anomaly of the last probe that entered, and its trajectory is sampled up to that anomaly. *)
Theorem C36_stale_entry_anomaly : forall w pk ob0 h1 t d m h2 th dV n, Orbiter w pk = Ok ob0 ->
  enters ob0 t d -> (forall t' d' m', In (Target t' d' m') h2 -> ~ enters ob0 t' d') -> ~ enters ob0 th dV ->
  let out := compute_probe_targeting_trajectory (after_calls ob0 (h1 ++ Target t d m :: h2)) th dV n in
  snd out = Ok tt /\ ob_theta_entry (fst out) = Some (entry_anomaly ob0 t d) /\
  ob_probe (fst out) = Some (probe_orbit ob0 th dV) /\
  ob_probe_arr (fst out) = Some (scaled (ob_planet ob0) (pos_vec_bi_probe (fst out)) (linspace_opt (Some th) (entry_anomaly ob0 t d) n)).
Proof.
  intros w pk ob0 h1 t d m h2 th dV n HO He Hh2 Hn out.
  set (ob := after_calls ob0 (h1 ++ Target t d m :: h2)) in *.
  destruct (history_keeps (h1 ++ Target t d m :: h2) ob0) as (A & B). fold ob in A, B.
  assert (Hth : ob_theta_entry ob = Some (entry_anomaly ob0 t d)).
  { set (ob1 := after_calls ob0 h1). destruct (history_keeps h1 ob0) as (A1 & B1). fold ob1 in A1, B1.
    set (ob2 := ostep ob1 (Target t d m)).
    assert (E2 : ob_theta_entry ob2 = Some (entry_anomaly ob0 t d)).
    { unfold ob2. cbn [ostep]. rewrite target_theta. destruct (probe_orbit_keeps ob0 ob1 t d A1 B1) as (E1 & E2' & E3). rewrite E1, E3, A1.
      apply enters_dec in He. rewrite He. reflexivity. }
    assert (A2 : ob_planet ob2 = ob_planet ob0 /\ ob_orb ob2 = ob_orb ob0).
    { unfold ob2. cbn [ostep]. destruct (target_keeps ob1 t d m) as (X & Y & _). rewrite X, Y. auto. }
    destruct A2 as (A2 & B2).
    assert (Eob : ob = after_calls ob2 h2) by (unfold ob, ob2, ob1, after_calls; rewrite fold_left_app; reflexivity).
    destruct (history_theta h2 ob2) as [(H1 & _)|(x1 & t' & d' & m' & x2 & H1 & H2 & _)].
    - rewrite Eob, H1. auto.
    - exfalso. apply (Hh2 t' d' m'); [rewrite H1; apply in_app_iff; right; left; reflexivity|].
      apply (probe_orbit_keeps ob0 ob2 t' d' A2 B2). auto. }
  destruct (probe_orbit_keeps ob0 ob th dV A B) as (E1 & E2 & E3).
  assert (Hto : ob_theta_entry (fst out) = Some (entry_anomaly ob0 t d)).
  { unfold out. rewrite target_theta, E1, A.
    destruct (below (periapsis_alt (ob_planet ob0) (probe_orbit ob0 th dV)) (h_skip (ob_planet ob0))) eqn:Eb; auto.
    exfalso. apply Hn. apply enters_dec. auto. }
  pose proof (target_outcome ob th dV n) as HT. cbv zeta in HT. fold out in HT. rewrite Hto in HT. destruct HT as (HT1 & HT2).
  split; auto. split; auto. split; [|rewrite HT2, A; reflexivity].
  destruct (target_keeps ob th dV n) as (_ & _ & X). cbv zeta in X. fold out in X. rewrite X, E1. reflexivity.
Qed.

(** Periapsis distance of a state, from its angular momentum and eccentricity vector. *)
Definition peri_radius (mu : R) (r v : vec) : R := norm2 (ang_mom r v) / (mu * (1 + norm (ecc_vector mu r v))).

(** The post-burn state and its orbit. *)
Lemma burn_orbit : forall name w pk ob th dV, Planet name = Ok (fl_planet w) -> Orbiter w pk = Ok ob -> 0 < ob_rp ob -> captured ob ->
  exists r v, ob_pos ob th = Some r /\ ob_vel ob th = Some v /\ v <> vzero /\
  let s := 1 + dV / norm v in let v2 := vscale s v in
  after_burn v dV = Some v2 /\
  probe_orbit ob th dV = orbit_elements (ob_planet ob) r v2 (norm r) (norm v2).
Proof.
  intros name w pk ob th dV HP HO Hrp Hc.
  destruct (C32_velocity_always_outward _ _ _ _ HP HO Hrp Hc) as (e & h & P & W & _ & _ & _ & _ & _ & Hall).
  destruct (Hall th) as (r & v & Hp & Hv & Hdot & _). exists r, v. split; auto. split; auto.
  assert (Hv0 : v <> vzero) by (intros Z; rewrite Z in Hdot; unfold dot, vzero in Hdot; simpl in Hdot; lra).
  split; auto. pose proof (norm_pos v Hv0) as Hn.
  assert (Hb : after_burn v dV = Some (vscale (1 + dV / norm v) v)).
  { unfold after_burn. rewrite np_div_some by lra. cbn [obind]. f_equal. revert Hn. generalize (norm v). intros n Hn. destruct v; apply vec_eq; vsimpl; field; lra. }
  split; auto. unfold probe_orbit, orbit_after. rewrite Hp, Hv. cbn [obind]. rewrite Hb. reflexivity.
Qed.
(** [enters] says that the Keplerian orbit of the state after the burn dips below the skip altitude. *)
Theorem C36_enters_meaning : forall name w pk ob th dV, Planet name = Ok (fl_planet w) -> Orbiter w pk = Ok ob -> 0 < ob_rp ob -> captured ob ->
  exists r v, ob_pos ob th = Some r /\ ob_vel ob th = Some v /\
  let mu := GM (ob_planet ob) in let v2 := vadd v (vscale (dV / norm v) v) in
  dV <> - norm v -> ecc_vector mu r v2 <> vzero -> energy mu r v2 <> 0 ->
  (enters ob th dV <-> peri_radius mu r v2 - RP (ob_planet ob) < h_skip (ob_planet ob)).
Proof.
  intros name w pk ob th dV HP HO Hrp Hc.
  destruct (burn_orbit _ _ _ _ th dV HP HO Hrp Hc) as (r & v & Hp & Hv & Hv0 & Hb & Hpo).
  exists r, v. split; auto. split; auto. intros mu v2 Hs He HE.
  pose proof (norm_pos v Hv0) as Hn.
  assert (E2 : v2 = vscale (1 + dV / norm v) v) by (unfold v2; generalize (dV / norm v); intros; destruct v; apply vec_eq; vsimpl; ring).
  set (s := 1 + dV / norm v) in *.
  assert (Hs0 : s <> 0). { unfold s. intros Z. apply Hs. replace dV with (dV / norm v * norm v) by (field; lra). replace (dV / norm v) with (-1) by lra. ring. }
  destruct (C31_orbit_states _ _ _ _ HP HO Hrp Hc) as (a' & e' & h' & _ & _ & _ & _ & _ & _ & Hall).
  destruct (Hall th) as (r' & v' & Hp' & Hv' & Hrr & _ & Hh & k & Hk & Hang).
  rewrite Hp in Hp'. rewrite Hv in Hv'. injection Hp' as <-. injection Hv' as <-.
  destruct Hc as (Hr & Ht & _).
  assert (Hmu : 0 < mu). { unfold mu. destruct (Orbiter_inv _ _ _ HO) as (x & _ & ->). apply (Planet_facts _ _ HP). }
  assert (Ht2 : tilted (ang_mom r v2)).
  { assert (Ea : ang_mom r v2 = vscale (s * k) (ang_mom (ob_r_vec ob) (ob_v_ie ob))).
    { rewrite E2. transitivity (vscale s (ang_mom r v)).
      - unfold ang_mom. generalize s. intros; destruct r, v; apply vec_eq; vsimpl; ring.
      - rewrite Hang. generalize (ang_mom (ob_r_vec ob) (ob_v_ie ob)). intros [? ? ?]; apply vec_eq; vsimpl; ring. }
    rewrite Ea. assert (Hsk : s * k <> 0) by (apply Rmult_integral_contrapositive_currified; lra).
    destruct Ht as [Ht|Ht]; [left|right]; apply Rmult_integral_contrapositive_currified; auto. }
  destruct (elements_of_state (ob_planet ob) r v2 Hmu Ht2 He HE) as (i & Om & om & K & F & Hh2 & _).
  unfold enters. rewrite Hpo, <- E2. unfold periapsis_alt. rewrite (pl_a _ _ _ _ _ _ _ _ _ K), (pl_e _ _ _ _ _ _ _ _ _ K). cbn [obind]. fold mu in Hh2, F |- *.
  set (ee := norm (ecc_vector mu r v2)) in *. pose proof (of_e _ _ _ _ _ _ _ F) as He0. pose proof (of_h _ _ _ _ _ _ _ F) as Hh0.
  assert (Epr : - mu / (2 * energy mu r v2) * (1 - ee) = peri_radius mu r v2).
  { unfold peri_radius. fold ee. rewrite <- norm_sq. rewrite Hh2. field. repeat split; try lra; auto. }
  rewrite Epr. split.
  - intros (hp & E & L). injection E as <-. lra.
  - intros L. eexists. split; [reflexivity|lra].
Qed.

(** The probe orbit in the orbiter's frame. *)
Lemma probe_placed : forall name w pk ob th dV, Planet name = Ok (fl_planet w) -> Orbiter w pk = Ok ob -> 0 < ob_rp ob -> captured ob ->
  exists a' e' h' P W i Om om r v, placed (ob_orb ob) a' e' h' P W i Om om /\ (forall t, 0 < 1 + e' * cos t) /\
  0 < GM (ob_planet ob) /\ 0 < RP (ob_planet ob) /\ 0 < h' /\
  ob_pos ob th = Some r /\ ob_vel ob th = Some v /\ r = conic_pos (GM (ob_planet ob)) h' e' P W th /\ 0 < norm r /\ 0 < dot r v /\ v <> vzero /\
  let mu := GM (ob_planet ob) in let v2 := vadd v (vscale (dV / norm v) v) in
  - norm v < dV -> ecc_vector mu r v2 <> vzero -> energy mu r v2 <> 0 ->
  0 < dot r v2 /\
  exists a2 e2 h2 P2 om2, placed (probe_orbit ob th dV) a2 e2 h2 P2 W i Om om2 /\ oframe mu r v2 h2 e2 P2 W /\
    a2 = - mu / (2 * energy mu r v2) /\ h2 * h2 = a2 * mu * (1 - e2 * e2) /\ e2 = norm (ecc_vector mu r v2) /\ h2 = norm (ang_mom r v2).
Proof.
  intros name w pk ob th dV HP HO Hrp Hc.
  destruct (captured_bound _ _ _ _ HP HO Hrp Hc) as (Hmu & HRP & a & e & h & ra & a' & e' & h' & P & W & i & Om & om & K).
  destruct (post_facts _ _ _ _ _ _ _ _ _ _ _ _ _ K Hrp) as (Hra & Ha' & He' & Hd).
  pose proof (post_state _ _ _ _ _ _ _ _ _ _ _ _ _ Hmu Hrp K th) as Sn. destruct K as [Kco Ka Ke Kh Kh2 KaE Kfr Kra Kapo Korb Ki KO Ka' Ke' Kh' Kh2' Kvc Kvo].
  destruct Sn as (Hp & Hv & Hrr & HU & HWU & Hvv & Hlt).
  destruct (burn_orbit _ _ _ _ th dV HP HO Hrp Hc) as (r & v & Hp' & Hv' & Hv0 & Hb & Hpo).
  exists a', e', h', P, W, i, Om, om, r, v. split; auto. split; auto. split; auto. split; auto. split; auto. split; auto. split; auto.
  set (mu := GM (ob_planet ob)) in *. set (rr := conic_radius mu h' e' th) in *.
  assert (Er : r = conic_pos mu h' e' P W th) by congruence.
  assert (Ev : v = loaded_vel mu 1 a' h' rr (perifocal P W th) W) by congruence.
  assert (Hge : 0 < mu * (2 / rr - 1 / a') - h' / (rr * kf) * (h' / (rr * kf))).
  { pose proof (Rle_0_sqr (mu / h' * (e' * sin th))) as Hsq. unfold Rsqr in Hsq. lra. }
  destruct (loaded_invariants mu 1 a' h' rr (perifocal P W th) W HU (pl_W _ _ _ _ _ _ _ _ _ Korb) HWU Hrr Hmu ltac:(auto) ltac:(lra)) as (L1 & L2 & L3 & L4).
  rewrite <- Ev in L2, L3, L4. change (vscale rr (perifocal P W th)) with (conic_pos mu h' e' P W th) in L1, L3, L4. rewrite <- Er in L1, L3, L4.
  assert (Hdot : 0 < dot r v). { rewrite L4. rewrite Rmult_1_l. apply Rmult_lt_0_compat; auto. apply sqrt_lt_R0. auto. }
  split; auto. split; [rewrite L1; auto|]. split; auto. split; auto. intros mu' v2 Hs He HE. subst mu'.
  pose proof (norm_pos v Hv0) as Hn.
  assert (E2 : v2 = vscale (1 + dV / norm v) v) by (unfold v2; generalize (dV / norm v); intros; destruct v; apply vec_eq; vsimpl; ring).
  set (s := 1 + dV / norm v) in *.
  assert (Hs0 : 0 < s). { unfold s. replace (1 + dV / norm v) with ((norm v + dV) / norm v) by (field; lra). apply Rdiv_lt_0_compat; lra. }
  assert (Hkf : 1 < kf) by (unfold kf; lra).
  assert (Hq : 0 < s * (h' / kf)) by (apply Rmult_lt_0_compat; auto; apply Rdiv_lt_0_compat; lra).
  assert (Ea : ang_mom r v2 = vscale (s * (h' / kf)) W).
  { rewrite E2. transitivity (vscale s (ang_mom r v)).
    - unfold ang_mom. generalize s. intros; destruct r, v; apply vec_eq; vsimpl; ring.
    - rewrite L3. generalize (h' / kf). intros; destruct W; apply vec_eq; vsimpl; ring. }
  split. { rewrite E2, dot_vscale_r. apply Rmult_lt_0_compat; auto. }
  assert (Nh : norm (ang_mom r v2) = s * (h' / kf)).
  { rewrite Ea, norm_vscale by lra. rewrite (norm_eq W 1) by (try lra; rewrite (pl_W _ _ _ _ _ _ _ _ _ Korb); ring). ring. }
  assert (Ht2 : tilted (ang_mom r v2)).
  { destruct Hc as (_ & Ht & _). unfold tilted. rewrite Ea.
    rewrite (of_hW _ _ _ _ _ _ _ Kfr) in Ht. destruct W as [wx wy wz]. unfold tilted in Ht. simpl in *.
    destruct Ht as [Ht|Ht]; [left|right]; apply Rmult_integral_contrapositive_currified; try lra; intros Z; apply Ht; rewrite Z; ring. }
  destruct (elements_of_state (ob_planet ob) r v2 Hmu Ht2 He HE) as (i2 & Om2 & om2 & K2 & F & Hh2 & Hi2 & HO2).
  fold mu in K2, F, Hh2, Hi2, HO2.
  assert (EW : vscale (1 / norm (ang_mom r v2)) (ang_mom r v2) = W).
  { rewrite Nh, Ea. revert Hq. generalize (s * (h' / kf)). intros q Hq'. destruct W; apply vec_eq; vsimpl; field; lra. }
  rewrite EW in K2, F, Hi2, HO2. assert (Zi : i2 = i) by congruence. assert (ZO : Om2 = Om) by congruence. rewrite Zi, ZO in K2.
  exists (- mu / (2 * energy mu r v2)), (norm (ecc_vector mu r v2)), (norm (ang_mom r v2)), (vscale (1 / norm (ecc_vector mu r v2)) (ecc_vector mu r v2)), om2.
  split; [rewrite Hpo; rewrite E2 in K2 at 1 2; exact K2|]. split; auto.
Qed.

(** Reported probe positions: the probe orbit's radius in the orbiter's perifocal frame. *)
Lemma probe_pos : forall ob ob' o a' e' h' P W i Om om a2 e2 h2 P2 om2 t,
  placed (ob_orb ob) a' e' h' P W i Om om -> placed o a2 e2 h2 P2 W i Om om2 ->
  ob_planet ob' = ob_planet ob -> ob_orb ob' = ob_orb ob -> ob_probe ob' = Some o -> 1 + e2 * cos t <> 0 ->
  pos_vec_bi_probe ob' t = Some (conic_pos (GM (ob_planet ob)) h2 e2 P W t).
Proof.
  intros ob ob' o a' e' h' P W i Om om a2 e2 h2 P2 om2 t K K2 A B C Hd. unfold pos_vec_bi_probe. rewrite A, B, C. cbn [obind].
  rewrite (orb_r_eq _ _ _ _ _ _ _ _ _ _ _ K2 Hd). cbn [obind].
  rewrite (pl_o _ _ _ _ _ _ _ _ _ K), (pl_i _ _ _ _ _ _ _ _ _ K), (pl_O _ _ _ _ _ _ _ _ _ K2), (pl_i _ _ _ _ _ _ _ _ _ K2). cbn [obind].
  unfold conic_pos. rewrite <- (pl_dir _ _ _ _ _ _ _ _ _ K). reflexivity.
Qed.

Lemma perifocal_inj : forall P W a b, norm2 P = 1 -> norm2 W = 1 -> dot W P = 0 -> perifocal P W a = perifocal P W b -> cos a = cos b.
Proof.
  intros P W a b HP HW HWP H. assert (E : dot (perifocal P W a) P = dot (perifocal P W b) P) by (rewrite H; reflexivity).
  unfold perifocal in E. destruct P as [p1 p2 p3], W as [w1 w2 w3]. unfold norm2, dot in *. simpl in *. clear H.
  assert (X : forall c s, (c * p1 + s * (w2 * p3 - w3 * p2)) * p1 + (c * p2 + s * (w3 * p1 - w1 * p3)) * p2 + (c * p3 + s * (w1 * p2 - w2 * p1)) * p3 = c).
  { intros. transitivity (c * (p1 * p1 + p2 * p2 + p3 * p3)); [ring|rewrite HP; ring]. }
  rewrite <- (X (cos a) (sin a)), <- (X (cos b) (sin b)). exact E.
Qed.

(** C70: after a burn along the velocity that neither reverses it nor makes the orbit circular or
    parabolic, the probe orbit has the orbiter's inclination and node, and every reported probe
    position lies in the orbiter's orbit plane, in the direction of the orbiter's position at the same
    anomaly, at the distance of the probe orbit.  The probe's own orbit (through the burn state) has
    periapsis direction P2. *)
Theorem C70_probe_plane : forall name w pk ob hist th dV n, Planet name = Ok (fl_planet w) -> Orbiter w pk = Ok ob -> 0 < ob_rp ob -> captured ob ->
  let out := compute_probe_targeting_trajectory (after_calls ob hist) th dV n in
  exists r v, ob_pos ob th = Some r /\ ob_vel ob th = Some v /\
  let mu := GM (ob_planet ob) in let v2 := vadd v (vscale (dV / norm v) v) in
  - norm v < dV -> ecc_vector mu r v2 <> vzero -> energy mu r v2 <> 0 ->
  exists o, ob_probe (fst out) = Some o /\
    o_i o <> None /\ o_i o = o_i (ob_orb ob) /\ o_OMEGA o <> None /\ o_OMEGA o = o_OMEGA (ob_orb ob) /\
    o_a o = Some (- mu / (2 * energy mu r v2)) /\ o_e o = Some (norm (ecc_vector mu r v2)) /\ o_h o = Some (norm (ang_mom r v2)) /\
    exists P W, norm2 P = 1 /\ norm2 W = 1 /\ dot W P = 0 /\
      forall t, exists q, ob_pos ob t = Some q /\ q = vscale (norm q) (perifocal P W t) /\
        (1 + norm (ecc_vector mu r v2) * cos t <> 0 ->
         pos_vec_bi_probe (fst out) t = Some (conic_pos mu (norm (ang_mom r v2)) (norm (ecc_vector mu r v2)) P W t)).
Proof.
  intros name w pk ob hist th dV n HP HO Hrp Hc out.
  destruct (probe_placed _ _ _ _ th dV HP HO Hrp Hc) as (a' & e' & h' & P & W & i & Om & om & r & v & K & Hd & Hmu & HRP & Hh' & Hp & Hv & Er & Hnr & Hdot & Hv0 & Hrest).
  exists r, v. split; auto. split; auto. intros mu v2 Hs He HE.
  destruct (Hrest Hs He HE) as (_ & a2 & e2 & h2 & P2 & om2 & K2 & F & Ea & Eh & Ee & Eh2). fold mu v2 in F, Ea, Eh, Ee, Eh2.
  destruct (history_keeps hist ob) as (A & B). destruct (target_keeps (after_calls ob hist) th dV n) as (A' & B' & C'). cbv zeta in A', B', C'. fold out in A', B', C'.
  destruct (probe_orbit_keeps ob (after_calls ob hist) th dV A B) as (E1 & _). rewrite E1 in C'.
  exists (probe_orbit ob th dV). split; auto.
  rewrite (pl_i _ _ _ _ _ _ _ _ _ K2), (pl_O _ _ _ _ _ _ _ _ _ K2), (pl_i _ _ _ _ _ _ _ _ _ K), (pl_O _ _ _ _ _ _ _ _ _ K).
  rewrite (pl_a _ _ _ _ _ _ _ _ _ K2), (pl_e _ _ _ _ _ _ _ _ _ K2), (pl_h _ _ _ _ _ _ _ _ _ K2).
  split; [discriminate|]. split; auto. split; [discriminate|]. split; auto. split; [congruence|]. split; [congruence|]. split; [congruence|].
  exists P, W. split; [apply K|]. split; [apply K|]. split; [apply K|].
  intros t. specialize (Hd t). exists (conic_pos mu h' e' P W t). split.
  { unfold ob_pos. apply (orb_pos_eq _ _ _ _ _ _ _ _ _ _ _ K). lra. }
  split.
  - destruct (perifocal_unit P W t (pl_P _ _ _ _ _ _ _ _ _ K) (pl_W _ _ _ _ _ _ _ _ _ K) (pl_WP _ _ _ _ _ _ _ _ _ K)) as (U & _).
    assert (Hr : 0 < conic_radius mu h' e' t). { unfold conic_radius. apply Rdiv_lt_0_compat; auto. apply Rdiv_lt_0_compat; auto. nra. }
    unfold conic_pos. rewrite norm_vscale by lra. rewrite (norm_eq (perifocal P W t) 1) by lra. rewrite Rmult_1_r. reflexivity.
  - intros Ht. rewrite <- Ee, <- Eh2 in *. eapply probe_pos; eauto; congruence.
Qed.

(** The reported probe trajectory starts at the burn point only if the burn anomaly has the cosine of
    the burn point's true anomaly on the probe orbit; after a burn at apoapsis it never does. *)
Theorem C70_gap_iff : forall name w pk ob hist th dV n, Planet name = Ok (fl_planet w) -> Orbiter w pk = Ok ob -> 0 < ob_rp ob -> captured ob ->
  let out := compute_probe_targeting_trajectory (after_calls ob hist) th dV n in
  exists r v, ob_pos ob th = Some r /\ ob_vel ob th = Some v /\
  let mu := GM (ob_planet ob) in let v2 := vadd v (vscale (dV / norm v) v) in
  - norm v < dV -> ecc_vector mu r v2 <> vzero -> energy mu r v2 <> 0 -> 1 + norm (ecc_vector mu r v2) * cos th <> 0 ->
  (pos_vec_bi_probe (fst out) th = Some r <-> dot r (ecc_vector mu r v2) = norm r * norm (ecc_vector mu r v2) * cos th) /\
  (cos th = -1 -> pos_vec_bi_probe (fst out) th <> Some r).
Proof.
  intros name w pk ob hist th dV n HP HO Hrp Hc out.
  destruct (probe_placed _ _ _ _ th dV HP HO Hrp Hc) as (a' & e' & h' & P & W & i & Om & om & r & v & K & Hd & Hmu & HRP & Hh' & Hp & Hv & Er & Hnr & Hdot & Hv0 & Hrest).
  exists r, v. split; auto. split; auto. intros mu v2 Hs He HE Hden.
  destruct (Hrest Hs He HE) as (Hdot2 & a2 & e2 & h2 & P2 & om2 & K2 & F & Ea & Eh & Ee & Eh2). fold mu v2 in Hdot2, F, Ea, Eh, Ee, Eh2.
  destruct (history_keeps hist ob) as (A & B). destruct (target_keeps (after_calls ob hist) th dV n) as (A' & B' & C'). cbv zeta in A', B', C'. fold out in A', B', C'.
  destruct (probe_orbit_keeps ob (after_calls ob hist) th dV A B) as (E1 & _). rewrite E1 in C'.
  rewrite <- Ee in *.
  assert (Epos : pos_vec_bi_probe (fst out) th = Some (conic_pos mu h2 e2 P W th)) by (eapply probe_pos; eauto; congruence).
  destruct (perifocal_unit P W th (pl_P _ _ _ _ _ _ _ _ _ K) (pl_W _ _ _ _ _ _ _ _ _ K) (pl_WP _ _ _ _ _ _ _ _ _ K)) as (U & _).
  assert (Hd' := Hd th).
  assert (Hr : 0 < conic_radius mu h' e' th). { unfold conic_radius. apply Rdiv_lt_0_compat; auto. apply Rdiv_lt_0_compat; auto. nra. }
  assert (Nr : norm r = conic_radius mu h' e' th).
  { rewrite Er. unfold conic_pos. fold mu. rewrite norm_vscale by lra. rewrite (norm_eq (perifocal P W th) 1) by lra. ring. }
  pose proof (of_h _ _ _ _ _ _ _ F) as Hh20. pose proof (of_e _ _ _ _ _ _ _ F) as He20.
  destruct (state_components _ _ _ _ _ _ _ Hmu F) as (_ & Hrx & Hxy & Hex & Hey & _). fold mu in Hrx, Hxy, Hex, Hey.
  assert (Edot : dot r (ecc_vector mu r v2) = e2 * dot r P2).
  { rewrite (of_eP _ _ _ _ _ _ _ F). rewrite dot_vscale_r. reflexivity. }
  assert (Eiff : pos_vec_bi_probe (fst out) th = Some r <-> conic_radius mu h2 e2 th = norm r).
  { rewrite Epos. split.
    - intros Z. assert (Z' : conic_pos mu h2 e2 P W th = r) by congruence. rewrite Er in Z'.
      assert (Zd : dot (conic_pos mu h2 e2 P W th) (perifocal P W th) = dot (conic_pos (GM (ob_planet ob)) h' e' P W th) (perifocal P W th)) by (rewrite Z'; reflexivity).
      unfold conic_pos in Zd. rewrite !dot_vscale_l in Zd. change (dot (perifocal P W th) (perifocal P W th)) with (norm2 (perifocal P W th)) in Zd. rewrite U, !Rmult_1_r in Zd.
      rewrite Zd, Nr. reflexivity.
    - intros Z. f_equal. rewrite Er. unfold conic_pos. fold mu. rewrite Z, Nr. reflexivity. }
  assert (Hmu' : mu <> 0) by (unfold mu; lra).
  assert (Main : pos_vec_bi_probe (fst out) th = Some r <-> dot r (ecc_vector mu r v2) = norm r * e2 * cos th).
  { rewrite Eiff, Edot, Hex. unfold conic_radius. split.
    - intros Z. rewrite <- Z. field. split; auto; lra.
    - intros Z. replace (h2 * h2 / mu) with (norm r * (1 + e2 * cos th)) by lra. field. auto. }
  split; auto. intros Hcos Z. apply Main in Z. rewrite Edot, Hcos in Z.
  assert (X : dot r P2 = - norm r) by (apply Rmult_eq_reg_l with e2; lra).
  assert (Y : dot r (cross W P2) = 0) by (rewrite X in Hxy; nra).
  rewrite Y in Hey. assert (0 < h2 * dot r v2 / mu) by (apply Rdiv_lt_0_compat; auto; nra). lra.
Qed.

Lemma asin_lt : forall x y, -1 <= x <= 1 -> -1 <= y <= 1 -> acos x = acos y -> x = y.
Proof. intros x y Hx Hy E. rewrite <- (cos_acos x), <- (cos_acos y), E by auto. reflexivity. Qed.

(** Entry block: what the targeting call stores when the probe enters. *)
Lemma target_entry : forall ob th dV n, enters ob th dV ->
  let out := compute_probe_targeting_trajectory ob th dV n in
  let ob1 := set_probe ob (probe_orbit ob th dV) in
  ob_entry (fst out) = Some (probe_entry_of ob1 (probe_orbit ob th dV)) /\ snd out = Ok tt /\
  ob_probe_arr (fst out) = Some (scaled (ob_planet ob) (pos_vec_bi_probe ob1) (linspace_opt (Some th) (entry_anomaly ob th dV) n)).
Proof.
  intros ob th dV n He out ob1. unfold out, compute_probe_targeting_trajectory. fold (probe_orbit ob th dV). apply enters_dec in He. rewrite He.
  split; [reflexivity|]. split; reflexivity.
Qed.

(** C70: a probe released outside the atmosphere boundary on an orbit that enters has a reported entry
    anomaly on the inbound half of its orbit, and both the reported entry position and the last point
    of its trajectory lie exactly on the boundary sphere. *)
Theorem C70_entry_on_boundary : forall name w pk ob hist th dV n, Planet name = Ok (fl_planet w) -> Orbiter w pk = Ok ob -> 0 < ob_rp ob -> captured ob ->
  let ob1 := after_calls ob hist in let out := compute_probe_targeting_trajectory ob1 th dV (S (S n)) in
  exists r v, ob_pos ob th = Some r /\ ob_vel ob th = Some v /\
  let mu := GM (ob_planet ob) in let v2 := vadd v (vscale (dV / norm v) v) in
  let rE := RP (ob_planet ob) + h_skip (ob_planet ob) in
  - norm v < dV -> ecc_vector mu r v2 <> vzero -> energy mu r v2 <> 0 -> enters ob th dV -> rE <= norm r ->
  snd out = Ok tt /\
  exists pe t q arr u, ob_entry (fst out) = Some pe /\ pe_theta pe = Some t /\ PI <= t <= 2 * PI /\
    pe_r pe = Some q /\ norm q = rE /\ pos_vec_bi_probe (fst out) t = Some q /\
    ob_probe_arr (fst out) = Some arr /\ last arr None = Some u /\ RP (ob_planet ob) * norm u = rE.
Proof.
  intros name w pk ob hist th dV n HP HO Hrp Hc ob1 out.
  destruct (probe_placed _ _ _ _ th dV HP HO Hrp Hc) as (a' & e' & h' & P & W & i & Om & om & r & v & K & Hd & Hmu & HRP & Hh' & Hp & Hv & Er & Hnr & Hdot & Hv0 & Hrest).
  exists r, v. split; auto. split; auto. intros mu v2 rE Hs He HE Hent HrE.
  destruct (Hrest Hs He HE) as (Hdot2 & a2 & e2 & h2 & P2 & om2 & K2 & F & Ea & Eh & Ee & Eh2). fold mu v2 in Hdot2, F, Ea, Eh, Ee, Eh2.
  destruct (history_keeps hist ob) as (A & B). fold ob1 in A, B.
  destruct (probe_orbit_keeps ob ob1 th dV A B) as (E1 & E2 & E3).
  assert (Hent1 : enters ob1 th dV) by (apply E2; auto).
  destruct (target_entry ob1 th dV (S (S n)) Hent1) as (T1 & T2 & T3). cbv zeta in T1, T2, T3. fold out in T1, T2, T3.
  split; auto.
  pose proof (of_h _ _ _ _ _ _ _ F) as Hh20. pose proof (of_e _ _ _ _ _ _ _ F) as He20.
  fold mu in Hmu.
  assert (HrE0 : 0 < rE). { pose proof (Planet_facts _ _ HP) as Hf. assert (ob_planet ob = fl_planet w) by (destruct (Orbiter_inv _ _ _ HO) as (x & _ & ->); reflexivity).
    unfold rE. rewrite H. assert (0 < h_trap (fl_planet w) < h_skip (fl_planet w)) by apply Hf. rewrite H in HRP. lra. }
  destruct Hent as (hp & Hhp & Hlt). unfold periapsis_alt in Hhp. rewrite (pl_a _ _ _ _ _ _ _ _ _ K2), (pl_e _ _ _ _ _ _ _ _ _ K2) in Hhp. cbn [obind] in Hhp.
  injection Hhp as Hhp.
  assert (Ha2 : a2 <> 0). { rewrite Ea. unfold Rdiv. apply Rmult_integral_contrapositive_currified; [lra|]. apply Rinv_neq_0_compat. lra. }
  assert (He1 : 1 - e2 * e2 <> 0). { intros Z. rewrite Z, Rmult_0_r in Eh. nra. }
  assert (Hrpb : a2 * (1 - e2) < rE) by (unfold rE; lra).
  destruct (state_components _ _ _ _ _ _ _ Hmu F) as (_ & Hrx & Hxy & Hex & Hey & _).
  set (c := (h2 * h2 / (mu * rE) - 1) * (1 / e2)).
  assert (HmrE : 0 < mu * rE) by nra.
  assert (Hq0 : 0 < h2 * h2 / (mu * rE)) by (apply Rdiv_lt_0_compat; nra).
  assert (Hp2 : h2 * h2 / mu = a2 * (1 - e2) * (1 + e2)) by (rewrite Eh; field; lra).
  assert (Hrp0 : 0 < a2 * (1 - e2)). { assert (0 < h2 * h2 / mu) by (apply Rdiv_lt_0_compat; nra). nra. }
  assert (Hq1 : h2 * h2 / (mu * rE) < 1 + e2).
  { replace (h2 * h2 / (mu * rE)) with ((1 + e2) * (a2 * (1 - e2)) / rE) by (rewrite Eh; field; lra).
    apply Rmult_lt_reg_r with rE; auto. unfold Rdiv. rewrite Rmult_assoc, Rinv_l by lra. nra. }
  assert (Hx : - norm r <= dot r P2) by nra.
  assert (Hq2 : 1 - e2 <= h2 * h2 / (mu * rE)).
  { assert (Y : (1 - e2) * norm r <= h2 * h2 / mu) by nra.
    replace (h2 * h2 / (mu * rE)) with (h2 * h2 / mu / rE) by (field; lra).
    apply Rmult_le_reg_r with rE; auto. unfold Rdiv at 1. rewrite (Rmult_assoc _ (/ rE)), Rinv_l by lra.
    destruct (Rle_or_lt 0 (1 - e2)); [nra|]. assert (0 < h2 * h2 / mu) by (apply Rdiv_lt_0_compat; nra). nra. }
  assert (Hcb : -1 <= c <= 1).
  { assert (Ec : c * e2 = h2 * h2 / (mu * rE) - 1) by (unfold c; field; lra). split; nra. }
  assert (Hth : theta_exit_of (ob_planet ob) (probe_orbit ob th dV) rE = Some (acos c)).
  { unfold theta_exit_of. rewrite (pl_h _ _ _ _ _ _ _ _ _ K2), (pl_e _ _ _ _ _ _ _ _ _ K2). cbn [obind]. fold mu. rewrite (np_div_some (h2 * h2)) by lra. cbn [obind].
    rewrite (np_div_some 1 e2) by lra. cbn [obind]. fold c. apply np_arccos_some. auto. }
  assert (Han : entry_anomaly ob th dV = Some (2 * PI - acos c)) by (unfold entry_anomaly; fold rE; rewrite Hth; reflexivity).
  set (t := 2 * PI - acos c) in *. pose proof (acos_bound c) as Hab.
  assert (Hct : cos t = c). { unfold t. replace (2 * PI - acos c) with (- acos c + 2 * PI) by ring. rewrite cos_plus, cos_2PI, sin_2PI, cos_neg, cos_acos by auto. ring. }
  assert (Hden : 1 + e2 * cos t = h2 * h2 / (mu * rE)) by (rewrite Hct; unfold c; field; lra).
  assert (Hpos : forall ob', ob_planet ob' = ob_planet ob -> ob_orb ob' = ob_orb ob -> ob_probe ob' = Some (probe_orbit ob th dV) ->
     pos_vec_bi_probe ob' t = Some (conic_pos mu h2 e2 P W t)).
  { intros ob' X Y Z. eapply probe_pos; eauto. lra. }
  destruct (perifocal_unit P W t (pl_P _ _ _ _ _ _ _ _ _ K) (pl_W _ _ _ _ _ _ _ _ _ K) (pl_WP _ _ _ _ _ _ _ _ _ K)) as (U & _).
  assert (Hrad : conic_radius mu h2 e2 t = rE).
  { unfold conic_radius. rewrite Hden. field. split; [|split]; lra. }
  assert (Nq : norm (conic_pos mu h2 e2 P W t) = rE).
  { unfold conic_pos. rewrite Hrad, norm_vscale by lra. rewrite (norm_eq (perifocal P W t) 1) by lra. ring. }
  destruct (target_keeps ob1 th dV (S (S n))) as (A' & B' & C'). cbv zeta in A', B', C'. fold out in A', B', C'. rewrite E1 in C', T1, T3. rewrite E3, A, Han in T3.
  assert (A2 : ob_planet (set_probe ob1 (probe_orbit ob th dV)) = ob_planet ob) by exact A.
  assert (B2 : ob_orb (set_probe ob1 (probe_orbit ob th dV)) = ob_orb ob) by exact B.
  assert (PT : pe_theta (probe_entry_of (set_probe ob1 (probe_orbit ob th dV)) (probe_orbit ob th dV)) = Some t).
  { cbn [pe_theta probe_entry_of]. rewrite A2. fold rE. rewrite Hth. reflexivity. }
  eexists _, t, (conic_pos mu h2 e2 P W t), _, (vscale (1 / RP (ob_planet ob)) (conic_pos mu h2 e2 P W t)).
  split; [exact T1|]. split; [exact PT|]. split; [unfold t; lra|]. split.
  { change (pe_r (probe_entry_of (set_probe ob1 (probe_orbit ob th dV)) (probe_orbit ob th dV))) with
      (leto t := pe_theta (probe_entry_of (set_probe ob1 (probe_orbit ob th dV)) (probe_orbit ob th dV)) in pos_vec_bi_probe (set_probe ob1 (probe_orbit ob th dV)) t).
    rewrite PT. cbn [obind]. apply Hpos; auto. }
  split; auto. split; [apply Hpos; congruence|]. split; [exact T3|].
  split. { rewrite last_scaled. rewrite Hpos; auto. }
  rewrite norm_vscale by (apply Rmult_le_pos; [lra|left; apply Rinv_0_lt_compat; auto]). rewrite Nq. field. lra.
Qed.

(** C71: the flight-path angle reported as atmosphere-relative is the angle of the inertial velocity;
    it differs from the angle of the atmosphere-relative velocity whenever the two speeds differ and
    the probe is not flying horizontally. *)
Definition flight_path_angle (r v : vec) : R := PI / 2 - acos (dot r v / (norm r * norm v)).
Lemma cos_bound_dot : forall r v, r <> vzero -> v <> vzero -> -1 <= dot r v / (norm r * norm v) <= 1.
Proof.
  intros r v Hr Hv. pose proof (norm_pos r Hr) as H1. pose proof (norm_pos v Hv) as H2.
  assert (E : dot r v / (norm r * norm v) = dot (vscale (1 / norm r) r) (vscale (1 / norm v) v)).
  { rewrite dot_vscale_l, dot_vscale_r. field. lra. }
  rewrite E. apply cauchy_unit; apply unit_norm2; auto.
Qed.
Theorem C71_gamma_atm_is_inertial : forall ob th dV n, enters ob th dV ->
  exists pe, ob_entry (fst (compute_probe_targeting_trajectory ob th dV n)) = Some pe /\
  forall r v, pe_r pe = Some r -> pe_v pe = Some v -> r <> vzero -> v <> vzero ->
    pe_gamma_atm pe = Some (flight_path_angle r v) /\
    let va := vsub v (air_velocity (OMEGA (ob_planet ob)) r) in
    (va <> vzero -> dot r v <> 0 -> norm va <> norm v -> flight_path_angle r va <> flight_path_angle r v) /\
    (va <> vzero -> (dot r v = 0 \/ norm va = norm v) -> flight_path_angle r va = flight_path_angle r v).
Proof.
  intros ob th dV n He. destruct (target_entry ob th dV n He) as (T1 & _). eexists. split; [exact T1|].
  intros r v Hr Hv Hr0 Hv0. pose proof (norm_pos r Hr0) as H1. pose proof (norm_pos v Hv0) as H2.
  set (pe := probe_entry_of _ _) in *.
  split.
  - change (pe_gamma_atm pe) with (leto q := (leto x := pe_r pe in unit_of x) in leto y := (leto x := pe_v pe in unit_of x) in leto a := np_arccos (dot q y) in Some (PI / 2 - a)).
    rewrite Hr, Hv. cbn [obind]. rewrite !unit_of_some by auto. cbn [obind]. rewrite dot_vscale_l, dot_vscale_r.
    replace (1 / norm r * (1 / norm v * dot r v)) with (dot r v / (norm r * norm v)) by (field; lra).
    rewrite np_arccos_some by (apply cos_bound_dot; auto). reflexivity.
  - intros va. assert (Ed : dot r va = dot r v) by (unfold va, air_velocity; destruct r, v; vsimpl; ring).
    split.
    + intros Hva Hd Hn E. pose proof (norm_pos va Hva) as H3. unfold flight_path_angle in E.
      assert (E' : dot r va / (norm r * norm va) = dot r v / (norm r * norm v)) by (apply asin_lt; try apply cos_bound_dot; auto; lra).
      rewrite Ed in E'. apply Hn.
      assert (dot r v * norm v = dot r v * norm va).
      { replace (dot r v * norm v) with (dot r v / (norm r * norm va) * (norm r * norm va * norm v)) by (field; lra). rewrite E'. field. lra. }
      apply Rmult_eq_reg_l with (dot r v); auto.
    + intros Hva [Hd|Hn]; unfold flight_path_angle; rewrite Ed.
      * rewrite Hd. unfold Rdiv. rewrite !Rmult_0_l. reflexivity.
      * rewrite Hn. reflexivity.
Qed.

(** Every burn that removes enough speed makes the probe enter. *)
Theorem C36_some_burn_enters : forall name w pk ob th, Planet name = Ok (fl_planet w) -> Orbiter w pk = Ok ob -> 0 < ob_rp ob -> captured ob ->
  exists r v d, ob_pos ob th = Some r /\ ob_vel ob th = Some v /\ 0 < d <= norm v /\ forall dV, - norm v < dV < - norm v + d -> enters ob th dV /\
    let v2 := vadd v (vscale (dV / norm v) v) in ecc_vector (GM (ob_planet ob)) r v2 <> vzero /\ energy (GM (ob_planet ob)) r v2 < 0.
Proof.
  intros name w pk ob th HP HO Hrp Hc.
  destruct (C31_orbit_states _ _ _ _ HP HO Hrp Hc) as (a & e & h & _ & _ & _ & Ha & He & Hh & Hall).
  destruct (Hall th) as (r & v & Hp & Hv & Hrr & HEn & Hnh & k & Hk & Hang).
  assert (Hmu : 0 < GM (ob_planet ob)) by (destruct (Orbiter_inv _ _ _ HO) as (x & _ & ->); apply (Planet_facts _ _ HP)).
  assert (HRP : 0 < RP (ob_planet ob)) by (destruct (Orbiter_inv _ _ _ HO) as (x & _ & ->); apply (Planet_facts _ _ HP)).
  assert (Hsk : 0 < h_skip (ob_planet ob)).
  { destruct (Orbiter_inv _ _ _ HO) as (x & _ & ->). change (0 < h_skip (fl_planet w)). destruct (Planet_facts _ _ HP) as (_ & _ & _ & _ & ? & _). lra. }
  set (mu := GM (ob_planet ob)) in *. set (H := h / 1.0000001) in *.
  assert (HH : 0 < H) by (apply Rdiv_lt_0_compat; lra).
  assert (Hden : 0 < 1 + e * cos th). { pose proof (ecos_pos (- e) th ltac:(lra)). lra. }
  assert (Hr : 0 < norm r). { rewrite Hrr. apply Rdiv_lt_0_compat; auto. apply Rdiv_lt_0_compat; auto. nra. }
  assert (Hv0 : v <> vzero). { intros Z. rewrite Z in Hnh. replace (ang_mom r vzero) with vzero in Hnh by (unfold ang_mom, vzero; destruct r; apply vec_eq; vsimpl; ring).
    rewrite (norm_eq vzero 0) in Hnh by (try lra; unfold vzero; vsimpl; ring). lra. }
  pose proof (norm_pos v Hv0) as Hn.
  (* s^2 H^2 < mu min(r, RP) *)
  set (m := Rmin (norm r) (RP (ob_planet ob))). assert (Hm : 0 < m) by (apply Rmin_glb_lt; auto).
  set (s0 := Rmin 1 (mu * m / (H * H))).
  assert (Hs0 : 0 < s0). { apply Rmin_glb_lt; [lra|]. apply Rdiv_lt_0_compat; nra. }
  exists r, v, (s0 * norm v). split; auto. split; auto.
  split. { split; [nra|]. assert (s0 <= 1) by apply Rmin_l. nra. }
  intros dV HdV.
  destruct (C36_enters_meaning _ _ _ _ th dV HP HO Hrp Hc) as (r' & v' & Hp' & Hv' & Hiff). rewrite Hp in Hp'. rewrite Hv in Hv'. injection Hp' as <-. injection Hv' as <-.
  cbv zeta in Hiff. fold mu in Hiff. set (v2 := vadd v (vscale (dV / norm v) v)) in *.
  set (s := 1 + dV / norm v).
  assert (E2 : v2 = vscale s v) by (unfold v2, s; generalize (dV / norm v); intros; destruct v; apply vec_eq; vsimpl; ring).
  assert (Es : s * norm v = norm v + dV) by (unfold s; field; lra).
  assert (Hs : 0 < s < s0) by (split; apply Rmult_lt_reg_r with (norm v); lra).
  assert (Hs1 : s < 1). { assert (s0 <= 1) by apply Rmin_l. lra. }
  assert (Nh : norm (ang_mom r v2) = s * H).
  { rewrite E2. replace (ang_mom r (vscale s v)) with (vscale s (ang_mom r v)) by (unfold ang_mom; generalize s; intros; destruct r, v; apply vec_eq; vsimpl; ring).
    rewrite norm_vscale by lra. rewrite Hnh. reflexivity. }
  assert (Hsm : s * H * (s * H) < mu * m).
  { assert (Hx : s0 <= mu * m / (H * H)) by apply Rmin_r.
    assert (s * (H * H) < mu * m). { apply Rlt_le_trans with (s0 * (H * H)); [apply Rmult_lt_compat_r; nra|].
      replace (mu * m) with (mu * m / (H * H) * (H * H)) by (field; lra). apply Rmult_le_compat_r; nra. }
    replace (s * H * (s * H)) with (s * (s * (H * H))) by ring. assert (0 < s * (H * H)) by (apply Rmult_lt_0_compat; nra). nra. }
  assert (Hm1 : m <= norm r) by apply Rmin_l. assert (Hm2 : m <= RP (ob_planet ob)) by apply Rmin_r.
  assert (HE2 : energy mu r v2 < 0).
  { unfold energy in *. rewrite E2, norm2_vscale. assert (0 < mu / (2 * a)) by (apply Rdiv_lt_0_compat; lra).
    assert (norm2 v / 2 - mu / norm r < 0). { rewrite HEn. unfold Rdiv in *. lra. } assert (0 <= norm2 v) by (rewrite <- norm_sq; nra).
    assert (s * s * norm2 v <= norm2 v) by (assert (s * s <= 1) by nra; nra). lra. }
  assert (Ed : dot (ecc_vector mu r v2) r = norm2 (ang_mom r v2) / mu - norm r).
  { unfold ecc_vector, ang_mom. pose proof (norm_sq r) as Hsq. set (n := norm r) in *. clearbody n.
    transitivity (norm2 (cross r v2) / mu - norm2 r / n); [|rewrite <- Hsq; field; lra]. destruct r, v2. vsimpl. field. lra. }
  assert (He2 : ecc_vector mu r v2 <> vzero).
  { intros Z. rewrite Z in Ed. replace (dot vzero r) with 0 in Ed by (unfold vzero; destruct r; vsimpl; ring).
    rewrite <- norm_sq, Nh in Ed. assert (s * H * (s * H) / mu < norm r); [|lra].
    apply Rmult_lt_reg_r with mu; auto. unfold Rdiv. rewrite Rmult_assoc, Rinv_l by lra. nra. }
  split; [|split; auto]. apply Hiff; auto; try lra.
  unfold peri_radius. rewrite <- norm_sq, Nh. set (ee := norm (ecc_vector mu r v2)). assert (0 <= ee) by apply sqrt_pos.
  assert (s * H * (s * H) / (mu * (1 + ee)) < RP (ob_planet ob)); [|lra].
  assert (0 < mu * (1 + ee)) by nra.
  apply Rmult_lt_reg_r with (mu * (1 + ee)); auto. unfold Rdiv. rewrite Rmult_assoc, Rinv_l by lra. nra.
Qed.

(** Concrete orbiters: Neptune, exit at 1000 km altitude over the equator flying north at speed v and
    flight-path angle +-30 degrees. *)
Definition w_r : R := 25622e3.
Definition wit_flown (v g : R) : flown :=
  mkFlown NEPTUNE 2 [w_r + 5; w_r] [0; 0] [0; 0] [v; v] [g; g] [PI / 2; PI / 2].
Lemma wit_orbiter : forall v g pk, 0 < v -> exists ob, Orbiter (wit_flown v g) pk = Ok ob /\
  ob_planet ob = NEPTUNE /\ x_r (ob_exit ob) = w_r /\ ob_rp ob = pk * 1e3 + 24622e3 /\
  ob_r_vec ob = V3 w_r 0 0 /\ ob_v_ie ob = V3 (v * sin g) (w_r * 1.083385e-4) (v * cos g) /\
  norm (ob_r_vec ob) = w_r /\ norm2 (ob_v_ie ob) = v * v + w_r * 1.083385e-4 * (w_r * 1.083385e-4).
Proof.
  intros v g pk Hv. unfold Orbiter, exit_state_atm, wit_flown. cbn [fl_planet fl_index fl_r fl_theta fl_phi fl_v fl_gamma fl_psi].
  change (Z.of_nat 2 - 1)%Z with 1%Z. unfold py_get. cbn [length Z.ltb Z.of_nat Z.compare Pos.of_succ_nat Pos.succ Z.to_nat Pos.to_nat Pos.iter_op Nat.add nth_error rbind].
  eexists. split; [reflexivity|]. split; [reflexivity|]. split; [reflexivity|]. split; [reflexivity|].
  assert (E1 : ob_r_vec (orbiter_of NEPTUNE (pk * 1e3 + RP NEPTUNE) (mkExit w_r 0 0 v g (PI / 2))) = V3 w_r 0 0).
  { cbn [ob_r_vec orbiter_of]. unfold exit_r_vec. cbn [x_r x_theta x_phi]. rewrite cos_0, sin_0. apply vec_eq; vsimpl; ring. }
  assert (E2 : ob_v_ie (orbiter_of NEPTUNE (pk * 1e3 + RP NEPTUNE) (mkExit w_r 0 0 v g (PI / 2))) = V3 (v * sin g) (w_r * 1.083385e-4) (v * cos g)).
  { cbn [ob_v_ie orbiter_of]. unfold exit_v_ie, exit_v_vec. cbn [x_r x_theta x_phi x_v x_g x_psi OMEGA NEPTUNE]. rewrite cos_0, sin_0, cos_PI2, sin_PI2. apply vec_eq; vsimpl; ring. }
  split; auto. split; auto. rewrite E1, E2. split.
  - apply norm_eq; [unfold w_r; lra|vsimpl; ring].
  - unfold norm2, dot; cbn [vx vy vz]. generalize (sin2cos2 g). generalize (sin g) (cos g). intros s c H. 
    replace (v * s * (v * s) + w_r * 1.083385e-4 * (w_r * 1.083385e-4) + v * c * (v * c)) with (v * v * (s * s + c * c) + w_r * 1.083385e-4 * (w_r * 1.083385e-4)) by ring.
    replace (s * s + c * c) with 1 by lra. ring.
Qed.
Lemma wit_captured : forall g pk ob, sin g * cos g <> 0 -> -20000 < pk -> Orbiter (wit_flown 20000 g) pk = Ok ob ->
  0 < ob_rp ob /\ captured ob /\ dot (ob_r_vec ob) (ob_v_ie ob) = w_r * 20000 * sin g /\
  -7e7 < energy (GM (ob_planet ob)) (ob_r_vec ob) (ob_v_ie ob) < -6e7.
Proof.
  intros g pk ob Hg Hpk HO. destruct (wit_orbiter 20000 g pk ltac:(lra)) as (ob' & HO' & A1 & A2 & A3 & A4 & A5 & A6 & A7).
  rewrite HO in HO'. apply Ok_injr in HO'. subst ob'.
  assert (Hs : sin g <> 0) by (intros Z; apply Hg; rewrite Z; ring). assert (Hc : cos g <> 0) by (intros Z; apply Hg; rewrite Z; ring).
  split; [rewrite A3; lra|].
  assert (HE : -7e7 < energy (GM (ob_planet ob)) (ob_r_vec ob) (ob_v_ie ob) < -6e7).
  { unfold energy. rewrite A6, A7, A1. cbn [GM NEPTUNE]. unfold w_r. lra. }
  split.
  - unfold captured. rewrite A1 in *. split; [rewrite A2; unfold w_r; lra|]. split; [|split].
    + rewrite A4, A5. unfold tilted, ang_mom. cbn [cross vx vy vz]. right. replace (0 * (20000 * sin g) - w_r * (20000 * cos g)) with (- (w_r * 20000) * cos g) by ring.
      apply Rmult_integral_contrapositive_currified; auto. unfold w_r. lra.
    + rewrite A4, A5. intros Z. apply (f_equal vz) in Z. unfold ecc_vector, vsub, vscale, cross, vzero in Z. cbn [vx vy vz] in Z.
      revert Z. cbn [GM NEPTUNE]. generalize (norm (V3 w_r 0 0)). intros n Z.
      assert (Z' : w_r * (20000 * 20000) * (sin g * cos g) = 0); [unfold Rdiv in Z; lra|].
      apply Rmult_integral in Z'. destruct Z' as [Z'|Z']; auto. unfold w_r in Z'. lra.
    + lra.
  - split; auto. rewrite A4, A5. unfold dot. cbn [vx vy vz]. ring.
Qed.

(** C71: what is reported at entry: radius of the boundary, vis-viva speed of the probe orbit, and the
    inertial flight-path angle of the probe orbit there (descending). *)
Theorem C71_inertial_entry : forall name w pk ob hist th dV n, Planet name = Ok (fl_planet w) -> Orbiter w pk = Ok ob -> 0 < ob_rp ob -> captured ob ->
  let ob1 := after_calls ob hist in let out := compute_probe_targeting_trajectory ob1 th dV n in
  exists r v, ob_pos ob th = Some r /\ ob_vel ob th = Some v /\
  let mu := GM (ob_planet ob) in let v2 := vadd v (vscale (dV / norm v) v) in
  let rE := RP (ob_planet ob) + h_skip (ob_planet ob) in
  - norm v < dV -> ecc_vector mu r v2 <> vzero -> energy mu r v2 <> 0 -> enters ob th dV -> rE <= norm r ->
  exists pe q u g, ob_entry (fst out) = Some pe /\ pe_r pe = Some q /\ norm q = rE /\
    pe_v pe = Some u /\ energy mu q u = energy mu r v2 /\
    pe_gamma_inertial pe = Some g /\ - (PI / 2) <= g <= 0 /\ rE * norm u * cos g = norm (ang_mom r v2).
Proof.
  intros name w pk ob hist th dV n HP HO Hrp Hc ob1 out.
  destruct (C70_entry_on_boundary _ _ _ _ hist th dV 0 HP HO Hrp Hc) as (r' & v' & Hp' & Hv' & Hmain).
  destruct (probe_placed _ _ _ _ th dV HP HO Hrp Hc) as (a' & e' & h' & P & W & i & Om & om & r & v & K & Hd & Hmu & HRP & Hh' & Hp & Hv & Er & Hnr & Hdot & Hv0 & Hrest).
  assert (Zr : r' = r) by congruence. assert (Zv : v' = v) by congruence. rewrite Zr, Zv in Hmain. clear Hp' Hv' Zr Zv r' v'.
  exists r, v. split; auto. split; auto.
  intros mu v2 rE Hs He HE Hent HrE. destruct (Hmain Hs He HE Hent HrE) as (_ & pe & t & q & arr & u0 & T1 & PT & Htb & Pr & Nq & Pq & _). clear Hmain.
  destruct (Hrest Hs He HE) as (Hdot2 & a2 & e2 & h2 & P2 & om2 & K2 & F & Ea & Eh & Ee & Eh2). fold mu v2 in Hdot2, F, Ea, Eh, Ee, Eh2. fold mu in Hmu. clear Hrest.
  destruct (history_keeps hist ob) as (A & B). fold ob1 in A, B.
  destruct (probe_orbit_keeps ob ob1 th dV A B) as (E1 & E2 & E3).
  assert (Hent1 : enters ob1 th dV) by (apply E2; auto).
  destruct (target_entry ob1 th dV 2 Hent1) as (T1' & _). destruct (target_entry ob1 th dV n Hent1) as (T2 & _). cbv zeta in T1', T2. fold out in T2. fold ob1 in T1.
  rewrite T1' in T1. injection T1 as Epe. rewrite Epe in T2. rewrite E1 in Epe.
  set (ob2 := set_probe ob1 (probe_orbit ob th dV)) in *.
  assert (Hth : theta_exit_of (ob_planet ob) (probe_orbit ob th dV) rE = Some (2 * PI - t)).
  { rewrite <- Epe in PT. cbn [pe_theta probe_entry_of] in PT. change (ob_planet ob2) with (ob_planet ob1) in PT. rewrite A in PT. fold rE in PT.
    destruct (theta_exit_of (ob_planet ob) (probe_orbit ob th dV) rE) as [x|]; cbn [obind] in PT; [|discriminate]. injection PT as PT. f_equal. lra. }
  pose proof (of_h _ _ _ _ _ _ _ F) as Hh20. pose proof (of_e _ _ _ _ _ _ _ F) as He20.
  assert (HrE0 : 0 < rE). { assert (Ep : ob_planet ob = fl_planet w) by (destruct (Orbiter_inv _ _ _ HO) as (x & _ & ->); reflexivity).
    unfold rE. rewrite Ep. rewrite Ep in HRP. destruct (Planet_facts _ _ HP) as (_ & _ & _ & _ & ? & _). lra. }
  assert (Hct : cos t = (h2 * h2 / (mu * rE) - 1) * (1 / e2)).
  { unfold theta_exit_of in Hth. rewrite (pl_h _ _ _ _ _ _ _ _ _ K2), (pl_e _ _ _ _ _ _ _ _ _ K2) in Hth. cbn [obind] in Hth. fold mu in Hth.
    rewrite (np_div_some (h2 * h2)) in Hth by nra. cbn [obind] in Hth. rewrite (np_div_some 1 e2) in Hth by lra. cbn [obind] in Hth.
    apply np_arccos_inv in Hth. destruct Hth as (Hb & Hth). rewrite <- (cos_acos _ Hb), <- Hth.
    replace t with (- (2 * PI - t) + 2 * PI) at 1 by ring. rewrite cos_plus, cos_2PI, sin_2PI, cos_neg. ring. }
  assert (Hden : 1 + e2 * cos t = h2 * h2 / (mu * rE)) by (rewrite Hct; field; lra).
  assert (Hden0 : 0 < h2 * h2 / (mu * rE)) by (apply Rdiv_lt_0_compat; nra).
  assert (Hrad : conic_radius mu h2 e2 t = rE). { unfold conic_radius. rewrite Hden. field. split; [|split]; lra. }
  assert (Ha2 : a2 <> 0). { rewrite Ea. unfold Rdiv. apply Rmult_integral_contrapositive_currified; [lra|]. apply Rinv_neq_0_compat. lra. }
  destruct (conic_visviva mu a2 e2 h2 t Hmu Ha2 Hh20 Eh ltac:(lra)) as (_ & Hvv). rewrite Hrad in Hvv.
  pose proof (Rle_0_sqr (mu / h2 * (e2 * sin t))) as Hsq. unfold Rsqr in Hsq.
  assert (Hhr : 0 < h2 / rE) by (apply Rdiv_lt_0_compat; auto).
  assert (Hv2p : 0 < mu * (2 / rE - 1 / a2)) by nra.
  assert (Hle : h2 / rE * (h2 / rE) <= mu * (2 / rE - 1 / a2)) by lra.
  pose proof (orb_vel_at_eq (ob_planet ob) (-1) _ _ _ _ _ _ _ _ _ rE t K2 ltac:(auto) Ha2 ltac:(lra) Hv2p Hle) as Hov. fold mu in Hov.
  set (u := loaded_vel mu (-1) a2 h2 rE (perifocal P2 W t) W) in *.
  destruct (perifocal_unit P2 W t (pl_P _ _ _ _ _ _ _ _ _ K2) (pl_W _ _ _ _ _ _ _ _ _ K2) (pl_WP _ _ _ _ _ _ _ _ _ K2)) as (U & V).
  assert (Hkf : 1 < kf) by (unfold kf; lra). assert (Hj : 0 < 1 / kf < 1) by (unfold kf; lra).
  assert (Hlt : 0 <= mu * (2 / rE - 1 / a2) - h2 / (rE * kf) * (h2 / (rE * kf))).
  { replace (h2 / (rE * kf)) with (h2 / rE * (1 / kf)) by (field; lra). set (x := h2 / rE) in *. set (j := 1 / kf) in *. clearbody x j.
    assert (x * j <= x) by nra. assert (0 <= x * j) by nra. nra. }
  destruct (loaded_invariants mu (-1) a2 h2 rE (perifocal P2 W t) W U (pl_W _ _ _ _ _ _ _ _ _ K2) V HrE0 Hmu ltac:(auto) Hlt) as (_ & N2 & _). fold u in N2.
  assert (Hpv : pe_v pe = Some u).
  { rewrite <- Epe. change (pe_v (probe_entry_of ob2 (probe_orbit ob th dV))) with (leto x := pe_theta (probe_entry_of ob2 (probe_orbit ob th dV)) in vel_vec_bi_probe ob2 x).
    rewrite Epe, PT. cbn [obind]. unfold vel_vec_bi_probe. replace (ob_probe ob2) with (Some (probe_orbit ob th dV)) by reflexivity. cbn [obind].
    assert (Pq2 : pos_vec_bi_probe ob2 t = Some q).
    { assert (X : pe_r pe = leto x := pe_theta (probe_entry_of ob2 (probe_orbit ob th dV)) in pos_vec_bi_probe ob2 x) by (rewrite <- Epe; reflexivity).
      rewrite Epe, PT in X. cbn [obind] in X. congruence. }
    rewrite Pq2. cbn [obind]. rewrite Nq. change (ob_planet ob2) with (ob_planet ob1). rewrite A. exact Hov. }
  assert (Hnu : 0 < norm u). { apply sqrt_lt_R0. fold (norm2 u). rewrite N2. exact Hv2p. }
  assert (Hnu2 : norm u * norm u = mu * (2 / rE - 1 / a2)) by (rewrite norm_sq; auto).
  set (c := h2 / (rE * norm u)).
  assert (Hc0 : 0 < c) by (apply Rdiv_lt_0_compat; nra).
  assert (Hc1 : c <= 1).
  { assert (h2 / rE <= norm u) by nra. unfold c. replace (h2 / (rE * norm u)) with (h2 / rE / norm u) by (field; lra).
    apply Rmult_le_reg_r with (norm u); auto. unfold Rdiv at 1. rewrite Rmult_assoc, Rinv_l by lra. lra. }
  exists pe, q, u, (- acos c). split; [exact T2|]. split; auto. split; auto. split; auto.
  split. { unfold energy at 1. rewrite Nq, N2, Ea. fold rE. revert HE. generalize (energy mu r v2). intros en HE. field. repeat split; auto; lra. }
  split.
  { rewrite <- Epe. change (pe_gamma_inertial (probe_entry_of ob2 (probe_orbit ob th dV))) with
      (leto h := o_h (probe_orbit ob th dV) in leto x := pe_v (probe_entry_of ob2 (probe_orbit ob th dV)) in
       leto y := np_div h ((RP (ob_planet ob1) + h_skip (ob_planet ob1)) * norm x) in leto a := np_arccos y in Some (-1 * a)).
    rewrite Epe, Hpv, (pl_h _ _ _ _ _ _ _ _ _ K2), A. cbn [obind]. fold rE. rewrite np_div_some by nra. cbn [obind]. fold c. rewrite np_arccos_some by lra. cbn [obind].
    f_equal. ring. }
  split. { pose proof (acos_bound c). split; [|lra]. assert (acos c <= PI / 2); [|lra]. destruct (Rle_or_lt (acos c) (PI / 2)) as [L|L]; auto. exfalso. pose proof PI_RGT_0. assert (cos (acos c) < 0) by (apply cos_lt_0; lra). rewrite cos_acos in * by lra. lra. }
  rewrite cos_neg, cos_acos by lra. unfold c. rewrite Eh2. field. split; lra.
Qed.

Lemma Neptune_name : forall v g, Planet "NEPTUNE"%string = Ok (fl_planet (wit_flown v g)).
Proof. reflexivity. Qed.
Lemma wit_angle : sin (PI / 6) * cos (PI / 6) <> 0 /\ sin (- (PI / 6)) * cos (- (PI / 6)) <> 0 /\ sin (PI / 6) = 1 / 2 /\ sin (- (PI / 6)) = - (1 / 2).
Proof.
  assert (0 < cos (PI / 6)) by (pose proof PI_RGT_0; apply cos_gt_0; lra).
  rewrite sin_neg, cos_neg, sin_PI6. repeat split; nra.
Qed.
(** Hypotheses of C31-C33, C67 (outbound) and C68. *)
Example C31_witness : exists ob, Planet "NEPTUNE"%string = Ok (fl_planet (wit_flown 20000 (PI / 6))) /\ Orbiter (wit_flown 20000 (PI / 6)) 4000 = Ok ob /\
  0 < ob_rp ob /\ captured ob /\ 0 <= dot (ob_r_vec ob) (ob_v_ie ob).
Proof.
  destruct (wit_orbiter 20000 (PI / 6) 4000 ltac:(lra)) as (ob & HO & _). exists ob. split; [reflexivity|]. split; auto.
  destruct wit_angle as (H1 & _ & H2 & _). destruct (wit_captured (PI / 6) 4000 ob H1 ltac:(lra) HO) as (A & B & C & _). split; auto. split; auto.
  rewrite C, H2. unfold w_r. lra.
Qed.
Example C67_inbound_witness : exists ob, Planet "NEPTUNE"%string = Ok (fl_planet (wit_flown 20000 (- (PI / 6)))) /\ Orbiter (wit_flown 20000 (- (PI / 6))) 4000 = Ok ob /\
  0 < ob_rp ob /\ captured ob /\ dot (ob_r_vec ob) (ob_v_ie ob) < 0.
Proof.
  destruct (wit_orbiter 20000 (- (PI / 6)) 4000 ltac:(lra)) as (ob & HO & _). exists ob. split; [reflexivity|]. split; auto.
  destruct wit_angle as (_ & H1 & _ & H2). destruct (wit_captured (- (PI / 6)) 4000 ob H1 ltac:(lra) HO) as (A & B & C & _). split; auto. split; auto.
  rewrite C, H2. unfold w_r. lra.
Qed.
Example C69_witness : exists ob, Orbiter (wit_flown 30000 (PI / 6)) 4000 = Ok ob /\ 0 < ob_rp ob /\ 0 < x_r (ob_exit ob) /\
  tilted (ang_mom (ob_r_vec ob) (ob_v_ie ob)) /\ 0 < energy (GM (ob_planet ob)) (ob_r_vec ob) (ob_v_ie ob).
Proof.
  destruct (wit_orbiter 30000 (PI / 6) 4000 ltac:(lra)) as (ob & HO & A1 & A2 & A3 & A4 & A5 & A6 & A7). exists ob. split; auto.
  split; [rewrite A3; lra|]. split; [rewrite A2; unfold w_r; lra|]. split.
  - rewrite A4, A5. unfold tilted, ang_mom. cbn [cross vx vy vz]. right. assert (0 < cos (PI / 6)) by (pose proof PI_RGT_0; apply cos_gt_0; lra). unfold w_r. lra.
  - unfold energy. rewrite A6, A7, A1. cbn [GM NEPTUNE]. unfold w_r. lra.
Qed.
Example C69_equatorial_witness : exists ob, Orbiter (mkFlown NEPTUNE 1 [w_r] [0] [0] [20000] [PI / 6] [0]) 4000 = Ok ob /\
  vx (ang_mom (ob_r_vec ob) (ob_v_ie ob)) = 0 /\ vy (ang_mom (ob_r_vec ob) (ob_v_ie ob)) = 0.
Proof.
  destruct (C67_exit_state NEPTUNE [] [] [] [] [] [] w_r 0 0 20000 (PI / 6) 0 4000 eq_refl eq_refl eq_refl eq_refl eq_refl) as (ob & HO & H1 & H2).
  exists ob. split; [exact HO|]. rewrite H1, H2. unfold inertial_vel, rel_vel, sph_pos, up_dir, east_dir, north_dir, ang_mom. rewrite sin_0, cos_0. split; vsimpl; ring.
Qed.

(** A periapsis-raised orbit far above the atmosphere: no burn means no entry. *)
Lemma high_orbit_misses : forall name w pk ob th, Planet name = Ok (fl_planet w) -> Orbiter w pk = Ok ob -> 0 < ob_rp ob -> captured ob ->
  (forall ra, ob_r_apo ob = Some ra -> 0 < ra -> 1.1 * (RP (ob_planet ob) + h_skip (ob_planet ob)) * (ra + ob_rp ob) < ob_rp ob * ra) ->
  ~ enters ob th 0.
Proof.
  intros name w pk ob th HP HO Hrp Hc Hhigh Hent.
  destruct (captured_bound _ _ _ _ HP HO Hrp Hc) as (Hmu & HRP & a & e & h & ra & a' & e' & h' & P & W & i & Om & om & K).
  destruct (post_facts _ _ _ _ _ _ _ _ _ _ _ _ _ K Hrp) as (Hra & Ha' & He' & Hd). destruct K as [Kco Ka Ke Kh Kh2 KaE Kfr Kra Kapo Korb Ki KO Ka' Ke' Kh' Kh2' Kvc Kvo].
  specialize (Hhigh ra Kapo Hra).
  destruct (C31_orbit_states _ _ _ _ HP HO Hrp Hc) as (a1 & e1 & h1 & Ha1 & He1 & Hh1 & _ & _ & _ & Hall).
  rewrite (pl_a _ _ _ _ _ _ _ _ _ Korb) in Ha1. rewrite (pl_h _ _ _ _ _ _ _ _ _ Korb) in Hh1. injection Ha1 as <-. injection Hh1 as <-.
  destruct (Hall th) as (r & v & Hp & Hv & Hrr & HEn & Hnh & _).
  set (mu := GM (ob_planet ob)) in *.
  assert (Hv0 : v <> vzero). { intros Z. rewrite Z in Hnh. replace (ang_mom r vzero) with vzero in Hnh by (unfold ang_mom, vzero; destruct r; apply vec_eq; vsimpl; ring).
    rewrite (norm_eq vzero 0) in Hnh by (try lra; unfold vzero; vsimpl; ring). assert (0 < h' / 1.0000001) by (apply Rdiv_lt_0_compat; lra). lra. }
  pose proof (norm_pos v Hv0) as Hn.
  destruct (probe_placed _ _ _ _ th 0 HP HO Hrp Hc) as (z1 & z2 & z3 & P' & W' & i' & Om' & om' & r' & v' & K & _ & _ & _ & _ & Hp' & Hv' & _ & Hnr & _ & _ & Hrest).
  rewrite Hp in Hp'. rewrite Hv in Hv'. assert (r' = r) by congruence. assert (v' = v) by congruence. subst r' v'. cbv zeta in Hrest. fold mu in Hrest.
  assert (E2 : vadd v (vscale (0 / norm v) v) = v) by (unfold Rdiv; rewrite Rmult_0_l; destruct v; apply vec_eq; vsimpl; ring). rewrite E2 in Hrest.
  assert (HE : energy mu r v < 0). { rewrite HEn. assert (0 < mu / (2 * a')) by (apply Rdiv_lt_0_compat; lra). unfold Rdiv in *. lra. }
  assert (Hr0 : r <> vzero). { intros Z. rewrite Z in Hnr. rewrite (norm_eq vzero 0) in Hnr by (try lra; unfold vzero; vsimpl; ring). lra. }
  assert (He0 : ecc_vector mu r v <> vzero).
  { intros Z. destruct (C32_velocity_always_outward _ _ _ _ HP HO Hrp Hc) as (e2 & h2 & P2 & W2 & _ & _ & _ & _ & _ & Hall2). destruct (Hall2 th) as (r2 & v2 & Hp2 & Hv2 & Hdot & _).
    assert (r2 = r) by congruence. assert (v2 = v) by congruence. subst r2 v2.
    assert (Ed : dot (ecc_vector mu r v) v = - dot r v / norm r). { unfold ecc_vector. destruct r as [r1 r2 r3], v as [v1 v2 v3]. set (n := norm _) in *. clearbody n. vsimpl. field. lra. }
    rewrite Z in Ed. replace (dot vzero v) with 0 in Ed by (unfold vzero; destruct v; vsimpl; ring).
    assert (0 < dot r v / norm r) by (apply Rdiv_lt_0_compat; auto). unfold Rdiv in *. lra. }
  destruct (Hrest ltac:(lra) He0 ltac:(lra)) as (_ & a2 & e2 & h2 & P2 & om2 & K2 & F & Ea & Eh & Ee & Eh2).
  destruct Hent as (hp & Hhp & Hlt). unfold periapsis_alt in Hhp. rewrite (pl_a _ _ _ _ _ _ _ _ _ K2), (pl_e _ _ _ _ _ _ _ _ _ K2) in Hhp. cbn [obind] in Hhp. injection Hhp as Hhp.
  assert (Ea' : a2 = a') by (rewrite Ea, HEn; field; lra). rewrite Ea' in *. rewrite Hnh in Eh2.
  pose proof (of_e _ _ _ _ _ _ _ F) as He20.
  assert (Hh2 : h2 * h2 = h' * h' / (1.0000001 * 1.0000001)) by (rewrite Eh2; field; try lra).
  assert (He2p : 0 < 1 - e2 * e2). { assert (0 < h2 * h2) by (rewrite Hh2; apply Rdiv_lt_0_compat; nra). rewrite Eh in H. apply Rmult_lt_reg_l with (a' * mu); nra. }
  assert (He21 : e2 < 1) by nra.
  assert (Hpd : a' * (1 - e2 * e2) = a' * (1 - e' * e') / (1.0000001 * 1.0000001)).
  { apply Rmult_eq_reg_l with mu; [|lra]. transitivity (h2 * h2); [rewrite Eh; ring|]. rewrite Hh2, Kh2'. field; lra. }
  assert (Hpp : a' * (1 - e' * e') = 2 * ob_rp ob * ra / (ra + ob_rp ob)) by (rewrite Ka', Ke'; field; lra).
  assert (Hq : 1.1 * (RP (ob_planet ob) + h_skip (ob_planet ob)) < ob_rp ob * ra / (ra + ob_rp ob)).
  { apply Rmult_lt_reg_r with (ra + ob_rp ob); [lra|]. unfold Rdiv. rewrite (Rmult_assoc _ (/ _)), Rinv_l by lra. lra. }
  assert (X : a' * (1 - e2) * (1 + e2) = 2 * (ob_rp ob * ra / (ra + ob_rp ob)) / (1.0000001 * 1.0000001)).
  { transitivity (a' * (1 - e2 * e2)); [ring|]. rewrite Hpd, Hpp. field; lra. }
  set (Q := ob_rp ob * ra / (ra + ob_rp ob)) in *. set (rE := RP (ob_planet ob) + h_skip (ob_planet ob)) in *.
  assert (a' * (1 - e2) < rE) by (unfold rE; lra).
  assert (0 < a' * (1 - e2)) by nra. assert (a' * (1 - e2) * (1 + e2) < rE * 2) by nra. lra.
Qed.
(** A history with an entering probe followed by a missing one (C36), and a burn at apoapsis satisfying
    the hypotheses of C70 and C71. *)
Example C36_witness : exists ob dV, Planet "NEPTUNE"%string = Ok (fl_planet (wit_flown 20000 (PI / 6))) /\ Orbiter (wit_flown 20000 (PI / 6)) 80000 = Ok ob /\
  0 < ob_rp ob /\ captured ob /\ enters ob PI dV /\ ~ enters ob PI 0 /\
  exists r v, ob_pos ob PI = Some r /\ ob_vel ob PI = Some v /\
  let mu := GM (ob_planet ob) in let v2 := vadd v (vscale (dV / norm v) v) in
  - norm v < dV < 0 /\ ecc_vector mu r v2 <> vzero /\ energy mu r v2 < 0 /\ RP (ob_planet ob) + h_skip (ob_planet ob) <= norm r /\
  1 + norm (ecc_vector mu r v2) * cos PI <> 0.
Proof.
  destruct (wit_orbiter 20000 (PI / 6) 80000 ltac:(lra)) as (ob & HO & A1 & A2 & A3 & _). 
  destruct wit_angle as (G1 & _). destruct (wit_captured (PI / 6) 80000 ob G1 ltac:(lra) HO) as (Hrp & Hc & _ & HE). pose proof (Neptune_name 20000 (PI / 6)) as HP.
  destruct (C36_some_burn_enters _ _ _ _ PI HP HO Hrp Hc) as (r & v & d & Hp & Hv & Hd & Hb).
  assert (Hra : forall ra, ob_r_apo ob = Some ra -> 0 < ra -> 48e6 < ra).
  { intros ra Hra _. destruct (captured_bound _ _ _ _ HP HO Hrp Hc) as (Hmu & HRP & a & e & h & ra' & a' & e' & h' & P & W & i & Om & om & K).
    destruct K as [Kco Ka Ke Kh Kh2 KaE Kfr Kra Kapo Korb Ki KO Ka' Ke' Kh' Kh2' Kvc Kvo]. rewrite Kapo in Hra. injection Hra as <-.
    set (E := energy (GM (ob_planet ob)) (ob_r_vec ob) (ob_v_ie ob)) in *.
    assert (48e6 < a). { assert (a * (-2 * E) = GM (ob_planet ob)) by (rewrite KaE; field; lra). rewrite A1 in H. cbn [GM NEPTUNE] in H. nra. }
    nra. }
  exists ob, (- norm v + d / 2). destruct (Hb (- norm v + d / 2) ltac:(lra)) as (B1 & B2 & B3).
  split; [reflexivity|]. split; auto. split; auto. split; auto. split; auto. split.
  { apply (high_orbit_misses _ _ _ _ PI HP HO Hrp Hc). intros ra H1 H2. specialize (Hra ra H1 H2). rewrite A1, A3. cbn [RP h_skip NEPTUNE]. nra. }
  exists r, v. split; auto. split; auto. cbv zeta. split; [lra|]. split; auto. split; auto.
  destruct (captured_bound _ _ _ _ HP HO Hrp Hc) as (Hmu & HRP & a & e & h & ra & a' & e' & h' & P & W & i & Om & om & K).
  destruct (post_facts _ _ _ _ _ _ _ _ _ _ _ _ _ K Hrp) as (Hra0 & Ha' & He' & _).
  pose proof (post_state _ _ _ _ _ _ _ _ _ _ _ _ _ Hmu Hrp K PI) as Sn. destruct K as [Kco Ka Ke Kh Kh2 KaE Kfr Kra Kapo Korb Ki KO Ka' Ke' Kh' Kh2' Kvc Kvo].
  destruct Sn as (Hp2 & _ & Hrr & HU & _).
  split.
  - assert (Er : r = conic_pos (GM (ob_planet ob)) h' e' P W PI) by congruence. rewrite Er. unfold conic_pos.
    rewrite norm_vscale by lra. rewrite (norm_eq (perifocal P W PI) 1) by lra. rewrite Rmult_1_r. unfold conic_radius. rewrite Kh2', cos_PI.
    replace (a' * GM (ob_planet ob) * (1 - e' * e') / GM (ob_planet ob) / (1 + e' * -1)) with (a' * (1 + e')) by (field; split; lra).
    replace (a' * (1 + e')) with ra by (rewrite Ka', Ke'; field; lra). specialize (Hra ra Kapo Hra0). rewrite A1. cbn [RP h_skip NEPTUNE]. lra.
  - rewrite cos_PI. set (v2 := vadd v _) in *. set (mu := GM (ob_planet ob)) in *.
    assert (Hr0 : r <> vzero). { assert (Er : r = conic_pos mu h' e' P W PI) by congruence. intros Z. rewrite Z in Er.
      assert (norm (conic_pos mu h' e' P W PI) = 0) by (rewrite <- Er; apply norm_eq; [lra|unfold vzero; vsimpl; ring]).
      unfold conic_pos in H. rewrite norm_vscale in H by (fold mu in Hrr |- *; lra). rewrite (norm_eq (perifocal P W PI) 1) in H by lra. fold mu in H, Hrr. lra. }
    pose proof (ecc_norm2 mu r v2 Hmu Hr0) as Hee.
    destruct (burn_orbit _ _ _ _ PI (- norm v + d / 2) HP HO Hrp Hc) as (r' & v' & Hp' & Hv' & Hv0 & _).
    assert (Hh : 0 < norm2 (ang_mom r v2)).
    { destruct (C31_orbit_states _ _ _ _ HP HO Hrp Hc) as (a1 & e1 & h1 & _ & _ & _ & _ & _ & Hh1 & Hall). destruct (Hall PI) as (r1 & v1 & Q1 & Q2 & _ & _ & Q3 & _).
      assert (Z1 : r1 = r) by congruence. assert (Z2 : v1 = v) by congruence. assert (Z3 : v' = v) by congruence. rewrite Z1, Z2 in Q3. rewrite Z3 in Hv0. pose proof (norm_pos v Hv0) as Hn.
      assert (E2 : ang_mom r v2 = vscale (d / 2 / norm v) (ang_mom r v)).
      { unfold v2. replace ((- norm v + d / 2) / norm v) with (-1 + d / 2 / norm v) by (field; lra). generalize (d / 2 / norm v). intros k. unfold ang_mom. destruct r, v; apply vec_eq; vsimpl; ring. }
      rewrite E2, norm2_vscale, <- norm_sq, Q3. assert (0 < d / 2 / norm v) by (apply Rdiv_lt_0_compat; lra). assert (0 < h1 / 1.0000001) by (apply Rdiv_lt_0_compat; lra).
      apply Rmult_lt_0_compat; apply Rmult_lt_0_compat; auto. }
    assert (norm2 (ecc_vector mu r v2) < 1).
    { rewrite Hee. assert (0 < 2 * - energy mu r v2 * norm2 (ang_mom r v2) / (mu * mu)) by (apply Rdiv_lt_0_compat; [apply Rmult_lt_0_compat; lra|fold mu in Hmu; nra]).
      unfold Rdiv in *. lra. }
    rewrite <- norm_sq in H. set (x := norm (ecc_vector mu r v2)) in *. assert (0 <= x) by apply sqrt_pos. nra.
Qed.
(** Concrete vectors for which the two flight-path angles of C71 differ. *)
Example C71_witness : let r := V3 2 0 0 in let v := V3 (-1) 2 0 in let va := vsub v (air_velocity 1 r) in
  va <> vzero /\ dot r v <> 0 /\ norm va <> norm v /\ flight_path_angle r va <> flight_path_angle r v.
Proof.
  intros r v va. assert (Ea : va = V3 (-1) 0 0) by (unfold va, v, r, air_velocity; apply vec_eq; vsimpl; ring).
  assert (Hva : va <> vzero) by (rewrite Ea; intros Z; injection Z; lra).
  assert (Hd : dot r v <> 0) by (unfold r, v; vsimpl; lra).
  assert (Hr0 : r <> vzero) by (unfold r; intros Z; injection Z; lra). assert (Hv0 : v <> vzero) by (unfold v; intros Z; injection Z; intros; lra).
  assert (Hn : norm va <> norm v).
  { intros Z. assert (norm va * norm va = norm v * norm v) by (rewrite Z; reflexivity). rewrite !norm_sq, Ea in H. unfold v in H. unfold norm2, dot in H. simpl in H. lra. }
  split; auto. split; auto. split; auto. intros E.
  pose proof (norm_pos r Hr0). pose proof (norm_pos v Hv0). pose proof (norm_pos va Hva). unfold flight_path_angle in E.
  assert (E' : dot r va / (norm r * norm va) = dot r v / (norm r * norm v)) by (apply asin_lt; try apply cos_bound_dot; auto; lra).
  assert (Ed : dot r va = dot r v) by (rewrite Ea; unfold r, v; vsimpl; ring). rewrite Ed in E'. apply Hn.
  assert (dot r v * norm v = dot r v * norm va).
  { replace (dot r v * norm v) with (dot r v / (norm r * norm va) * (norm r * norm va * norm v)) by (field; lra). rewrite E'. field. lra. }
  symmetry. apply Rmult_eq_reg_l with (dot r v); auto.
Qed.
