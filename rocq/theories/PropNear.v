(** C125: a flight depends continuously on where it starts, on the vehicle, the bank angle and the atmosphere, and on the integrator's error. *)
From Coq Require Import String List.
Require Import Verif.Base Verif.Numpy Verif.PlanetModel Verif.PlanetProofs Verif.AeroModel Verif.HeatModel Verif.TrajectoryModel Verif.TrajectorySpec Verif.TrajectoryProofs Verif.FlightProofs
  Verif.PropTrajectory Verif.PropFlight Verif.ExactSpec Verif.ExactProofs Verif.DetSpec Verif.DetProofs Verif.PropDet Verif.NearSpec Verif.NearProofs.
Import ListNotations.
Local Open Scope R_scope.

(** What a propagation stores lies on a curve that nearly solves the equations of motion. *)
Lemma near_flight_all : forall (two : bool) E eta name V i tol secs dt d o f, engine_ok E -> exact_within eta E (fun x => EOM V x (d * PI / 180)) -> Planet name = Ok (vh_planet V) -> 0 < dt ->
  (if two then propogateEntry2 else propogateEntry) E (mkObj V i tol None None) secs dt d = (o, Ok tt) -> ob_flight o = Some f ->
  let p := vh_planet V in let q := f_plot f in
  exists y T ts, y 0 = entry_state p i /\ nearly_solves eta (fun z => EOM V z (deg d)) y T /\ grid ts T /\
    p_t q = map (fun t => tau p * t / 60) ts /\ forall k, (k < length ts)%nat -> shows p q k (y (nth k ts 0)).
Proof.
  intros two E eta name V i tol secs dt d o f HE (HX1 & HX2) HP Hdt H Hf p q.
  destruct (ref_facts _ _ HP) as (Hv & _ & Ht & _ & HRP & _). fold p in Hv, Ht, HRP. pose proof PI_RGT_0 as HPI.
  assert (G : exists solve h0, solver_ok solve /\ (forall c, solve V tol (entry_state p i) secs dt (deg d) = Ok c -> c_t c <> [] ->
    exists y T, y 0 = entry_state p i /\ nearly_solves eta (fun z => EOM V z (deg d)) y T /\ grid (c_t c) T /\ c = channels (c_t c) (map y (c_t c))) /\
    store (mkObj V i tol None None) (fly solve V tol i secs dt d) h0 = (o, Ok tt)).
  { assert (Hst : 0 < dt / tau (vh_planet V)) by (apply Rdiv_lt_0_compat; auto).
    destruct two; [exists (solveTrajectory2 E), (heatLoad0 i)|exists (solveTrajectory E), 0]; (split; [auto using solver1_ok, solver2_ok|split; [|exact H]]); intros c Hc Hne.
    - destruct HE as (_ & K). unfold solveTrajectory2 in Hc. destruct (arange _ _) as [ts|] eqn:Ea; [|discriminate]. cbn [rbind] in Hc. destruct (arange_inv _ _ _ Ea) as (La & Na).
      assert (Hn : ts <> []) by (destruct ts; [discriminate|congruence]).
      assert (H' : (letr out := solve_ivp E (fun y => EOM V y (deg d)) (last ts 0) (entry_state p i) ts hit_EFPA_90 tol in Ok (channels (fst out) (snd out))) = Ok c)
        by (destruct ts; [congruence|exact Hc]). clear Hc.
      destruct (solve_ivp E _ _ _ _ _ _) as [[us xs]|] eqn:Eo; [|discriminate]. cbn [rbind fst snd] in H'. injection H' as <-. cbn [c_t channels] in *.
      destruct (K _ _ _ _ _ _ _ _ Eo) as (L & (n & ->) & F).
      assert (Hz : nth_error ts 0 = Some 0). { destruct ts as [|t ts]; [congruence|]. pose proof (Na 0%nat ltac:(cbn; lia)) as N. cbn in *. rewrite N. f_equal. ring. }
      destruct (HX2 _ _ _ _ _ _ _ Hz Eo) as (y & Y0 & S & ->). exists y, (last (firstn n ts) 0). split; auto. split; auto. split; auto.
      apply (grid_regular _ _ (Rlt_le _ _ Hst)). intros k Hk. rewrite firstn_length in Hk. rewrite nth_firstn by lia. apply Na. lia.
    - unfold solveTrajectory in Hc. destruct (arange _ _) as [ts|] eqn:Ea; [|discriminate]. cbn [rbind] in Hc. destruct (odeint E _ _ _ _) as [xs|] eqn:Eo; [|discriminate].
      cbn [rbind] in Hc. injection Hc as <-. cbn [c_t channels] in *. destruct (arange_inv _ _ _ Ea) as (La & Na).
      assert (Hz : nth_error ts 0 = Some 0). { destruct ts as [|t ts]; [congruence|]. pose proof (Na 0%nat ltac:(cbn; lia)) as N. cbn in *. rewrite N. f_equal. ring. }
      destruct (HX1 _ _ _ _ Hz Eo) as (y & Y0 & S & ->). exists y, (last ts 0). split; auto. split; auto. split; auto. apply (grid_regular ts _ (Rlt_le _ _ Hst) Na). }
  destruct G as (solve & h0 & HK & HS & G). clear H. unfold store in G. destruct (fly _ _ _ _ _ _ _) as [f'|] eqn:Ef; [|discriminate].
  assert (f' = f). { destruct (ocumtrapz _ _ _); injection G as <-; [|discriminate]. cbn [ob_flight set_flight set_heat] in Hf. congruence. } subst f'. clear G.
  unfold fly in Ef. destruct (solve V tol (entry_state (vh_planet V) i) secs dt (deg d)) as [c|] eqn:Es; [|discriminate]. cbn [rbind] in Ef. fold p in Es.
  destruct (post_inv _ _ _ _ Ef) as (cls & qc & qr & A). cbv zeta in A. destruct A as (Ec & _ & _ & _ & Ep & _). fold p in Ec, Ep. fold q in Ep.
  assert (Hne : c_t c <> []).
  { intros Z. destruct (HK _ _ _ _ _ _ _ Es) as (n & (L1 & L2 & _) & _). rewrite Z in L1. cbn in L1. subst n. cbn [dimensionalize_traj c_r] in Ec.
    destruct (c_r c); [discriminate Ec|discriminate L2]. }
  destruct (HS c Es Hne) as (y & T & Y0 & S & G & Ech).
  set (ts := firstn (fst cls) (c_t c)). exists y, T, ts. split; auto. split; auto. split; [apply grid_firstn; auto|].
  rewrite Ech in Ep. cbn [p_t p_h p_v p_phi p_psi p_theta p_gamma p_drange convertToPlotUnits dimensionalize_traj c_t c_r c_v c_phi c_psi c_theta c_gamma c_drange channels] in Ep.
  rewrite !map_map, !firstn_map in Ep. fold ts in Ep. rewrite Ep. cbn [p_t p_h p_v p_phi p_psi p_theta p_gamma p_drange].
  split; [reflexivity|]. intros k Hk. unfold shows. cbn [p_t p_h p_v p_phi p_psi p_theta p_gamma p_drange].
  rewrite !(nth_map_lt _ _ _ 0) by auto. repeat split; field; lra.
Qed.
(** An integrator without error is one with as little error as one likes. *)
Lemma exact_nearly : forall E eta f, 0 <= eta -> exact E -> exact_within eta E f.
Proof.
  intros E eta f He (H1 & H2).
  assert (N : forall y T, solves f y T -> nearly_solves eta f y T).
  { intros y T (l & S). exists l. intros t Ht. destruct (S t Ht) as (C & d & Ed & D). split; auto. exists d. split; auto. intros Hi Hl. exists d. split; auto.
    apply dist_within. unfold dist. rewrite !Rminus_diag_eq, Rabs_R0 by reflexivity. lra. }
  split; intros.
  - destruct (H1 f x0 ts tol xs H H0) as (y & Y0 & S & X). exists y. auto.
  - destruct (H2 f te x0 ts ev tol us xs H H0) as (y & Y0 & S & X). exists y. auto.
Qed.
(** Nearby initial conditions are nearby states. *)
Lemma start_dist : forall p i i' eta, 0 < RP p -> 0 < Vref p -> start_within eta i i' -> dist (entry_state p i) (entry_state p i') <= (2000 / RP p + 1000 / Vref p + 4) * eta.
Proof.
  intros p i i' eta HR Hv (A1 & A2 & A3 & A4 & A5 & A6 & A7). unfold dist, entry_state, nonDimState. cbn [s_r s_theta s_phi s_v s_psi s_gamma s_drange].
  pose proof PI_RGT_0. pose proof PI_4. assert (He : 0 <= eta) by (revert A1; apply Rle_trans, Rabs_pos).
  assert (An : forall a b, Rabs (a - b) <= eta -> Rabs (deg a - deg b) <= eta).
  { intros a b Q. unfold deg. replace (a * PI / 180 - b * PI / 180) with ((a - b) * (PI / 180)) by (field; lra). rewrite Rabs_mult, (Rabs_right (PI / 180)) by lra. pose proof (Rabs_pos (a - b)). nra. }
  assert (Q1 : Rabs (computeR p (h0_km i * 1e3) / RP p - computeR p (h0_km i' * 1e3) / RP p) <= 1000 / RP p * eta).
  { unfold computeR. replace ((RP p + h0_km i * 1e3) / RP p - (RP p + h0_km i' * 1e3) / RP p) with (1000 / RP p * (h0_km i - h0_km i')) by (field; lra).
    assert (0 < 1000 / RP p) by (apply Rdiv_lt_0_compat; lra). rewrite Rabs_mult, (Rabs_right (1000 / RP p)) by lra. apply Rmult_le_compat_l; lra. }
  assert (Q4 : Rabs (v0_kms i * 1e3 / Vref p - v0_kms i' * 1e3 / Vref p) <= 1000 / Vref p * eta).
  { replace (v0_kms i * 1e3 / Vref p - v0_kms i' * 1e3 / Vref p) with (1000 / Vref p * (v0_kms i - v0_kms i')) by (field; lra).
    assert (0 < 1000 / Vref p) by (apply Rdiv_lt_0_compat; lra). rewrite Rabs_mult, (Rabs_right (1000 / Vref p)) by lra. apply Rmult_le_compat_l; lra. }
  assert (Q7 : Rabs (drange0_km i * 1e3 / RP p - drange0_km i' * 1e3 / RP p) <= 1000 / RP p * eta).
  { replace (drange0_km i * 1e3 / RP p - drange0_km i' * 1e3 / RP p) with (1000 / RP p * (drange0_km i - drange0_km i')) by (field; lra).
    assert (0 < 1000 / RP p) by (apply Rdiv_lt_0_compat; lra). rewrite Rabs_mult, (Rabs_right (1000 / RP p)) by lra. apply Rmult_le_compat_l; lra. }
  pose proof (An _ _ A2). pose proof (An _ _ A3). pose proof (An _ _ A5). pose proof (An _ _ A6). unfold Rdiv in *. lra.
Qed.
Lemma shows_dist : forall p q k x z eps, 0 < RP p -> 0 < Vref p -> shows p q k z -> dist x z * (RP p + Vref p + 60) < eps -> shows_within eps p q k x.
Proof.
  intros p q k x z eps HR Hv (A1 & A2 & A3 & A4 & A5 & A6 & A7) D. pose proof PI_RGT_0 as HPI. pose proof pi_low as H32.
  assert (U : forall s, (s = s_r \/ s = s_theta \/ s = s_phi \/ s = s_v \/ s = s_psi \/ s = s_gamma \/ s = s_drange) -> Rabs (s z - s x) <= dist x z).
  { intros s Hs. rewrite Rabs_minus_sym. unfold dist. repeat destruct Hs as [->|Hs]; try subst s; absall; lra. }
  pose proof (dist_pos x z) as Pd.
  assert (LN : forall a b c, 0 < c -> a * 1000 = c * b -> forall b', Rabs (b - b') <= dist x z -> c <= RP p + Vref p + 60 -> Rabs (a - c * b' / 1000) < eps).
  { intros a b c Hc E b' Hb Hcc. replace (a - c * b' / 1000) with (c / 1000 * (b - b')) by (field_simplify_eq; lra). rewrite Rabs_mult, (Rabs_right (c / 1000)) by lra. pose proof (Rabs_pos (b - b')). nra. }
  assert (AN : forall a b, a * PI / 180 = b -> forall b', Rabs (b - b') <= dist x z -> Rabs (a - b' * 180 / PI) < eps).
  { intros a b E b' Hb. replace (a - b' * 180 / PI) with (180 / PI * (b - b')) by (rewrite <- E; field; lra). 
    assert (0 < 180 / PI) by (apply Rdiv_lt_0_compat; lra). assert (180 / PI <= 60) by (apply (Rmult_le_reg_r PI); auto; unfold Rdiv; rewrite Rmult_assoc, Rinv_l by lra; lra).
    rewrite Rabs_mult, (Rabs_right (180 / PI)) by lra. pose proof (Rabs_pos (b - b')). nra. }
  unfold shows_within. repeat split.
  - replace ((RP p * s_r x - RP p) / 1000) with (RP p * (s_r x - 1) / 1000) by lra. apply (LN _ (s_r z - 1)); [auto|lra| |lra]. replace (s_r z - 1 - (s_r x - 1)) with (s_r z - s_r x) by ring. apply U. tauto.
  - apply (LN _ (s_v z)); [auto|auto|apply U; tauto|lra].
  - apply (AN _ (s_theta z)); [auto|apply U; tauto].
  - apply (AN _ (s_phi z)); [auto|apply U; tauto].
  - apply (AN _ (s_psi z)); [auto|apply U; tauto].
  - apply (AN _ (s_gamma z)); [auto|apply U; tauto].
  - apply (LN _ (s_drange z)); [auto|auto|apply U; tauto|lra].
Qed.
(** Every point a nearby flight reports up to [T] is near the way. *)
Theorem C125_near_the_way : forall name V i d T y eps, Planet name = Ok (vh_planet V) -> vh_user V = false -> lipschitz_air (vh_planet V) (vh_atm V) -> way V i d T y -> 0 < eps ->
  exists eta, 0 < eta /\ forall (two : bool) E V' i' d' tol secs dt o f, engine_ok E -> exact_within eta E (fun x => EOM V' x (d' * PI / 180)) -> 0 < dt ->
    vehicle_within eta V V' -> start_within eta i i' -> Rabs (d - d') <= eta ->
    (if two then propogateEntry2 else propogateEntry) E (mkObj V' i' tol None None) secs dt d' = (o, Ok tt) -> ob_flight o = Some f ->
    forall k, (k < length (p_t (f_plot f)))%nat -> time_of (vh_planet V) (f_plot f) k <= T ->
    shows_within eps (vh_planet V) (f_plot f) k (y (time_of (vh_planet V) (f_plot f) k)).
Proof.
  intros name V i d T y eps HP Hu HL (Y0 & S & I) Heps. set (p := vh_planet V) in *.
  destruct (ref_facts _ _ HP) as (Hv & _ & Ht & _ & HRP & _ & Hr0). pose proof PI_RGT_0 as HPI. pose proof PI_4.
  assert (Hc : 0 < RP p + Vref p + 60) by lra. assert (Hm : 0 < eps / (RP p + Vref p + 60)) by (apply Rdiv_lt_0_compat; lra).
  destruct (near_all V (deg d) y T Hu HRP Hr0 HL S I (eps / (RP p + Vref p + 60)) Hm) as (kap & Hk & HN).
  set (C := 2000 / RP p + 1000 / Vref p + 4). assert (HC : 1 <= C). { unfold C. assert (0 < 2000 / RP p) by (apply Rdiv_lt_0_compat; lra). assert (0 < 1000 / Vref p) by (apply Rdiv_lt_0_compat; lra). lra. }
  assert (Hkc : 0 < kap / C) by (apply Rdiv_lt_0_compat; lra). assert (EC : C * (kap / C) = kap) by (field; lra). assert (kap / C <= kap) by nra.
  exists (kap / C). split; auto. intros two E V' i' d' tol secs dt o f HE HX Hdt HV HI Hd H1 Hf k Hk1 HT.
  assert (EP : vh_planet V' = p) by apply HV.
  destruct (near_flight_all two E _ name V' i' tol secs dt d' o f HE HX ltac:(rewrite EP; exact HP) Hdt H1 Hf) as (z & Tz & ts & Z0 & Sz & (GF & _) & Et & Sh). rewrite EP in *.
  destruct (time_of_map _ _ _ _ Ht Et Hk1) as (E1 & Hk'). rewrite E1 in *.
  pose proof (proj1 (Forall_forall _ _) GF _ (nth_In ts 0 Hk')) as B. cbv beta in B.
  eapply shows_dist; auto.
  assert (DD : dist (y (nth k ts 0)) (z (nth k ts 0)) < eps / (RP p + Vref p + 60)).
  { apply (HN (kap / C) V' (deg d') z Tz); auto; try lra.
    - unfold deg. replace (d * PI / 180 - d' * PI / 180) with ((d - d') * (PI / 180)) by (field; lra). rewrite Rabs_mult, (Rabs_right (PI / 180)) by lra. pose proof (Rabs_pos (d - d')). nra.
    - rewrite Y0, Z0. eapply Rle_trans; [apply start_dist; eauto|]. fold C. lra. }
  apply (Rmult_lt_compat_r (RP p + Vref p + 60)) in DD; auto. unfold Rdiv in DD. rewrite Rmult_assoc, Rinv_l, Rmult_1_r in DD by lra. exact DD.
Qed.
Lemma within_self : forall eta V, 0 <= eta -> vh_user V = false -> vehicle_within eta V V.
Proof. intros eta V He Hu. unfold vehicle_within. rewrite !Rminus_diag_eq, Rabs_R0 by reflexivity. do 4 (split; auto). intros h _. rewrite Rminus_diag_eq, Rabs_R0 by reflexivity. exact He. Qed.
Lemma start_self : forall eta i, 0 <= eta -> start_within eta i i.
Proof. intros eta i He. unfold start_within. rewrite !Rminus_diag_eq, Rabs_R0 by reflexivity. repeat split; exact He. Qed.
Lemma two_near : forall eps p q k q' k' x, shows_within (eps / 2) p q k x -> shows_within (eps / 2) p q' k' x -> point_within eps q k q' k'.
Proof.
  intros eps p q k q' k' x (A1 & A2 & A3 & A4 & A5 & A6 & A7) (B1 & B2 & B3 & B4 & B5 & B6 & B7).
  assert (T : forall a b c, Rabs (a - c) < eps / 2 -> Rabs (b - c) < eps / 2 -> Rabs (a - b) < eps).
  { intros a b c U1 U2. replace (a - b) with ((a - c) - (b - c)) by ring. eapply Rle_lt_trans; [apply Rabs_triang|]. rewrite Rabs_Ropp. lra. }
  unfold point_within. repeat split; eapply T; eauto.
Qed.
(** The flight with an exact integrator and any nearby flight report nearly the same at the same time. *)
Theorem C125_nearby_flights : forall (two : bool) E name V i tol secs dt d o f y T eps, engine_ok E -> exact E -> Planet name = Ok (vh_planet V) -> 0 < dt ->
  vh_user V = false -> lipschitz_air (vh_planet V) (vh_atm V) -> way V i d T y -> 0 < eps ->
  (if two then propogateEntry2 else propogateEntry) E (mkObj V i tol None None) secs dt d = (o, Ok tt) -> ob_flight o = Some f ->
  exists eta, 0 < eta /\ forall (two' : bool) E' V' i' d' tol' secs' dt' o' f', engine_ok E' -> exact_within eta E' (fun x => EOM V' x (d' * PI / 180)) -> 0 < dt' ->
    vehicle_within eta V V' -> start_within eta i i' -> Rabs (d - d') <= eta ->
    (if two' then propogateEntry2 else propogateEntry) E' (mkObj V' i' tol' None None) secs' dt' d' = (o', Ok tt) -> ob_flight o' = Some f' ->
    forall k k', (k < length (p_t (f_plot f)))%nat -> (k' < length (p_t (f_plot f')))%nat -> nth k (p_t (f_plot f)) 0 = nth k' (p_t (f_plot f')) 0 ->
    time_of (vh_planet V) (f_plot f) k <= T -> point_within eps (f_plot f) k (f_plot f') k'.
Proof.
  intros two E name V i tol secs dt d o f y T eps HE HX HP Hdt Hu HL W Heps H Hf.
  destruct (C125_near_the_way name V i d T y (eps / 2) HP Hu HL W ltac:(lra)) as (eta & He & HN). exists eta. split; auto.
  intros two' E' V' i' d' tol' secs' dt' o' f' HE' HX' Hdt' HV HI Hd H' Hf' k k' Hk Hk' Et HT.
  assert (Et' : time_of (vh_planet V) (f_plot f) k = time_of (vh_planet V) (f_plot f') k') by (unfold time_of; rewrite Et; reflexivity).
  apply (two_near _ (vh_planet V) _ _ _ _ (y (time_of (vh_planet V) (f_plot f) k))).
  - apply (HN two E V i d tol secs dt o f); auto; [apply exact_nearly; auto; lra|apply within_self; auto; lra|apply start_self; lra|rewrite Rminus_diag_eq, Rabs_R0 by reflexivity; lra].
  - rewrite Et'. apply (HN two' E' V' i' d' tol' secs' dt' o' f'); auto. lra.
Qed.
