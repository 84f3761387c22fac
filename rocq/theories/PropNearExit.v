(** C131: with nearly exact integrators, and for nearby vehicles, starts and bank angles, flights leave the atmosphere or sink near where and when the true flight does, and are reported so. *)
From Coq Require Import String List Reals Lra Lia Classical.
Require Import Verif.Base Verif.Numpy Verif.NumpyProofs Verif.PlanetModel Verif.PlanetProofs Verif.AeroModel Verif.HeatModel Verif.PropHeat Verif.TrajectoryModel Verif.TrajectorySpec Verif.TrajectoryProofs Verif.PropTrajectory Verif.FlightProofs Verif.PropFlight
  Verif.ExactSpec Verif.ExactProofs Verif.PropExact Verif.DetSpec Verif.DetProofs Verif.PropDet Verif.NearSpec Verif.NearProofs Verif.PropNear Verif.ExistSpec Verif.ExistProofs Verif.PropExist Verif.ExitSpec Verif.ExitProofs Verif.EnterProofs Verif.PropExit Verif.PropTrap Verif.PropExitRun
  Verif.ConicSpec Verif.OrbitSpec Verif.VerdictSpec Verif.VerdictProofs Verif.NearExitSpec Verif.NearExitProofs.
Require Verif.PropRoundGrid Verif.PropGuidance.
Import ListNotations.
Local Open Scope R_scope.

(** What lies behind a stored flight: a nearly exact solution, sampled on the whole grid, classified and truncated. *)
Lemma near_behind : forall (two : bool) E eta name V i tol secs dt d o f, engine_ok E -> exact_within eta E (fun x => EOM V x (d * PI / 180)) -> Planet name = Ok (vh_planet V) -> 0 < dt ->
  (if two then propogateEntry2 else propogateEntry) E (mkObj V i tol None None) secs dt d = (o, Ok tt) -> ob_flight o = Some f ->
  let p := vh_planet V in let q := f_plot f in
  exists z Tz ts idx, z 0 = entry_state p i /\ nearly_solves eta (fun x => EOM V x (d * PI / 180)) z Tz /\ Forall (fun t => 0 <= t <= Tz) ts /\
    (forall k, (k < length ts)%nat -> nth k ts 0 = INR k * (dt / tau p)) /\ (two = false -> length ts = ceil_nat ((secs + dt) / tau p / (dt / tau p))) /\
    classifyTrajectory p (map (fun t => s_r (z t) * RP p) ts) = Ok (idx, f_exitflag f) /\
    p_t q = map (fun t => tau p * t / 60) (firstn idx ts) /\ forall k, (k < idx)%nat -> (k < length ts)%nat -> shows p q k (z (nth k ts 0)).
Proof.
  intros two E eta name V i tol secs dt d o f HE (HX1 & HX2) HP Hdt H Hf p q. change (d * PI / 180) with (deg d) in *.
  destruct (ref_facts _ _ HP) as (Hv & _ & Ht & _ & HRP & _). fold p in Hv, Ht, HRP. pose proof PI_RGT_0 as HPI.
  assert (G : exists solve h0, solver_ok solve /\ (forall c, solve V tol (entry_state p i) secs dt (deg d) = Ok c -> c_t c <> [] ->
    exists y T, y 0 = entry_state p i /\ nearly_solves eta (fun z => EOM V z (deg d)) y T /\ grid (c_t c) T /\ c = channels (c_t c) (map y (c_t c))) /\
    store (mkObj V i tol None None) (fly solve V tol i secs dt d) h0 = (o, Ok tt) /\
    (two = false -> forall c, solve V tol (entry_state p i) secs dt (deg d) = Ok c -> length (c_t c) = ceil_nat ((secs + dt) / tau p / (dt / tau p)))).
  { assert (Hst : 0 < dt / tau (vh_planet V)) by (apply Rdiv_lt_0_compat; auto).
    destruct two; [exists (solveTrajectory2 E), (heatLoad0 i)|exists (solveTrajectory E), 0]; (split; [auto using solver1_ok, solver2_ok|split; [|split; [exact H|]]]); [intros c Hc Hne|discriminate|intros c Hc Hne|intros _ c Hc].
    - destruct HE as (_ & K). unfold solveTrajectory2 in Hc. destruct (arange _ _) as [ts|] eqn:Ea; [|discriminate]. cbn [rbind] in Hc. destruct (arange_inv _ _ _ Ea) as (La & Na).
      assert (Hn : ts <> []) by (destruct ts; [discriminate|congruence]).
      assert (H' : (letr out := solve_ivp E (fun y => EOM V y (deg d)) (last ts 0) (entry_state p i) ts hit_EFPA_90 tol in Ok (channels (fst out) (snd out))) = Ok c)
        by (destruct ts; [congruence|exact Hc]). clear Hc.
      destruct (solve_ivp E _ _ _ _ _ _) as [[us xs]|] eqn:Eo; [|discriminate]. cbn [rbind fst snd] in H'. injection H' as <-. cbn [c_t channels] in *.
      destruct (K _ _ _ _ _ _ _ _ Eo) as (L & (n & ->) & F).
      assert (Hz : nth_error ts 0 = Some 0). { destruct ts as [|t ts]; [congruence|]. pose proof (Na 0%nat ltac:(cbn; lia)) as N. cbn in *. rewrite N. f_equal. ring. }
      destruct (HX2 _ _ _ _ _ _ _ Hz Eo) as (y & Y0 & S & ->). exists y, (last (firstn n ts) 0). split; auto. split; auto. split; auto.
      apply (grid_regular _ _ (Rlt_le _ _ Hst)). intros k Hk. rewrite firstn_length in Hk. rewrite nth_firstn by lia. apply Na. lia.
    - unfold solveTrajectory in Hc. destruct (arange _ _) as [ts|] eqn:Ea; [|discriminate]. cbn [rbind] in Hc. destruct (odeint E _ _ _ _) as [xs|] eqn:Eo; [|discriminate].
      cbn [rbind] in Hc. injection Hc as <-. cbn [c_t channels] in *. destruct (arange_inv _ _ _ Ea) as (La & Na).
      assert (Hz : nth_error ts 0 = Some 0). { destruct ts as [|t ts]; [congruence|]. pose proof (Na 0%nat ltac:(cbn; lia)) as N. cbn in *. rewrite N. f_equal. ring. }
      destruct (HX1 _ _ _ _ Hz Eo) as (y & Y0 & S & ->). exists y, (last ts 0). split; auto. split; auto. split; auto. apply (grid_regular ts _ (Rlt_le _ _ Hst) Na).
    - unfold solveTrajectory in Hc. fold p in Hc. destruct (arange _ _) as [ts|] eqn:Ea; [|discriminate]. cbn [rbind] in Hc. destruct (odeint E _ _ _ _) as [xs|] eqn:Eo; [|discriminate]. cbn [rbind] in Hc. injection Hc as <-. cbn [c_t channels].
      destruct (arange_inv _ _ _ Ea) as (La & _). exact La. }
  destruct G as (solve & h0 & HK & HS & G & HN). clear H. unfold store in G. destruct (fly _ _ _ _ _ _ _) as [f'|] eqn:Ef; [|discriminate].
  assert (f' = f). { destruct (ocumtrapz _ _ _); injection G as <-; [|discriminate]. cbn [ob_flight set_flight set_heat] in Hf. congruence. } subst f'. clear G.
  unfold fly in Ef. destruct (solve V tol (entry_state (vh_planet V) i) secs dt (deg d)) as [c|] eqn:Es; [|discriminate]. cbn [rbind] in Ef. fold p in Es.
  destruct (post_inv _ _ _ _ Ef) as (cls & qc & qr & A). cbv zeta in A. destruct A as (Ec & _ & Exf & _ & Ep & _). fold p in Ec, Ep. fold q in Ep.
  destruct (HK _ _ _ _ _ _ _ Es) as (n & (L1 & L2 & _) & _ & Nk & _).
  assert (Hne : c_t c <> []). { intros Z. rewrite Z in L1. cbn in L1. subst n. cbn [dimensionalize_traj c_r] in Ec. destruct (c_r c); [discriminate Ec|discriminate L2]. }
  destruct (HS c Es Hne) as (y & T & Y0 & S & (G & _) & Ech).
  exists y, T, (c_t c), (fst cls). split; auto. split; auto. split; auto. split; [rewrite L1; auto|]. split; [auto|].
  rewrite Ech in Ec. cbn [dimensionalize_traj c_r channels] in Ec. rewrite !map_map in Ec. split; [rewrite Ec; destruct cls; cbn [fst snd] in *; congruence|].
  rewrite Ech in Ep. cbn [p_t p_h p_v p_phi p_psi p_theta p_gamma p_drange convertToPlotUnits dimensionalize_traj c_t c_r c_v c_phi c_psi c_theta c_gamma c_drange channels] in Ep.
  rewrite !map_map, !firstn_map in Ep. rewrite Ep. cbn [p_t p_h p_v p_phi p_psi p_theta p_gamma p_drange]. split; [reflexivity|]. intros k Hk Hk'. unfold shows. cbn [p_t p_h p_v p_phi p_psi p_theta p_gamma p_drange].
  assert (Lk : (k < length (firstn (fst cls) (c_t c)))%nat) by (rewrite firstn_length; lia).
  rewrite !(nth_map_lt _ _ _ 0) by auto. rewrite nth_firstn by auto. repeat split; field; lra.
Qed.
(** Everything near: the integrator, the vehicle, the start and the bank angle. *)
Lemma near_inputs : forall name V i d kap, Planet name = Ok (vh_planet V) -> 0 < kap <= 1 -> exists eta0, 0 < eta0 <= kap /\ forall eta V' i' d', eta <= eta0 -> vehicle_within eta V V' -> starts_near eta (vh_planet V) i i' -> Rabs (d - d') <= eta ->
  Rabs (d * PI / 180 - d' * PI / 180) <= eta /\ dist (entry_state (vh_planet V) i) (entry_state (vh_planet V) i') <= kap /\ height (vh_planet V) (entry_state (vh_planet V) i') <= h_thres (vh_planet V).
Proof.
  intros name V i d kap HP Hk. set (p := vh_planet V) in *. destruct (ref_facts _ _ HP) as (Hv & _ & Ht & _ & HRP & _ & Hr0). pose proof PI_RGT_0 as HPI. pose proof PI_4.
  set (C := 2000 / RP p + 1000 / Vref p + 4). assert (HC : 1 <= C). { unfold C. assert (0 < 2000 / RP p) by (apply Rdiv_lt_0_compat; lra). assert (0 < 1000 / Vref p) by (apply Rdiv_lt_0_compat; lra). lra. }
  assert (Hkc : 0 < kap / C) by (apply Rdiv_lt_0_compat; lra). assert (EC : C * (kap / C) = kap) by (field; lra). assert (kap / C <= kap) by nra.
  exists (kap / C). split; [lra|]. intros eta V' i' d' He HV (HI & Htop) Hd. split; [|split].
  - replace (d * PI / 180 - d' * PI / 180) with ((d - d') * (PI / 180)) by (field; lra). rewrite Rabs_mult, (Rabs_right (PI / 180)) by lra. pose proof (Rabs_pos (d - d')). nra.
  - eapply Rle_trans; [apply start_dist; eauto|]. fold C. assert (C * eta <= C * (kap / C)) by (apply Rmult_le_compat_l; lra). lra.
  - destruct (entry_clear _ _ i' HP) as (E1 & _). fold p in E1, Htop. unfold height. lra.
Qed.
(** Grid points: between two times a step apart there is one. *)
Lemma grid_between : forall ts st a b, 0 < st -> (forall k, (k < length ts)%nat -> nth k ts 0 = INR k * st) -> 0 <= a -> a + st <= b -> forall n, (n < length ts)%nat -> a <= nth n ts 0 -> exists j, (j <= n)%nat /\ a <= nth j ts 0 <= b.
Proof.
  intros ts st a b Hst Nk Ha Hb. induction n as [|n IH]; intros Hn La; [exists 0%nat; split; [lia|]; rewrite Nk in * by lia; cbn in *; lra|].
  destruct (Rle_or_lt a (nth n ts 0)) as [Q|Q]; [destruct (IH ltac:(lia) Q) as (j & Hj & B); exists j; split; [lia|auto]|]. exists (S n). split; auto. split; auto. rewrite !Nk in * by lia. rewrite S_INR. lra.
Qed.
(** A nearby flight reported as having left the atmosphere ends near the true exit, in time and in state. *)
Theorem C131_exit : forall name V i d T y, Planet name = Ok (vh_planet V) -> vh_user V = false -> lipschitz_air (vh_planet V) (vh_atm V) -> leaves V i d T y -> 0 < T ->
  forall eps, 0 < eps -> exists eta, 0 < eta /\ forall (two : bool) E V' i' d' tol secs dt o f, engine_ok E -> exact_within eta E (fun x => EOM V' x (d' * PI / 180)) -> 0 < dt < eta ->
    vehicle_within eta V V' -> starts_near eta (vh_planet V) i i' -> Rabs (d - d') <= eta ->
    (if two then propogateEntry2 else propogateEntry) E (mkObj V' i' tol None None) secs dt d' = (o, Ok tt) -> ob_flight o = Some f -> f_exitflag f = 1 ->
    exists k, length (p_t (f_plot f)) = S k /\ Rabs (nth k (p_t (f_plot f)) 0 * 60 - tau (vh_planet V) * T) < eps /\ shows_within eps (vh_planet V) (f_plot f) k (y T).
Proof.
  intros name V i d T y HP Hu HL LV HT0 eps Heps. destruct (ref_facts _ _ HP) as (_ & _ & Ht & _ & HR & _ & Hr0). destruct (Planet_facts _ _ HP) as (_ & _ & _ & _ & (Ht0 & Hts) & Hthr & _).
  set (p := vh_planet V) in *. assert (H0 : 0 < h_thres p) by lra. pose proof LV as (_ & Y0 & Sy & _). fold p in Y0.
  destruct (shows_close name p (y T) eps HP Heps) as (e & He & SC).
  assert (CT : continuous_at y T) by (destruct Sy as (l & Sy'); apply (Sy' T); lra). destruct (curve_near y T (e / 2) ltac:(lra) CT) as (a & Ha & CN).
  set (e1 := Rmin (e / 2) (Rmin (a / 2) (eps / (2 * tau p)))). assert (Hq : 0 < eps / (2 * tau p)) by (apply Rdiv_lt_0_compat; lra). assert (He1 : 0 < e1) by (repeat apply Rmin_glb_lt; lra).
  pose proof (Rmin_l (e / 2) (Rmin (a / 2) (eps / (2 * tau p))) : e1 <= _) as M1. pose proof (Rmin_r (e / 2) (Rmin (a / 2) (eps / (2 * tau p))) : e1 <= _) as M2. pose proof (Rmin_l (a / 2) (eps / (2 * tau p))) as M3. pose proof (Rmin_r (a / 2) (eps / (2 * tau p))) as M4.
  assert (Eq : eps / (2 * tau p) * tau p = eps / 2) by (field; lra). assert (M5 : e1 * tau p <= eps / 2) by (rewrite <- Eq; apply Rmult_le_compat_r; lra).
  destruct (near_exit V i d T y Hu HR Hr0 H0 HL LV HT0) as (w0 & Hw0 & NE). fold p in NE. destruct (NE e1 He1) as (kap & w & T1 & Hk & Hw & Hww & HT1 & HTw & G). clear NE.
  destruct (near_inputs name V i d kap HP Hk) as (eta & Heta & NI). fold p in NI.
  exists (Rmin eta (Rmin (w / 2 * tau p) (e1 * tau p))). assert (0 < w / 2 * tau p) by (apply Rmult_lt_0_compat; lra). assert (0 < e1 * tau p) by (apply Rmult_lt_0_compat; lra). split; [repeat apply Rmin_glb_lt; lra|].
  set (eta' := Rmin eta (Rmin (w / 2 * tau p) (e1 * tau p))). pose proof (Rmin_l eta (Rmin (w / 2 * tau p) (e1 * tau p)) : eta' <= _) as N1. pose proof (Rmin_r eta (Rmin (w / 2 * tau p) (e1 * tau p)) : eta' <= _) as N2. pose proof (Rmin_l (w / 2 * tau p) (e1 * tau p)) as N3. pose proof (Rmin_r (w / 2 * tau p) (e1 * tau p)) as N4.
  intros two E V' i' d' tol secs dt o f HE HX Hdt HV HI Hd HRun Hf Hfl.
  assert (EP : vh_planet V' = p) by apply HV.
  destruct (near_behind two E _ name V' i' tol secs dt d' o f HE HX ltac:(rewrite EP; exact HP) ltac:(lra) HRun Hf) as (z & Tz & ts & idx & Z0 & Sz & GT & Nk & _ & Ec & Et & Sh). rewrite EP in *. rewrite Hfl in Ec.
  destruct (NI eta' V' i' d' ltac:(lra) HV HI Hd) as (Dd & Ds & Dt).
  destruct (G eta' V' (d' * PI / 180) z Tz ltac:(lra) HV Dd Sz ltac:(rewrite Y0, Z0; exact Ds) ltac:(rewrite Z0; exact Dt)) as (G1 & G2 & G3). clear G.
  destruct (C42_classification name p _ _ _ HP Ec) as (_ & _ & _ & F & _). cbv zeta in F. specialize (F eq_refl). clear Ec. rewrite map_map in F. destruct F as (Li & Ai & Bi). rewrite map_length in Li.
  set (st := dt / tau p) in *. assert (Hst : 0 < st) by (apply Rdiv_lt_0_compat; lra). assert (Est : st * tau p = dt) by (unfold st; field; lra).
  assert (Hsw : st < w / 2) by (apply (Rmult_lt_reg_r (tau p)); lra). assert (Hse : st < e1) by (apply (Rmult_lt_reg_r (tau p)); lra).
  pose proof (proj1 (Forall_forall _ _) GT) as GF. cbv beta in GF.
  assert (Alt : forall k, (k < length ts)%nat -> nth k (map (fun t => s_r (z t) * RP p - RP p) ts) 0 = height p (z (nth k ts 0))).
  { intros k Hk'. rewrite (nth_map_lt _ _ _ 0) by auto. unfold height. ring. }
  rewrite Alt in Ai by auto. pose proof (GF _ (nth_In ts 0 Li)) as Bt.
  assert (Late : T1 < nth idx ts 0). { apply Rnot_le_lt. intros L. destruct (G1 (nth idx ts 0) ltac:(lra) ltac:(lra)) as (_ & IA). lra. }
  assert (Hpos : (0 < idx)%nat). { destruct idx as [|j]; [|lia]. rewrite Nk in Late by auto. cbn in Late. lra. }
  destruct idx as [|k]; [lia|]. exists k. assert (Lk : (k < length ts)%nat) by lia. pose proof (GF _ (nth_In ts 0 Lk)) as Bk.
  assert (Next : nth (S k) ts 0 = nth k ts 0 + st) by (rewrite !Nk by auto; rewrite S_INR; ring).
  assert (Early : nth k ts 0 < T + w).
  { apply Rnot_le_lt. intros L. destruct (grid_between ts st (T + w / 2) (T + w) Hst Nk ltac:(lra) ltac:(lra) k Lk ltac:(lra)) as (j & Hj & B). assert (Lj : (j < length ts)%nat) by lia. pose proof (GF _ (nth_In ts 0 Lj)) as Bj.
    specialize (Bi j ltac:(lia)). rewrite Alt in Bi by auto. apply Bi. rewrite <- Hthr. apply G3; lra. }
  assert (Len : length (p_t (f_plot f)) = S k) by (rewrite Et, map_length, firstn_length; lia). split; auto.
  assert (Ptk : nth k (p_t (f_plot f)) 0 * 60 = tau p * nth k ts 0). { rewrite Et. rewrite (nth_map_lt _ _ _ 0) by (rewrite firstn_length; lia). rewrite nth_firstn by auto. lra. }
  rewrite Ptk. split.
  - replace (tau p * nth k ts 0 - tau p * T) with (tau p * (nth k ts 0 - T)) by ring. rewrite Rabs_mult, (Rabs_right (tau p)) by lra. assert (Rabs (nth k ts 0 - T) < 2 * e1) by (apply Rabs_def1; lra). nra.
  - apply (SC _ _ (z (nth k ts 0))); [apply Sh; auto|]. destruct (Rle_or_lt (nth k ts 0) T1) as [L|L].
    + destruct (G1 (nth k ts 0) ltac:(lra) ltac:(lra)) as (D & _). assert (Y := CN (nth k ts 0) ltac:(rewrite Rabs_left1; lra)). pose proof (dist_tri (y T) (y (nth k ts 0)) (z (nth k ts 0))). lra.
    + destruct (G2 (nth k ts 0) ltac:(lra) ltac:(lra)) as (D & _). lra.
Qed.
(** The times of a run's grid. *)
Lemma grid_span : forall ts st dt secs ta, 0 < ta -> 0 < dt -> 0 < secs -> st = dt / ta -> (forall k, (k < length ts)%nat -> nth k ts 0 = INR k * st) -> length ts = ceil_nat ((secs + dt) / ta / st) ->
  (0 < length ts)%nat /\ secs <= ta * nth (length ts - 1) ts 0 /\ forall k, (k < length ts)%nat -> ta * nth k ts 0 < secs + dt.
Proof.
  intros ts st dt secs ta Ht Hdt Hs -> Nk Ln. set (st := dt / ta) in *. assert (Hst : 0 < st) by (apply Rdiv_lt_0_compat; lra). assert (Est : st * ta = dt) by (unfold st; field; lra).
  assert (Hq : 0 < (secs + dt) / ta / st) by (apply Rdiv_lt_0_compat; [apply Rdiv_lt_0_compat; lra|auto]). pose proof (PropRoundGrid.ceil_between _ ltac:(exact (Rlt_le _ _ Hq))) as (C1 & C2). rewrite <- Ln in C1, C2.
  assert (Eq : (secs + dt) / ta / st * dt = secs + dt) by (unfold st; field; lra).
  assert (L1 : (1 <= length ts)%nat) by (destruct ts; [cbn in C1; lra|cbn; lia]). assert (E1 : INR (length ts) = INR (length ts - 1) + 1) by (rewrite <- S_INR; f_equal; lia).
  assert (LB : secs <= INR (length ts - 1) * dt < secs + dt) by nra. split; [lia|]. split.
  - rewrite Nk by lia. replace (ta * (INR (length ts - 1) * st)) with (INR (length ts - 1) * (st * ta)) by ring. rewrite Est. lra.
  - intros k Hk. rewrite Nk by lia. replace (ta * (INR k * st)) with (INR k * (st * ta)) by ring. rewrite Est. assert (INR k * dt <= INR (length ts - 1) * dt) by (apply Rmult_le_compat_r; [lra|]; apply le_INR; lia). lra.
Qed.
(** A propagation that ends after the exit and before the return, however long it is, says of nearby flights that they left. *)
Theorem C131_flagged : forall name V i d T T2 y secs, Planet name = Ok (vh_planet V) -> vh_user V = false -> lipschitz_air (vh_planet V) (vh_atm V) -> stays_out V i d T T2 y -> 0 < T -> tau (vh_planet V) * T < secs < tau (vh_planet V) * T2 ->
  exists eta, 0 < eta /\ forall E V' i' d' tol dt o f, engine_ok E -> exact_within eta E (fun x => EOM V' x (d' * PI / 180)) -> 0 < dt < eta ->
    vehicle_within eta V V' -> starts_near eta (vh_planet V) i i' -> Rabs (d - d') <= eta ->
    propogateEntry E (mkObj V' i' tol None None) secs dt d' = (o, Ok tt) -> ob_flight o = Some f -> f_exitflag f = 1.
Proof.
  intros name V i d T T2 y secs HP Hu HL SO HT0 Hsec. destruct (ref_facts _ _ HP) as (_ & _ & Ht & _ & HR & _ & Hr0). destruct (Planet_facts _ _ HP) as (_ & _ & _ & _ & (Ht0 & Hts) & Hthr & _).
  set (p := vh_planet V) in *. assert (H0 : 0 < h_thres p) by lra. pose proof SO as ((_ & Y0 & _) & _). fold p in Y0. assert (HTs : 0 < tau p * T) by (apply Rmult_lt_0_compat; auto).
  set (e := (secs - tau p * T) / tau p). assert (He : 0 < e) by (apply Rdiv_lt_0_compat; lra). assert (Ee : tau p * e = secs - tau p * T) by (unfold e; field; lra).
  destruct (near_out V i d T T2 y Hu HR Hr0 H0 HL SO HT0 e He) as (kap & w & T1 & Hk & Hw & HT1 & HTw & G). fold p in G.
  destruct (near_inputs name V i d kap HP Hk) as (eta & Heta & NI). fold p in NI.
  exists (Rmin eta (tau p * T2 - secs)). split; [apply Rmin_glb_lt; lra|]. set (eta' := Rmin eta (tau p * T2 - secs)). pose proof (Rmin_l eta (tau p * T2 - secs) : eta' <= _) as N1. pose proof (Rmin_r eta (tau p * T2 - secs) : eta' <= _) as N2.
  intros E V' i' d' tol dt o f HE HX Hdt HV HI Hd HRun Hf. assert (EP : vh_planet V' = p) by apply HV.
  destruct (near_behind false E _ name V' i' tol secs dt d' o f HE HX ltac:(rewrite EP; exact HP) ltac:(lra) HRun Hf) as (z & Tz & ts & idx & Z0 & Sz & GT & Nk & Ln & Ec & _). rewrite EP in *. specialize (Ln eq_refl).
  destruct (NI eta' V' i' d' ltac:(lra) HV HI Hd) as (Dd & Ds & Dt). destruct (G eta' V' (d' * PI / 180) z Tz ltac:(lra) HV Dd Sz ltac:(rewrite Y0, Z0; exact Ds) ltac:(rewrite Z0; exact Dt)) as (G1 & G2 & G3). clear G.
  destruct (C42_classification name p _ _ _ HP Ec) as (_ & F & _). cbv zeta in F. clear Ec. rewrite map_map in F. apply F. clear F.
  destruct (grid_span ts (dt / tau p) dt secs (tau p) Ht ltac:(lra) ltac:(lra) eq_refl Nk Ln) as (Lp & Lo & Hi). pose proof (proj1 (Forall_forall _ _) GT) as GF. cbv beta in GF.
  assert (Hgt : forall k, (k < length ts)%nat -> nth k (map (fun t => s_r (z t) * RP p - RP p) ts) 0 = height p (z (nth k ts 0))) by (intros k Hk'; rewrite (nth_map_lt _ _ _ 0) by auto; unfold height; ring).
  assert (Bnd : forall k, (k < length ts)%nat -> 0 <= nth k ts 0 <= T2 /\ nth k ts 0 <= Tz). { intros k Hk'. pose proof (GF _ (nth_In ts 0 Hk')) as B. specialize (Hi k Hk'). split; [split; [lra|]|lra]. apply (Rmult_le_reg_l (tau p)); auto. lra. }
  split.
  - intros k Hk'. rewrite map_length in Hk'. rewrite Hgt by auto. destruct (Bnd k Hk') as (B1 & B2). destruct (Rle_or_lt (nth k ts 0) T1) as [L1|L1]; [destruct (G1 _ ltac:(split; [apply B1|exact L1]) B2) as (_ & IA); lra|].
    destruct (Rle_or_lt (nth k ts 0) (T + w)) as [L2|L2]; [destruct (G2 (nth k ts 0) ltac:(lra) B2); lra|]. assert (Q := G3 (nth k ts 0) ltac:(lra) B2). lra.
  - exists (length ts - 1)%nat. rewrite map_length. split; [lia|]. rewrite Hgt by lia. rewrite <- Hthr. destruct (Bnd (length ts - 1)%nat ltac:(lia)) as (B1 & B2). apply G3; auto. split; [|lra]. apply (Rmult_le_reg_l (tau p)); auto. assert (tau p * (w / 2) <= tau p * e) by (apply Rmult_le_compat_l; lra). lra.
Qed.
(** A nearby flight reported as trapped ends near where the true flight passes the trap altitude, in time and in state. *)
Theorem C131_trap : forall name V i d T2 y T, Planet name = Ok (vh_planet V) -> vh_user V = false -> lipschitz_air (vh_planet V) (vh_atm V) -> passage V i d T2 y -> 0 < T < T2 -> sinks V T y ->
  forall eps, 0 < eps -> exists eta, 0 < eta /\ forall (two : bool) E V' i' d' tol secs dt o f, engine_ok E -> exact_within eta E (fun x => EOM V' x (d' * PI / 180)) -> 0 < dt < eta ->
    vehicle_within eta V V' -> starts_near eta (vh_planet V) i i' -> Rabs (d - d') <= eta ->
    (if two then propogateEntry2 else propogateEntry) E (mkObj V' i' tol None None) secs dt d' = (o, Ok tt) -> ob_flight o = Some f -> f_exitflag f = -1 ->
    exists k, length (p_t (f_plot f)) = S k /\ Rabs (nth k (p_t (f_plot f)) 0 * 60 - tau (vh_planet V) * T) < eps /\ shows_within eps (vh_planet V) (f_plot f) k (y T).
Proof.
  intros name V i d T2 y T HP Hu HL W HT SK eps Heps. destruct (ref_facts _ _ HP) as (_ & _ & Ht & _ & HR & _ & Hr0). destruct (Planet_facts _ _ HP) as (_ & _ & _ & _ & (Ht0 & Hts) & Hthr & _).
  set (p := vh_planet V) in *. pose proof W as (Y0 & Sy & _). fold p in Y0.
  destruct (shows_close name p (y T) eps HP Heps) as (e & He & SC).
  assert (CT : continuous_at y T) by (destruct Sy as (l & Sy'); apply (Sy' T); lra). destruct (curve_near y T (e / 2) ltac:(lra) CT) as (a & Ha & CN).
  set (e1 := Rmin (e / 2) (Rmin (a / 2) (eps / (2 * tau p)))). assert (Hq : 0 < eps / (2 * tau p)) by (apply Rdiv_lt_0_compat; lra). assert (He1 : 0 < e1) by (repeat apply Rmin_glb_lt; lra).
  pose proof (Rmin_l (e / 2) (Rmin (a / 2) (eps / (2 * tau p))) : e1 <= _) as M1. pose proof (Rmin_r (e / 2) (Rmin (a / 2) (eps / (2 * tau p))) : e1 <= _) as M2. pose proof (Rmin_l (a / 2) (eps / (2 * tau p))) as M3. pose proof (Rmin_r (a / 2) (eps / (2 * tau p))) as M4.
  assert (Eq : eps / (2 * tau p) * tau p = eps / 2) by (field; lra). assert (M5 : e1 * tau p <= eps / 2) by (rewrite <- Eq; apply Rmult_le_compat_r; lra).
  destruct (near_sink V i d T2 y T Hu HR Hr0 ltac:(fold p; lra) HL W HT SK e1 He1) as (kap & w & Hk & Hw & HwT & HwT2 & G). fold p in G.
  destruct (near_inputs name V i d kap HP Hk) as (eta & Heta & NI). fold p in NI.
  exists (Rmin eta (Rmin (w / 2 * tau p) (e1 * tau p))). assert (0 < w / 2 * tau p) by (apply Rmult_lt_0_compat; lra). assert (0 < e1 * tau p) by (apply Rmult_lt_0_compat; lra). split; [repeat apply Rmin_glb_lt; lra|].
  set (eta' := Rmin eta (Rmin (w / 2 * tau p) (e1 * tau p))). pose proof (Rmin_l eta (Rmin (w / 2 * tau p) (e1 * tau p)) : eta' <= _) as N1. pose proof (Rmin_r eta (Rmin (w / 2 * tau p) (e1 * tau p)) : eta' <= _) as N2. pose proof (Rmin_l (w / 2 * tau p) (e1 * tau p)) as N3. pose proof (Rmin_r (w / 2 * tau p) (e1 * tau p)) as N4.
  intros two E V' i' d' tol secs dt o f HE HX Hdt HV HI Hd HRun Hf Hfl. assert (EP : vh_planet V' = p) by apply HV.
  destruct (near_behind two E _ name V' i' tol secs dt d' o f HE HX ltac:(rewrite EP; exact HP) ltac:(lra) HRun Hf) as (z & Tz & ts & idx & Z0 & Sz & GT & Nk & _ & Ec & Et & Sh). rewrite EP in *. rewrite Hfl in Ec.
  destruct (NI eta' V' i' d' ltac:(lra) HV HI Hd) as (Dd & Ds & Dt). destruct (G eta' V' (d' * PI / 180) z Tz ltac:(lra) HV Dd Sz ltac:(rewrite Y0, Z0; exact Ds) ltac:(rewrite Z0; exact Dt)) as (G1 & G2 & G3). clear G.
  destruct (C42_classification name p _ _ _ HP Ec) as (_ & _ & F2 & _ & F4 & F5 & _). cbv zeta in F2, F4, F5. clear Ec. rewrite map_map in F2, F4, F5. destruct (proj1 F2 eq_refl) as (_ & TT). clear F2.
  set (st := dt / tau p) in *. assert (Hst : 0 < st) by (apply Rdiv_lt_0_compat; lra). assert (Est : st * tau p = dt) by (unfold st; field; lra).
  assert (Hsw : st < w / 2) by (apply (Rmult_lt_reg_r (tau p)); lra). assert (Hse : st < e1) by (apply (Rmult_lt_reg_r (tau p)); lra).
  pose proof (proj1 (Forall_forall _ _) GT) as GF. cbv beta in GF.
  assert (Alt : forall k, (k < length ts)%nat -> nth k (map (fun t => s_r (z t) * RP p - RP p) ts) 0 = height p (z (nth k ts 0))).
  { intros k Hk'. rewrite (nth_map_lt _ _ _ 0) by auto. unfold height. ring. }
  assert (First : forall n, (n < length ts)%nat -> T + w <= nth n ts 0 -> exists j, (j <= n)%nat /\ height p (z (nth j ts 0)) < h_trap p).
  { intros n Hn Ln. destruct (grid_between ts st (T + w / 2) (T + w) Hst Nk ltac:(lra) ltac:(lra) n Hn ltac:(lra)) as (j & Hj & B). exists j. split; auto. pose proof (GF _ (nth_In ts 0 (Nat.le_lt_trans _ _ _ Hj Hn))) as Bj. apply G3; lra. }
  assert (TR : some_entry (fun x => x < h_trap p) (map (fun t => s_r (z t) * RP p - RP p) ts)).
  { destruct TT as [TT|TT]; auto. exfalso. (* a flight without a stored point is not stored *)
    assert (H' : propogateEntry E (mkObj V' i' tol None None) secs dt d' = (o, Ok tt) \/ propogateEntry2 E (mkObj V' i' tol None None) secs dt d' = (o, Ok tt)) by (destruct two; auto).
    destruct (C43_flight_aligned E name (mkObj V' i' tol None None) secs dt d' o HE ltac:(cbn [ob_veh]; rewrite EP; exact HP) H') as (_ & _ & _ & f' & h & F1 & _ & (F0 & _ & (La & _) & _) & _). assert (f' = f) by congruence. subst f'.
    rewrite Et, (F5 eq_refl TT) in La. cbn in La. lia. }
  destruct (F4 eq_refl TR) as (Li & Ai & Bi). rewrite map_length in Li. rewrite Alt in Ai by auto. clear TT F4 F5 TR. pose proof (GF _ (nth_In ts 0 Li)) as Bt.
  assert (Late : T - w < nth idx ts 0). { apply Rnot_le_lt. intros L. assert (Q := G2 (nth idx ts 0) ltac:(lra) ltac:(lra)). lra. }
  assert (Hpos : (0 < idx)%nat). { destruct idx as [|j]; [|lia]. rewrite Nk in Late by auto. cbn in Late. lra. }
  destruct idx as [|k]; [lia|]. exists k. assert (Lk : (k < length ts)%nat) by lia. pose proof (GF _ (nth_In ts 0 Lk)) as Bk.
  assert (Next : nth (S k) ts 0 = nth k ts 0 + st) by (rewrite !Nk by auto; rewrite S_INR; ring).
  assert (Early : nth k ts 0 < T + w). { apply Rnot_le_lt. intros L. destruct (First k Lk L) as (j & Hj & Bj). specialize (Bi j ltac:(lia)). rewrite Alt in Bi by lia. apply Bi. exact Bj. }
  assert (Len : length (p_t (f_plot f)) = S k) by (rewrite Et, map_length, firstn_length; lia). split; auto.
  assert (Ptk : nth k (p_t (f_plot f)) 0 * 60 = tau p * nth k ts 0). { rewrite Et. rewrite (nth_map_lt _ _ _ 0) by (rewrite firstn_length; lia). rewrite nth_firstn by auto. lra. }
  assert (AT : Rabs (nth k ts 0 - T) < 2 * e1) by (apply Rabs_def1; lra). rewrite Ptk. split.
  - replace (tau p * nth k ts 0 - tau p * T) with (tau p * (nth k ts 0 - T)) by ring. rewrite Rabs_mult, (Rabs_right (tau p)) by lra. nra.
  - apply (SC _ _ (z (nth k ts 0))); [apply Sh; auto|]. destruct (G1 (nth k ts 0) ltac:(lra) ltac:(lra)) as (D & _). assert (Y := CN (nth k ts 0) ltac:(lra)). pose proof (dist_tri (y T) (y (nth k ts 0)) (z (nth k ts 0))). lra.
Qed.
(** A propagation that goes on for longer than that says of nearby flights that they were trapped. *)
Theorem C131_trap_flagged : forall name V i d T2 y T secs, Planet name = Ok (vh_planet V) -> vh_user V = false -> lipschitz_air (vh_planet V) (vh_atm V) -> passage V i d T2 y -> 0 < T < T2 -> sinks V T y -> tau (vh_planet V) * T < secs < tau (vh_planet V) * T2 ->
  exists eta, 0 < eta /\ forall E V' i' d' tol dt o f, engine_ok E -> exact_within eta E (fun x => EOM V' x (d' * PI / 180)) -> 0 < dt < eta ->
    vehicle_within eta V V' -> starts_near eta (vh_planet V) i i' -> Rabs (d - d') <= eta ->
    propogateEntry E (mkObj V' i' tol None None) secs dt d' = (o, Ok tt) -> ob_flight o = Some f -> f_exitflag f = -1.
Proof.
  intros name V i d T2 y T secs HP Hu HL W HT SK Hsec. destruct (ref_facts _ _ HP) as (_ & _ & Ht & _ & HR & _ & Hr0). destruct (Planet_facts _ _ HP) as (_ & _ & _ & _ & (Ht0 & Hts) & Hthr & _).
  set (p := vh_planet V) in *. pose proof W as (Y0 & _). fold p in Y0. assert (HTs : 0 < tau p * T) by (apply Rmult_lt_0_compat; lra).
  set (e := (secs - tau p * T) / tau p). assert (He : 0 < e) by (apply Rdiv_lt_0_compat; lra). assert (Ee : tau p * e = secs - tau p * T) by (unfold e; field; lra).
  destruct (near_sink V i d T2 y T Hu HR Hr0 ltac:(fold p; lra) HL W HT SK e He) as (kap & w & Hk & Hw & HwT & HwT2 & G). fold p in G.
  destruct (near_inputs name V i d kap HP Hk) as (eta & Heta & NI). fold p in NI. assert (Hwt : 0 < w / 2 * tau p) by (apply Rmult_lt_0_compat; lra).
  exists (Rmin eta (Rmin (tau p * T2 - secs) (w / 2 * tau p))). split; [repeat apply Rmin_glb_lt; lra|]. set (eta' := Rmin eta (Rmin (tau p * T2 - secs) (w / 2 * tau p))). pose proof (Rmin_l eta (Rmin (tau p * T2 - secs) (w / 2 * tau p)) : eta' <= _) as N1. pose proof (Rmin_r eta (Rmin (tau p * T2 - secs) (w / 2 * tau p)) : eta' <= _) as N2.
  pose proof (Rmin_l (tau p * T2 - secs) (w / 2 * tau p)) as N3. pose proof (Rmin_r (tau p * T2 - secs) (w / 2 * tau p)) as N4.
  intros E V' i' d' tol dt o f HE HX Hdt HV HI Hd HRun Hf. assert (EP : vh_planet V' = p) by apply HV.
  destruct (near_behind false E _ name V' i' tol secs dt d' o f HE HX ltac:(rewrite EP; exact HP) ltac:(lra) HRun Hf) as (z & Tz & ts & idx & Z0 & Sz & GT & Nk & Ln & Ec & _). rewrite EP in *. specialize (Ln eq_refl).
  destruct (NI eta' V' i' d' ltac:(lra) HV HI Hd) as (Dd & Ds & Dt). destruct (G eta' V' (d' * PI / 180) z Tz ltac:(lra) HV Dd Sz ltac:(rewrite Y0, Z0; exact Ds) ltac:(rewrite Z0; exact Dt)) as (G1 & _ & G3). clear G.
  destruct (C42_classification name p _ _ _ HP Ec) as (_ & _ & F & _). cbv zeta in F. clear Ec. rewrite map_map in F. apply F. clear F.
  destruct (grid_span ts (dt / tau p) dt secs (tau p) Ht ltac:(lra) ltac:(lra) eq_refl Nk Ln) as (Lp & Lo & Hi). pose proof (proj1 (Forall_forall _ _) GT) as GF. cbv beta in GF.
  set (st := dt / tau p) in *. assert (Hst : 0 < st) by (apply Rdiv_lt_0_compat; lra). assert (Est : st * tau p = dt) by (unfold st; field; lra). assert (Hsw : st < w / 2) by (apply (Rmult_lt_reg_r (tau p)); lra).
  assert (Hgt : forall k, (k < length ts)%nat -> nth k (map (fun t => s_r (z t) * RP p - RP p) ts) 0 = height p (z (nth k ts 0))) by (intros k Hk'; rewrite (nth_map_lt _ _ _ 0) by auto; unfold height; ring).
  assert (Bnd : forall k, (k < length ts)%nat -> 0 <= nth k ts 0 <= T2 /\ nth k ts 0 <= Tz). { intros k Hk'. pose proof (GF _ (nth_In ts 0 Hk')) as B. specialize (Hi k Hk'). split; [split; [lra|]|lra]. apply (Rmult_le_reg_l (tau p)); auto. lra. }
  split.
  - intros (_ & k & Hk' & U). rewrite map_length in Hk'. rewrite Hgt in U by auto. destruct (Bnd k Hk') as (B1 & B2). destruct (G1 _ B1 B2) as (_ & IA). lra.
  - left. assert (Hl : T + w / 2 <= nth (length ts - 1) ts 0). { apply (Rmult_le_reg_l (tau p)); auto. assert (tau p * (w / 2) <= tau p * e) by (apply Rmult_le_compat_l; lra). lra. }
    destruct (grid_between ts st (T + w / 2) (T + w) Hst Nk ltac:(lra) ltac:(lra) (length ts - 1)%nat ltac:(lia) Hl) as (j & Hj & B). assert (Lj : (j < length ts)%nat) by lia. exists j. rewrite map_length. split; auto. rewrite Hgt by auto. destruct (Bnd j Lj) as (_ & B2). apply G3; auto.
Qed.
