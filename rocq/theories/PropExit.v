(** C129: a flight that leaves the atmosphere is reported up to its exit, and its last reported point approaches the true exit state as the time step goes to 0. *)
From Coq Require Import String List Reals Lra Lia Classical.
Require Import Verif.Base Verif.Numpy Verif.NumpyProofs Verif.PlanetModel Verif.PlanetProofs Verif.AeroModel Verif.HeatModel Verif.PropHeat Verif.TrajectoryModel Verif.TrajectorySpec Verif.TrajectoryProofs Verif.PropTrajectory Verif.FlightProofs Verif.PropFlight
  Verif.ExactSpec Verif.ExactProofs Verif.PropExact Verif.DetSpec Verif.DetProofs Verif.PropDet Verif.NearSpec Verif.NearProofs Verif.ExistSpec Verif.ExistProofs Verif.PropExist Verif.ExitSpec Verif.ExitProofs Verif.EnterProofs Verif.PropEnter.
Require Verif.PropRoundGrid Verif.PropGuidance.
Import ListNotations.
Local Open Scope R_scope.

Lemma leaves_top : forall V i d T y, vh_user V = false -> leaves V i d T y -> at_top (vh_planet V) (y T).
Proof.
  intros V i d T y Hu (HT & _ & (l & S) & _ & E & _). destruct (S T ltac:(lra)) as (_ & x & Ex & _). destruct (field_is _ _ _ _ Hu Ex) as (_ & A). split; auto.
Qed.
(** Up to its exit it is the only flight. *)
Lemma leaves_same : forall V i d T y z Tz, vh_user V = false -> 0 < RP (vh_planet V) -> 0 < h_thres (vh_planet V) -> lipschitz_air (vh_planet V) (vh_atm V) -> leaves V i d T y ->
  z 0 = entry_state (vh_planet V) i -> solves (fun x => EOM V x (d * PI / 180)) z Tz -> forall t, 0 <= t <= T -> t <= Tz -> z t = y t.
Proof.
  intros V i d T y z Tz Hu HR H0 HL (HT & Y0 & S & I & _) Z0 Sz.
  assert (B : forall t, 0 <= t < T -> t <= Tz -> z t = y t).
  { intros t Ht Htz. symmetry. apply (unique_inside V (d * PI / 180) y z t); auto; [eapply solves_upto; [exact S|lra]|eapply solves_upto; [exact Sz|lra]|congruence|intros u Hu'; apply I; lra|lra]. }
  intros t Ht Htz. destruct (Req_dec t T) as [->|N]; [|apply B; lra]. destruct (Req_dec T 0) as [E|N0]; [rewrite E; congruence|].
  symmetry. apply Dsq_zero. apply Rnot_lt_le. intros P. assert (C : continuity_pt (Dsq y z) T) by (destruct S as (l1 & S1); destruct Sz as (l2 & S2); apply Dsq_continuous; [apply (S1 T)|apply (S2 T)]; lra).
  destruct (C (Dsq y z T) P) as (a & Ha & Hd). set (u := Rmax 0 (T - a / 2)). assert (Hu1 : 0 <= u < T) by (unfold u; split; [apply Rmax_l|apply Rmax_lub_lt; lra]). assert (Hu2 : T - a / 2 <= u) by apply Rmax_r.
  specialize (Hd u). cbn in Hd. unfold R_dist in Hd. assert (Q : Rabs (Dsq y z u - Dsq y z T) < Dsq y z T). { apply Hd. split; [split; [exact Logic.I|lra]|]. apply Rabs_def1; lra. }
  rewrite (Dsq_same y z u) in Q by (symmetry; apply B; lra). rewrite Rminus_0_l, Rabs_Ropp, Rabs_right in Q by lra. lra.
Qed.
(** What lies behind a stored flight: an exact solution, sampled on the whole grid, classified and truncated. *)
Lemma behind : forall (two : bool) E name V i tol secs dt d o f, engine_ok E -> exact E -> Planet name = Ok (vh_planet V) -> 0 < dt ->
  (if two then propogateEntry2 else propogateEntry) E (mkObj V i tol None None) secs dt d = (o, Ok tt) -> ob_flight o = Some f ->
  let p := vh_planet V in let q := f_plot f in
  exists z Tz ts idx, z 0 = entry_state p i /\ solves (fun x => EOM V x (d * PI / 180)) z Tz /\ Forall (fun t => 0 <= t <= Tz) ts /\
    (forall k, (k < length ts)%nat -> nth k ts 0 = INR k * (dt / tau p)) /\ (two = false -> length ts = ceil_nat ((secs + dt) / tau p / (dt / tau p))) /\
    classifyTrajectory p (map (fun t => s_r (z t) * RP p) ts) = Ok (idx, f_exitflag f) /\
    p_t q = map (fun t => tau p * t / 60) (firstn idx ts) /\ forall k, (k < idx)%nat -> (k < length ts)%nat -> shows p q k (z (nth k ts 0)).
Proof.
  intros two E name V i tol secs dt d o f HE HX HP Hdt H Hf p q. change (d * PI / 180) with (deg d).
  assert (G : exists solve h0, solver_ok solve /\ exact_solver solve /\ store (mkObj V i tol None None) (fly solve V tol i secs dt d) h0 = (o, Ok tt) /\
    (two = false -> forall c, solve V tol (entry_state p i) secs dt (deg d) = Ok c -> length (c_t c) = ceil_nat ((secs + dt) / tau p / (dt / tau p)))).
  { destruct two; [exists (solveTrajectory2 E), (heatLoad0 i)|exists (solveTrajectory E), 0]; (split; [auto using solver1_ok, solver2_ok|split; [auto using exact_solver1, exact_solver2|split; [exact H|]]]); [discriminate|].
    intros _ c Hc. unfold solveTrajectory in Hc. fold p in Hc. destruct (arange _ _) as [ts|] eqn:Ea; [|discriminate]. cbn [rbind] in Hc. destruct (odeint E _ _ _ _) as [xs|] eqn:Eo; [|discriminate]. cbn [rbind] in Hc. injection Hc as <-. cbn [c_t channels].
    destruct (arange_inv _ _ _ Ea) as (La & _). exact La. }
  destruct G as (solve & h0 & HK & HS & G & HN). clear H. unfold store in G. destruct (fly _ _ _ _ _ _ _) as [f'|] eqn:Ef; [|discriminate].
  assert (f' = f). { destruct (ocumtrapz _ _ _); injection G as <-; [|discriminate]. cbn [ob_flight set_flight set_heat] in Hf. congruence. } subst f'. clear G.
  unfold fly in Ef. destruct (solve V tol (entry_state (vh_planet V) i) secs dt (deg d)) as [c|] eqn:Es; [|discriminate]. cbn [rbind] in Ef. fold p in Es.
  destruct (post_inv _ _ _ _ Ef) as (cls & qc & qr & A). cbv zeta in A. destruct A as (Ec & _ & Exf & _ & Ep & _). fold p in Ec, Ep. fold q in Ep.
  destruct (ref_facts _ _ HP) as (Hv & _ & Ht & _ & HRP & _). fold p in Hv, Ht, HRP. pose proof PI_RGT_0 as HPI.
  destruct (HK _ _ _ _ _ _ _ Es) as (n & (L1 & L2 & _) & _ & Nk & _).
  assert (Hne : c_t c <> []). { intros Z. rewrite Z in L1. cbn in L1. subst n. cbn [dimensionalize_traj c_r] in Ec. destruct (c_r c); [discriminate Ec|discriminate L2]. }
  destruct (HS V tol (entry_state p i) secs dt (deg d) c Ht Hdt Es Hne) as (y & T & Y0 & S & (G & _) & Ech).
  exists y, T, (c_t c), (fst cls). split; auto. split; auto. split; auto. split; [rewrite L1; auto|]. split; [auto|].
  rewrite Ech in Ec. cbn [dimensionalize_traj c_r channels] in Ec. rewrite !map_map in Ec. split; [rewrite Ec; destruct cls; cbn [fst snd] in *; congruence|].
  rewrite Ech in Ep. cbn [p_t p_h p_v p_phi p_psi p_theta p_gamma p_drange convertToPlotUnits dimensionalize_traj c_t c_r c_v c_phi c_psi c_theta c_gamma c_drange channels] in Ep.
  rewrite !map_map, !firstn_map in Ep. rewrite Ep. cbn [p_t p_h p_v p_phi p_psi p_theta p_gamma p_drange]. split; [reflexivity|]. intros k Hk Hk'. unfold shows. cbn [p_t p_h p_v p_phi p_psi p_theta p_gamma p_drange].
  assert (Lk : (k < length (firstn (fst cls) (c_t c)))%nat) by (rewrite firstn_length; lia).
  rewrite !(nth_map_lt _ _ _ 0) by auto. rewrite nth_firstn by auto. repeat split; field; lra.
Qed.
(** A state of a solution close to [x] is reported close to it. *)
Lemma shows_close : forall name p x eps, Planet name = Ok p -> 0 < eps -> exists e, 0 < e /\ forall q k a, shows p q k a -> dist x a < e -> shows_within eps p q k x.
Proof.
  intros name p x eps HP He. destruct (ref_facts _ _ HP) as (HV & _ & _ & _ & HR & _). pose proof PI_RGT_0 as HPI. pose proof PI_4 as HP4. set (M := RP p + Vref p + 180).
  assert (HM : 0 < M) by (unfold M; lra). exists (eps / M). split; [apply Rdiv_lt_0_compat; auto|]. intros q k a (S1 & S2 & S3 & S4 & S5 & S6 & S7) D.
  assert (EM : M * (eps / M) = eps) by (field; lra). set (e := eps / M) in *. assert (He' : 0 < e) by (apply Rdiv_lt_0_compat; auto).
  assert (C : forall i, Rabs (comp x i - comp a i) < e) by (intros i; eapply Rle_lt_trans; [apply comp_dist|auto]).
  assert (P3 : 3 < PI) by (pose proof PI_ineq 1; pose proof PI2_3_2; lra).
  assert (DEG : forall u v w, u * PI / 180 = v -> Rabs (w - v) < e -> Rabs (u - w * 180 / PI) < eps).
  { intros u v w Eu Hw. replace (u - w * 180 / PI) with ((v - w) * (180 / PI)) by (rewrite <- Eu; field; lra). rewrite Rabs_mult, (Rabs_minus_sym v w). assert (Q : 0 < 180 / PI) by (apply Rdiv_lt_0_compat; lra). rewrite (Rabs_right (180 / PI)) by lra.
    assert (180 / PI < 180). { assert (E1 : 180 / PI * PI = 180) by (field; lra). nra. } pose proof (Rabs_pos (w - v)). unfold M in EM. nra. }
  assert (LEN : forall u v w K, 0 < K -> K <= M -> u * 1000 = K * v -> Rabs (w - v) < e -> Rabs (u - K * w / 1000) < eps).
  { intros u v w K HK HKM Eu Hw. replace (u - K * w / 1000) with ((v - w) * (K / 1000)) by lra. rewrite Rabs_mult, (Rabs_minus_sym v w), (Rabs_right (K / 1000)) by lra. pose proof (Rabs_pos (w - v)). nra. }
  pose proof (C 0%nat) as C0. pose proof (C 1%nat) as C1. pose proof (C 2%nat) as C2. pose proof (C 3%nat) as C3. pose proof (C 4%nat) as C4. pose proof (C 5%nat) as C5. pose proof (C 6%nat) as C6. cbn [comp] in *. unfold shows_within.
  split.
  - replace (nth k (p_h q) 0 - (RP p * s_r x - RP p) / 1000) with ((nth k (p_h q) 0 + RP p / 1000) - RP p * s_r x / 1000) by lra. apply (LEN _ (s_r a)); auto; unfold M; lra.
  - split; [apply (LEN _ (s_v a)); auto; unfold M; lra|]. do 4 (split; [eapply DEG; eauto|]). apply (LEN _ (s_drange a)); auto; unfold M; lra.
Qed.
Lemma leaves_below : forall V i d T y, 0 < h_thres (vh_planet V) -> leaves V i d T y -> forall t, 0 <= t <= T -> 0 <= height (vh_planet V) (y t) <= h_thres (vh_planet V).
Proof.
  intros V i d T y H0 (HT & _ & _ & I & E & _) t Ht. destruct (Req_dec t T) as [->|N]; [rewrite E; lra|]. pose proof (inside_height _ _ _ H0 (I t ltac:(lra))). lra.
Qed.
(** A flight reported as having left the atmosphere ends within one time step before the exit, in a state as close to the exit state as wanted. *)
Theorem C129_exit : forall name V i d T y, Planet name = Ok (vh_planet V) -> vh_user V = false -> lipschitz_air (vh_planet V) (vh_atm V) -> leaves V i d T y ->
  forall eps, 0 < eps -> exists delta, 0 < delta /\ forall (two : bool) E tol secs dt o f, engine_ok E -> exact E -> 0 < dt < delta ->
    (if two then propogateEntry2 else propogateEntry) E (mkObj V i tol None None) secs dt d = (o, Ok tt) -> ob_flight o = Some f -> f_exitflag f = 1 ->
    exists k, length (p_t (f_plot f)) = S k /\ nth k (p_t (f_plot f)) 0 * 60 <= tau (vh_planet V) * T < nth k (p_t (f_plot f)) 0 * 60 + dt /\
      shows_within eps (vh_planet V) (f_plot f) k (y T).
Proof.
  intros name V i d T y HP Hu HL LV eps Heps. destruct (ref_facts _ _ HP) as (_ & _ & Ht & _ & HR & _). destruct (Planet_facts _ _ HP) as (_ & _ & _ & _ & (Ht0 & Hts) & Hthr & _).
  set (p := vh_planet V) in *. assert (H0 : 0 < h_thres p) by lra.
  pose proof (leaves_top _ _ _ _ _ Hu LV) as AT. pose proof (leaves_below _ _ _ _ _ H0 LV) as BL. fold p in AT, BL. pose proof LV as (HT & Y0 & Sy & I & Etop & Hc). fold p in Etop.
  destruct (shows_close name p (y T) eps HP Heps) as (e & He & SC). destruct (climbs_out V (d * PI / 180) (y T) Hu HR H0 HL AT Hc e He) as (eta & Heta & CO). fold p in CO.
  assert (CT : continuous_at y T) by (destruct Sy as (l & Sy'); apply (Sy' T); lra). destruct (curve_near y T e He CT) as (a & Ha & CN).
  exists (Rmin (eta * tau p) (a * tau p)). split; [apply Rmin_glb_lt; apply Rmult_lt_0_compat; auto|]. intros two E tol secs dt o f HE HX Hdt H Hf Hfl. pose proof (Rmin_l (eta * tau p) (a * tau p)). pose proof (Rmin_r (eta * tau p) (a * tau p)).
  destruct (behind two E name V i tol secs dt d o f HE HX HP ltac:(lra) H Hf) as (z & Tz & ts & idx & Z0 & Sz & G & Nk & _ & Ec & Et & Sh). fold p in Z0, Nk, Ec, Et, Sh. rewrite Hfl in Ec.
  destruct (C42_classification name p _ _ _ HP Ec) as (_ & _ & _ & F & _). cbv zeta in F. specialize (F eq_refl). clear Ec. rewrite map_map in F. destruct F as (Li & Ai & Bi). rewrite map_length in Li.
  set (st := dt / tau p) in *. assert (Hst : 0 < st) by (apply Rdiv_lt_0_compat; lra). assert (Est : st * tau p = dt) by (unfold st; field; lra).
  pose proof (leaves_same V i d T y z Tz Hu HR H0 HL LV Z0 Sz) as SM. pose proof (proj1 (Forall_forall _ _) G) as GT. cbv beta in GT.
  assert (Alt : forall k, (k < length ts)%nat -> nth k (map (fun t => s_r (z t) * RP p - RP p) ts) 0 = height p (z (nth k ts 0))).
  { intros k Hk. rewrite (nth_map_lt _ _ _ 0) by auto. unfold height. ring. }
  rewrite Alt in Ai by auto. 
  assert (Late : T < nth idx ts 0). { apply Rnot_le_lt. intros L. pose proof (GT _ (nth_In ts 0 Li)) as B. rewrite SM in Ai by lra. specialize (BL (nth idx ts 0) ltac:(lra)). lra. }
  assert (Hpos : (0 < idx)%nat). { destruct idx as [|j]; [|lia]. rewrite Nk in Late by auto. cbn in Late. lra. }
  destruct idx as [|k]; [lia|]. exists k. assert (Lk : (k < length ts)%nat) by lia. pose proof (GT _ (nth_In ts 0 Lk)) as Bk. pose proof (GT _ (nth_In ts 0 Li)) as Bk'.
  assert (Next : nth (S k) ts 0 = nth k ts 0 + st) by (rewrite !Nk by auto; rewrite S_INR; ring).
  assert (Early : nth k ts 0 <= T).
  { apply Rnot_lt_le. intros L.
    (* the first grid point after T is above the top *)
    assert (X : exists j, (j <= k)%nat /\ T < nth j ts 0 <= T + st).
    { assert (P : forall n, (n <= k)%nat -> T < nth n ts 0 -> exists j, (j <= n)%nat /\ T < nth j ts 0 <= T + st).
      { induction n as [|n IH]; intros Hn Ln; [exists 0%nat; split; [lia|]; rewrite Nk in * by lia; cbn in *; lra|].
        destruct (Rlt_or_le T (nth n ts 0)) as [Q|Q]; [destruct (IH ltac:(lia) Q) as (j & Hj & B); exists j; split; [lia|auto]|]. exists (S n). split; auto. split; auto. rewrite !Nk in * by lia. rewrite S_INR. lra. }
      apply P; auto. }
    destruct X as (j & Hj & B1 & B2). assert (Lj : (j < length ts)%nat) by lia. pose proof (GT _ (nth_In ts 0 Lj)) as Bj. specialize (Bi j ltac:(lia)). rewrite Alt in Bi by auto. apply Bi.
    assert (st <= eta) by nra. destruct (CO z T Tz Sz HT ltac:(apply SM; lra) (nth j ts 0) ltac:(lra) ltac:(lra)) as (Up & _). lra. }
  assert (Len : length (p_t (f_plot f)) = S k) by (rewrite Et, map_length, firstn_length; lia). split; auto.
  assert (Ptk : nth k (p_t (f_plot f)) 0 * 60 = tau p * nth k ts 0). { rewrite Et. rewrite (nth_map_lt _ _ _ 0) by (rewrite firstn_length; lia). rewrite nth_firstn by auto. lra. }
  rewrite Ptk. split; [split; nra|]. apply (SC _ _ (z (nth k ts 0))); [apply Sh; auto|]. rewrite SM by lra. apply CN. rewrite Rabs_left1 by lra. assert (st < a) by nra. lra.
Qed.
(** A propagation that goes on for a little longer than that reports that the flight left the atmosphere. *)
Theorem C129_flagged : forall name V i d T y, Planet name = Ok (vh_planet V) -> vh_user V = false -> lipschitz_air (vh_planet V) (vh_atm V) -> leaves V i d T y ->
  exists delta, 0 < delta /\ forall E tol secs dt o f, engine_ok E -> exact E -> 0 < dt < delta -> tau (vh_planet V) * T < secs < tau (vh_planet V) * T + delta ->
    propogateEntry E (mkObj V i tol None None) secs dt d = (o, Ok tt) -> ob_flight o = Some f -> f_exitflag f = 1.
Proof.
  intros name V i d T y HP Hu HL LV. destruct (ref_facts _ _ HP) as (_ & _ & Ht & _ & HR & _). destruct (Planet_facts _ _ HP) as (_ & _ & _ & _ & (Ht0 & Hts) & Hthr & _).
  set (p := vh_planet V) in *. assert (H0 : 0 < h_thres p) by lra.
  pose proof (leaves_top _ _ _ _ _ Hu LV) as AT. pose proof (leaves_below _ _ _ _ _ H0 LV) as BL. fold p in AT, BL. pose proof LV as (HT & Y0 & Sy & I & Etop & Hc). fold p in Etop.
  destruct (climbs_out V (d * PI / 180) (y T) Hu HR H0 HL AT Hc 1 ltac:(lra)) as (eta & Heta & CO). fold p in CO.
  exists (eta * tau p / 2). split; [assert (0 < eta * tau p) by (apply Rmult_lt_0_compat; auto); lra|]. intros E tol secs dt o f HE HX Hdt Hsec H Hf.
  destruct (behind false E name V i tol secs dt d o f HE HX HP ltac:(lra) H Hf) as (z & Tz & ts & idx & Z0 & Sz & G & Nk & Ln & Ec & _). fold p in Z0, Nk, Ec, Ln. specialize (Ln eq_refl).
  destruct (C42_classification name p _ _ _ HP Ec) as (_ & F & _). cbv zeta in F. clear Ec. rewrite map_map in F. apply F. clear F.
  set (st := dt / tau p) in *. assert (Hst : 0 < st) by (apply Rdiv_lt_0_compat; lra). assert (Est : st * tau p = dt) by (unfold st; field; lra).
  pose proof (leaves_same V i d T y z Tz Hu HR H0 HL LV Z0 Sz) as SM. pose proof (proj1 (Forall_forall _ _) G) as GT. cbv beta in GT.
  assert (HTs : 0 <= tau p * T) by (apply Rmult_le_pos; lra).
  assert (Hq : 0 < (secs + dt) / tau p / st) by (apply Rdiv_lt_0_compat; [apply Rdiv_lt_0_compat; lra|auto]). pose proof (PropRoundGrid.ceil_between _ ltac:(exact (Rlt_le _ _ Hq))) as (C1 & C2). rewrite <- Ln in C1, C2.
  assert (Eq : (secs + dt) / tau p / st * dt = secs + dt) by (unfold st; field; lra).
  assert (L1 : (1 <= length ts)%nat) by (destruct ts; [cbn in C1; lra|cbn; lia]). assert (E1 : INR (length ts) = INR (length ts - 1) + 1) by (rewrite <- S_INR; f_equal; lia).
  assert (LB : secs <= INR (length ts - 1) * dt < secs + dt) by nra.
  assert (Alt : forall k, (k < length ts)%nat -> 0 <= height p (z (nth k ts 0)) /\ (T < nth k ts 0 -> h_thres p < height p (z (nth k ts 0)))).
  { intros k Hk. pose proof (GT _ (nth_In ts 0 Hk)) as B. destruct (Rle_or_lt (nth k ts 0) T) as [L|L].
    - rewrite SM by lra. specialize (BL (nth k ts 0) ltac:(lra)). split; [apply BL|intros; lra].
    - assert (nth k ts 0 * tau p <= INR (length ts - 1) * dt). { rewrite Nk by auto. rewrite Rmult_assoc, Est. apply Rmult_le_compat_r; [lra|]. apply le_INR. lia. }
      assert (nth k ts 0 <= T + eta) by (apply (Rmult_le_reg_r (tau p)); auto; lra). destruct (CO z T Tz Sz HT ltac:(apply SM; lra) (nth k ts 0) ltac:(lra) ltac:(lra)) as (Up & _). split; [lra|auto]. }
  assert (Hgt : forall k, (k < length ts)%nat -> nth k (map (fun t => s_r (z t) * RP p - RP p) ts) 0 = height p (z (nth k ts 0))) by (intros k Hk; rewrite (nth_map_lt _ _ _ 0) by auto; unfold height; ring).
  split.
  - intros k Hk. rewrite map_length in Hk. rewrite Hgt by auto. apply Alt; auto.
  - exists (length ts - 1)%nat. rewrite map_length. split; [lia|]. rewrite Hgt by lia. rewrite <- Hthr. apply Alt; [lia|]. rewrite Nk by lia. apply (Rmult_lt_reg_r (tau p)); auto. rewrite Rmult_assoc, Est. lra.
Qed.
