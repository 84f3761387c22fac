(** Concrete guided flights: a glide phase that never ends although the speed falls below every switch
    speed (C58), and a complete guided entry (witness of C56, C58, C59, C74, C75, C77). *)
From Coq Require Import String List ZArith.
Require Import Verif.Base Verif.Numpy Verif.NumpyProofs Verif.PlanetModel Verif.PlanetProofs Verif.AeroModel Verif.FlightProofs Verif.HeatModel Verif.TrajectoryModel Verif.TrajectorySpec
  Verif.TrajectoryProofs Verif.PropTrajectory Verif.OrbitScalarModel Verif.OrbiterModel Verif.OrbitModel Verif.CorridorModel Verif.PropCorridor
  Verif.GuidanceModel Verif.GuidanceSpec Verif.GuidanceProofs Verif.PropControl Verif.PropGuidance.
Local Open Scope R_scope.

Lemma const_repeat : forall {A} (f : A -> R) c l, (forall x, In x l -> f x = c) -> map f l = repeat c (length l).
Proof. intros A f c l. induction l as [|a l IH]; intros H; cbn; auto. rewrite (H a), IH; auto; intros; try apply H; cbn; auto. Qed.
(** Any flight at constant altitude between the trap and skip altitudes is kept whole. *)
Lemma level_run : forall solve name V i tol d ts xs t_sec dt fl ht, Planet name = Ok (vh_planet V) -> ts <> [] -> length xs = length ts ->
  let p := vh_planet V in
  (forall x, In x xs -> s_r x = s_r (entry_state p i)) -> h_trap p <= h0_km i * 1e3 < h_skip p ->
  solve V tol (entry_state p i) t_sec dt (deg d) = Ok (channels ts xs) ->
  exists f h, store (mkObj V i tol fl ht) (fly solve V tol i t_sec dt d) 0 = (mkObj V i tol (Some f) (Some h), Ok tt) /\
    f_index f = length ts /\
    let c := dimensionalize_traj p (channels ts xs) in
    f_plot f = convertToPlotUnits p (c_t c) (c_r c) (c_v c) (c_phi c) (c_psi c) (c_theta c) (c_gamma c) (c_drange c).
Proof.
  intros solve name V i tol d ts xs t_sec dt fl ht HP Hne Lx p Hr Hh Hs. fold p in HP. destruct (Planet_facts _ _ HP) as (HRP & HGM & _ & _ & Htr & _).
  set (c0 := channels ts xs) in *. set (n := length ts) in *. assert (Hn : (1 <= n)%nat) by (unfold n; destruct ts; [congruence|cbn [length]; lia]).
  assert (Len : traj_len (dimensionalize_traj p c0) n) by (apply dim_len, channels_len; auto).
  assert (Er : c_r (dimensionalize_traj p c0) = repeat (computeR p (h0_km i * 1e3)) n).
  { unfold dimensionalize_traj, c0, channels. cbn [c_r]. rewrite map_map, <- Lx. apply const_repeat. intros x Hx. rewrite (Hr x Hx). unfold entry_state, nonDimState. cbn [s_r]. field. lra. }
  assert (Ec : classifyTrajectory p (c_r (dimensionalize_traj p c0)) = Ok (n, 0)).
  { rewrite Er. destruct n as [|m]; [lia|]. apply hover_classify; auto. unfold computeR. lra. }
  assert (Ef : exists f, post V (deg d) c0 = Ok f).
  { unfold post. fold p. rewrite Ec. cbn [rbind fst snd truncateTrajectory]. unfold qStagConvective, qStagRadiative, heat_history. fold p. destruct (laws_exist _ _ HP) as (c & r & -> & ->). cbn [rbind]. eexists. reflexivity. }
  destruct Ef as (f & Ef).
  destruct (post_inv _ _ _ _ Ef) as (cls & qc & qr & Ec' & Ei & _ & Esi & Epl & _ & _ & _ & _ & Qc & Qr & E1 & E2 & E3). cbv zeta in *. change (vh_planet V) with p in Ec', Esi, Epl.
  rewrite Ec in Ec'. injection Ec' as <-. cbn [fst snd] in *. destruct Len as (N1 & N2 & N3 & N4 & N5 & N6 & N7 & N8).
  assert (LT : length (c_t (f_si f)) = n) by (rewrite Esi; cbn [c_t]; apply (firstn_min_len _ n); auto).
  assert (LR : length (c_r (f_si f)) = n) by (rewrite Esi; cbn [c_r]; apply (firstn_min_len _ n); auto).
  assert (LV : length (c_v (f_si f)) = length (c_r (f_si f))) by (rewrite LR, Esi; cbn [c_v]; apply (firstn_min_len _ n); auto).
  assert (Lq : length (f_qtot f) = n). { rewrite E3. apply vsum_length; [rewrite (heat_len _ _ _ _ _ LV Qc)|rewrite (heat_len _ _ _ _ _ LV Qr)]; auto. }
  destruct (ocumtrapz_ok (f_qtot f) (c_t (f_si f))) as (h & Eh); [intros Z; rewrite Z in Lq; cbn in Lq; lia|congruence|].
  exists f, h. split; [|split; auto].
  - unfold fly. fold p. rewrite Hs. cbn [rbind]. rewrite Ef. unfold store. rewrite Eh. reflexivity.
  - rewrite Epl. unfold convertToPlotUnits. cbn [p_t p_h p_v p_phi p_psi p_theta p_gamma p_drange].
    assert (FA : forall l : list R, length l = n -> firstn n l = l) by (intros l E; rewrite <- E; apply firstn_all).
    rewrite !FA by (rewrite map_length; auto). reflexivity.
Qed.
(** An integrator under which the vehicle keeps its altitude and path angle and loses a fraction of its speed after the first
    point of every propagation. *)
Definition slowed (c : R) (x : state) : state := mkState (s_r x) (s_theta x) (s_phi x) (c * s_v x) (s_psi x) (s_gamma x) (s_drange x).
Definition brake_states (c : R) (x0 : state) (ts : list R) : list state := match ts with [] => [] | _ :: us => x0 :: map (fun _ => slowed c x0) us end.
Definition brake (c : R) : engine := mkEngine (fun _ x0 ts _ => Ok (brake_states c x0 ts)) (fun _ _ x0 ts _ _ => Ok (ts, brake_states c x0 ts)).
Lemma brake_len : forall c x0 ts, length (brake_states c x0 ts) = length ts.
Proof. intros c x0 [|t ts]; cbn; auto. rewrite map_length. auto. Qed.
Lemma brake_ok : forall c, engine_ok (brake c).
Proof.
  intros c. split.
  - intros f x0 ts tol xs H. cbn in H. injection H as <-. split; [apply brake_len|]. destruct ts; [congruence|reflexivity].
  - intros f te x0 ts ev tol us xs H. cbn in H. injection H as <- <-. split; [apply brake_len|]. split; [exists (length ts); symmetry; apply firstn_all|].
    destruct ts; [congruence|]. split; [discriminate|reflexivity].
Qed.
Lemma two_points : forall name p, Planet name = Ok p -> exists a b, arange ((1 + 1) / tau p) (1 / tau p) = Ok [a; b].
Proof.
  intros name p HP. destruct (Planet_facts _ _ HP) as (HRP & HGM & _). assert (HV : 0 < Vref p) by (apply sqrt_lt_R0, Rdiv_lt_0_compat; auto). assert (HT : 0 < tau p) by (apply Rdiv_lt_0_compat; auto).
  assert (Hd : 0 < 1 / tau p) by (apply Rdiv_lt_0_compat; lra). destruct (arange ((1 + 1) / tau p) (1 / tau p)) as [ts|] eqn:E; [|exfalso; unfold arange in E; revert E; rcases; [lra|discriminate]].
  destruct (C73_time_grid name p ts 1 1 HP ltac:(lra) ltac:(lra) E) as (N & Hne & L). rewrite last_nth in L. 
  assert (Ln : (1 <= length ts)%nat) by (destruct ts; [congruence|cbn; lia]). rewrite N in L by lia. destruct L as (L1 & L2). rewrite Rmult_1_r in *.
  assert (1 <= length ts - 1)%nat by (apply INR_le; cbn [INR]; lra). assert (length ts - 1 < 2)%nat by (apply INR_lt; cbn [INR]; lra).
  destruct ts as [|a [|b [|c ts]]]; cbn [length] in *; try lia. eauto.
Qed.
(** One second of it. *)
Lemma brake_second : forall c X name o d, Planet name = Ok (vh_planet (ob_veh o)) -> let p := vh_planet (ob_veh o) in let i := ob_init o in
  h_trap p <= h0_km i * 1e3 < h_skip p ->
  exists f h, propagate false (brake c) X o 1 1 (Some d) = (mkObj (ob_veh o) i (ob_tol o) (Some f) (Some h), Ok tt) /\
    last (p_h (f_plot f)) 0 = h0_km i /\ last (p_gamma (f_plot f)) 0 = gamma0_deg i /\ last (p_v (f_plot f)) 0 = c * v0_kms i /\
    length (p_h (f_plot f)) = 2%nat /\ length (p_gamma (f_plot f)) = 2%nat /\ length (p_v (f_plot f)) = 2%nat.
Proof.
  intros c X name o d HP p i Hh. destruct (Planet_facts _ _ HP) as (HRP & HGM & _). fold p in HRP, HGM.
  assert (HV : 0 < Vref p) by (apply sqrt_lt_R0, Rdiv_lt_0_compat; auto). destruct (two_points _ _ HP) as (a & b & Ea). fold p in Ea.
  set (x0 := entry_state p i).
  destruct (level_run (solveTrajectory (brake c)) name (ob_veh o) i (ob_tol o) d [a; b] [x0; slowed c x0] 1 1 (ob_flight o) (ob_heat o) HP) as (f & h & S & Ei & Ep); try reflexivity; try discriminate; auto.
  - intros x [<-|[<-|[]]]; reflexivity.
  - unfold solveTrajectory. fold p. fold x0. rewrite Ea. reflexivity.
  - exists f, h. split; [|fold p in Ep; rewrite Ep; unfold convertToPlotUnits, dimensionalize_traj, channels; cbn [map p_h p_v p_gamma c_r c_v c_gamma last length]].
    + cbn [propagate]. unfold propogateEntry. destruct o; exact S.
    + unfold slowed, x0, entry_state, nonDimState. cbn [s_r s_v s_gamma]. pose proof PI_neq0. repeat split; unfold computeR, deg; field; lra.
Qed.
Lemma last_app2 : forall {A} (l m : list A) d, m <> [] -> last (l ++ m) d = last m d.
Proof. intros A l m d H. destruct (exists_last H) as (m' & x & ->). rewrite app_assoc, !last_last. auto. Qed.
(** A glide state flying level at speed [v] km/s and altitude [h] km. *)
Definition level_at (V : vehicle) (h v : R) (s : gst) : Prop := ob_veh (s_obj s) = V /\ last (p_h (y_plot (s_hist s))) 0 = h /\
  last (p_gamma (y_plot (s_hist s))) 0 = 0 /\ last (p_v (y_plot (s_hist s))) 0 = v /\ s_delta s <> None.
Definition lifting (name : string) (V : vehicle) (h : R) : Prop := Planet name = Ok (vh_planet V) /\ vh_CL V * vh_A V <> 0 /\ 0 <= h * 1e3 /\
  density (vh_planet V) (density_int (vh_atm V)) (h * 1e3) <> 0 /\ h_trap (vh_planet V) <= h * 1e3 < h_skip (vh_planet V).
Lemma brake_cycle : forall c X P name V h mt v s, 0 < c -> lifting name V h -> 0 < v -> level_at V h v s -> 0 <= g_hdotthr P -> g_apotol P <= Rabs (g_apo P) ->
  exists s' b, eg_step false (brake c) X P 1 1 mt s = (s', Ok b) /\ level_at V h (c * v) s' /\ (b = true <-> h_skip (vh_planet V) / 1000 - 2 < h).
Proof.
  intros c X P name V h mt v s Hc (HP & HCA & Hh0 & Hd & Hh) Hv (L1 & L2 & L3 & L4 & L5) Ht Hap. destruct (Planet_facts _ _ HP) as (HRP & HGM & _).
  set (p := vh_planet V) in *.
  destruct (C57_law V P (v * 1e3) (h * 1e3 + RP p) (0.5 * density p (density_int (vh_atm V)) (h * 1e3) * (v * 1e3) ^ 2) (v * 1e3 * sin (deg 0)) HRP HGM) as (Eq & d & Ed & _); auto.
  { fold p. lra. }
  { intros Z. assert (0.5 * density p (density_int (vh_atm V)) (h * 1e3) <> 0) by lra. assert (0 < (v * 1e3) ^ 2) by (apply pow_lt; lra). apply Rmult_integral in Z. destruct Z; lra. }
  cbv zeta in Eq, Ed. fold p in Eq, Ed. destruct (s_delta s) as [d0|] eqn:E0; [|congruence].
  set (o := set_init (s_obj s) (last_init (y_plot (s_hist s)) (match ob_heat (s_obj s) with Some l => last l None | None => None end))).
  destruct (brake_second c X name o (psuedoController (g_rate P) d d0 1)) as (f & ht & Ep & F1 & F2 & F3 & F4 & F5 & F6).
  { unfold o. cbn [set_init ob_veh]. rewrite L1. auto. }
  { unfold o. cbn [set_init ob_veh ob_init last_init h0_km]. rewrite L1, L2. auto. }
  assert (Z : v * 1e3 * sin (deg 0) = 0) by (unfold deg; replace (0 * (PI / 180)) with 0 by ring; replace (0 * PI / 180) with 0 by (field; apply PI_neq0); rewrite ?sin_0; lra).
  assert (Ol : forall l, length l = 2%nat -> l <> @nil R) by (intros l E Zl; rewrite Zl in E; discriminate).
  eexists. eexists. unfold eg_step. cbv zeta. rewrite L1, L2, L3, L4, E0. fold p. rewrite Eq, Ed. unfold controller. cbn [obind].
  fold o. rewrite Ep. unfold results. cbn [ob_flight ob_heat]. rewrite Z.
  destruct (Rltb_spec (g_hdotthr P) 0) as [Hx|Hx]; [exfalso; lra|]. split; [reflexivity|]. split.
  - unfold level_at. cbn [s_obj s_hist s_delta hist_app y_plot p_h p_gamma p_v ob_veh]. rewrite !last_app2 by auto. rewrite F1, F2, F3. unfold o. cbn [set_init ob_veh ob_init last_init h0_km gamma0_deg v0_kms]. rewrite L2, L3, L4. repeat split; auto. discriminate.
  - cbn [hist_app y_plot p_h]. rewrite last_app2 by auto. rewrite F1. unfold o. cbn [set_init ob_init last_init h0_km]. rewrite L2. unfold eg_break. replace (0 - g_apo P) with (- g_apo P) by ring. rewrite Rabs_Ropp.
    rcases; cbn; split; intros; auto; try discriminate; lra.
Qed.
Lemma brake_start : forall c X name V h v i tol hr, 0 < c -> Planet name = Ok (vh_planet V) -> h_trap (vh_planet V) <= h * 1e3 < h_skip (vh_planet V) -> h0_km i = h -> gamma0_deg i = 0 -> v0_kms i = v ->
  exists o1 s0, eg_start false (brake c) X (mkObj V i tol None None) hr 1 = (o1, Ok s0) /\ level_at V h (c * v) s0 /\ s_vcur s0 = c * v /\ s_arr s0 = steps0 hr.
Proof.
  intros c X name V h v i tol hr Hc HP Hh E1 E2 E3. destruct (brake_second c X name (mkObj V i tol None None) 0 HP) as (f & ht & Ep & F1 & F2 & F3 & _); [cbn [ob_veh ob_init]; rewrite E1; auto|].
  unfold eg_start. rewrite Ep. unfold results. cbn [ob_flight ob_heat rbind fst snd hist_of y_plot]. eexists. eexists. split; [reflexivity|].
  cbn [ob_init ob_veh] in *. unfold level_at. cbn [s_obj s_hist hist_of y_plot s_delta s_vcur s_arr ob_veh]. rewrite F1, F2, F3, E1, E2, E3. repeat split; auto. discriminate.
Qed.
(** The vehicle loses half its speed every cycle, so its speed falls below the switch speed whatever that is, yet the
    phase never ends: after any number of cycles another one is flown. *)
Theorem C58_never_ends : forall X P name V h v i tol hdotref maxTime, lifting name V h -> h <= h_skip (vh_planet V) / 1000 - 2 -> 0 < v ->
  h0_km i = h -> gamma0_deg i = 0 -> v0_kms i = v -> 0 <= g_hdotthr P -> g_apotol P <= Rabs (g_apo P) -> g_vswitch P < v / 2 ->
  exists o1 s0, eg_start false (brake (/ 2)) X (mkObj V i tol None None) hdotref 1 = (o1, Ok s0) /\
  (forall n, propogateEquilibriumGlide false (brake (/ 2)) X P 1 1 maxTime n (mkObj V i tol None None) hdotref = None) /\
  forall n, exists s, passes (eg_step false (brake (/ 2)) X P 1 1 maxTime) n s0 s /\ last (p_v (y_plot (s_hist s))) 0 = v / 2 ^ (S n).
Proof.
  intros X P name V h v i tol hdotref maxTime HL Hlow Hv E1 E2 E3 Ht Ha Hs.
  pose proof HL as (HP & _ & _ & _ & Hh).
  destruct (brake_start (/ 2) X name V h v i tol hdotref ltac:(lra) HP Hh E1 E2 E3) as (o1 & s0 & H0 & L0 & V0 & _). exists o1, s0. split; auto.
  assert (C : forall w s, 0 < w -> level_at V h w s -> exists s', eg_step false (brake (/ 2)) X P 1 1 maxTime s = (s', Ok false) /\ level_at V h (/ 2 * w) s').
  { intros w s Hw L. destruct (brake_cycle (/ 2) X P name V h maxTime w s ltac:(lra) HL Hw L Ht Ha) as (s' & b & B & L' & Hb). exists s'. split; auto. destruct b; auto. destruct Hb as (Hb & _). specialize (Hb eq_refl). lra. }
  split.
  - intros n. unfold propogateEquilibriumGlide. rewrite H0.
    enough (G : forall m w s, 0 < w -> level_at V h w s -> s_vcur s = / 2 * v -> while_loop (eg_guard P) (eg_step false (brake (/ 2)) X P 1 1 maxTime) m s = None) by (rewrite (G n (/ 2 * v) s0); auto; lra).
    induction m as [|m IH]; intros w s Hw L Vc; cbn [while_loop]; auto. unfold eg_guard. rewrite Vc. rcases; [|lra].
    destruct (C w s Hw L) as (s' & B & L'). rewrite B. apply (IH (/ 2 * w)); auto; [lra|]. destruct (eg_step_arr _ _ _ _ _ _ _ _ _ _ B) as (-> & _). auto.
  - intros n. assert (G : exists s, passes (eg_step false (brake (/ 2)) X P 1 1 maxTime) n s0 s /\ level_at V h (v / 2 ^ (S n)) s).
    { induction n as [|n (s & IH1 & IH2)]; [exists s0; split; [constructor|]; replace (v / 2 ^ 1) with (/ 2 * v) by field; auto|].
      destruct (C (v / 2 ^ (S n)) s) as (s' & B & L'); auto; [apply Rdiv_lt_0_compat; auto; apply pow_lt; lra|]. exists s'. split; [econstructor; eauto|].
      replace (v / 2 ^ S (S n)) with (/ 2 * (v / 2 ^ S n)) by (cbn [pow]; field; apply pow_nonzero; lra). auto. }
    destruct G as (s & G1 & _ & _ & _ & G2 & _). exists s. auto.
Qed.
Definition thin_air := mkAtm (fun _ => 0.001) (fun _ => 0) (fun _ => 0) (fun _ => 0).
Definition glider : vehicle := mkVehicle 300 50 0.3 4.5 0 1.5 VENUS thin_air false None 1 1 (300 / (50 * 4.5)) (0.3 * (300 / (50 * 4.5))).
Lemma glider_lifting : forall h, 20 <= h <= 179.5 -> lifting "VENUS" glider h.
Proof.
  intros h Hh. split; [reflexivity|]. split; [cbn; lra|]. split; [lra|]. split; [|cbn [glider vh_planet VENUS h_trap h_skip]; lra].
  unfold density. cbn [glider vh_planet VENUS h_thres vh_atm thin_air density_int]. rcases; cbn; try lra.
Qed.
Definition glide_params (vs : R) : gparams := mkG 30 0 1 vs 50 10 0 200 400 10.
Example C58_witness : exists i o1 s0, lifting "VENUS" glider 100 /\ h0_km i = 100 /\ gamma0_deg i = 0 /\ v0_kms i = 11 /\ g_vswitch (glide_params 5) < 11 / 2 /\
  g_apotol (glide_params 5) <= Rabs (g_apo (glide_params 5)) /\
  eg_start false (brake (/ 2)) (mkGext (fun o _ _ => (o, Err ValueError)) (fun _ _ _ => 0)) (mkObj glider i 1 None None) [] 1 = (o1, Ok s0) /\ g_vswitch (glide_params 5) < first_speed s0.
Proof.
  set (i := mkInit 100 0 0 11 0 0 0 0). exists i. assert (HL : lifting "VENUS" glider 100) by (apply glider_lifting; lra).
  destruct (brake_start (/ 2) (mkGext (fun o _ _ => (o, Err ValueError)) (fun _ _ _ => 0)) "VENUS"%string glider 100 11 i 1 [] ltac:(lra)) as (o1 & s0 & H0 & (_ & _ & _ & L & _) & _); try reflexivity; [cbn; lra|].
  exists o1, s0. split; auto. do 3 (split; [reflexivity|]). split; [cbn; lra|]. split; [cbn [glide_params g_apotol g_apo]; rewrite Rabs_right; lra|]. split; auto. unfold first_speed. rewrite L. cbn. lra.
Qed.
(** A complete guided entry: one glide cycle, left because the vehicle is near the skip altitude, and one exit cycle. *)
Example C59_witness : exists X o' s s' rep, nan_ok X /\ engine_ok (brake 1) /\ 0 < g_rate (glide_params 5) * 1 /\
  propogateGuidedEntry false (brake 1) X (glide_params 5) 1 1 600 5 (mkObj glider (mkInit 179 0 0 11 0 0 0 0) 1 None None) [] = Some (o', Ok (s, s', rep)) /\
  length (a_t (s_arr s')) = 3%nat.
Proof.
  set (X := mkGext (fun o _ _ => (o, Err ValueError)) (fun _ _ _ => 0)). set (P := glide_params 5). set (i := mkInit 179 0 0 11 0 0 0 0).
  assert (HL : lifting "VENUS" glider 179) by (apply glider_lifting; lra). pose proof HL as (HP & _ & _ & _ & Hh).
  destruct (brake_start 1 X "VENUS"%string glider 179 11 i 1 [] ltac:(lra) HP Hh eq_refl eq_refl eq_refl) as (o1 & s0 & H0 & L0 & V0 & A0).
  destruct (brake_cycle 1 X P "VENUS"%string glider 179 600 (1 * 11) s0 ltac:(lra) HL ltac:(lra) L0) as (s1 & b & B1 & L1 & Hb1); [cbn; lra|cbn [glide_params P g_apotol g_apo]; rewrite Rabs_right; lra|].
  assert (b = true) by (apply Hb1; cbn [glider vh_planet VENUS h_skip]; lra). subst b.
  destruct (eg_step_inv _ _ _ _ _ _ _ _ _ _ B1) as (qref & f & heat & apo & _ & _ & _ & _ & _ & EA & _).
  destruct L1 as (L11 & L12 & L13 & L14 & L15). destruct (s_delta s1) as [d1|] eqn:E1; [|congruence].
  assert (Ed : last (a_delta (s_arr s1)) None = Some d1) by (rewrite EA; cbn [steps_app a_delta]; apply last_last).
  set (o := set_init (s_obj s1) (last_init (y_plot (s_hist s1)) (last (y_heat (s_hist s1)) None))).
  destruct (brake_second 1 X "VENUS"%string o (psuedoController (g_rate P) 0 d1 1)) as (f2 & ht2 & Ep & F1 & F2 & F3 & _).
  { unfold o. cbn [set_init ob_veh]. rewrite L11. auto. }
  { unfold o. cbn [set_init ob_veh ob_init last_init h0_km]. rewrite L11, L12. exact Hh. }
  assert (EX : exists s2, exit_step false (brake 1) X P 1 1 (last (a_hdot (s_arr s1)) 0) (last (y_heat (s_hist s1)) None) (exit_start s1) = (s2, Ok true)).
  { unfold exit_step, exit_start. cbn [s_obj s_arr s_hist s_dens s_delta s_vcur s_hcur]. rewrite Ed. unfold controller. cbn [obind]. fold o. rewrite Ep. unfold results. cbn [ob_flight ob_heat].
    rewrite L11, L12. cbn [glider vh_planet VENUS h_skip]. destruct (Rltb_spec (180000 - 10e3) (179 * 1e3)) as [Hx|Hx]; [|exfalso; lra]. eexists. reflexivity. }
  destruct EX as (s2 & EX).
  assert (W1 : while_loop (eg_guard P) (eg_step false (brake 1) X P 1 1 600) 5 s0 = Some (s1, Ok tt)).
  { cbn [while_loop]. unfold eg_guard at 1. rewrite V0. cbn [P glide_params g_vswitch]. fold P. destruct (Rltb_spec 5 (1 * 11)) as [Hx|Hx]; [|exfalso; lra]. rewrite B1. reflexivity. }
  assert (W2 : while_loop exit_guard (exit_step false (brake 1) X P 1 1 (last (a_hdot (s_arr s1)) 0) (last (y_heat (s_hist s1)) None)) 5 (exit_start s1) = Some (s2, Ok tt)).
  { cbn [while_loop]. unfold exit_guard at 1. cbn [exit_start s_hcur s_obj]. fold (exit_start s1). rewrite L11, L12. cbn [glider vh_planet VENUS h_skip]. destruct (Rltb_spec 179 (180000 / 1e3)) as [Hx|Hx]; [|exfalso; lra]. rewrite EX. reflexivity. }
  exists X. do 4 eexists. split; [intros ? ? ? ? Hx; discriminate|]. split; [apply brake_ok|]. split; [cbn; lra|]. split.
  - unfold propogateGuidedEntry, propogateEquilibriumGlide. fold i P. rewrite H0, W1. unfold propogateExitPhase. rewrite W2. reflexivity.
  - destruct (exit_step_arr _ _ _ _ _ _ _ _ _ _ _ EX) as [(_ & _ & _ & (e & He))|(t & hd & EA2 & _)]; [discriminate|]. rewrite EA2. cbn [steps_app_exit a_t exit_start s_arr].
    rewrite EA. cbn [steps_app a_t]. rewrite A0. cbn [steps0 a_t]. rewrite !app_length. reflexivity.
Qed.
