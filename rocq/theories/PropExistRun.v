(** C126, continued: with an exact integrator a propagation returns, and keeps and reports the way, for as long as the way stays above the trap altitude. *)
From Coq Require Import String List.
Require Import Verif.Base Verif.Numpy Verif.NumpyProofs Verif.PlanetModel Verif.PlanetProofs Verif.AeroModel Verif.FlightProofs Verif.HeatModel Verif.TrajectoryModel Verif.TrajectorySpec
  Verif.TrajectoryProofs Verif.PropTrajectory Verif.PropHeat Verif.FlightSpec Verif.PropFlight Verif.ExactSpec Verif.ExactProofs Verif.DetSpec Verif.DetProofs Verif.PropDet Verif.ExistSpec Verif.PropExist.
Require Verif.PropGuidance Verif.PropRoundGrid.
Import ListNotations.
Local Open Scope R_scope.

(** Any flight between the trap and skip altitudes is kept whole. *)
Lemma aloft_classify : forall p r, 0 < h_trap p < h_skip p -> r <> [] -> (forall x, In x r -> h_trap p <= x - RP p < h_skip p) -> classifyTrajectory p r = Ok (length r, 0).
Proof.
  intros p r Hp Hne Hr. unfold classifyTrajectory. set (h := map (computeH p) r). assert (Lh : length h = length r) by apply map_length.
  assert (Hh : forall x, In x h -> h_trap p <= x < h_skip p) by (intros x Hx; apply in_map_iff in Hx; destruct Hx as (z & <- & Hz); apply Hr; auto).
  assert (Hn : h <> []) by (destruct r; [congruence|discriminate]).
  pose proof (Hh _ (list_max_in h Hn)) as A. pose proof (Hh _ (list_min_in h Hn)) as B. destruct h as [|a h']; [congruence|]. set (h := a :: h') in *.
  destruct (Rltb_spec (h_skip p) (list_max h)); [lra|]. rewrite Bool.andb_false_r. destruct (Rleb_spec (h_trap p) (list_min h)); [|lra]. destruct (Rltb_spec (list_max h) (h_skip p)); [|lra]. cbn [andb]. rewrite Lh. reflexivity.
Qed.
Lemma aloft_run : forall solve name V i tol d ts xs t_sec dt fl ht, Planet name = Ok (vh_planet V) -> ts <> [] -> length xs = length ts ->
  let p := vh_planet V in
  (forall x, In x xs -> h_trap p <= RP p * s_r x - RP p < h_skip p) ->
  solve V tol (entry_state p i) t_sec dt (deg d) = Ok (channels ts xs) ->
  exists f h, store (mkObj V i tol fl ht) (fly solve V tol i t_sec dt d) 0 = (mkObj V i tol (Some f) (Some h), Ok tt) /\
    f_index f = length ts /\
    let c := dimensionalize_traj p (channels ts xs) in
    f_plot f = convertToPlotUnits p (c_t c) (c_r c) (c_v c) (c_phi c) (c_psi c) (c_theta c) (c_gamma c) (c_drange c).
Proof.
  intros solve name V i tol d ts xs t_sec dt fl ht HP Hne Lx p Hr Hs. fold p in HP. destruct (Planet_facts _ _ HP) as (HRP & HGM & _ & _ & Htr & _).
  set (c0 := channels ts xs) in *. set (n := length ts) in *. assert (Hn : (1 <= n)%nat) by (unfold n; destruct ts; [congruence|cbn [length]; lia]).
  assert (Len : traj_len (dimensionalize_traj p c0) n) by (apply dim_len, channels_len; auto).
  assert (Er : c_r (dimensionalize_traj p c0) = map (fun x => s_r x * RP p) xs) by (unfold dimensionalize_traj, c0, channels; cbn [c_r]; rewrite map_map; reflexivity).
  assert (Ec : classifyTrajectory p (c_r (dimensionalize_traj p c0)) = Ok (n, 0)).
  { rewrite Er. rewrite <- Lx, <- (map_length (fun x => s_r x * RP p) xs). apply aloft_classify; auto.
    - destruct xs; [cbn in Lx; lia|discriminate].
    - intros x Hx. apply in_map_iff in Hx. destruct Hx as (z & <- & Hz). rewrite Rmult_comm. auto. }
  assert (Ef : exists f, post V (deg d) c0 = Ok f).
  { unfold post. fold p. rewrite Ec. cbn [rbind fst snd truncateTrajectory]. unfold qStagConvective, qStagRadiative, heat_history. fold p.
    destruct (proj1 (proj1 (law_known _)) (planet_known _ _ HP)) as (c & ->). destruct (proj1 (proj2 (law_known _)) (planet_known _ _ HP)) as (r & ->). cbn [rbind]. eexists. reflexivity. }
  destruct Ef as (f & Ef).
  destruct (post_inv _ _ _ _ Ef) as (cls & qc & qr & Ec' & Ei & _ & Esi & Epl & _ & _ & _ & _ & Qc & Qr & E1 & E2 & E3). cbv zeta in *. change (vh_planet V) with p in Ec', Esi, Epl.
  rewrite Ec in Ec'. injection Ec' as <-. cbn [fst snd] in *. destruct Len as (N1 & N2 & N3 & N4 & N5 & N6 & N7 & N8).
  assert (LT : length (c_t (f_si f)) = n) by (rewrite Esi; cbn [c_t]; apply (firstn_min_len _ n); auto).
  assert (LR : length (c_r (f_si f)) = n) by (rewrite Esi; cbn [c_r]; apply (firstn_min_len _ n); auto).
  assert (LV : length (c_v (f_si f)) = length (c_r (f_si f))) by (rewrite LR, Esi; cbn [c_v]; apply (firstn_min_len _ n); auto).
  assert (Lq : length (f_qtot f) = n). { rewrite E3. apply vsum_length; [rewrite (heat_len _ _ _ _ _ LV Qc)|rewrite (heat_len _ _ _ _ _ LV Qr)]; auto. }
  destruct (ocumtrapz_ok (f_qtot f) (c_t (f_si f))) as (h & Eh); [intros Z; rewrite Z in Lq; cbn in Lq; lia|congruence|].
  exists f, h. split; [|split; auto].
  - unfold fly. fold p. rewrite Hs. cbn [rbind]. rewrite Ef. unfold store. rewrite Eh. reflexivity.
  - rewrite Epl. unfold convertToPlotUnits. cbn [p_t p_h p_v p_phi p_psi p_theta p_gamma p_drange].
    assert (FA : forall l : list R, length l = n -> firstn n l = l) by (intros l E; rewrite <- E; apply firstn_all).
    rewrite !FA by (rewrite map_length; auto). reflexivity.
Qed.
(** There is an exact integrator with which every propagation along a way above the trap altitude returns, stores all of its steps, and reports at the time of each the state of the way. *)
Theorem C126_flown : exists E, engine_ok E /\ exact E /\
  forall name V i d T y tol secs dt, Planet name = Ok (vh_planet V) -> vh_user V = false -> lipschitz_air (vh_planet V) (vh_atm V) -> 0 < dt -> 0 <= secs -> heatLoad0 i = 0 ->
    way V i d T y -> secs + dt <= tau (vh_planet V) * T -> (forall t, 0 <= t <= T -> h_trap (vh_planet V) <= RP (vh_planet V) * s_r (y t) - RP (vh_planet V)) ->
    forall two : bool, exists o f h, (if two then propogateEntry2 else propogateEntry) E (mkObj V i tol None None) secs dt d = (o, Ok tt) /\ ob_flight o = Some f /\ ob_heat o = Some h /\
      secs <= INR (length (p_t (f_plot f)) - 1) * dt < secs + dt /\
      forall k, (k < length (p_t (f_plot f)))%nat -> nth k (p_t (f_plot f)) 0 * 60 = INR k * dt /\ shows (vh_planet V) (f_plot f) k (y (INR k * dt / tau (vh_planet V))).
Proof.
  destruct C126_ideal as (E & HE & HX & H). exists E. split; auto. split; auto. intros name V i d T y tol secs dt HP Hu HL Hdt Hs H0 W Hend Hup two.
  destruct (H name V i d T y tol secs dt HP Hu HL Hdt Hs W Hend) as (ts & Ea & Hne & S1 & S2). destruct (ref_facts _ _ HP) as (_ & _ & Ht & _ & HR & _). set (p := vh_planet V) in *.
  destruct (Planet_facts _ _ HP) as (_ & _ & _ & _ & _ & Hthr & _). destruct (arange_inv _ _ _ Ea) as (La & Na).
  assert (Hst : 0 < dt / tau p) by (apply Rdiv_lt_0_compat; auto). assert (Hq : 0 < (secs + dt) / tau p / (dt / tau p)) by (apply Rdiv_lt_0_compat; [apply Rdiv_lt_0_compat; lra|auto]).
  pose proof (PropRoundGrid.ceil_between _ ltac:(exact (Rlt_le _ _ Hq))) as (C1 & C2). rewrite <- La in C1, C2.
  assert (Eq : (secs + dt) / tau p / (dt / tau p) * dt = secs + dt) by (field; lra).
  assert (Ln : (1 <= length ts)%nat) by (destruct ts; [congruence|cbn; lia]). assert (E1 : INR (length ts) = INR (length ts - 1) + 1) by (rewrite <- S_INR; f_equal; lia).
  assert (LB : secs <= INR (length ts - 1) * dt < secs + dt) by nra.
  assert (IN : forall t, In t ts -> 0 <= t <= T).
  { intros t Hin. apply (In_nth _ _ 0) in Hin. destruct Hin as (k & Hk & <-). rewrite Na by auto. pose proof (pos_INR k). split; [apply Rmult_le_pos; lra|].
    assert (INR k <= INR (length ts - 1)) by (apply le_INR; lia). apply (Rmult_le_reg_l (tau p)); auto. replace (tau p * (INR k * (dt / tau p))) with (INR k * dt) by (field; lra). nra. }
  destruct (aloft_run (if two then solveTrajectory2 E else solveTrajectory E) name V i tol d ts (map y ts) secs dt None None HP Hne (map_length _ _)) as (f & h & S & Ei & Ep).
  - fold p. intros x Hx. apply in_map_iff in Hx. destruct Hx as (t & <- & Hin). destruct W as (_ & _ & I). specialize (I t (IN t Hin)). specialize (Hup t (IN t Hin)). unfold in_air in I. fold p in I. lra.
  - fold p. destruct two; [exact S2|exact S1].
  - fold p in Ep. cbv zeta in Ep. assert (P : (if two then propogateEntry2 else propogateEntry) E (mkObj V i tol None None) secs dt d = (mkObj V i tol (Some f) (Some h), Ok tt)).
    { destruct two; [unfold propogateEntry2; cbn [ob_veh ob_tol ob_init]; rewrite H0; exact S|exact S]. }
    exists (mkObj V i tol (Some f) (Some h)), f, h. split; auto. split; [reflexivity|]. split; [reflexivity|].
    assert (Et : p_t (f_plot f) = map (fun t => tau p * t / 60) ts) by (rewrite Ep; cbn [convertToPlotUnits dimensionalize_traj channels p_t c_t]; rewrite map_map; reflexivity).
    rewrite Et, map_length. split; auto. intros k Hk.
    assert (Nk : nth k (map (fun t => tau p * t / 60) ts) 0 * 60 = INR k * dt) by (rewrite (nth_map_lt _ _ _ 0) by auto; rewrite Na by auto; field; lra). split; auto.
    assert (Ek : time_of p (f_plot f) k = INR k * dt / tau p) by (unfold time_of; rewrite Et, Nk; reflexivity).
    pose proof (C106_on_the_way two E name V i tol secs dt d _ f y T HE HX HP Hdt Hu HL W P eq_refl k) as SH. fold p in SH. rewrite Ek in SH. apply SH; [rewrite Et, map_length; auto|].
    assert (IK : In (INR k * (dt / tau p)) ts) by (rewrite <- Na by auto; apply nth_In; auto). apply IN in IK. unfold Rdiv in *. lra.
Qed.
