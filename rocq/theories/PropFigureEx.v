(** Concrete cases for C120. *)
From Coq Require Import String List ZArith Lia.
Require Import Verif.Base Verif.Numpy Verif.PlanetModel Verif.PlanetProofs Verif.AeroModel Verif.HeatModel Verif.TrajectoryModel Verif.TrajectorySpec Verif.TrajectoryProofs Verif.PropTrajectory
  Verif.OrbitScalarModel Verif.OrbiterModel Verif.OrbitModel Verif.CorridorModel Verif.CorridorSpec Verif.PropCorridor Verif.SessionModel
  Verif.GuidanceModel Verif.PropControl Verif.PropGuidance Verif.PropGuidanceEx Verif.DragModel Verif.PropDragEx Verif.FigureModel Verif.FigureSpec Verif.PropFigure.
Local Open Scope R_scope.

(** A session of one flight at Venus: before it the figure is refused, after it the four panels are drawn. *)
Example C120_witness : forall V i tol, vh_planet V = VENUS -> h_trap VENUS <= h0_km i * 1e3 < h_skip VENUS -> let s := mkSess (mkObj V i tol None None) None in
  engine_ok hover /\ makeBasicEntryPlots (se_obj s) = Err ValueError /\
  exists s' answers f ps, run hover 0 [PropogateEntry false 10 1 0] s = Some (s', answers) /\ ob_flight (se_obj s') = Some f /\
    makeBasicEntryPlots (se_obj s') = Ok ps /\ entry_figure VENUS f ps.
Proof.
  intros V i tol HV Hh s. destruct (C43_witness V i tol 10 1 0 HV Hh ltac:(lra) ltac:(lra)) as (HE & o' & Ho). split; [exact HE|]. split; [reflexivity|].
  assert (Hr : exists s' answers, run hover 0 [PropogateEntry false 10 1 0] s = Some (s', answers) /\ se_obj s' = o').
  { cbn [run serve s se_obj se_dm]. rewrite Ho. cbn [upd]. eexists. eexists. split; reflexivity. }
  destruct Hr as (s' & answers & Hr & Eo). destruct (C120_entry_plots hover "VENUS" VENUS 0 _ s s' answers HE eq_refl HV eq_refl Hr) as [(N & _)|(f & ps & F & _ & A & B)].
  - exfalso. rewrite Eo in N. unfold propogateEntry in Ho. destruct (fly _ _ _ _ _ _ _); cbn [store] in Ho; [|discriminate]. destruct (ocumtrapz _ _ _); [|discriminate]. injection Ho as <-. discriminate.
  - exists s', answers, f, ps. auto.
Qed.
(** A search that returns a limit. *)
Example C120_search_witness : forall V tol, vh_planet V = EARTH -> let o := mkObj V circ_init tol None None in
  exists o' lim g f ps, findUnderShootLimit hover 10 o 1 1 (-60) 0 0.1 200 = Some (o', Ok (lim, 1)) /\ ob_init o' = circ_init /\
    fly (solveTrajectory hover) V tol (with_gamma0 circ_init g) 1 1 0 = Ok f /\ makeBasicEntryPlots o' = Ok ps /\ entry_figure EARTH f ps /\ Rabs (lim - g) <= 0.1.
Proof.
  intros V tol HV o. destruct (C48_witness V tol HV) as (HE & _ & o' & lim & H & _). 
  destruct (C120_after_limit hover "EARTH" false false 10 o 1 1 (-60) 0 0.1 200 o' lim 1 HE) as (HI & g & f & ps & F & A & B & C); [cbn [o ob_veh]; rewrite HV; reflexivity|exact H|].
  cbn [o ob_veh ob_tol ob_init] in *. rewrite HV in B. exists o', lim, g, f, ps. repeat (split; [assumption|]). destruct C as [(_ & C)|(C & _)]; lra.
Qed.
(** Guided flights of two cycles, by lift and by drag: the figure misses part of the trajectory. *)
Example C120_guided_witness : exists X o' s s' rep, nan_ok X /\ engine_ok (brake 1) /\
  propogateGuidedEntry false (brake 1) X (glide_params 5) 1 1 600 5 (mkObj glider (mkInit 179 0 0 11 0 0 0 0) 1 None None) [] = Some (o', Ok (s, s', rep)) /\
  exists f ps bt T, makeBasicEntryPlots o' = Ok ps /\ entry_figure VENUS f ps /\ only_the_end (s_hist s') f bt T /\ bt <> nil.
Proof.
  destruct C59_witness as (X & o' & s & s' & rep & HX & HE & _ & H & L). exists X, o', s, s', rep. do 3 (split; [assumption|]).
  destruct (C120_guided_shows_last_cycle _ _ _ _ "VENUS" VENUS 1 1 600 5%nat (mkObj glider (mkInit 179 0 0 11 0 0 0 0) 1 None None) [] _ _ _ _ HE HX eq_refl eq_refl H) as (f & ps & bt & T & A & B & _ & _ & C & D).
  exists f, ps, bt, T. do 3 (split; [assumption|]). apply D. rewrite L. lia.
Qed.
Example C120_guided_drag_witness : exists X o' s s' rep, engine_ok (brake 1) /\
  propogateGuidedEntryD false (brake 1) X (Some (50, 4)) (glide_params 5) 1 1 1 600 5 (mkObj glider (mkInit 179.4 0 0 11 0 0 0 0) 1 None None) [] = Some (o', Ok (s, s', rep)) /\
  (1 < length (a_t (s_arr s')))%nat.
Proof. destruct C76_witness as (X & o' & s & s' & rep & HE & H & L & _). exists X, o', s, s', rep. do 2 (split; [assumption|]). rewrite L. lia. Qed.
(** createQPlot at Venus. *)
Example C120_qplot_witness : forall V i tol, vh_planet V = VENUS -> h_trap VENUS <= h0_km i * 1e3 < h_skip VENUS -> exists o' q, createQPlot hover (mkObj V i tol None None) 10 1 0 = (o', Ok q).
Proof.
  intros V i tol HV Hh. destruct (C43_witness V i tol 10 1 0 HV Hh ltac:(lra) ltac:(lra)) as (HE & o' & Ho). unfold createQPlot. rewrite Ho.
  unfold propogateEntry in Ho. destruct (fly _ _ _ _ _ _ _) as [f|] eqn:Ef; cbn [store] in Ho; [|discriminate]. destruct (ocumtrapz _ _ _); [|discriminate]. injection Ho as <-.
  assert (R : really_flown hover (vh_planet V) f) by (exists false; do 6 eexists; split; [reflexivity|exact Ef]).
  destruct (flown_even hover "VENUS" (vh_planet V) f HE) as (_ & L2 & _ & _ & L5 & _); [rewrite HV; reflexivity|exact R|].
  unfold attr. cbn [set_heat set_flight ob_flight option_map]. unfold draw, nums. rewrite !map_length, L2, L5, Nat.eqb_refl. cbn [rbind]. eauto.
Qed.
(** With the default interval of 1 km at Earth 120 altitudes are drawn, 120/119 km apart. *)
Example C120_profiles_witness : forall a, exists T P r s, checkAtmProfiles EARTH a 0 1000 = Ok [T; P; r; s] /\ length (pn_points r) = 120%nat /\
  nth_error (pn_points r) 1 = Some (Some (density_int a (120000 / 119)), Some (120000 / 119 / 1000)).
Proof.
  intros a. destruct (C120_profiles "EARTH" EARTH a 0 1000 eq_refl) as (n & T & P & r & s & alt & H & (N1 & N2) & _ & A0 & A & _ & _ & Pr & _); [cbn; lra|].
  assert (Hn : n = 120%nat). { cbn [h_thres EARTH] in *. assert (INR n < INR 121) by (rewrite (INR_IZR_INZ 121); cbn; lra). assert (INR 119 < INR n) by (rewrite (INR_IZR_INZ 119); cbn; lra). apply INR_lt in H0. apply INR_lt in H1. lia. }
  subst n. exists T, P, r, s. split; [exact H|]. destruct Pr as (_ & _ & L & K). split; [exact L|]. rewrite (K 1%nat) by lia.
  destruct (A ltac:(lia)) as (_ & St). specialize (St 0%nat ltac:(lia)). rewrite A0 in St. assert (E : alt 1%nat = 120000 / 119). { assert (I : INR 120 = 120) by (rewrite INR_IZR_INZ; reflexivity). rewrite I in St. replace (h_thres EARTH) with 120000 in St by (cbn; lra). replace (120 - 1) with 119 in St by lra. replace (120000 - 0) with 120000 in St by lra. rewrite <- St. ring. }
  rewrite E. reflexivity.
Qed.
