(** C105: a guided version-2 flight never dives past -88 degrees, and a flight started there does not move.
    C87 again, from continuity of the path instead of an assumption on the samples. *)
From Coq Require Import String List Ranalysis5.
Require Import Verif.Base Verif.Numpy Verif.PlanetModel Verif.AeroModel Verif.HeatModel Verif.TrajectoryModel Verif.TrajectorySpec Verif.TrajectoryProofs
  Verif.CorridorModel Verif.GuidanceModel Verif.GuidanceProofs Verif.PlanetProofs Verif.FlightSpec Verif.FlightProofs Verif.PropFlight Verif.PropTrajectory Verif.PropGuidance Verif.PropGuidanceEx Verif.DragModel Verif.LegSpec Verif.PropLegs
  Verif.ExactSpec Verif.ExactProofs Verif.PropExact Verif.PropExactEx Verif.StopSpec.
Import ListNotations.
Local Open Scope R_scope.

(** A continuous function that does not meet [c] before [T] ends on the side it started on. *)
Lemma stays_ge : forall g c T, (forall t, 0 <= t <= T -> continuity_pt g t) -> (forall t, 0 <= t < T -> g t <> c) -> c <= g 0 ->
  forall t, 0 <= t <= T -> c <= g t.
Proof.
  intros g c T Hc Hn H0 t Ht. destruct (Rle_or_lt c (g t)) as [L|L]; auto. exfalso.
  destruct (Req_dec t 0) as [->|Z]; [lra|]. assert (g 0 <> c) by (apply Hn; lra).
  destruct (IVT_interv (fun u => c - g u) 0 t) as (z & Hz & Ez); try lra.
  - intros a Ha. apply (continuity_pt_minus (fun _ => c) g); [apply ct_const|apply Hc; lra].
  - assert (z <> t) by (intros ->; lra). apply (Hn z); lra.
Qed.
Lemma stays_le : forall g c T, (forall t, 0 <= t <= T -> continuity_pt g t) -> (forall t, 0 <= t < T -> g t <> c) -> g 0 <= c ->
  forall t, 0 <= t <= T -> g t <= c.
Proof.
  intros g c T Hc Hn H0 t Ht. assert (- c <= - g t); [|lra].
  apply (stays_ge (fun u => - g u) (- c) T); [|intros u Hu E; apply (Hn u Hu); lra|lra|auto].
  intros u Hu. apply (continuity_pt_opp g). auto.
Qed.
(** The flight-path angles a version-2 propagation reports are samples of a continuous angle that does not meet -88 degrees before its end. *)
Lemma stop_flight : forall E name V i tol secs dt d o f, engine_ok E -> stops E -> Planet name = Ok (vh_planet V) -> 0 < dt ->
  propogateEntry2 E (mkObj V i tol None None) secs dt d = (o, Ok tt) -> ob_flight o = Some f ->
  exists g T ts, g 0 = gamma0_deg i /\ (forall t, 0 <= t <= T -> continuity_pt g t) /\ (forall t, 0 <= t < T -> g t <> -88) /\ grid ts T /\
    (forall k, (k < length ts)%nat -> nth k ts 0 = INR k * (dt / tau (vh_planet V))) /\ p_gamma (f_plot f) = map g ts.
Proof.
  intros E name V i tol secs dt d o f HE HS HP Hdt H Hf. unfold propogateEntry2, store in H. cbn [ob_veh ob_tol ob_init] in H.
  destruct (fly _ _ _ _ _ _ _) as [f'|] eqn:Ef; [|discriminate].
  assert (f' = f). { destruct (ocumtrapz _ _ _); injection H as <-; [|discriminate]. cbn [ob_flight set_flight set_heat] in Hf. congruence. } subst f'. clear H.
  unfold fly in Ef. destruct (solveTrajectory2 E V tol (entry_state (vh_planet V) i) secs dt (deg d)) as [c|] eqn:Es; [|discriminate]. cbn [rbind] in Ef.
  set (p := vh_planet V) in *. destruct (post_inv _ _ _ _ Ef) as (cls & qc & qr & A). cbv zeta in A. destruct A as (Ec & _ & _ & _ & Ep & _). fold p in Ec, Ep.
  destruct (ref_facts _ _ HP) as (_ & _ & Ht & _). pose proof PI_RGT_0 as HPI.
  unfold solveTrajectory2 in Es. fold p in Es.
  destruct (arange _ _) as [ts|] eqn:Ea; [|discriminate]. cbn [rbind] in Es. destruct (arange_inv _ _ _ Ea) as (La & Na).
  assert (Hn : ts <> []) by (destruct ts; [discriminate|congruence]).
  assert (Es' : (letr out := solve_ivp E (fun y => EOM V y (deg d)) (last ts 0) (entry_state p i) ts hit_EFPA_90 tol in Ok (channels (fst out) (snd out))) = Ok c)
    by (destruct ts; [congruence|exact Es]). clear Es.
  destruct (solve_ivp E _ _ _ _ _ _) as [[us xs]|] eqn:Eo; [|discriminate]. cbn [rbind fst snd] in Es'. injection Es' as <-.
  destruct HE as (_ & K). destruct (K _ _ _ _ _ _ _ _ Eo) as (L & (n & ->) & F).
  assert (Hst : 0 < dt / tau p) by (apply Rdiv_lt_0_compat; auto).
  assert (Hz : nth_error ts 0 = Some 0). { destruct ts as [|t ts]; [congruence|]. pose proof (Na 0%nat ltac:(cbn; lia)) as N. cbn in *. rewrite N. f_equal. ring. }
  destruct (HS _ _ _ _ _ _ _ _ Hz Eo) as (y & Y0 & -> & C & NZ).
  exists (fun t => s_gamma (y t) * 180 / PI), (last (firstn n ts) 0), (firstn (fst cls) (firstn n ts)). split; [|split; [|split; [|split; [|split]]]].
  - rewrite Y0. cbn [entry_state nonDimState s_gamma]. unfold deg. field. lra.
  - intros t Htt. apply (ct_div (fun t => s_gamma (y t) * 180) (fun _ => PI)); [apply (ct_mult (fun t => s_gamma (y t)) (fun _ => 180)); [apply (C t Htt)|apply ct_const]|apply ct_const|lra].
  - intros t Htt Z. apply (NZ t Htt). unfold hit_EFPA_90. assert (s_gamma (y t) = s_gamma (y t) * 180 / PI * PI / 180) by (field; lra). rewrite Z in H. lra.
  - apply grid_firstn. apply (grid_regular _ _ (Rlt_le _ _ Hst)). intros k Hk. rewrite firstn_length in Hk. rewrite nth_firstn by lia. apply Na. lia.
  - intros k Hk. rewrite !firstn_length in Hk. rewrite !nth_firstn by lia. apply Na. lia.
  - rewrite Ep. cbn [p_gamma convertToPlotUnits dimensionalize_traj c_gamma channels]. rewrite !map_map, firstn_map. reflexivity.
Qed.

(** C105.  One propagation. *)
Theorem C87_from_continuity : forall E name V i tol secs dt d o f, engine_ok E -> stops E -> Planet name = Ok (vh_planet V) -> 0 < dt ->
  propogateEntry2 E (mkObj V i tol None None) secs dt d = (o, Ok tt) -> ob_flight o = Some f ->
  (-88 <= gamma0_deg i -> Forall (fun x => -88 <= x) (p_gamma (f_plot f))) /\ (gamma0_deg i <= -88 -> Forall (fun x => x <= -88) (p_gamma (f_plot f))).
Proof.
  intros E name V i tol secs dt d o f HE HS HP Hdt H Hf. destruct (stop_flight E name V i tol secs dt d o f HE HS HP Hdt H Hf) as (g & T & ts & G0 & C & N & (GI & _) & _ & ->).
  rewrite !Forall_map. split; intros Hg; (eapply Forall_impl; [|exact GI]); cbv beta; intros t Ht; [apply (stays_ge g (-88) T)|apply (stays_le g (-88) T)]; auto; lra.
Qed.
(** A flight that starts at -88 degrees exactly does not move: one point is reported. *)
Theorem C105_stuck : forall E name V i tol secs dt d o f, engine_ok E -> stops E -> Planet name = Ok (vh_planet V) -> 0 < dt ->
  propogateEntry2 E (mkObj V i tol None None) secs dt d = (o, Ok tt) -> ob_flight o = Some f -> gamma0_deg i = -88 -> p_t (f_plot f) = [0].
Proof.
  intros E name V i tol secs dt d o f HE HS HP Hdt H Hf Hg. destruct (stop_flight E name V i tol secs dt d o f HE HS HP Hdt H Hf) as (g & T & ts & G0 & C & N & (GI & GM) & Nk & Eg).
  destruct (C43_flight_aligned E name (mkObj V i tol None None) secs dt d o HE HP (or_intror H)) as (_ & _ & _ & f' & h & F1 & _ & FA & SA & _).
  assert (f' = f) by congruence. subst f'. destruct (ref_facts _ _ HP) as (_ & _ & Ht & _). cbn [ob_veh] in *.
  assert (T0 : T <= 0). { destruct (Rle_or_lt T 0) as [L|L]; auto. exfalso. apply (N 0); lra. }
  assert (Hst : 0 < dt / tau (vh_planet V)) by (apply Rdiv_lt_0_compat; auto).
  destruct FA as (F0 & _ & (L1 & _ & _ & _ & _ & _ & L7 & _) & _). rewrite Eg, map_length in L7. destruct SA as (S0 & _).
  assert (length ts <= 1)%nat. { destruct (Nat.le_gt_cases (length ts) 1) as [|K]; auto. exfalso. pose proof (Nk 1%nat K) as N1. cbn [INR] in N1.
    pose proof (proj1 (Forall_forall _ _) GI (nth 1 ts 0) (nth_In _ _ K)). lra. }
  destruct (p_t (f_plot f)) as [|t0 [|t1 tl]]; cbn in L1, S0; try lia. congruence.
Qed.
(** Every recorded point of a guided version-2 flight. *)
Lemma chain_dive : forall E name p dt L l, engine_ok E -> stops E -> Planet name = Ok p -> 0 < dt ->
  Forall (fun m => exists V tol d, vh_planet V = p /\ lg_bank m = Some d /\ plain_leg true E V tol dt m) (l :: L) -> chained (l :: L) -> -88 <= gamma0_deg (lg_init l) ->
  Forall (fun x => -88 <= x) (joined_up (fun f => p_gamma (f_plot f)) (l :: L)).
Proof.
  intros E name p dt L l HE HS HP Hdt. revert l. induction L as [|m L IH]; intros l F C G; inversion F as [|? ? (V & tol & d & EV & Ed & PL) F']; subst p;
    destruct (PL d Ed) as (o & Ho & Hf & _); destruct (C87_from_continuity E name V _ tol _ dt d o (lg_flight l) HE HS HP Hdt Ho Hf) as (A & _); specialize (A G);
    unfold joined_up; cbn [flat_map]; apply Forall_app; (split; [exact A|]); [constructor|].
  apply IH; auto. { intros k a b Ha Hb. apply (C (Datatypes.S k) a b); auto. }
  destruct (C 0%nat l m eq_refl eq_refl) as (_ & _ & _ & _ & _ & -> & _). apply (Forall_last _ _ A).
  destruct (C43_flight_aligned E name (mkObj V (lg_init l) tol None None) (lg_secs l) dt d o HE HP (or_intror Ho)) as (_ & _ & _ & f' & h & F1 & _ & FA & _).
  assert (f' = lg_flight l) by congruence. subst f'. destruct FA as (F0 & _ & (_ & _ & _ & _ & _ & _ & L7 & _) & _). intros Z. rewrite Z in L7. cbn in L7. lia.
Qed.
Theorem C105_lift_guided : forall E X P name timeStep dt maxTime n o hdotref o' s s' rep, engine_ok E -> stops E -> nan_ok X -> Planet name = Ok (vh_planet (ob_veh o)) -> 0 < dt ->
  propogateGuidedEntry true E X P timeStep dt maxTime n o hdotref = Some (o', Ok (s, s', rep)) ->
  Forall (fun d => d <> None) (a_delta (s_arr s')) -> -88 <= gamma0_deg (ob_init o) -> Forall (fun x => -88 <= x) (p_gamma (y_plot (s_hist s'))).
Proof.
  intros E X P name timeStep dt maxTime n o hdotref o' s s' rep HE HS HN HP Hdt H HD G.
  destruct (C103_lift_flight true E X P name timeStep dt maxTime n o hdotref o' s s' rep HE HN HP H) as (l & Gl & l' & Ex & A'). cbv zeta in A'.
  destruct A' as (I0 & _ & _ & _ & PL & CH & DL & _ & M & _). destruct M as (_ & _ & _ & _ & _ & _ & M6 & _). rewrite M6.
  apply (chain_dive E name (vh_planet (ob_veh o)) dt); auto; [|rewrite I0; exact G].
  apply Forall_forall. intros m Hm. rewrite DL in HD. rewrite Forall_map in HD. pose proof (proj1 (Forall_forall _ _) HD m Hm) as Hd. cbv beta in Hd.
  destruct (lg_bank m) as [d|] eqn:Ed; [|congruence]. exists (ob_veh o), (ob_tol o), d. split; auto. split; auto. apply (proj1 (Forall_forall _ _) PL m Hm).
Qed.
Theorem C105_drag_guided : forall E X b1 ratio P name timeStepEntry timeStepExit dt maxTime n o hdotref o' s s' rep, engine_ok E -> stops E -> Planet name = Ok (vh_planet (ob_veh o)) -> 0 < dt ->
  propogateGuidedEntryD true E X (Some (b1, ratio)) P timeStepEntry timeStepExit dt maxTime n o hdotref = Some (o', Ok (s, s', rep)) ->
  -88 <= gamma0_deg (ob_init o) -> Forall (fun x => -88 <= x) (p_gamma (y_plot (s_hist s'))).
Proof.
  intros E X b1 ratio P name tE tX dt maxTime n o hdotref o' s s' rep HE HS HP Hdt H G.
  destruct (C103_drag_flight true E X b1 ratio P name tE tX dt maxTime n o hdotref o' s s' rep HE HP H) as (l & Gl & l' & Ex & A'). cbv zeta in A'.
  destruct A' as (I0 & _ & Z & _ & _ & PL & PX & CH & _ & _ & M & _). destruct M as (_ & _ & _ & _ & _ & _ & M6 & _). rewrite M6.
  apply (chain_dive E name (vh_planet (ob_veh o)) dt); auto; [|rewrite I0; exact G].
  change (l :: Gl ++ Ex) with ((l :: Gl) ++ Ex) in *. apply Forall_app in Z. destruct Z as (Z1 & Z2). apply Forall_app.
  split; apply Forall_forall; intros m Hm; eexists; exists (ob_tol o), 0; (split; [|split; [|first [apply (proj1 (Forall_forall _ _) PL m Hm) | apply (proj1 (Forall_forall _ _) PX m Hm)]]]); try reflexivity;
    [apply (proj1 (Forall_forall _ _) Z1 m Hm)|apply (proj1 (Forall_forall _ _) Z2 m Hm)].
Qed.

(** Witness: a path whose flight-path angle falls at a constant rate, cut where the event function says so. *)
Definition dive (x : state) (t : R) : state := mkState (s_r x) (s_theta x) (s_phi x) (s_v x) (s_psi x) (s_gamma x - t) (s_drange x).
Definition cut (ev : state -> R) (x0 : state) (ts : list R) : list R := if holds (forall t, 0 <= t < last ts 0 -> ev (dive x0 t) <> 0) then ts else firstn 1 ts.
Definition diver : engine := mkEngine (fun _ _ _ _ => Err OracleError)
  (fun f _ x0 ts ev _ => if holds (ts <> [] -> nth_error ts 0 = Some 0) then Ok (cut ev x0 ts, map (dive x0) (cut ev x0 ts)) else Err OracleError).
Lemma dive_0 : forall x, dive x 0 = x.
Proof. intros []. unfold dive. cbn. f_equal. ring. Qed.
Lemma cut_first : forall ev x0 ts, exists n, cut ev x0 ts = firstn n ts /\ (ts <> [] -> (0 < n)%nat).
Proof. intros ev x0 ts. unfold cut. destruct (holds _); [exists (length ts); split; [symmetry; apply firstn_all|destruct ts; [congruence|cbn; lia]]|exists 1%nat; auto]. Qed.
Lemma diver_ok : engine_ok diver.
Proof.
  split; [discriminate|]. intros f te x0 ts ev tol us xs H. cbn in H. destruct (holds _) as [Z|]; [|discriminate]. injection H as <- <-. split; [apply map_length|].
  destruct (cut_first ev x0 ts) as (n & E & Hn). split; [eauto|]. intros Hne. specialize (Z Hne). specialize (Hn Hne). rewrite E.
  destruct ts as [|t ts]; [congruence|]. destruct n; [lia|]. cbn in *. injection Z as ->. split; [discriminate|]. rewrite dive_0. reflexivity.
Qed.
Lemma diver_stops : stops diver.
Proof.
  intros f te x0 ts ev tol us xs Hz H. cbn in H. destruct (holds _) as [Z|]; [|discriminate]. injection H as <- <-. exists (dive x0). split; [apply dive_0|]. split; auto. split.
  - intros t _. unfold continuous_at, dive. cbn. repeat split; try apply ct_const. apply (ct_minus (fun _ => s_gamma x0) (fun t => t)); [apply ct_const|apply derivable_continuous_pt, derivable_pt_id].
  - unfold cut. destruct (holds _) as [Q|_]; auto. destruct ts as [|t ts]; [discriminate|]. cbn in *. injection Hz as ->. intros t Ht. lra.
Qed.
Example C105_witness : exists o f, engine_ok diver /\ stops diver /\ Planet "VENUS" = Ok (vh_planet glider) /\
  propogateEntry2 diver (mkObj glider (mkInit 100 0 0 5 0 (-88) 0 0) 1 None None) 1 1 0 = (o, Ok tt) /\ ob_flight o = Some f.
Proof.
  set (i := mkInit 100 0 0 5 0 (-88) 0 0). destruct (two_points "VENUS" VENUS eq_refl) as (a & b & Ea).
  assert (N : a = 0). { destruct (arange_inv _ _ _ Ea) as (_ & N). specialize (N 0%nat ltac:(cbn; lia)). cbn in N. rewrite N. ring. } subst a.
  set (us := cut hit_EFPA_90 (entry_state VENUS i) [0; b]). destruct (cut_first hit_EFPA_90 (entry_state VENUS i) [0; b]) as (n & E & Hn). specialize (Hn ltac:(discriminate)). fold us in E.
  destruct (level_run (solveTrajectory2 diver) "VENUS" glider i 1 0 us (map (dive (entry_state VENUS i)) us) 1 1 None None) as (f & h & S & _); try reflexivity.
  - rewrite E. destruct n; [lia|discriminate].
  - apply map_length.
  - intros x Hx. apply in_map_iff in Hx. destruct Hx as (t & <- & _). reflexivity.
  - cbn. lra.
  - unfold solveTrajectory2. change (vh_planet glider) with VENUS. rewrite Ea. cbn [rbind solve_ivp diver]. destruct (holds _) as [_|Q]; [reflexivity|]. exfalso. apply Q. reflexivity.
  - do 2 eexists. split; [apply diver_ok|]. split; [apply diver_stops|]. split; [reflexivity|]. split; [exact S|reflexivity].
Qed.
(** Guided version-2 flights: two legs, each stopped where it starts. *)
Definition steep (i : init) : Prop := h0_km i = 179.4 /\ gamma0_deg i = -88 /\ v0_kms i = 5 /\ heatLoad0 i = 0.
Lemma dive_second : forall X o d, vh_planet (ob_veh o) = VENUS -> steep (ob_init o) ->
  exists f, propagate true diver X o 1 1 (Some d) = (mkObj (ob_veh o) (ob_init o) (ob_tol o) (Some f) (Some [Some 0]), Ok tt) /\
    steep (last_init (f_plot f) (Some 0)) /\ length (p_gamma (f_plot f)) = 1%nat.
Proof.
  intros X o d EP (S1 & S2 & S3 & S4). destruct (two_points "VENUS" VENUS eq_refl) as (a & b & Ea).
  assert (HP : Planet "VENUS" = Ok (vh_planet (ob_veh o))) by (rewrite EP; reflexivity).
  assert (N : a = 0). { destruct (arange_inv _ _ _ Ea) as (_ & N). specialize (N 0%nat ltac:(cbn; lia)). cbn in N. rewrite N. ring. } subst a.
  set (x0 := entry_state VENUS (ob_init o)).
  set (us := cut hit_EFPA_90 x0 [0; b]). destruct (cut_first hit_EFPA_90 x0 [0; b]) as (n & E & Hn). specialize (Hn ltac:(discriminate)). fold us in E.
  destruct (level_run (solveTrajectory2 diver) "VENUS" (ob_veh o) (ob_init o) (ob_tol o) d us (map (dive x0) us) 1 1 (ob_flight o) (ob_heat o)) as (f & h & S & _); auto.
  - rewrite E. destruct n; [lia|discriminate].
  - apply map_length.
  - intros x Hx. rewrite EP. apply in_map_iff in Hx. destruct Hx as (t & <- & _). reflexivity.
  - rewrite EP, S1. cbn [h_trap h_skip VENUS]. lra.
  - unfold solveTrajectory2. rewrite EP, Ea. cbn [rbind solve_ivp diver]. fold x0. destruct (holds _) as [_|Q]; [reflexivity|]. exfalso. apply Q. reflexivity.
  - assert (P2 : propogateEntry2 diver o 1 1 d = (mkObj (ob_veh o) (ob_init o) (ob_tol o) (Some f) (Some h), Ok tt)).
    { unfold propogateEntry2. rewrite S4. destruct o. exact S. }
    assert (P3 : propogateEntry2 diver (mkObj (ob_veh o) (ob_init o) (ob_tol o) None None) 1 1 d = (mkObj (ob_veh o) (ob_init o) (ob_tol o) (Some f) (Some h), Ok tt)).
    { revert P2. unfold propogateEntry2. cbn [ob_veh ob_tol ob_init]. rewrite S4. unfold store. destruct (fly _ _ _ _ _ _ _); [|discriminate]. destruct (ocumtrapz _ _ _); [|discriminate].
      unfold set_heat, set_flight. cbn [ob_veh ob_init ob_tol ob_flight ob_heat]. auto. }
    pose proof (C105_stuck diver "VENUS" (ob_veh o) (ob_init o) (ob_tol o) 1 1 d _ f diver_ok diver_stops HP ltac:(lra) P3 eq_refl S2) as Et.
    destruct (C43_flight_aligned diver "VENUS" _ 1 1 d _ diver_ok HP (or_intror P2)) as (_ & _ & _ & f' & h' & F1 & F2 & FA & SA & _). cbn [ob_flight ob_heat] in F1, F2. injection F1 as <-. injection F2 as <-.
    destruct FA as (F0 & _ & (L1 & L2 & L3 & L4 & L5 & L6 & L7 & L8) & FA). rewrite Et in L1. cbn in L1. rewrite <- L1 in *. destruct SA as (_ & A1 & A2 & _ & _ & _ & A6 & _).
    assert (Lh : length h = 1%nat) by (decompose [and] FA; lia).
    assert (Eh : h = [Some 0]).
    { revert P3. unfold propogateEntry2, store. cbn [ob_veh ob_tol ob_init]. destruct (fly _ _ _ _ _ _ _) as [f0|]; [|discriminate]. destruct (ocumtrapz _ _ _) as [h2|] eqn:Eo; [|discriminate].
      intros Q. assert (h2 = h) by (apply (f_equal (fun w => ob_heat (fst w))) in Q; cbn in Q; congruence). subst h2. unfold ocumtrapz in Eo. destruct (f_qtot f0); [discriminate|]. destruct (c_t (f_si f0)); [discriminate|].
      destruct (negb _); [discriminate|]. destruct (negb _); [discriminate|]. injection Eo as <-. cbn in Lh. injection Lh as Lh. destruct (otrapz_from _ _ _ _ _); [reflexivity|discriminate]. }
    subst h. exists f. split; [exact P2|]. split; [|exact L7].
    assert (One : forall l : list R, length l = 1%nat -> last l 0 = nth 0 l 0) by (intros [|x [|y l]] Q; cbn in *; congruence).
    unfold steep, last_init. cbn [h0_km gamma0_deg v0_kms heatLoad0]. rewrite (One _ L2), (One _ L3), (One _ L7), A1, A2, A6. auto.
Qed.
Definition slow_switch : gparams := mkG 30 0 1 5 50 10 0 200 400 10.
Lemma dive_start : forall X o hr, vh_planet (ob_veh o) = VENUS -> steep (ob_init o) ->
  exists o1 s0, eg_start true diver X o hr 1 = (o1, Ok s0) /\ ob_veh (s_obj s0) = ob_veh o /\ steep (last_init (y_plot (s_hist s0)) (Some 0)) /\ last (y_heat (s_hist s0)) None = Some 0 /\
    eg_guard slow_switch s0 = false /\ s_arr s0 = steps0 hr /\ length (p_gamma (y_plot (s_hist s0))) = 1%nat.
Proof.
  intros X o hr EP O. destruct (dive_second X o 0 EP O) as (f & P & OI & L).
  unfold eg_start. rewrite P. unfold results. cbn [ob_flight ob_heat rbind fst snd]. do 2 eexists. split; [reflexivity|]. cbn [s_obj ob_veh s_hist hist_of y_plot y_heat s_arr last].
  split; auto. split; auto. split; auto. split; auto. unfold eg_guard. cbn [s_vcur hist_of y_plot slow_switch g_vswitch].
  destruct OI as (_ & _ & E & _). cbn [last_init v0_kms] in E. rewrite E. rcases; auto. lra.
Qed.
Definition plunge : init := mkInit 179.4 0 0 5 0 (-88) 0 0.
Example C105_lift_witness : exists X o' s s' rep, nan_ok X /\
  propogateGuidedEntry true diver X slow_switch 1 1 600 5 (mkObj glider plunge 1 None None) [] = Some (o', Ok (s, s', rep)) /\
  Forall (fun d => d <> None) (a_delta (s_arr s')) /\ length (p_gamma (y_plot (s_hist s'))) = 2%nat.
Proof.
  set (X := mkGext (fun o _ _ => (o, Err ValueError)) (fun _ _ _ => 0)).
  destruct (dive_start X (mkObj glider plunge 1 None None) [] eq_refl) as (o1 & s0 & H0 & V0 & OI & HJ & Gd & A0 & L0); [unfold steep; cbn; auto|]. cbn [ob_veh] in V0.
  pose proof OI as (K1 & _). cbn [last_init h0_km] in K1.
  destruct (dive_second X (set_init (s_obj s0) (last_init (y_plot (s_hist s0)) (Some 0))) (psuedoController 30 0 0 1)) as (f & P & _ & L); [cbn [set_init ob_veh]; rewrite V0; reflexivity|exact OI|].
  assert (EX : exists s2, exit_step true diver X slow_switch 1 1 (last (a_hdot (s_arr s0)) 0) (Some 0) (exit_start s0) = (s2, Ok true) /\
    a_delta (s_arr s2) = [Some 0; Some (psuedoController 30 0 0 1)] /\ length (p_gamma (y_plot (s_hist s2))) = 2%nat).
  { unfold exit_step, exit_start. cbn [s_obj s_arr s_hist s_dens s_delta s_vcur s_hcur]. rewrite A0. cbn [steps0 a_delta last slow_switch g_rate].
    unfold controller. cbn [obind]. rewrite P. unfold results. cbn [ob_flight ob_heat]. rewrite V0, K1. cbn [glider vh_planet VENUS h_skip]. destruct (Rltb_spec (180000 - 10e3) (179.4 * 1e3)) as [Hx|Hx]; [|exfalso; lra].
    eexists. split; [reflexivity|]. cbn [s_arr steps_app_exit a_delta steps0 app s_hist y_plot hist_app p_gamma]. split; auto. rewrite app_length. lia. }
  destruct EX as (s2 & EX & ED & EL). exists X. do 4 eexists. split; [intros ? ? ? ? Hx; discriminate|]. split; [|split; [rewrite ED; repeat constructor; discriminate|exact EL]].
  unfold propogateGuidedEntry, propogateEquilibriumGlide. rewrite H0. cbn [while_loop]. rewrite Gd. unfold propogateExitPhase. rewrite HJ. cbn [while_loop].
  unfold exit_guard at 1. cbn [exit_start s_hcur s_obj]. fold (exit_start s0). rewrite V0, K1. cbn [glider vh_planet VENUS h_skip]. destruct (Rltb_spec 179.4 (180000 / 1e3)) as [Hx|Hx]; [|exfalso; lra]. rewrite EX. reflexivity.
Qed.
Example C105_drag_witness : exists X o' s s' rep,
  propogateGuidedEntryD true diver X (Some (50, 4)) slow_switch 1 1 1 600 5 (mkObj glider plunge 1 None None) [] = Some (o', Ok (s, s', rep)) /\
  length (p_gamma (y_plot (s_hist s'))) = 2%nat.
Proof.
  set (X := mkGext (fun o _ _ => (o, Err ValueError)) (fun _ _ _ => 0)).
  assert (SB : forall o b, vh_A (ob_veh o) = 4.5 -> 0 < b -> set_ballistic o b = (set_veh o (ballistic (ob_veh o) b), Ok tt)).
  { intros o b Hb Hp. unfold set_ballistic. cbn [ob_veh set_veh]. destruct (Reqb_spec (b * vh_A (with_beta (ob_veh o) b)) 0) as [Hx|Hx]; [exfalso; cbn [with_beta vh_A] in Hx; rewrite Hb in Hx; lra|]. reflexivity. }
  set (W := ballistic glider 50).
  destruct (dive_start X (mkObj W plunge 1 None None) [] eq_refl) as (o1 & s0 & H0 & V0 & OI & HJ & Gd & A0 & L0); [unfold steep; cbn; auto|]. cbn [ob_veh] in V0.
  set (W2 := ballistic W (50 * 4)). pose proof OI as (K1 & _). cbn [last_init h0_km] in K1.
  destruct (dive_second X (set_init (set_veh (s_obj s0) W2) (last_init (y_plot (s_hist s0)) (Some 0))) 0 eq_refl OI) as (f & P & _ & L).
  set (s1 := exit_start (set_obj s0 (set_veh (s_obj s0) W2))).
  assert (EX : exists s2, dexit_step true diver X 1 1 (last (a_hdot (s_arr s0)) 0) (Some 0) s1 = (s2, Ok true) /\ length (p_gamma (y_plot (s_hist s2))) = 2%nat).
  { unfold dexit_step, s1, exit_start, set_obj. cbn [s_obj s_arr s_hist s_dens s_delta s_vcur s_hcur]. rewrite P. unfold results. cbn [ob_flight ob_heat set_veh ob_veh]. rewrite K1.
    change (vh_planet W2) with VENUS. cbn [VENUS h_skip]. destruct (Rltb_spec (180000 - 1e3) (179.4 * 1e3)) as [Hx|Hx]; [|exfalso; lra].
    eexists. split; [reflexivity|]. cbn [s_hist y_plot hist_app p_gamma]. rewrite app_length. lia. }
  destruct EX as (s2 & EX & EL). exists X. do 4 eexists. split; [|exact EL].
  unfold propogateGuidedEntryD, propogateEntryPhaseD. cbn [fst]. rewrite SB by (cbn [ob_veh glider vh_A]; lra). cbn [ob_veh set_veh]. fold W.
  change (set_veh (mkObj glider plunge 1 None None) W) with (mkObj W plunge 1 None None). rewrite H0. cbn [while_loop]. rewrite Gd. unfold propogateExitPhaseD.
  rewrite SB by (rewrite ?V0; cbn [W ballistic with_CD with_beta glider vh_A]; lra). rewrite V0, HJ. fold W2 s1. cbn [while_loop].
  unfold exit_guard at 1. unfold s1 at 1 2. cbn [exit_start set_obj s_hcur s_obj s_hist set_veh ob_veh]. rewrite K1. change (vh_planet W2) with VENUS. cbn [VENUS h_skip].
  destruct (Rltb_spec 179.4 (180000 / 1e3)) as [Hx|Hx]; [|exfalso; lra]. rewrite EX. reflexivity.
Qed.
