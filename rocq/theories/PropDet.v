(** C106: with an exact integrator a flight inside the atmosphere is determined by where it starts. *)
From Coq Require Import String List.
Require Import Verif.Base Verif.Numpy Verif.PlanetModel Verif.TableSpec Verif.PropPlanet Verif.PlanetProofs Verif.AeroModel Verif.HeatModel Verif.TrajectoryModel Verif.TrajectorySpec Verif.TrajectoryProofs Verif.FlightProofs
  Verif.PropTrajectory Verif.GuidanceModel Verif.DragModel Verif.PropFlight Verif.ReportSpec Verif.PropReport Verif.LegSpec Verif.PropLegs Verif.ExactSpec Verif.ExactProofs Verif.DetSpec Verif.DetProofs.
Import ListNotations.
Local Open Scope R_scope.

(** All the channels of a flight lie on one exact solution. *)
Lemma exact_flight_all : forall (two : bool) E name V i tol secs dt d o f, engine_ok E -> exact E -> Planet name = Ok (vh_planet V) -> 0 < dt ->
  (if two then propogateEntry2 else propogateEntry) E (mkObj V i tol None None) secs dt d = (o, Ok tt) -> ob_flight o = Some f ->
  let p := vh_planet V in let q := f_plot f in
  exists y T ts, y 0 = entry_state p i /\ solves (fun z => EOM V z (deg d)) y T /\ grid ts T /\
    p_t q = map (fun t => tau p * t / 60) ts /\ length (p_h q) = length ts /\ length (p_v q) = length ts /\ length (p_theta q) = length ts /\
    length (p_phi q) = length ts /\ length (p_psi q) = length ts /\ length (p_gamma q) = length ts /\ length (p_drange q) = length ts /\
    forall k, (k < length ts)%nat -> shows p q k (y (nth k ts 0)).
Proof.
  intros two E name V i tol secs dt d o f HE HX HP Hdt H Hf p q.
  assert (G : exists solve h0, solver_ok solve /\ exact_solver solve /\ store (mkObj V i tol None None) (fly solve V tol i secs dt d) h0 = (o, Ok tt)).
  { destruct two; [exists (solveTrajectory2 E), (heatLoad0 i)|exists (solveTrajectory E), 0]; (split; [auto using solver1_ok, solver2_ok|split; [auto using exact_solver1, exact_solver2|exact H]]). }
  destruct G as (solve & h0 & HK & HS & G). clear H. unfold store in G. destruct (fly _ _ _ _ _ _ _) as [f'|] eqn:Ef; [|discriminate].
  assert (f' = f). { destruct (ocumtrapz _ _ _); injection G as <-; [|discriminate]. cbn [ob_flight set_flight set_heat] in Hf. congruence. } subst f'. clear G.
  unfold fly in Ef. destruct (solve V tol (entry_state (vh_planet V) i) secs dt (deg d)) as [c|] eqn:Es; [|discriminate]. cbn [rbind] in Ef. fold p in Es.
  destruct (post_inv _ _ _ _ Ef) as (cls & qc & qr & A). cbv zeta in A. destruct A as (Ec & _ & _ & _ & Ep & _). fold p in Ec, Ep. fold q in Ep.
  destruct (ref_facts _ _ HP) as (Hv & _ & Ht & _ & HRP & _). fold p in Hv, Ht, HRP. pose proof PI_RGT_0 as HPI.
  assert (Hne : c_t c <> []).
  { intros Z. destruct (HK _ _ _ _ _ _ _ Es) as (n & (L1 & L2 & _) & _). rewrite Z in L1. cbn in L1. subst n. cbn [dimensionalize_traj c_r] in Ec.
    destruct (c_r c); [discriminate Ec|discriminate L2]. }
  destruct (HS V tol (entry_state p i) secs dt (deg d) c Ht Hdt Es Hne) as (y & T & Y0 & S & G & Ech).
  set (ts := firstn (fst cls) (c_t c)). exists y, T, ts. split; auto. split; auto. split; [apply grid_firstn; auto|].
  rewrite Ech in Ep. cbn [p_t p_h p_v p_phi p_psi p_theta p_gamma p_drange convertToPlotUnits dimensionalize_traj c_t c_r c_v c_phi c_psi c_theta c_gamma c_drange channels] in Ep.
  rewrite !map_map, !firstn_map in Ep. fold ts in Ep. rewrite Ep. cbn [p_t p_h p_v p_phi p_psi p_theta p_gamma p_drange]. rewrite !map_length.
  repeat (split; [reflexivity|]). intros k Hk. unfold shows. cbn [p_t p_h p_v p_phi p_psi p_theta p_gamma p_drange]. 
  rewrite !(nth_map_lt _ _ _ 0) by auto. repeat split; field; lra.
Qed.
Lemma time_of_map : forall p q ts k, 0 < tau p -> p_t q = map (fun t => tau p * t / 60) ts -> (k < length (p_t q))%nat -> time_of p q k = nth k ts 0 /\ (k < length ts)%nat.
Proof.
  intros p q ts k Ht E Hk. unfold time_of. rewrite E in *. rewrite map_length in Hk. rewrite (nth_map_lt _ _ _ 0) by auto. split; auto. field. lra.
Qed.
(** Every point reported up to [T] is the state of the way at that time. *)
Theorem C106_on_the_way : forall (two : bool) E name V i tol secs dt d o f y T, engine_ok E -> exact E -> Planet name = Ok (vh_planet V) -> 0 < dt ->
  vh_user V = false -> lipschitz_air (vh_planet V) (vh_atm V) -> way V i d T y ->
  (if two then propogateEntry2 else propogateEntry) E (mkObj V i tol None None) secs dt d = (o, Ok tt) -> ob_flight o = Some f ->
  forall k, (k < length (p_t (f_plot f)))%nat -> time_of (vh_planet V) (f_plot f) k <= T ->
  shows (vh_planet V) (f_plot f) k (y (time_of (vh_planet V) (f_plot f) k)).
Proof.
  intros two E name V i tol secs dt d o f y T HE HX HP Hdt Hu HL (Y0 & S & I) H Hf k Hk HT.
  destruct (exact_flight_all two E name V i tol secs dt d o f HE HX HP Hdt H Hf) as (z & Tz & ts & Z0 & Sz & (GF & GM) & Et & _ & _ & _ & _ & _ & _ & _ & Sh).
  destruct (ref_facts _ _ HP) as (_ & _ & Ht & _ & HRP & _). destruct (time_of_map _ _ _ _ Ht Et Hk) as (E1 & Hk'). rewrite E1 in *.
  pose proof (proj1 (Forall_forall _ _) GF _ (nth_In ts 0 Hk')) as B. cbv beta in B.
  replace (y (nth k ts 0)) with (z (nth k ts 0)); auto. symmetry.
  apply (unique V (deg d) y z (nth k ts 0)); auto; [eapply solves_upto; eauto|eapply solves_upto; [exact Sz|]; lra|congruence|intros t Htt; apply I; lra|lra].
Qed.
Lemma shows_same : forall p q k q' k' x, shows p q k x -> shows p q' k' x -> same_point q k q' k'.
Proof.
  intros p q k q' k' x (A1 & A2 & A3 & A4 & A5 & A6 & A7) (B1 & B2 & B3 & B4 & B5 & B6 & B7). pose proof PI_RGT_0.
  assert (Q : forall a b c, a * PI / 180 = c -> b * PI / 180 = c -> a = b) by (intros a b c U1 U2; apply (Rmult_eq_reg_r (PI / 180)); [unfold Rdiv in *; lra|apply Rgt_not_eq; lra]).
  unfold same_point. repeat split; try lra; eapply Q; eauto.
Qed.
Lemma load_same : forall x a b, load_is x a -> load_is x b -> a = b.
Proof. intros x a b (A1 & A2) (B1 & B2). destruct (Rle_or_lt 0 x) as [L|L]; [rewrite A1, B1|rewrite A2, B2]; auto. Qed.
Lemma flight_laws : forall (two : bool) E name V i tol secs dt d o f, engine_ok E -> Planet name = Ok (vh_planet V) -> vh_user V = false ->
  (if two then propogateEntry2 else propogateEntry) E (mkObj V i tol None None) secs dt d = (o, Ok tt) -> ob_flight o = Some f ->
  (exists law, con_law (ID (vh_planet V)) = Some law) /\ (exists law, rad_law (ID (vh_planet V)) = Some law) /\
  forall k, (k < length (p_t (f_plot f)))%nat -> reported V (d * PI / 180) f k.
Proof.
  intros two E name V i tol secs dt d o f HE HP Hu H Hf.
  assert (H' : propogateEntry E (mkObj V i tol None None) secs dt d = (o, Ok tt) \/ propogateEntry2 E (mkObj V i tol None None) secs dt d = (o, Ok tt)) by (destruct two; auto).
  destruct (C86_every_point E name (mkObj V i tol None None) secs dt d o HE HP Hu H') as (f' & Hf' & _ & R). assert (f' = f) by congruence. subst f'.
  destruct (C43_flight_aligned E name (mkObj V i tol None None) secs dt d o HE HP H') as (_ & _ & _ & f' & h & F1 & _ & FA & _). assert (f' = f) by congruence. subst f'.
  assert (exists solve h0, store (mkObj V i tol None None) (fly solve V tol i secs dt d) h0 = (o, Ok tt)) as (solve & h0 & G) by (destruct H'; eexists; eexists; eassumption).
  destruct (stored_post _ _ _ _ _ _ _ _ G Hf) as (c0 & _ & Hp). destruct (post_inv _ _ _ _ Hp) as (cls & qc & qr & A). cbv zeta in A.
  destruct A as (_ & _ & _ & _ & _ & _ & _ & _ & _ & Qc & Qr & _). unfold qStagConvective, qStagRadiative, heat_history in Qc, Qr. cbn [ob_veh] in *.
  split; [destruct (con_law _); [eauto|discriminate]|]. split; [destruct (rad_law _); [eauto|discriminate]|].
  intros k Hk. apply R. destruct FA as (_ & _ & (L & _) & _). rewrite L in Hk. exact Hk.
Qed.
(** The report does not depend on the integrator, its tolerance, the version, the step or the duration. *)
Theorem C106_same_flight : forall (two two' : bool) E E' name V i tol tol' secs secs' dt dt' d o o' f f' y T, engine_ok E -> exact E -> engine_ok E' -> exact E' ->
  Planet name = Ok (vh_planet V) -> 0 < dt -> 0 < dt' -> vh_user V = false -> lipschitz_air (vh_planet V) (vh_atm V) -> way V i d T y ->
  (if two then propogateEntry2 else propogateEntry) E (mkObj V i tol None None) secs dt d = (o, Ok tt) -> ob_flight o = Some f ->
  (if two' then propogateEntry2 else propogateEntry) E' (mkObj V i tol' None None) secs' dt' d = (o', Ok tt) -> ob_flight o' = Some f' ->
  forall k k', (k < length (p_t (f_plot f)))%nat -> (k' < length (p_t (f_plot f')))%nat -> nth k (p_t (f_plot f)) 0 = nth k' (p_t (f_plot f')) 0 ->
  time_of (vh_planet V) (f_plot f) k <= T -> same_report f k f' k'.
Proof.
  intros two two' E E' name V i tol tol' secs secs' dt dt' d o o' f f' y T HE HX HE' HX' HP Hdt Hdt' Hu HL W H Hf H' Hf' k k' Hk Hk' Et HT.
  assert (Et' : time_of (vh_planet V) (f_plot f) k = time_of (vh_planet V) (f_plot f') k') by (unfold time_of; rewrite Et; reflexivity).
  pose proof (C106_on_the_way two E name V i tol secs dt d o f y T HE HX HP Hdt Hu HL W H Hf k Hk HT) as A.
  pose proof (C106_on_the_way two' E' name V i tol' secs' dt' d o' f' y T HE' HX' HP Hdt' Hu HL W H' Hf' k' Hk' ltac:(lra)) as B. rewrite <- Et' in B.
  pose proof (shows_same _ _ _ _ _ _ A B) as SP. split; auto.
  destruct (flight_laws two E name V i tol secs dt d o f HE HP Hu H Hf) as ((lc & Hc) & (lr & Hr) & R). specialize (R k Hk).
  destruct (flight_laws two' E' name V i tol' secs' dt' d o' f' HE' HP Hu H' Hf') as (_ & _ & R'). specialize (R' k' Hk').
  destruct SP as (Eh & Ev & _). unfold reported, altitude_at, speed_at in R, R'. cbv zeta in R, R'. rewrite <- Eh, <- Ev in R'.
  destruct R as (A1 & A2 & A3 & A4 & A5 & A6 & A7). destruct R' as (B1 & B2 & B3 & B4 & B5 & B6 & B7).
  specialize (A5 _ Hc). specialize (B5 _ Hc). specialize (A6 _ Hr). specialize (B6 _ Hr). rewrite A5, A6 in A7. rewrite B5, B6 in B7.
  split; [lra|]. split; [lra|]. split; [eapply load_same; eauto|]. repeat split; congruence.
Qed.
(** The way seen from a later time on. *)
Lemma ct_shift : forall g s t, continuity_pt g (s + t) -> continuity_pt (fun u => g (s + u)) t.
Proof.
  intros g s t H. apply (continuity_pt_comp (fun u => s + u) g); auto. apply (ct_plus (fun _ => s) (fun u => u)); [apply ct_const|apply derivable_continuous_pt, derivable_pt_id].
Qed.
Lemma dl_shift : forall g s t d, derivable_pt_lim g (s + t) d -> derivable_pt_lim (fun u => g (s + u)) t d.
Proof.
  intros g s t d H. replace d with (d * (0 + 1)) by ring. apply (derivable_pt_lim_comp (fun u => s + u) g); auto.
  apply (derivable_pt_lim_plus (fun _ => s) (fun u => u)); [apply derivable_pt_lim_const|apply derivable_pt_lim_id].
Qed.
Lemma solves_shift : forall f y T s, solves f y T -> 0 <= s <= T -> solves f (fun t => y (s + t)) (T - s).
Proof.
  intros f y T s (l & H) Hs. exists (map (fun c => c - s) l). intros t Ht. destruct (H (s + t) ltac:(lra)) as (C & d & E & D). split.
  - destruct C as (C1 & C2 & C3 & C4 & C5 & C6 & C7). repeat split; match goal with |- continuity_pt (fun u => ?P (y (s + u))) t => apply (ct_shift (fun u => P (y u))); auto end.
  - exists d. split; auto. intros Htt Hn. destruct D as (D1 & D2 & D3 & D4 & D5 & D6 & D7); [lra| |].
    { intros I. apply Hn. apply in_map_iff. exists (s + t). split; auto. ring. }
    repeat split; match goal with |- derivable_pt_lim (fun u => ?P (y (s + u))) t _ => apply (dl_shift (fun u => P (y u))); auto end.
Qed.
(** Initial conditions read off a reported point are the state it shows. *)
Lemma shows_entry : forall p q k i x, 0 < RP p -> 0 < Vref p -> shows p q k x -> read_off q k i -> entry_state p i = x.
Proof.
  intros p q k i x HR Hv (A1 & A2 & A3 & A4 & A5 & A6 & A7) (B1 & B2 & B3 & B4 & B5 & B6 & B7). unfold entry_state, nonDimState. cbn [s_r s_theta s_phi s_v s_psi s_gamma s_drange].
  rewrite B1, B2, B3, B4, B5, B6, B7. unfold computeR, deg. destruct x as [x1 x2 x3 x4 x5 x6 x7]. cbn [s_r s_theta s_phi s_v s_psi s_gamma s_drange] in *. f_equal; auto.
  - replace 1e3 with 1000 by lra. rewrite A1. field. lra.
  - replace 1e3 with 1000 by lra. rewrite A2. field. lra.
  - replace 1e3 with 1000 by lra. rewrite A7. field. lra.
Qed.
Lemma way_on : forall V i d T y q k i' s, 0 < RP (vh_planet V) -> 0 < Vref (vh_planet V) -> way V i d T y -> 0 <= s <= T -> shows (vh_planet V) q k (y s) -> read_off q k i' ->
  way V i' d (T - s) (fun t => y (s + t)).
Proof.
  intros V i d T y q k i' s HR Hv (Y0 & S & I) Hs Sh Ro. split; [rewrite Rplus_0_r; symmetry; eapply shows_entry; eauto|]. split; [apply (solves_shift (fun x => EOM V x (d * PI / 180))); auto|].
  intros t Ht. apply I. lra.
Qed.
Lemma time_nonneg : forall (two : bool) E name V i tol secs dt d o f, engine_ok E -> exact E -> Planet name = Ok (vh_planet V) -> 0 < dt ->
  (if two then propogateEntry2 else propogateEntry) E (mkObj V i tol None None) secs dt d = (o, Ok tt) -> ob_flight o = Some f ->
  forall k, (k < length (p_t (f_plot f)))%nat -> 0 <= time_of (vh_planet V) (f_plot f) k.
Proof.
  intros two E name V i tol secs dt d o f HE HX HP Hdt H Hf k Hk.
  destruct (exact_flight_all two E name V i tol secs dt d o f HE HX HP Hdt H Hf) as (z & Tz & ts & Z0 & Sz & (GF & GM) & Et & _).
  destruct (ref_facts _ _ HP) as (_ & _ & Ht & _). destruct (time_of_map _ _ _ _ Ht Et Hk) as (E1 & Hk'). rewrite E1.
  apply (proj1 (Forall_forall _ _) GF _ (nth_In ts 0 Hk')).
Qed.
(** Flying on from any reported point is flying on. *)
Theorem C106_restart : forall (two two' two'' : bool) E E' E'' name V i i' tol tol' tol'' secs secs' secs'' dt dt' dt'' d o o' o'' f f' f'' y T,
  engine_ok E -> exact E -> engine_ok E' -> exact E' -> engine_ok E'' -> exact E'' ->
  Planet name = Ok (vh_planet V) -> 0 < dt -> 0 < dt' -> 0 < dt'' -> vh_user V = false -> lipschitz_air (vh_planet V) (vh_atm V) -> way V i d T y ->
  (if two then propogateEntry2 else propogateEntry) E (mkObj V i tol None None) secs dt d = (o, Ok tt) -> ob_flight o = Some f ->
  forall j, (j < length (p_t (f_plot f)))%nat -> read_off (f_plot f) j i' ->
  (if two' then propogateEntry2 else propogateEntry) E' (mkObj V i' tol' None None) secs' dt' d = (o', Ok tt) -> ob_flight o' = Some f' ->
  (if two'' then propogateEntry2 else propogateEntry) E'' (mkObj V i tol'' None None) secs'' dt'' d = (o'', Ok tt) -> ob_flight o'' = Some f'' ->
  forall k k', (k < length (p_t (f_plot f')))%nat -> (k' < length (p_t (f_plot f'')))%nat ->
  nth j (p_t (f_plot f)) 0 + nth k (p_t (f_plot f')) 0 = nth k' (p_t (f_plot f'')) 0 -> time_of (vh_planet V) (f_plot f'') k' <= T ->
  same_report f' k f'' k'.
Proof.
  intros two two' two'' E E' E'' name V i i' tol tol' tol'' secs secs' secs'' dt dt' dt'' d o o' o'' f f' f'' y T HE HX HE' HX' HE'' HX'' HP Hdt Hdt' Hdt'' Hu HL W H Hf j Hj Ro
    H' Hf' H'' Hf'' k k' Hk Hk' Et HT.
  set (p := vh_planet V) in *. destruct (ref_facts _ _ HP) as (Hv & _ & Ht & _ & HRP & _). 
  pose proof (time_nonneg two E name V i tol secs dt d o f HE HX HP Hdt H Hf j Hj) as Pj. pose proof (time_nonneg two' E' name V i' tol' secs' dt' d o' f' HE' HX' HP Hdt' H' Hf' k Hk) as Pk. fold p in Pj, Pk.
  assert (Es : time_of p (f_plot f) j + time_of p (f_plot f') k = time_of p (f_plot f'') k') by (unfold time_of; rewrite <- Et; field; lra).
  pose proof (C106_on_the_way two E name V i tol secs dt d o f y T HE HX HP Hdt Hu HL W H Hf j Hj ltac:(fold p; lra)) as A. fold p in A.
  pose proof (way_on V i d T y (f_plot f) j i' (time_of p (f_plot f) j) HRP Hv W ltac:(lra) A Ro) as W'.
  pose proof (C106_on_the_way two' E' name V i' tol' secs' dt' d o' f' _ _ HE' HX' HP Hdt' Hu HL W' H' Hf' k Hk ltac:(fold p; lra)) as B. cbv beta in B. fold p in B. rewrite Es in B.
  pose proof (C106_on_the_way two'' E'' name V i tol'' secs'' dt'' d o'' f'' y T HE'' HX'' HP Hdt'' Hu HL W H'' Hf'' k' Hk' HT) as C. fold p in C.
  pose proof (shows_same _ _ _ _ _ _ B C) as SP. split; auto.
  destruct (flight_laws two' E' name V i' tol' secs' dt' d o' f' HE' HP Hu H' Hf') as ((lc & Hc) & (lr & Hr) & R). specialize (R k Hk).
  destruct (flight_laws two'' E'' name V i tol'' secs'' dt'' d o'' f'' HE'' HP Hu H'' Hf'') as (_ & _ & R'). specialize (R' k' Hk').
  destruct SP as (Eh & Ev & _). unfold reported, altitude_at, speed_at in R, R'. cbv zeta in R, R'. rewrite <- Eh, <- Ev in R'.
  destruct R as (A1 & A2 & A3 & A4 & A5 & A6 & A7). destruct R' as (B1 & B2 & B3 & B4 & B5 & B6 & B7).
  specialize (A5 _ Hc). specialize (B5 _ Hc). specialize (A6 _ Hr). specialize (B6 _ Hr). rewrite A5, A6 in A7. rewrite B5, B6 in B7.
  split; [lra|]. split; [lra|]. split; [eapply load_same; eauto|]. repeat split; congruence.
Qed.

(** A history made of chained legs of one vehicle at one bank angle. *)
Definition legs_plot (t0 : R) (L : list leg) : plot :=
  mkPlot (clocked t0 L) (joined_up (fun f => p_h (f_plot f)) L) (joined_up (fun f => p_v (f_plot f)) L) (joined_up (fun f => p_phi (f_plot f)) L)
    (joined_up (fun f => p_psi (f_plot f)) L) (joined_up (fun f => p_theta (f_plot f)) L) (joined_up (fun f => p_gamma (f_plot f)) L) (joined_up (fun f => p_drange (f_plot f)) L).
Lemma shows_app1 : forall p q q' k x t, length (p_h q) = length (p_t q) -> length (p_v q) = length (p_t q) -> length (p_phi q) = length (p_t q) -> length (p_psi q) = length (p_t q) ->
  length (p_theta q) = length (p_t q) -> length (p_gamma q) = length (p_t q) -> length (p_drange q) = length (p_t q) -> (k < length (p_t q))%nat -> shows p q k x ->
  shows p (mkPlot t (p_h q ++ p_h q') (p_v q ++ p_v q') (p_phi q ++ p_phi q') (p_psi q ++ p_psi q') (p_theta q ++ p_theta q') (p_gamma q ++ p_gamma q') (p_drange q ++ p_drange q')) k x.
Proof.
  intros p q q' k x t L1 L2 L3 L4 L5 L6 L7 Hk S. unfold shows in *. cbn [p_h p_v p_phi p_psi p_theta p_gamma p_drange]. rewrite !app_nth1 by lia. exact S.
Qed.
Lemma shows_app2 : forall p q q' k x t, length (p_h q) = length (p_t q) -> length (p_v q) = length (p_t q) -> length (p_phi q) = length (p_t q) -> length (p_psi q) = length (p_t q) ->
  length (p_theta q) = length (p_t q) -> length (p_gamma q) = length (p_t q) -> length (p_drange q) = length (p_t q) -> shows p q' k x ->
  shows p (mkPlot t (p_h q ++ p_h q') (p_v q ++ p_v q') (p_phi q ++ p_phi q') (p_psi q ++ p_psi q') (p_theta q ++ p_theta q') (p_gamma q ++ p_gamma q') (p_drange q ++ p_drange q')) (length (p_t q) + k)%nat x.
Proof.
  intros p q q' k x t L1 L2 L3 L4 L5 L6 L7 S. unfold shows in *. cbn [p_h p_v p_phi p_psi p_theta p_gamma p_drange]. rewrite !app_nth2 by lia.
  replace (length (p_t q) + k - length (p_h q))%nat with k by lia. replace (length (p_t q) + k - length (p_v q))%nat with k by lia. replace (length (p_t q) + k - length (p_theta q))%nat with k by lia.
  replace (length (p_t q) + k - length (p_phi q))%nat with k by lia. replace (length (p_t q) + k - length (p_psi q))%nat with k by lia. replace (length (p_t q) + k - length (p_gamma q))%nat with k by lia.
  replace (length (p_t q) + k - length (p_drange q))%nat with k by lia. exact S.
Qed.
Lemma chain_way : forall (two : bool) E name V tol dt d y T, engine_ok E -> exact E -> Planet name = Ok (vh_planet V) -> 0 < dt -> vh_user V = false -> lipschitz_air (vh_planet V) (vh_atm V) ->
  forall L t0 i, way V i d T y -> 0 <= t0 -> (forall m L', L = m :: L' -> t0 * 60 / tau (vh_planet V) <= T -> entry_state (vh_planet V) (lg_init m) = y (t0 * 60 / tau (vh_planet V))) ->
  Forall (fun m => lg_bank m = Some d) L -> Forall (plain_leg two E V tol dt) L -> chained L ->
  Forall (fun t => t0 <= t) (clocked t0 L) /\
  forall k, (k < length (clocked t0 L))%nat -> time_of (vh_planet V) (legs_plot t0 L) k <= T -> shows (vh_planet V) (legs_plot t0 L) k (y (time_of (vh_planet V) (legs_plot t0 L) k)).
Proof.
  intros two E name V tol dt d y T HE HX HP Hdt Hu HL L. set (p := vh_planet V) in *. destruct (ref_facts _ _ HP) as (Hv & _ & Ht & _ & HRP & _). fold p in Hv, Ht, HRP.
  induction L as [|l L IH]; intros t0 i W H0 Hst FB FP C.
  { split; [constructor|]. cbn. intros k Hk. lia. }
  inversion FB as [|? ? Bl FB']; subst. inversion FP as [|? ? Pl FP']; subst. destruct (Pl d Bl) as (o & H & Hf & _). set (f := lg_flight l) in *. set (q := f_plot f) in *.
  specialize (Hst l L eq_refl).
  destruct (exact_flight_all two E name V (lg_init l) tol (lg_secs l) dt d o f HE HX HP Hdt H Hf) as (z & Tz & ts & Z0 & Sz & (GF & GM) & Et & Lh & Lv & Lth & Lph & Lps & Lg & Ld & Sh).
  fold p q in Et, Lh, Lv, Lth, Lph, Lps, Lg, Ld, Sh. assert (Lt : length (p_t q) = length ts) by (rewrite Et; apply map_length).
  pose proof (time_nonneg two E name V (lg_init l) tol (lg_secs l) dt d o f HE HX HP Hdt H Hf) as Tn. fold p q in Tn.
  assert (Tn' : forall k, (k < length (p_t q))%nat -> 0 <= nth k (p_t q) 0).
  { intros k Hk. specialize (Tn k Hk). unfold time_of in Tn. replace (nth k (p_t q) 0) with (nth k (p_t q) 0 * 60 / tau p * (tau p / 60)) by (field; lra). apply Rmult_le_pos; auto. apply Rlt_le, Rdiv_lt_0_compat; lra. }
  set (tl := map (fun t => t0 + t) (p_t q)). set (t1 := last tl t0).
  assert (Nt : forall k, (k < length (p_t q))%nat -> nth k tl 0 = t0 + nth k (p_t q) 0) by (intros k Hk; unfold tl; rewrite (nth_map_lt _ _ _ 0) by auto; reflexivity).
  assert (Ltl : length tl = length (p_t q)) by apply map_length.
  assert (Ftl : Forall (fun t => t0 <= t) tl). { apply Forall_forall. intros t It. destruct (In_nth tl t 0 It) as (k & Hk & <-). rewrite Nt by lia. specialize (Tn' k ltac:(lia)). lra. }
  (* the leg itself *)
  assert (Wl : t0 * 60 / tau p <= T -> way V (lg_init l) d (T - t0 * 60 / tau p) (fun t => y (t0 * 60 / tau p + t))).
  { intros Q. destruct W as (_ & S & I). assert (0 <= t0 * 60 / tau p) by (apply Rmult_le_pos; [lra|apply Rlt_le, Rinv_0_lt_compat; auto]).
    split; [rewrite Rplus_0_r; symmetry; apply Hst; auto|]. split; [apply (solves_shift (fun x => EOM V x (d * PI / 180))); auto|]. intros t Htt. apply I. lra. }
  assert (Own : forall k, (k < length (p_t q))%nat -> (t0 + nth k (p_t q) 0) * 60 / tau p <= T -> shows p q k (y ((t0 + nth k (p_t q) 0) * 60 / tau p))).
  { intros k Hk Q. assert (Eq : (t0 + nth k (p_t q) 0) * 60 / tau p = t0 * 60 / tau p + time_of p q k) by (unfold time_of; field; lra). specialize (Tn k Hk). rewrite Eq in *.
    apply (C106_on_the_way two E name V (lg_init l) tol (lg_secs l) dt d o f (fun t => y (t0 * 60 / tau p + t)) (T - t0 * 60 / tau p) HE HX HP Hdt Hu HL (Wl ltac:(lra)) H Hf k Hk). fold p q. lra. }
  assert (Hne : p_t q <> []).
  { assert (H' : propogateEntry E (mkObj V (lg_init l) tol None None) (lg_secs l) dt d = (o, Ok tt) \/ propogateEntry2 E (mkObj V (lg_init l) tol None None) (lg_secs l) dt d = (o, Ok tt)) by (destruct two; auto).
    destruct (C43_flight_aligned E name (mkObj V (lg_init l) tol None None) (lg_secs l) dt d o HE HP H') as (_ & _ & _ & f' & h & F1 & _ & FA & _). assert (f' = f) by congruence. subst f'.
    destruct FA as (F0 & _ & (La & _) & _). fold q in La. intros Z. rewrite Z in La. cbn in La. lia. }
  assert (Hlen : (0 < length (p_t q))%nat) by (destruct (p_t q); [congruence|cbn; lia]).
  assert (E1 : t1 = t0 + nth (length (p_t q) - 1) (p_t q) 0).
  { unfold t1. rewrite last_is_nth, Ltl. rewrite (nth_indep tl t0 0) by lia. apply Nt. lia. }
  assert (H01 : t0 <= t1) by (rewrite E1; specialize (Tn' (length (p_t q) - 1)%nat ltac:(lia)); lra).
  destruct (IH t1 i W ltac:(lra)) as (F1 & S1); auto.
  { intros m L' -> Q. destruct (C 0%nat l m eq_refl eq_refl) as (K1 & K2 & K3 & K4 & K5 & K6 & K7). fold f q in K1, K2, K3, K4, K5, K6, K7. rewrite !last_is_nth in *.
    rewrite E1 in *. apply (shows_entry p q (length (p_t q) - 1)); auto; [apply Own; auto; lia|].
    unfold read_off. rewrite K1, K2, K3, K4, K5, K6, K7, Lh, Lv, Lth, Lph, Lps, Lg, Ld, Lt. repeat split; reflexivity. }
  { intros k a b Ha Hb. apply (C (Datatypes.S k) a b); auto. }
  assert (Ec : clocked t0 (l :: L) = tl ++ clocked t1 L) by reflexivity.
  split. { rewrite Ec. apply Forall_app. split; auto. eapply Forall_impl; [|exact F1]. cbv beta. intros; lra. }
  intros k Hk HT. rewrite Ec, app_length in Hk.
  change (legs_plot t0 (l :: L)) with (mkPlot (tl ++ clocked t1 L) (p_h q ++ p_h (legs_plot t1 L)) (p_v q ++ p_v (legs_plot t1 L)) (p_phi q ++ p_phi (legs_plot t1 L)) (p_psi q ++ p_psi (legs_plot t1 L))
    (p_theta q ++ p_theta (legs_plot t1 L)) (p_gamma q ++ p_gamma (legs_plot t1 L)) (p_drange q ++ p_drange (legs_plot t1 L))) in *.
  unfold time_of in HT |- *. cbn [p_t] in HT |- *.
  destruct (Nat.lt_ge_cases k (length (p_t q))) as [Lk|Lk].
  - rewrite app_nth1 in * by lia. rewrite Nt in * by auto. apply shows_app1; try congruence. apply Own; auto.
  - rewrite app_nth2 in * by lia. rewrite Ltl in *. replace k with (length (p_t q) + (k - length (p_t q)))%nat at 1 by lia. apply shows_app2; try congruence.
    apply (S1 (k - length (p_t q))%nat); [lia|exact HT].
Qed.
Lemma made_plot : forall H L D, made_of H L D -> y_plot H = legs_plot 0 L.
Proof. intros H L D (A1 & A2 & A3 & A4 & A5 & A6 & A7 & A8 & _). destruct (y_plot H) as [q1 q2 q3 q4 q5 q6 q7 q8]. cbn in *. unfold legs_plot. congruence. Qed.
Lemma clocked_shift : forall L t0, clocked t0 L = map (fun t => t0 + t) (clocked 0 L).
Proof.
  induction L as [|l L IH]; intros t0; cbn [clocked map]; auto. rewrite map_app, map_map. set (ts := p_t (f_plot (lg_flight l))).
  f_equal; [apply map_ext; intros; ring|]. rewrite (IH (last _ t0)), (IH (last _ 0)), map_map. apply map_ext. intros t.
  replace (last (map (fun u => t0 + u) ts) t0) with (t0 + last (map (fun u => 0 + u) ts) 0); [ring|].
  clear. induction ts as [|a [|b ts] IHt]; cbn [map last]; [ring|ring|]. exact IHt.
Qed.
Lemma last_dflt : forall (b : list R) d e, b <> [] -> last b d = last b e.
Proof. induction b as [|x [|y b] IH]; intros d e H; [congruence|reflexivity|]. apply (IH d e). discriminate. Qed.
Lemma last_app_dflt : forall (a b : list R) d, last (a ++ b) d = last b (last a d).
Proof.
  intros a b d. destruct b as [|x b]; [rewrite app_nil_r; reflexivity|]. rewrite (last_dflt (x :: b) (last a d) d) by discriminate.
  induction a as [|y a IH]; auto. cbn [app]. rewrite <- IH. destruct a; reflexivity.
Qed.
Lemma clocked_app : forall L L' t0, clocked t0 (L ++ L') = clocked t0 L ++ clocked (last (clocked t0 L) t0) L'.
Proof.
  induction L as [|l L IH]; intros L' t0; cbn [clocked app]; auto. rewrite <- app_assoc. f_equal. rewrite IH. f_equal.
  rewrite last_app_dflt. reflexivity.
Qed.
Lemma nth_shift : forall (a : R) l k, (k < length l)%nat -> nth k (map (fun t => a + t) l) 0 = a + nth k l 0.
Proof. intros a l k H. rewrite (nth_map_lt _ _ _ 0) by auto. reflexivity. Qed.
Definition leg_lens (l : leg) : Prop := let q := f_plot (lg_flight l) in p_t q <> [] /\ length (p_h q) = length (p_t q) /\ length (p_v q) = length (p_t q) /\
  length (p_theta q) = length (p_t q) /\ length (p_phi q) = length (p_t q) /\ length (p_psi q) = length (p_t q) /\ length (p_gamma q) = length (p_t q) /\ length (p_drange q) = length (p_t q).
Lemma plain_lens : forall (two : bool) E name V tol dt d l, engine_ok E -> exact E -> Planet name = Ok (vh_planet V) -> 0 < dt -> lg_bank l = Some d -> plain_leg two E V tol dt l -> leg_lens l.
Proof.
  intros two E name V tol dt d l HE HX HP Hdt Bl Pl. destruct (Pl d Bl) as (o & H & Hf & _).
  destruct (exact_flight_all two E name V (lg_init l) tol (lg_secs l) dt d o _ HE HX HP Hdt H Hf) as (z & Tz & ts & Z0 & Sz & G & Et & Lh & Lv & Lth & Lph & Lps & Lg & Ld & Sh).
  unfold leg_lens. cbv zeta. assert (Lt : length (p_t (f_plot (lg_flight l))) = length ts) by (rewrite Et; apply map_length). rewrite Lt. split; [|tauto].
  assert (H' : propogateEntry E (mkObj V (lg_init l) tol None None) (lg_secs l) dt d = (o, Ok tt) \/ propogateEntry2 E (mkObj V (lg_init l) tol None None) (lg_secs l) dt d = (o, Ok tt)) by (destruct two; auto).
  destruct (C43_flight_aligned E name (mkObj V (lg_init l) tol None None) (lg_secs l) dt d o HE HP H') as (_ & _ & _ & f' & h & F1 & _ & FA & _). assert (f' = lg_flight l) by congruence. subst f'.
  destruct FA as (F0 & _ & (La & _) & _). intros Z. rewrite Z in La. cbn in La. lia.
Qed.
Lemma joined_len : forall (c : flight -> list R) L t0, Forall (fun m => length (c (lg_flight m)) = length (p_t (f_plot (lg_flight m)))) L -> length (joined_up c L) = length (clocked t0 L).
Proof.
  intros c L. induction L as [|l L IH]; intros t0 F; cbn [clocked joined_up flat_map]; auto. inversion F as [|? ? Fl F']; subst.
  rewrite !app_length, map_length. rewrite Fl. f_equal. apply IH; auto.
Qed.
Lemma joined_last : forall (c : flight -> list R) L l d, c (lg_flight l) <> [] -> last (joined_up c (L ++ [l])) d = last (c (lg_flight l)) 0.
Proof.
  intros c L l d H. unfold joined_up. rewrite flat_map_app. cbn [flat_map]. rewrite app_nil_r, last_app_dflt. apply last_dflt. auto.
Qed.
Lemma legs_read_off : forall L l i, Forall leg_lens (L ++ [l]) -> read_off (legs_plot 0 (L ++ [l])) (length (clocked 0 (L ++ [l])) - 1) i ->
  forall m, continues l m -> h0_km (lg_init m) = h0_km i /\ theta0_deg (lg_init m) = theta0_deg i /\ phi0_deg (lg_init m) = phi0_deg i /\ v0_kms (lg_init m) = v0_kms i /\
    psi0_deg (lg_init m) = psi0_deg i /\ gamma0_deg (lg_init m) = gamma0_deg i /\ drange0_km (lg_init m) = drange0_km i.
Proof.
  intros L l i F (R1 & R2 & R3 & R4 & R5 & R6 & R7) m (K1 & K2 & K3 & K4 & K5 & K6 & K7).
  cbn [legs_plot p_h p_v p_theta p_phi p_psi p_gamma p_drange] in *.
  assert (Fl : leg_lens l) by (apply Forall_app in F; destruct F as (_ & F); inversion F; auto).
  assert (Q : forall c : flight -> list R, (forall x, leg_lens x -> length (c (lg_flight x)) = length (p_t (f_plot (lg_flight x)))) ->
    nth (length (clocked 0 (L ++ [l])) - 1) (joined_up c (L ++ [l])) 0 = last (c (lg_flight l)) 0).
  { intros c Hc. rewrite <- (joined_len c (L ++ [l]) 0) by (eapply Forall_impl; [|exact F]; auto). rewrite <- last_is_nth. apply joined_last.
    intros Z. specialize (Hc l Fl). rewrite Z in Hc. destruct Fl as (N & _). destruct (p_t _); [congruence|discriminate Hc]. }
  rewrite Q in R1 by (intros x Hx; apply Hx). rewrite Q in R2 by (intros x Hx; apply Hx). rewrite Q in R3 by (intros x Hx; apply Hx). rewrite Q in R4 by (intros x Hx; apply Hx).
  rewrite Q in R5 by (intros x Hx; apply Hx). rewrite Q in R6 by (intros x Hx; apply Hx). rewrite Q in R7 by (intros x Hx; apply Hx). repeat split; congruence.
Qed.
Lemma drag_lens : forall two E X b1 ratio P name timeStepEntry timeStepExit dt maxTime n V i tol hdotref o' s s' rep,
  engine_ok E -> exact E -> Planet name = Ok (vh_planet V) -> 0 < dt ->
  propogateGuidedEntryD two E X (Some (b1, ratio)) P timeStepEntry timeStepExit dt maxTime n (mkObj V i tol None None) hdotref = Some (o', Ok (s, s', rep)) ->
  let even q := length (p_h q) = length (p_t q) /\ length (p_v q) = length (p_t q) /\ length (p_theta q) = length (p_t q) /\ length (p_phi q) = length (p_t q) /\
    length (p_psi q) = length (p_t q) /\ length (p_gamma q) = length (p_t q) /\ length (p_drange q) = length (p_t q) in
  even (y_plot (s_hist s)) /\ even (y_plot (s_hist s')).
Proof.
  intros two E X b1 ratio P name tE tX dt maxTime n V i tol hdotref o' s s' rep HE HX HP Hdt H even.
  destruct (C103_drag_flight two E X b1 ratio P name tE tX dt maxTime n (mkObj V i tol None None) hdotref o' s s' rep HE HP H) as (l & Gl & l' & Ex & A'). cbv zeta in A'.
  destruct A' as (I0 & _ & Z & _ & _ & PL & PX & CH & _ & M & M' & _). cbn [ob_veh ob_tol ob_init] in *.
  apply made_plot in M. apply made_plot in M'. set (L := l :: Gl) in *. change (l :: Gl ++ Ex) with (L ++ Ex) in *. apply Forall_app in Z. destruct Z as (Z1 & Z2).
  assert (F1 : Forall leg_lens L). { apply Forall_forall. intros a Ha. eapply (plain_lens two E name _ tol dt 0 a HE HX); [| |apply (proj1 (Forall_forall _ _) Z1 a Ha)|apply (proj1 (Forall_forall _ _) PL a Ha)]; auto. }
  assert (F2 : Forall leg_lens Ex). { apply Forall_forall. intros a Ha. eapply (plain_lens two E name _ tol dt 0 a HE HX); [| |apply (proj1 (Forall_forall _ _) Z2 a Ha)|apply (proj1 (Forall_forall _ _) PX a Ha)]; auto. }
  assert (G : forall K, Forall leg_lens K -> even (legs_plot 0 K)).
  { intros K FK. unfold even. cbn [legs_plot p_t p_h p_v p_theta p_phi p_psi p_gamma p_drange]. repeat split; apply joined_len; (eapply Forall_impl; [|exact FK]); intros x Hx; apply Hx. }
  rewrite M, M'. split; apply G; auto. apply Forall_app. auto.
Qed.
(** Drag modulation: the entry phase, however often it is cut, is one flight of the vehicle with its skirt; what follows is one
    flight without it, from where the entry phase ended. *)
Theorem C106_drag_entry : forall two E X b1 ratio P name timeStepEntry timeStepExit dt maxTime n V i tol hdotref o' s s' rep y T,
  engine_ok E -> exact E -> Planet name = Ok (vh_planet V) -> 0 < dt -> vh_user V = false -> lipschitz_air (vh_planet V) (vh_atm V) ->
  propogateGuidedEntryD two E X (Some (b1, ratio)) P timeStepEntry timeStepExit dt maxTime n (mkObj V i tol None None) hdotref = Some (o', Ok (s, s', rep)) ->
  let W b := mkVehicle (vh_mass V) b (vh_LD V) (vh_A V) (vh_alpha V) (vh_RN V) (vh_planet V) (vh_atm V) (vh_user V) (vh_CDMach V)
               (vh_Abar V) (vh_mbar V) (vh_mass V / (b * vh_A V)) (vh_CL V) in
  let p := vh_planet V in let q := y_plot (s_hist s) in let q' := y_plot (s_hist s') in let m := length (p_t q) in
  (way (W b1) i 0 T y -> forall k, (k < m)%nat -> time_of p q k <= T -> shows p q k (y (time_of p q k))) /\
  (forall i', read_off q (m - 1) i' -> way (W (b1 * ratio)) i' 0 T y ->
   forall k, (m <= k < length (p_t q'))%nat -> time_of p q' k - time_of p q (m - 1) <= T -> shows p q' k (y (time_of p q' k - time_of p q (m - 1)))).
Proof.
  intros two E X b1 ratio P name tE tX dt maxTime n V i tol hdotref o' s s' rep y T HE HX HP Hdt Hu HL H W p q q' m.
  destruct (C103_drag_flight two E X b1 ratio P name tE tX dt maxTime n (mkObj V i tol None None) hdotref o' s s' rep HE HP H) as (l & Gl & l' & Ex & A'). cbv zeta in A'.
  destruct A' as (I0 & _ & Z & _ & _ & PL & PX & CH & _ & M & M' & _). cbn [ob_veh ob_tol ob_init] in *.
  apply made_plot in M. apply made_plot in M'. fold q in M. fold q' in M'. set (L := l :: Gl) in *. change (l :: Gl ++ Ex) with (L ++ Ex) in *.
  destruct (ref_facts _ _ HP) as (Hv & _ & Ht & _ & HRP & _). fold p in Hv, Ht, HRP. apply Forall_app in Z. destruct Z as (Z1 & Z2).
  assert (C1 : chained L). { intros k a b Ha Hb. apply (CH k a b); rewrite nth_error_app1; auto; apply nth_error_Some; congruence. }
  assert (C2 : chained Ex). { intros k a b Ha Hb. apply (CH (length L + k)%nat a b); rewrite nth_error_app2 by lia; [replace (length L + k - length L)%nat with k by lia|replace (Datatypes.S (length L + k) - length L)%nat with (Datatypes.S k) by lia]; auto. }
  split.
  - intros Wy k Hk HT. destruct (chain_way two E name (W b1) tol dt 0 y T HE HX HP Hdt Hu HL L 0 i Wy ltac:(lra)) as (_ & S); auto.
    { intros a L' E1 _. injection E1 as <- <-. destruct Wy as (Y0 & _). rewrite I0. replace (0 * 60 / tau (vh_planet (W b1))) with 0 by (unfold Rdiv; ring). symmetry. exact Y0. }
    unfold m in Hk. rewrite M in Hk, HT |- *. apply (S k); auto.
  - intros i' Ro Wy k Hk HT.
    assert (F1 : Forall leg_lens L) by (apply Forall_forall; intros a Ha; apply (plain_lens two E name (W b1) tol dt 0 a HE HX HP Hdt); [apply (proj1 (Forall_forall _ _) Z1 a Ha)|apply (proj1 (Forall_forall _ _) PL a Ha)]).
    assert (Em : m = length (clocked 0 L)) by (unfold m; rewrite M; reflexivity).
    assert (Et : p_t q' = p_t q ++ map (fun t => last (clocked 0 L) 0 + t) (clocked 0 Ex)) by (rewrite M, M'; cbn [legs_plot p_t]; rewrite clocked_app, (clocked_shift Ex); reflexivity).
    destruct (exists_last (l := L) ltac:(discriminate)) as (L0 & lz & EL).
    destruct (chain_way two E name (W (b1 * ratio)) tol dt 0 y T HE HX HP Hdt Hu HL Ex 0 i' Wy ltac:(lra)) as (_ & S); auto.
    { intros a L' E1 _. destruct Wy as (Y0 & _). replace (0 * 60 / tau (vh_planet (W (b1 * ratio)))) with 0 by (unfold Rdiv; ring). rewrite Y0.
      assert (K : continues lz a). { apply (CH (length L0) lz a); rewrite EL, E1, <- app_assoc; [rewrite nth_error_app2, Nat.sub_diag by lia; reflexivity|rewrite nth_error_app2 by lia; replace (Datatypes.S (length L0) - length L0)%nat with 1%nat by lia; reflexivity]. }
      rewrite M, Em, EL in Ro. rewrite EL in F1. destruct (legs_read_off L0 lz i' F1 Ro a K) as (U1 & U2 & U3 & U4 & U5 & U6 & U7).
      unfold entry_state. rewrite U1, U2, U3, U4, U5, U6, U7. reflexivity. }
    set (j := (k - m)%nat). assert (Hj : (j < length (clocked 0 Ex))%nat). { rewrite Et, app_length, map_length in Hk. fold m in Hk. unfold j. lia. }
    assert (Hm : (0 < m)%nat). { rewrite Em, EL, clocked_app, app_length. cbn [clocked]. rewrite EL in F1. apply Forall_app in F1. destruct F1 as (_ & F1). inversion F1 as [|? ? (N & _) _]; subst.
      rewrite app_nil_r, map_length. destruct (p_t (f_plot (lg_flight lz))); [congruence|cbn; lia]. }
    assert (Etm : time_of p q' k - time_of p q (m - 1) = time_of p (legs_plot 0 Ex) j).
    { unfold time_of. rewrite Et, app_nth2 by (fold m; lia). fold m. fold j. rewrite nth_shift by auto. rewrite last_is_nth, <- Em. rewrite M. cbn [legs_plot p_t]. field. lra. }
    rewrite Etm in *. specialize (S j Hj HT). change (vh_planet (W (b1 * ratio))) with p in S.
    assert (JL : forall c : flight -> list R, (forall x, leg_lens x -> length (c (lg_flight x)) = length (p_t (f_plot (lg_flight x)))) -> nth k (joined_up c (L ++ Ex)) 0 = nth j (joined_up c Ex) 0).
    { intros c Hc. unfold joined_up. rewrite flat_map_app. fold (joined_up c L). fold (joined_up c Ex). assert (LL : length (joined_up c L) = m) by (rewrite Em; apply joined_len; eapply Forall_impl; [|exact F1]; auto).
      rewrite app_nth2 by lia. rewrite LL. reflexivity. }
    rewrite M'. unfold shows in *. cbn [legs_plot p_h p_v p_theta p_phi p_psi p_gamma p_drange] in *.
    repeat (rewrite JL by (intros x Hx; apply Hx)). exact S.
Qed.
(** Any atmosphere looked up in a table that covers the heights from 0 to the top qualifies. *)
Theorem C106_tables : forall p atm t lo hi, NoDup (map fst t) -> TableSpec.inside t 0 -> TableSpec.inside t (h_thres p) ->
  (forall h, interp1d t lo hi h = Ok (density_int atm h)) -> lipschitz_air p atm.
Proof.
  intros p atm t lo hi ND (a & _ & Ia & _ & Ha & _) (_ & b & _ & Ib & _ & Hb) HI.
  set (slope := fun w : (R * R) * (R * R) => Rabs (snd (snd w) - snd (fst w)) / (fst (snd w) - fst (fst w))).
  assert (B : forall l : list ((R * R) * (R * R)), exists K, forall w, In w l -> slope w <= K).
  { induction l as [|w l (K & HK)]; [exists 0; intros ? []|]. exists (Rmax (slope w) K). intros v [<-|Hv]; [apply Rmax_l|eapply Rle_trans; [apply HK; auto|apply Rmax_r]]. }
  destruct (B (list_prod t t)) as (K & HK). exists K.
  assert (In0 : forall h, 0 <= h <= h_thres p -> TableSpec.inside t h) by (intros h Hh; exists a, b; repeat split; auto; lra).
  assert (HA : forall q r, TableSpec.adjacent t q r -> Rabs (snd r - snd q) <= K * (fst r - fst q)).
  { intros q r (Iq & Ir & L & _). specialize (HK (q, r) (proj2 (in_prod_iff _ _ _ _) (conj Iq Ir))). unfold slope in HK. cbn [fst snd] in HK.
    apply (Rmult_le_compat_r (fst r - fst q)) in HK; [|lra]. unfold Rdiv in HK. rewrite Rmult_assoc, Rinv_l, Rmult_1_r in HK by lra. exact HK. }
  intros h h' Hh Hh'. rewrite (Rabs_minus_sym (density_int atm h)), (Rabs_minus_sym h). apply (PropPlanet.C03_lipschitz t lo hi K h h'); auto.
Qed.
