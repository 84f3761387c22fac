(** C130: the capture predicates and the corridor searches against the true flights. *)
From Coq Require Import String List Reals Lra Lia Classical.
Require Import Verif.Base Verif.Numpy Verif.NumpyProofs Verif.PlanetModel Verif.PlanetProofs Verif.AeroModel Verif.HeatModel Verif.PropHeat Verif.TrajectoryModel Verif.TrajectorySpec Verif.TrajectoryProofs Verif.PropTrajectory Verif.FlightProofs Verif.PropFlight
  Verif.ExactSpec Verif.ExactProofs Verif.PropExact Verif.DetSpec Verif.DetProofs Verif.PropDet Verif.NearSpec Verif.NearProofs Verif.ExistSpec Verif.ExistProofs Verif.PropExist Verif.ExitSpec Verif.ExitProofs Verif.EnterProofs Verif.PropExit Verif.PropTrap Verif.PropExitRun
  Verif.FrameModel Verif.FrameProofs Verif.ConicSpec Verif.ConicProofs Verif.OrbitScalarModel Verif.OrbiterModel Verif.OrbiterProofs Verif.OrbitModel Verif.OrbitSpec Verif.OrbitProofs Verif.PropOrbit
  Verif.CorridorModel Verif.CorridorSpec Verif.CorridorProofs Verif.PropCorridor Verif.PropExitOrbit Verif.VerdictSpec Verif.VerdictProofs.
Import ListNotations.
Local Open Scope R_scope.

(** The apoapsis of a bound state. *)
Lemma apoapsis_of : forall p r v, 0 < GM p -> 0 < norm r -> energy (GM p) r v < 0 ->
  0 <= 1 + 2 * energy (GM p) r v * norm2 (ang_mom r v) / (GM p * GM p) /\
  is_apoapsis (GM p) (energy (GM p) r v) (norm (ang_mom r v)) (- GM p / (2 * energy (GM p) r v) * (1 + sqrt (1 + 2 * energy (GM p) r v * norm2 (ang_mom r v) / (GM p * GM p)))).
Proof.
  intros p r v HG Hr HE. set (En := energy (GM p) r v) in *. set (h := norm (ang_mom r v)). assert (Hh : norm2 (ang_mom r v) = h * h) by (unfold h; rewrite norm_sq; reflexivity). rewrite Hh.
  assert (Q : 0 <= 1 + 2 * En * (h * h) / (GM p * GM p)).
  { unfold En, energy. rewrite <- (norm_sq v). apply ecc_radicand; auto. rewrite <- Hh, !norm_sq. unfold ang_mom. rewrite cross_norm2. pose proof (Rle_0_sqr (dot r v)) as Q0. unfold Rsqr in Q0. lra. }
  split; auto. apply apoapsis_formula; auto; [apply sqrt_pos|rewrite sqrt_sqrt by auto; reflexivity].
Qed.
Lemma judged_near : forall two p x, 0 < RP p -> s_r x <> 0 ->
  loclip (fun a => norm2 (judged two p a)) x /\ loclip (fun a => norm2 (judged two p a) / 2 - GM p / (RP p * s_r a)) x /\ loclip (fun a => norm2 (ang_mom (position p a) (judged two p a))) x.
Proof.
  intros two p x HR Hx. assert (D : RP p * s_r x <> 0) by (apply Rmult_integral_contrapositive_currified; [lra|auto]).
  assert (L1 : loclip (fun a => norm2 (judged two p a)) x).
  { unfold judged, inertial_velocity, air_velocity, inertial_vel, rel_vel, sph_pos, up_dir, east_dir, north_dir. destruct two; vsimpl; llo. }
  split; auto. split; [|unfold judged, position, inertial_velocity, air_velocity, ang_mom, inertial_vel, rel_vel, sph_pos, up_dir, east_dir, north_dir; destruct two; vsimpl; llo].
  apply (ll_minus (fun a => norm2 (judged two p a) / 2) (fun a => GM p / (RP p * s_r a))); [apply (ll_mult (fun a => norm2 (judged two p a)) (fun _ => / 2)); [auto|apply ll_const]|].
  apply (ll_div (fun a => GM p) (fun a => RP p * s_r a)); [llo|llo|exact D].
Qed.
(** Both verdicts, once clear, hold for all states nearby. *)
Lemma verdict_open : forall name two p x target, Planet name = Ok p -> 0 < s_r x -> judged two p x <> vzero ->
  (overshoots p (position p x) (judged two p x) target -> exists e, 0 < e /\ forall a, dist x a < e -> 0 < s_r a /\ judged two p a <> vzero /\ overshoots p (position p a) (judged two p a) target) /\
  (undershoots p (position p x) (judged two p x) target -> exists e, 0 < e /\ forall a, dist x a < e -> 0 < s_r a /\ judged two p a <> vzero /\ undershoots p (position p a) (judged two p a) target).
Proof.
  intros name two p x target HP Hr Hv. destruct (Planet_facts _ _ HP) as (HRP & HGM & _).
  destruct (judged_near two p x HRP ltac:(lra)) as (LV & LE & LH). set (En := fun a => norm2 (judged two p a) / 2 - GM p / (RP p * s_r a)) in *. set (H2 := fun a => norm2 (ang_mom (position p a) (judged two p a))) in *.
  assert (NP : forall a, 0 < s_r a -> norm (position p a) = RP p * s_r a) by (intros a Ha; apply sph_norm; nra).
  assert (EN : forall a, 0 < s_r a -> energy (GM p) (position p a) (judged two p a) = En a) by (intros a Ha; unfold energy; rewrite NP by auto; reflexivity).
  assert (V0 : 0 < norm2 (judged two p x)) by (rewrite <- norm_sq; pose proof (norm_pos _ Hv); nra).
  destruct (ll_near _ _ LV _ V0) as (e1 & He1 & B1).
  assert (Start : exists e, 0 < e /\ forall a, dist x a < e -> 0 < s_r a /\ judged two p a <> vzero).
  { exists (Rmin e1 (s_r x)). split; [apply Rmin_glb_lt; auto|]. intros a Ha. pose proof (Rmin_l e1 (s_r x)). pose proof (Rmin_r e1 (s_r x)). pose proof (comp_dist x a 0) as C. cbn [comp] in C. assert (C' : Rabs (s_r x - s_r a) < s_r x) by lra. apply Rabs_def2 in C'. split; [lra|].
    intros Z. specialize (B1 a ltac:(lra)). cbv beta in B1. apply Rabs_def2 in B1. rewrite Z in B1. replace (norm2 vzero) with 0 in B1 by (vsimpl; ring). lra. }
  destruct Start as (e0 & He0 & B0).
  set (Gf := fun a => 1 + 2 * En a * H2 a / (GM p * GM p)). set (ra := fun a => - GM p / (2 * En a) * (1 + 1 * sqrt (Rmax 0 (Gf a)))).
  assert (AP : forall a, 0 < s_r a -> En a < 0 -> is_apoapsis (GM p) (En a) (norm (ang_mom (position p a) (judged two p a))) (ra a)).
  { intros a Ha Ea. destruct (apoapsis_of p (position p a) (judged two p a) HGM) as (G & A); [rewrite NP by auto; nra|rewrite EN by auto; auto|]. rewrite EN in G, A by auto. unfold ra. change (norm2 (ang_mom (position p a) (judged two p a))) with (H2 a) in G, A. change (1 + 2 * En a * H2 a / (GM p * GM p)) with (Gf a) in G, A. rewrite Rmax_right, Rmult_1_l by auto. exact A. }
  assert (RA : En x < 0 -> near_cont ra x).
  { intros Ex. destruct (apoapsis_of p (position p x) (judged two p x) HGM) as (G & _); [rewrite NP by auto; nra|rewrite EN by auto; auto|]. rewrite EN in G by auto. change (0 <= Gf x) in G.
    assert (LG : near_cont (fun a => sqrt (Rmax 0 (Gf a))) x).
    { apply (near_sqrt (fun a => Rmax 0 (Gf a))); [intros; apply Rmax_l|]. assert (N : near_cont Gf x) by (apply ll_near; unfold Gf; ll). intros eps Heps. destruct (N eps Heps) as (e & He & B). exists e. split; auto. intros a Ha. specialize (B a Ha).
      rewrite (Rmax_right 0 (Gf x)) by auto. apply Rabs_def2 in B. unfold Rmax. destruct (Rle_dec 0 (Gf a)); apply Rabs_def1; lra. }
    assert (LS : near_cont (fun a => - GM p / (2 * En a)) x) by (apply ll_near; apply (ll_div (fun a => - GM p) (fun a => 2 * En a)); [apply ll_const|apply (ll_mult (fun a => 2) En); [apply ll_const|auto]|lra]).
    apply (near_mult (fun a => _) (fun a => _)); [exact LS|apply (near_lin (fun a => _)); exact LG]. }
  assert (Neg : En x < 0 -> exists e, 0 < e /\ forall a, dist x a < e -> En a < 0).
  { intros Ex. destruct (ll_near _ _ LE (- En x) ltac:(lra)) as (e & He & B). exists e. split; auto. intros a Ha. specialize (B a Ha). apply Rabs_def2 in B. lra. }
  unfold overshoots, undershoots. cbv zeta. split.
  - rewrite EN by auto. intros [Pos|(Ex & r & Ar & Hr')].
    + destruct (ll_near _ _ LE (En x) Pos) as (e & He & B). exists (Rmin e0 e). split; [apply Rmin_glb_lt; auto|]. intros a Ha. pose proof (Rmin_l e0 e). pose proof (Rmin_r e0 e). destruct (B0 a ltac:(lra)) as (Ra & Va). split; auto. split; auto. left. rewrite EN by auto. specialize (B a ltac:(lra)). apply Rabs_def2 in B. lra.
    + rewrite (apoapsis_unique _ _ _ _ _ Ar (AP x Hr Ex)) in Hr'. destruct (Neg Ex) as (e2 & He2 & B2). destruct (RA Ex (ra x - RP p - 1000 * target) ltac:(lra)) as (e3 & He3 & B3).
      exists (Rmin e0 (Rmin e2 e3)). split; [repeat apply Rmin_glb_lt; auto|]. intros a Ha. pose proof (Rmin_l e0 (Rmin e2 e3)). pose proof (Rmin_r e0 (Rmin e2 e3)). pose proof (Rmin_l e2 e3). pose proof (Rmin_r e2 e3).
      destruct (B0 a ltac:(lra)) as (Ra & Va). split; auto. split; auto. right. rewrite EN by auto. specialize (B2 a ltac:(lra)). split; auto. exists (ra a). split; [apply AP; auto|]. specialize (B3 a ltac:(lra)). apply Rabs_def2 in B3. lra.
  - rewrite EN by auto. intros (Ex & r & Ar & Hr').
    rewrite (apoapsis_unique _ _ _ _ _ Ar (AP x Hr Ex)) in Hr'. destruct (Neg Ex) as (e2 & He2 & B2). destruct (RA Ex (1000 * target - (ra x - RP p)) ltac:(lra)) as (e3 & He3 & B3).
    exists (Rmin e0 (Rmin e2 e3)). split; [repeat apply Rmin_glb_lt; auto|]. intros a Ha. pose proof (Rmin_l e0 (Rmin e2 e3)). pose proof (Rmin_r e0 (Rmin e2 e3)). pose proof (Rmin_l e2 e3). pose proof (Rmin_r e2 e3).
    destruct (B0 a ltac:(lra)) as (Ra & Va). split; auto. split; auto. rewrite EN by auto. specialize (B2 a ltac:(lra)). split; auto. exists (ra a). split; [apply AP; auto|]. specialize (B3 a ltac:(lra)). apply Rabs_def2 in B3. lra.
Qed.

(** What the predicates say of a state, by the state itself. *)
Lemma exit_pos : forall p a, sph_pos (x_r (exit_of p a)) (x_theta (exit_of p a)) (x_phi (exit_of p a)) = position p a.
Proof. intros. unfold exit_of, position. cbn [x_r x_theta x_phi]. rewrite (Rmult_comm (s_r a)). reflexivity. Qed.
Lemma exit_air : forall p a, rel_vel (x_v (exit_of p a)) (x_g (exit_of p a)) (x_psi (exit_of p a)) (x_theta (exit_of p a)) (x_phi (exit_of p a)) = judged false p a.
Proof. intros. unfold exit_of, judged, air_velocity. cbn [x_v x_g x_psi x_theta x_phi]. rewrite (Rmult_comm (s_v a)). reflexivity. Qed.
Lemma exit_inertial : forall p a, true_vel p (exit_of p a) = judged true p a.
Proof. intros. unfold true_vel, exit_of, judged, inertial_velocity. cbn [x_r x_v x_g x_psi x_theta x_phi]. rewrite (Rmult_comm (s_v a)), (Rmult_comm (s_r a)). reflexivity. Qed.

Lemma hits_state : forall (two : bool) E name V i tol secs dt d target o' ans, engine_ok E -> Planet name = Ok (vh_planet V) ->
  (if two then hitsTargetApoapsis2 else hitsTargetApoapsis) E (mkObj V i tol None None) secs dt d target = (o', Ok ans) -> let p := vh_planet V in
  exists f hl, (if two then propogateEntry2 else propogateEntry) E (mkObj V i tol None None) secs dt d = (o', Ok tt) /\ ob_flight o' = Some f /\ h_low p = Some hl /\
    (ans = -1 \/ ans = 1) /\ forall a, terminal f = exit_of p a -> judged two p a <> vzero ->
      (ans = -1 <-> hl <= height p a /\ (0 <= energy (GM p) (position p a) (judged two p a) \/
         exists ra, is_apoapsis (GM p) (energy (GM p) (position p a) (judged two p a)) (norm (ang_mom (position p a) (judged two p a))) ra /\ target <= (ra - RP p) / 1000)).
Proof.
  intros two E name V i tol secs dt d target o' ans HE HP H p.
  assert (G : exists x hl, last_state o' x /\ h_low p = Some hl /\ (ans = -1 \/ ans = 1) /\ forall a, x = exit_of p a -> judged two p a <> vzero ->
      (ans = -1 <-> hl <= height p a /\ (0 <= energy (GM p) (position p a) (judged two p a) \/
         exists ra, is_apoapsis (GM p) (energy (GM p) (position p a) (judged two p a)) (norm (ang_mom (position p a) (judged two p a))) ra /\ target <= (ra - RP p) / 1000))).
  { assert (Hh : forall a, x_r (exit_of p a) - RP p = height p a) by (intros a; unfold exit_of, height; cbn [x_r]; ring).
    destruct two.
    - destruct (C51_hits_target2 E name (mkObj V i tol None None) _ _ _ _ _ _ HE HP H) as (x & hl & L & _ & Hl & Pm & Q). cbn [ob_veh] in Hl, Q. fold p in Hl, Q. exists x, hl. do 3 (split; auto). intros a -> Hv. rewrite <- exit_inertial in Hv. specialize (Q Hv). unfold true_energy, true_momentum in Q. rewrite Hh, exit_pos, exit_inertial in Q. exact Q.
    - destruct (C51_hits_target E name (mkObj V i tol None None) _ _ _ _ _ _ HE HP H) as (x & hl & L & _ & Hl & Pm & Q). cbn [ob_veh] in Hl, Q. fold p in Hl, Q. exists x, hl. do 3 (split; auto). intros a -> Hv. unfold rel_energy, rel_momentum in Q. rewrite Hh, exit_pos, exit_air in Q. exact Q. }
  destruct G as (x & hl & (f & Hf & _ & Ex) & Hl & Pm & Q). exists f, hl. split; [|do 3 (split; auto); intros a Ea; apply Q; rewrite <- Ea; exact Ex].
  destruct two; [unfold hitsTargetApoapsis2 in H; destruct (propogateEntry2 _ _ _ _ _) as [o1 [[]|e]]|unfold hitsTargetApoapsis in H; destruct (propogateEntry _ _ _ _ _) as [o1 [[]|e]]]; unfold ask_flight in H; try discriminate; destruct (ob_flight o1); try discriminate; injection H as <- _; reflexivity.
Qed.
Lemma low_between : forall name p hl, Planet name = Ok p -> h_low p = Some hl -> h_trap p <= hl < h_thres p /\ (name <> "URANUS"%string -> h_trap p < hl) /\ (name = "URANUS"%string -> hl = h_trap p).
Proof.
  intros name p hl HP Hl. unfold Planet in HP.
  repeat match type of HP with (if ?b then _ else _) = _ => destruct b as [->|] end; try discriminate; injection HP as <-; cbn in Hl |- *; try discriminate; injection Hl as <-; (split; [lra|]; split; intros K; try discriminate K; try congruence; lra).
Qed.
(** The last stored point of a flight is near the point where the true flight leaves or is lost. *)
Lemma last_near : forall name V i d, Planet name = Ok (vh_planet V) -> vh_user V = false -> lipschitz_air (vh_planet V) (vh_atm V) -> forall e, 0 < e ->
  (forall T y, leaves V i d T y -> exists delta, 0 < delta /\ forall (two : bool) E tol secs dt o f, engine_ok E -> exact E -> 0 < dt < delta ->
    (if two then propogateEntry2 else propogateEntry) E (mkObj V i tol None None) secs dt d = (o, Ok tt) -> ob_flight o = Some f -> f_exitflag f = 1 ->
    exists a, dist (y T) a < e /\ terminal f = exit_of (vh_planet V) a) /\
  (forall T2 T y, passage V i d T2 y -> 0 <= T < T2 -> sinks V T y -> exists delta, 0 < delta /\ forall (two : bool) E tol secs dt o f, engine_ok E -> exact E -> 0 < dt < delta ->
    (if two then propogateEntry2 else propogateEntry) E (mkObj V i tol None None) secs dt d = (o, Ok tt) -> ob_flight o = Some f -> f_exitflag f = -1 ->
    exists a, dist (y T) a < e /\ terminal f = exit_of (vh_planet V) a).
Proof.
  intros name V i d HP Hu HL e He. split.
  - intros T y LV. destruct (plot_state name _ (y T) e HP He) as (eps & Heps & PS). destruct (C129_exit name V i d T y HP Hu HL LV eps Heps) as (delta & Hd & G). exists delta. split; auto. intros two E tol secs dt o f HE HX Hdt H Hf Hfl.
    destruct (G two E tol secs dt o f HE HX Hdt H Hf Hfl) as (k & Lk & _ & Sh). destruct (PS _ _ Sh) as (a & Da & Ea). exists a. split; auto. rewrite Ea. exact (terminal_run two E name V i tol secs dt d o f k HE HP H Hf Lk).
  - intros T2 T y W HT SK. destruct (plot_state name _ (y T) e HP He) as (eps & Heps & PS). destruct (C129_trap name V i d T2 y T HP Hu HL W HT SK eps Heps) as (delta & Hd & G). exists delta. split; auto. intros two E tol secs dt o f HE HX Hdt H Hf Hfl.
    destruct (G two E tol secs dt o f HE HX Hdt H Hf Hfl) as (k & Lk & _ & Sh). destruct (PS _ _ Sh) as (a & Da & Ea). exists a. split; auto. rewrite Ea. exact (terminal_run two E name V i tol secs dt d o f k HE HP H Hf Lk).
Qed.
Lemma height_near : forall p x a, 0 < RP p -> Rabs (height p a - height p x) <= RP p * dist x a.
Proof.
  intros p x a HR. pose proof (comp_dist x a 0) as C. cbn [comp] in C. unfold height. replace (RP p * s_r a - RP p - (RP p * s_r x - RP p)) with (- (RP p * (s_r x - s_r a))) by ring. rewrite Rabs_Ropp, Rabs_mult, (Rabs_right (RP p)) by lra. apply Rmult_le_compat_l; lra.
Qed.

(** Once the flight is known to have left (flag 1) or to be lost (flag -1). *)
Lemma answer_flagged : forall name V i d target, Planet name = Ok (vh_planet V) -> vh_user V = false -> lipschitz_air (vh_planet V) (vh_atm V) -> let p := vh_planet V in
  (forall two T y, leaves V i d T y -> judged two p (y T) <> vzero ->
    (overshoots p (position p (y T)) (judged two p (y T)) target -> exists delta, 0 < delta /\ forall E tol secs dt o f ans, engine_ok E -> exact E -> 0 < dt < delta ->
      (if two then hitsTargetApoapsis2 else hitsTargetApoapsis) E (mkObj V i tol None None) secs dt d target = (o, Ok ans) -> ob_flight o = Some f -> f_exitflag f = 1 -> ans = -1) /\
    (undershoots p (position p (y T)) (judged two p (y T)) target -> exists delta, 0 < delta /\ forall E tol secs dt o f ans, engine_ok E -> exact E -> 0 < dt < delta ->
      (if two then hitsTargetApoapsis2 else hitsTargetApoapsis) E (mkObj V i tol None None) secs dt d target = (o, Ok ans) -> ob_flight o = Some f -> f_exitflag f = 1 -> ans = 1)) /\
  (forall two T2 T y, name <> "URANUS"%string -> passage V i d T2 y -> 0 <= T < T2 -> sinks V T y -> judged two p (y T) <> vzero -> exists delta, 0 < delta /\ forall E tol secs dt o f ans, engine_ok E -> exact E -> 0 < dt < delta ->
      (if two then hitsTargetApoapsis2 else hitsTargetApoapsis) E (mkObj V i tol None None) secs dt d target = (o, Ok ans) -> ob_flight o = Some f -> f_exitflag f = -1 -> ans = 1).
Proof.
  intros name V i d target HP Hu HL p. destruct (ref_facts _ _ HP) as (_ & _ & _ & _ & HR & _). fold p in HR. destruct (Planet_facts _ _ HP) as (_ & HGM & _ & _ & (Ht0 & Hts) & Hthr & _). fold p in Ht0, Hts, Hthr, HGM.
  split.
  - intros two T y LV Hv. pose proof LV as (_ & _ & _ & _ & Etop & _). fold p in Etop. assert (Hr : 0 < s_r (y T)) by (unfold height in Etop; nra).
    destruct (verdict_open name two p (y T) target HP Hr Hv) as (VO & VU). split.
    + intros OV. destruct (VO OV) as (e1 & He1 & B). clear VO VU. destruct (h_low p) as [hl|] eqn:Hl.
      2:{ exists 1. split; [lra|]. intros E tol secs dt o f ans HE HX Hdt H. destruct (hits_state two E name V i tol secs dt d target o ans HE HP H) as (f' & hl & _ & _ & Hl' & _). fold p in Hl'. congruence. }
      destruct (low_between name p hl HP Hl) as ((_ & Hlt) & _). set (e := Rmin e1 ((h_thres p - hl) / RP p)). assert (He : 0 < e) by (apply Rmin_glb_lt; auto; apply Rdiv_lt_0_compat; lra).
      pose proof (Rmin_l e1 ((h_thres p - hl) / RP p) : e <= _) as M1. pose proof (Rmin_r e1 ((h_thres p - hl) / RP p) : e <= _) as M2.
      destruct (proj1 (last_near name V i d HP Hu HL e He) T y LV) as (delta & Hd & G). exists delta. split; auto. intros E tol secs dt o f ans HE HX Hdt H Hf Hfl.
      destruct (hits_state two E name V i tol secs dt d target o ans HE HP H) as (f' & hl' & HPr & Hf' & Hl' & Pm & Q). fold p in Hl', Q. assert (f' = f) by congruence. subst f'. assert (hl' = hl) by congruence. subst hl'.
      destruct (G two E tol secs dt o f HE HX Hdt HPr Hf Hfl) as (a & Da & Ea). fold p in Ea. destruct (B a ltac:(lra)) as (Ra & Va & OVa). apply (Q a Ea Va). split.
      * pose proof (height_near p (y T) a HR) as HN. assert (EK : (h_thres p - hl) / RP p * RP p = h_thres p - hl) by (field; lra). assert (RP p * dist (y T) a < h_thres p - hl) by nra. assert (HN' : Rabs (height p a - height p (y T)) < h_thres p - hl) by lra. apply Rabs_def2 in HN'. lra.
      * destruct OVa as [K|(K & ra & K1 & K2)]; [left; lra|right; exists ra; split; auto; lra].
    + intros UN. destruct (VU UN) as (e & He & B). clear VO VU. destruct (proj1 (last_near name V i d HP Hu HL e He) T y LV) as (delta & Hd & G). exists delta. split; auto. intros E tol secs dt o f ans HE HX Hdt H Hf Hfl.
      destruct (hits_state two E name V i tol secs dt d target o ans HE HP H) as (f' & hl' & HPr & Hf' & Hl' & Pm & Q). fold p in Hl', Q. assert (f' = f) by congruence. subst f'.
      destruct (G two E tol secs dt o f HE HX Hdt HPr Hf Hfl) as (a & Da & Ea). fold p in Ea. destruct (B a Da) as (Ra & Va & (K & ra & K1 & K2)). destruct Pm as [Pm|]; auto. exfalso. apply (Q a Ea Va) in Pm. destruct Pm as (_ & [Z|(ra' & Z1 & Z2)]); [lra|]. rewrite (apoapsis_unique _ _ _ _ _ Z1 K1) in Z2. lra.
  - intros two T2 T y HN W HT SK Hv. pose proof SK as (_ & ET & _). fold p in ET. assert (Hr : 0 < s_r (y T)) by (unfold height in ET; nra). destruct (judged_near two p (y T) HR ltac:(lra)) as (LV & _).
    assert (V0 : 0 < norm2 (judged two p (y T))) by (rewrite <- norm_sq; pose proof (norm_pos _ Hv); nra). destruct (ll_near _ _ LV _ V0) as (e1 & He1 & B1).
    destruct (h_low p) as [hl|] eqn:Hl.
    2:{ exists 1. split; [lra|]. intros E tol secs dt o f ans HE HX Hdt H. destruct (hits_state two E name V i tol secs dt d target o ans HE HP H) as (f' & hl & _ & _ & Hl' & _). fold p in Hl'. congruence. }
    destruct (low_between name p hl HP Hl) as (_ & LT & _). specialize (LT HN). set (e := Rmin e1 ((hl - h_trap p) / RP p)). assert (He : 0 < e) by (apply Rmin_glb_lt; auto; apply Rdiv_lt_0_compat; lra).
    pose proof (Rmin_l e1 ((hl - h_trap p) / RP p) : e <= _) as M1. pose proof (Rmin_r e1 ((hl - h_trap p) / RP p) : e <= _) as M2.
    destruct (proj2 (last_near name V i d HP Hu HL e He) T2 T y W HT SK) as (delta & Hd & G). exists delta. split; auto. intros E tol secs dt o f ans HE HX Hdt H Hf Hfl.
    destruct (hits_state two E name V i tol secs dt d target o ans HE HP H) as (f' & hl' & HPr & Hf' & Hl' & Pm & Q). fold p in Hl', Q. assert (f' = f) by congruence. subst f'. assert (hl' = hl) by congruence. subst hl'.
    destruct (G two E tol secs dt o f HE HX Hdt HPr Hf Hfl) as (a & Da & Ea). fold p in Ea.
    assert (Va : judged two p a <> vzero). { intros Z. specialize (B1 a ltac:(lra)). cbv beta in B1. apply Rabs_def2 in B1. rewrite Z in B1. replace (norm2 vzero) with 0 in B1 by (vsimpl; ring). lra. }
    destruct Pm as [Pm|]; auto. exfalso. apply (Q a Ea Va) in Pm. destruct Pm as (Z & _). pose proof (height_near p (y T) a HR) as HN'. assert (EK : (hl - h_trap p) / RP p * RP p = hl - h_trap p) by (field; lra). assert (RP p * dist (y T) a < hl - h_trap p) by nra. assert (HN2 : Rabs (height p a - height p (y T)) < hl - h_trap p) by lra. apply Rabs_def2 in HN2. lra.
Qed.

Lemma moving_air : forall p x, 0 < Vref p -> s_v x <> 0 -> judged false p x <> vzero.
Proof.
  intros p x HV Hx Z. pose proof (rel_speed (Vref p * s_v x) (s_gamma x) (s_psi x) (s_theta x) (s_phi x)) as Q. unfold judged, air_velocity in Z. rewrite Z in Q. replace (norm2 vzero) with 0 in Q by (vsimpl; ring).
  assert (Vref p * s_v x <> 0) by (apply Rmult_integral_contrapositive_currified; lra). nra.
Qed.
(** What was flown before does not matter. *)
Lemma hits_fresh : forall E V i tol fl ht secs dt d target o a, hitsTargetApoapsis E (mkObj V i tol fl ht) secs dt d target = (o, Ok a) ->
  exists o', hitsTargetApoapsis E (mkObj V i tol None None) secs dt d target = (o', Ok a).
Proof.
  intros E V i tol fl ht secs dt d target o a H. assert (Q : snd (hitsTargetApoapsis E (mkObj V i tol None None) secs dt d target) = Ok a).
  { rewrite <- (g_ext _ (good_hits E secs dt d target) (mkObj V i tol None None) (mkObj V i tol fl ht)) by (repeat split). rewrite H. reflexivity. }
  destruct (hitsTargetApoapsis E (mkObj V i tol None None) secs dt d target) as [o' r]. cbn [snd] in Q. subst r. exists o'. reflexivity.
Qed.

(** C130.  With an exact integrator and small enough steps, the first version of the predicate answers -1 for a flight
    that leaves the atmosphere too high, 1 for one that leaves too low or is lost. *)
Theorem C130_answer : forall name V i d target secs, Planet name = Ok (vh_planet V) -> vh_user V = false -> lipschitz_air (vh_planet V) (vh_atm V) ->
  (too_high false V i d target secs -> exists delta, 0 < delta /\ forall E tol fl ht dt o a, engine_ok E -> exact E -> 0 < dt < delta ->
    hitsTargetApoapsis E (mkObj V i tol fl ht) secs dt d target = (o, Ok a) -> a = -1) /\
  (too_low false V i d target secs \/ name <> "URANUS"%string /\ lost V i d secs -> exists delta, 0 < delta /\ forall E tol fl ht dt o a, engine_ok E -> exact E -> 0 < dt < delta ->
    hitsTargetApoapsis E (mkObj V i tol fl ht) secs dt d target = (o, Ok a) -> a = 1).
Proof.
  intros name V i d target secs HP Hu HL. destruct (ref_facts _ _ HP) as (HV & _ & Ht & _ & HR & _). destruct (answer_flagged name V i d target HP Hu HL) as (A1 & A2). set (p := vh_planet V) in *.
  split; [|intros [TL|(HN & T & T2 & y & W & HT & SK & S1 & S2)]].
  - intros (T & T2 & y & SO & (S1 & S2) & Hv & OV). fold p in S1, S2, Hv, OV. destruct (A1 false T y (proj1 SO) Hv) as (B & _). destruct (B OV) as (d1 & Hd1 & G).
    exists (Rmin d1 (tau p * T2 - secs)). split; [apply Rmin_glb_lt; lra|]. pose proof (Rmin_l d1 (tau p * T2 - secs)). pose proof (Rmin_r d1 (tau p * T2 - secs)). intros E tol fl ht dt o a HE HX Hdt Hh.
    destruct (hits_fresh _ _ _ _ _ _ _ _ _ _ _ _ Hh) as (o' & H'). destruct (hits_state false E name V i tol secs dt d target o' a HE HP H') as (f & hl & HPr & Hf & _).
    assert (HdT : secs + dt <= tau p * T2) by lra. pose proof (long_flag E name V i tol d T T2 y secs dt o' f HE HX HP Hu HL SO (proj1 Hdt) S1 HdT HPr Hf) as Fl. refine (G E tol secs dt o' f a HE HX _ H' Hf Fl). lra.
  - destruct TL as (T & T2 & y & SO & (S1 & S2) & Hv & OV). fold p in S1, S2, Hv, OV. destruct (A1 false T y (proj1 SO) Hv) as (_ & B). destruct (B OV) as (d1 & Hd1 & G).
    exists (Rmin d1 (tau p * T2 - secs)). split; [apply Rmin_glb_lt; lra|]. pose proof (Rmin_l d1 (tau p * T2 - secs)). pose proof (Rmin_r d1 (tau p * T2 - secs)). intros E tol fl ht dt o a HE HX Hdt Hh.
    destruct (hits_fresh _ _ _ _ _ _ _ _ _ _ _ _ Hh) as (o' & H'). destruct (hits_state false E name V i tol secs dt d target o' a HE HP H') as (f & hl & HPr & Hf & _).
    assert (HdT : secs + dt <= tau p * T2) by lra. pose proof (long_flag E name V i tol d T T2 y secs dt o' f HE HX HP Hu HL SO (proj1 Hdt) S1 HdT HPr Hf) as Fl. refine (G E tol secs dt o' f a HE HX _ H' Hf Fl). lra.
  - fold p in S1, S2. assert (Hv : judged false p (y T) <> vzero) by (apply moving_air; auto; destruct SK as (_ & _ & SK); intros Z; rewrite Z in SK; lra).
    destruct (A2 false T2 T y HN W HT SK Hv) as (d1 & Hd1 & G). destruct (long_trap name V i d T2 y T HP Hu HL W HT SK) as (d2 & Hd2 & FL).
    exists (Rmin (Rmin d1 d2) (tau p * T2 - secs)). split; [repeat apply Rmin_glb_lt; lra|]. pose proof (Rmin_l (Rmin d1 d2) (tau p * T2 - secs)). pose proof (Rmin_r (Rmin d1 d2) (tau p * T2 - secs)). pose proof (Rmin_l d1 d2). pose proof (Rmin_r d1 d2). intros E tol fl ht dt o a HE HX Hdt Hh.
    destruct (hits_fresh _ _ _ _ _ _ _ _ _ _ _ _ Hh) as (o' & H'). destruct (hits_state false E name V i tol secs dt d target o' a HE HP H') as (f & hl & HPr & Hf & _).
    assert (HdT : secs + dt <= tau p * T2) by lra. assert (Hdt2 : 0 < dt < d2) by lra. assert (Hdt1 : 0 < dt < d1) by lra. exact (G E tol secs dt o' f a HE HX Hdt1 H' Hf (FL E tol secs dt o' f HE HX Hdt2 S1 HdT HPr Hf)).
Qed.
(** The second version, judging by the inertial velocity, whenever the flight it stored is classified the way the true one ends. *)
Theorem C130_answer2 : forall name V i d target T y, Planet name = Ok (vh_planet V) -> vh_user V = false -> lipschitz_air (vh_planet V) (vh_atm V) -> let p := vh_planet V in inertial_velocity p (y T) <> vzero ->
  (leaves V i d T y -> overshoots p (position p (y T)) (inertial_velocity p (y T)) target ->
    exists delta, 0 < delta /\ forall E tol secs dt o f a, engine_ok E -> exact E -> 0 < dt < delta -> hitsTargetApoapsis2 E (mkObj V i tol None None) secs dt d target = (o, Ok a) -> ob_flight o = Some f -> f_exitflag f = 1 -> a = -1) /\
  (leaves V i d T y -> undershoots p (position p (y T)) (inertial_velocity p (y T)) target ->
    exists delta, 0 < delta /\ forall E tol secs dt o f a, engine_ok E -> exact E -> 0 < dt < delta -> hitsTargetApoapsis2 E (mkObj V i tol None None) secs dt d target = (o, Ok a) -> ob_flight o = Some f -> f_exitflag f = 1 -> a = 1) /\
  (forall T2, name <> "URANUS"%string -> passage V i d T2 y -> 0 <= T < T2 -> sinks V T y ->
    exists delta, 0 < delta /\ forall E tol secs dt o f a, engine_ok E -> exact E -> 0 < dt < delta -> hitsTargetApoapsis2 E (mkObj V i tol None None) secs dt d target = (o, Ok a) -> ob_flight o = Some f -> f_exitflag f = -1 -> a = 1).
Proof.
  intros name V i d target T y HP Hu HL p Hv. destruct (answer_flagged name V i d target HP Hu HL) as (A1 & A2). fold p in A1, A2.
  split; [intros LV; exact (proj1 (A1 true T y LV Hv))|]. split; [intros LV; exact (proj2 (A1 true T y LV Hv))|]. intros T2 HN W HT SK. exact (A2 true T2 T y HN W HT SK Hv).
Qed.

(** The exception.  URANUS has the same altitude for "lost" and for "too low to count", and the last point kept of a lost
    flight is never below the former: so there a lost flight is judged by the orbit it would be on without the planet. *)
Lemma terminal_trapped : forall solve name o t_sec dt delta_deg h0 o' f, solver_ok solve -> Planet name = Ok (vh_planet (ob_veh o)) ->
  store o (fly solve (ob_veh o) (ob_tol o) (ob_init o) t_sec dt delta_deg) h0 = (o', Ok tt) -> ob_flight o' = Some f -> f_exitflag f = -1 -> h_trap (vh_planet (ob_veh o)) <= x_r (terminal f) - RP (vh_planet (ob_veh o)).
Proof.
  intros solve name o t_sec dt delta_deg h0 o' f HS HP H Hf Hfl. destruct (terminal_above _ _ _ _ _ _ _ _ HS HP H) as (f' & Ef & H1 & _). rewrite Hf in Ef. injection Ef as <-.
  set (V := ob_veh o) in *. set (p := vh_planet V) in *. unfold fly, store in H. fold p in H.
  destruct (solve V (ob_tol o) (entry_state p (ob_init o)) t_sec dt (deg delta_deg)) as [c0|] eqn:Es; cbn [rbind] in H; [|discriminate H].
  destruct (post V (deg delta_deg) c0) as [f'|] eqn:Ep; [|discriminate]. destruct (ocumtrapz _ _ _) as [h|] eqn:Eh; [|discriminate].
  assert (f' = f) by (apply (f_equal fst) in H; cbn [fst] in H; rewrite <- H in Hf; cbn in Hf; congruence). subst f'.
  destruct (HS _ _ _ _ _ _ _ Es) as (n & Len & _). destruct (post_inv _ _ _ _ Ep) as (cls & qc & qr & Ec & Ei & Efl & Esi & _). cbv zeta in *. change (vh_planet V) with p in Ec, Esi.
  destruct cls as [j fl]. cbn [fst snd] in *. destruct (C42_retained _ _ _ _ _ HP Ec) as (Hidx & F1 & F2 & F3 & _).
  unfold terminal. cbn [x_r]. rewrite Ei, Esi. cbn [c_r]. rewrite nth_firstn by lia. rewrite Ei in H1. assert (F : fl = -1) by congruence. specialize (F2 F (j - 1)%nat ltac:(lia)). lra.
Qed.
Theorem C130_uranus : forall (two : bool) E o t_sec dt d target o' ans f, engine_ok E -> Planet "URANUS" = Ok (vh_planet (ob_veh o)) -> let p := vh_planet (ob_veh o) in
  (if two then hitsTargetApoapsis2 else hitsTargetApoapsis) E o t_sec dt d target = (o', Ok ans) -> ob_flight o' = Some f -> f_exitflag f = -1 ->
  exists x, last_state o' x /\ h_low p = Some (h_trap p) /\ h_trap p <= x_r x - RP p /\
    (two = false -> (ans = -1 <-> 0 <= rel_energy p x \/ exists ra, is_apoapsis (GM p) (rel_energy p x) (rel_momentum x) ra /\ target <= (ra - RP p) / 1000)) /\
    (two = true -> true_vel p x <> vzero -> (ans = -1 <-> 0 <= true_energy p x \/ exists ra, is_apoapsis (GM p) (true_energy p x) (true_momentum p x) ra /\ target <= (ra - RP p) / 1000)).
Proof.
  intros two E o t_sec dt d target o' ans f HE HP p H Hf Hfl.
  assert (HT : h_trap p <= x_r (terminal f) - RP p).
  { destruct two; [unfold hitsTargetApoapsis2 in H; destruct (propogateEntry2 E o t_sec dt d) as [o1 [[]|e]] eqn:Hp|unfold hitsTargetApoapsis in H; destruct (propogateEntry E o t_sec dt d) as [o1 [[]|e]] eqn:Hp]; try discriminate;
      (assert (o1 = o') by (unfold ask_flight in H; destruct (ob_flight o1); apply (f_equal fst) in H; exact H); subst o1; eapply (terminal_trapped _ "URANUS"); [|exact HP|exact Hp|exact Hf|exact Hfl]); [apply solver2_ok|apply solver1_ok]; auto. }
  destruct two.
  - destruct (C51_hits_target2 E _ o _ _ _ _ _ _ HE HP H) as (x & hl & L & _ & Hl & Pm & Q). fold p in Hl, Q. pose proof (proj2 (proj2 (low_between _ p hl HP Hl)) eq_refl) as El. exists x. split; auto. destruct L as (f' & Ef & _ & Ex). rewrite Hf in Ef. injection Ef as <-. assert (x = terminal f) by exact Ex. subst x.
    split; [congruence|]. split; auto. split; [discriminate|]. intros _ Hv. rewrite (Q Hv), El. tauto.
  - destruct (C51_hits_target E _ o _ _ _ _ _ _ HE HP H) as (x & hl & L & _ & Hl & Pm & Q). fold p in Hl, Q. pose proof (proj2 (proj2 (low_between _ p hl HP Hl)) eq_refl) as El. exists x. split; auto. destruct L as (f' & Ef & _ & Ex). rewrite Hf in Ef. injection Ef as <-. assert (x = terminal f) by exact Ex. subst x.
    split; [congruence|]. split; auto. split; [|discriminate]. intros _. rewrite Q, El. tauto.
Qed.
(** So a flight that plunges into URANUS fast enough is reported as one that flies away. *)
Theorem C130_uranus_lost : forall V i d target T2 T y secs, Planet "URANUS" = Ok (vh_planet V) -> vh_user V = false -> lipschitz_air (vh_planet V) (vh_atm V) -> let p := vh_planet V in
  passage V i d T2 y -> 0 <= T < T2 -> sinks V T y -> tau p * T < secs < tau p * T2 -> overshoots p (position p (y T)) (air_velocity p (y T)) target ->
  exists delta, 0 < delta /\ forall E tol fl ht dt o a, engine_ok E -> exact E -> 0 < dt < delta -> hitsTargetApoapsis E (mkObj V i tol fl ht) secs dt d target = (o, Ok a) -> a = -1.
Proof.
  intros V i d target T2 T y secs HP Hu HL p W HT SK (S1 & S2) OV. destruct (ref_facts _ _ HP) as (HV & _ & Ht & _ & HR & _). fold p in HV, Ht, HR. destruct (Planet_facts _ _ HP) as (_ & _ & _ & _ & (Ht0 & _) & _). fold p in Ht0.
  pose proof SK as (_ & ET & SN). fold p in ET. assert (Hr : 0 < s_r (y T)) by (unfold height in ET; nra). assert (Hv : judged false p (y T) <> vzero) by (apply moving_air; auto; intros Z; rewrite Z in SN; lra).
  destruct (proj1 (verdict_open _ false p (y T) target HP Hr Hv) OV) as (e & He & B). destruct (proj2 (last_near _ V i d HP Hu HL e He) T2 T y W HT SK) as (d1 & Hd1 & G). destruct (long_trap _ V i d T2 y T HP Hu HL W HT SK) as (d2 & Hd2 & FL). fold p in FL.
  exists (Rmin (Rmin d1 d2) (tau p * T2 - secs)). split; [repeat apply Rmin_glb_lt; lra|]. pose proof (Rmin_l (Rmin d1 d2) (tau p * T2 - secs)). pose proof (Rmin_r (Rmin d1 d2) (tau p * T2 - secs)). pose proof (Rmin_l d1 d2). pose proof (Rmin_r d1 d2). intros E tol fl ht dt o a HE HX Hdt Hh.
  destruct (hits_fresh _ _ _ _ _ _ _ _ _ _ _ _ Hh) as (o' & H'). destruct (hits_state false E _ V i tol secs dt d target o' a HE HP H') as (f & hl & HPr & Hf & Hl & _ & Q). fold p in Hl, Q.
  assert (HdT : secs + dt <= tau p * T2) by lra. assert (Hdt2 : 0 < dt < d2) by lra. assert (Hdt1 : 0 < dt < d1) by lra. pose proof (FL E tol secs dt o' f HE HX Hdt2 S1 HdT HPr Hf) as Fl.
  destruct (G false E tol secs dt o' f HE HX Hdt1 HPr Hf Fl) as (s & Ds & Es). fold p in Es. destruct (B s Ds) as (Rs & Vs & OVs). apply (Q s Es Vs). split.
  - rewrite (proj2 (proj2 (low_between _ p hl HP Hl)) eq_refl). pose proof (terminal_trapped _ _ (mkObj V i tol None None) _ _ _ _ _ f (solver1_ok E HE) HP HPr Hf Fl) as TT. cbn [ob_veh] in TT. fold p in TT. rewrite Es in TT. unfold exit_of in TT. cbn [x_r] in TT. unfold height. lra.
  - destruct OVs as [K|(K & ra & K1 & K2)]; [left; lra|right; exists ra; split; auto; lra].
Qed.

(** A bisection only asks about angles that divide its bracket. *)
Lemma division_fine : forall low high j n g, (j <= n)%nat -> division low high j g -> division low high n g.
Proof.
  intros low high j n g Hjn (k & Hk & ->). exists (k * 2 ^ (n - j))%nat. assert (E : (2 ^ n = 2 ^ j * 2 ^ (n - j))%nat) by (rewrite <- Nat.pow_add_r; f_equal; lia).
  split; [rewrite E; apply Nat.mul_le_mono_r; auto|]. rewrite mult_INR, pow_INR. replace (INR 2) with 2 by (cbn; lra). f_equal. replace (2 ^ n) with (2 ^ j * 2 ^ (n - j)) by (rewrite <- pow_add; f_equal; lia).
  assert (0 < 2 ^ j) by (apply pow_lt; lra). assert (0 < 2 ^ (n - j)) by (apply pow_lt; lra). field. lra.
Qed.
Definition points (low high : R) (n : nat) : list R := map (fun k => low + INR k * ((high - low) / 2 ^ n)) (seq 0 (S (2 ^ n))).
Lemma points_spec : forall low high n g, In g (points low high n) <-> division low high n g.
Proof.
  intros. unfold points. rewrite in_map_iff. split; [intros (k & <- & Hk); apply in_seq in Hk; exists k; split; [lia|reflexivity]|intros (k & Hk & ->); exists k; split; auto; apply in_seq; lia].
Qed.
Definition only (l : list R) (ask : vobj -> vobj * res R) (o : vobj) : vobj * res R :=
  if in_dec Req_EM_T (gamma0_deg (ob_init o)) l then ask o else (o, Err ValueError).
Lemma only_good : forall l ask, good ask -> good (only l ask).
Proof.
  intros l ask [G1 G2 G3]. split; unfold only.
  - intros o. destruct (in_dec _ _ _); [apply G1|apply same_refl].
  - intros o o' S. pose proof S as (_ & S2 & _). rewrite S2. destruct (in_dec _ _ _); [apply G2; auto|reflexivity].
  - intros o a. destruct (in_dec _ _ _); [apply G3|discriminate].
Qed.
Lemma only_ask : forall l ask o g, In g l -> only l ask (set_gamma0 o g) = ask (set_gamma0 o g).
Proof. intros. unfold only. cbn [set_gamma0 ob_init with_gamma0 gamma0_deg]. destruct (in_dec _ _ _); [reflexivity|contradiction]. Qed.
Lemma only_answer : forall l ask o g a, answer_at (only l ask) o g = Ok a -> In g l /\ answer_at ask o g = Ok a.
Proof. intros l ask o g a. unfold answer_at, only. cbn [set_gamma0 ob_init with_gamma0 gamma0_deg]. destruct (in_dec _ _ _); [auto|discriminate]. Qed.

Lemma bisect_only : forall ask low0 high0 n tol, Rabs (high0 - low0) / 2 ^ n <= tol -> forall fuel j k o lim, (j <= n)%nat -> (S k <= 2 ^ j)%nat ->
  let w := (high0 - low0) / 2 ^ j in let low := low0 + INR k * w in let high := low0 + INR (S k) * w in
  bisect (only (points low0 high0 n) ask) tol fuel o low high lim = bisect ask tol fuel o low high lim.
Proof.
  intros ask low0 high0 n tol Hn. induction fuel as [|fuel IH]; intros j k o lim Hj Hk w low high; [reflexivity|].
  cbn [bisect]. destruct (Rltb_spec tol (Rabs (high - low))) as [L|]; [|reflexivity].
  assert (Pj : 0 < 2 ^ j) by (apply pow_lt; lra). assert (Pn : 0 < 2 ^ n) by (apply pow_lt; lra).
  assert (EW : high - low = w) by (unfold high, low; rewrite S_INR; ring). assert (EA : Rabs w = Rabs (high0 - low0) / 2 ^ j) by (unfold w, Rdiv; rewrite Rabs_mult, Rabs_inv, (Rabs_right (2 ^ j)) by lra; reflexivity).
  assert (Hjn : (S j <= n)%nat). { destruct (Nat.eq_dec j n) as [->|]; [|lia]. exfalso. rewrite EW, EA in L. lra. }
  set (w2 := (high0 - low0) / 2 ^ S j). assert (E2 : w = 2 * w2) by (unfold w, w2; cbn [pow]; field; lra). set (mid := 0.5 * (low + high)).
  assert (M1 : low = low0 + INR (2 * k) * w2) by (unfold low; rewrite E2, mult_INR; cbn [INR]; lra).
  assert (M2 : mid = low0 + INR (S (2 * k)) * w2) by (unfold mid, low, high; rewrite E2, !S_INR, mult_INR; cbn [INR]; lra).
  assert (M3 : high = low0 + INR (S (S (2 * k))) * w2) by (unfold high; rewrite E2, !S_INR, mult_INR; cbn [INR]; lra).
  assert (P2 : (2 ^ S j = 2 * 2 ^ j)%nat) by reflexivity.
  assert (D : forall m, (m <= 2 ^ S j)%nat -> In (low0 + INR m * w2) (points low0 high0 n)) by (intros m Hm; apply points_spec, (division_fine _ _ (S j)); auto; exists m; auto).
  assert (D1 : In low (points low0 high0 n)) by (rewrite M1; apply D; lia). assert (D2 : In mid (points low0 high0 n)) by (rewrite M2; apply D; lia). assert (D3 : In high (points low0 high0 n)) by (rewrite M3; apply D; lia).
  rewrite only_ask by auto. destruct (ask (set_gamma0 o low)) as [o1 [a1|]]; cbn [call]; [|reflexivity].
  rewrite only_ask by auto. destruct (ask (set_gamma0 o1 mid)) as [o2 [a2|]]; cbn [call]; [|reflexivity].
  rewrite only_ask by auto. destruct (ask (set_gamma0 o2 high)) as [o3 [a3|]]; cbn [call]; [|reflexivity].
  destruct (Rltb (a1 * a2) 0).
  - rewrite M1, M2. apply (IH (S j)); lia.
  - destruct (Rltb (a2 * a3) 0); [rewrite M2, M3; apply (IH (S j)); lia|apply IH; auto].
Qed.
Lemma search_only : forall ask low high n tol fuel o, Rabs (high - low) / 2 ^ n <= tol -> search (only (points low high n) ask) tol fuel o low high = search ask tol fuel o low high.
Proof.
  intros ask low high n tol fuel o Hn. assert (Pn : 0 < 2 ^ n) by (apply pow_lt; lra). assert (Q : (1 <= 2 ^ n)%nat) by (pose proof (Nat.pow_nonzero 2 n); lia).
  assert (D1 : In low (points low high n)) by (apply points_spec; exists 0%nat; split; [lia|cbn [INR]; lra]).
  assert (D2 : In high (points low high n)). { apply points_spec. exists (2 ^ n)%nat. split; auto. rewrite pow_INR. replace (INR 2) with 2 by (cbn; lra). field. lra. }
  unfold search. rewrite only_ask by auto. destruct (ask (set_gamma0 o low)) as [o1 [a1|]]; cbn [call]; [|reflexivity]. rewrite only_ask by auto. destruct (ask (set_gamma0 o1 high)) as [o2 [a2|]]; cbn [call]; [|reflexivity].
  destruct (Rltb _ _); [|reflexivity]. pose proof (bisect_only ask low high n tol Hn fuel 0 0 o2 None ltac:(lia) ltac:(cbn; lia)) as B. cbv zeta in B. cbn [INR pow] in B. replace (low + 0 * ((high - low) / 1)) with low in B by lra. replace (low + 1 * ((high - low) / 1)) with high in B by lra. exact B.
Qed.
(** One step size serves finitely many questions. *)
Lemma common_step : forall (P : R -> R -> Prop) l, (forall g, In g l -> exists d, 0 < d /\ forall dt, 0 < dt < d -> P g dt) -> exists d, 0 < d /\ forall dt, 0 < dt < d -> forall g, In g l -> P g dt.
Proof.
  intros P. induction l as [|g l IH]; intros H; [exists 1; split; [lra|intros dt _ g []]|].
  destruct (H g (or_introl eq_refl)) as (d1 & H1 & P1). destruct IH as (d2 & H2 & P2); [intros; apply H; right; auto|]. exists (Rmin d1 d2). split; [apply Rmin_glb_lt; auto|]. pose proof (Rmin_l d1 d2). pose proof (Rmin_r d1 d2).
  intros dt Hdt g' [<-|Hin]; [apply P1; lra|apply P2; auto; lra].
Qed.

(** C130.  The limits of the corridor.  [bank] is the roll angle at which each search flies. *)
Definition by_air (E : engine) (secs dt target : R) : list (find_fun * R) :=
  [ (fun n o low high tol => findOverShootLimit E n o secs dt low high tol target, 180);
    (fun n o low high tol => findUnderShootLimit E n o secs dt low high tol target, 0);
    (fun n o low high tol => findEFPALimitD E n o secs dt low high tol target, 0) ].
Theorem C130_limit : forall name V i bank target secs low high tol n (truth : R -> R), Planet name = Ok (vh_planet V) -> name <> "URANUS"%string -> vh_user V = false -> lipschitz_air (vh_planet V) (vh_atm V) ->
  Rabs (high - low) / 2 ^ n <= tol -> (forall g, division low high n g -> verdict V (with_gamma0 i g) bank target secs (truth g)) ->
  exists delta, 0 < delta /\ forall E find tl fl ht dt fuel o lim flag, engine_ok E -> exact E -> 0 < dt < delta -> In (find, bank) (by_air E secs dt target) ->
    find fuel (mkObj V i tl fl ht) low high tol = Some (o, Ok (lim, flag)) ->
    flag = 1 /\ truth low = - truth high /\ (exists other, division low high n lim /\ division low high n other /\ Rabs (lim - other) <= tol /\ within low high lim /\ within low high other /\ truth other = - truth lim) \/
    flag = 0 /\ lim = 0 /\ truth low = truth high.
Proof.
  intros name V i bank target secs low high tol n truth HP HN Hu HL Hn HV.
  destruct (common_step (fun g dt => forall E tl fl ht o a, engine_ok E -> exact E -> hitsTargetApoapsis E (mkObj V (with_gamma0 i g) tl fl ht) secs dt bank target = (o, Ok a) -> a = truth g) (points low high n)) as (delta & Hd & G).
  { intros g Hg. apply points_spec, HV in Hg. destruct (C130_answer name V (with_gamma0 i g) bank target secs HP Hu HL) as (A1 & A2). destruct Hg as [(-> & TH)|(-> & TL)].
    - destruct (A1 TH) as (d1 & Hd1 & B). exists d1. split; auto. intros dt Hdt E tl fl ht o a HE HX. apply B; auto.
    - destruct (A2 ltac:(tauto)) as (d1 & Hd1 & B). exists d1. split; auto. intros dt Hdt E tl fl ht o a HE HX. apply B; auto. }
  exists delta. split; auto. intros E find tl fl ht dt fuel o lim flag HE HX Hdt HI H. specialize (G dt Hdt). set (ask := fun o => hitsTargetApoapsis E o secs dt bank target).
  assert (S : exists o0 o1, (o0 = mkObj V i tl fl ht \/ o0 = set_LD (mkObj V i tl fl ht) 0) /\ search ask tol fuel o0 low high = Some (o1, Ok (Some (lim, flag)))).
  { assert (LS : forall o0 k, then_ (search ask tol fuel o0 low high) (fun o' l => Some (k o', bound l)) = Some (o, Ok (lim, flag)) -> exists o1, search ask tol fuel o0 low high = Some (o1, Ok (Some (lim, flag)))).
    { intros o0 k K. destruct (search ask tol fuel o0 low high) as [[o1 [[[l f]|]|e]]|]; cbn [then_ bound] in K; try discriminate. exists o1. injection K as _ -> ->. reflexivity. }
    destruct HI as [HI|[HI|[HI|[]]]]; injection HI as <- <-; [destruct (LS _ _ H) as (o1 & Q); exists (mkObj V i tl fl ht), o1; auto..|destruct (LS _ _ H) as (o1 & Q); exists (set_LD (mkObj V i tl fl ht) 0), o1; auto]. }
  destruct S as (o0 & o1 & HO & S). rewrite <- (search_only _ _ _ n) in S by auto.
  assert (TR : forall g a, answer_at (only (points low high n) ask) o0 g = Ok a -> division low high n g /\ a = truth g).
  { intros g a A. apply only_answer in A. destruct A as (Hin & A). split; [apply points_spec; auto|]. assert (A' : answer_at ask (mkObj V i tl fl ht) g = Ok a).
    { destruct HO as [->| ->]; auto. rewrite <- A. symmetry. exact (proj1 (ans_LD E secs dt target bank (mkObj V i tl fl ht) g)). }
    unfold answer_at, ask in A'. cbn [set_gamma0 ob_veh ob_init ob_tol ob_flight ob_heat] in A'. destruct (hitsTargetApoapsis E (set_gamma0 (mkObj V i tl fl ht) g) secs dt bank target) as [o2 r] eqn:Er. cbn [snd] in A'. subst r. exact (G g Hin E tl fl ht o2 a HE HX Er). }
  assert (OP : forall g g', opposite (answer_at (only (points low high n) ask) o0) g g' -> division low high n g /\ division low high n g' /\ truth g = - truth g').
  { intros g g' [(A & B)|(A & B)]; apply TR in A; apply TR in B; (split; [tauto|]; split; [tauto|]; lra). }
  destruct (search_spec _ o0 tol fuel low high _ (only_good _ _ (good_hits E secs dt bank target)) S) as [(g & e & o2 & Q & _)|[(a & o2 & Q & A1 & A2 & _)|(Op & [(o2 & _ & _ & Q)|[(k & lo & hi & o2 & _ & _ & _ & K4 & K5 & K6 & _ & _ & K9 & _ & Q)|(Q & _)]])]]; try discriminate.
  - right. injection Q as _ -> ->. split; auto. split; auto. apply TR in A1. apply TR in A2. lra.
  - left. injection Q as _ -> ->. split; auto. split; [apply (OP _ _ Op)|]. destruct (OP _ _ K9) as (D1 & D2 & D3). exists lo. auto 10.
Qed.
Lemma abs_between : forall x t, Rabs x <= t -> - t <= x <= t.
Proof. intros x t H. unfold Rabs in H. destruct (Rcase_abs x); lra. Qed.
(** Where there is one boundary, the search finds it to within its tolerance. *)
Lemma division_ends : forall low high n, division low high n low /\ division low high n high.
Proof.
  intros. assert (Pn : 0 < 2 ^ n) by (apply pow_lt; lra). split; [exists 0%nat; split; [lia|cbn [INR]; lra]|]. exists (2 ^ n)%nat. split; auto. rewrite pow_INR. replace (INR 2) with 2 by (cbn; lra). field. lra.
Qed.
Theorem C130_boundary : forall name V i bank target secs low high tol n b, Planet name = Ok (vh_planet V) -> name <> "URANUS"%string -> vh_user V = false -> lipschitz_air (vh_planet V) (vh_atm V) ->
  (high - low) / 2 ^ n <= tol -> true_boundary V i bank target secs low high n b ->
  exists delta, 0 < delta /\ forall E find tl fl ht dt fuel o lim flag, engine_ok E -> exact E -> 0 < dt < delta -> In (find, bank) (by_air E secs dt target) ->
    find fuel (mkObj V i tl fl ht) low high tol = Some (o, Ok (lim, flag)) -> flag = 1 /\ Rabs (lim - b) <= tol.
Proof.
  intros name V i bank target secs low high tol n b HP HN Hu HL Hn (Hb & Nd & s & HS). destruct (division_ends low high n) as (D1 & D2).
  assert (Hs : s <> 0). { destruct (HS low D1) as (K & _). destruct (K ltac:(lra)) as [(-> & _)|(-> & _)]; lra. }
  set (truth := fun g => if Rlt_dec g b then s else - s).
  assert (TV : forall g, division low high n g -> verdict V (with_gamma0 i g) bank target secs (truth g)).
  { intros g D. destruct (HS g D) as (K1 & K2). unfold truth. destruct (Rlt_dec g b); [auto|]. destruct (Req_dec g b) as [->|]; [contradiction|]. apply K2. lra. }
  destruct (C130_limit name V i bank target secs low high tol n truth HP HN Hu HL) as (delta & Hd & G); [rewrite Rabs_right by lra; auto|auto|]. exists delta. split; auto.
  intros E find tl fl ht dt fuel o lim flag HE HX Hdt HI H. destruct (G E find tl fl ht dt fuel o lim flag HE HX Hdt HI H) as [(-> & _ & other & L1 & L2 & L3 & _ & _ & L6)|(_ & _ & L)].
  - split; auto. unfold truth in L6. destruct (Rlt_dec lim b), (Rlt_dec other b); try lra; apply Rabs_le; apply abs_between in L3; lra.
  - exfalso. unfold truth in L. destruct (Rlt_dec low b), (Rlt_dec high b); lra.
Qed.
(** The theoretical corridor width, to within the two tolerances. *)
Theorem C130_width : forall name V i target secs lo ho lu hu to tu no nu bo bu, Planet name = Ok (vh_planet V) -> name <> "URANUS"%string -> vh_user V = false -> lipschitz_air (vh_planet V) (vh_atm V) ->
  (ho - lo) / 2 ^ no <= to -> true_boundary V i 180 target secs lo ho no bo -> (hu - lu) / 2 ^ nu <= tu -> true_boundary V i 0 target secs lu hu nu bu ->
  exists delta, 0 < delta /\ forall E tl fl ht dt fuel o w, engine_ok E -> exact E -> 0 < dt < delta ->
    computeTCW E fuel (mkObj V i tl fl ht) secs dt lo ho lu hu to tu target = Some (o, Ok w) -> Rabs (w - (bo - bu)) <= to + tu.
Proof.
  intros name V i target secs lo ho lu hu to tu no nu bo bu HP HN Hu HL Ho TO Hlu TU.
  destruct (C130_boundary name V i 180 target secs lo ho to no bo HP HN Hu HL Ho TO) as (d1 & Hd1 & G1). destruct (C130_boundary name V i 0 target secs lu hu tu nu bu HP HN Hu HL Hlu TU) as (d2 & Hd2 & G2).
  exists (Rmin d1 d2). split; [apply Rmin_glb_lt; auto|]. pose proof (Rmin_l d1 d2). pose proof (Rmin_r d1 d2). intros E tl fl ht dt fuel o w HE HX Hdt K. unfold computeTCW in K.
  destruct (then_ok _ _ _ _ K) as (o1 & [l1 f1] & E1 & K1). cbv beta in K1. destruct (then_ok _ _ _ _ K1) as (o2 & [l2 f2] & E2 & K2). cbn [fst] in K2. injection K2 as _ <-.
  assert (I1 : In (fun n o low high tol => findOverShootLimit E n o secs dt low high tol target, 180) (by_air E secs dt target)) by (left; reflexivity).
  assert (I2 : In (fun n o low high tol => findUnderShootLimit E n o secs dt low high tol target, 0) (by_air E secs dt target)) by (right; left; reflexivity).
  destruct (C49_restored E secs dt target (fun n o low high tol => findOverShootLimit E n o secs dt low high tol target) (fun o => hitsTargetApoapsis E o secs dt 180 target) fuel (mkObj V i tl fl ht) _ _ _ _ _ ltac:(left; reflexivity) E1) as (_ & R1 & R2 & R3).
  cbn [ob_veh ob_init ob_tol] in R1, R2, R3. destruct o1 as [V1 i1 t1 fl1 ht1]. cbn [ob_veh ob_init ob_tol] in R1, R2, R3. subst V1 i1 t1.
  destruct (G1 E _ tl fl ht dt fuel _ l1 f1 HE HX ltac:(lra) I1 E1) as (_ & B1). destruct (G2 E _ tl fl1 ht1 dt fuel _ l2 f2 HE HX ltac:(lra) I2 E2) as (_ & B2). apply abs_between in B1. apply abs_between in B2. apply Rabs_le. lra.
Qed.
(** The other predicate, "captured": by the energy the true flight leaves with. *)
Theorem C130_captured : forall name V i d T T2 y secs, Planet name = Ok (vh_planet V) -> vh_user V = false -> lipschitz_air (vh_planet V) (vh_atm V) -> let p := vh_planet V in
  stays_out V i d T T2 y -> tau p * T < secs < tau p * T2 -> energy (GM p) (position p (y T)) (air_velocity p (y T)) <> 0 ->
  exists delta, 0 < delta /\ forall E tol dt o a, engine_ok E -> exact E -> 0 < dt < delta -> isCaptured E (mkObj V i tol None None) secs dt d = (o, Ok a) ->
    (a = -1 <-> energy (GM p) (position p (y T)) (air_velocity p (y T)) < 0) /\ (a = 1 <-> 0 < energy (GM p) (position p (y T)) (air_velocity p (y T))).
Proof.
  intros name V i d T T2 y secs HP Hu HL p SO (S1 & S2) Hne. destruct (ref_facts _ _ HP) as (HV & _ & Ht & _ & HR & _). fold p in HR, Ht, HV. destruct (Planet_facts _ _ HP) as (_ & HGM & _ & _ & (Ht0 & Hts) & Hthr & _). fold p in Ht0, Hts, Hthr, HGM.
  pose proof (proj1 SO) as LV. pose proof LV as (_ & _ & _ & _ & Etop & _). fold p in Etop. assert (Hr : 0 < s_r (y T)) by (unfold height in Etop; nra).
  destruct (judged_near false p (y T) HR ltac:(lra)) as (_ & LE & _). set (En := fun a => norm2 (judged false p a) / 2 - GM p / (RP p * s_r a)) in *.
  assert (EN : forall a, 0 < s_r a -> energy (GM p) (position p a) (air_velocity p a) = En a) by (intros a Ha; unfold energy, En, position; rewrite sph_norm by nra; reflexivity).
  rewrite EN in Hne |- * by auto. destruct (ll_near _ _ LE (Rabs (En (y T))) (Rabs_pos_lt _ Hne)) as (e1 & He1 & B). set (e := Rmin e1 (s_r (y T))). assert (He : 0 < e) by (apply Rmin_glb_lt; auto). pose proof (Rmin_l e1 (s_r (y T)) : e <= _) as M1. pose proof (Rmin_r e1 (s_r (y T)) : e <= _) as M2.
  destruct (proj1 (last_near name V i d HP Hu HL e He) T y LV) as (d1 & Hd1 & G). exists (Rmin d1 (tau p * T2 - secs)). split; [apply Rmin_glb_lt; lra|]. pose proof (Rmin_l d1 (tau p * T2 - secs)). pose proof (Rmin_r d1 (tau p * T2 - secs)).
  intros E tol dt o a HE HX Hdt Hc. destruct (C51_captured E name (mkObj V i tol None None) secs dt d o a HE HP Hc) as (x & (f & Hf & _ & Ex) & _ & Pm & Q). cbn [ob_veh] in Q. fold p in Q. assert (x = terminal f) by exact Ex. subst x.
  assert (HPr : propogateEntry E (mkObj V i tol None None) secs dt d = (o, Ok tt)).
  { unfold isCaptured, ask_flight in Hc. destruct (propogateEntry E (mkObj V i tol None None) secs dt d) as [o1 [[]|e2]]; [|discriminate]. destruct (ob_flight o1); [|discriminate]. apply (f_equal fst) in Hc. cbn [fst] in Hc. subst o1. reflexivity. }
  assert (HdT : secs + dt <= tau p * T2) by lra. pose proof (long_flag E name V i tol d T T2 y secs dt o f HE HX HP Hu HL SO (proj1 Hdt) S1 HdT HPr Hf) as Fl.
  destruct (G false E tol secs dt o f HE HX ltac:(lra) HPr Hf Fl) as (s & Ds & Es). fold p in Es. rewrite Es in Q. unfold rel_energy in Q. rewrite exit_pos, exit_air in Q. change (judged false p s) with (air_velocity p s) in Q.
  pose proof (comp_dist (y T) s 0) as C. cbn [comp] in C. assert (C' : Rabs (s_r (y T) - s_r s) < s_r (y T)) by lra. apply Rabs_def2 in C'. rewrite EN in Q by lra.
  specialize (B s ltac:(lra)). assert (SG : En s < 0 <-> En (y T) < 0). { unfold Rabs in B. destruct (Rcase_abs (En s - En (y T))), (Rcase_abs (En (y T))); split; lra. } rewrite SG in Q.
  split; [exact Q|]. split; intros K.
  - destruct (Rlt_le_dec 0 (En (y T))) as [|L]; auto. exfalso. assert (NE : En (y T) < 0) by lra. apply Q in NE. lra.
  - destruct Pm as [Pm|]; auto. exfalso. apply Q in Pm. lra.
Qed.
