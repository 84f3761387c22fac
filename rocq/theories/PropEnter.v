(** C132: a flight that starts exactly at the top of the atmosphere, descending, is one flight, and it is the one reported. *)
From Coq Require Import String List Classical.
Require Import Verif.Base Verif.Numpy Verif.PlanetModel Verif.PlanetProofs Verif.AeroModel Verif.TrajectoryModel Verif.TrajectorySpec Verif.TrajectoryProofs Verif.FlightSpec Verif.FlightProofs Verif.PropFlight Verif.ReportSpec Verif.PropReport
  Verif.ExactSpec Verif.ExactProofs Verif.PropExact Verif.DetSpec Verif.DetProofs Verif.PropDet Verif.NearSpec Verif.NearProofs Verif.ExistSpec Verif.ExistProofs Verif.PropExist Verif.ExitSpec Verif.ExitProofs Verif.EnterProofs.
Require Verif.PropRoundGrid Verif.PropGuidance.
Import ListNotations.
Local Open Scope R_scope.

(** From every start at the top, descending, off the poles and off the singular attitude, there is a passage through the atmosphere, and it lasts some time. *)
Theorem C132_enters : forall name V i d, Planet name = Ok (vh_planet V) -> vh_user V = false -> lipschitz_air (vh_planet V) (vh_atm V) ->
  h0_km i * 1000 = h_thres (vh_planet V) -> v0_kms i * sin (gamma0_deg i * PI / 180) < 0 -> cos (phi0_deg i * PI / 180) <> 0 -> cos (gamma0_deg i * PI / 180) <> - 0.01 ->
  exists T y, 0 < T /\ passage V i d T y.
Proof.
  intros name V i d HP Hu HL Hh Hd Hc Hg. destruct (ref_facts _ _ HP) as (HV & _ & _ & _ & HR & _). destruct (entry_clear _ _ i HP) as (E1 & E2 & E3 & E4). pose proof (hth_pos _ _ HP) as H0.
  apply enters; auto.
  - split; [unfold height; lra|]. split; [intros Z; rewrite Z in E1; lra|]. split; [intros Z; rewrite Z in E2; assert (v0_kms i = 0) as Q by lra; rewrite Q in Hd; lra|]. rewrite E3, E4. split; auto. intros Z. apply Hg. lra.
  - rewrite E4. set (w := sin _) in *. set (x := s_v _) in *. assert (Vref (vh_planet V) * (x * w) < 0); [replace (Vref (vh_planet V) * (x * w)) with (Vref (vh_planet V) * x * w) by ring; rewrite E2; nra|nra].
Qed.
(** Whatever solves the equations of motion from the same start agrees with it. *)
Theorem C132_only : forall name V i d T y, Planet name = Ok (vh_planet V) -> vh_user V = false -> lipschitz_air (vh_planet V) (vh_atm V) -> passage V i d T y ->
  forall T' z, z 0 = entry_state (vh_planet V) i -> solves (fun x => EOM V x (d * PI / 180)) z T' -> forall t, 0 <= t <= T -> t <= T' -> z t = y t.
Proof.
  intros name V i d T y HP Hu HL (Y0 & S & I) T' z Z0 Sz t Ht Ht'. destruct (ref_facts _ _ HP) as (_ & _ & _ & _ & HR & _). pose proof (hth_pos _ _ HP) as H0. symmetry.
  apply (unique_inside V (d * PI / 180) y z t); auto; [eapply solves_upto; [exact S|lra]|eapply solves_upto; [exact Sz|lra]|congruence|intros u Hu'; apply I; lra|lra].
Qed.
(** Every point reported up to [T] is the state of the passage at that time. *)
Theorem C132_on_the_way : forall (two : bool) E name V i tol secs dt d o f y T, engine_ok E -> exact E -> Planet name = Ok (vh_planet V) -> 0 < dt ->
  vh_user V = false -> lipschitz_air (vh_planet V) (vh_atm V) -> passage V i d T y ->
  (if two then propogateEntry2 else propogateEntry) E (mkObj V i tol None None) secs dt d = (o, Ok tt) -> ob_flight o = Some f ->
  forall k, (k < length (p_t (f_plot f)))%nat -> time_of (vh_planet V) (f_plot f) k <= T ->
  shows (vh_planet V) (f_plot f) k (y (time_of (vh_planet V) (f_plot f) k)).
Proof.
  intros two E name V i tol secs dt d o f y T HE HX HP Hdt Hu HL (Y0 & S & I) H Hf k Hk HT.
  destruct (exact_flight_all two E name V i tol secs dt d o f HE HX HP Hdt H Hf) as (z & Tz & ts & Z0 & Sz & (GF & GM) & Et & _ & _ & _ & _ & _ & _ & _ & Sh).
  destruct (ref_facts _ _ HP) as (_ & _ & Ht & _ & HRP & _). destruct (time_of_map _ _ _ _ Ht Et Hk) as (E1 & Hk'). rewrite E1 in *.
  pose proof (proj1 (Forall_forall _ _) GF _ (nth_In ts 0 Hk')) as B. cbv beta in B.
  replace (y (nth k ts 0)) with (z (nth k ts 0)); auto. symmetry.
  apply (unique_inside V (deg d) y z (nth k ts 0)); auto; [eapply hth_pos; eauto|eapply solves_upto; eauto|eapply solves_upto; [exact Sz|]; lra|congruence|intros t Htt; apply I; lra|lra].
Qed.
(** The report does not depend on the integrator, its tolerance, the version, the step or the duration. *)
Theorem C132_same_flight : forall (two two' : bool) E E' name V i tol tol' secs secs' dt dt' d o o' f f' y T, engine_ok E -> exact E -> engine_ok E' -> exact E' ->
  Planet name = Ok (vh_planet V) -> 0 < dt -> 0 < dt' -> vh_user V = false -> lipschitz_air (vh_planet V) (vh_atm V) -> passage V i d T y ->
  (if two then propogateEntry2 else propogateEntry) E (mkObj V i tol None None) secs dt d = (o, Ok tt) -> ob_flight o = Some f ->
  (if two' then propogateEntry2 else propogateEntry) E' (mkObj V i tol' None None) secs' dt' d = (o', Ok tt) -> ob_flight o' = Some f' ->
  forall k k', (k < length (p_t (f_plot f)))%nat -> (k' < length (p_t (f_plot f')))%nat -> nth k (p_t (f_plot f)) 0 = nth k' (p_t (f_plot f')) 0 ->
  time_of (vh_planet V) (f_plot f) k <= T -> same_report f k f' k'.
Proof.
  intros two two' E E' name V i tol tol' secs secs' dt dt' d o o' f f' y T HE HX HE' HX' HP Hdt Hdt' Hu HL W H Hf H' Hf' k k' Hk Hk' Et HT.
  assert (Et' : time_of (vh_planet V) (f_plot f) k = time_of (vh_planet V) (f_plot f') k') by (unfold time_of; rewrite Et; reflexivity).
  pose proof (C132_on_the_way two E name V i tol secs dt d o f y T HE HX HP Hdt Hu HL W H Hf k Hk HT) as A.
  pose proof (C132_on_the_way two' E' name V i tol' secs' dt' d o' f' y T HE' HX' HP Hdt' Hu HL W H' Hf' k' Hk' ltac:(lra)) as B. rewrite <- Et' in B.
  pose proof (shows_same _ _ _ _ _ _ A B) as SP. split; auto.
  destruct (flight_laws two E name V i tol secs dt d o f HE HP Hu H Hf) as ((lc & Hc) & (lr & Hr) & R). specialize (R k Hk).
  destruct (flight_laws two' E' name V i tol' secs' dt' d o' f' HE' HP Hu H' Hf') as (_ & _ & R'). specialize (R' k' Hk').
  destruct SP as (Eh & Ev & _). unfold reported, altitude_at, speed_at in R, R'. cbv zeta in R, R'. rewrite <- Eh, <- Ev in R'.
  destruct R as (A1 & A2 & A3 & A4 & A5 & A6 & A7). destruct R' as (B1 & B2 & B3 & B4 & B5 & B6 & B7).
  specialize (A5 _ Hc). specialize (B5 _ Hc). specialize (A6 _ Hr). specialize (B6 _ Hr). rewrite A5, A6 in A7. rewrite B5, B6 in B7.
  split; [lra|]. split; [lra|]. split; [eapply load_same; eauto|]. repeat split; congruence.
Qed.
(** There is an exact integrator with which both solvers return the passage, sampled at the requested times, whenever there is a passage that lasts that long. *)
Theorem C132_ideal : exists E, engine_ok E /\ exact E /\
  forall name V i d T y tol secs dt, Planet name = Ok (vh_planet V) -> vh_user V = false -> lipschitz_air (vh_planet V) (vh_atm V) -> 0 < dt -> 0 <= secs ->
    passage V i d T y -> secs + dt <= tau (vh_planet V) * T ->
    exists ts, arange ((secs + dt) / tau (vh_planet V)) (dt / tau (vh_planet V)) = Ok ts /\ ts <> [] /\
      solveTrajectory E V tol (entry_state (vh_planet V) i) secs dt (d * PI / 180) = Ok (channels ts (map y ts)) /\
      solveTrajectory2 E V tol (entry_state (vh_planet V) i) secs dt (d * PI / 180) = Ok (channels ts (map y ts)).
Proof.
  exists ideal. split; [apply ideal_ok|]. split; [apply ideal_exact|]. intros name V i d T y tol secs dt HP Hu HL Hdt Hs (Y0 & S & I) Hend.
  destruct (ref_facts _ _ HP) as (_ & _ & Ht & _ & HR & _). pose proof (hth_pos _ _ HP) as H0. set (p := vh_planet V) in *. set (stop := (secs + dt) / tau p). set (step := dt / tau p).
  assert (Hst : 0 < step) by (apply Rdiv_lt_0_compat; auto). assert (Hstop : 0 < stop) by (apply Rdiv_lt_0_compat; lra).
  destruct (arange stop step) as [ts|e] eqn:Ea.
  2:{ exfalso. unfold arange in Ea. destruct (Reqb step 0) eqn:Eq; [apply Reqb_true in Eq; lra|discriminate]. }
  destruct (arange_inv _ _ _ Ea) as (La & Na).
  assert (Hlen : 0 < stop / step) by (apply Rdiv_lt_0_compat; auto). pose proof (PropRoundGrid.ceil_between (stop / step) ltac:(lra)) as (C1 & C2). rewrite <- La in C1, C2.
  assert (Hne : ts <> []). { intros Z. rewrite Z in C1. cbn in C1. lra. }
  assert (Hz : nth_error ts 0 = Some 0). { destruct ts as [|t ts]; [congruence|]. pose proof (Na 0%nat ltac:(cbn; lia)) as N. cbn in *. rewrite N. f_equal. ring. }
  destruct (grid_regular ts step (Rlt_le _ _ Hst) Na) as (G & _).
  assert (HT : last ts 0 <= T).
  { assert (Hl : last ts 0 = INR (length ts - 1) * step) by (rewrite PropGuidance.last_nth; apply Na; destruct ts; [congruence|cbn; lia]).
    assert (E1 : INR (length ts) = INR (length ts - 1) + 1) by (rewrite <- S_INR; f_equal; destruct ts; [congruence|cbn; lia]).
    assert (E2 : stop / step * step = stop) by (field; lra). assert (E3 : tau p * stop = secs + dt) by (unfold stop; field; lra). rewrite Hl.
    assert (INR (length ts - 1) * step <= stop / step * step) by (apply Rmult_le_compat_r; lra). assert (stop <= T) by (apply (Rmult_le_reg_l (tau p)); auto; rewrite E3; exact Hend). lra. }
  assert (A : asked (fun x => EOM V x (d * PI / 180)) (entry_state p i) ts).
  { split; [|auto]. exists y. split; [split; [exact Y0|eapply solves_upto; eauto]|]. intros z (Z0 & Sz) t Htt. symmetry.
    apply (unique_inside V (d * PI / 180) y z (last ts 0)); auto; [eapply solves_upto; eauto|congruence|intros u Hu'; apply I; lra]. }
  assert (M : map (the_state (fun x => EOM V x (d * PI / 180)) (entry_state p i) (last ts 0)) ts = map y ts).
  { apply map_ext_in. intros t Htt. pose proof (proj1 (Forall_forall _ _) G t Htt) as B. apply the_state_is; [split; [exact Y0|eapply solves_upto; eauto]| |exact B].
    intros z (Z0 & Sz) u Hu'. symmetry. apply (unique_inside V (d * PI / 180) y z (last ts 0)); auto; [eapply solves_upto; eauto|congruence|intros r Hr; apply I; lra]. }
  exists ts. split; auto. split; auto. split.
  - unfold solveTrajectory. fold p stop step. rewrite Ea. cbn [rbind odeint ideal]. destruct (decide _) as [_|N]; [|contradiction]. cbn [rbind]. rewrite M. reflexivity.
  - unfold solveTrajectory2. fold p stop step. rewrite Ea. cbn [rbind]. destruct ts as [|t0 ts']; [congruence|]. set (ts := t0 :: ts') in *. cbn [solve_ivp ideal]. destruct (decide _) as [_|N]; [|contradiction].
    cbn [rbind fst snd]. rewrite M. reflexivity.
Qed.
