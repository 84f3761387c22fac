(** C133: shallow entries skip out, or dig in, according to how the path of a level flight at the top bends. *)
From Coq Require Import String List Reals Lra Lia.
Require Import Verif.Base Verif.Numpy Verif.PlanetModel Verif.PlanetProofs Verif.AeroModel Verif.TrajectoryModel Verif.TrajectorySpec Verif.TrajectoryProofs Verif.FlightSpec Verif.FlightProofs Verif.PropTrajectory Verif.PropFlight
  Verif.ExactSpec Verif.ExactProofs Verif.PropExact Verif.DetSpec Verif.DetProofs Verif.PropDet Verif.NearSpec Verif.NearProofs Verif.ExistSpec Verif.ExistProofs Verif.PropExist Verif.ExitSpec Verif.ExitProofs Verif.EnterProofs Verif.PropEnter Verif.PropExit Verif.PropExitRun
  Verif.FrameModel Verif.FrameProofs Verif.ConicSpec Verif.ConicProofs Verif.OrbiterModel Verif.OrbiterProofs Verif.OrbitModel Verif.OrbitSpec Verif.OrbitProofs Verif.CorridorModel Verif.CorridorSpec Verif.PropExitOrbit Verif.VerdictSpec Verif.VerdictProofs Verif.PropVerdict Verif.PropVerdictEx
  Verif.NearExitProofs Verif.GrazeSpec Verif.GrazeProofs.
Import ListNotations.
Local Open Scope R_scope.

Lemma level_facts : forall name V i d r, Planet name = Ok (vh_planet V) -> vh_user V = false -> bends V i d r -> let x := entry_state (vh_planet V) (with_gamma0 i 0) in
  at_top (vh_planet V) x /\ s_gamma x = 0 /\ 0 < s_v x /\ f6 V (d * PI / 180) x = r /\ forall g, entry_state (vh_planet V) (at_angle i g) = tilted x (- (g * PI / 180)).
Proof.
  intros name V i d r HP Hu (Hh & Hv & a & Ea & Er) x. destruct (ref_facts _ _ HP) as (HV & _). destruct (entry_clear _ _ (with_gamma0 i 0) HP) as (E1 & E2 & _ & E4). fold x in E1, E2, E4. cbn [with_gamma0 h0_km v0_kms gamma0_deg] in E1, E2, E4.
  destruct (field_is _ _ _ _ Hu Ea) as (-> & R1 & R2 & R3 & R4). cbn [s_gamma] in Er. split; [split; [unfold height; lra|auto]|]. split; [rewrite E4; lra|]. split; [nra|]. split; [exact Er|]. intros g.
  unfold x, at_angle, tilted, entry_state, nonDimState, with_gamma0, deg. cbn [s_r s_theta s_phi s_v s_psi s_gamma s_drange h0_km theta0_deg phi0_deg v0_kms psi0_deg gamma0_deg drange0_km]. f_equal. lra.
Qed.
(** If the path bends up, every entry at a small enough angle leaves the atmosphere again, within as short a time and as few metres below the top as one likes. *)
Lemma skip_near : forall name V i d r, Planet name = Ok (vh_planet V) -> vh_user V = false -> lipschitz_air (vh_planet V) (vh_atm V) -> bends V i d r -> 0 < r ->
  forall eps, 0 < eps -> exists g0, 0 < g0 /\ forall g, 0 < g < g0 -> exists T y, 0 < T < eps /\ leaves V (at_angle i g) d T y /\
    forall t, 0 <= t <= T -> dist (entry_state (vh_planet V) (with_gamma0 i 0)) (y t) < eps.
Proof.
  intros name V i d r HP Hu HL HB Hr eps He. destruct (ref_facts _ _ HP) as (_ & _ & _ & _ & HR & _). destruct (level_facts name V i d r HP Hu HB) as (AT & G0 & Hv & F6 & TI). pose proof PI_RGT_0 as HPI.
  destruct (skips V d _ Hu HR (hth_pos _ _ HP) HL AT G0 Hv ltac:(lra) eps He) as (g0 & Hg0 & S). exists (g0 * 180 / PI). split; [apply Rdiv_lt_0_compat; lra|]. intros g Hg.
  apply (S (g * PI / 180)); [|apply TI]. split; [assert (0 < g * PI) by (apply Rmult_lt_0_compat; lra); lra|]. assert (g * PI < g0 * 180 / PI * PI) by (apply Rmult_lt_compat_r; lra). replace (g0 * 180 / PI * PI) with (g0 * 180) in H by (field; lra). lra.
Qed.
Theorem C133_skips : forall name V i d r, Planet name = Ok (vh_planet V) -> vh_user V = false -> lipschitz_air (vh_planet V) (vh_atm V) -> bends V i d r -> 0 < r ->
  forall seconds metres, 0 < seconds -> 0 < metres -> exists g0, 0 < g0 /\ forall g, 0 < g < g0 -> exists T y, 0 < T /\ tau (vh_planet V) * T < seconds /\ leaves V (at_angle i g) d T y /\
    forall t, 0 <= t <= T -> h_thres (vh_planet V) - metres < height (vh_planet V) (y t).
Proof.
  intros name V i d r HP Hu HL HB Hr sc mt Hs Hm. destruct (ref_facts _ _ HP) as (_ & _ & Ht & _ & HR & _). destruct (level_facts name V i d r HP Hu HB) as (AT & _). pose proof AT as (Etop & _). set (p := vh_planet V) in *.
  set (eps := Rmin (sc / tau p) (mt / RP p)). assert (H1 : 0 < sc / tau p) by (apply Rdiv_lt_0_compat; auto). assert (H2 : 0 < mt / RP p) by (apply Rdiv_lt_0_compat; auto). pose proof (Rmin_l (sc / tau p) (mt / RP p) : eps <= _) as L1. pose proof (Rmin_r (sc / tau p) (mt / RP p) : eps <= _) as L2.
  destruct (skip_near name V i d r HP Hu HL HB Hr eps ltac:(apply Rmin_glb_lt; auto)) as (g0 & Hg0 & S). exists g0. split; auto. intros g Hg. destruct (S g Hg) as (T & y & HT & LV & N). exists T, y. split; [lra|]. split; [|split; auto].
  - assert (tau p * T < tau p * (sc / tau p)) by (apply Rmult_lt_compat_l; lra). replace (tau p * (sc / tau p)) with sc in H by (field; lra). auto.
  - intros t Htt. specialize (N t Htt). fold p in N. pose proof (height_dist p _ (y t) HR : Rabs (height p (y t) - height p (entry_state p (with_gamma0 i 0))) <= _) as HD. rewrite Etop in HD. apply Rabs_le_inv in HD.
    assert (RP p * dist (entry_state p (with_gamma0 i 0)) (y t) < RP p * (mt / RP p)) by (apply Rmult_lt_compat_l; lra). replace (RP p * (mt / RP p)) with mt in H by (field; lra). lra.
Qed.
(** Propagated by any exact integrator, for long enough and with small enough a step, they are flagged as having left. *)
Theorem C133_flagged : forall name V i d r, Planet name = Ok (vh_planet V) -> vh_user V = false -> lipschitz_air (vh_planet V) (vh_atm V) -> bends V i d r -> 0 < r ->
  forall seconds, 0 < seconds -> exists g0, 0 < g0 /\ forall g, 0 < g < g0 -> exists s delta, 0 < s < seconds /\ 0 < delta /\
    forall E tol secs dt o f, engine_ok E -> exact E -> 0 < dt < delta -> s < secs < s + delta ->
      propogateEntry E (mkObj V (at_angle i g) tol None None) secs dt d = (o, Ok tt) -> ob_flight o = Some f -> f_exitflag f = 1.
Proof.
  intros name V i d r HP Hu HL HB Hr sc Hs. destruct (ref_facts _ _ HP) as (_ & _ & Ht & _). destruct (C133_skips name V i d r HP Hu HL HB Hr sc 1 Hs ltac:(lra)) as (g0 & Hg0 & S). exists g0. split; auto. intros g Hg.
  destruct (S g Hg) as (T & y & HT & HTs & LV & _). destruct (C129_flagged name V _ d T y HP Hu HL LV) as (delta & Hd & F). exists (tau (vh_planet V) * T), delta. split; [split; auto; apply Rmult_lt_0_compat; auto|]. split; auto.
Qed.
(** There is an exact integrator that flies them. *)
Theorem C133_flown : exists E, engine_ok E /\ exact E /\
  forall name V i d r, Planet name = Ok (vh_planet V) -> vh_user V = false -> lipschitz_air (vh_planet V) (vh_atm V) -> bends V i d r -> 0 < r ->
  forall seconds, 0 < seconds -> exists g0, 0 < g0 /\ forall g, 0 < g < g0 -> exists s delta, 0 < s < seconds /\ 0 < delta /\
    forall tol secs dt, 0 < dt < delta -> s < secs < s + delta ->
      exists o f h, propogateEntry E (mkObj V (at_angle i g) tol None None) secs dt d = (o, Ok tt) /\ ob_flight o = Some f /\ ob_heat o = Some h /\ f_exitflag f = 1.
Proof.
  destruct C129_flown as (E & HE & HX & FL). exists E. split; auto. split; auto. intros name V i d r HP Hu HL HB Hr sc Hs. destruct (ref_facts _ _ HP) as (_ & _ & Ht & _). destruct (Planet_facts _ _ HP) as (_ & _ & _ & _ & (Ht0 & Hts) & Hthr & _).
  destruct (C133_skips name V i d r HP Hu HL HB Hr sc (h_thres (vh_planet V) - h_trap (vh_planet V)) Hs ltac:(lra)) as (g0 & Hg0 & S). exists g0. split; auto. intros g Hg.
  destruct (S g Hg) as (T & y & HT & HTs & LV & UP). destruct (FL name V _ d T y HP Hu HL LV) as (delta & Hd & F); [intros t Htt; specialize (UP t Htt); lra|]. exists (tau (vh_planet V) * T), delta. split; [split; auto; apply Rmult_lt_0_compat; auto|]. split; auto.
Qed.
(** They are too high for every target that the level flight past the top would overshoot, and too low for every target it would undershoot, by either measure of the velocity. *)
Theorem C133_verdict : forall (two : bool) name V i d r target, Planet name = Ok (vh_planet V) -> vh_user V = false -> lipschitz_air (vh_planet V) (vh_atm V) -> bends V i d r -> 0 < r ->
  let p := vh_planet V in let x := entry_state p (with_gamma0 i 0) in judged two p x <> vzero -> forall seconds, 0 < seconds ->
  (overshoots p (position p x) (judged two p x) target -> exists g0, 0 < g0 /\ forall g, 0 < g < g0 -> exists s s2, 0 < s < seconds /\ s < s2 /\ forall secs, s < secs < s2 -> too_high two V (at_angle i g) d target secs) /\
  (undershoots p (position p x) (judged two p x) target -> exists g0, 0 < g0 /\ forall g, 0 < g < g0 -> exists s s2, 0 < s < seconds /\ s < s2 /\ forall secs, s < secs < s2 -> too_low two V (at_angle i g) d target secs).
Proof.
  intros two name V i d r target HP Hu HL HB Hr p x Hj sc Hs. destruct (ref_facts _ _ HP) as (_ & _ & Ht & _ & HR & _). destruct (level_facts name V i d r HP Hu HB) as (AT & _). fold p x in AT. pose proof AT as (Etop & _). pose proof (hth_pos _ _ HP) as H0. fold p in H0, HR, Ht.
  assert (Hx : 0 < s_r x) by (unfold height in Etop; nra). destruct (verdict_open name two p x target HP Hx Hj) as (VO & VU).
  assert (G : forall e, 0 < e -> exists g0, 0 < g0 /\ forall g, 0 < g < g0 -> exists s s2, 0 < s < sc /\ s < s2 /\ exists T T2 Z, stays_out V (at_angle i g) d T T2 Z /\ s = tau p * T /\ s2 = tau p * T2 /\ dist x (Z T) < e).
  { intros e He. set (eps := Rmin (sc / tau p) e). assert (H1 : 0 < sc / tau p) by (apply Rdiv_lt_0_compat; auto). pose proof (Rmin_l (sc / tau p) e : eps <= _) as L1. pose proof (Rmin_r (sc / tau p) e : eps <= _) as L2.
    destruct (skip_near name V i d r HP Hu HL HB Hr eps ltac:(apply Rmin_glb_lt; auto)) as (g0 & Hg0 & S). exists g0. split; auto. intros g Hg. destruct (S g Hg) as (T & y & HT & LV & N). destruct (stays name V _ d T y HP Hu HL LV) as (T2 & Z & SO & ZT). pose proof SO as (_ & HT2 & _).
    exists (tau p * T), (tau p * T2). assert (tau p * T < tau p * (sc / tau p)) by (apply Rmult_lt_compat_l; lra). replace (tau p * (sc / tau p)) with sc in H by (field; lra). split; [split; [apply Rmult_lt_0_compat; lra|auto]|]. split; [apply Rmult_lt_compat_l; lra|].
    exists T, T2, Z. split; auto. split; auto. split; auto. rewrite ZT. specialize (N T ltac:(lra)). fold p x in N. lra. }
  split; intros VD; [destruct (VO VD) as (e & He & OP)|destruct (VU VD) as (e & He & OP)]; destruct (G e He) as (g0 & Hg0 & S); exists g0; (split; [auto|]); intros g Hg; destruct (S g Hg) as (s & s2 & Hss & Hs2 & T & T2 & Z & SO & -> & -> & N);
    exists (tau p * T), (tau p * T2); (split; [auto|]); (split; [auto|]); intros secs Hsec; destruct (OP (Z T) N) as (_ & O2 & O3); exists T, T2, Z; auto.
Qed.
(** If the path bends down, every entry at a small enough angle goes on descending, ever more steeply, for a time that is the same for all of them; and so it is reported. *)
Theorem C133_digs_in : forall name V i d r, Planet name = Ok (vh_planet V) -> vh_user V = false -> lipschitz_air (vh_planet V) (vh_atm V) -> bends V i d r -> r < 0 ->
  exists s g0, 0 < s /\ 0 < g0 /\ forall g, 0 < g < g0 ->
    (exists y, passage V (at_angle i g) d (s / tau (vh_planet V)) y) /\
    forall (two : bool) E tol secs dt o f, engine_ok E -> exact E -> 0 < dt ->
      (if two then propogateEntry2 else propogateEntry) E (mkObj V (at_angle i g) tol None None) secs dt d = (o, Ok tt) -> ob_flight o = Some f ->
      forall j k, (j < k < length (p_t (f_plot f)))%nat -> nth k (p_t (f_plot f)) 0 * 60 <= s -> nth k (p_h (f_plot f)) 0 < nth j (p_h (f_plot f)) 0 /\ nth k (p_gamma (f_plot f)) 0 < nth j (p_gamma (f_plot f)) 0.
Proof.
  intros name V i d r HP Hu HL HB Hr. destruct (ref_facts _ _ HP) as (_ & _ & Ht & _ & HR & _). destruct (level_facts name V i d r HP Hu HB) as (AT & G0 & Hv & F6 & TI). pose proof PI_RGT_0 as HPI. set (p := vh_planet V) in *.
  destruct (digs V d _ Hu HR (hth_pos _ _ HP) HL AT G0 Hv ltac:(lra)) as (m & g0 & Hm & Hg0 & S). exists (tau p * m), (g0 * 180 / PI). split; [apply Rmult_lt_0_compat; auto|]. split; [apply Rdiv_lt_0_compat; lra|]. intros g Hg.
  destruct (S (g * PI / 180) (at_angle i g)) as (y & PY & _ & Down); [|apply TI|].
  { split; [assert (0 < g * PI) by (apply Rmult_lt_0_compat; lra); lra|]. assert (g * PI < g0 * 180 / PI * PI) by (apply Rmult_lt_compat_r; lra). replace (g0 * 180 / PI * PI) with (g0 * 180) in H by (field; lra). lra. }
  replace (tau p * m / tau p) with m by (field; lra). split; [exists y; exact PY|]. intros two E tol secs dt o f HE HX Hdt RUN Hf j k Hjk Hk.
  destruct (C43_flight_aligned E name (mkObj V (at_angle i g) tol None None) secs dt d o HE HP ltac:(destruct two; [right|left]; exact RUN)) as (_ & _ & _ & f' & h & Hf' & _ & AL & _ & TI'). assert (f' = f) by congruence. subst f'. clear Hf'.
  destruct AL as (_ & _ & PL & _ & _ & _ & _ & _ & _ & _ & _ & AL). assert (Lt : length (p_t (f_plot f)) = f_index f) by apply PL. cbv [point] in AL.
  assert (TT : forall l, (l < length (p_t (f_plot f)))%nat -> nth l (p_t (f_plot f)) 0 * 60 = INR l * dt) by (intros l Hl; rewrite <- TI' by lia; apply (AL l); lia).
  assert (Tk : time_of p (f_plot f) k <= m) by (unfold time_of; apply (Rmult_le_reg_r (tau p)); auto; replace (nth k (p_t (f_plot f)) 0 * 60 / tau p * tau p) with (nth k (p_t (f_plot f)) 0 * 60) by (field; lra); lra).
  assert (Tjk : 0 <= time_of p (f_plot f) j < time_of p (f_plot f) k). { unfold time_of. rewrite !TT by lia. assert (INR j < INR k) by (apply lt_INR; lia). pose proof (pos_INR j). split; [apply Rmult_le_pos; [nra|left; apply Rinv_0_lt_compat; auto]|]. apply Rmult_lt_compat_r; [apply Rinv_0_lt_compat; auto|nra]. }
  pose proof (C132_on_the_way two E name V (at_angle i g) tol secs dt d o f y m HE HX HP Hdt Hu HL PY RUN Hf j ltac:(lia) ltac:(fold p; lra)) as Sj. pose proof (C132_on_the_way two E name V (at_angle i g) tol secs dt d o f y m HE HX HP Hdt Hu HL PY RUN Hf k ltac:(lia) Tk) as Sk. fold p in Sj, Sk.
  destruct (Down _ _ Tjk Tk) as (D1 & D2). destruct Sj as (A1 & _ & _ & _ & _ & A6 & _). destruct Sk as (B1 & _ & _ & _ & _ & B6 & _). unfold height in D1. fold p in D1. rewrite <- A1, <- B1 in D1. rewrite <- A6, <- B6 in D2. split; [lra|]. nra.
Qed.
(** Which of the two it is, for starts on the equator: the path bends up if lift, centrifugal force and the rotation of the planet outweigh gravity, and down if they do not. *)
Theorem C133_criterion : forall name mass beta LD A alpha RN p atm V i d, Planet name = Ok p -> Vehicle mass beta LD A alpha RN p atm false = Ok V ->
  h0_km i * 1000 = h_thres p -> 0 < v0_kms i -> phi0_deg i = 0 ->
  let r := RP p + h_thres p in let v := v0_kms i * 1000 in
  let up := 1 / 2 * density_int atm (h_thres p) * (v * v) * (LD / beta) * cos (d * PI / 180) + v * v / r + OMEGA p * OMEGA p * r + 2 * OMEGA p * v * cos (psi0_deg i * PI / 180) in
  let down := GM p / (r * r) * (1 + 1.5 * J2 p * (RP p * RP p / (r * r))) in
  exists rate, bends V i d rate /\ (0 < rate <-> down < up) /\ (rate < 0 <-> up < down).
Proof.
  intros name mass beta LD A alpha RN p atm V i d HP HV Hh Hv Hphi r v up down. destruct (Vehicle_inv _ _ _ _ _ _ _ _ _ _ HV) as (Nm & NbA & _ & _ & _ & _ & _ & EP & EA & EU & EM & ED & EL & EB).
  destruct (ref_facts _ _ HP) as (HVr & HV2 & Ht & HtV & HR & HGM & Hr0). pose proof (hth_pos _ _ HP) as H0. assert (Nb : beta <> 0) by (intros Z; apply NbA; rewrite Z; ring). assert (NA : A <> 0) by (intros Z; apply NbA; rewrite Z; ring).
  set (x := entry_state p (with_gamma0 i 0)). destruct (entry_clear _ _ (with_gamma0 i 0) HP) as (E1 & E2 & E3 & E4). fold x in E1, E2, E3, E4. cbn [with_gamma0 h0_km v0_kms phi0_deg gamma0_deg] in E1, E2, E3, E4.
  assert (E5 : s_psi x = psi0_deg i * PI / 180) by reflexivity. rewrite Hphi in E3. replace (0 * PI / 180) with 0 in E3, E4 by lra.
  assert (Er : s_r x = r / RP p) by (apply (Rmult_eq_reg_l (RP p)); [unfold r; field_simplify; lra|lra]). assert (Ev : s_v x = v / Vref p) by (apply (Rmult_eq_reg_l (Vref p)); [rewrite E2; unfold v; field; lra|lra]).
  assert (Pr : 0 < r) by (unfold r; lra). assert (Pv : 0 < v) by (unfold v; lra). assert (Xr : 0 < s_r x) by (rewrite Er; apply Rdiv_lt_0_compat; auto). assert (Xv : 0 < s_v x) by (rewrite Ev; apply Rdiv_lt_0_compat; auto).
  exists (f6 V (d * PI / 180) x). assert (K : f6 V (d * PI / 180) x = (up - down) * (tau p / v)).
  { unfold f6, fan, fgr, fgp, gr_of, air_at. rewrite E3, E4, E5, sin_0, cos_0, EP, EA, EM, EL, EB. unfold density. replace (s_r x * RP p - RP p) with (h_thres p) by lra. destruct (Rleb_spec 0 (h_thres p)); [|lra]. destruct (Rleb_spec (h_thres p) (h_thres p)); [|lra]. cbn [andb].
    rewrite Er, Ev. unfold OMEGAbar. set (c := cos (d * PI / 180)). set (cp := cos (psi0_deg i * PI / 180)). set (rho := density_int atm (h_thres p)) in *. unfold up, down. fold c cp rho. assert (EG : GM p = Vref p * Vref p * RP p) by (rewrite HV2; field; lra). rewrite EG. assert (Et : tau p = RP p / Vref p) by reflexivity. rewrite Et.
    replace 0.5 with (1 / 2) by lra. replace 1.5 with (3 / 2) by lra. field. repeat split; auto; lra. }
  assert (Pt : 0 < tau p / v) by (apply Rdiv_lt_0_compat; auto). split; [|rewrite K; split; split; intros; nra].
  split; [rewrite EP; exact Hh|]. split; [exact Hv|]. exists (field V (d * PI / 180) x). split; [|reflexivity]. rewrite EP. apply EOM_field; auto; try lra; [rewrite E3, cos_0; lra|rewrite E4, cos_0; lra].
Qed.
(** So the target apoapsis predicate says of them what is true of the level flight past the top. *)
Theorem C133_answer : forall name V i d r target, Planet name = Ok (vh_planet V) -> vh_user V = false -> lipschitz_air (vh_planet V) (vh_atm V) -> bends V i d r -> 0 < r ->
  let p := vh_planet V in let x := entry_state p (with_gamma0 i 0) in
  forall truth, truth = -1 /\ overshoots p (position p x) (air_velocity p x) target \/ truth = 1 /\ undershoots p (position p x) (air_velocity p x) target ->
  forall seconds, 0 < seconds -> exists g0, 0 < g0 /\ forall g, 0 < g < g0 -> exists s s2, 0 < s < seconds /\ s < s2 /\ forall secs, s < secs < s2 ->
    exists delta, 0 < delta /\ forall E tol fl ht dt o a, engine_ok E -> exact E -> 0 < dt < delta -> hitsTargetApoapsis E (mkObj V (at_angle i g) tol fl ht) secs dt d target = (o, Ok a) -> a = truth.
Proof.
  intros name V i d r target HP Hu HL HB Hr p x truth TR sc Hs. destruct (ref_facts _ _ HP) as (HVr & _). destruct (level_facts name V i d r HP Hu HB) as (_ & _ & Hv & _). fold p x in HVr, Hv.
  destruct (C133_verdict false name V i d r target HP Hu HL HB Hr ltac:(apply moving_air; fold p x; lra) sc Hs) as (VO & VU). cbn [judged] in VO, VU. fold p x in VO, VU.
  destruct TR as [(-> & TR)|(-> & TR)]; [destruct (VO TR) as (g0 & Hg0 & S)|destruct (VU TR) as (g0 & Hg0 & S)]; exists g0; (split; [auto|]); intros g Hg; destruct (S g Hg) as (s & s2 & H1 & H2 & W); exists s, s2; (split; [auto|]); (split; [auto|]); intros secs Hsec; specialize (W secs Hsec);
    destruct (C130_answer name V (at_angle i g) d target secs HP Hu HL) as (A1 & A2); [exact (A1 W)|exact (A2 (or_introl W))].
Qed.
