(** Witnesses of C131: flights that start a little below the top of the atmosphere of Venus, climbing; a heavier vehicle flown nearby; and a search among them. *)
From Coq Require Import String List Reals Lra Lia Ranalysis5.
Require Import Verif.Base Verif.Numpy Verif.PlanetModel Verif.PlanetProofs Verif.AeroModel Verif.TrajectoryModel Verif.TrajectorySpec Verif.TrajectoryProofs Verif.FlightProofs
  Verif.PropFlight Verif.ExactSpec Verif.ExactProofs Verif.PropExact Verif.PropExactEx Verif.DetSpec Verif.DetProofs Verif.NearSpec Verif.NearProofs Verif.PropNear Verif.ExistSpec Verif.ExistProofs Verif.PropExist Verif.PropExistEx Verif.ExitSpec Verif.ExitProofs Verif.EnterProofs Verif.PropExit Verif.PropTrap Verif.PropExitRun Verif.PropExitEx
  Verif.FrameModel Verif.FrameProofs Verif.ConicSpec Verif.ConicProofs Verif.OrbiterModel Verif.OrbiterProofs Verif.OrbitModel Verif.OrbitSpec Verif.OrbitProofs Verif.CorridorModel Verif.CorridorSpec Verif.CorridorProofs Verif.PropCorridor Verif.PropExitOrbit Verif.VerdictSpec Verif.VerdictProofs Verif.PropVerdict Verif.PropVerdictEx
  Verif.NearExitSpec Verif.NearExitProofs Verif.PropNearExit Verif.PropNearVerdict.
Import ListNotations.
Local Open Scope string_scope.
Local Open Scope R_scope.

Lemma field_bounded : forall W delta x, 0 < RP (vh_planet W) -> lipschitz_air (vh_planet W) (vh_atm W) -> regular (vh_planet W) x ->
  exists e B, 0 < e /\ 0 < B /\ forall a, dist x a < e -> forall i, Rabs (comp (field W delta a) i) <= B.
Proof.
  intros W delta x HR HL (I & R1 & R2 & R3 & R4). destruct (field_near W delta x HR HL I R1 R2 R3 R4) as (e & L & He & HL' & AW).
  exists e, (dist (field W delta x) (mkState 0 0 0 0 0 0 0) + L * e + 1). pose proof (dist_pos (field W delta x) (mkState 0 0 0 0 0 0 0)). split; auto. split; [nra|]. intros a Ha i.
  specialize (AW a x Ha ltac:(rewrite dist_self; auto)). assert (D : dist (field W delta a) (field W delta x) <= L * dist a x) by (unfold dist at 1, field; cbn [s_r s_theta s_phi s_v s_psi s_gamma s_drange]; lra).
  replace (comp (field W delta a) i) with (comp (field W delta a) i - comp (mkState 0 0 0 0 0 0 0) i) by (destruct i as [|[|[|[|[|[|i]]]]]]; cbn [comp s_r s_theta s_phi s_v s_psi s_gamma s_drange]; ring).
  eapply Rle_trans; [apply comp_dist|]. eapply Rle_trans; [apply (dist_tri _ (field W delta x))|]. rewrite (dist_sym a x) in D. assert (L * dist x a <= L * e) by (apply Rmult_le_compat_l; lra). lra.
Qed.
(** Around a state in which the vehicle climbs every flight exists for a while, stays near and climbs. *)
Lemma rising_flow : forall W dl x, vh_user W = false -> 0 < RP (vh_planet W) -> lipschitz_air (vh_planet W) (vh_atm W) -> regular (vh_planet W) x -> 0 < s_v x * sin (s_gamma x) ->
  exists k, 0 < k /\ forall e, 0 < e -> exists w rho, 0 < w <= e /\ 0 < rho /\ forall x0, dist x x0 < rho -> exists z, z 0 = x0 /\
    (forall t, 0 <= t <= w -> moving_by z t (field W dl (z t)) /\ regular (vh_planet W) (z t) /\ dist x (z t) < e /\ 0 < s_v (z t) * sin (s_gamma (z t))) /\
    forall s t, 0 <= s <= t -> t <= w -> k * (t - s) <= s_r (z t) - s_r (z s).
Proof.
  intros W dl x Hu HR HL RG Hc. set (k := s_v x * sin (s_gamma x)) in *. exists (k / 2). split; [lra|]. intros eps Heps.
  destruct (exist_near W dl x Hu HR HL RG) as (rho & h & Hrho & Hh & EX). destruct (field_bounded W dl x HR HL RG) as (e1 & B & He1 & HB & FB).
  destruct (ll_pos (fun a => f1 a - k / 2) x) as (e2 & He2 & P2); [unfold f1; ll|unfold f1; fold k; lra|]. cbv beta in P2.
  set (e := Rmin eps (Rmin e1 e2)). assert (He : 0 < e) by (repeat apply Rmin_glb_lt; auto). pose proof (Rmin_l eps (Rmin e1 e2) : e <= _) as M1. pose proof (Rmin_r eps (Rmin e1 e2) : e <= _) as M2. pose proof (Rmin_l e1 e2) as M3. pose proof (Rmin_r e1 e2) as M4.
  set (w := Rmin (h / 2) (Rmin eps (e / (16 * B)))). assert (Hq : 0 < e / (16 * B)) by (apply Rdiv_lt_0_compat; lra). assert (Hw : 0 < w) by (repeat apply Rmin_glb_lt; lra).
  pose proof (Rmin_l (h / 2) (Rmin eps (e / (16 * B))) : w <= _) as N1. pose proof (Rmin_r (h / 2) (Rmin eps (e / (16 * B))) : w <= _) as N2. pose proof (Rmin_l eps (e / (16 * B))) as N3. pose proof (Rmin_r eps (e / (16 * B))) as N4.
  assert (BW : 8 * (B * w) <= e / 2). { assert (B * w <= B * (e / (16 * B))) by (apply Rmult_le_compat_l; lra). replace (B * (e / (16 * B))) with (e / 16) in H by (field; lra). lra. }
  pose proof (Rmin_l rho (e / 4)) as D1. pose proof (Rmin_r rho (e / 4)) as D2.
  exists w, (Rmin rho (e / 4)). split; [lra|]. split; [apply Rmin_glb_lt; lra|]. intros x0 Di. destruct (EX x0 ltac:(lra)) as (z & Ez & Hz). exists z. split; auto.
  assert (Cz : forall t, 0 <= t <= w -> continuous_at z t) by (intros t Htt; apply (moving_continuous z t _ (proj1 (Hz t ltac:(rewrite Rabs_right; lra))))).
  assert (Near : forall u, 0 <= u <= w -> dist x (z u) < e).
  { apply (no_escape (fun u => dist x (z u)) 0 w e); [lra|intros u Hu'; apply dist_continuous; auto|]. intros u Hu' Hb.
    assert (D : forall j, (j < 7)%nat -> Rabs (comp x0 j - comp (z u) j) <= B * (u - 0)).
    { intros j Hj. assert (DD : forall c, 0 < c < u -> exists r, derivable_pt_lim (fun s => comp (z s) j) c r /\ - B <= r <= B).
      { intros c Hcc. destruct (Hz c ltac:(rewrite Rabs_right; lra)) as (M & _). eexists. split; [apply comp_moving; exact M|]. apply Rabs_le_inv. apply FB. specialize (Hb c ltac:(lra)). lra. }
      assert (CC : forall c, 0 <= c <= u -> continuity_pt (fun s => comp (z s) j) c) by (intros c Hcc; apply comp_continuous; apply Cz; lra).
      pose proof (rate_bound (fun s => comp (z s) j) nil 0 u B ltac:(lra) CC) as R1. pose proof (rate_bound_low (fun s => comp (z s) j) nil 0 u (- B) ltac:(lra) CC) as R2. cbv beta in R1, R2. rewrite Ez in R1, R2. apply Rabs_le.
      assert (comp (z u) j - comp x0 j <= B * (u - 0)) by (apply R1; intros c Hcc _; destruct (DD c Hcc) as (r & Dr & Lr); exists r; split; auto; lra).
      assert (- B * (u - 0) <= comp (z u) j - comp x0 j) by (apply R2; intros c Hcc _; destruct (DD c Hcc) as (r & Dr & Lr); exists r; split; auto; lra). lra. }
    pose proof (dist_comp _ _ _ D) as DC. pose proof (dist_tri x x0 (z u)). assert (B * (u - 0) <= B * w) by (apply Rmult_le_compat_l; lra). lra. }
  split.
  - intros t Htt. destruct (Hz t ltac:(rewrite Rabs_right; lra)) as (M & Rg). specialize (Near t Htt). split; auto. split; auto. split; [lra|]. specialize (P2 (z t) ltac:(lra)). unfold f1 in P2. lra.
  - intros s t Hs Htw. apply (rate_bound_low (fun u => s_r (z u)) nil s t (k / 2) ltac:(lra)); [intros c Hcc; apply (Cz c); lra|]. intros c Hcc _. exists (f1 (z c)). split; [apply (Hz c ltac:(rewrite Rabs_right; lra))|]. specialize (Near c ltac:(lra)). specialize (P2 (z c) ltac:(lra)). lra.
Qed.
(** From every start close below a state at the top, climbing, the flight leaves soon, close to that state, and stays out for a time that is the same for all. *)
Lemma soon_out : forall name V x d, Planet name = Ok (vh_planet V) -> vh_user V = false -> lipschitz_air (vh_planet V) (vh_atm V) ->
  height (vh_planet V) x = h_thres (vh_planet V) -> 0 < s_v x * sin (s_gamma x) -> cos (s_phi x) <> 0 -> cos (s_gamma x) <> - 0.01 ->
  exists m, 0 < m /\ forall eps, 0 < eps -> exists delta, 0 < delta /\ forall i, dist x (entry_state (vh_planet V) i) < delta -> in_air (vh_planet V) (entry_state (vh_planet V) i) ->
    exists T y, 0 < T < eps /\ stays_out V i d T (T + m) y /\ forall t, 0 <= t <= T -> dist x (y t) < eps.
Proof.
  intros name V x d HP Hu HL Etop Hc Hph Hga. destruct (ref_facts _ _ HP) as (_ & _ & Ht & _ & HR & _). destruct (Planet_facts _ _ HP) as (_ & _ & _ & _ & (Ht0 & Hts) & Hthr & _).
  set (p := vh_planet V) in *. assert (H0 : 0 < h_thres p) by lra. set (dl := d * PI / 180).
  assert (AT : at_top p x). { split; auto. unfold height in Etop. split; [intros Z; rewrite Z in Etop; lra|]. split; [intros Z; rewrite Z in Hc; lra|]. split; auto. intros Z. apply Hga. lra. }
  destruct (rising_flow (airless V) dl x Hu HR (airless_lip V) (top_regular V _ x H0 AT) Hc) as (kA & HkA & FA). destruct (FA 1 ltac:(lra)) as (m & rA & Hm & HrA & FA').
  exists m. split; [lra|]. intros eps0 Heps0. set (eps1 := Rmin eps0 rA). assert (Heps1 : 0 < eps1) by (apply Rmin_glb_lt; auto). pose proof (Rmin_l eps0 rA : eps1 <= _) as L1. pose proof (Rmin_r eps0 rA : eps1 <= _) as L2.
  destruct (ll_pos (height p) x ltac:(unfold height; ll) ltac:(rewrite Etop; auto)) as (e3 & He3 & P3).
  set (eps := Rmin (eps1 / 2) e3). assert (Heps : 0 < eps) by (apply Rmin_glb_lt; lra). pose proof (Rmin_l (eps1 / 2) e3 : eps <= _) as L3. pose proof (Rmin_r (eps1 / 2) e3 : eps <= _) as L4.
  destruct (rising_flow (capped V) dl x Hu HR (capped_lip V HL ltac:(fold p; lra)) (top_regular V _ x H0 AT) Hc) as (k & Hk & FC). destruct (FC eps Heps) as (w & rho & Hw & Hrho & FC').
  assert (Hkw : 0 < k * w) by (apply Rmult_lt_0_compat; lra). pose proof (Rmin_l rho (k * w / 2)) as D1. pose proof (Rmin_r rho (k * w / 2)) as D2.
  exists (Rmin rho (k * w / 2)). split; [apply Rmin_glb_lt; lra|]. intros i Di Ii. set (x0 := entry_state p i) in *. destruct (FC' x0 ltac:(lra)) as (z & Ez & Hz & Rise). cbn [capped rigged vh_planet] in Hz. fold p in Hz.
  assert (Cz : forall t, 0 <= t <= w -> continuous_at z t) by (intros t Htt; apply (moving_continuous z t _ (proj1 (Hz t Htt)))).
  assert (Top : exists T, 0 <= T <= w /\ height p (z T) = h_thres p).
  { set (g := fun u => height p (z u) - h_thres p). assert (G0 : g 0 < 0) by (unfold g; rewrite Ez; unfold in_air in Ii; unfold height; lra).
    assert (Gw : 0 < g w). { unfold g. rewrite <- Etop. unfold height. pose proof (comp_dist x x0 0) as CD. cbn [comp] in CD. assert (CD' : Rabs (s_r x - s_r x0) < k * w / 2) by lra. apply Rabs_def2 in CD'. specialize (Rise 0 w ltac:(lra) ltac:(lra)). rewrite Ez, Rminus_0_r in Rise. assert (s_r x < s_r (z w)) by lra. nra. }
    destruct (IVT_interv g 0 w) as (T & HT & ET); auto; [|lra|exists T; split; auto; unfold g in ET; lra].
    intros a Ha. unfold g. apply (continuity_pt_minus (fun u => height p (z u)) (fun _ => h_thres p)); [|apply continuity_pt_const; intros a' b'; reflexivity]. apply height_continuous. auto. }
  destruct Top as (T & HT & ET).
  assert (HT0 : 0 < T). { destruct (Req_dec T 0) as [->|]; [|lra]. exfalso. rewrite Ez in ET. unfold in_air in Ii. unfold height in ET. lra. }
  assert (Hgt : forall t, 0 <= t <= T -> 0 < height p (z t) <= h_thres p /\ (t < T -> height p (z t) < h_thres p)).
  { intros t Htt. assert (0 < height p (z t)) by (apply P3; destruct (Hz t ltac:(lra)) as (_ & _ & N & _); lra). specialize (Rise t T ltac:(lra) ltac:(lra)). assert (K : k * (T - t) * RP p <= height p (z T) - height p (z t)) by (unfold height; nra). rewrite ET in K.
    assert (0 <= k * (T - t)) by (apply Rmult_le_pos; lra). split; [split; [auto|nra]|]. intros L. assert (0 < k * (T - t)) by (apply Rmult_lt_0_compat; lra). nra. }
  destruct (Hz T HT) as (_ & _ & NT & CT). destruct (FA' (z T) ltac:(lra)) as (v & Ev & Hv & RiseA). cbn [airless rigged vh_planet] in Hv. fold p in Hv.
  assert (Above : forall u, 0 < u <= m -> h_thres p < height p (v u)).
  { intros u Hu'. specialize (RiseA 0 u ltac:(lra) ltac:(lra)). rewrite Ev, Rminus_0_r in RiseA. assert (0 < kA * u) by (apply Rmult_lt_0_compat; lra). rewrite <- ET. unfold height. nra. }
  assert (J0 : forall t, t <= T -> joined z v T t = z t) by (intros t Htt; unfold joined; destruct (Rle_dec t T); [auto|lra]).
  assert (J1 : forall t, T < t -> joined z v T t = v (t - T)) by (intros t Htt; unfold joined; destruct (Rle_dec t T); [lra|auto]).
  assert (SJ : solves (fun x => EOM V x dl) (joined z v T) (T + m)).
  { exists [T]. intros t Htt. split.
    - apply joined_continuous; [rewrite Ev; reflexivity|intros L; apply Cz; lra|intros L; apply (moving_continuous _ _ _ (proj1 (Hv (t - T) ltac:(lra))))].
    - destruct (Rle_or_lt t T) as [L|L].
      + destruct (Hz t ltac:(lra)) as (M & (_ & R1 & R2 & R3 & R4) & _). exists (field V dl (z t)). rewrite J0 by auto. split; [apply field_defined; auto|]. intros Ht1 Hn. assert (t <> T) by (intros ->; apply Hn; left; reflexivity). apply joined_left; [lra|]. rewrite <- capped_field; [exact M|]. fold p. destruct (Hgt t ltac:(lra)). lra.
      + destruct (Hv (t - T) ltac:(lra)) as (M & (_ & R1 & R2 & R3 & R4) & _). exists (field V dl (v (t - T))). rewrite J1 by lra. split; [apply field_defined; auto|]. intros _ _. apply joined_right; auto. rewrite <- airless_field; [exact M|auto|apply Above; lra]. }
  exists T, (joined z v T). split; [lra|]. split; [|intros t Htt; rewrite J0 by lra; destruct (Hz t ltac:(lra)) as (_ & _ & N & _); lra].
  split; [|split; [lra|split; [exact SJ|intros t Htt; rewrite J1 by lra; apply Above; lra]]].
  split; [lra|]. rewrite !J0 by lra. split; [exact Ez|]. split; [eapply solves_upto; [exact SJ|lra]|]. split; [|split; [exact ET|exact CT]].
  intros t Htt. left. rewrite J0 by lra. destruct (Hgt t ltac:(lra)) as (G1 & G2). specialize (G2 ltac:(lra)). unfold in_air. unfold height in G1, G2. fold p. lra.
Qed.
(** A flight that leaves the atmosphere and stays out is flown by the ideal integrator, as long as it stays out. *)
Lemma long_flown : forall name V i d T T2 y tol secs dt, Planet name = Ok (vh_planet V) -> vh_user V = false -> lipschitz_air (vh_planet V) (vh_atm V) -> stays_out V i d T T2 y ->
  (forall t, 0 <= t <= T -> h_trap (vh_planet V) < height (vh_planet V) (y t)) -> 0 < dt -> tau (vh_planet V) * T < secs -> secs + dt <= tau (vh_planet V) * T2 ->
  exists o f h, propogateEntry ideal (mkObj V i tol None None) secs dt d = (o, Ok tt) /\ ob_flight o = Some f /\ ob_heat o = Some h /\ f_exitflag f = 1.
Proof.
  intros name V i d T T2 y tol secs dt HP Hu HL SO Hup Hdt HsT HsT2. destruct (ref_facts _ _ HP) as (_ & _ & Ht & _ & HR & _). destruct (Planet_facts _ _ HP) as (_ & _ & _ & _ & (Ht0 & Hts) & Hthr & _).
  set (p := vh_planet V) in *. assert (H0 : 0 < h_thres p) by lra. pose proof SO as (LV & HT2 & SZ & Up). fold p in Up. pose proof LV as (HT & Y0 & _). fold p in Y0.
  set (stop := (secs + dt) / tau p). set (step := dt / tau p). assert (HTs : 0 <= tau p * T) by (apply Rmult_le_pos; lra).
  assert (Hst : 0 < step) by (apply Rdiv_lt_0_compat; lra). assert (Hstop : 0 < stop) by (apply Rdiv_lt_0_compat; lra).
  destruct (arange stop step) as [ts|e] eqn:Ea.
  2:{ exfalso. unfold arange in Ea. destruct (Reqb step 0) eqn:Eq; [apply Reqb_true in Eq; lra|discriminate]. }
  destruct (arange_inv _ _ _ Ea) as (La & Na). assert (Hlen : 0 < stop / step) by (apply Rdiv_lt_0_compat; auto). pose proof (PropRoundGrid.ceil_between (stop / step) ltac:(lra)) as (C1 & C2). rewrite <- La in C1, C2.
  assert (Hne : ts <> []). { intros Q. rewrite Q in C1. cbn in C1. lra. }
  assert (Hz : nth_error ts 0 = Some 0). { destruct ts as [|t ts]; [congruence|]. pose proof (Na 0%nat ltac:(cbn; lia)) as N. cbn in *. rewrite N. f_equal. ring. }
  destruct (grid_regular ts step (Rlt_le _ _ Hst) Na) as (G & _).
  assert (HLs : last ts 0 * tau p < secs + dt).
  { assert (Hl : last ts 0 = INR (length ts - 1) * step) by (rewrite PropGuidance.last_nth; apply Na; destruct ts; [congruence|cbn; lia]).
    assert (E1 : INR (length ts) = INR (length ts - 1) + 1) by (rewrite <- S_INR; f_equal; destruct ts; [congruence|cbn; lia]).
    assert (E2 : stop / step * dt = secs + dt) by (unfold stop, step; field; lra). rewrite Hl. replace (INR (length ts - 1) * step * tau p) with (INR (length ts - 1) * dt) by (unfold step; field; lra). nra. }
  assert (HTa : last ts 0 <= T2) by (apply (Rmult_le_reg_r (tau p)); auto; lra).
  assert (SZ' : solution (fun x => EOM V x (d * PI / 180)) (entry_state p i) (last ts 0) y) by (split; auto; eapply solves_upto; eauto).
  assert (ZU : forall z, solution (fun x => EOM V x (d * PI / 180)) (entry_state p i) (last ts 0) z -> forall t, 0 <= t <= last ts 0 -> z t = y t) by (intros z (Z0 & Sz) t Htt; apply (out_same V i d T T2 y z (last ts 0) Hu HR H0 HL SO Z0 Sz); lra).
  assert (A : asked (fun x => EOM V x (d * PI / 180)) (entry_state p i) ts) by (split; [|auto]; exists y; split; auto).
  assert (M : map (the_state (fun x => EOM V x (d * PI / 180)) (entry_state p i) (last ts 0)) ts = map y ts).
  { apply map_ext_in. intros t Htt. pose proof (proj1 (Forall_forall _ _) G t Htt) as B. apply the_state_is; auto. }
  assert (SV : solveTrajectory ideal V tol (entry_state p i) secs dt (deg d) = Ok (channels ts (map y ts))).
  { unfold solveTrajectory. fold p stop step. rewrite Ea. cbn [rbind odeint ideal]. unfold deg. destruct (decide _) as [_|N]; [|contradiction]. cbn [rbind]. rewrite M. reflexivity. }
  destruct (sampled_run (solveTrajectory ideal) name V i tol d ts (map y ts) secs dt None None HP Hne (map_length _ _)) as (f & h & ST).
  - fold p. destruct ts as [|t0 ts']; [congruence|]. cbn in Hz. injection Hz as ->. cbn [map nth]. pose proof (Hup 0 ltac:(lra)) as Q1. pose proof (leaves_below V i d T y H0 LV 0 ltac:(lra)) as Q2. fold p in Q2. lra.
  - left. fold p. intros x Hx. apply in_map_iff in Hx. destruct Hx as (t & <- & Hin). pose proof (proj1 (Forall_forall _ _) G t Hin) as B. cbv beta in B. destruct (Rle_or_lt t T) as [L|L]; [apply Hup; lra|]. specialize (Up t ltac:(lra)). lra.
  - exact SV.
  - exists (mkObj V i tol (Some f) (Some h)), f, h. assert (P : propogateEntry ideal (mkObj V i tol None None) secs dt d = (mkObj V i tol (Some f) (Some h), Ok tt)) by exact ST. do 3 (split; [first [exact P|reflexivity]|]).
    apply (long_flag ideal name V i tol d T T2 y secs dt (mkObj V i tol (Some f) (Some h)) f); auto using ideal_ok, ideal_exact.
Qed.
Lemma self_nearby : forall eta V i d, 0 <= eta -> vh_user V = false -> h0_km i * 1000 <= h_thres (vh_planet V) -> nearby eta ideal V V i i d d.
Proof. intros eta V i d He Hu Ht. split; [apply exact_nearly; auto using ideal_exact|]. split; [apply within_self; auto|]. split; [split; [apply start_self; auto|auto]|]. rewrite Rminus_diag_eq, Rabs_R0 by reflexivity. auto. Qed.
(** As near as one likes to a vehicle there is another one, with another lift, that starts elsewhere and flies at another bank angle. *)
Example C131_nearby_witness : forall eta i, 0 < eta -> h0_km i <= 180 -> exists V V' q, 0 < q /\ Vehicle 300 50 0.3 4.5 0 1.5 VENUS thick false = Ok V /\ Vehicle 300 50 (0.3 + q) 4.5 0 1.5 VENUS thick false = Ok V' /\ vh_CL V <> vh_CL V' /\
  nearby eta ideal V V' i (mkInit (h0_km i - eta) (theta0_deg i) (phi0_deg i) (v0_kms i + eta) (psi0_deg i) (gamma0_deg i) (drange0_km i) (heatLoad0 i)) 30 (30 + eta).
Proof.
  intros eta i He Hi. assert (Mk : forall q, exists V, Vehicle 300 50 q 4.5 0 1.5 VENUS thick false = Ok V) by (intros q; unfold Vehicle; rcases; try lra; eexists; reflexivity).
  destruct (Mk 0.3) as (V & HV). destruct (Vehicle_inv _ _ _ _ _ _ _ _ _ _ HV) as (_ & _ & _ & _ & _ & _ & _ & EP & EA & EU & EM & ED & EL & EB).
  set (c := 4.5 / (300 / (rho0 VENUS * RP VENUS)) * (300 / (50 * 4.5))) in *. assert (Hc : 0 < c) by (unfold c, rho0, RP, VENUS; lra). set (q := eta / (1 + c)). assert (Hq : 0 < q) by (apply Rdiv_lt_0_compat; lra). assert (Hcq : c * q <= eta) by (assert ((1 + c) * q = eta) by (unfold q; field; lra); nra).
  destruct (Mk (0.3 + q)) as (V' & HV'). destruct (Vehicle_inv _ _ _ _ _ _ _ _ _ _ HV') as (_ & _ & _ & _ & _ & _ & _ & EP' & EA' & EU' & EM' & ED' & EL' & EB').
  exists V, V', q. split; auto. split; auto. split; auto. split; [rewrite EL, EL'; lra|]. split; [apply exact_nearly; [lra|apply ideal_exact]|]. split; [|split; [|rewrite Rabs_left; lra]].
  - split; [congruence|]. split; auto. rewrite EB, EB', ED, ED', EL, EL', EM, EM', EA, EA'. split; [rewrite Rminus_diag_eq, Rabs_R0 by reflexivity; lra|]. split; [|intros h _; rewrite Rminus_diag_eq, Rabs_R0 by reflexivity; lra].
    replace (4.5 / (300 / (rho0 VENUS * RP VENUS)) * (0.3 * (300 / (50 * 4.5))) / 1 - 4.5 / (300 / (rho0 VENUS * RP VENUS)) * ((0.3 + q) * (300 / (50 * 4.5))) / 1) with (- (c * q)) by (unfold c; lra). assert (0 < c * q) by (apply Rmult_lt_0_compat; auto). rewrite Rabs_Ropp, Rabs_right; lra.
  - split; [|rewrite EP; cbn [h0_km h_thres VENUS]; lra]. unfold start_within. cbn [h0_km theta0_deg phi0_deg v0_kms psi0_deg gamma0_deg drange0_km]. repeat split; first [rewrite Rminus_diag_eq, Rabs_R0 by reflexivity; lra|rewrite Rabs_right; lra|rewrite Rabs_left; lra].
Qed.
(** A flight from inside that leaves, too high and too low for two targets, and a lost one; the ideal integrator flies them. *)
Example C131_answer_witness : exists V, Vehicle 300 50 0.3 4.5 0 1.5 VENUS thick false = Ok V /\ lipschitz_air VENUS thick /\
  (exists i T T2 y secs target dt0, from_inside VENUS i /\ 0 < T /\ stays_out V i 30 T T2 y /\ tau VENUS * T < secs < tau VENUS * T2 /\ energy (GM VENUS) (position VENUS (y T)) (air_velocity VENUS (y T)) < 0 /\
     too_high false V i 30 (target - 1) secs /\ too_low false V i 30 (target + 1) secs /\
     0 < dt0 /\ forall dt, 0 < dt < dt0 -> (forall eta, 0 < eta -> nearby eta ideal V V i i 30 30) /\
       exists o f, propogateEntry ideal (mkObj V i 1 None None) secs dt 30 = (o, Ok tt) /\ ob_flight o = Some f /\ f_exitflag f = 1) /\
  (exists i T T2 y secs, from_inside VENUS i /\ passage V i 30 T2 y /\ 0 < T < T2 /\ sinks V T y /\ tau VENUS * T < secs < tau VENUS * T2 /\ lost V i 30 secs).
Proof.
  destruct thick_made as (V & HV). destruct thick_facts as (Ha & HL). destruct way_out_facts as (F1 & F2 & F3 & F4). destruct way_out_air as (O1 & O2).
  destruct (Vehicle_inv _ _ _ _ _ _ _ _ _ _ HV) as (_ & _ & _ & _ & _ & _ & _ & EP & EA & EU & _). assert (HP : Planet "VENUS" = Ok (vh_planet V)) by (rewrite EP; reflexivity).
  destruct (ref_facts "VENUS" VENUS eq_refl) as (HVr & _ & Ht & _). assert (HL' : lipschitz_air (vh_planet V) (vh_atm V)) by (rewrite EP, EA; exact HL).
  exists V. split; auto. split; auto. split.
  - destruct (C129_reached "VENUS" V (entry_state VENUS way_out) 30 100000 HP EU HL') as (i & T & y & HT & LV & YT & UP & IA); try (rewrite EP); auto; [cbn [h_thres VENUS]; lra|].
    destruct (stays "VENUS" V i 30 T y HP EU HL' LV) as (T2 & Z & SO & ZT). rewrite YT in ZT. pose proof SO as (LZ & HT2 & _ & _). destruct (apoapsis_of VENUS _ _ ltac:(unfold GM, VENUS; lra) O2 O1) as (_ & AP). set (ra := - GM VENUS / _ * _) in AP.
    assert (Hv : judged false VENUS (entry_state VENUS way_out) <> vzero) by (apply moving_air; auto; intros K; rewrite K in F2; lra).
    assert (ZY : forall t, 0 <= t <= T -> Z t = y t). { destruct LZ as (_ & Z0 & SZ & _). intros t Htt. apply (leaves_same V i 30 T y Z T EU ltac:(rewrite EP; cbn; lra) ltac:(rewrite EP; cbn; lra) HL' LV Z0 SZ); lra. }
    assert (UPZ : forall t, 0 <= t <= T -> h_trap (vh_planet V) < height (vh_planet V) (Z t)). { intros t Htt. rewrite ZY by auto. specialize (UP t Htt). rewrite EP in UP |- *. cbn [h_trap VENUS]. lra. }
    set (secs := tau VENUS * ((T + T2) / 2)). exists i, T, T2, Z, secs, ((ra - RP VENUS) / 1000), (tau VENUS * T2 - secs).
    assert (Hs : tau VENUS * T < secs < tau VENUS * T2) by (split; apply Rmult_lt_compat_l; lra).
    assert (FIi : from_inside VENUS i).
    { destruct LV as (_ & Y0 & _ & _). pose proof (IA 0 ltac:(lra)) as I. specialize (UP 0 ltac:(lra)). rewrite Y0 in I, UP. rewrite EP in I, UP. destruct (entry_clear "VENUS" VENUS i eq_refl) as (Q & _). unfold in_air in I. unfold height in UP. unfold from_inside. cbn [h_trap h_thres VENUS] in *. split; [lra|left; lra]. }
    split; auto.
    split; auto. split; auto. split; auto. split; [rewrite ZT; auto|]. split; [|split; [|split; [lra|]]].
    + exists T, T2, Z. split; [exact SO|]. rewrite ZT, EP. split; [exact Hs|]. split; [exact Hv|]. right. split; auto. exists ra. split; auto. lra.
    + exists T, T2, Z. split; [exact SO|]. rewrite ZT, EP. split; [exact Hs|]. split; [exact Hv|]. split; auto. exists ra. split; auto. lra.
    + intros dt Hdt. split; [intros eta He; apply self_nearby; auto; [lra|rewrite EP; destruct FIi as (_ & [K|(K & _)]); lra]|]. destruct (long_flown "VENUS" V i 30 T T2 Z 1 secs dt HP EU HL' SO UPZ) as (o & f & h & R1 & R2 & _ & R4); try (rewrite EP; lra); try lra. exists o, f. auto.
  - set (p := VENUS). set (x := mkState ((RP p + h_trap p) / RP p) 0 0 1 0 (- (PI / 4)) 0). pose proof PI_RGT_0 as HPI. pose proof PI_4.
    assert (S1 : s_v x * sin (s_gamma x) < 0) by (cbn [x s_v s_gamma]; rewrite sin_neg; assert (0 < sin (PI / 4)) by (apply sin_gt_0; lra); lra).
    assert (Ex : height (vh_planet V) x = h_trap (vh_planet V)) by (rewrite EP; unfold height, x; cbn [s_r RP h_trap VENUS URANUS p]; lra).
    assert (Cx : cos (s_gamma x) <> - 0.01) by (cbn [x s_gamma]; rewrite cos_neg; assert (0 < cos (PI / 4)) by (apply cos_gt_0; lra); lra).
    assert (Px : cos (s_phi x) <> 0) by (cbn [x s_phi]; rewrite cos_0; lra).
    destruct (C129_trap_reached "VENUS" V x 30 HP EU HL' Ex S1 Px Cx) as (i & T2 & y & T & HT & W & SK & _). pose proof (way_passage _ _ _ _ _ W) as PW.
    assert (Hs : tau VENUS * T < tau VENUS * ((T + T2) / 2) < tau VENUS * T2) by (split; apply Rmult_lt_compat_l; lra).
    exists i, T, T2, y, (tau VENUS * ((T + T2) / 2)). split; [|split; auto; split; auto; split; auto; split; auto; exists T, T2, y; rewrite EP; split; auto; split; [lra|]; split; auto].
    destruct W as (Y0 & _ & I). specialize (I 0 ltac:(lra)). destruct SK as (AB & _). specialize (AB 0 ltac:(lra)). rewrite Y0 in I, AB. rewrite EP in I, AB. destruct (entry_clear "VENUS" VENUS i eq_refl) as (Q & _). unfold in_air in I. unfold height in AB. unfold from_inside, p in *. split; [lra|left; lra].
Qed.
(** [s] km below the top of the atmosphere of Venus at the circular speed there, climbing at the angle [g]. *)
Definition below (s g : R) : init := mkInit (180 - s) 0 0 (sqrt (GM VENUS / 6231800) / 1000) 0 g 0 0.
Lemma below_facts : forall s g, 0 < s < 1 -> from_inside VENUS (below s g) /\ in_air VENUS (entry_state VENUS (below s g)) /\ start_within s (circle g) (below s g).
Proof.
  intros s g Hs. destruct (entry_clear "VENUS" VENUS (below s g) eq_refl) as (Q & _). cbn [h0_km below] in Q. split; [unfold from_inside; cbn [below h0_km h_trap h_thres VENUS]; split; [lra|left; lra]|]. split; [unfold in_air; rewrite Q; cbn [h_thres VENUS]; lra|].
  unfold start_within, below, circle. cbn [h0_km theta0_deg phi0_deg v0_kms psi0_deg gamma0_deg drange0_km]. repeat split; first [rewrite Rminus_diag_eq, Rabs_R0 by reflexivity; lra|rewrite Rabs_right; lra|rewrite Rabs_left; lra].
Qed.
Lemma below_one : forall V g d target a, vh_planet V = VENUS -> vh_user V = false -> lipschitz_air (vh_planet V) (vh_atm V) -> 0 < g <= 90 -> let x := entry_state VENUS (circle g) in
  a = -1 /\ overshoots VENUS (position VENUS x) (air_velocity VENUS x) target \/ a = 1 /\ undershoots VENUS (position VENUS x) (air_velocity VENUS x) target ->
  exists m, 0 < m /\ forall secs, 0 < secs < m -> exists s0, 0 < s0 /\ forall s, 0 < s < s0 -> verdict V (below s g) d target secs a /\
    forall dt, 0 < dt < m - secs -> exists o f h, propogateEntry ideal (mkObj V (below s g) 1 None None) secs dt d = (o, Ok tt) /\ ob_flight o = Some f /\ ob_heat o = Some h /\ f_exitflag f = 1.
Proof.
  intros V g d target a EP EU HL Hg x VD. assert (HP : Planet "VENUS" = Ok (vh_planet V)) by (rewrite EP; reflexivity). destruct (ref_facts "VENUS" VENUS eq_refl) as (HVr & _ & Ht & _ & HR & _).
  destruct (circle_clear g) as (E1 & _ & E3 & E4 & E5). fold x in E1, E3, E4, E5. pose proof PI_RGT_0 as HPI.
  assert (Hr : 0 < s_r x) by (unfold RP, VENUS in E1; lra). assert (S1 : 0 < sin (s_gamma x)) by (rewrite E5; apply sin_gt_0; nra). assert (C1 : 0 <= cos (s_gamma x)) by (rewrite E5; apply cos_ge_0; nra).
  assert (Hv : judged false VENUS x <> vzero) by (apply moving_air; auto; lra).
  assert (Etop : height (vh_planet V) x = h_thres (vh_planet V)) by (rewrite EP; unfold height; rewrite E1; cbn [RP h_thres VENUS]; lra).
  destruct (soon_out "VENUS" V x d HP EU HL Etop ltac:(apply Rmult_lt_0_compat; auto) ltac:(rewrite E4, cos_0; lra) ltac:(lra)) as (m & Hm & SO). rewrite EP in SO.
  destruct (verdict_open "VENUS" false VENUS x target eq_refl Hr Hv) as (VO & VU). change (judged false VENUS) with (air_velocity VENUS) in VO, VU, Hv.
  assert (OP : exists e, 0 < e /\ forall b, dist x b < e -> air_velocity VENUS b <> vzero /\ (a = -1 /\ overshoots VENUS (position VENUS b) (air_velocity VENUS b) target \/ a = 1 /\ undershoots VENUS (position VENUS b) (air_velocity VENUS b) target)).
  { destruct VD as [(Ea & VD)|(Ea & VD)]; [destruct (VO VD) as (e & He & B)|destruct (VU VD) as (e & He & B)]; exists e; (split; [auto|]); intros b Db; destruct (B b Db) as (_ & B2 & B3); (split; [exact B2|]); [left|right]; auto. }
  destruct OP as (e1 & He1 & OP). exists (tau VENUS * m). split; [apply Rmult_lt_0_compat; auto|]. intros secs Hs.
  set (c := secs / tau VENUS). assert (Hc : 0 < c) by (apply Rdiv_lt_0_compat; lra). assert (Ec : tau VENUS * c = secs) by (unfold c; field; lra).
  set (eps := Rmin e1 (Rmin c (1 / 100))). assert (Heps : 0 < eps) by (repeat apply Rmin_glb_lt; lra). pose proof (Rmin_l e1 (Rmin c (1 / 100)) : eps <= _) as L1. pose proof (Rmin_r e1 (Rmin c (1 / 100)) : eps <= _) as L2. pose proof (Rmin_l c (1 / 100)) as L3. pose proof (Rmin_r c (1 / 100)) as L4.
  destruct (SO eps Heps) as (delta & Hd & SOd). set (C := 2000 / RP VENUS + 1000 / Vref VENUS + 4). assert (HC : 0 < C). { assert (0 < 2000 / RP VENUS) by (apply Rdiv_lt_0_compat; lra). assert (0 < 1000 / Vref VENUS) by (apply Rdiv_lt_0_compat; lra). unfold C. lra. }
  exists (Rmin 1 (delta / C)). split; [apply Rmin_glb_lt; [lra|apply Rdiv_lt_0_compat; auto]|]. pose proof (Rmin_l 1 (delta / C)). pose proof (Rmin_r 1 (delta / C)). intros s Hss. destruct (below_facts s g ltac:(lra)) as (FI & IA & SW).
  assert (D : dist x (entry_state VENUS (below s g)) < delta). { eapply Rle_lt_trans; [exact (start_dist VENUS (circle g) (below s g) s HR HVr SW)|]. fold C. apply Rlt_le_trans with (C * (delta / C)); [apply Rmult_lt_compat_l; lra|]. right. field. lra. }
  destruct (SOd (below s g) D IA) as (T & y & HT & SOy & NY). assert (HTc : tau VENUS * T < secs) by (rewrite <- Ec; apply Rmult_lt_compat_l; lra). assert (HTm : tau VENUS * m < tau VENUS * (T + m)) by (apply Rmult_lt_compat_l; lra).
  destruct (OP (y T) ltac:(specialize (NY T ltac:(lra)); lra)) as (B2 & B3). split.
  - destruct B3 as [(-> & B3)|(-> & B3)]; [left|right]; (split; [auto|]); [|left]; exists T, (T + m), y; rewrite EP; (split; [exact SOy|]); (split; [lra|]); (split; [exact B2|exact B3]).
  - intros dt Hdt. apply (long_flown "VENUS" V (below s g) d T (T + m) y 1 secs dt HP EU HL SOy); rewrite ?EP; try lra. intros t Htt. specialize (NY t Htt). pose proof (height_dist VENUS x (y t) HR) as HD. rewrite EP in Etop. rewrite Etop in HD. apply Rabs_le_inv in HD.
    assert (RP VENUS * dist x (y t) <= RP VENUS * (1 / 100)) by (apply Rmult_le_compat_l; lra). cbn [RP h_thres h_trap VENUS] in *. lra.
Qed.
(** A search among flights that start inside: the true boundary is where it should be at both bank angles, and the ideal integrator finds it. *)
Example C131_witness : exists V b target secs s, Vehicle 300 50 0.3 4.5 0 1.5 VENUS thick false = Ok V /\ 0 < secs /\ (forall g, from_inside VENUS (with_gamma0 (below s 45) g)) /\
  true_boundary V (below s 45) 180 target secs 30 90 1 b /\ true_boundary V (below s 45) 0 target secs 30 90 1 b /\ (forall eta bank, 0 < eta -> nearby eta ideal V V (below s 45) (below s 45) bank bank) /\
  exists delta, 0 < delta /\ forall dt, 0 < dt < delta -> exists o, findOverShootLimit ideal 1 (mkObj V (below s 45) 1 None None) secs dt 30 90 30 target = Some (o, Ok (60, 1)) /\ Rabs (60 - b) <= 30.
Proof.
  destruct thick_made as (V & HV). destruct thick_facts as (Ha & HL).
  destruct (Vehicle_inv _ _ _ _ _ _ _ _ _ _ HV) as (_ & _ & _ & _ & _ & _ & _ & EP & EA & EU & _). assert (HP : Planet "VENUS" = Ok (vh_planet V)) by (rewrite EP; reflexivity).
  assert (HL' : lipschitz_air (vh_planet V) (vh_atm V)) by (rewrite EP, EA; exact HL). set (target := (1.7 * 6231800 - RP VENUS) / 1000).
  assert (Q1 : sin (30 * PI / 180) = 1 / 2) by (replace (30 * PI / 180) with (PI / 6) by lra; apply sin_PI6). assert (Q2 : 1.4 / 2 < sin (60 * PI / 180)).
  { replace (60 * PI / 180) with (PI / 3) by lra. rewrite sin_PI3. assert (1.4 < sqrt 3); [|lra]. rewrite <- (sqrt_Rsqr 1.4) by lra. apply sqrt_lt_1; unfold Rsqr; lra. }
  assert (Q3 : sin (90 * PI / 180) = 1) by (replace (90 * PI / 180) with (PI / 2) by lra; apply sin_PI2).
  assert (W1 : forall d, exists m, 0 < m /\ forall secs, 0 < secs < m -> exists s0, 0 < s0 /\ forall s, 0 < s < s0 -> verdict V (below s 30) d target secs 1 /\
    forall dt, 0 < dt < m - secs -> exists o f h, propogateEntry ideal (mkObj V (below s 30) 1 None None) secs dt d = (o, Ok tt) /\ ob_flight o = Some f /\ ob_heat o = Some h /\ f_exitflag f = 1).
  { intros d. apply (below_one V 30 d target 1 EP EU HL' ltac:(lra)). right. split; auto. destruct (circle_apoapsis 30 ltac:(lra)) as (N & AP). split; [exact N|]. eexists. split; [exact AP|]. rewrite Q1. unfold target. lra. }
  assert (W2 : forall g d, g = 60 \/ g = 90 -> exists m, 0 < m /\ forall secs, 0 < secs < m -> exists s0, 0 < s0 /\ forall s, 0 < s < s0 -> verdict V (below s g) d target secs (-1) /\
    forall dt, 0 < dt < m - secs -> exists o f h, propogateEntry ideal (mkObj V (below s g) 1 None None) secs dt d = (o, Ok tt) /\ ob_flight o = Some f /\ ob_heat o = Some h /\ f_exitflag f = 1).
  { intros g d Hg. assert (Sg : 1.4 / 2 < sin (g * PI / 180)) by (destruct Hg as [-> | ->]; lra). apply (below_one V g d target (-1) EP EU HL' ltac:(destruct Hg; lra)). left. split; auto. destruct (circle_apoapsis g ltac:(lra)) as (N & AP). right. split; [exact N|]. eexists. split; [exact AP|]. unfold target. lra. }
  assert (ALL : exists m, 0 < m /\ forall secs, 0 < secs < m -> exists s0, 0 < s0 /\ forall s d, 0 < s < s0 -> d = 180 \/ d = 0 ->
    (verdict V (below s 30) d target secs 1 /\ verdict V (below s 60) d target secs (-1) /\ verdict V (below s 90) d target secs (-1)) /\
    forall g dt, g = 30 \/ g = 60 \/ g = 90 -> 0 < dt < m - secs -> exists o f h, propogateEntry ideal (mkObj V (below s g) 1 None None) secs dt d = (o, Ok tt) /\ ob_flight o = Some f /\ ob_heat o = Some h /\ f_exitflag f = 1).
  { destruct (W1 180) as (m1 & H1 & A1). destruct (W2 60 180 (or_introl eq_refl)) as (m2 & H2 & A2). destruct (W2 90 180 (or_intror eq_refl)) as (m3 & H3 & A3). destruct (W1 0) as (m4 & H4 & A4). destruct (W2 60 0 (or_introl eq_refl)) as (m5 & H5 & A5). destruct (W2 90 0 (or_intror eq_refl)) as (m6 & H6 & A6).
    exists (Rmin (Rmin m1 (Rmin m2 m3)) (Rmin m4 (Rmin m5 m6))). split; [repeat apply Rmin_glb_lt; auto|]. intros secs (Hs & Hm). pose proof Hm as Hm'. apply Rmin_Rgt_l in Hm'. destruct Hm' as (K1 & K2). apply Rmin_Rgt_l in K1. destruct K1 as (K1 & K3). apply Rmin_Rgt_l in K3. destruct K3 as (K3 & K4). apply Rmin_Rgt_l in K2. destruct K2 as (K2 & K5). apply Rmin_Rgt_l in K5. destruct K5 as (K5 & K6).
    pose proof (Rmin_l (Rmin m1 (Rmin m2 m3)) (Rmin m4 (Rmin m5 m6))). pose proof (Rmin_r (Rmin m1 (Rmin m2 m3)) (Rmin m4 (Rmin m5 m6))). pose proof (Rmin_l m1 (Rmin m2 m3)). pose proof (Rmin_r m1 (Rmin m2 m3)). pose proof (Rmin_l m2 m3). pose proof (Rmin_r m2 m3). pose proof (Rmin_l m4 (Rmin m5 m6)). pose proof (Rmin_r m4 (Rmin m5 m6)). pose proof (Rmin_l m5 m6). pose proof (Rmin_r m5 m6).
    destruct (A1 secs ltac:(lra)) as (s1 & P1 & B1). destruct (A2 secs ltac:(lra)) as (s2 & P2 & B2). destruct (A3 secs ltac:(lra)) as (s3 & P3 & B3). destruct (A4 secs ltac:(lra)) as (s4 & P4 & B4). destruct (A5 secs ltac:(lra)) as (s5 & P5 & B5). destruct (A6 secs ltac:(lra)) as (s6 & P6 & B6).
    exists (Rmin (Rmin s1 (Rmin s2 s3)) (Rmin s4 (Rmin s5 s6))). split; [repeat apply Rmin_glb_lt; auto|]. intros s d (Hss & Hsm) Hd. apply Rmin_Rgt_l in Hsm. destruct Hsm as (J1 & J2). apply Rmin_Rgt_l in J1. destruct J1 as (J1 & J3). apply Rmin_Rgt_l in J3. destruct J3 as (J3 & J4). apply Rmin_Rgt_l in J2. destruct J2 as (J2 & J5). apply Rmin_Rgt_l in J5. destruct J5 as (J5 & J6).
    destruct (B1 s ltac:(lra)) as (V1 & R1). destruct (B2 s ltac:(lra)) as (V2 & R2). destruct (B3 s ltac:(lra)) as (V3 & R3). destruct (B4 s ltac:(lra)) as (V4 & R4). destruct (B5 s ltac:(lra)) as (V5 & R5). destruct (B6 s ltac:(lra)) as (V6 & R6).
    destruct Hd as [-> | ->]; (split; [auto|]); intros g dt [-> |[-> | ->]] Hdt; [apply R1|apply R2|apply R3|apply R4|apply R5|apply R6]; lra. }
  clear W1 W2. destruct ALL as (m & Hm & ALL). destruct (ALL (m / 2) ltac:(lra)) as (s0 & Hs0 & AS). clear ALL. set (secs := m / 2) in *. assert (Hsec : 0 < secs) by (unfold secs; lra). set (s := Rmin s0 1 / 2). pose proof (Rmin_l s0 1). pose proof (Rmin_r s0 1). assert (0 < Rmin s0 1) by (apply Rmin_glb_lt; lra). assert (Hs : 0 < s < s0) by (unfold s; lra). assert (Hs1 : 0 < s < 1) by (unfold s; lra).
  assert (TB : forall d, d = 180 \/ d = 0 -> true_boundary V (below s 45) d target secs 30 90 1 40).
  { intros d Hd. destruct (AS s d Hs Hd) as ((V1 & V2 & V3) & _). split; [lra|]. split; [intros D; apply thirty in D; lra|]. exists 1. intros g D. apply thirty in D. destruct D as [-> |[-> | ->]]; (split; intros K; try lra; assumption). }
  assert (FI : forall g, from_inside VENUS (with_gamma0 (below s 45) g)) by (intros g; apply (below_facts s g Hs1)).
  assert (Htop : forall g, h0_km (below s g) * 1000 <= h_thres (vh_planet V)) by (intros g; rewrite EP; cbn [below h0_km h_thres VENUS]; lra).
  exists V, 40, target, secs, s. split; auto. split; auto. split; auto. split; [apply TB; auto|]. split; [apply TB; auto|]. split; [intros eta bank He; apply self_nearby; auto; lra|].
  assert (FIV : forall g, division 30 90 1 g -> from_inside (vh_planet V) (with_gamma0 (below s 45) g)) by (intros; rewrite EP; apply FI).
  destruct (C131_boundary "VENUS" V (below s 45) 180 target secs 30 90 30 1 40 HP ltac:(discriminate) EU HL' FIV ltac:(cbn; lra) (TB 180 (or_introl eq_refl))) as (d0 & Hd0 & BD).
  destruct (AS s 180 Hs (or_introl eq_refl)) as ((V1 & V2 & V3) & RUN).
  assert (EXACT : forall g a, verdict V (below s g) 180 target secs a -> exists d, 0 < d /\ forall dt o r, 0 < dt < d -> hitsTargetApoapsis ideal (mkObj V (below s g) 1 None None) secs dt 180 target = (o, Ok r) -> r = a).
  { intros g a W. assert (FIg : from_inside (vh_planet V) (below s g)) by (rewrite EP; apply (below_facts s g Hs1)). destruct (C131_answer "VENUS" V (below s g) 180 target secs HP EU HL' FIg) as (B1 & B2). destruct W as [(-> & W)|(-> & W)].
    - destruct (B1 W) as (d & Hd & B). exists d. split; auto. intros dt o r Hdt. apply B; auto using ideal_ok. apply self_nearby; auto; lra.
    - destruct B2 as (d & Hd & B); [destruct W; [left; auto|right; split; [discriminate|auto]]|]. exists d. split; auto. intros dt o r Hdt. apply B; auto using ideal_ok. apply self_nearby; auto; lra. }
  destruct (EXACT _ _ V1) as (f1 & Hf1 & X1). destruct (EXACT _ _ V2) as (f2 & Hf2 & X2). destruct (EXACT _ _ V3) as (f3 & Hf3 & X3).
  exists (Rmin (Rmin d0 (m - secs)) (Rmin f1 (Rmin f2 f3))). split; [repeat apply Rmin_glb_lt; auto; unfold secs; lra|]. intros dt (Hdt0 & Hdt). apply Rmin_Rgt_l in Hdt. destruct Hdt as (K1 & K2). apply Rmin_Rgt_l in K1. destruct K1 as (K1 & K3). apply Rmin_Rgt_l in K2. destruct K2 as (K2 & K4). apply Rmin_Rgt_l in K4. destruct K4 as (K4 & K5).
  assert (AN : forall g a, (g = 30 \/ g = 60 \/ g = 90) -> (forall o r, hitsTargetApoapsis ideal (mkObj V (below s g) 1 None None) secs dt 180 target = (o, Ok r) -> r = a) ->
    answer (fun o => hitsTargetApoapsis ideal o secs dt 180 target) (mkObj V (below s 45) 1 None None) g = Ok a).
  { intros g a Hg U. unfold answer. change (set_gamma0 (mkObj V (below s 45) 1 None None) g) with (mkObj V (below s g) 1 None None). destruct (RUN g dt Hg ltac:(lra)) as (o & f & h & R1 & R2 & _).
    assert (Q : exists r, hitsTargetApoapsis ideal (mkObj V (below s g) 1 None None) secs dt 180 target = (o, Ok r)) by (unfold hitsTargetApoapsis; rewrite R1; cbn [ask_flight]; rewrite R2; unfold low_override; cbn [ob_veh]; rewrite EP; cbn [h_low VENUS snd]; eexists; reflexivity).
    destruct Q as (r & Q). rewrite Q. cbn [snd]. rewrite (U o r Q). reflexivity. }
  assert (Emid : 0.5 * (30 + 90) = 60) by lra.
  destruct (one_round (fun o => hitsTargetApoapsis ideal o secs dt 180 target) (mkObj V (below s 45) 1 None None) 30 90 30 1 (good_hits _ _ _ _ _)) as (o & F); try rewrite Emid.
  - rewrite Rabs_right; lra.
  - rewrite Rabs_right; lra.
  - apply AN; auto. intros o r; apply X1; lra.
  - apply AN; auto. intros o r; apply X2; lra.
  - apply AN; auto. intros o r; apply X3; lra.
  - rewrite Emid in F. exists o. split; [exact F|]. refine (proj2 (BD ideal V (below s 45) _ 1 None None dt 1%nat o 60 1 ideal_ok _ _ (or_introl eq_refl) F)); [apply self_nearby; auto; lra|lra].
Qed.
