(** C137: nearby flights report nearly the same heat loads. *)
From Coq Require Import String List Ranalysis Rpower.
Require Import Verif.Base Verif.Numpy Verif.PlanetModel Verif.PlanetProofs Verif.AeroModel Verif.HeatModel Verif.TrajectoryModel Verif.TrajectorySpec Verif.TrajectoryProofs Verif.FlightProofs
  Verif.PropTrajectory Verif.PropFlight Verif.ReportSpec Verif.ExactSpec Verif.ExactProofs Verif.DetSpec Verif.DetProofs Verif.PropDet Verif.NearSpec Verif.NearProofs Verif.PropNear Verif.NearLoadSpec
  Verif.PropHeat Verif.Trapezoid Verif.PropHeatInt Verif.HeatIntSpec Verif.HeatIntProofs Verif.ExitSpec Verif.NearExitSpec Verif.ExistProofs Verif.PropExist Verif.PropNearTop Verif.PropNearLoads Verif.PeakSpec Verif.NearPeakSpec Verif.PropNearPeak.
Require Verif.PropCorridor.
Import ListNotations.
Local Open Scope R_scope.

Lemma mean_value : forall f g a b, a < b -> (forall c, a <= c <= b -> continuity_pt f c) -> (forall c, a < c < b -> derivable_pt_lim f c (g c)) -> exists c, a < c < b /\ f b - f a = g c * (b - a).
Proof.
  intros f g a b L C D. destruct (MVT f id a b (fun c P => exist _ (g c) (D c P)) (fun c _ => derivable_pt_id c) L C) as (c & P & EQ).
  { intros c _. apply derivable_continuous_pt, derivable_pt_id. }
  exists c. split; auto. rewrite derive_pt_id in EQ. unfold id in EQ. cbn [derive_pt proj1_sig] in EQ. lra.
Qed.
(** The points of a nearby report lie beside the flight. *)
Lemma report_beside : forall name V i d T y, Planet name = Ok (vh_planet V) -> vh_user V = false -> lipschitz_air (vh_planet V) (vh_atm V) -> passage V i d T y -> 0 <= T ->
  forall e, 0 < e -> exists eta, 0 < eta <= e /\ forall (two : bool) E V' i' d' tol secs dt o f, engine_ok E -> exact_within eta E (fun x => EOM V' x (d' * PI / 180)) -> 0 < dt ->
    vehicle_within eta V V' -> build_within eta V V' -> starts_near eta (vh_planet V) i i' -> Rabs (d - d') <= eta ->
    (if two then propogateEntry2 else propogateEntry) E (mkObj V' i' tol None None) secs dt d' = (o, Ok tt) -> ob_flight o = Some f ->
    forall k, (k < length (p_t (f_plot f)))%nat -> 60 * nth k (p_t (f_plot f)) 0 = INR k * dt /\ (forall g, reads f g k = dial (ID (vh_planet V)) g (mkProbe V' d' (altitude_at f k) (speed_at f k))) /\
      (time_of (vh_planet V) (f_plot f) k <= T -> beside V d (height (vh_planet V) (y (time_of (vh_planet V) (f_plot f) k))) (Vref (vh_planet V) * s_v (y (time_of (vh_planet V) (f_plot f) k))) e (mkProbe V' d' (altitude_at f k) (speed_at f k))).
Proof.
  intros name V i d T y HP Hu HL W HT0 e Hee. destruct (ref_facts _ _ HP) as (HV & _ & Ht & _ & HR & _).
  destruct (Verif.PropCorridor.laws_exist name _ HP) as (lc & lr & Ec & Er). assert (LC : exists law, con_law (ID (vh_planet V)) = Some law) by eauto. assert (LR : exists law, rad_law (ID (vh_planet V)) = Some law) by eauto.
  set (p := vh_planet V) in *. destruct (C125_from_the_top name V i d T y (e / 1000) HP Hu HL W HT0 ltac:(lra)) as (e3 & He3 & N). fold p in N.
  exists (Rmin e e3). split; [split; [apply Rmin_glb_lt; auto|apply Rmin_l]|]. set (eta := Rmin e e3). pose proof (Rmin_l e e3 : eta <= e) as N3. pose proof (Rmin_r e e3 : eta <= e3) as N4.
  intros two E V' i' d' tol secs dt o f HE HX Hdt HVw HB HI Hd H Hf. assert (EP : vh_planet V' = p) by apply HVw. assert (HP' : Planet name = Ok (vh_planet V')) by (rewrite EP; exact HP).
  destruct (flight_laws two E name V' i' tol secs dt d' o f HE HP' ltac:(apply HVw) H Hf) as (_ & _ & RR).
  destruct (C43_flight_aligned E name (mkObj V' i' tol None None) secs dt d' o HE HP' ltac:(destruct two; [right|left]; exact H)) as (_ & _ & _ & f' & h & Hf' & _ & AL & _ & TI'). assert (f' = f) by congruence. subst f'. clear Hf'.
  destruct AL as (_ & _ & PL & _ & _ & _ & _ & _ & _ & _ & _ & AL). assert (Lt : length (p_t (f_plot f)) = f_index f) by apply PL. cbv [point] in AL.
  intros k Hk. split; [rewrite Rmult_comm; rewrite <- TI' by lia; apply (AL k); lia|]. split; [intros g; rewrite <- EP; apply dial_reads; rewrite ?EP; auto|].
  intros HT. destruct (N two E V' i' d' tol secs dt o f) with (k := k) as ((S1 & S2 & _) & B); auto; try lra; [apply (exact_more eta); auto; lra| | |].
    { destruct HVw as (A1 & A2 & A3 & A4 & A5). split; [auto|]. split; [auto|]. split; [lra|]. split; [lra|]. intros z Hz. specialize (A5 z Hz). lra. }
    { destruct HI as ((A1 & A2 & A3 & A4 & A5 & A6 & A7) & A8). split; [repeat split; lra|exact A8]. }
    apply (beside_mono _ _ _ _ (Rmax eta (Rmin e e))); [apply Rmax_lub; [lra|rewrite Rmin_left; lra]|].
    rewrite (Rmin_left e e) by lra. rewrite (Rmax_right eta e) by lra.
    destruct HVw as (A1 & A2 & A3 & A4 & A5). destruct HB as (C1 & C2 & C3 & C4). assert (Q : forall u, u <= eta -> u <= e) by (intros; lra).
    unfold beside, vehicle_within, build_within, altitude_at, speed_at. cbn [b_veh b_bank b_h b_v]. split; [repeat split; auto|]. split; [repeat split; auto|]. split; auto. split; [|split; [|exact B]].
    - unfold height. set (z := y (time_of p (f_plot f) k)) in *. replace (RP p * s_r z - RP p - nth k (p_h (f_plot f)) 0 * 1000) with (- ((nth k (p_h (f_plot f)) 0 - (RP p * s_r z - RP p) / 1000) * 1000)) by lra. rewrite Rabs_Ropp, Rabs_mult, (Rabs_right 1000) by lra. lra.
    - set (z := y (time_of p (f_plot f) k)) in *. replace (Vref p * s_v z - nth k (p_v (f_plot f)) 0 * 1000) with (- ((nth k (p_v (f_plot f)) 0 - Vref p * s_v z / 1000) * 1000)) by lra. rewrite Rabs_Ropp, Rabs_mult, (Rabs_right 1000) by lra. lra.
Qed.

(** The heating rate changes continuously along the flight. *)
Lemma heat_continuous : forall name V i d T y, Planet name = Ok (vh_planet V) -> vh_user V = false -> lipschitz_air (vh_planet V) (vh_atm V) -> some_air (vh_planet V) (vh_atm V) -> 0 < vh_RN V ->
  passage V i d T y -> smooth_gauge V (d * PI / 180) Heat y T -> forall t c, 0 <= t <= T -> 0 < c ->
  exists e, 0 < e /\ forall s, 0 <= s <= T -> Rabs (s - t) < e -> numbers_within c (heat_rate V (y t)) (heat_rate V (y s)).
Proof.
  intros name V i d T y HP Hu HL SA PN W SG t c Htt Hc. destruct (ref_facts _ _ HP) as (HV & _ & Ht & _ & HR & _). destruct (Planet_facts _ _ HP) as (_ & _ & _ & _ & (Ht0 & Hts) & Hthr & _).
  destruct (Verif.PropCorridor.laws_exist name _ HP) as (lc & lr & Ec & Er). pose proof (passage_height V i d T y ltac:(lra) W) as PH.
  destruct (dial_local name V i d T y Heat HP HL SA PN ltac:(eauto) ltac:(eauto) W SG c t Hc Htt) as (e & Hee & K). exists e. split; auto. intros s Hs Hd.
  assert (Z : forall u : R, Rabs (u - u) <= e) by (intros u; rewrite Rminus_diag_eq, Rabs_R0 by reflexivity; lra).
  specialize (K s Hs Hd (mkProbe V d (height (vh_planet V) (y s)) (Vref (vh_planet V) * s_v (y s)))). rewrite <- dial_truth in K. apply K.
  unfold beside. cbn [b_veh b_bank b_h b_v]. split; [unfold vehicle_within; repeat split; auto|]. split; [unfold build_within; repeat split; auto|]. split; auto.
Qed.
(** So its integral exists, from the very top too, and there is only one. *)
Theorem C137_integral : forall name V i d T y, Planet name = Ok (vh_planet V) -> vh_user V = false -> lipschitz_air (vh_planet V) (vh_atm V) -> some_air (vh_planet V) (vh_atm V) -> 0 < vh_RN V ->
  passage V i d T y -> 0 <= T -> smooth_gauge V (d * PI / 180) Heat y T ->
  exists J, heat_so_far V y T [] J /\ forall K, heat_so_far V y T [] K -> forall s, 0 <= s <= tau (vh_planet V) * T -> K s = J s.
Proof.
  intros name V i d T y HP Hu HL SA PN W HT SG. destruct (ref_facts _ _ HP) as (_ & _ & Ht & _). pose proof (heat_continuous name V i d T y HP Hu HL SA PN W SG) as HC.
  assert (HT' : 0 <= tau (vh_planet V) * T) by (apply Rmult_le_pos; lra). set (p := vh_planet V) in *.
  assert (ST : forall s, 0 <= s <= tau p * T -> 0 <= s / tau p <= T).
  { intros a Ha. split; [apply Rmult_le_pos; [lra|left; apply Rinv_0_lt_compat; auto]|]. apply (Rmult_le_reg_r (tau p)); auto. unfold Rdiv. rewrite Rmult_assoc, Rinv_l, Rmult_1_r by lra. lra. }
  assert (HQ : forall s, 0 <= s <= tau p * T -> heat_rate V (y (s / tau p)) = Some (rate_at V y s)) by (intros s Hs; unfold rate_at; fold p; destruct (SG _ (ST s Hs)) as (m & Em & _); cbn [truth] in Em; rewrite Em; reflexivity).
  set (cl := fun s => Rmax 0 (Rmin (tau p * T) s)).
  assert (Cl : forall s, 0 <= cl s <= tau p * T) by (intros s; unfold cl, Rmax, Rmin; repeat destruct (Rle_dec _ _); lra).
  assert (Ci : forall s, 0 <= s <= tau p * T -> cl s = s) by (intros s Hs; unfold cl, Rmax, Rmin; repeat destruct (Rle_dec _ _); lra).
  assert (Ld : forall s t, 0 <= t <= tau p * T -> Rabs (cl s - t) <= Rabs (s - t)) by (intros s t Hs; unfold cl, Rmax, Rmin, Rabs; repeat destruct (Rle_dec _ _); repeat destruct (Rcase_abs _); lra).
  assert (G2 : forall j s, (j < 1)%nat -> 0 <= s <= tau p * T -> continuity_pt ((fun (_ : nat) u => rate_at V y (cl u)) j) s).
  { intros _ s _ Hs e He. destruct (HC (s / tau p) e (ST s Hs) He) as (a & Ha & K). exists (a * tau p). split; [apply Rmult_lt_0_compat; auto|]. intros u (_ & Hu'). cbn in *. unfold R_dist in *. rewrite (Ci s Hs).
    destruct (K (cl u / tau p) (ST _ (Cl u))) as (m & w & E1 & E2 & D).
    { unfold Rdiv. rewrite <- Rmult_minus_distr_r, Rabs_mult, (Rabs_right (/ tau p)) by (left; apply Rinv_0_lt_compat; auto). apply (Rmult_lt_reg_r (tau p)); auto. rewrite Rmult_assoc, Rinv_l, Rmult_1_r by lra. pose proof (Ld u s Hs). lra. }
    rewrite HQ in E1 by auto. rewrite HQ in E2 by auto. injection E1 as <-. injection E2 as <-. rewrite Rabs_minus_sym. exact D. }
  assert (G1 : forall s, 0 <= s <= tau p * T -> rate_at V y s = (fun (_ : nat) u => rate_at V y (cl u)) ((fun _ : R => 0%nat) s) s /\ ((fun _ : R => 0%nat) s < 1)%nat) by (intros s Hs; cbv beta; rewrite Ci by auto; split; auto).
  destruct (integral_exists (tau p * T) (rate_at V y) [] _ _ 1 HT' G1 G2 (fun a b _ _ _ => eq_refl)) as (J & J0 & Jc & Jd). exists J. split.
  - split; auto. fold p. intros s Hs. split; auto. exists (rate_at V y s). split; auto.
  - intros K (K0 & HK) s Hs. fold p in HK. apply (integral_unique (tau p * T) (rate_at V y) [] K K0); auto.
    + intros u Hu'. apply HK. auto.
    + intros u Hu' Hn. destruct (HK u ltac:(lra)) as (_ & q & Eq & Dq). rewrite HQ in Eq by lra. injection Eq as <-. auto.
Qed.

(** The reported heat load of a nearby flight with a small step is nearly the integral of the heating rate along the true one. *)
Theorem C137_heat_load : forall name V i d T y J, Planet name = Ok (vh_planet V) -> vh_user V = false -> lipschitz_air (vh_planet V) (vh_atm V) -> some_air (vh_planet V) (vh_atm V) -> 0 < vh_RN V ->
  passage V i d T y -> 0 <= T -> smooth_gauge V (d * PI / 180) Heat y T -> heat_so_far V y T [] J ->
  forall eps, 0 < eps -> exists eta, 0 < eta /\ forall (two : bool) E V' i' d' tol secs dt o f h, engine_ok E -> exact_within eta E (fun x => EOM V' x (d' * PI / 180)) -> 0 < dt < eta ->
    vehicle_within eta V V' -> build_within eta V V' -> starts_near eta (vh_planet V) i i' -> Rabs (d - d') <= eta ->
    (if two then propogateEntry2 else propogateEntry) E (mkObj V' i' tol None None) secs dt d' = (o, Ok tt) -> ob_flight o = Some f -> ob_heat o = Some h ->
    forall k, (k < length (p_t (f_plot f)))%nat -> time_of (vh_planet V) (f_plot f) k <= T -> exists x, nth k h None = Some x /\ Rabs (x - J (60 * nth k (p_t (f_plot f)) 0)) < eps.
Proof.
  intros name V i d T y J HP Hu HL SA PN W HT0 SG (J0 & HJ) eps He. destruct (ref_facts _ _ HP) as (HV & _ & Ht & _ & HR & _). destruct (Planet_facts _ _ HP) as (_ & _ & _ & _ & (Ht0 & Hts) & Hthr & _).
  destruct (Verif.PropCorridor.laws_exist name _ HP) as (lc & lr & Ec & Er). assert (LC : exists law, con_law (ID (vh_planet V)) = Some law) by eauto. assert (LR : exists law, rad_law (ID (vh_planet V)) = Some law) by eauto.
  pose proof (dial_local name V i d T y Heat HP HL SA PN LC LR W SG) as DL. pose proof (passage_height V i d T y ltac:(lra) W) as PH.
  set (q := fun s => match truth V (d * PI / 180) Heat (y s) with Some m => m | None => 0 end).
  assert (Hq : forall s, 0 <= s <= T -> truth V (d * PI / 180) Heat (y s) = Some (q s)) by (intros s Hs; unfold q; destruct (SG s Hs) as (m & -> & _); reflexivity).
  pose proof (report_beside name V i d T y HP Hu HL W HT0) as RB.
  assert (Self : forall s e, 0 < e -> 0 <= s <= T -> beside V d (height (vh_planet V) (y s)) (Vref (vh_planet V) * s_v (y s)) e (mkProbe V d (height (vh_planet V) (y s)) (Vref (vh_planet V) * s_v (y s)))).
  { intros s e Hee Hs. assert (Z : forall u : R, Rabs (u - u) <= e) by (intros u; rewrite Rminus_diag_eq, Rabs_R0 by reflexivity; lra). unfold beside. cbn [b_veh b_bank b_h b_v]. split; [unfold vehicle_within; repeat split; auto|]. split; [unfold build_within; repeat split; auto|]. split; auto. }
  set (p := vh_planet V) in *. assert (HTT : 0 <= tau p * T) by (apply Rmult_le_pos; lra). set (c := eps / (2 * (tau p * T + 1))). assert (Hc : 0 < c) by (apply Rdiv_lt_0_compat; lra). assert (Ecc : 2 * c * (tau p * T + 1) = eps) by (unfold c; field; lra).
  destruct (common_over (fun s e => (forall x, beside V d (height p (y s)) (Vref p * s_v (y s)) e x -> exists w, dial (ID p) Heat x = Some w /\ Rabs (w - q s) < c) /\
    forall u, 0 <= u <= T -> Rabs (u - s) < e -> Rabs (q u - q s) < c) T HT0) as (e & Hee & UN).
  { intros s e e' L (K1 & K2). split; [intros x Hx; apply K1; eapply beside_mono; eauto|intros u Hu' Hd; apply K2; auto; lra]. }
  { intros t Htt. destruct (DL (c / 2) t ltac:(lra) Htt) as (e & Hee & K).
    assert (Q : forall s, 0 <= s <= T -> Rabs (s - t) < e -> Rabs (q t - q s) < c / 2).
    { intros s Hs Hd. destruct (K s Hs Hd _ (Self s e Hee Hs)) as (a & b & E1 & E2 & D). rewrite Hq in E1 by auto. unfold p in E2. rewrite <- dial_truth in E2. rewrite Hq in E2 by auto. injection E1 as <-. injection E2 as <-. exact D. }
    exists (e / 2). split; [lra|]. intros s Hs Hd. assert (Hd' : Rabs (s - t) < e) by lra. pose proof (Q s Hs Hd') as Qs. apply Rabs_def2 in Qs. split.
    - intros x Hx. destruct (K s Hs Hd' x) as (a & b & E1 & E2 & D); [eapply beside_mono; [|exact Hx]; lra|]. rewrite Hq in E1 by auto. injection E1 as <-. exists b. split; auto. apply Rabs_def2 in D. apply Rabs_def1; lra.
    - intros u Hu' Hd2. apply Rabs_def2 in Hd. apply Rabs_def2 in Hd2. assert (Qu : Rabs (q t - q u) < c / 2) by (apply Q; auto; apply Rabs_def1; lra). apply Rabs_def2 in Qu. apply Rabs_def1; lra. }
  destruct (RB e Hee) as (e3 & (He3 & Le3) & N). clear RB. assert (Hte : 0 < e * tau p) by (apply Rmult_lt_0_compat; auto).
  exists (Rmin e3 (e * tau p)). split; [apply Rmin_glb_lt; auto|]. set (eta := Rmin e3 (e * tau p)). pose proof (Rmin_l e3 (e * tau p) : eta <= _) as N1. pose proof (Rmin_r e3 (e * tau p) : eta <= _) as N2.
  intros two E V' i' d' tol secs dt o f h HE HX Hdt HVw HB HI Hd H Hf Hh. assert (EP : vh_planet V' = p) by apply HVw. assert (HP' : Planet name = Ok (vh_planet V')) by (rewrite EP; exact HP).
  assert (H' : propogateEntry E (mkObj V' i' tol None None) secs dt d' = (o, Ok tt) \/ propogateEntry2 E (mkObj V' i' tol None None) secs dt d' = (o, Ok tt)) by (destruct two; auto).
  destruct (C46_heat_load E name (mkObj V' i' tol None None) secs dt d' o HE HP' H') as (f1 & h1 & F1 & H1 & Lh & N0 & NS & _). assert (f1 = f) by congruence. assert (h1 = h) by congruence. subst f1 h1.
  destruct (C43_flight_aligned E name (mkObj V' i' tol None None) secs dt d' o HE HP' H') as (_ & _ & _ & f2 & h2 & F2 & _ & (_ & _ & (Lp & _) & _) & _). assert (f2 = f) by congruence. subst f2.
  assert (PT : forall k, (k < f_index f)%nat -> 60 * nth k (p_t (f_plot f)) 0 = INR k * dt /\ (INR k * dt <= tau p * T -> exists w, nth k (f_qtot f) None = Some w /\ Rabs (w - q (INR k * dt / tau p)) < c)).
  { intros k Hk. destruct (N two E V' i' d' tol secs dt o f) with (k := k) as (A1 & A2 & A3); auto; try lra; try lia; [apply (exact_more eta); auto; lra| | | |].
    { destruct HVw as (B1 & B2 & B3 & B4 & B5). split; [auto|]. split; [auto|]. split; [lra|]. split; [lra|]. intros z Hz. specialize (B5 z Hz). lra. }
    { destruct HB as (B1 & B2 & B3 & B4). split; [lra|]. split; [lra|]. split; [lra|]. intros z Hz. specialize (B4 z Hz). lra. }
    { destruct HI as ((B1 & B2 & B3 & B4 & B5 & B6 & B7) & B8). split; [repeat split; lra|exact B8]. }
    split; auto. intros Hle. assert (Et : time_of p (f_plot f) k = INR k * dt / tau p) by (unfold time_of; rewrite <- A1; field; lra).
    assert (Bt : 0 <= INR k * dt / tau p <= T). { split; [apply Rmult_le_pos; [apply Rmult_le_pos; [apply pos_INR|lra]|left; apply Rinv_0_lt_compat; auto]|]. apply (Rmult_le_reg_r (tau p)); auto. unfold Rdiv. rewrite Rmult_assoc, Rinv_l, Rmult_1_r by lra. lra. }
    rewrite Et in A3. specialize (A3 (proj2 Bt)). specialize (A2 Heat). cbn [reads] in A2. rewrite A2. apply (UN _ Bt). exact A3. }
  assert (Step : forall k, INR (S k) * dt <= tau p * T -> Rabs (J (INR (S k) * dt) - J (INR k * dt) - dt * (q (INR k * dt / tau p) + q (INR (S k) * dt / tau p)) / 2) <= c * dt).
  { intros k Hle. rewrite S_INR in *. assert (Kp : 0 <= INR k * dt) by (apply Rmult_le_pos; [apply pos_INR|lra]).
    destruct (mean_value J (fun s => q (s / tau p)) (INR k * dt) ((INR k + 1) * dt) ltac:(lra)) as (s & Hs & Es).
    { intros s Hs. apply HJ. lra. }
    { intros s Hs. destruct (HJ s ltac:(lra)) as (_ & m & Em & Dm). replace (q (s / tau p)) with m; [apply Dm; [lra|intros []]|]. unfold q. cbn [truth]. fold p in Em. rewrite Em. reflexivity. }
    rewrite Es. replace ((INR k + 1) * dt - INR k * dt) with dt by ring.
    assert (St : forall a, 0 <= a <= tau p * T -> 0 <= a / tau p <= T). { intros a Ha. split; [apply Rmult_le_pos; [lra|left; apply Rinv_0_lt_compat; auto]|]. apply (Rmult_le_reg_r (tau p)); auto. unfold Rdiv. rewrite Rmult_assoc, Rinv_l, Rmult_1_r by lra. lra. }
    assert (Cl : forall a, INR k * dt <= a <= (INR k + 1) * dt -> Rabs (q (a / tau p) - q (s / tau p)) < c).
    { intros a Ha. apply (UN (s / tau p)); [apply St; lra|apply St; lra|]. unfold Rdiv. rewrite <- Rmult_minus_distr_r, Rabs_mult, (Rabs_right (/ tau p)) by (left; apply Rinv_0_lt_compat; auto).
      apply (Rmult_lt_reg_r (tau p)); auto. rewrite Rmult_assoc, Rinv_l, Rmult_1_r by lra. apply Rabs_def1; lra. }
    pose proof (Cl (INR k * dt) ltac:(lra)) as C1. pose proof (Cl ((INR k + 1) * dt) ltac:(lra)) as C2. apply Rabs_def2 in C1. apply Rabs_def2 in C2.
    set (a := q (INR k * dt / tau p)) in *. set (b := q ((INR k + 1) * dt / tau p)) in *. set (m := q (s / tau p)) in *. apply Rabs_le. nra. }
  assert (IND : forall k, (k < f_index f)%nat -> INR k * dt <= tau p * T -> exists x, nth k h None = Some x /\ Rabs (x - J (INR k * dt)) <= 2 * c * (INR k * dt)).
  { induction k as [|k IH]; intros Hk Hle.
    - exists 0. split; auto. cbn [INR]. rewrite Rmult_0_l, J0, Rminus_0_r, Rabs_R0. lra.
    - pose proof Hle as Hle'. rewrite S_INR in Hle'. destruct (IH ltac:(lia) ltac:(lra)) as (x & Ex & Dx). destruct (proj2 (PT k ltac:(lia)) ltac:(lra)) as (a & Ea & Da). destruct (proj2 (PT (S k) Hk) Hle) as (b & Eb & Db).
      rewrite (NS k Hk), Ex, Ea, Eb. cbn [obind]. eexists. split; [reflexivity|]. pose proof (Step k Hle) as SJ.
      set (j0 := J (INR k * dt)) in *. set (j1 := J (INR (S k) * dt)) in *. set (q0 := q (INR k * dt / tau p)) in *. set (q1 := q (INR (S k) * dt / tau p)) in *. apply Rabs_def2 in Da. apply Rabs_def2 in Db.
      assert (U : forall u v, Rabs u <= v -> - v <= u <= v) by (intros u v Huv; unfold Rabs in Huv; destruct (Rcase_abs u); lra). apply U in Dx. apply U in SJ. rewrite S_INR.
      assert (- (c * dt) <= dt * (a + b) / 2 - dt * (q0 + q1) / 2 <= c * dt) by nra. apply Rabs_le. lra. }
  intros k Hk HkT. rewrite Lp in Hk. destruct (PT k Hk) as (A1 & _). rewrite A1. assert (Kt : INR k * dt <= tau p * T).
  { rewrite <- A1. unfold time_of in HkT. apply (Rmult_le_compat_r (tau p)) in HkT; [|lra]. unfold Rdiv in HkT. rewrite Rmult_assoc, Rinv_l, Rmult_1_r in HkT by lra. lra. }
  destruct (IND k Hk Kt) as (x & Ex & Dx). exists x. split; auto. eapply Rle_lt_trans; [exact Dx|]. nra.
Qed.
