(** C136: nearby flights have nearby peaks. *)
From Coq Require Import String List Ranalysis Rpower.
Require Import Verif.Base Verif.Numpy Verif.PlanetModel Verif.PlanetProofs Verif.AeroModel Verif.HeatModel Verif.TrajectoryModel Verif.TrajectorySpec Verif.TrajectoryProofs Verif.FlightProofs
  Verif.PropTrajectory Verif.PropFlight Verif.ReportSpec Verif.ExactSpec Verif.ExactProofs Verif.DetSpec Verif.DetProofs Verif.PropDet Verif.NearSpec Verif.NearProofs Verif.PropNear Verif.NearLoadSpec
  Verif.PropHeat Verif.HeatIntSpec Verif.HeatIntProofs Verif.ExitSpec Verif.NearExitSpec Verif.ExistProofs Verif.PropExist Verif.PropNearTop Verif.PropNearLoads Verif.PeakSpec Verif.NearPeakSpec.
Require Verif.PropCorridor.
Import ListNotations.
Local Open Scope R_scope.

(** What holds near every time of a closed interval holds with one allowance on all of it. *)
Lemma common_over : forall (P : R -> R -> Prop) T, 0 <= T -> (forall s e e', e <= e' -> P s e' -> P s e) ->
  (forall t, 0 <= t <= T -> exists e, 0 < e /\ forall s, 0 <= s <= T -> Rabs (s - t) < e -> P s e) -> exists e, 0 < e /\ forall s, 0 <= s <= T -> P s e.
Proof.
  intros P T HT Dn Loc. set (S := fun x => 0 <= x <= T /\ exists e, 0 < e /\ forall s, 0 <= s <= x -> P s e).
  assert (S0 : S 0).
  { split; [lra|]. destruct (Loc 0 ltac:(lra)) as (e & He & H). exists e. split; auto. intros s Hs. apply H; [lra|]. replace (s - 0) with 0 by lra. rewrite Rabs_R0. auto. }
  destruct (completeness S) as (m & Ub & Lub); [exists T; intros x (Hx & _); lra|exists 0; exact S0|].
  assert (Hm : 0 <= m <= T) by (split; [apply Ub; exact S0|apply Lub; intros x (Hx & _); lra]).
  destruct (Loc m Hm) as (e & He & H).
  assert (exists x, S x /\ m - e < x) as (x & (Hx & e2 & He2 & Q) & Lx).
  { apply Classical_Prop.NNPP. intros N. assert (m <= m - e); [|lra]. apply Lub. intros x Sx. apply Rnot_lt_le. intros L. apply N. exists x. auto. }
  assert (B : forall z, 0 <= z <= T -> z < m + e -> S z).
  { intros z Hz Lz. split; auto. exists (Rmin e e2). split; [apply Rmin_glb_lt; auto|]. intros s Hs. destruct (Rle_lt_dec s x) as [L|L].
    - apply (Dn s _ e2); [apply Rmin_r|]. apply Q. lra.
    - apply (Dn s _ e); [apply Rmin_l|]. apply H; [lra|]. apply Rabs_def1; lra. }
  assert (m = T). { destruct (Req_dec m T) as [->|N]; auto. set (z := Rmin T (m + e / 2)). pose proof (Rmin_l T (m + e / 2) : z <= _). pose proof (Rmin_r T (m + e / 2) : z <= _). assert (m < z) by (apply Rmin_glb_lt; lra).
    pose proof (Ub z (B z ltac:(lra) ltac:(lra))). lra. }
  subst m. destruct (B T ltac:(lra) ltac:(lra)) as (_ & R0). exact R0.
Qed.
(** What an instrument reads at a flight point. *)
Definition dial (id : string) (g : gauge) (x : probe) : option R :=
  let W := b_veh x in let rho := density_int (vh_atm W) (b_h x) in let q := rho * b_v x * b_v x / 2 in
  let drag := q * vh_A W * vh_CD W / vh_mass W in let lift := q * vh_A W * vh_CL W / vh_mass W in let delta := b_bank x * PI / 180 in
  let rad := drag * drag + (lift * cos delta) * (lift * cos delta) + 2 * (lift * sin delta) in
  match g with
  | Heat => match con_law id, rad_law id with Some c, Some r => match c (vh_RN W) rho (b_v x), r (vh_RN W) rho (b_v x) with Some a, Some b => Some (a + b) | _, _ => None end | _, _ => None end
  | Load => if Rle_dec 0 rad then Some (sqrt rad / 9.80665) else None
  | DragLoad => Some (Rabs drag / 9.80665)
  | Pressure => Some (q / 101325)
  | Depth => Some (- (b_h x / 1000))
  end.
Lemma dial_truth : forall V d g x, truth V (d * PI / 180) g x = dial (ID (vh_planet V)) g (mkProbe V d (height (vh_planet V) x) (Vref (vh_planet V) * s_v x)).
Proof. intros V d g x. destruct g; reflexivity. Qed.
Lemma dial_reads : forall V d g f k, (exists law, con_law (ID (vh_planet V)) = Some law) -> (exists law, rad_law (ID (vh_planet V)) = Some law) -> reported V (d * PI / 180) f k ->
  reads f g k = dial (ID (vh_planet V)) g (mkProbe V d (altitude_at f k) (speed_at f k)).
Proof.
  intros V d g f k (con & Hcon) (rad & Hrad) (R1 & _ & R3 & R4 & RC & RR & RT). destruct g; cbn [reads]; unfold dial; cbn [b_veh b_bank b_h b_v]; cbv zeta.
  - rewrite (RC con Hcon), (RR rad Hrad) in RT. rewrite RT, Hcon, Hrad. reflexivity.
  - destruct R4 as (A & B). destruct (Rle_dec 0 _) as [L|L]; [apply A; exact L|apply B; lra].
  - exact R3.
  - f_equal. lra.
  - f_equal. unfold altitude_at. lra.
Qed.
Lemma dial_near : forall V d h v g m, 0 < h <= h_thres (vh_planet V) -> lipschitz_air (vh_planet V) (vh_atm V) -> some_air (vh_planet V) (vh_atm V) -> 0 < vh_RN V ->
  (exists law, con_law (ID (vh_planet V)) = Some law) -> (exists law, rad_law (ID (vh_planet V)) = Some law) ->
  dial (ID (vh_planet V)) g (mkProbe V d h v) = Some m -> match g with Heat => 0 < v /\ ~ In v (heat_breaks (ID (vh_planet V))) | Load => 0 < m | _ => True end ->
  otends probe (beside V d h v) (dial (ID (vh_planet V)) g) m.
Proof.
  intros V d h v g m Hh HL SA PN (con & Hcon) (rad & Hrad) Em Pl. pose proof (beside_mono V d h v) as M.
  pose proof (at_q V d h v Hh HL) as Q. pose proof (at_acc V d h v Hh HL vh_CD (at_drag V d h v)) as DQ. pose proof (at_net V d h v Hh HL) as NQ.
  destruct g; unfold dial in *; cbn [b_veh b_bank b_h b_v] in *; cbv zeta in *.
  - destruct Pl as (PV & NB). pose proof (at_rho V d h v Hh HL) as AR. pose proof (at_v V d h v) as AV. pose proof (at_nose V d h v) as AN. pose proof (SA h ltac:(lra)) as PR.
    destruct (con_continuous _ _ _ _ _ _ _ _ _ _ M Hcon AN AR AV PN PR PV) as (l1 & E1 & (g1 & T1 & S1)). destruct (rad_continuous _ _ _ _ _ _ _ _ _ _ M Hrad NB AN AR AV PN PR PV) as (l2 & E2 & (g2 & T2 & S2)).
    rewrite Hcon, Hrad in *. rewrite E1, E2 in Em. injection Em as <-. exists (fun x => g1 x + g2 x). split; [apply tends_plus; auto|].
    eapply soon_mono; [|exact (soon_and _ _ M _ _ S1 S2)]. intros x (U1 & U2). cbv beta in U1, U2. rewrite U1, U2. reflexivity.
  - destruct (Rle_dec 0 _) as [L|L] in Em; [|discriminate]. injection Em as <-. match type of NQ with tends _ _ ?G ?A => set (a := A) in *; set (G0 := G) in * end.
    assert (P : 0 < a). { destruct (Rle_lt_or_eq_dec _ _ L) as [P|Z]; auto. fold a in Z, Pl. rewrite <- Z, sqrt_0 in Pl. lra. }
    exists (fun x => sqrt (G0 x) / 9.80665). split.
    + apply (tends_comp _ _ G0 a (fun u => sqrt u / 9.80665)); auto. apply (continuity_pt_mult sqrt (fun _ => / 9.80665)); [apply continuity_pt_sqrt; lra|reg].
    + eapply soon_mono; [|exact (tends_pos _ _ _ _ NQ P)]. intros x U. unfold G0 in *. cbv beta zeta in *. destruct (Rle_dec 0 _) as [_|N]; [reflexivity|lra].
  - injection Em as <-. apply otends_some. apply (tends_comp _ _ _ _ (fun u => Rabs u / 9.80665) ltac:(apply (continuity_pt_mult Rabs (fun _ => / 9.80665)); [apply Rcontinuity_abs|reg]) DQ).
  - injection Em as <-. apply otends_some. apply (tends_comp _ _ _ _ (fun u => u / 101325) ltac:(reg) Q).
  - injection Em as <-. apply otends_some. apply (tends_comp _ _ _ _ (fun u => - (u / 1000)) ltac:(reg) (at_h V d h v)).
Qed.
(** Readings beside the flight near one time. *)
Lemma dial_local : forall name V i d T y g, Planet name = Ok (vh_planet V) -> lipschitz_air (vh_planet V) (vh_atm V) -> some_air (vh_planet V) (vh_atm V) -> 0 < vh_RN V ->
  (exists law, con_law (ID (vh_planet V)) = Some law) -> (exists law, rad_law (ID (vh_planet V)) = Some law) -> passage V i d T y -> smooth_gauge V (d * PI / 180) g y T ->
  forall eps t, 0 < eps -> 0 <= t <= T -> exists e, 0 < e /\ forall s, 0 <= s <= T -> Rabs (s - t) < e -> forall x, beside V d (height (vh_planet V) (y s)) (Vref (vh_planet V) * s_v (y s)) e x ->
    numbers_within eps (truth V (d * PI / 180) g (y t)) (dial (ID (vh_planet V)) g x).
Proof.
  intros name V i d T y g HP HL SA PN LC LR W SG eps t He Ht. destruct (ref_facts _ _ HP) as (HV & _ & _ & _ & HR & _). destruct (Planet_facts _ _ HP) as (_ & _ & _ & _ & (Ht0 & Hts) & Hthr & _).
  pose proof (passage_height V i d T y ltac:(lra) W t Ht) as Hh. destruct (SG t Ht) as (m & Em & Pl).
  assert (O : otends probe (beside V d (height (vh_planet V) (y t)) (Vref (vh_planet V) * s_v (y t))) (dial (ID (vh_planet V)) g) m).
  { refine (dial_near V d _ _ g m Hh HL SA PN LC LR _ _); [rewrite <- dial_truth; exact Em|]. destruct g; auto. destruct Pl as (P1 & P2). split; auto. apply Rmult_lt_0_compat; auto. }
  set (p := vh_planet V) in *.
  destruct (number_near _ _ _ _ eps (beside_mono V d _ _) O He) as (e1 & He1 & K).
  set (c := e1 / 2 / (RP p + Vref p)). assert (Hc : 0 < c) by (apply Rdiv_lt_0_compat; lra). assert (Ec : (RP p + Vref p) * c = e1 / 2) by (unfold c; field; lra).
  destruct W as (_ & (l & SC) & _). destruct (SC t Ht) as (CT & _). destruct (curve_near y t c Hc CT) as (a & Ha & CN).
  exists (Rmin a (e1 / 2)). split; [apply Rmin_glb_lt; lra|]. pose proof (Rmin_l a (e1 / 2)) as M1. pose proof (Rmin_r a (e1 / 2)) as M2. intros s Hs Hst x Hx. rewrite Em. apply K.
  pose proof (CN s ltac:(lra)) as D. apply Rlt_le, dist_within in D. destruct D as (D1 & _ & _ & D4 & _).
  apply (beside_mono _ _ _ _ _ (e1 / 2) _ M2) in Hx. destruct Hx as (B1 & B2 & B3 & B4 & B5 & B6).
  assert (Q1 : Rabs (height p (y t) - height p (y s)) <= e1 / 2).
  { unfold height. replace (RP p * s_r (y t) - RP p - (RP p * s_r (y s) - RP p)) with (RP p * (s_r (y t) - s_r (y s))) by ring. rewrite Rabs_mult, (Rabs_right (RP p)) by lra. assert (0 < Vref p * c) by (apply Rmult_lt_0_compat; auto). nra. }
  assert (Q2 : Rabs (Vref p * s_v (y t) - Vref p * s_v (y s)) <= e1 / 2).
  { rewrite <- Rmult_minus_distr_l, Rabs_mult, (Rabs_right (Vref p)) by lra. assert (0 < RP p * c) by (apply Rmult_lt_0_compat; auto). nra. }
  assert (Bb : beside V d (height p (y s)) (Vref p * s_v (y s)) e1 x) by (apply (beside_mono _ _ _ _ (e1 / 2)); [lra|]; repeat split; auto; try apply B1; try apply B2; apply B6).
  destruct Bb as (C1 & C2 & C3 & _). split; auto. split; auto. split; auto.
  split; [|split; [|exact B6]].
  - replace (height p (y t) - b_h x) with ((height p (y t) - height p (y s)) + (height p (y s) - b_h x)) by ring. eapply Rle_trans; [apply Rabs_triang|]. lra.
  - replace (Vref p * s_v (y t) - b_v x) with ((Vref p * s_v (y t) - Vref p * s_v (y s)) + (Vref p * s_v (y s) - b_v x)) by ring. eapply Rle_trans; [apply Rabs_triang|]. lra.
Qed.
Lemma step_below : forall st t0 j, 0 < st -> 0 <= t0 <= INR j * st -> exists k, (k <= j)%nat /\ INR k * st <= t0 < INR k * st + st.
Proof.
  intros st t0 j Hst. induction j as [|j IH]; intros H; [exists 0%nat; cbn in *; split; [lia|lra]|].
  destruct (Rle_lt_dec t0 (INR j * st)) as [L|L]; [destruct IH as (k & Hk & B); [lra|]; exists k; split; [lia|auto]|]. rewrite S_INR in H.
  destruct (Rle_lt_dec (INR (S j) * st) t0) as [L2|L2]; [exists (S j); split; [lia|]; rewrite S_INR in *; lra|exists j; split; [lia|]; rewrite S_INR in *; lra].
Qed.
(** No nearby flight reports much more than the peak up to [T], and with a small step every one that reaches the time of the peak reports nearly as much. *)
Theorem C136_peaks : forall name V i d T y g t0 M, Planet name = Ok (vh_planet V) -> vh_user V = false -> lipschitz_air (vh_planet V) (vh_atm V) -> some_air (vh_planet V) (vh_atm V) -> 0 < vh_RN V ->
  passage V i d T y -> 0 <= T -> smooth_gauge V (d * PI / 180) g y T -> peak V (d * PI / 180) g y T t0 M ->
  forall eps, 0 < eps -> exists eta, 0 < eta /\ forall (two : bool) E V' i' d' tol secs dt o f, engine_ok E -> exact_within eta E (fun x => EOM V' x (d' * PI / 180)) -> 0 < dt < eta ->
    vehicle_within eta V V' -> build_within eta V V' -> starts_near eta (vh_planet V) i i' -> Rabs (d - d') <= eta ->
    (if two then propogateEntry2 else propogateEntry) E (mkObj V' i' tol None None) secs dt d' = (o, Ok tt) -> ob_flight o = Some f ->
    (forall k, (k < length (p_t (f_plot f)))%nat -> time_of (vh_planet V) (f_plot f) k <= T -> exists m, reads f g k = Some m /\ m < M + eps) /\
    ((exists j, (j < length (p_t (f_plot f)))%nat /\ t0 <= time_of (vh_planet V) (f_plot f) j) ->
     exists k m, (k < length (p_t (f_plot f)))%nat /\ time_of (vh_planet V) (f_plot f) k <= t0 /\ reads f g k = Some m /\ M - eps < m).
Proof.
  intros name V i d T y g t0 M HP Hu HL SA PN W HT0 SG (Ht0 & EM & Mx) eps He. destruct (ref_facts _ _ HP) as (HV & _ & Ht & _ & HR & _).
  destruct (Verif.PropCorridor.laws_exist name _ HP) as (lc & lr & Ec & Er). assert (LC : exists law, con_law (ID (vh_planet V)) = Some law) by eauto. assert (LR : exists law, rad_law (ID (vh_planet V)) = Some law) by eauto.
  pose proof (dial_local name V i d T y g HP HL SA PN LC LR W SG eps) as DL. set (p := vh_planet V) in *.
  destruct (common_over (fun s e => forall x, beside V d (height p (y s)) (Vref p * s_v (y s)) e x -> exists m, dial (ID p) g x = Some m /\ m < M + eps) T HT0) as (e1 & He1 & UP).
  { intros s e e' L K x Hx. apply K. eapply beside_mono; eauto. }
  { intros t Htt. destruct (DL t He Htt) as (e & Hee & K). exists e. split; auto. intros s Hs Hst x Hx. destruct (K s Hs Hst x Hx) as (u & w & E1 & E2 & D). exists w. split; auto. pose proof (Mx t u Htt E1). apply Rabs_def2 in D. lra. }
  destruct (DL t0 He Ht0) as (e2 & He2 & LOW). set (e := Rmin e1 e2). assert (Hee : 0 < e) by (apply Rmin_glb_lt; auto). pose proof (Rmin_l e1 e2 : e <= _) as M1. pose proof (Rmin_r e1 e2 : e <= _) as M2.
  destruct (C125_from_the_top name V i d T y (e / 1000) HP Hu HL W HT0 ltac:(lra)) as (e3 & He3 & N). fold p in N.
  assert (Hte : 0 < e2 * tau p) by (apply Rmult_lt_0_compat; auto).
  exists (Rmin (Rmin e e3) (e2 * tau p)). split; [repeat apply Rmin_glb_lt; auto|]. set (eta := Rmin (Rmin e e3) (e2 * tau p)). pose proof (Rmin_l (Rmin e e3) (e2 * tau p) : eta <= _) as N1. pose proof (Rmin_r (Rmin e e3) (e2 * tau p) : eta <= _) as N2. pose proof (Rmin_l e e3) as N3. pose proof (Rmin_r e e3) as N4.
  intros two E V' i' d' tol secs dt o f HE HX Hdt HVw HB HI Hd H Hf. assert (EP : vh_planet V' = p) by apply HVw. assert (HP' : Planet name = Ok (vh_planet V')) by (rewrite EP; exact HP).
  destruct (flight_laws two E name V' i' tol secs dt d' o f HE HP' ltac:(apply HVw) H Hf) as (_ & _ & RR).
  assert (RD : forall k, (k < length (p_t (f_plot f)))%nat -> reads f g k = dial (ID p) g (mkProbe V' d' (altitude_at f k) (speed_at f k))) by (intros k Hk; rewrite <- EP; apply dial_reads; rewrite ?EP; auto).
  assert (BS : forall k, (k < length (p_t (f_plot f)))%nat -> time_of p (f_plot f) k <= T -> beside V d (height p (y (time_of p (f_plot f) k))) (Vref p * s_v (y (time_of p (f_plot f) k))) e (mkProbe V' d' (altitude_at f k) (speed_at f k))).
  { intros k Hk HT. destruct (N two E V' i' d' tol secs dt o f) with (k := k) as ((S1 & S2 & _) & B); auto; try lra; [apply (exact_more eta); auto; lra| | |].
    { destruct HVw as (A1 & A2 & A3 & A4 & A5). split; [auto|]. split; [auto|]. split; [lra|]. split; [lra|]. intros h Hh. specialize (A5 h Hh). lra. }
    { destruct HI as ((A1 & A2 & A3 & A4 & A5 & A6 & A7) & A8). split; [repeat split; lra|exact A8]. }
    apply (beside_mono _ _ _ _ (Rmax eta (Rmin e e))); [apply Rmax_lub; [lra|rewrite Rmin_left; lra]|].
    rewrite (Rmin_left e e) by lra. rewrite (Rmax_right eta e) by lra.
    destruct HVw as (A1 & A2 & A3 & A4 & A5). destruct HB as (C1 & C2 & C3 & C4). assert (Q : forall u, u <= eta -> u <= e) by (intros; lra).
    unfold beside, vehicle_within, build_within, altitude_at, speed_at. cbn [b_veh b_bank b_h b_v]. split; [repeat split; auto|]. split; [repeat split; auto|]. split; auto. split; [|split; [|exact B]].
    - unfold height. set (z := y (time_of p (f_plot f) k)) in *. replace (RP p * s_r z - RP p - nth k (p_h (f_plot f)) 0 * 1000) with (- ((nth k (p_h (f_plot f)) 0 - (RP p * s_r z - RP p) / 1000) * 1000)) by lra. rewrite Rabs_Ropp, Rabs_mult, (Rabs_right 1000) by lra. lra.
    - set (z := y (time_of p (f_plot f) k)) in *. replace (Vref p * s_v z - nth k (p_v (f_plot f)) 0 * 1000) with (- ((nth k (p_v (f_plot f)) 0 - Vref p * s_v z / 1000) * 1000)) by lra. rewrite Rabs_Ropp, Rabs_mult, (Rabs_right 1000) by lra. lra. }
  destruct (C43_flight_aligned E name (mkObj V' i' tol None None) secs dt d' o HE HP' ltac:(destruct two; [right|left]; exact H)) as (_ & _ & _ & f' & h & Hf' & _ & AL & _ & TI'). assert (f' = f) by congruence. subst f'. clear Hf'.
  destruct AL as (_ & _ & PL & _ & _ & _ & _ & _ & _ & _ & _ & AL). assert (Lt : length (p_t (f_plot f)) = f_index f) by apply PL. cbv [point] in AL.
  assert (TT : forall l, (l < length (p_t (f_plot f)))%nat -> time_of p (f_plot f) l = INR l * (dt / tau p)) by (intros l Hl; unfold time_of; replace (nth l (p_t (f_plot f)) 0 * 60) with (INR l * dt) by (rewrite <- TI' by lia; symmetry; apply (AL l); lia); field; lra).
  assert (Hst : 0 < dt / tau p) by (apply Rdiv_lt_0_compat; lra). assert (TP : forall l, (l < length (p_t (f_plot f)))%nat -> 0 <= time_of p (f_plot f) l) by (intros l Hl; rewrite TT by auto; apply Rmult_le_pos; [apply pos_INR|lra]).
  split.
  - intros k Hk HT. rewrite RD by auto. apply (UP (time_of p (f_plot f) k) (conj (TP k Hk) HT)). eapply beside_mono; [|apply BS; auto]. exact M1.
  - intros (j & Hj & Lj). rewrite TT in Lj by auto. destruct (step_below _ t0 j Hst ltac:(lra)) as (k & Hkj & B). assert (Hk : (k < length (p_t (f_plot f)))%nat) by lia. pose proof (TT k Hk) as Ek. rewrite <- Ek in B.
    assert (Ss : dt / tau p < e2) by (apply (Rmult_lt_reg_r (tau p)); auto; replace (dt / tau p * tau p) with dt by (field; lra); lra).
    destruct (LOW (time_of p (f_plot f) k) ltac:(pose proof (TP k Hk); lra) ltac:(apply Rabs_def1; lra) (mkProbe V' d' (altitude_at f k) (speed_at f k))) as (u & w & E1 & E2 & D); [eapply beside_mono; [|apply BS; auto; lra]; exact M2|].
    assert (u = M) by congruence. subst u. exists k, w. split; auto. split; [lra|]. split; [rewrite RD by auto; exact E2|]. apply Rabs_def2 in D. lra.
Qed.
