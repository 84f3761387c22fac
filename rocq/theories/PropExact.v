(** C104: with an exact integrator, no flight gains energy, stops, or reaches a pole. *)
From Coq Require Import String List.
Require Import Verif.Base Verif.Numpy Verif.PlanetModel Verif.AeroModel Verif.HeatModel Verif.TrajectoryModel Verif.TrajectorySpec Verif.TrajectoryProofs
  Verif.GuidanceModel Verif.GuidanceProofs Verif.PlanetProofs Verif.FlightSpec Verif.FlightProofs Verif.DerivTactic Verif.PropFlight Verif.PropTrajectory Verif.PropGuidance Verif.DragModel Verif.LegSpec Verif.PropLegs Verif.ExactSpec Verif.ExactProofs.
Import ListNotations.
Local Open Scope R_scope.

Lemma energy_scaled : forall name p r v ph, Planet name = Ok p -> r <> 0 ->
  energy_at p ((r * RP p - RP p) * 1e-3) (ph * 180 / PI) (v * Vref p * 1e-3) = Vref p * Vref p * jacobi (J2 p) (J3 p) (OMEGAbar p) r ph v.
Proof.
  intros name p r v ph HP Hr. destruct (ref_facts _ _ HP) as (Hv & Ev & Ht & Et & HRP & HGM & _). pose proof PI_RGT_0.
  unfold energy_at. cbv zeta. replace (RP p + (r * RP p - RP p) * 1e-3 * 1000) with (r * RP p) by lra.
  replace (ph * 180 / PI * PI / 180) with ph by (field; lra). replace (v * Vref p * 1e-3 * 1000) with (v * Vref p) by lra.
  unfold jacobi. assert (EO : OMEGA p * RP p = OMEGAbar p * Vref p) by (unfold OMEGAbar; rewrite <- Et; ring).
  replace ((OMEGA p * (r * RP p) * cos ph) ^ 2) with ((OMEGA p * RP p) ^ 2 * (r * cos ph) ^ 2) by ring. rewrite EO.
  assert (EZ : zonal_potential_si (GM p) (RP p) (J2 p) (J3 p) (r * RP p) ph = Vref p * Vref p * zonal_potential (J2 p) (J3 p) r ph).
  { rewrite Ev. unfold zonal_potential_si, zonal_potential. field. split; auto; lra. }
  rewrite EZ. field.
Qed.
Lemma combine_maps : forall {A B C} (f : A -> B) (g : A -> C) l, combine (map f l) (map g l) = map (fun x => (f x, g x)) l.
Proof. intros A B C f g l. induction l; cbn; congruence. Qed.


Theorem C104_steepest : 90 < steepest < 90.6.
Proof.
  pose proof acos_bounds. pose proof PI_RGT_0. unfold steepest. split.
  - apply Rmult_lt_reg_r with PI; auto. unfold Rdiv. rewrite Rmult_assoc, Rinv_l by lra. lra.
  - apply Rmult_lt_reg_r with PI; auto. unfold Rdiv. rewrite Rmult_assoc, Rinv_l by lra. lra.
Qed.

Lemma deg_band : forall x g, - g < x * 180 / PI < g <-> - (g * PI / 180) < x < g * PI / 180.
Proof.
  intros x g. pose proof PI_RGT_0. assert (E : x = x * 180 / PI * (PI / 180)) by (field; lra).
  assert (0 < PI / 180) by lra. set (z := x * 180 / PI) in *. clearbody z. subst x.
  replace (g * PI / 180) with (g * (PI / 180)) by lra. split; intros (A & B); split; nra.
Qed.
Lemma steep_rad : steepest * PI / 180 = acos (-0.01).
Proof. unfold steepest. pose proof PI_RGT_0. field. lra. Qed.

Lemma flight_energy : forall (two : bool) E name V i tol secs dt d o f, engine_ok E -> exact E -> Planet name = Ok (vh_planet V) -> 0 < dt ->
  good_start steepest i -> (if two then propogateEntry2 else propogateEntry) E (mkObj V i tol None None) secs dt d = (o, Ok tt) -> ob_flight o = Some f ->
  upright steepest (f_plot f) /\ (braking V -> never_up (energies (vh_planet V) (f_plot f))) /\
  length (p_h (f_plot f)) = length (p_v (f_plot f)) /\ length (p_h (f_plot f)) = length (p_phi (f_plot f)) /\ length (p_h (f_plot f)) = length (p_gamma (f_plot f)).
Proof.
  intros two E name V i tol secs dt d o f HE HX HP Hdt (G1 & G2 & G3) H Hf.
  destruct (exact_flight two E name V i tol secs dt d o f HE HX HP Hdt H Hf) as (y & T & ts & Y0 & S & (GI & GM) & Eh & Ev & Eph & Eg). clear H.
  set (p := vh_planet V) in *. destruct (ref_facts _ _ HP) as (Hv & _ & _ & _ & HRP & _). pose proof PI_RGT_0.
  assert (U : forall t, 0 <= t <= T -> 0 < s_v (y t) /\ - (PI / 2) < s_phi (y t) < PI / 2 /\ - acos (-0.01) < s_gamma (y t) < acos (-0.01)).
  { apply (run_upright V (deg d) y T S); rewrite Y0; cbn [entry_state nonDimState s_v s_phi s_gamma].
    - apply Rdiv_lt_0_compat; auto. lra.
    - unfold deg. split; nra.
    - rewrite <- steep_rad. apply deg_band. replace (deg (gamma0_deg i) * 180 / PI) with (gamma0_deg i) by (unfold deg; field; lra). auto. }
  assert (R0 : forall t, 0 <= t <= T -> s_r (y t) <> 0).
  { intros t Ht. destruct S as (l & S). destruct (S t Ht) as (_ & x & HEOM & _). apply (EOM_inv _ _ _ _ HEOM). }
  assert (EE : energies p (f_plot f) = map (fun t => Vref p * Vref p * jacobi_of p (y t)) ts).
  { unfold energies. rewrite Eh, Ev, Eph, !combine_maps, map_map. cbn [fst snd]. apply map_ext_in. intros t Ht.
    rewrite (energy_scaled name); auto. apply R0. apply (proj1 (Forall_forall _ _) GI t Ht). }
  assert (HV2 : 0 < Vref p * Vref p) by nra.
  assert (NI : forall k, (k < length ts)%nat -> 0 <= nth k ts 0 <= T). { intros k Hk. apply (proj1 (Forall_forall _ _) GI). apply nth_In; auto. }
  split; [|split].
  - unfold upright. rewrite Ev, Eph, Eg, !Forall_map. repeat split; (eapply Forall_impl; [|exact GI]); cbv beta; intros t Ht; destruct (U t Ht) as (U1 & U2 & U3).
    + assert (0 < s_v (y t) * Vref p) by nra. lra.
    + apply deg_band. lra.
    + apply deg_band. rewrite steep_rad. auto.
  - intros B j k Hk. rewrite EE in *. rewrite map_length in Hk.
    rewrite !(nth_map_lt (fun t => Vref p * Vref p * jacobi_of p (y t)) ts _ 0) by lia. apply Rmult_le_compat_l; [lra|].
    apply (run_energy V (deg d) y T); auto; [intros t Ht; apply U; auto| |].
    + pose proof (NI j ltac:(lia)). pose proof (GM j k Hk). lra.
    + apply NI. lia.
  - rewrite Eh, Ev, Eph, Eg, !map_length. auto.
Qed.

(** A vehicle whose drag brakes. *)
Lemma braking_like : forall V mass b A, vh_user V = false -> 0 < rho0 (vh_planet V) -> 0 < RP (vh_planet V) -> mass <> 0 -> b * A <> 0 -> 0 < b ->
  air (vh_planet V) (vh_atm V) -> vh_mbar V = 1 -> vh_CD V = mass / (b * A) -> vh_Abar V = A / (mass / (rho0 (vh_planet V) * RP (vh_planet V))) -> braking V.
Proof.
  intros V mass b A Hu Hr HRP Hm HbA Hb Ha E1 E2 E3 r th ph v delta. set (p := vh_planet V) in *.
  assert (HA : A <> 0) by (intros ->; apply HbA; ring).
  exists (drag_coeff p (vh_atm V) b r). split.
  - unfold drag_coeff. apply Rmult_le_pos; [|left; apply Rinv_0_lt_compat; lra]. apply Rmult_le_pos; [|lra].
    unfold density. rcases; cbn [andb]; try lra; apply Ha; auto.
  - unfold a_sbar, Dbar, Lbar, CD_scalar. rewrite Hu. cbn [rbind]. rewrite E1, E2, E3. unfold rhobar_at, rhobar, rho2, rho. fold p.
    unfold drag_coeff. half. f_equal. field. repeat split; auto; lra.
Qed.
(** C104.  One propagation, by either method. *)
Theorem C104_energy_never_up : forall (two : bool) E name mass beta LD A alpha RN p atm V i tol secs dt d o f, engine_ok E -> exact E ->
  Planet name = Ok p -> Vehicle mass beta LD A alpha RN p atm false = Ok V -> 0 < beta -> air p atm -> 0 < dt -> good_start steepest i ->
  (if two then propogateEntry2 else propogateEntry) E (mkObj V i tol None None) secs dt d = (o, Ok tt) -> ob_flight o = Some f ->
  never_up (energies p (f_plot f)) /\ length (energies p (f_plot f)) = length (p_t (f_plot f)) /\ upright steepest (f_plot f).
Proof.
  intros two E name mass beta LD A alpha RN p atm V i tol secs dt d o f HE HX HP HV Hb Ha Hdt G H Hf.
  destruct (Vehicle_inv _ _ _ _ _ _ _ _ _ _ HV) as (Hm & HbA & E1 & E2 & E3 & E4 & E5 & E6 & E7 & E8 & E9 & E10 & E11 & E12). subst p.
  destruct (Planet_facts _ _ HP) as (HRP & _ & Hr0 & _).
  destruct (flight_energy two E name V i tol secs dt d o f HE HX HP Hdt G H Hf) as (U & N & L1 & L2 & _). split; [|split; auto].
  - apply N. rewrite <- E7 in Ha. apply (braking_like V mass beta A); auto.
  - assert (HH : propogateEntry E (mkObj V i tol None None) secs dt d = (o, Ok tt) \/ propogateEntry2 E (mkObj V i tol None None) secs dt d = (o, Ok tt)) by (destruct two; auto).
    destruct (C43_flight_aligned E name (mkObj V i tol None None) secs dt d o HE HP HH) as (_ & _ & _ & f' & h & F1 & _ & FA & _).
    assert (f' = f) by congruence. subst f'. unfold energies. rewrite map_length, !combine_length.
    unfold flight_aligned, plot_len in FA. decompose [and] FA. lia.
Qed.

(** * Chains of flights *)
Lemma never_up_app : forall a b, never_up a -> never_up b -> (a <> [] -> b <> [] -> nth 0 b 0 <= last a 0) -> never_up (a ++ b).
Proof.
  intros a b Ha Hb Hab j k Hk. rewrite app_length in Hk. destruct (Nat.lt_ge_cases k (length a)) as [K|K].
  - rewrite !app_nth1 by lia. apply Ha. lia.
  - rewrite (app_nth2 a b 0 K). destruct (Nat.lt_ge_cases j (length a)) as [J|J].
    + rewrite app_nth1 by lia. apply Rle_trans with (nth 0 b 0); [apply Hb; lia|]. apply Rle_trans with (last a 0).
      * apply Hab; [destruct a; [cbn in J; lia|discriminate]|destruct b; [cbn in Hk; lia|discriminate]].
      * rewrite last_is_nth. apply Ha. lia.
    + rewrite app_nth2 by lia. apply Hb. lia.
Qed.
Definition aligned (q : plot) : Prop := length (p_v q) = length (p_h q) /\ length (p_phi q) = length (p_h q) /\ length (p_gamma q) = length (p_h q) /\ p_h q <> [].
Lemma energies_nth : forall p q k, aligned q -> (k < length (p_h q))%nat -> nth k (energies p q) 0 = energy_at p (nth k (p_h q) 0) (nth k (p_phi q) 0) (nth k (p_v q) 0).
Proof.
  intros p q k (A & B & _) Hk. unfold energies.
  rewrite (nth_map_lt (fun w : R * R * R => energy_at p (fst (fst w)) (snd w) (snd (fst w))) _ k (0, 0, 0)) by (rewrite !combine_length; lia).
  rewrite combine_nth by (rewrite combine_length; lia). rewrite combine_nth by lia. reflexivity.
Qed.
Lemma energies_length : forall p q, aligned q -> length (energies p q) = length (p_h q).
Proof. intros p q (A & B & _). unfold energies. rewrite map_length, !combine_length. lia. Qed.
Lemma Forall_last : forall (P : R -> Prop) l, Forall P l -> l <> [] -> P (last l 0).
Proof. intros P l H Hn. apply (proj1 (Forall_forall _ _) H). rewrite last_is_nth. apply nth_In. destruct l; [congruence|cbn; lia]. Qed.

Definition leg_ok (p : planet) (l : leg) : Prop := good_start steepest (lg_init l) ->
  let q := f_plot (lg_flight l) in upright steepest q /\ never_up (energies p q) /\ aligned q /\ starts_at (lg_init l) (lg_flight l).
Lemma chain_energy : forall p L l, Forall (leg_ok p) (l :: L) -> chained (l :: L) -> good_start steepest (lg_init l) ->
  Forall (fun m => aligned (f_plot (lg_flight m)) /\ upright steepest (f_plot (lg_flight m))) (l :: L) /\
  never_up (flat_map (fun m => energies p (f_plot (lg_flight m))) (l :: L)) /\
  nth 0 (flat_map (fun m => energies p (f_plot (lg_flight m))) (l :: L)) 0 = energy_at p (h0_km (lg_init l)) (phi0_deg (lg_init l)) (v0_kms (lg_init l)).
Proof.
  intros p L. induction L as [|m L IH]; intros l F C G.
  - inversion F as [|? ? Hl _]; subst. destruct (Hl G) as (U & N & A & S). cbv zeta in *. set (q := f_plot (lg_flight l)) in *.
    assert (Hp : (0 < length (p_h q))%nat) by (destruct A as (_ & _ & _ & Hn); destruct (p_h q); [congruence|cbn; lia]).
    split; [constructor; [split; assumption|constructor]|]. cbn [flat_map]. fold q. rewrite app_nil_r. split; auto.
    rewrite energies_nth by auto. destruct S as (_ & S1 & S2 & S3 & _). fold q in S1, S2, S3. rewrite S1, S2, S3. reflexivity.
  - inversion F as [|? ? Hl F']; subst. destruct (Hl G) as (U & N & A & S). cbv zeta in *. set (q := f_plot (lg_flight l)) in *.
    assert (Hp : (0 < length (p_h q))%nat) by (destruct A as (_ & _ & _ & Hn); destruct (p_h q); [congruence|cbn; lia]).
    destruct (C 0%nat l m eq_refl eq_refl) as (K1 & _ & K3 & K4 & _ & K6 & _). fold q in K1, K3, K4, K6.
    assert (G' : good_start steepest (lg_init m)).
    { destruct U as (U1 & U2 & U3). destruct A as (A1 & A2 & A3 & _). unfold good_start. rewrite K3, K4, K6.
      split; [apply (Forall_last _ _ U1)|split; [apply (Forall_last _ _ U2)|apply (Forall_last _ _ U3)]]; intros Z; rewrite Z in *; cbn in *; lia. }
    assert (C' : chained (m :: L)). { intros k a b Ha Hb. apply (C (Datatypes.S k) a b); auto. }
    destruct (IH m F' C' G') as (I1 & I2 & I3). split; [constructor; auto|].
    change (flat_map (fun m => energies p (f_plot (lg_flight m))) (l :: m :: L)) with (energies p q ++ flat_map (fun m => energies p (f_plot (lg_flight m))) (m :: L)).
    set (E' := flat_map _ (m :: L)) in *. pose proof (energies_length p q A) as EL.
    split.
    + apply never_up_app; auto. intros _ _. rewrite I3, last_is_nth, EL, energies_nth by (auto; lia).
      rewrite K1, K3, K4, !last_is_nth. destruct A as (A1 & A2 & _). rewrite A1, A2. lra.
    + rewrite app_nth1 by lia. rewrite energies_nth by auto. destruct S as (_ & S1 & S2 & S3 & _). fold q in S1, S2, S3. rewrite S1, S2, S3. reflexivity.
Qed.
Lemma combine_app : forall {A B} (a a' : list A) (b b' : list B), length a = length b -> combine (a ++ a') (b ++ b') = combine a b ++ combine a' b'.
Proof. intros A B a. induction a as [|x a IH]; intros a' [|y b] b' H; cbn in *; try discriminate; auto. rewrite IH by congruence. reflexivity. Qed.
Lemma joined_energies : forall p L Q, Forall (fun m => aligned (f_plot (lg_flight m))) L ->
  p_h Q = joined_up (fun f => p_h (f_plot f)) L -> p_v Q = joined_up (fun f => p_v (f_plot f)) L -> p_phi Q = joined_up (fun f => p_phi (f_plot f)) L ->
  energies p Q = flat_map (fun m => energies p (f_plot (lg_flight m))) L.
Proof.
  intros p L Q F H1 H2 H3. unfold energies. rewrite H1, H2, H3. clear H1 H2 H3 Q. unfold joined_up. induction F as [|l L (A1 & A2 & _) F IH]; cbn [flat_map]; auto.
  rewrite !combine_app by (rewrite ?combine_length; lia). rewrite map_app. f_equal. exact IH.
Qed.
Lemma joined_upright : forall g L Q, Forall (fun m => upright g (f_plot (lg_flight m))) L ->
  p_v Q = joined_up (fun f => p_v (f_plot f)) L -> p_phi Q = joined_up (fun f => p_phi (f_plot f)) L -> p_gamma Q = joined_up (fun f => p_gamma (f_plot f)) L -> upright g Q.
Proof.
  intros g L Q F H1 H2 H3. unfold upright. rewrite H1, H2, H3. clear H1 H2 H3 Q. unfold joined_up. induction F as [|l L (A1 & A2 & A3) F (I1 & I2 & I3)]; cbn [flat_map]; auto.
  rewrite !Forall_app. auto.
Qed.
(** A leg flown by a braking vehicle at a numeric bank angle. *)
Lemma plain_leg_ok : forall two E name V tol dt l d, engine_ok E -> exact E -> Planet name = Ok (vh_planet V) -> 0 < dt -> braking V ->
  lg_bank l = Some d -> plain_leg two E V tol dt l -> leg_ok (vh_planet V) l.
Proof.
  intros two E name V tol dt l d HE HX HP Hdt B Hd H G. destruct (H d Hd) as (o & Ho & Hf & _).
  destruct (flight_energy two E name V (lg_init l) tol (lg_secs l) dt d o (lg_flight l) HE HX HP Hdt G Ho Hf) as (U & N & L1 & L2 & L3).
  assert (HH : propogateEntry E (mkObj V (lg_init l) tol None None) (lg_secs l) dt d = (o, Ok tt) \/ propogateEntry2 E (mkObj V (lg_init l) tol None None) (lg_secs l) dt d = (o, Ok tt)) by (destruct two; auto).
  destruct (C43_flight_aligned E name (mkObj V (lg_init l) tol None None) (lg_secs l) dt d o HE HP HH) as (_ & _ & _ & f' & h & F1 & _ & FA & SA & _).
  assert (f' = lg_flight l) by congruence. subst f'. cbv zeta. split; auto. split; auto. split; auto.
  destruct FA as (Hn & _ & PL & _). destruct PL as (_ & P2 & _). repeat split; auto. intros Z. rewrite Z in P2. cbn in P2. lia.
Qed.

(** C104.  A whole guided flight, lift or drag modulated. *)
Theorem C104_lift_guided : forall two E X P name mass beta LD A alpha RN p atm V i tol timeStep dt maxTime n hdotref o' s s' rep,
  engine_ok E -> exact E -> nan_ok X -> Planet name = Ok p -> Vehicle mass beta LD A alpha RN p atm false = Ok V -> 0 < beta -> air p atm -> 0 < dt ->
  good_start steepest i ->
  propogateGuidedEntry two E X P timeStep dt maxTime n (mkObj V i tol None None) hdotref = Some (o', Ok (s, s', rep)) ->
  Forall (fun d => d <> None) (a_delta (s_arr s')) ->
  never_up (energies p (y_plot (s_hist s'))) /\ length (energies p (y_plot (s_hist s'))) = length (p_h (y_plot (s_hist s'))) /\ upright steepest (y_plot (s_hist s')).
Proof.
  intros two E X P name mass beta LD A alpha RN p atm V i tol timeStep dt maxTime n hdotref o' s s' rep HE HX HN HP HV Hb Ha Hdt G H HD.
  destruct (Vehicle_inv _ _ _ _ _ _ _ _ _ _ HV) as (Hm & HbA & E1 & E2 & E3 & E4 & E5 & E6 & E7 & E8 & E9 & E10 & E11 & E12). subst p.
  destruct (Planet_facts _ _ HP) as (HRP & _ & Hr0 & _).
  destruct (C103_lift_flight two E X P name timeStep dt maxTime n (mkObj V i tol None None) hdotref o' s s' rep HE HN HP H) as (l & Gl & l' & Ex & A'). cbv zeta in A'.
  destruct A' as (I0 & _ & _ & _ & PL & CH & DL & _ & M & _). cbn [ob_veh ob_tol ob_init] in *.
  assert (B : braking V). { rewrite <- E7 in Ha. apply (braking_like V mass beta A); auto. }
  assert (OK : Forall (leg_ok (vh_planet V)) (l :: Gl ++ Ex)).
  { apply Forall_forall. intros m Hm'. rewrite DL in HD. rewrite Forall_map in HD. pose proof (proj1 (Forall_forall _ _) HD m Hm') as Hd. cbv beta in Hd.
    destruct (lg_bank m) as [d|] eqn:Ed; [|congruence]. apply (plain_leg_ok two E name V tol dt m d); auto. apply (proj1 (Forall_forall _ _) PL m Hm'). }
  destruct (chain_energy (vh_planet V) (Gl ++ Ex) l OK CH) as (F & N & _). { rewrite I0. exact G. }
  destruct M as (_ & M1 & M2 & M3 & _ & _ & M6 & _).
  apply Forall_and_inv in F. destruct F as (F1 & F2).
  assert (EE := joined_energies (vh_planet V) _ _ F1 M1 M2 M3). split; [rewrite EE; exact N|]. split; [|apply (joined_upright _ _ _ F2 M2 M3 M6)].
  rewrite EE, M1. clear -F1. unfold joined_up. induction F1 as [|m L Al F IH]; cbn [flat_map]; auto. rewrite !app_length, IH, energies_length by auto. reflexivity.
Qed.
Theorem C104_drag_guided : forall two E X b1 ratio P name mass beta LD A alpha RN p atm V i tol timeStepEntry timeStepExit dt maxTime n hdotref o' s s' rep,
  engine_ok E -> exact E -> Planet name = Ok p -> Vehicle mass beta LD A alpha RN p atm false = Ok V -> 0 < b1 -> 0 < ratio -> air p atm -> 0 < dt ->
  good_start steepest i ->
  propogateGuidedEntryD two E X (Some (b1, ratio)) P timeStepEntry timeStepExit dt maxTime n (mkObj V i tol None None) hdotref = Some (o', Ok (s, s', rep)) ->
  never_up (energies p (y_plot (s_hist s'))) /\ length (energies p (y_plot (s_hist s'))) = length (p_h (y_plot (s_hist s'))) /\ upright steepest (y_plot (s_hist s')).
Proof.
  intros two E X b1 ratio P name mass beta LD A alpha RN p atm V i tol tE tX dt maxTime n hdotref o' s s' rep HE HX HP HV Hb1 Hr Ha Hdt G H.
  destruct (Vehicle_inv _ _ _ _ _ _ _ _ _ _ HV) as (Hm & HbA & E1 & E2 & E3 & E4 & E5 & E6 & E7 & E8 & E9 & E10 & E11 & E12). subst p.
  destruct (Planet_facts _ _ HP) as (HRP & _ & Hr0 & _). assert (HA : A <> 0) by (intros ->; apply HbA; ring).
  destruct (C103_drag_flight two E X b1 ratio P name tE tX dt maxTime n (mkObj V i tol None None) hdotref o' s s' rep HE HP H) as (l & Gl & l' & Ex & A'). cbv zeta in A'.
  destruct A' as (I0 & _ & Z & _ & _ & PL & PX & CH & _ & _ & M & _). cbn [ob_veh ob_tol ob_init] in *.
  set (W := fun b => mkVehicle (vh_mass V) b (vh_LD V) (vh_A V) (vh_alpha V) (vh_RN V) (vh_planet V) (vh_atm V) (vh_user V) (vh_CDMach V)
               (vh_Abar V) (vh_mbar V) (vh_mass V / (b * vh_A V)) (vh_CL V)).
  assert (B : forall b, 0 < b -> braking (W b)).
  { intros b Hb. rewrite <- E7 in Ha. apply (braking_like (W b) mass b A); cbn [W vh_user vh_planet vh_atm vh_mbar vh_CD vh_Abar]; auto.
    - apply Rmult_integral_contrapositive_currified; auto; lra.
    - rewrite E1, E4. reflexivity. }
  assert (OK : Forall (leg_ok (vh_planet V)) (l :: Gl ++ Ex)).
  { change (l :: Gl ++ Ex) with ((l :: Gl) ++ Ex) in *. apply Forall_app in Z. destruct Z as (Z1 & Z2). apply Forall_app. split.
    - apply Forall_forall. intros m Hm'. apply (plain_leg_ok two E name (W b1) tol dt m 0); auto; [apply (proj1 (Forall_forall _ _) Z1 m Hm')|apply (proj1 (Forall_forall _ _) PL m Hm')].
    - apply Forall_forall. intros m Hm'. apply (plain_leg_ok two E name (W (b1 * ratio)) tol dt m 0); auto; [apply B; nra|apply (proj1 (Forall_forall _ _) Z2 m Hm')|apply (proj1 (Forall_forall _ _) PX m Hm')]. }
  destruct (chain_energy (vh_planet V) (Gl ++ Ex) l OK CH) as (F & N & _). { rewrite I0. exact G. }
  destruct M as (_ & M1 & M2 & M3 & _ & _ & M6 & _).
  apply Forall_and_inv in F. destruct F as (F1 & F2).
  assert (EE := joined_energies (vh_planet V) _ _ F1 M1 M2 M3). split; [rewrite EE; exact N|]. split; [|apply (joined_upright _ _ _ F2 M2 M3 M6)].
  rewrite EE, M1. clear -F1. unfold joined_up. induction F1 as [|m L Al F IH]; cbn [flat_map]; auto. rewrite !app_length, IH, energies_length by auto. reflexivity.
Qed.
