(** C127: the heat load reported at each point is the time integral of the heating rate along the flight, up to an error that vanishes with the time step. *)
From Coq Require Import String List Reals Lra Lia Classical Ranalysis5.
Require Import Verif.Base Verif.Numpy Verif.PlanetModel Verif.PlanetProofs Verif.AeroModel Verif.HeatModel Verif.PropHeat Verif.TrajectoryModel Verif.TrajectorySpec Verif.TrajectoryProofs Verif.PropTrajectory Verif.FlightProofs Verif.PropFlight
  Verif.ReportSpec Verif.PropReport Verif.ExactSpec Verif.ExactProofs Verif.PropExact Verif.DetSpec Verif.DetProofs Verif.PropDet Verif.ExistSpec Verif.PropExist Verif.HeatIntSpec Verif.HeatIntProofs Verif.Trapezoid.
Import ListNotations.
Local Open Scope R_scope.

Lemma fast_enough : forall name V i d T y, Planet name = Ok (vh_planet V) -> good_start steepest i -> way V i d T y -> forall t, 0 <= t <= T -> 0 < s_v (y t).
Proof.
  intros name V i d T y HP (G1 & G2 & G3) (Y0 & S & _) t Ht. destruct (ref_facts _ _ HP) as (HV & _). pose proof PI_RGT_0.
  destruct (run_upright V (d * PI / 180) y T S) with (t := t) as (U & _); auto; rewrite Y0; destruct (entry_clear _ _ i HP) as (_ & E2 & E3 & E4).
  - rewrite Rmult_comm in E2. apply (Rmult_lt_reg_r (Vref (vh_planet V))); auto. rewrite E2. lra.
  - rewrite E3. split; nra.
  - rewrite E4, <- steep_rad. apply deg_band. replace (gamma0_deg i * PI / 180 * 180 / PI) with (gamma0_deg i) by (field; lra). auto.
Qed.
Lemma reaches : forall f a b w, a <= b -> (forall s, a <= s <= b -> continuity_pt f s) -> f a <= w <= f b \/ f b <= w <= f a -> exists c, a <= c <= b /\ f c = w.
Proof.
  assert (A : forall f a b w, a <= b -> (forall s, a <= s <= b -> continuity_pt f s) -> f a <= w <= f b -> exists c, a <= c <= b /\ f c = w).
  { intros f a b w Hab C (L & U). destruct (Req_dec (f a) w) as [E|Na]; [exists a; split; [lra|auto]|]. destruct (Req_dec (f b) w) as [E|Nb]; [exists b; split; [lra|auto]|].
    destruct (Req_dec a b) as [->|Nab]; [lra|]. destruct (IVT_interv (fun s => f s - w) a b) as (c & Hc & Ec); try lra.
    - intros s Hs. apply (continuity_pt_minus f (fun _ => w)); [apply C; auto|apply continuity_pt_const; intros x z; reflexivity].
    - exists c. split; auto. lra. }
  intros f a b w Hab C [H|H]; [apply A; auto|]. destruct (A (fun s => - f s) a b (- w) Hab) as (c & Hc & Ec); [|lra|exists c; split; auto; lra].
  intros s Hs. apply (continuity_pt_opp f). auto.
Qed.
Definition rate_at (V : vehicle) (y : R -> state) (s : R) : R := match heat_rate V (y (s / tau (vh_planet V))) with Some q => q | None => 0 end.
Lemma rate_setup : forall name V i d T y l, Planet name = Ok (vh_planet V) -> lipschitz_air (vh_planet V) (vh_atm V) -> some_air (vh_planet V) (vh_atm V) -> 0 < vh_RN V ->
  good_start steepest i -> way V i d T y -> breaks_listed V y T l ->
  (forall s, 0 <= s <= tau (vh_planet V) * T -> heat_rate V (y (s / tau (vh_planet V))) = Some (rate_at V y s)) /\
  exists (G : nat -> R -> R) (idx : R -> nat),
    (forall s, 0 <= s <= tau (vh_planet V) * T -> rate_at V y s = G (idx s) s /\ (idx s < 3)%nat) /\
    (forall j s, (j < 3)%nat -> 0 <= s <= tau (vh_planet V) * T -> continuity_pt (G j) s) /\
    (forall a b, 0 <= a <= b -> b <= tau (vh_planet V) * T -> (forall c, a <= c <= b -> ~ In c l) -> idx a = idx b).
Proof.
  intros name V i d T y l HP (K & HL) HA HR HG W HB. pose proof (fast_enough name V i d T y HP HG W) as FE. destruct W as (Y0 & S & I).
  destruct (ref_facts _ _ HP) as (HV & _ & Ht & _). set (p := vh_planet V) in *.
  destruct (law_pieces (ID p) (vh_RN V) (planet_known _ _ HP) HR) as (P & ix & P1 & P2 & P3 & P4).
  set (rho := fun s => density_int (vh_atm V) (RP p * s_r (y (s / tau p)) - RP p)). set (v := fun s => Vref p * s_v (y (s / tau p))).
  assert (ST : forall s, 0 <= s <= tau p * T -> 0 <= s / tau p <= T).
  { intros s (A & B). split; [apply Rmult_le_pos; [auto|left; apply Rinv_0_lt_compat; auto]|]. apply (Rmult_le_reg_r (tau p)); auto. unfold Rdiv. rewrite Rmult_assoc, Rinv_l, Rmult_1_r by lra. lra. }
  assert (Hrho : forall s, 0 <= s <= tau p * T -> 0 < rho s) by (intros s Hs; apply HA; specialize (I _ (ST s Hs)); unfold in_air in I; fold p in I; lra).
  assert (Hv : forall s, 0 <= s <= tau p * T -> 0 < v s) by (intros s Hs; apply Rmult_lt_0_compat; auto).
  assert (CS : forall s, continuity_pt (fun u => u / tau p) s) by (intros s; apply derivable_continuous_pt; apply (derivable_pt_mult id (fun _ => / tau p)); [apply derivable_pt_id|apply derivable_pt_const]).
  destruct S as (cs & S).
  assert (Cv : forall s, 0 <= s <= tau p * T -> continuity_pt v s).
  { intros s Hs. apply (continuity_pt_scal (fun u => s_v (y (u / tau p))) (Vref p)). apply (continuity_pt_comp (fun u => u / tau p) (fun t => s_v (y t))); [apply CS|apply (S _ (ST s Hs))]. }
  assert (Crho : forall s, 0 <= s <= tau p * T -> continuity_pt rho s).
  { intros s Hs. set (h := fun u => RP p * s_r (y (u / tau p)) - RP p).
    assert (Ch : continuity_pt h s).
    { apply (continuity_pt_minus (fun u => RP p * s_r (y (u / tau p))) (fun _ => RP p)); [|apply continuity_pt_const; intros a b; reflexivity].
      apply (continuity_pt_scal (fun u => s_r (y (u / tau p))) (RP p)). apply (continuity_pt_comp (fun u => u / tau p) (fun t => s_r (y t))); [apply CS|apply (S _ (ST s Hs))]. }
    apply (continuity_pt_comp h (density_int (vh_atm V))); auto. pose proof (I _ (ST s Hs)) as In. unfold in_air in In. fold p in In. fold (h s) in In.
    intros e He. pose proof (Rabs_pos K). assert (0 < e / (Rabs K + 1)) by (apply Rdiv_lt_0_compat; lra). set (m := Rmin (h s) (h_thres p - h s)). assert (0 < m) by (apply Rmin_glb_lt; lra). pose proof (Rmin_l (h s) (h_thres p - h s)). pose proof (Rmin_r (h s) (h_thres p - h s)).
    fold m in H2, H3. exists (Rmin m (e / (Rabs K + 1))). split; [apply Rmin_glb_lt; auto|]. intros x (_ & Hx). cbn in *. unfold R_dist in *. pose proof (Rmin_l m (e / (Rabs K + 1))). pose proof (Rmin_r m (e / (Rabs K + 1))).
    assert (Hx' : Rabs (x - h s) < m) by lra. apply Rabs_def2 in Hx'.
    eapply Rle_lt_trans; [apply HL; fold p; lra|]. pose proof (Rle_abs K). assert (e / (Rabs K + 1) * (Rabs K + 1) = e) by (field; lra). pose proof (Rabs_pos (x - h s)). nra. }
  assert (HQ : forall s, 0 <= s <= tau p * T -> heat_rate V (y (s / tau p)) = Some (P (ix (v s)) (rho s) (v s))) by (intros s Hs; apply (P2 (rho s) (v s)); auto).
  split; [intros s Hs; unfold rate_at; fold p; rewrite HQ; auto|].
  exists (fun j s => P j (rho s) (v s)), (fun s => ix (v s)). split; [|split].
  - intros s Hs. split; auto. unfold rate_at. fold p. rewrite HQ by auto. reflexivity.
  - intros j s Hj Hs. apply (P3 j Hj); auto.
  - intros a b Ha Hb Hn. destruct (Nat.eq_dec (ix (v a)) (ix (v b))) as [E|N]; auto. exfalso. destruct (P4 _ _ N) as (w & Hw & Bw).
    assert (X : exists c, a <= c <= b /\ v c = w).
    { apply reaches; auto; [lra|]. intros s Hs. apply Cv. lra. }
    destruct X as (c & Hc & Ec). apply (Hn c Hc). replace c with (tau p * (c / tau p)) by (field; lra). apply HB; [apply ST; lra|]. fold p. fold (v c). rewrite Ec. exact Hw.
Qed.

(** The integral exists, and there is only one. *)
Theorem C127_integral : forall name V i d T y l, Planet name = Ok (vh_planet V) -> lipschitz_air (vh_planet V) (vh_atm V) -> some_air (vh_planet V) (vh_atm V) -> 0 < vh_RN V ->
  good_start steepest i -> way V i d T y -> 0 <= T -> breaks_listed V y T l ->
  exists J, heat_so_far V y T l J /\ forall K, heat_so_far V y T l K -> forall s, 0 <= s <= tau (vh_planet V) * T -> K s = J s.
Proof.
  intros name V i d T y l HP HL HA HR HG W HT HB. destruct (rate_setup name V i d T y l HP HL HA HR HG W HB) as (HQ & G & idx & G1 & G2 & G3).
  destruct (ref_facts _ _ HP) as (_ & _ & Ht & _). assert (HT' : 0 <= tau (vh_planet V) * T) by (apply Rmult_le_pos; lra).
  destruct (integral_exists (tau (vh_planet V) * T) (rate_at V y) l G idx 3 HT' G1 G2 G3) as (J & J0 & Jc & Jd). exists J. split.
  - split; auto. intros s Hs. split; auto. exists (rate_at V y s). split; auto.
  - intros K (K0 & HK) s Hs. apply (integral_unique (tau (vh_planet V) * T) (rate_at V y) l K K0); auto.
    + intros u Hu. apply HK. auto.
    + intros u Hu Hn. destruct (HK u ltac:(lra)) as (_ & q & Eq & Dq). rewrite HQ in Eq by lra. injection Eq as <-. auto.
Qed.
(** Whatever the accuracy asked for, every small enough step gives a heat load that accurate at every point: the reported load is the integral of the heating rate. *)
Theorem C127_load_is_integral : forall name V i d T y l J, Planet name = Ok (vh_planet V) -> vh_user V = false -> lipschitz_air (vh_planet V) (vh_atm V) -> some_air (vh_planet V) (vh_atm V) -> 0 < vh_RN V ->
  good_start steepest i -> way V i d T y -> 0 <= T -> breaks_listed V y T l -> heat_so_far V y T l J ->
  forall eps, 0 < eps -> exists delta, 0 < delta /\ forall (two : bool) E tol secs dt o f h, engine_ok E -> exact E -> 0 < dt < delta ->
    (if two then propogateEntry2 else propogateEntry) E (mkObj V i tol None None) secs dt d = (o, Ok tt) -> ob_flight o = Some f -> ob_heat o = Some h ->
    forall k, (k < length (p_t (f_plot f)))%nat -> time_of (vh_planet V) (f_plot f) k <= T ->
    exists x, nth k h None = Some x /\ Rabs (x - J (60 * nth k (p_t (f_plot f)) 0)) <= eps.
Proof.
  intros name V i d T y l J HP Hu HL HA HR HG W HT HB (J0 & HJ) eps Heps. destruct (rate_setup name V i d T y l HP HL HA HR HG W HB) as (HQ & G & idx & G1 & G2 & G3).
  destruct (ref_facts _ _ HP) as (_ & _ & Ht & _ & HRP & _). assert (HT' : 0 <= tau (vh_planet V) * T) by (apply Rmult_le_pos; lra).
  assert (Jd : forall u, 0 < u < tau (vh_planet V) * T -> ~ In u l -> derivable_pt_lim J u (rate_at V y u)).
  { intros u Hu' Hn. destruct (HJ u ltac:(lra)) as (_ & q & Eq & Dq). rewrite HQ in Eq by lra. injection Eq as <-. auto. }
  destruct (trapezoid (tau (vh_planet V) * T) (rate_at V y) l G idx 3 HT' G1 G2 G3 J J0 (fun u Hu' => proj1 (HJ u Hu')) Jd eps Heps) as (delta & Hd & TR). exists delta. split; auto.
  intros two E tol secs dt o f h HE HX Hdt H Hf Hh. set (p := vh_planet V) in *.
  assert (H' : propogateEntry E (mkObj V i tol None None) secs dt d = (o, Ok tt) \/ propogateEntry2 E (mkObj V i tol None None) secs dt d = (o, Ok tt)) by (destruct two; auto).
  destruct (C46_heat_load E name (mkObj V i tol None None) secs dt d o HE HP H') as (f1 & h1 & F1 & H1 & Lh & N0 & NS & _). assert (f1 = f) by congruence. assert (h1 = h) by congruence. subst f1 h1.
  destruct (C43_flight_aligned E name (mkObj V i tol None None) secs dt d o HE HP H') as (_ & _ & _ & f2 & h2 & F2 & H2 & FA & _ & Tk). assert (f2 = f) by congruence. assert (h2 = h) by congruence. subst f2 h2.
  destruct FA as (I1 & _ & (Lp & _) & _ & _ & _ & _ & _ & _ & _ & _ & PT).
  destruct (flight_laws two E name V i tol secs dt d o f HE HP Hu H Hf) as ((con & Hcon) & (rad & Hrad) & RP').
  assert (TT : forall k, (k < f_index f)%nat -> nth k (p_t (f_plot f)) 0 * 60 = INR k * dt).
  { intros k Hk. specialize (PT k Hk). unfold point in PT. rewrite <- (Tk k Hk). apply PT. }
  assert (QT : forall k, (k < f_index f)%nat -> INR k * dt <= tau p * T -> nth k (f_qtot f) None = Some (rate_at V y (INR k * dt))).
  { intros k Hk Hle. assert (0 <= INR k * dt) by (apply Rmult_le_pos; [apply pos_INR|lra]). rewrite <- HQ by (fold p; lra).
    assert (Et : time_of p (f_plot f) k = INR k * dt / tau p) by (unfold time_of; rewrite TT; auto).
    assert (LeT : time_of p (f_plot f) k <= T) by (rewrite Et; apply (Rmult_le_reg_r (tau p)); auto; unfold Rdiv; rewrite Rmult_assoc, Rinv_l, Rmult_1_r by lra; lra).
    pose proof (C106_on_the_way two E name V i tol secs dt d o f y T HE HX HP ltac:(lra) Hu HL W H Hf k ltac:(lia) LeT) as SH. fold p in SH. rewrite Et in SH.
    destruct (RP' k ltac:(lia)) as (_ & _ & _ & _ & RC & RR & RT). rewrite (RC con Hcon), (RR rad Hrad) in RT. rewrite RT. unfold heat_rate. fold p in Hcon, Hrad |- *. rewrite Hcon, Hrad.
    destruct SH as (S1 & S2 & _). unfold altitude_at, speed_at. rewrite S2. replace (nth k (p_h (f_plot f)) 0 * 1000) with (RP p * s_r (y (INR k * dt / tau p)) - RP p) by lra. reflexivity. }
  intros k Hk HkT. rewrite Lp in Hk. assert (Kt : INR k * dt <= tau p * T).
  { rewrite <- (TT k Hk). unfold time_of in HkT. apply (Rmult_le_compat_r (tau p)) in HkT; [|lra]. unfold Rdiv in HkT. rewrite Rmult_assoc, Rinv_l, Rmult_1_r in HkT by lra. lra. }
  assert (HS : forall j, (j <= k)%nat -> exists x, nth j h None = Some x).
  { induction j as [|j IH]; intros Hj; [eauto|]. destruct (IH ltac:(lia)) as (x & Ex). rewrite (NS j ltac:(lia)), Ex. cbn [obind].
    rewrite !QT; try lia; cbn [obind]; [eauto|..]; (eapply Rle_trans; [|exact Kt]); apply Rmult_le_compat_r; try lra; apply le_INR; lia. }
  destruct (HS k (le_n k)) as (x & Ex). exists x. split; auto. rewrite (Rmult_comm 60), (TT k Hk).
  set (hh := fun j => match nth j h None with Some z => z | None => 0 end). replace x with (hh k) by (unfold hh; rewrite Ex; reflexivity).
  apply TR; auto; [unfold hh; rewrite N0; reflexivity|]. intros j Hj. unfold hh. destruct (HS j ltac:(lia)) as (a & Ea). destruct (HS (S j) ltac:(lia)) as (b & Eb). rewrite Ea, Eb.
  rewrite (NS j ltac:(lia)), Ea in Eb. cbn [obind] in Eb. rewrite !QT in Eb; try lia; cbn [obind] in Eb; [injection Eb as <-; reflexivity|..]; (eapply Rle_trans; [|exact Kt]); apply Rmult_le_compat_r; try lra; apply le_INR; lia.
Qed.
