(** C126: the equations of motion have exactly one solution from every start in the air, it lasts until the vehicle nears the ground, the top of the
    atmosphere, standstill, a pole or the vertical, and an integrator that returns it exists. *)
From Coq Require Import String List Classical.
Require Import Verif.Base Verif.Numpy Verif.PlanetModel Verif.PlanetProofs Verif.AeroModel Verif.TrajectoryModel Verif.TrajectorySpec Verif.TrajectoryProofs Verif.FlightProofs Verif.PropFlight
  Verif.ExactSpec Verif.ExactProofs Verif.PropExact Verif.DetSpec Verif.DetProofs Verif.NearProofs Verif.ExistSpec Verif.ExistProofs.
Require Verif.PropRoundGrid Verif.PropGuidance.
Import ListNotations.
Local Open Scope R_scope.

Lemma flow_way : forall V i d T y, vh_user V = false -> flow V (d * PI / 180) (entry_state (vh_planet V) i) T y -> way V i d T y.
Proof. intros V i d T y Hu F. destruct (flow_solves _ _ _ _ _ Hu F) as (S & I). split; [apply F|]. split; auto. Qed.
Lemma entry_clear : forall name p i, Planet name = Ok p -> RP p * s_r (entry_state p i) - RP p = h0_km i * 1000 /\ Vref p * s_v (entry_state p i) = v0_kms i * 1000 /\
  s_phi (entry_state p i) = phi0_deg i * PI / 180 /\ s_gamma (entry_state p i) = gamma0_deg i * PI / 180.
Proof.
  intros name p i HP. destruct (ref_facts _ _ HP) as (Hv & _ & _ & _ & HRP & _). unfold entry_state, nonDimState, computeR, deg. cbn [s_r s_v s_phi s_gamma]. repeat split; field; lra.
Qed.
Lemma hth_pos : forall name p, Planet name = Ok p -> 0 < h_thres p.
Proof. intros name p HP. destruct (Planet_facts _ _ HP) as (_ & _ & _ & _ & (A & B) & E & _). rewrite E. lra. Qed.
(** From every start in the air, forwards or backwards, off the poles and off the singular attitude, there is a way to fly for some time. *)
Theorem C126_exists : forall name V i d, Planet name = Ok (vh_planet V) -> vh_user V = false -> lipschitz_air (vh_planet V) (vh_atm V) ->
  0 < h0_km i * 1000 < h_thres (vh_planet V) -> v0_kms i <> 0 -> cos (phi0_deg i * PI / 180) <> 0 -> cos (gamma0_deg i * PI / 180) <> - 0.01 ->
  exists T y, 0 < T /\ way V i d T y.
Proof.
  intros name V i d HP Hu HL Hh Hv Hc Hg. destruct (ref_facts _ _ HP) as (HV & _ & _ & _ & HR & _). destruct (entry_clear _ _ i HP) as (E1 & E2 & E3 & E4).
  set (p := vh_planet V) in *. set (x0 := entry_state p i) in *.
  assert (Rg : regular p x0).
  { split; [split; lra|]. split; [intros Z; rewrite Z in E1; lra|]. split; [intros Z; rewrite Z in E2; lra|]. rewrite E3, E4. split; auto. intros Z. apply Hg. lra. }
  destruct (exist_near V (d * PI / 180) x0 Hu HR HL Rg) as (rho & h & Hrho & Hh' & EX). destruct (EX x0 ltac:(rewrite dist_self; lra)) as (z & Ez & Hz).
  exists (h / 2), z. split; [lra|]. apply flow_way; auto. split; auto. exists (h / 2). split; [lra|]. intros t Ht. apply Hz. apply Rabs_def1; lra.
Qed.
(** For every margin [m] and speed [w]: the way goes on until [Tmax], or to a place where it is no longer [m] clear of everything, or faster than [w];
    and it is the only way. *)
Theorem C126_until : forall name V i d m w Tmax, Planet name = Ok (vh_planet V) -> vh_user V = false -> lipschitz_air (vh_planet V) (vh_atm V) ->
  0 < m -> 0 <= Tmax -> well_clear m (vh_planet V) (entry_state (vh_planet V) i) ->
  exists T y, 0 <= T <= Tmax /\ way V i d T y /\ (T = Tmax \/ ~ well_clear m (vh_planet V) (y T) \/ ~ no_faster w (vh_planet V) (y T)) /\
    forall T' z, way V i d T' z -> forall t, 0 <= t <= T -> t <= T' -> z t = y t.
Proof.
  intros name V i d m w Tmax HP Hu HL Hm HT W0. destruct (ref_facts _ _ HP) as (HV & _ & _ & _ & HR & _).
  destruct (continue V (d * PI / 180) m w _ Tmax Hu HR HV HL Hm HT W0) as (T & y & HT' & F & Z). pose proof (flow_way V i d T y Hu F) as W. exists T, y. split; auto. split; auto. split.
  - destruct Z as [Z|Z]; auto. right. apply not_and_or. exact Z.
  - intros T' z (Z0 & Sz & Iz) t Ht Ht'. destruct W as (Y0 & Sy & Iy). apply (unique V (d * PI / 180) z y t); auto; [eapply solves_upto; eauto|eapply solves_upto; [eauto|lra]|congruence|intros u Hu'; apply Iz; lra|lra].
Qed.
(** A vehicle built from positive mass properties in air of nonnegative density cannot gain speed without bound: it flies on until it nears the
    ground, the top, standstill, a pole or the singular attitude. *)
Theorem C126_flies_on : forall name mass beta LD A alpha RN p atm V i d m Tmax, Planet name = Ok p -> Vehicle mass beta LD A alpha RN p atm false = Ok V -> 0 < beta -> air p atm -> lipschitz_air p atm ->
  good_start steepest i -> 0 < m -> 0 <= Tmax -> well_clear m p (entry_state p i) ->
  exists T y, 0 <= T <= Tmax /\ way V i d T y /\ (T = Tmax \/ ~ well_clear m p (y T)) /\ forall T' z, way V i d T' z -> forall t, 0 <= t <= T -> t <= T' -> z t = y t.
Proof.
  intros name mass beta LD A alpha RN p atm V i d m Tmax HP HV Hb Ha HL (G1 & G2 & G3) Hm HT W0.
  destruct (Vehicle_inv _ _ _ _ _ _ _ _ _ _ HV) as (Hmass & HbA & _ & _ & _ & _ & _ & EP & EA & EU & Em & ECD & _ & EAb). subst p atm.
  destruct (ref_facts _ _ HP) as (HVr & _ & _ & _ & HR & _ & Hr0). set (p := vh_planet V) in *.
  assert (B : braking V) by (apply (braking_like V mass beta A); auto). pose proof PI_RGT_0.
  destruct (entry_clear _ _ i HP) as (E1 & E2 & E3 & E4).
  destruct (speed_bounded V (d * PI / 180) (entry_state p i) HR (hth_pos _ _ HP) HVr B) as (w & HW).
  - intros Z. destruct W0 as (W1 & _). rewrite Z in W1. fold p in HR. lra.
  - fold p in HVr. rewrite Rmult_comm in E2. apply (Rmult_lt_reg_r (Vref p)); auto. rewrite E2. lra.
  - rewrite E3. split; nra.
  - rewrite E4, <- steep_rad. apply deg_band. replace (gamma0_deg i * PI / 180 * 180 / PI) with (gamma0_deg i) by (field; lra). auto.
  - destruct (C126_until name V i d m w Tmax HP EU HL Hm HT W0) as (T & y & HT' & W & Z & U). exists T, y. split; auto. split; auto. split; auto.
    destruct Z as [Z|[Z|Z]]; auto. exfalso. apply Z. destruct W as (Y0 & S & I). apply (HW y T Y0 S I). lra.
Qed.
(** * An exact integrator *)
Definition decide (P : Prop) : {P} + {~ P} := match ClassicalDedekindReals.sig_not_dec P with left n => left (NNPP P n) | right n => right n end.
Definition the_number (A : R -> Prop) : R := match decide (bound A /\ exists x, A x) with left H => proj1_sig (completeness A (proj1 H) (proj2 H)) | right _ => 0 end.
Lemma the_number_is : forall (A : R -> Prop) a, A a -> (forall b, A b -> b = a) -> the_number A = a.
Proof.
  intros A a Ha U. unfold the_number. destruct (decide _) as [H|N].
  - destruct (completeness A (proj1 H) (proj2 H)) as (s & Us & Ls). cbn [proj1_sig]. apply Rle_antisym; [apply Ls; intros b Hb; rewrite (U b Hb); lra|apply Us; auto].
  - exfalso. apply N. split; [exists a; intros b Hb; rewrite (U b Hb); lra|exists a; auto].
Qed.
Definition solution (f : state -> res (option state)) (x0 : state) (T : R) (y : R -> state) : Prop := y 0 = x0 /\ solves f y T.
Definition determined (f : state -> res (option state)) (x0 : state) (T : R) : Prop := exists y, solution f x0 T y /\ forall z, solution f x0 T z -> forall t, 0 <= t <= T -> z t = y t.
Definition the_state (f : state -> res (option state)) (x0 : state) (T t : R) : state :=
  let g (c : state -> R) := the_number (fun v => exists y, solution f x0 T y /\ v = c (y t)) in mkState (g s_r) (g s_theta) (g s_phi) (g s_v) (g s_psi) (g s_gamma) (g s_drange).
Lemma the_state_is : forall f x0 T y t, solution f x0 T y -> (forall z, solution f x0 T z -> forall t, 0 <= t <= T -> z t = y t) -> 0 <= t <= T -> the_state f x0 T t = y t.
Proof.
  intros f x0 T y t S U Ht. unfold the_state. assert (Q : forall c, the_number (fun v => exists y, solution f x0 T y /\ v = c (y t)) = c (y t)).
  { intros c. apply the_number_is; [exists y; auto|]. intros b (z & Sz & ->). rewrite (U z Sz t Ht). reflexivity. }
  rewrite !Q. destruct (y t). reflexivity.
Qed.
Definition asked (f : state -> res (option state)) (x0 : state) (ts : list R) : Prop := determined f x0 (last ts 0) /\ Forall (fun t => 0 <= t <= last ts 0) ts /\ nth_error ts 0 = Some 0.
(** Returns the solution where there is exactly one, and reports failure elsewhere. *)
Definition ideal : engine := mkEngine
  (fun f x0 ts _ => if decide (asked f x0 ts) then Ok (map (the_state f x0 (last ts 0)) ts) else Err OracleError)
  (fun f _ x0 ts _ _ => if decide (asked f x0 ts) then Ok (ts, map (the_state f x0 (last ts 0)) ts) else Err OracleError).
Lemma asked_inv : forall f x0 ts, asked f x0 ts -> exists y, solution f x0 (last ts 0) y /\ map (the_state f x0 (last ts 0)) ts = map y ts.
Proof.
  intros f x0 ts ((y & S & U) & G & _). exists y. split; auto. apply map_ext_in. intros t Ht. apply the_state_is; auto. apply (proj1 (Forall_forall _ _) G t Ht).
Qed.
Lemma asked_first : forall f x0 ts, asked f x0 ts -> nth_error (map (the_state f x0 (last ts 0)) ts) 0 = Some x0.
Proof.
  intros f x0 ts A. destruct (asked_inv _ _ _ A) as (y & (Y0 & _) & ->). destruct A as (_ & _ & Z). destruct ts as [|t ts]; [discriminate|]. cbn in *. injection Z as ->. congruence.
Qed.
Lemma ideal_ok : engine_ok ideal.
Proof.
  split.
  - intros f x0 ts tol xs H. cbn in H. destruct (decide _) as [A|]; [|discriminate]. injection H as <-. split; [apply map_length|]. intros _. apply asked_first; auto.
  - intros f te x0 ts ev tol us xs H. cbn in H. destruct (decide _) as [A|]; [|discriminate]. injection H as <- <-. split; [apply map_length|]. split; [exists (length ts); symmetry; apply firstn_all|].
    intros N. split; auto. apply asked_first; auto.
Qed.
Lemma ideal_exact : exact ideal.
Proof.
  split.
  - intros f x0 ts tol xs _ H. cbn in H. destruct (decide _) as [A|]; [|discriminate]. injection H as <-. destruct (asked_inv _ _ _ A) as (y & (Y0 & S) & E). exists y. auto.
  - intros f te x0 ts ev tol us xs _ H. cbn in H. destruct (decide _) as [A|]; [|discriminate]. injection H as <- <-. destruct (asked_inv _ _ _ A) as (y & (Y0 & S) & E). exists y. auto.
Qed.
(** There is an exact integrator with which both solvers return the way, sampled at the requested times, whenever there is a way that lasts that long. *)
Theorem C126_ideal : exists E, engine_ok E /\ exact E /\
  forall name V i d T y tol secs dt, Planet name = Ok (vh_planet V) -> vh_user V = false -> lipschitz_air (vh_planet V) (vh_atm V) -> 0 < dt -> 0 <= secs ->
    way V i d T y -> secs + dt <= tau (vh_planet V) * T ->
    exists ts, arange ((secs + dt) / tau (vh_planet V)) (dt / tau (vh_planet V)) = Ok ts /\ ts <> [] /\
      solveTrajectory E V tol (entry_state (vh_planet V) i) secs dt (d * PI / 180) = Ok (channels ts (map y ts)) /\
      solveTrajectory2 E V tol (entry_state (vh_planet V) i) secs dt (d * PI / 180) = Ok (channels ts (map y ts)).
Proof.
  exists ideal. split; [apply ideal_ok|]. split; [apply ideal_exact|]. intros name V i d T y tol secs dt HP Hu HL Hdt Hs (Y0 & S & I) Hend.
  destruct (ref_facts _ _ HP) as (_ & _ & Ht & _ & HR & _). set (p := vh_planet V) in *. set (stop := (secs + dt) / tau p). set (step := dt / tau p).
  assert (Hst : 0 < step) by (apply Rdiv_lt_0_compat; auto). assert (Hstop : 0 < stop) by (apply Rdiv_lt_0_compat; lra).
  destruct (arange stop step) as [ts|e] eqn:Ea.
  2:{ exfalso. unfold arange in Ea. destruct (Reqb step 0) eqn:Eq; [apply Reqb_true in Eq; lra|discriminate]. }
  destruct (arange_inv _ _ _ Ea) as (La & Na).
  assert (Hlen : 0 < stop / step) by (apply Rdiv_lt_0_compat; auto). pose proof (PropRoundGrid.ceil_between (stop / step) ltac:(lra)) as (C1 & C2). rewrite <- La in C1, C2.
  assert (Hne : ts <> []). { intros Z. rewrite Z in C1. cbn in C1. lra. }
  assert (Hz : nth_error ts 0 = Some 0). { destruct ts as [|t ts]; [congruence|]. pose proof (Na 0%nat ltac:(cbn; lia)) as N. cbn in *. rewrite N. f_equal. ring. }
  destruct (grid_regular ts step (Rlt_le _ _ Hst) Na) as (G & _).
  assert (HT : last ts 0 <= T).
  { assert (Hl : last ts 0 = INR (length ts - 1) * step) by (rewrite PropGuidance.last_nth; apply Na; destruct ts; [congruence|cbn; lia]).
    assert (E1 : INR (length ts) = INR (length ts - 1) + 1) by (rewrite <- S_INR; f_equal; destruct ts; [congruence|cbn; lia]).
    assert (E2 : stop / step * step = stop) by (field; lra). assert (E3 : tau p * stop = secs + dt) by (unfold stop; field; lra). rewrite Hl.
    assert (INR (length ts - 1) * step <= stop / step * step) by (apply Rmult_le_compat_r; lra). assert (stop <= T) by (apply (Rmult_le_reg_l (tau p)); auto; rewrite E3; exact Hend). lra. }
  assert (A : asked (fun x => EOM V x (d * PI / 180)) (entry_state p i) ts).
  { split; [|auto]. exists y. split; [split; [exact Y0|eapply solves_upto; eauto]|]. intros z (Z0 & Sz) t Htt. symmetry.
    apply (unique V (d * PI / 180) y z (last ts 0)); auto; [eapply solves_upto; eauto|congruence|intros u Hu'; apply I; lra]. }
  assert (M : map (the_state (fun x => EOM V x (d * PI / 180)) (entry_state p i) (last ts 0)) ts = map y ts).
  { apply map_ext_in. intros t Htt. pose proof (proj1 (Forall_forall _ _) G t Htt) as B. apply the_state_is; [split; [exact Y0|eapply solves_upto; eauto]| |exact B].
    intros z (Z0 & Sz) u Hu'. symmetry. apply (unique V (d * PI / 180) y z (last ts 0)); auto; [eapply solves_upto; eauto|congruence|intros r Hr; apply I; lra]. }
  exists ts. split; auto. split; auto. split.
  - unfold solveTrajectory. fold p stop step. rewrite Ea. cbn [rbind odeint ideal]. destruct (decide _) as [_|N]; [|contradiction]. cbn [rbind]. rewrite M. reflexivity.
  - unfold solveTrajectory2. fold p stop step. rewrite Ea. cbn [rbind]. destruct ts as [|t0 ts']; [congruence|]. set (ts := t0 :: ts') in *. cbn [solve_ivp ideal]. destruct (decide _) as [_|N]; [|contradiction].
    cbn [rbind fst snd]. rewrite M. reflexivity.
Qed.
