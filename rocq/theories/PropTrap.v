(** C129, continued: a flight that sinks below the trap altitude is reported up to there. *)
From Coq Require Import String List Reals Lra Lia Classical.
Require Import Verif.Base Verif.Numpy Verif.NumpyProofs Verif.PlanetModel Verif.PlanetProofs Verif.AeroModel Verif.HeatModel Verif.PropHeat Verif.TrajectoryModel Verif.TrajectorySpec Verif.TrajectoryProofs Verif.PropTrajectory Verif.FlightProofs Verif.PropFlight
  Verif.ExactSpec Verif.ExactProofs Verif.PropExact Verif.DetSpec Verif.DetProofs Verif.PropDet Verif.NearSpec Verif.NearProofs Verif.ExistSpec Verif.ExistProofs Verif.PropExist Verif.ExitSpec Verif.ExitProofs Verif.EnterProofs Verif.PropEnter Verif.PropExit.
Require Verif.PropRoundGrid Verif.PropGuidance.
Import ListNotations.
Local Open Scope R_scope.

(** For a while after that the flight is below. *)
Lemma sinks_below : forall V i d T2 y T, vh_user V = false -> 0 < RP (vh_planet V) -> passage V i d T2 y -> 0 <= T < T2 -> sinks V T y ->
  exists eta, 0 < eta /\ T + eta <= T2 /\ forall t, T < t <= T + eta -> height (vh_planet V) (y t) < h_trap (vh_planet V).
Proof.
  intros V i d T2 y T Hu HR (Y0 & (l & Sy) & I) HT (_ & E & Hd). destruct (ll_pos (fun a => 0 - f1 a) (y T) ltac:(unfold f1; ll) ltac:(unfold f1; lra)) as (e & He & P). cbv beta in P.
  destruct (curve_near y T e He) as (a & Ha & CN); [apply (Sy T); lra|]. set (eta := Rmin (a / 2) (T2 - T)). assert (Heta : 0 < eta) by (apply Rmin_glb_lt; lra). pose proof (Rmin_l (a / 2) (T2 - T) : eta <= _). pose proof (Rmin_r (a / 2) (T2 - T) : eta <= _).
  exists eta. split; auto. split; [lra|]. intros t Ht. rewrite <- E. assert (- s_r (y T) < - s_r (y t)); [|unfold height; nra].
  apply (strictly_up (fun w => - s_r (y w)) l T t); [lra|intros c Hc; apply (continuity_pt_opp (fun w => s_r (y w))); apply (Sy c); lra|]. intros c Hc Hn. destruct (Sy c ltac:(lra)) as (_ & x & Ex & M). specialize (M ltac:(lra) Hn). destruct (field_is _ _ _ _ Hu Ex) as (Ex' & _).
  exists (- s_r x). split; [apply (derivable_pt_lim_opp (fun w => s_r (y w))); apply M|]. rewrite Ex'. cbn [s_r]. specialize (P (y c)). assert (0 < 0 - f1 (y c)) by (apply P, CN; rewrite Rabs_right; lra). lra.
Qed.
(** A flight reported as trapped ends within one time step before it passes the trap altitude, in a state as close as wanted to the one it has there. *)
Theorem C129_trap : forall name V i d T2 y T, Planet name = Ok (vh_planet V) -> vh_user V = false -> lipschitz_air (vh_planet V) (vh_atm V) -> passage V i d T2 y -> 0 <= T < T2 -> sinks V T y ->
  forall eps, 0 < eps -> exists delta, 0 < delta /\ forall (two : bool) E tol secs dt o f, engine_ok E -> exact E -> 0 < dt < delta ->
    (if two then propogateEntry2 else propogateEntry) E (mkObj V i tol None None) secs dt d = (o, Ok tt) -> ob_flight o = Some f -> f_exitflag f = -1 ->
    exists k, length (p_t (f_plot f)) = S k /\ nth k (p_t (f_plot f)) 0 * 60 <= tau (vh_planet V) * T < nth k (p_t (f_plot f)) 0 * 60 + dt /\
      shows_within eps (vh_planet V) (f_plot f) k (y T).
Proof.
  intros name V i d T2 y T HP Hu HL W HT SK eps Heps. destruct (ref_facts _ _ HP) as (_ & _ & Ht & _ & HR & _). destruct (Planet_facts _ _ HP) as (_ & _ & _ & _ & (Ht0 & Hts) & Hthr & _).
  destruct (sinks_below V i d T2 y T Hu HR W HT SK) as (eta & Heta & HT2 & BT). set (p := vh_planet V) in *. pose proof SK as (AB & ET & _). fold p in AB, ET. pose proof W as (Y0 & Sy & I).
  destruct (shows_close name p (y T) eps HP Heps) as (e & He & SC).
  assert (CT : continuous_at y T) by (destruct Sy as (l & Sy'); apply (Sy' T); lra). destruct (curve_near y T e He CT) as (a & Ha & CN).
  exists (Rmin (eta * tau p) (a * tau p)). split; [apply Rmin_glb_lt; apply Rmult_lt_0_compat; auto|]. intros two E tol secs dt o f HE HX Hdt H Hf Hfl. pose proof (Rmin_l (eta * tau p) (a * tau p)). pose proof (Rmin_r (eta * tau p) (a * tau p)).
  destruct (behind two E name V i tol secs dt d o f HE HX HP ltac:(lra) H Hf) as (z & Tz & ts & idx & Z0 & Sz & G & Nk & _ & Ec & Et & Sh). fold p in Z0, Nk, Ec, Et, Sh. rewrite Hfl in Ec.
  destruct (C42_classification name p _ _ _ HP Ec) as (_ & _ & F2 & _ & F4 & F5 & _). cbv zeta in F2, F4, F5. clear Ec. rewrite map_map in F2, F4, F5. destruct (proj1 F2 eq_refl) as (_ & TT). clear F2.
  set (st := dt / tau p) in *. assert (Hst : 0 < st) by (apply Rdiv_lt_0_compat; lra). assert (Est : st * tau p = dt) by (unfold st; field; lra).
  assert (SM : forall t, 0 <= t <= T2 -> t <= Tz -> z t = y t).
  { intros t Htt Htz. symmetry. apply (unique_inside V (d * PI / 180) y z t); auto; [fold p; lra|eapply solves_upto; [exact Sy|lra]|eapply solves_upto; [exact Sz|lra]|rewrite Y0, Z0; reflexivity|intros u Hu'; apply I; lra|lra]. }
  pose proof (proj1 (Forall_forall _ _) G) as GT. cbv beta in GT.
  assert (Alt : forall k, (k < length ts)%nat -> nth k (map (fun t => s_r (z t) * RP p - RP p) ts) 0 = height p (z (nth k ts 0))).
  { intros k Hk. rewrite (nth_map_lt _ _ _ 0) by auto. unfold height. ring. }
  (* the first grid point after T is below *)
  assert (X : forall n, (n < length ts)%nat -> T < nth n ts 0 -> exists j, (j <= n)%nat /\ T < nth j ts 0 <= T + st).
  { induction n as [|n IH]; intros Hn Ln; [exists 0%nat; split; [lia|]; rewrite Nk in * by lia; cbn in *; lra|].
    destruct (Rlt_or_le T (nth n ts 0)) as [Q|Q]; [destruct (IH ltac:(lia) Q) as (j & Hj & B); exists j; split; [lia|auto]|]. exists (S n). split; auto. split; auto. rewrite !Nk in * by lia. rewrite S_INR. lra. }
  assert (Hse : st < eta) by nra.
  assert (First : forall n, (n < length ts)%nat -> T < nth n ts 0 -> exists j, (j <= n)%nat /\ T < nth j ts 0 <= T + st /\ height p (z (nth j ts 0)) < h_trap p).
  { intros n Hn Ln. destruct (X n Hn Ln) as (j & Hj & B). exists j. split; auto. split; auto. pose proof (GT _ (nth_In ts 0 (Nat.le_lt_trans _ _ _ Hj Hn))) as Bj. rewrite SM by lra. apply BT. lra. }
  assert (TR : some_entry (fun x => x < h_trap p) (map (fun t => s_r (z t) * RP p - RP p) ts)).
  { destruct TT as [TT|TT]; auto. exfalso. (* a flight without a stored point is not stored *)
    assert (H' : propogateEntry E (mkObj V i tol None None) secs dt d = (o, Ok tt) \/ propogateEntry2 E (mkObj V i tol None None) secs dt d = (o, Ok tt)) by (destruct two; auto).
    destruct (C43_flight_aligned E name (mkObj V i tol None None) secs dt d o HE HP H') as (_ & _ & _ & f' & h & F1 & _ & (F0 & _ & (La & _) & _) & _). assert (f' = f) by congruence. subst f'.
    rewrite Et, (F5 eq_refl TT) in La. cbn in La. lia. }
  destruct (F4 eq_refl TR) as (Li & Ai & Bi). rewrite map_length in Li. rewrite Alt in Ai by auto. clear TT F4 F5 TR.
  assert (Late : T < nth idx ts 0).
  { apply Rnot_le_lt. intros L. pose proof (GT _ (nth_In ts 0 Li)) as B. rewrite SM in Ai by lra. destruct (Req_dec (nth idx ts 0) T) as [Q|Q]; [rewrite Q, ET in Ai; lra|]. specialize (AB (nth idx ts 0) ltac:(lra)). lra. }
  assert (Hpos : (0 < idx)%nat). { destruct idx as [|j]; [|lia]. rewrite Nk in Late by auto. cbn in Late. lra. }
  destruct idx as [|k]; [lia|]. exists k. assert (Lk : (k < length ts)%nat) by lia. pose proof (GT _ (nth_In ts 0 Lk)) as Bk. pose proof (GT _ (nth_In ts 0 Li)) as Bk'.
  assert (Next : nth (S k) ts 0 = nth k ts 0 + st) by (rewrite !Nk by auto; rewrite S_INR; ring).
  assert (Early : nth k ts 0 <= T). { apply Rnot_lt_le. intros L. destruct (First k Lk L) as (j & Hj & _ & Bj). specialize (Bi j ltac:(lia)). rewrite Alt in Bi by lia. apply Bi. exact Bj. }
  assert (Len : length (p_t (f_plot f)) = S k) by (rewrite Et, map_length, firstn_length; lia). split; auto.
  assert (Ptk : nth k (p_t (f_plot f)) 0 * 60 = tau p * nth k ts 0). { rewrite Et. rewrite (nth_map_lt _ _ _ 0) by (rewrite firstn_length; lia). rewrite nth_firstn by auto. lra. }
  rewrite Ptk. split; [split; nra|]. apply (SC _ _ (z (nth k ts 0))); [apply Sh; auto|]. rewrite SM by lra. apply CN. rewrite Rabs_left1 by lra. assert (st < a) by nra. lra.
Qed.
(** A propagation that goes on for a little longer than that reports that the flight was trapped, also from the top. *)
Theorem C129_trap_flagged : forall name V i d T2 y T, Planet name = Ok (vh_planet V) -> vh_user V = false -> lipschitz_air (vh_planet V) (vh_atm V) -> passage V i d T2 y -> 0 <= T < T2 -> sinks V T y ->
  exists delta, 0 < delta /\ forall E tol secs dt o f, engine_ok E -> exact E -> 0 < dt < delta -> tau (vh_planet V) * T < secs < tau (vh_planet V) * T + delta ->
    propogateEntry E (mkObj V i tol None None) secs dt d = (o, Ok tt) -> ob_flight o = Some f -> f_exitflag f = -1.
Proof.
  intros name V i d T2 y T HP Hu HL W HT SK. destruct (ref_facts _ _ HP) as (_ & _ & Ht & _ & HR & _). destruct (Planet_facts _ _ HP) as (_ & _ & _ & _ & (Ht0 & Hts) & Hthr & _).
  destruct (sinks_below V i d T2 y T Hu HR W HT SK) as (eta & Heta & HT2 & BT). set (p := vh_planet V) in *. pose proof W as (Y0 & Sy & I).
  exists (eta * tau p / 2). split; [assert (0 < eta * tau p) by (apply Rmult_lt_0_compat; auto); lra|]. intros E tol secs dt o f HE HX Hdt Hsec H Hf.
  destruct (behind false E name V i tol secs dt d o f HE HX HP ltac:(lra) H Hf) as (z & Tz & ts & idx & Z0 & Sz & G & Nk & Ln & Ec & _). fold p in Z0, Nk, Ec, Ln. specialize (Ln eq_refl).
  destruct (C42_classification name p _ _ _ HP Ec) as (_ & _ & F & _). cbv zeta in F. clear Ec. rewrite map_map in F. apply F. clear F.
  set (st := dt / tau p) in *. assert (Hst : 0 < st) by (apply Rdiv_lt_0_compat; lra). assert (Est : st * tau p = dt) by (unfold st; field; lra).
  assert (SM : forall t, 0 <= t <= T2 -> t <= Tz -> z t = y t).
  { intros t Htt Htz. symmetry. apply (unique_inside V (d * PI / 180) y z t); auto; [fold p; lra|eapply solves_upto; [exact Sy|lra]|eapply solves_upto; [exact Sz|lra]|rewrite Y0, Z0; reflexivity|intros u Hu'; apply I; lra|lra]. }
  pose proof (proj1 (Forall_forall _ _) G) as GT. cbv beta in GT. assert (HTs : 0 <= tau p * T) by (apply Rmult_le_pos; lra).
  assert (Hq : 0 < (secs + dt) / tau p / st) by (apply Rdiv_lt_0_compat; [apply Rdiv_lt_0_compat; lra|auto]). pose proof (PropRoundGrid.ceil_between _ ltac:(exact (Rlt_le _ _ Hq))) as (C1 & C2). rewrite <- Ln in C1, C2.
  assert (Eq : (secs + dt) / tau p / st * dt = secs + dt) by (unfold st; field; lra).
  assert (L1 : (1 <= length ts)%nat) by (destruct ts; [cbn in C1; lra|cbn; lia]). assert (E1 : INR (length ts) = INR (length ts - 1) + 1) by (rewrite <- S_INR; f_equal; lia).
  assert (LB : secs <= INR (length ts - 1) * dt < secs + dt) by nra.
  assert (Bnd : forall k, (k < length ts)%nat -> nth k ts 0 <= T + eta).
  { intros k Hk. apply (Rmult_le_reg_r (tau p)); auto. rewrite Nk by auto. rewrite Rmult_assoc, Est. assert (INR k * dt <= INR (length ts - 1) * dt) by (apply Rmult_le_compat_r; [lra|]; apply le_INR; lia). lra. }
  assert (Hgt : forall k, (k < length ts)%nat -> nth k (map (fun t => s_r (z t) * RP p - RP p) ts) 0 = height p (z (nth k ts 0))) by (intros k Hk; rewrite (nth_map_lt _ _ _ 0) by auto; unfold height; ring).
  split.
  - intros (_ & k & Hk & U). rewrite map_length in Hk. rewrite Hgt in U by auto. specialize (Bnd k Hk). pose proof (GT _ (nth_In ts 0 Hk)) as Bk. rewrite SM in U by lra. pose proof (inside_height p y (nth k ts 0) ltac:(lra) (I (nth k ts 0) ltac:(lra))). lra.
  - left. exists (length ts - 1)%nat. rewrite map_length. split; [lia|]. rewrite Hgt by lia. assert (Hl : (length ts - 1 < length ts)%nat) by lia. specialize (Bnd _ Hl). pose proof (GT _ (nth_In ts 0 Hl)) as Bk. rewrite SM by lra. apply BT. split; auto.
    rewrite Nk by lia. apply (Rmult_lt_reg_r (tau p)); auto. rewrite Rmult_assoc, Est. lra.
Qed.
