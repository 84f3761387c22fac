(** C131, continued: the capture predicates and the corridor searches, with nearly exact integrators and for nearby vehicles and starts. *)
From Coq Require Import String List Reals Lra Lia Classical.
Require Import Verif.Base Verif.Numpy Verif.NumpyProofs Verif.PlanetModel Verif.PlanetProofs Verif.AeroModel Verif.HeatModel Verif.PropHeat Verif.TrajectoryModel Verif.TrajectorySpec Verif.TrajectoryProofs Verif.PropTrajectory Verif.FlightProofs Verif.PropFlight
  Verif.ExactSpec Verif.ExactProofs Verif.PropExact Verif.DetSpec Verif.DetProofs Verif.PropDet Verif.NearSpec Verif.NearProofs Verif.PropNear Verif.ExistSpec Verif.ExistProofs Verif.PropExist Verif.ExitSpec Verif.ExitProofs Verif.EnterProofs Verif.PropExit Verif.PropTrap Verif.PropExitRun
  Verif.FrameModel Verif.FrameProofs Verif.ConicSpec Verif.ConicProofs Verif.OrbitScalarModel Verif.OrbiterModel Verif.OrbiterProofs Verif.OrbitModel Verif.OrbitSpec Verif.OrbitProofs Verif.PropOrbit
  Verif.CorridorModel Verif.CorridorSpec Verif.CorridorProofs Verif.PropCorridor Verif.PropExitOrbit Verif.VerdictSpec Verif.VerdictProofs Verif.PropVerdict Verif.NearExitSpec Verif.NearExitProofs Verif.PropNearExit.
Import ListNotations.
Local Open Scope R_scope.

Lemma nearby_mono : forall a b E V V' i i' d d', a <= b -> nearby a E V V' i i' d d' -> nearby b E V V' i i' d d'.
Proof.
  intros a b E V V' i i' d d' Hab ((X1 & X2) & (V1 & V2 & V3 & V4 & V5) & ((I1 & I2 & I3 & I4 & I5 & I6 & I7) & It) & Hd).
  assert (W : forall x y, NearSpec.within a x y -> NearSpec.within b x y) by (intros x y (W1 & W2 & W3 & W4 & W5 & W6 & W7); repeat split; lra).
  assert (N : forall f y T, nearly_solves a f y T -> nearly_solves b f y T).
  { intros f y T (l & S). exists l. intros t Ht. destruct (S t Ht) as (C & x & Ex & M). split; auto. exists x. split; auto. intros B NI. destruct (M B NI) as (e & Me & We). exists e. split; auto. }
  split; [|split; [|split; [split; [repeat split; lra|auto]|lra]]].
  - split.
    + intros x0 ts tol xs Z O. destruct (X1 _ _ _ _ Z O) as (y & Y0 & S & M). exists y. auto.
    + intros te x0 ts ev tol us xs Z O. destruct (X2 _ _ _ _ _ _ _ Z O) as (y & Y0 & S & M). exists y. auto.
  - split; auto. split; auto. split; [lra|]. split; [lra|]. intros h Hh. specialize (V5 h Hh). lra.
Qed.
Lemma nearby_pos : forall a E V V' i i' d d', nearby a E V V' i i' d d' -> 0 <= a.
Proof. intros a E V V' i i' d d' (_ & _ & _ & Hd). pose proof (Rabs_pos (d - d')). lra. Qed.
Lemma nearby_gamma : forall a E V V' i i' d d' g, nearby a E V V' i i' d d' -> nearby a E V V' (with_gamma0 i g) (with_gamma0 i' g) d d'.
Proof.
  intros a E V V' i i' d d' g N. pose proof (nearby_pos _ _ _ _ _ _ _ _ N). destruct N as (X & HV & ((I1 & I2 & I3 & I4 & I5 & I6 & I7) & It) & Hd). split; auto. split; auto. split; auto. split; [|exact It].
  repeat split; cbn [with_gamma0 h0_km theta0_deg phi0_deg v0_kms psi0_deg gamma0_deg drange0_km]; auto. rewrite Rminus_diag_eq, Rabs_R0 by reflexivity. lra.
Qed.
Lemma inside_leaves : forall name V i d T y, Planet name = Ok (vh_planet V) -> from_inside (vh_planet V) i -> leaves V i d T y -> 0 < T.
Proof.
  intros name V i d T y HP (_ & Hi) (HT & Y0 & _ & _ & Et & Hc). destruct (Req_dec T 0) as [->|]; [|lra]. exfalso. rewrite Y0 in Et, Hc. destruct (entry_clear _ _ i HP) as (E1 & E2 & _ & E4). destruct (ref_facts _ _ HP) as (HV & _). unfold height in Et. destruct Hi as [Hi|(_ & Hi)]; [lra|].
  rewrite <- E4 in Hi. set (w := sin _) in *. set (x := s_v _) in *. assert (0 < Vref (vh_planet V) * (x * w)) by (apply Rmult_lt_0_compat; auto). replace (Vref (vh_planet V) * (x * w)) with (Vref (vh_planet V) * x * w) in H by ring. rewrite E2 in H. nra.
Qed.
Lemma inside_sinks : forall name V i d T2 T y, Planet name = Ok (vh_planet V) -> from_inside (vh_planet V) i -> passage V i d T2 y -> 0 <= T -> sinks V T y -> 0 < T.
Proof.
  intros name V i d T2 T y HP (Hi & _) (Y0 & _) HT (_ & Et & _). destruct (Req_dec T 0) as [->|]; [|lra]. exfalso. rewrite Y0 in Et. destruct (entry_clear _ _ i HP) as (Q & _). unfold height in Et. lra.
Qed.

Lemma near_planet : forall eta E V V' i i' d d' name, nearby eta E V V' i i' d d' -> Planet name = Ok (vh_planet V) -> vh_planet V' = vh_planet V /\ Planet name = Ok (vh_planet V').
Proof. intros eta E V V' i i' d d' name (_ & (EP & _) & _) HP. rewrite EP. auto. Qed.
Lemma near_hits : forall (two : bool) eta E name V V' i i' tol secs dt d d' target o' ans, nearby eta E V V' i i' d d' -> engine_ok E -> Planet name = Ok (vh_planet V) ->
  (if two then hitsTargetApoapsis2 else hitsTargetApoapsis) E (mkObj V' i' tol None None) secs dt d' target = (o', Ok ans) -> let p := vh_planet V in
  exists f hl, (if two then propogateEntry2 else propogateEntry) E (mkObj V' i' tol None None) secs dt d' = (o', Ok tt) /\ ob_flight o' = Some f /\ h_low p = Some hl /\
    (ans = -1 \/ ans = 1) /\ forall a, terminal f = exit_of p a -> judged two p a <> vzero ->
      (ans = -1 <-> hl <= height p a /\ (0 <= energy (GM p) (position p a) (judged two p a) \/
         exists ra, is_apoapsis (GM p) (energy (GM p) (position p a) (judged two p a)) (norm (ang_mom (position p a) (judged two p a))) ra /\ target <= (ra - RP p) / 1000)).
Proof.
  intros two eta E name V V' i i' tol secs dt d d' target o' ans N HE HP H p. destruct (near_planet _ _ _ _ _ _ _ _ _ N HP) as (EP & HP'). unfold p. rewrite <- EP. exact (hits_state two E name V' i' tol secs dt d' target o' ans HE HP' H).
Qed.
(** The last stored point of a flight is near the point where the true flight leaves or is lost. *)
Lemma near_last : forall name V i d, Planet name = Ok (vh_planet V) -> vh_user V = false -> lipschitz_air (vh_planet V) (vh_atm V) -> forall e, 0 < e ->
  (forall T y, leaves V i d T y -> 0 < T -> exists delta, 0 < delta /\ forall (two : bool) E V' i' d' tol secs dt o f, engine_ok E -> nearby delta E V V' i i' d d' -> 0 < dt < delta ->
    (if two then propogateEntry2 else propogateEntry) E (mkObj V' i' tol None None) secs dt d' = (o, Ok tt) -> ob_flight o = Some f -> f_exitflag f = 1 ->
    exists a, dist (y T) a < e /\ terminal f = exit_of (vh_planet V) a) /\
  (forall T2 T y, passage V i d T2 y -> 0 < T < T2 -> sinks V T y -> exists delta, 0 < delta /\ forall (two : bool) E V' i' d' tol secs dt o f, engine_ok E -> nearby delta E V V' i i' d d' -> 0 < dt < delta ->
    (if two then propogateEntry2 else propogateEntry) E (mkObj V' i' tol None None) secs dt d' = (o, Ok tt) -> ob_flight o = Some f -> f_exitflag f = -1 ->
    exists a, dist (y T) a < e /\ terminal f = exit_of (vh_planet V) a).
Proof.
  intros name V i d HP Hu HL e He. split.
  - intros T y LV HT. destruct (plot_state name _ (y T) e HP He) as (eps & Heps & PS). destruct (C131_exit name V i d T y HP Hu HL LV HT eps Heps) as (delta & Hd & G). exists delta. split; auto. intros two E V' i' d' tol secs dt o f HE HX Hdt H Hf Hfl.
    destruct (near_planet _ _ _ _ _ _ _ _ _ HX HP) as (EP & HP'). pose proof HX as (X1 & X2 & X3 & X4). destruct (G two E V' i' d' tol secs dt o f HE X1 Hdt X2 X3 X4 H Hf Hfl) as (k & Lk & _ & Sh). destruct (PS _ _ Sh) as (a & Da & Ea). exists a. split; auto. rewrite Ea, <- EP. exact (terminal_run two E name V' i' tol secs dt d' o f k HE HP' H Hf Lk).
  - intros T2 T y W HT SK. destruct (plot_state name _ (y T) e HP He) as (eps & Heps & PS). destruct (C131_trap name V i d T2 y T HP Hu HL W HT SK eps Heps) as (delta & Hd & G). exists delta. split; auto. intros two E V' i' d' tol secs dt o f HE HX Hdt H Hf Hfl.
    destruct (near_planet _ _ _ _ _ _ _ _ _ HX HP) as (EP & HP'). pose proof HX as (X1 & X2 & X3 & X4). destruct (G two E V' i' d' tol secs dt o f HE X1 Hdt X2 X3 X4 H Hf Hfl) as (k & Lk & _ & Sh). destruct (PS _ _ Sh) as (a & Da & Ea). exists a. split; auto. rewrite Ea, <- EP. exact (terminal_run two E name V' i' tol secs dt d' o f k HE HP' H Hf Lk).
Qed.

(** Once the flight is known to have left (flag 1) or to be lost (flag -1). *)
Lemma near_flagged : forall name V i d target, Planet name = Ok (vh_planet V) -> vh_user V = false -> lipschitz_air (vh_planet V) (vh_atm V) -> let p := vh_planet V in
  (forall two T y, leaves V i d T y -> 0 < T -> judged two p (y T) <> vzero ->
    (overshoots p (position p (y T)) (judged two p (y T)) target -> exists delta, 0 < delta /\ forall E V' i' d' tol secs dt o f ans, engine_ok E -> nearby delta E V V' i i' d d' -> 0 < dt < delta ->
      (if two then hitsTargetApoapsis2 else hitsTargetApoapsis) E (mkObj V' i' tol None None) secs dt d' target = (o, Ok ans) -> ob_flight o = Some f -> f_exitflag f = 1 -> ans = -1) /\
    (undershoots p (position p (y T)) (judged two p (y T)) target -> exists delta, 0 < delta /\ forall E V' i' d' tol secs dt o f ans, engine_ok E -> nearby delta E V V' i i' d d' -> 0 < dt < delta ->
      (if two then hitsTargetApoapsis2 else hitsTargetApoapsis) E (mkObj V' i' tol None None) secs dt d' target = (o, Ok ans) -> ob_flight o = Some f -> f_exitflag f = 1 -> ans = 1)) /\
  (forall two T2 T y, name <> "URANUS"%string -> passage V i d T2 y -> 0 < T < T2 -> sinks V T y -> judged two p (y T) <> vzero -> exists delta, 0 < delta /\ forall E V' i' d' tol secs dt o f ans, engine_ok E -> nearby delta E V V' i i' d d' -> 0 < dt < delta ->
      (if two then hitsTargetApoapsis2 else hitsTargetApoapsis) E (mkObj V' i' tol None None) secs dt d' target = (o, Ok ans) -> ob_flight o = Some f -> f_exitflag f = -1 -> ans = 1).
Proof.
  intros name V i d target HP Hu HL p. destruct (ref_facts _ _ HP) as (_ & _ & _ & _ & HR & _). fold p in HR. destruct (Planet_facts _ _ HP) as (_ & HGM & _ & _ & (Ht0 & Hts) & Hthr & _). fold p in Ht0, Hts, Hthr, HGM.
  split.
  - intros two T y LV HT Hv. pose proof LV as (_ & _ & _ & _ & Etop & _). fold p in Etop. assert (Hr : 0 < s_r (y T)) by (unfold height in Etop; nra).
    destruct (verdict_open name two p (y T) target HP Hr Hv) as (VO & VU). split.
    + intros OV. destruct (VO OV) as (e1 & He1 & B). clear VO VU. destruct (h_low p) as [hl|] eqn:Hl.
      2:{ exists 1. split; [lra|]. intros E V' i' d' tol secs dt o f ans HE HX Hdt H. destruct (near_hits two _ E name V V' i i' tol secs dt d d' target o ans HX HE HP H) as (f' & hl & _ & _ & Hl' & _). fold p in Hl'. congruence. }
      destruct (low_between name p hl HP Hl) as ((_ & Hlt) & _). set (e := Rmin e1 ((h_thres p - hl) / RP p)). assert (He : 0 < e) by (apply Rmin_glb_lt; auto; apply Rdiv_lt_0_compat; lra).
      pose proof (Rmin_l e1 ((h_thres p - hl) / RP p) : e <= _) as M1. pose proof (Rmin_r e1 ((h_thres p - hl) / RP p) : e <= _) as M2.
      destruct (proj1 (near_last name V i d HP Hu HL e He) T y LV HT) as (delta & Hd & G). exists delta. split; auto. intros E V' i' d' tol secs dt o f ans HE HX Hdt H Hf Hfl.
      destruct (near_hits two _ E name V V' i i' tol secs dt d d' target o ans HX HE HP H) as (f' & hl' & HPr & Hf' & Hl' & Pm & Q). fold p in Hl', Q. assert (f' = f) by congruence. subst f'. assert (hl' = hl) by congruence. subst hl'.
      destruct (G two E V' i' d' tol secs dt o f HE HX Hdt HPr Hf Hfl) as (a & Da & Ea). fold p in Ea. destruct (B a ltac:(lra)) as (Ra & Va & OVa). apply (Q a Ea Va). split.
      * pose proof (height_near p (y T) a HR) as HN. assert (EK : (h_thres p - hl) / RP p * RP p = h_thres p - hl) by (field; lra). assert (RP p * dist (y T) a < h_thres p - hl) by nra. assert (HN' : Rabs (height p a - height p (y T)) < h_thres p - hl) by lra. apply Rabs_def2 in HN'. lra.
      * destruct OVa as [K|(K & ra & K1 & K2)]; [left; lra|right; exists ra; split; auto; lra].
    + intros UN. destruct (VU UN) as (e & He & B). clear VO VU. destruct (proj1 (near_last name V i d HP Hu HL e He) T y LV HT) as (delta & Hd & G). exists delta. split; auto. intros E V' i' d' tol secs dt o f ans HE HX Hdt H Hf Hfl.
      destruct (near_hits two _ E name V V' i i' tol secs dt d d' target o ans HX HE HP H) as (f' & hl' & HPr & Hf' & Hl' & Pm & Q). fold p in Hl', Q. assert (f' = f) by congruence. subst f'.
      destruct (G two E V' i' d' tol secs dt o f HE HX Hdt HPr Hf Hfl) as (a & Da & Ea). fold p in Ea. destruct (B a Da) as (Ra & Va & (K & ra & K1 & K2)). destruct Pm as [Pm|]; auto. exfalso. apply (Q a Ea Va) in Pm. destruct Pm as (_ & [Z|(ra' & Z1 & Z2)]); [lra|]. rewrite (apoapsis_unique _ _ _ _ _ Z1 K1) in Z2. lra.
  - intros two T2 T y HN W HT SK Hv. pose proof SK as (_ & ET & _). fold p in ET. assert (Hr : 0 < s_r (y T)) by (unfold height in ET; nra). destruct (judged_near two p (y T) HR ltac:(lra)) as (LV & _).
    assert (V0 : 0 < norm2 (judged two p (y T))) by (rewrite <- norm_sq; pose proof (norm_pos _ Hv); nra). destruct (ll_near _ _ LV _ V0) as (e1 & He1 & B1).
    destruct (h_low p) as [hl|] eqn:Hl.
    2:{ exists 1. split; [lra|]. intros E V' i' d' tol secs dt o f ans HE HX Hdt H. destruct (near_hits two _ E name V V' i i' tol secs dt d d' target o ans HX HE HP H) as (f' & hl & _ & _ & Hl' & _). fold p in Hl'. congruence. }
    destruct (low_between name p hl HP Hl) as (_ & LT & _). specialize (LT HN). set (e := Rmin e1 ((hl - h_trap p) / RP p)). assert (He : 0 < e) by (apply Rmin_glb_lt; auto; apply Rdiv_lt_0_compat; lra).
    pose proof (Rmin_l e1 ((hl - h_trap p) / RP p) : e <= _) as M1. pose proof (Rmin_r e1 ((hl - h_trap p) / RP p) : e <= _) as M2.
    destruct (proj2 (near_last name V i d HP Hu HL e He) T2 T y W HT SK) as (delta & Hd & G). exists delta. split; auto. intros E V' i' d' tol secs dt o f ans HE HX Hdt H Hf Hfl.
    destruct (near_hits two _ E name V V' i i' tol secs dt d d' target o ans HX HE HP H) as (f' & hl' & HPr & Hf' & Hl' & Pm & Q). fold p in Hl', Q. assert (f' = f) by congruence. subst f'. assert (hl' = hl) by congruence. subst hl'.
    destruct (G two E V' i' d' tol secs dt o f HE HX Hdt HPr Hf Hfl) as (a & Da & Ea). fold p in Ea.
    assert (Va : judged two p a <> vzero). { intros Z. specialize (B1 a ltac:(lra)). cbv beta in B1. apply Rabs_def2 in B1. rewrite Z in B1. replace (norm2 vzero) with 0 in B1 by (vsimpl; ring). lra. }
    destruct Pm as [Pm|]; auto. exfalso. apply (Q a Ea Va) in Pm. destruct Pm as (Z & _). pose proof (height_near p (y T) a HR) as HN'. assert (EK : (hl - h_trap p) / RP p * RP p = hl - h_trap p) by (field; lra). assert (RP p * dist (y T) a < hl - h_trap p) by nra. assert (HN2 : Rabs (height p a - height p (y T)) < hl - h_trap p) by lra. apply Rabs_def2 in HN2. lra.
Qed.
(** With a nearly exact integrator and small enough steps, the first version of the predicate answers -1 for a flight near one
    that leaves the atmosphere too high, 1 near one that leaves too low or is lost. *)
Theorem C131_answer : forall name V i d target secs, Planet name = Ok (vh_planet V) -> vh_user V = false -> lipschitz_air (vh_planet V) (vh_atm V) -> from_inside (vh_planet V) i ->
  (too_high false V i d target secs -> exists eta, 0 < eta /\ forall E V' i' d' tol fl ht dt o a, engine_ok E -> nearby eta E V V' i i' d d' -> 0 < dt < eta ->
    hitsTargetApoapsis E (mkObj V' i' tol fl ht) secs dt d' target = (o, Ok a) -> a = -1) /\
  (too_low false V i d target secs \/ name <> "URANUS"%string /\ lost V i d secs -> exists eta, 0 < eta /\ forall E V' i' d' tol fl ht dt o a, engine_ok E -> nearby eta E V V' i i' d d' -> 0 < dt < eta ->
    hitsTargetApoapsis E (mkObj V' i' tol fl ht) secs dt d' target = (o, Ok a) -> a = 1).
Proof.
  intros name V i d target secs HP Hu HL FI. destruct (ref_facts _ _ HP) as (HV & _ & Ht & _ & HR & _). destruct (near_flagged name V i d target HP Hu HL) as (A1 & A2). set (p := vh_planet V) in *.
  assert (GO : forall T T2 y r, stays_out V i d T T2 y -> tau p * T < secs < tau p * T2 ->
    (exists delta, 0 < delta /\ forall E V' i' d' tol secs dt o f ans, engine_ok E -> nearby delta E V V' i i' d d' -> 0 < dt < delta -> hitsTargetApoapsis E (mkObj V' i' tol None None) secs dt d' target = (o, Ok ans) -> ob_flight o = Some f -> f_exitflag f = 1 -> ans = r) ->
    exists eta, 0 < eta /\ forall E V' i' d' tol fl ht dt o a, engine_ok E -> nearby eta E V V' i i' d d' -> 0 < dt < eta -> hitsTargetApoapsis E (mkObj V' i' tol fl ht) secs dt d' target = (o, Ok a) -> a = r).
  { intros T T2 y r SO Hs (d1 & Hd1 & G). pose proof (inside_leaves name V i d T y HP FI (proj1 SO)) as HT0. destruct (C131_flagged name V i d T T2 y secs HP Hu HL SO HT0 Hs) as (d2 & Hd2 & FL).
    exists (Rmin d1 d2). split; [apply Rmin_glb_lt; auto|]. pose proof (Rmin_l d1 d2) as N1. pose proof (Rmin_r d1 d2) as N2. intros E V' i' d' tol fl ht dt o a HE HX Hdt Hh.
    destruct (hits_fresh _ _ _ _ _ _ _ _ _ _ _ _ Hh) as (o' & H'). destruct (near_hits false _ E name V V' i i' tol secs dt d d' target o' a HX HE HP H') as (f & hl & HPr & Hf & _).
    destruct (nearby_mono _ _ _ _ _ _ _ _ _ N2 HX) as (X1 & X2 & X3 & X4). assert (Fl := FL E V' i' d' tol dt o' f HE X1 ltac:(lra) X2 X3 X4 HPr Hf).
    exact (G E V' i' d' tol secs dt o' f a HE (nearby_mono _ _ _ _ _ _ _ _ _ N1 HX) ltac:(lra) H' Hf Fl). }
  split; [|intros [TL|(HN & T & T2 & y & PW & HT & SK & Hs)]].
  - intros (T & T2 & y & SO & Hs & Hv & OV). apply (GO T T2 y (-1) SO Hs). exact (proj1 (A1 false T y (proj1 SO) (inside_leaves name V i d T y HP FI (proj1 SO)) Hv) OV).
  - destruct TL as (T & T2 & y & SO & Hs & Hv & OV). apply (GO T T2 y 1 SO Hs). exact (proj2 (A1 false T y (proj1 SO) (inside_leaves name V i d T y HP FI (proj1 SO)) Hv) OV).
  - pose proof PW as W. assert (Hv : judged false p (y T) <> vzero) by (apply moving_air; auto; destruct SK as (_ & _ & SK); intros Z; rewrite Z in SK; lra).
    assert (HT' : 0 < T < T2) by (split; [exact (inside_sinks name V i d T2 T y HP FI W (proj1 HT) SK)|lra]).
    destruct (A2 false T2 T y HN W HT' SK Hv) as (d1 & Hd1 & G). destruct (C131_trap_flagged name V i d T2 y T secs HP Hu HL W HT' SK Hs) as (d2 & Hd2 & FL).
    exists (Rmin d1 d2). split; [apply Rmin_glb_lt; auto|]. pose proof (Rmin_l d1 d2) as N1. pose proof (Rmin_r d1 d2) as N2. intros E V' i' d' tol fl ht dt o a HE HX Hdt Hh.
    destruct (hits_fresh _ _ _ _ _ _ _ _ _ _ _ _ Hh) as (o' & H'). destruct (near_hits false _ E name V V' i i' tol secs dt d d' target o' a HX HE HP H') as (f & hl & HPr & Hf & _).
    destruct (nearby_mono _ _ _ _ _ _ _ _ _ N2 HX) as (X1 & X2 & X3 & X4). assert (Fl := FL E V' i' d' tol dt o' f HE X1 ltac:(lra) X2 X3 X4 HPr Hf).
    exact (G E V' i' d' tol secs dt o' f a HE (nearby_mono _ _ _ _ _ _ _ _ _ N1 HX) ltac:(lra) H' Hf Fl).
Qed.
(** The second version, judging by the inertial velocity, whenever the flight it stored is classified the way the true one ends. *)
Theorem C131_answer2 : forall name V i d target T y, Planet name = Ok (vh_planet V) -> vh_user V = false -> lipschitz_air (vh_planet V) (vh_atm V) -> let p := vh_planet V in 0 < T -> inertial_velocity p (y T) <> vzero ->
  (leaves V i d T y -> overshoots p (position p (y T)) (inertial_velocity p (y T)) target ->
    exists eta, 0 < eta /\ forall E V' i' d' tol secs dt o f a, engine_ok E -> nearby eta E V V' i i' d d' -> 0 < dt < eta -> hitsTargetApoapsis2 E (mkObj V' i' tol None None) secs dt d' target = (o, Ok a) -> ob_flight o = Some f -> f_exitflag f = 1 -> a = -1) /\
  (leaves V i d T y -> undershoots p (position p (y T)) (inertial_velocity p (y T)) target ->
    exists eta, 0 < eta /\ forall E V' i' d' tol secs dt o f a, engine_ok E -> nearby eta E V V' i i' d d' -> 0 < dt < eta -> hitsTargetApoapsis2 E (mkObj V' i' tol None None) secs dt d' target = (o, Ok a) -> ob_flight o = Some f -> f_exitflag f = 1 -> a = 1) /\
  (forall T2, name <> "URANUS"%string -> passage V i d T2 y -> T < T2 -> sinks V T y ->
    exists eta, 0 < eta /\ forall E V' i' d' tol secs dt o f a, engine_ok E -> nearby eta E V V' i i' d d' -> 0 < dt < eta -> hitsTargetApoapsis2 E (mkObj V' i' tol None None) secs dt d' target = (o, Ok a) -> ob_flight o = Some f -> f_exitflag f = -1 -> a = 1).
Proof.
  intros name V i d target T y HP Hu HL p HT0 Hv. destruct (near_flagged name V i d target HP Hu HL) as (A1 & A2). fold p in A1, A2.
  split; [intros LV; exact (proj1 (A1 true T y LV HT0 Hv))|]. split; [intros LV; exact (proj2 (A1 true T y LV HT0 Hv))|]. intros T2 HN W HT SK. exact (A2 true T2 T y HN W ltac:(lra) SK Hv).
Qed.

(** The limits of the corridor, as found for a nearby vehicle from nearby starts. *)
Theorem C131_limit : forall name V i bank target secs low high tol n (truth : R -> R), Planet name = Ok (vh_planet V) -> name <> "URANUS"%string -> vh_user V = false -> lipschitz_air (vh_planet V) (vh_atm V) -> (forall g, division low high n g -> from_inside (vh_planet V) (with_gamma0 i g)) ->
  Rabs (high - low) / 2 ^ n <= tol -> (forall g, division low high n g -> verdict V (with_gamma0 i g) bank target secs (truth g)) ->
  exists eta, 0 < eta /\ forall E V' i' find tl fl ht dt fuel o lim flag, engine_ok E -> nearby eta E V V' i i' bank bank -> 0 < dt < eta -> In (find, bank) (by_air E secs dt target) ->
    find fuel (mkObj V' i' tl fl ht) low high tol = Some (o, Ok (lim, flag)) ->
    flag = 1 /\ truth low = - truth high /\ (exists other, division low high n lim /\ division low high n other /\ Rabs (lim - other) <= tol /\ within low high lim /\ within low high other /\ truth other = - truth lim) \/
    flag = 0 /\ lim = 0 /\ truth low = truth high.
Proof.
  intros name V i bank target secs low high tol n truth HP HN Hu HL FI Hn HV.
  destruct (common_step (fun g eta => forall E V' i' tl fl ht dt o a, engine_ok E -> nearby eta E V V' i i' bank bank -> 0 < dt < eta -> hitsTargetApoapsis E (mkObj V' (with_gamma0 i' g) tl fl ht) secs dt bank target = (o, Ok a) -> a = truth g) (points low high n)) as (delta & Hd & G).
  { intros g Hg. apply points_spec in Hg. pose proof (FI g Hg) as FIg. apply HV in Hg. destruct (C131_answer name V (with_gamma0 i g) bank target secs HP Hu HL FIg) as (A1 & A2). destruct Hg as [(-> & TH)|(-> & TL)].
    - destruct (A1 TH) as (d1 & Hd1 & B). exists d1. split; auto. intros eta He E V' i' tl fl ht dt o a HE HX Hdt. apply (B E V' (with_gamma0 i' g) bank); auto; [apply nearby_gamma; refine (nearby_mono _ _ _ _ _ _ _ _ _ _ HX); lra|lra].
    - destruct (A2 ltac:(tauto)) as (d1 & Hd1 & B). exists d1. split; auto. intros eta He E V' i' tl fl ht dt o a HE HX Hdt. apply (B E V' (with_gamma0 i' g) bank); auto; [apply nearby_gamma; refine (nearby_mono _ _ _ _ _ _ _ _ _ _ HX); lra|lra]. }
  specialize (G (delta / 2) ltac:(lra)). exists (delta / 2). split; [lra|]. intros E V' i' find tl fl ht dt fuel o lim flag HE HX Hdt HI H. set (ask := fun o => hitsTargetApoapsis E o secs dt bank target).
  assert (S : exists o0 o1, (o0 = mkObj V' i' tl fl ht \/ o0 = set_LD (mkObj V' i' tl fl ht) 0) /\ search ask tol fuel o0 low high = Some (o1, Ok (Some (lim, flag)))).
  { assert (LS : forall o0 k, then_ (search ask tol fuel o0 low high) (fun o' l => Some (k o', bound l)) = Some (o, Ok (lim, flag)) -> exists o1, search ask tol fuel o0 low high = Some (o1, Ok (Some (lim, flag)))).
    { intros o0 k K. destruct (search ask tol fuel o0 low high) as [[o1 [[[l f]|]|e]]|]; cbn [then_ bound] in K; try discriminate. exists o1. injection K as _ -> ->. reflexivity. }
    destruct HI as [HI|[HI|[HI|[]]]]; injection HI as <- <-; [destruct (LS _ _ H) as (o1 & Q); exists (mkObj V' i' tl fl ht), o1; auto..|destruct (LS _ _ H) as (o1 & Q); exists (set_LD (mkObj V' i' tl fl ht) 0), o1; auto]. }
  destruct S as (o0 & o1 & HO & S). rewrite <- (search_only _ _ _ n) in S by auto.
  assert (TR : forall g a, answer_at (only (points low high n) ask) o0 g = Ok a -> division low high n g /\ a = truth g).
  { intros g a A. apply only_answer in A. destruct A as (Hin & A). split; [apply points_spec; auto|]. assert (A' : answer_at ask (mkObj V' i' tl fl ht) g = Ok a).
    { destruct HO as [->| ->]; auto. rewrite <- A. symmetry. exact (proj1 (ans_LD E secs dt target bank (mkObj V' i' tl fl ht) g)). }
    unfold answer_at, ask in A'. cbn [set_gamma0 ob_veh ob_init ob_tol ob_flight ob_heat] in A'. destruct (hitsTargetApoapsis E (set_gamma0 (mkObj V' i' tl fl ht) g) secs dt bank target) as [o2 r] eqn:Er. cbn [snd] in A'. subst r. exact (G g Hin E V' i' tl fl ht dt o2 a HE HX Hdt Er). }
  assert (OP : forall g g', opposite (answer_at (only (points low high n) ask) o0) g g' -> division low high n g /\ division low high n g' /\ truth g = - truth g').
  { intros g g' [(A & B)|(A & B)]; apply TR in A; apply TR in B; (split; [tauto|]; split; [tauto|]; lra). }
  destruct (search_spec _ o0 tol fuel low high _ (only_good _ _ (good_hits E secs dt bank target)) S) as [(g & e & o2 & Q & _)|[(a & o2 & Q & A1 & A2 & _)|(Op & [(o2 & _ & _ & Q)|[(k & lo & hi & o2 & _ & _ & _ & K4 & K5 & K6 & _ & _ & K9 & _ & Q)|(Q & _)]])]]; try discriminate.
  - right. injection Q as _ -> ->. split; auto. split; auto. apply TR in A1. apply TR in A2. lra.
  - left. injection Q as _ -> ->. split; auto. split; [apply (OP _ _ Op)|]. destruct (OP _ _ K9) as (D1 & D2 & D3). exists lo. auto 10.
Qed.
(** Where there is one boundary, the search finds it to within its tolerance. *)
Theorem C131_boundary : forall name V i bank target secs low high tol n b, Planet name = Ok (vh_planet V) -> name <> "URANUS"%string -> vh_user V = false -> lipschitz_air (vh_planet V) (vh_atm V) -> (forall g, division low high n g -> from_inside (vh_planet V) (with_gamma0 i g)) ->
  (high - low) / 2 ^ n <= tol -> true_boundary V i bank target secs low high n b ->
  exists eta, 0 < eta /\ forall E V' i' find tl fl ht dt fuel o lim flag, engine_ok E -> nearby eta E V V' i i' bank bank -> 0 < dt < eta -> In (find, bank) (by_air E secs dt target) ->
    find fuel (mkObj V' i' tl fl ht) low high tol = Some (o, Ok (lim, flag)) -> flag = 1 /\ Rabs (lim - b) <= tol.
Proof.
  intros name V i bank target secs low high tol n b HP HN Hu HL FI Hn (Hb & Nd & s & HS). destruct (division_ends low high n) as (D1 & D2).
  assert (Hs : s <> 0). { destruct (HS low D1) as (K & _). destruct (K ltac:(lra)) as [(-> & _)|(-> & _)]; lra. }
  set (truth := fun g => if Rlt_dec g b then s else - s).
  assert (TV : forall g, division low high n g -> verdict V (with_gamma0 i g) bank target secs (truth g)).
  { intros g D. destruct (HS g D) as (K1 & K2). unfold truth. destruct (Rlt_dec g b); [auto|]. destruct (Req_dec g b) as [->|]; [contradiction|]. apply K2. lra. }
  destruct (C131_limit name V i bank target secs low high tol n truth HP HN Hu HL FI) as (delta & Hd & G); [rewrite Rabs_right by lra; auto|auto|]. exists delta. split; auto.
  intros E V' i' find tl fl ht dt fuel o lim flag HE HX Hdt HI H. destruct (G E V' i' find tl fl ht dt fuel o lim flag HE HX Hdt HI H) as [(-> & _ & other & L1 & L2 & L3 & _ & _ & L6)|(_ & _ & L)].
  - split; auto. unfold truth in L6. destruct (Rlt_dec lim b), (Rlt_dec other b); try lra; apply Rabs_le; apply abs_between in L3; lra.
  - exfalso. unfold truth in L. destruct (Rlt_dec low b), (Rlt_dec high b); lra.
Qed.
(** The theoretical corridor width, to within the two tolerances. *)
Theorem C131_width : forall name V i target secs lo ho lu hu to tu no nu bo bu, Planet name = Ok (vh_planet V) -> name <> "URANUS"%string -> vh_user V = false -> lipschitz_air (vh_planet V) (vh_atm V) -> (forall g, division lo ho no g \/ division lu hu nu g -> from_inside (vh_planet V) (with_gamma0 i g)) ->
  (ho - lo) / 2 ^ no <= to -> true_boundary V i 180 target secs lo ho no bo -> (hu - lu) / 2 ^ nu <= tu -> true_boundary V i 0 target secs lu hu nu bu ->
  exists eta, 0 < eta /\ forall E V' i' tl fl ht dt fuel o w, engine_ok E -> nearby eta E V V' i i' 180 180 -> nearby eta E V V' i i' 0 0 -> 0 < dt < eta ->
    computeTCW E fuel (mkObj V' i' tl fl ht) secs dt lo ho lu hu to tu target = Some (o, Ok w) -> Rabs (w - (bo - bu)) <= to + tu.
Proof.
  intros name V i target secs lo ho lu hu to tu no nu bo bu HP HN Hu HL FI Ho TO Hlu TU.
  destruct (C131_boundary name V i 180 target secs lo ho to no bo HP HN Hu HL ltac:(intros; apply FI; auto) Ho TO) as (d1 & Hd1 & G1). destruct (C131_boundary name V i 0 target secs lu hu tu nu bu HP HN Hu HL ltac:(intros; apply FI; auto) Hlu TU) as (d2 & Hd2 & G2).
  exists (Rmin d1 d2). split; [apply Rmin_glb_lt; auto|]. pose proof (Rmin_l d1 d2) as N1. pose proof (Rmin_r d1 d2) as N2. intros E V' i' tl fl ht dt fuel o w HE HX HY Hdt K. unfold computeTCW in K.
  destruct (then_ok _ _ _ _ K) as (o1 & [l1 f1] & E1 & K1). cbv beta in K1. destruct (then_ok _ _ _ _ K1) as (o2 & [l2 f2] & E2 & K2). cbn [fst] in K2. injection K2 as _ <-.
  assert (I1 : In (fun n o low high tol => findOverShootLimit E n o secs dt low high tol target, 180) (by_air E secs dt target)) by (left; reflexivity).
  assert (I2 : In (fun n o low high tol => findUnderShootLimit E n o secs dt low high tol target, 0) (by_air E secs dt target)) by (right; left; reflexivity).
  destruct (C49_restored E secs dt target (fun n o low high tol => findOverShootLimit E n o secs dt low high tol target) (fun o => hitsTargetApoapsis E o secs dt 180 target) fuel (mkObj V' i' tl fl ht) _ _ _ _ _ ltac:(left; reflexivity) E1) as (_ & R1 & R2 & R3).
  cbn [ob_veh ob_init ob_tol] in R1, R2, R3. destruct o1 as [V1 i1 t1 fl1 ht1]. cbn [ob_veh ob_init ob_tol] in R1, R2, R3. subst V1 i1 t1.
  destruct (G1 E V' i' _ tl fl ht dt fuel _ l1 f1 HE (nearby_mono _ _ _ _ _ _ _ _ _ N1 HX) ltac:(lra) I1 E1) as (_ & B1). destruct (G2 E V' i' _ tl fl1 ht1 dt fuel _ l2 f2 HE (nearby_mono _ _ _ _ _ _ _ _ _ N2 HY) ltac:(lra) I2 E2) as (_ & B2). apply abs_between in B1. apply abs_between in B2. apply Rabs_le. lra.
Qed.
(** The other predicate, "captured": by the energy the true flight leaves with. *)
Theorem C131_captured : forall name V i d T T2 y secs, Planet name = Ok (vh_planet V) -> vh_user V = false -> lipschitz_air (vh_planet V) (vh_atm V) -> let p := vh_planet V in from_inside p i ->
  stays_out V i d T T2 y -> tau p * T < secs < tau p * T2 -> energy (GM p) (position p (y T)) (air_velocity p (y T)) <> 0 ->
  exists eta, 0 < eta /\ forall E V' i' d' tol dt o a, engine_ok E -> nearby eta E V V' i i' d d' -> 0 < dt < eta -> isCaptured E (mkObj V' i' tol None None) secs dt d' = (o, Ok a) ->
    (a = -1 <-> energy (GM p) (position p (y T)) (air_velocity p (y T)) < 0) /\ (a = 1 <-> 0 < energy (GM p) (position p (y T)) (air_velocity p (y T))).
Proof.
  intros name V i d T T2 y secs HP Hu HL p FI SO Hs Hne. destruct (ref_facts _ _ HP) as (HV & _ & Ht & _ & HR & _). fold p in HR, Ht, HV. destruct (Planet_facts _ _ HP) as (_ & HGM & _ & _ & (Ht0 & Hts) & Hthr & _). fold p in Ht0, Hts, Hthr, HGM.
  pose proof (inside_leaves name V i d T y HP FI (proj1 SO)) as HT0.
  pose proof (proj1 SO) as LV. pose proof LV as (_ & _ & _ & _ & Etop & _). fold p in Etop. assert (Hr : 0 < s_r (y T)) by (unfold height in Etop; nra).
  destruct (judged_near false p (y T) HR ltac:(lra)) as (_ & LE & _). set (En := fun a => norm2 (judged false p a) / 2 - GM p / (RP p * s_r a)) in *.
  assert (EN : forall a, 0 < s_r a -> energy (GM p) (position p a) (air_velocity p a) = En a) by (intros a Ha; unfold energy, En, position; rewrite sph_norm by nra; reflexivity).
  rewrite EN in Hne |- * by auto. destruct (ll_near _ _ LE (Rabs (En (y T))) (Rabs_pos_lt _ Hne)) as (e1 & He1 & B). set (e := Rmin e1 (s_r (y T))). assert (He : 0 < e) by (apply Rmin_glb_lt; auto). pose proof (Rmin_l e1 (s_r (y T)) : e <= _) as M1. pose proof (Rmin_r e1 (s_r (y T)) : e <= _) as M2.
  destruct (proj1 (near_last name V i d HP Hu HL e He) T y LV HT0) as (d1 & Hd1 & G). destruct (C131_flagged name V i d T T2 y secs HP Hu HL SO HT0 Hs) as (d2 & Hd2 & FL). exists (Rmin d1 d2). split; [apply Rmin_glb_lt; auto|]. pose proof (Rmin_l d1 d2) as N1. pose proof (Rmin_r d1 d2) as N2.
  intros E V' i' d' tol dt o a HE HX Hdt Hc. destruct (near_planet _ _ _ _ _ _ _ _ _ HX HP) as (EP & HP'). destruct (C51_captured E name (mkObj V' i' tol None None) secs dt d' o a HE HP' Hc) as (x & (f & Hf & _ & Ex) & _ & Pm & Q). cbn [ob_veh] in Q. rewrite EP in Q. fold p in Q. assert (x = terminal f) by exact Ex. subst x.
  assert (HPr : propogateEntry E (mkObj V' i' tol None None) secs dt d' = (o, Ok tt)).
  { unfold isCaptured, ask_flight in Hc. destruct (propogateEntry E (mkObj V' i' tol None None) secs dt d') as [o1 [[]|e2]]; [|discriminate]. destruct (ob_flight o1); [|discriminate]. apply (f_equal fst) in Hc. cbn [fst] in Hc. subst o1. reflexivity. }
  destruct (nearby_mono _ _ _ _ _ _ _ _ _ N2 HX) as (X1 & X2 & X3 & X4). assert (Fl := FL E V' i' d' tol dt o f HE X1 ltac:(lra) X2 X3 X4 HPr Hf).
  destruct (G false E V' i' d' tol secs dt o f HE (nearby_mono _ _ _ _ _ _ _ _ _ N1 HX) ltac:(lra) HPr Hf Fl) as (s & Ds & Es). fold p in Es. rewrite Es in Q. unfold rel_energy in Q. rewrite exit_pos, exit_air in Q. change (judged false p s) with (air_velocity p s) in Q.
  pose proof (comp_dist (y T) s 0) as C. cbn [comp] in C. assert (C' : Rabs (s_r (y T) - s_r s) < s_r (y T)) by lra. apply Rabs_def2 in C'. rewrite EN in Q by lra.
  specialize (B s ltac:(lra)). assert (SG : En s < 0 <-> En (y T) < 0). { unfold Rabs in B. destruct (Rcase_abs (En s - En (y T))), (Rcase_abs (En (y T))); split; lra. } rewrite SG in Q.
  split; [exact Q|]. split; intros K.
  - destruct (Rlt_le_dec 0 (En (y T))) as [|L]; auto. exfalso. assert (NE : En (y T) < 0) by lra. apply Q in NE. lra.
  - destruct Pm as [Pm|]; auto. exfalso. apply Q in Pm. lra.
Qed.
