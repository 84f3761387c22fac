(** Flights from starts near a flight: they exist for as long as it lasts, and stay near it. *)
From Coq Require Import List Reals Lra Lia Ranalysis5 Classical.
Require Import Verif.Base Verif.Numpy Verif.PlanetModel Verif.PlanetProofs Verif.AeroModel Verif.TrajectoryModel Verif.TrajectorySpec Verif.TrajectoryProofs Verif.FlightProofs
  Verif.ExactSpec Verif.ExactProofs Verif.DetSpec Verif.DetProofs Verif.NearSpec Verif.NearProofs Verif.ExistSpec Verif.ExistProofs Verif.PropExist Verif.ExitSpec Verif.ExitProofs Verif.PropExitRun Verif.PropNear Verif.PropDet Verif.EnterProofs
  Verif.VerdictSpec Verif.VerdictProofs Verif.NearExitSpec Verif.NearExitProofs.
Import ListNotations.
Local Open Scope R_scope.

Lemma solves_joined : forall f y z s T, 0 <= s -> y s = z 0 -> solves f y s -> solves f z T -> solves f (joined y z s) (s + T).
Proof.
  intros f y z s T Hs E (l & Sy) (l' & Sz). exists (s :: l ++ map (fun c => c + s) l'). intros t Ht. split.
  - apply joined_continuous; auto; intros; [apply (Sy t); lra|apply (Sz (t - s)); lra].
  - destruct (Rle_or_lt t s) as [L|L].
    + destruct (Sy t ltac:(lra)) as (_ & d & Ed & M). exists d. split; [unfold joined; destruct (Rle_dec t s); [auto|lra]|]. intros Ht' N. assert (t <> s) by (intros ->; apply N; left; auto).
      apply joined_left; [lra|]. apply M; [lra|]. intros I. apply N. right. apply in_or_app. auto.
    + destruct (Sz (t - s) ltac:(lra)) as (_ & d & Ed & M). exists d. split; [unfold joined; destruct (Rle_dec t s); [lra|auto]|]. intros Ht' N.
      apply joined_right; [lra|]. apply M; [lra|]. intros I. apply N. right. apply in_or_app. right. apply in_map_iff. exists (t - s). split; [ring|auto].
Qed.
Lemma solves_nearly : forall eta f y T, 0 <= eta -> solves f y T -> nearly_solves eta f y T.
Proof.
  intros eta f y T He (l & H). exists l. intros t Ht. destruct (H t Ht) as (C & d & Ed & M). split; auto. exists d. split; auto. intros Ht' N. exists d. split; auto. apply dist_within. rewrite dist_self. auto.
Qed.
Lemma solves_regular : forall V dl y T t, vh_user V = false -> solves (fun x => EOM V x dl) y T -> 0 <= t <= T -> in_air (vh_planet V) (y t) -> regular (vh_planet V) (y t).
Proof. intros V dl y T t Hu (l & S) Ht A. destruct (S t Ht) as (_ & x & Ex & _). destruct (field_is _ _ _ _ Hu Ex) as (_ & R). split; auto. Qed.
(** From every start close to a flight inside the air there is a flight for as long, and it stays close. *)
Lemma near_flow : forall V dl y T, vh_user V = false -> 0 < RP (vh_planet V) -> 0 < rho0 (vh_planet V) -> lipschitz_air (vh_planet V) (vh_atm V) -> 0 <= T ->
  solves (fun x => EOM V x dl) y T -> (forall t, 0 <= t <= T -> in_air (vh_planet V) (y t)) ->
  forall eps, 0 < eps -> exists kap, 0 < kap /\ forall x0, dist (y 0) x0 <= kap -> exists z, z 0 = x0 /\ solves (fun x => EOM V x dl) z T /\ forall t, 0 <= t <= T -> dist (y t) (z t) < eps.
Proof.
  intros V dl y T Hu HR Hr0 HL HT Sy I.
  assert (Near : forall eps, 0 < eps -> exists kap, 0 < kap <= 1 /\ forall z s, solves (fun x => EOM V x dl) z s -> dist (y 0) (z 0) <= kap -> forall t, 0 <= t -> t <= T -> t <= s -> dist (y t) (z t) < eps).
  { intros eps He. destruct (near_all V dl y T Hu HR Hr0 HL Sy I eps He) as (kap & Hk & NA). exists kap. split; auto. intros z s Sz Hd t Ht1 Ht2 Ht3.
    apply (NA 0 V dl z s ltac:(lra) (within_self 0 V ltac:(lra) Hu)); auto; [rewrite Rminus_diag_eq, Rabs_R0 by reflexivity; lra|apply solves_nearly; [lra|auto]]. }
  assert (Loc : forall m, 0 <= m <= T -> exists rho h, 0 < rho /\ 0 < h /\ forall x0, dist (y m) x0 <= rho -> exists z, z 0 = x0 /\ solves (fun x => EOM V x dl) z h).
  { intros m Hm. destruct (exist_near V dl (y m) Hu HR HL (solves_regular V dl y T m Hu Sy Hm (I m Hm))) as (rho & h & Hrho & Hh & EX). exists rho, (h / 2). split; auto. split; [lra|]. intros x0 Hx. destruct (EX x0 Hx) as (z & Ez & Hz).
    exists z. split; auto. exists nil. intros t Ht. destruct (Hz t ltac:(apply Rabs_def1; lra)) as (M & Rg). split; [apply (moving_continuous _ _ _ M)|]. exists (field V dl (z t)). split; [apply field_there; auto|auto]. }
  set (P := fun s => exists kap, 0 < kap /\ forall x0, dist (y 0) x0 <= kap -> exists z, z 0 = x0 /\ solves (fun x => EOM V x dl) z s).
  assert (PT : P T).
  { set (E := fun s => 0 <= s <= T /\ P s).
    assert (E0 : E 0). { split; [lra|]. destruct (Loc 0 ltac:(lra)) as (rho & h & Hrho & Hh & EX). exists rho. split; auto. intros x0 Hx. destruct (EX x0 Hx) as (z & Ez & Sz). exists z. split; auto. apply (solves_upto _ _ _ 0 Sz). lra. }
    destruct (completeness E) as (m & Um & Lm). { exists T. intros s (Hs & _). lra. } { exists 0. auto. }
    assert (Hm : 0 <= m <= T). { split; [apply Um; auto|]. apply Lm. intros s (Hs & _). lra. }
    destruct (Loc m Hm) as (rho & h & Hrho & Hh & EX). destruct (curve_near y m (rho / 2) ltac:(lra)) as (a & Ha & CN). { destruct Sy as (l & Sy'). apply (Sy' m Hm). }
    pose proof (Rmin_l a (h / 2)) as A1. pose proof (Rmin_r a (h / 2)) as A2. assert (Ha' : 0 < Rmin a (h / 2)) by (apply Rmin_glb_lt; lra).
    assert (exists s0, E s0 /\ m - Rmin a (h / 2) < s0) as (s0 & (Hs0 & k0 & Hk0 & Ps0) & Ls0).
    { apply NNPP. intros N. assert (m <= m - Rmin a (h / 2)); [|lra]. apply Lm. intros s Es. apply Rnot_lt_le. intros Q. apply N. exists s. auto. }
    assert (Hs0m : s0 <= m) by (apply Um; split; [auto|exists k0; auto]).
    set (s1 := Rmin T (m + h / 2)). pose proof (Rmin_l T (m + h / 2) : s1 <= T) as U1. pose proof (Rmin_r T (m + h / 2) : s1 <= m + h / 2) as U2. assert (U3 : m <= s1) by (apply Rmin_glb; lra).
    assert (P1 : P s1).
    { destruct (Near (rho / 2) ltac:(lra)) as (k1 & Hk1 & NA). exists (Rmin k0 k1). pose proof (Rmin_l k0 k1) as K0. pose proof (Rmin_r k0 k1) as K1. split; [apply Rmin_glb_lt; lra|]. intros x0 Hx. destruct (Ps0 x0 ltac:(lra)) as (z & Ez & Sz).
      assert (D := NA z s0 Sz ltac:(rewrite Ez; lra) s0 ltac:(lra) ltac:(lra) ltac:(lra)). assert (D' := CN s0 ltac:(apply Rabs_def1; lra)). pose proof (dist_tri (y m) (y s0) (z s0)).
      destruct (EX (z s0) ltac:(lra)) as (u & Eu & Su). exists (joined z u s0). split; [unfold joined; destruct (Rle_dec 0 s0); [auto|lra]|]. apply (solves_upto _ _ (s0 + h)); [apply solves_joined; auto; lra|lra]. }
    assert (s1 <= m) by (apply Um; split; [lra|auto]). assert (E1 : s1 = T). { unfold s1, Rmin in *. destruct (Rle_dec T (m + h / 2)); lra. } rewrite <- E1. exact P1. }
  intros eps He. destruct PT as (k0 & Hk0 & PT). destruct (Near eps He) as (k1 & Hk1 & NA). exists (Rmin k0 k1). pose proof (Rmin_l k0 k1) as K0. pose proof (Rmin_r k0 k1) as K1. split; [apply Rmin_glb_lt; lra|]. intros x0 Hx. destruct (PT x0 ltac:(lra)) as (z & Ez & Sz).
  exists z. split; auto. split; auto. intros t Ht. apply (NA z T Sz); [rewrite Ez; lra|lra|lra|lra].
Qed.
(** A curve that solves the equations with its height falling at [c] or more. *)
Lemma falls : forall V dl z T s t c, vh_user V = false -> solves (fun x => EOM V x dl) z T -> 0 <= s -> s <= t -> t <= T -> (forall u, s <= u <= t -> 0 < - f1 (z u) - c) -> s_r (z t) <= s_r (z s) - c * (t - s).
Proof.
  intros V dl z T s t c Hu (l & S) Hs Hst HtT Hc.
  assert (Q : s_r (z t) + c * t <= s_r (z s) + c * s); [|lra].
  apply (nonincreasing_anyrate (fun u => s_r (z u) + c * u) l s t Hst).
  - intros u Hu'. apply continuity_pt_plus; [apply (S u ltac:(lra))|apply derivable_continuous_pt; reg].
  - intros u Hu' N. destruct (S u ltac:(lra)) as (_ & x & Ex & M). destruct (M ltac:(lra) N) as (M1 & _). destruct (field_is _ _ _ _ Hu Ex) as (-> & _). cbn [s_r] in M1.
    exists (f1 (z u) + c). split; [|specialize (Hc u ltac:(lra)); lra]. apply derivable_pt_lim_plus; [exact M1|]. replace c with (c * 1) at 2 by ring. apply derivable_pt_lim_scal, derivable_pt_lim_id.
Qed.
Lemma capped_solves : forall V delta u T, vh_user V = false -> (forall t, 0 <= t <= T -> 0 <= height (vh_planet V) (u t) <= h_thres (vh_planet V)) -> solves (fun x => EOM (capped V) x delta) u T -> solves (fun x => EOM V x delta) u T.
Proof.
  intros V delta u T Hu B (l & S). exists l. intros t Ht. destruct (S t Ht) as (C & x & Ex & M). split; auto. destruct (field_is (capped V) delta (u t) x Hu Ex) as (Ex' & R1 & R2 & R3 & R4).
  exists x. split; [|auto]. rewrite field_defined by auto. rewrite <- capped_field by auto. rewrite Ex'. reflexivity.
Qed.
(** From every start close to that of a flight through the atmosphere, not above the top, there is a flight through the atmosphere for as long, and it stays close. *)
Lemma flow_passage : forall V dl y T, vh_user V = false -> 0 < RP (vh_planet V) -> 0 < rho0 (vh_planet V) -> 0 < h_thres (vh_planet V) -> lipschitz_air (vh_planet V) (vh_atm V) -> 0 <= T ->
  solves (fun x => EOM V x dl) y T -> (forall t, 0 <= t <= T -> inside (vh_planet V) y t) ->
  forall eps, 0 < eps -> exists kap, 0 < kap /\ forall x0, dist (y 0) x0 <= kap -> height (vh_planet V) x0 <= h_thres (vh_planet V) ->
    exists z, z 0 = x0 /\ solves (fun x => EOM V x dl) z T /\ (forall t, 0 <= t <= T -> inside (vh_planet V) z t) /\ forall t, 0 <= t <= T -> dist (y t) (z t) < eps.
Proof.
  intros V dl y T Hu HR Hr0 H0 HL HT Sy I eps Heps. set (p := vh_planet V) in *. assert (Cy : forall t, 0 <= t <= T -> continuous_at y t) by (intros t Ht; destruct Sy as (l & Sy'); apply (Sy' t); lra).
  assert (Sc : solves (fun x => EOM (capped V) x dl) y T) by (apply solves_capped; auto; intros t Ht; pose proof (inside_height p y t H0 (I t Ht)); fold p; lra).
  assert (Ic : forall t, 0 <= t <= T -> in_air (vh_planet (capped V)) (y t)). { intros t Ht. pose proof (inside_height p y t H0 (I t Ht)) as Q. unfold in_air; cbn [capped rigged vh_planet higher RP h_thres]; fold p; unfold height in Q; lra. }
  assert (NF := near_flow (capped V) dl y T Hu HR Hr0 (capped_lip V HL ltac:(fold p; lra)) HT Sc Ic).
  assert (Fin : forall z, solves (fun x => EOM (capped V) x dl) z T -> (forall t, 0 <= t <= T -> inside p z t) -> solves (fun x => EOM V x dl) z T).
  { intros z Sz Iz. apply capped_solves; auto. intros t Ht. pose proof (inside_height p z t H0 (Iz t Ht)). fold p. lra. }
  destruct (classic (in_air p (y 0))) as [A0|A0].
  - assert (IA : forall t, 0 <= t <= T -> in_air p (y t)) by (intros t Ht; destruct (Req_dec t 0) as [->|N]; [auto|apply (inside_after p y); [apply I; auto|lra]]).
    destruct (air_margin p y T HR HT Cy IA) as (m & Hm & AM). pose proof (Rmin_l eps m) as M1. pose proof (Rmin_r eps m) as M2.
    destruct (NF (Rmin eps m) ltac:(apply Rmin_glb_lt; auto)) as (kap & Hk & F). exists kap. split; auto. intros x0 Hx _. destruct (F x0 Hx) as (z & Ez & Sz & D).
    assert (Iz : forall t, 0 <= t <= T -> inside p z t) by (intros t Ht; left; apply (AM t); auto; specialize (D t Ht); lra). exists z. split; auto. split; auto. split; auto. intros t Ht. specialize (D t Ht). lra.
  - destruct (I 0 ltac:(lra)) as [C|(_ & Etop & Hdn)]; [contradiction|]. fold p in Etop.
    assert (R0 : s_r (y 0) <> 0 /\ s_v (y 0) <> 0 /\ cos (s_phi (y 0)) <> 0 /\ cos (s_gamma (y 0)) + 1e-2 <> 0). { destruct Sy as (l & Sy'). destruct (Sy' 0 ltac:(lra)) as (_ & x & Ex & _). apply (field_is _ _ _ _ Hu Ex). }
    set (c := - f1 (y 0) / 2). assert (Hf : f1 (y 0) < 0) by (unfold f1; auto). assert (Hc : 0 < c) by (unfold c; lra).
    destruct (ll_pos (fun a => 0 - f1 a - c) (y 0) ltac:(unfold f1; ll) ltac:(unfold c; lra)) as (e & He & P). cbv beta in P.
    destruct (ll_pos (height p) (y 0) ltac:(unfold height; ll) ltac:(rewrite Etop; auto)) as (e' & He' & P'). set (q := Rmin e e' / 2). assert (Hq : 0 < q) by (unfold q; assert (0 < Rmin e e') by (apply Rmin_glb_lt; auto); lra). pose proof (Rmin_l e e') as Q1. pose proof (Rmin_r e e') as Q2.
    destruct (curve_near y 0 q Hq (Cy 0 ltac:(lra))) as (a0 & Ha0 & CN). set (a := Rmin (a0 / 2) T). pose proof (Rmin_l (a0 / 2) T : a <= _) as A1. pose proof (Rmin_r (a0 / 2) T : a <= _) as A2. assert (A3 : 0 <= a) by (apply Rmin_glb; lra).
    assert (exists m, 0 < m /\ forall t x, a <= t <= T -> 0 < t -> dist (y t) x < m -> in_air p x) as (m & Hm & AM).
    { destruct (Rle_lt_dec a 0) as [L|L]. { exists 1. split; [lra|]. intros t x Ht Ht0. exfalso. unfold a, Rmin in L. destruct (Rle_dec (a0 / 2) T); lra. }
      destruct (air_margin p (fun t => y (a + t)) (T - a) HR ltac:(lra)) as (m & Hm & AM).
      - intros t Ht. assert (Ss : solves (fun x => EOM V x dl) (fun t => y (a + t)) (T - a)) by (apply solves_shift; auto; lra). destruct Ss as (l & Ss'). apply (Ss' t). lra.
      - intros t Ht. apply (inside_after p y); [apply I; lra|lra].
      - exists m. split; auto. intros t x Ht _ D. apply (AM (t - a) x ltac:(lra)). replace (a + (t - a)) with t by ring. auto. }
    set (e2 := Rmin eps (Rmin q m)). assert (He2 : 0 < e2) by (repeat apply Rmin_glb_lt; auto). pose proof (Rmin_l eps (Rmin q m) : e2 <= _) as M1. pose proof (Rmin_r eps (Rmin q m) : e2 <= _) as M2. pose proof (Rmin_l q m) as M3. pose proof (Rmin_r q m) as M4.
    destruct (NF e2 He2) as (kap & Hk & F). exists kap. split; auto. intros x0 Hx Hx0. destruct (F x0 Hx) as (z & Ez & Sz & D).
    assert (Cl : forall t, 0 <= t <= a -> dist (y 0) (z t) < 2 * q). { intros t Ht. specialize (D t ltac:(lra)). specialize (CN t ltac:(rewrite Rminus_0_r, Rabs_right; lra)). pose proof (dist_tri (y 0) (y t) (z t)). lra. }
    assert (Iz : forall t, 0 <= t <= T -> inside p z t).
    { intros t Ht. destruct (Rle_or_lt t a) as [L|L].
      - assert (Hp : 0 < height p (z t)) by (apply P'; specialize (Cl t ltac:(lra)); unfold q in Cl; lra).
        assert (FL := falls (capped V) dl z T 0 t c Hu Sz ltac:(lra) ltac:(lra) ltac:(lra)). destruct (Req_dec t 0) as [->|N].
        + destruct (Rlt_or_le (height p (z 0)) (h_thres p)) as [L0|L0]; [left; unfold in_air; unfold height in *; lra|right]. split; auto. split; [rewrite Ez in *; lra|]. specialize (P (z 0) ltac:(specialize (Cl 0 ltac:(lra)); unfold q in Cl; lra)). unfold f1 in P at 1. lra.
        + left. specialize (FL ltac:(intros u Hu'; specialize (P (z u) ltac:(specialize (Cl u ltac:(lra)); unfold q in Cl; lra)); lra)). assert (0 < c * (t - 0)) by (apply Rmult_lt_0_compat; lra). assert (s_r (z t) < s_r (z 0)) by lra.
          assert (RP p * s_r (z t) < RP p * s_r (z 0)) by (apply Rmult_lt_compat_l; auto). rewrite Ez in *. unfold in_air. unfold height in *. lra.
      - left. apply (AM t (z t) ltac:(lra) ltac:(lra)). specialize (D t Ht). lra. }
    exists z. split; auto. split; auto. split; auto. intros t Ht. specialize (D t Ht). lra.
Qed.
