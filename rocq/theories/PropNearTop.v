(** C125 for flights that start exactly at the top of the atmosphere, where missions usually place the entry interface. *)
From Coq Require Import String List Reals Lra Lia Classical.
Require Import Verif.Base Verif.Numpy Verif.NumpyProofs Verif.PlanetModel Verif.PlanetProofs Verif.AeroModel Verif.HeatModel Verif.PropHeat Verif.TrajectoryModel Verif.TrajectorySpec Verif.TrajectoryProofs Verif.PropTrajectory Verif.FlightProofs Verif.PropFlight
  Verif.ExactSpec Verif.ExactProofs Verif.PropExact Verif.DetSpec Verif.DetProofs Verif.PropDet Verif.NearSpec Verif.NearProofs Verif.PropNear Verif.ExistSpec Verif.ExistProofs Verif.PropExist Verif.ExitSpec Verif.ExitProofs Verif.EnterProofs Verif.PropExit Verif.PropTrap Verif.PropExitRun
  Verif.ConicSpec Verif.OrbitSpec Verif.VerdictSpec Verif.VerdictProofs Verif.NearExitSpec Verif.NearExitProofs.
Require Verif.PropRoundGrid Verif.PropGuidance.
Require Import Verif.PropNearExit.
Import ListNotations.
Local Open Scope R_scope.

(** As [shows_close], with one distance for all states. *)
Lemma shows_close_all : forall name p eps, Planet name = Ok p -> 0 < eps -> exists e, 0 < e /\ forall x q k a, shows p q k a -> dist x a < e -> shows_within eps p q k x.
Proof.
  intros name p eps HP He. destruct (ref_facts _ _ HP) as (HV & _ & _ & _ & HR & _). pose proof PI_RGT_0 as HPI. pose proof PI_4 as HP4. set (M := RP p + Vref p + 180).
  assert (HM : 0 < M) by (unfold M; lra). exists (eps / M). split; [apply Rdiv_lt_0_compat; auto|]. intros x q k a (S1 & S2 & S3 & S4 & S5 & S6 & S7) D.
  assert (EM : M * (eps / M) = eps) by (field; lra). set (e := eps / M) in *. assert (He' : 0 < e) by (apply Rdiv_lt_0_compat; auto).
  assert (C : forall i, Rabs (comp x i - comp a i) < e) by (intros i; eapply Rle_lt_trans; [apply comp_dist|auto]).
  assert (P3 : 3 < PI) by (pose proof PI_ineq 1; pose proof PI2_3_2; lra).
  assert (DEG : forall u v w, u * PI / 180 = v -> Rabs (w - v) < e -> Rabs (u - w * 180 / PI) < eps).
  { intros u v w Eu Hw. replace (u - w * 180 / PI) with ((v - w) * (180 / PI)) by (rewrite <- Eu; field; lra). rewrite Rabs_mult, (Rabs_minus_sym v w). assert (Q : 0 < 180 / PI) by (apply Rdiv_lt_0_compat; lra). rewrite (Rabs_right (180 / PI)) by lra.
    assert (180 / PI < 180). { assert (E1 : 180 / PI * PI = 180) by (field; lra). nra. } pose proof (Rabs_pos (w - v)). unfold M in EM. nra. }
  assert (LEN : forall u v w K, 0 < K -> K <= M -> u * 1000 = K * v -> Rabs (w - v) < e -> Rabs (u - K * w / 1000) < eps).
  { intros u v w K HK HKM Eu Hw. replace (u - K * w / 1000) with ((v - w) * (K / 1000)) by lra. rewrite Rabs_mult, (Rabs_minus_sym v w), (Rabs_right (K / 1000)) by lra. pose proof (Rabs_pos (w - v)). nra. }
  pose proof (C 0%nat) as C0. pose proof (C 1%nat) as C1. pose proof (C 2%nat) as C2. pose proof (C 3%nat) as C3. pose proof (C 4%nat) as C4. pose proof (C 5%nat) as C5. pose proof (C 6%nat) as C6. cbn [comp] in *. unfold shows_within.
  split.
  - replace (nth k (p_h q) 0 - (RP p * s_r x - RP p) / 1000) with ((nth k (p_h q) 0 + RP p / 1000) - RP p * s_r x / 1000) by lra. apply (LEN _ (s_r a)); auto; unfold M; lra.
  - split; [apply (LEN _ (s_v a)); auto; unfold M; lra|]. do 4 (split; [eapply DEG; eauto|]). apply (LEN _ (s_drange a)); auto; unfold M; lra.
Qed.
Lemma passage_height : forall V i d T y, 0 < h_thres (vh_planet V) -> passage V i d T y -> forall t, 0 <= t <= T -> 0 < height (vh_planet V) (y t) <= h_thres (vh_planet V).
Proof. intros V i d T y H0 (_ & _ & I) t Ht. destruct (I t Ht) as [A|(-> & E & _)]; [unfold in_air in A; unfold height; lra|rewrite E; lra]. Qed.
(** Every nearby flight that does not start above the top reports points near the exact flight, and none above the top. *)
Theorem C125_from_the_top : forall name V i d T y eps, Planet name = Ok (vh_planet V) -> vh_user V = false -> lipschitz_air (vh_planet V) (vh_atm V) -> passage V i d T y -> 0 <= T -> 0 < eps ->
  exists eta, 0 < eta /\ forall (two : bool) E V' i' d' tol secs dt o f, engine_ok E -> exact_within eta E (fun x => EOM V' x (d' * PI / 180)) -> 0 < dt ->
    vehicle_within eta V V' -> starts_near eta (vh_planet V) i i' -> Rabs (d - d') <= eta ->
    (if two then propogateEntry2 else propogateEntry) E (mkObj V' i' tol None None) secs dt d' = (o, Ok tt) -> ob_flight o = Some f ->
    forall k, (k < length (p_t (f_plot f)))%nat -> time_of (vh_planet V) (f_plot f) k <= T ->
    shows_within eps (vh_planet V) (f_plot f) k (y (time_of (vh_planet V) (f_plot f) k)) /\ 0 < nth k (p_h (f_plot f)) 0 * 1000 <= h_thres (vh_planet V).
Proof.
  intros name V i d T y eps HP Hu HL (Y0 & Sy & I) HT0 Heps. destruct (ref_facts _ _ HP) as (_ & _ & Ht & _ & HR & _ & Hr0). destruct (Planet_facts _ _ HP) as (_ & _ & _ & _ & (Ht0 & Hts) & Hthr & _).
  set (p := vh_planet V) in *. destruct (shows_close_all name p eps HP Heps) as (e & He & SC).
  destruct (near_passage V (d * PI / 180) y T Hu HR Hr0 ltac:(fold p; lra) HL Sy HT0 I e He) as (kap & Hk & G). fold p in G.
  destruct (near_inputs name V i d kap HP Hk) as (eta & Heta & NI). fold p in NI. exists eta. split; [lra|].
  intros two E V' i' d' tol secs dt o f HE HX Hdt HV HI Hd HRun Hf k Hk' HT.
  assert (EP : vh_planet V' = p) by apply HV.
  destruct (near_behind two E _ name V' i' tol secs dt d' o f HE HX ltac:(rewrite EP; exact HP) ltac:(lra) HRun Hf) as (z & Tz & ts & idx & Z0 & Sz & GT & Nk & _ & Ec & Et & Sh). rewrite EP in *.
  destruct (NI eta V' i' d' ltac:(lra) HV HI Hd) as (Dd & Ds & Dt).
  assert (Lk : (k < idx)%nat /\ (k < length ts)%nat) by (rewrite Et, map_length, firstn_length in Hk'; lia). destruct Lk as (Li & Lt).
  assert (Ek : time_of p (f_plot f) k = nth k ts 0). { unfold time_of. rewrite Et. rewrite (nth_map_lt _ _ _ 0) by (rewrite firstn_length; lia). rewrite nth_firstn by auto. field. lra. }
  rewrite Ek in *. pose proof (proj1 (Forall_forall _ _) GT _ (nth_In ts 0 Lt)) as Bk. cbv beta in Bk.
  destruct (G eta V' (d' * PI / 180) z Tz ltac:(lra) HV Dd Sz ltac:(rewrite Y0, Z0; exact Ds) ltac:(rewrite Z0; exact Dt) (nth k ts 0) ltac:(lra) ltac:(lra)) as (D & Hz).
  pose proof (Sh k Li Lt) as S. split; [exact (SC _ _ _ _ S D)|]. destruct S as (S1 & _). unfold height in Hz. lra.
Qed.
(** Two flights, one of them exact. *)
Theorem C125_nearby_from_the_top : forall (two : bool) E name V i tol secs dt d o f y T eps, engine_ok E -> exact E -> Planet name = Ok (vh_planet V) -> 0 < dt ->
  vh_user V = false -> lipschitz_air (vh_planet V) (vh_atm V) -> passage V i d T y -> 0 <= T -> 0 < eps ->
  (if two then propogateEntry2 else propogateEntry) E (mkObj V i tol None None) secs dt d = (o, Ok tt) -> ob_flight o = Some f ->
  exists eta, 0 < eta /\ forall (two' : bool) E' V' i' d' tol' secs' dt' o' f', engine_ok E' -> exact_within eta E' (fun x => EOM V' x (d' * PI / 180)) -> 0 < dt' ->
    vehicle_within eta V V' -> starts_near eta (vh_planet V) i i' -> Rabs (d - d') <= eta ->
    (if two' then propogateEntry2 else propogateEntry) E' (mkObj V' i' tol' None None) secs' dt' d' = (o', Ok tt) -> ob_flight o' = Some f' ->
    forall k k', (k < length (p_t (f_plot f)))%nat -> (k' < length (p_t (f_plot f')))%nat -> nth k (p_t (f_plot f)) 0 = nth k' (p_t (f_plot f')) 0 ->
    time_of (vh_planet V) (f_plot f) k <= T ->
    point_within eps (f_plot f) k (f_plot f') k' /\ 0 < nth k (p_h (f_plot f)) 0 * 1000 <= h_thres (vh_planet V) /\ 0 < nth k' (p_h (f_plot f')) 0 * 1000 <= h_thres (vh_planet V).
Proof.
  intros two E name V i tol secs dt d o f y T eps HE HX HP Hdt Hu HL W HT0 Heps H Hf.
  assert (TOP : h0_km i * 1000 <= h_thres (vh_planet V)).
  { destruct (Planet_facts _ _ HP) as (_ & _ & _ & _ & (Ht0 & Hts) & Hthr & _). pose proof (passage_height V i d T y ltac:(lra) W 0 ltac:(lra)) as A. pose proof W as (Y0 & _). rewrite Y0 in A. destruct (entry_clear name _ i HP) as (E1 & _). unfold height in A. lra. }
  destruct (C125_from_the_top name V i d T y (eps / 2) HP Hu HL W HT0 ltac:(lra)) as (eta & He & HN). exists eta. split; auto.
  intros two' E' V' i' d' tol' secs' dt' o' f' HE' HX' Hdt' HV HI Hd H' Hf' k k' Hk Hk' Et HT.
  assert (Et' : time_of (vh_planet V) (f_plot f) k = time_of (vh_planet V) (f_plot f') k') by (unfold time_of; rewrite Et; reflexivity).
  destruct (HN two E V i d tol secs dt o f) with (k := k) as (A1 & A2); auto; [apply exact_nearly; auto; lra|apply within_self; auto; lra|split; [apply start_self; lra|exact TOP]|rewrite Rminus_diag_eq, Rabs_R0 by reflexivity; lra|].
  destruct (HN two' E' V' i' d' tol' secs' dt' o' f') with (k := k') as (B1 & B2); auto; [lra|]. split; auto.
  apply (two_near _ (vh_planet V) _ _ _ _ (y (time_of (vh_planet V) (f_plot f) k))); auto. rewrite Et'. exact B1.
Qed.
