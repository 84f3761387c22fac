(** Properties C48-C51 and C62: capture predicates and entry-corridor searches. *)
From Coq Require Import String List.
Require Import Verif.Base Verif.Numpy Verif.NumpyProofs Verif.PlanetModel Verif.PlanetProofs Verif.FrameModel Verif.FrameProofs Verif.ConicSpec Verif.ConicProofs
  Verif.AeroModel Verif.FlightProofs Verif.HeatModel Verif.TrajectoryModel Verif.TrajectorySpec Verif.TrajectoryProofs Verif.PropTrajectory
  Verif.OrbitScalarModel Verif.OrbiterModel Verif.OrbiterProofs Verif.OrbitSpec Verif.OrbitProofs Verif.CorridorModel Verif.CorridorSpec Verif.CorridorProofs.

(** The six searches, each with the predicate it bisects: (rounds allowed, vehicle, low, high, tolerance). *)
Definition find_fun := nat -> vobj -> R -> R -> R -> option (vobj * res (R * R)).
Definition lift_searches (E : engine) (t_sec dt target_km : R) : list (find_fun * (vobj -> vobj * res R)) :=
  [ (fun n o low high tol => findOverShootLimit E n o t_sec dt low high tol target_km, fun o => hitsTargetApoapsis E o t_sec dt 180 target_km);
    (fun n o low high tol => findOverShootLimit2 E n o t_sec dt low high tol target_km, fun o => hitsTargetApoapsis2 E o t_sec dt 180 target_km);
    (fun n o low high tol => findUnderShootLimit E n o t_sec dt low high tol target_km, fun o => hitsTargetApoapsis E o t_sec dt 0 target_km);
    (fun n o low high tol => findUnderShootLimit2 E n o t_sec dt low high tol target_km, fun o => hitsTargetApoapsis2 E o t_sec dt 0 target_km) ].
Definition drag_searches (E : engine) (t_sec dt target_km : R) : list (find_fun * (vobj -> vobj * res R)) :=
  [ (fun n o low high tol => findEFPALimitD E n o t_sec dt low high tol target_km, fun o => hitsTargetApoapsis E o t_sec dt 0 target_km);
    (fun n o low high tol => findEFPALimitD2 E n o t_sec dt low high tol target_km, fun o => hitsTargetApoapsis2 E o t_sec dt 0 target_km) ].
Definition searches E t_sec dt target_km := lift_searches E t_sec dt target_km ++ drag_searches E t_sec dt target_km.
(** What the predicate answers for entry angle g, all else being as in [o]. *)
Definition answer (ask : vobj -> vobj * res R) (o : vobj) (g : R) : res R := snd (ask (set_gamma0 o g)).

Lemma ans_LD : forall E t_sec dt target d o g,
  answer (fun o => hitsTargetApoapsis E o t_sec dt d target) (set_LD o 0) g = answer (fun o => hitsTargetApoapsis E o t_sec dt d target) o g /\
  answer (fun o => hitsTargetApoapsis2 E o t_sec dt d target) (set_LD o 0) g = answer (fun o => hitsTargetApoapsis2 E o t_sec dt d target) o g.
Proof. intros. unfold answer. change (set_gamma0 (set_LD o 0) g) with (set_LD (set_gamma0 o g) 0). split; [apply hits_LD|apply hits2_LD]. Qed.

Lemma restore_lift : forall o o', reached o o' -> same o (set_gamma0 o' (gamma0_deg (ob_init o))).
Proof.
  intros o o' (g & S). apply (same_set _ _ (gamma0_deg (ob_init o))) in S. rewrite set_set in S. eapply same_trans; [|exact S]. apply set_own.
Qed.
Lemma restore_drag : forall o o', reached (set_LD o 0) o' -> same o (set_LD (set_gamma0 o' (gamma0_deg (ob_init o))) (vh_LD (ob_veh o))).
Proof.
  intros [[] [] tol fl ht] [V' i' t' f' h'] (g & H1 & H2 & H3). cbn in H1, H2, H3. subst. repeat split.
Qed.

(** Everything a search can do. *)
Lemma search_outcome : forall E t_sec dt target find ask n o low high tol q, In (find, ask) (searches E t_sec dt target) ->
  find n o low high tol = q -> let ans := answer ask o in
  (exists g e o', q = Some (o', Err e) /\ within low high g /\ ans g = Err e /\ ob_init o' = with_gamma0 (ob_init o) g /\ ob_tol o' = ob_tol o /\
     (In (find, ask) (lift_searches E t_sec dt target) /\ ob_veh o' = ob_veh o \/ In (find, ask) (drag_searches E t_sec dt target) /\ ob_veh o' = with_LD (ob_veh o) 0)) \/
  (exists a o', q = Some (o', Ok (0, 0)) /\ ans low = Ok a /\ ans high = Ok a /\ same o o') \/
  (opposite ans low high /\
    ((exists o', Rabs (high - low) <= tol /\ same o o' /\ q = Some (o', Err UnboundLocalError)) \/
     (exists k lo hi o', (1 <= k <= n)%nat /\ tol < Rabs (high - low) / 2 ^ (k - 1) /\ Rabs (hi - lo) = Rabs (high - low) / 2 ^ k /\ Rabs (hi - lo) <= tol /\
       within low high lo /\ within low high hi /\ (low <= high -> lo <= hi) /\ (high <= low -> hi <= lo) /\ opposite ans lo hi /\ same o o' /\ q = Some (o', Ok (hi, 1))) \/
     (q = None /\ tol < Rabs (high - low) / 2 ^ n))).
Proof.
  intros E t_sec dt target find ask n o low high tol q HI H ans.
  assert (GA : good ask). { unfold searches, lift_searches, drag_searches in HI. cbn in HI. intuition (match goal with X : (_, _) = (_, _) |- _ => injection X as <- <- end; first [apply good_hits|apply good_hits2]). }
  assert (HIs := HI). unfold searches in HI. apply in_app_or in HI. destruct HI as [HI|HI].
  - assert (EF : find n o low high tol = limit_search ask tol n o low high).
    { unfold lift_searches in HI. cbn in HI. intuition (match goal with X : (_, _) = (_, _) |- _ => injection X as <- <- end; reflexivity). }
    rewrite EF in H. unfold limit_search in H.
    destruct (search_spec ask o tol n low high _ GA eq_refl) as [(g & e & o' & Q & W & A & S)|[(a & o' & Q & A1 & A2 & R)|(Op & [(o' & T & R & Q)|[(k & lo & hi & o' & K1 & K2 & K3 & K4 & K5 & K6 & K7 & K8 & K9 & R & Q)|(Q & T)]])]]; rewrite Q in H; cbn [then_ call bound] in H; subst q.
    + left. exists g, e, o'. destruct S as (S1 & S2 & S3). repeat (split; [first [reflexivity|assumption]|]). left. split; auto.
    + right; left. exists a. eexists. split; [reflexivity|]. split; [exact A1|]. split; [exact A2|]. apply restore_lift; auto.
    + right; right. split; auto. left. eexists. split; [exact T|]. split; [|reflexivity]. apply restore_lift; auto.
    + right; right. split; auto. right; left. exists k, lo, hi. eexists. do 9 (split; [eassumption|]). split; [|reflexivity]. apply restore_lift; auto.
    + right; right. split; auto.
  - assert (EF : find n o low high tol = efpa_search ask tol n o low high).
    { unfold drag_searches in HI. cbn in HI. intuition (match goal with X : (_, _) = (_, _) |- _ => injection X as <- <- end; reflexivity). }
    assert (LD : forall g, answer_at ask (set_LD o 0) g = ans g).
    { intros g. unfold drag_searches in HI. cbn in HI. unfold ans. change (answer_at ask (set_LD o 0) g) with (answer ask (set_LD o 0) g). intuition (match goal with X : (_, _) = (_, _) |- _ => injection X as <- <- end; apply ans_LD). }
    assert (LDo : forall g1 g2, opposite (answer_at ask (set_LD o 0)) g1 g2 -> opposite ans g1 g2) by (intros g1 g2; unfold opposite; rewrite !LD; auto).
    rewrite EF in H. unfold efpa_search in H.
    destruct (search_spec ask (set_LD o 0) tol n low high _ GA eq_refl) as [(g & e & o' & Q & W & A & S)|[(a & o' & Q & A1 & A2 & R)|(Op & [(o' & T & R & Q)|[(k & lo & hi & o' & K1 & K2 & K3 & K4 & K5 & K6 & K7 & K8 & K9 & R & Q)|(Q & T)]])]]; rewrite Q in H; cbn [then_ call bound] in H; subst q.
    + left. exists g, e, o'. destruct S as (S1 & S2 & S3). rewrite LD in A. repeat (split; [first [reflexivity|assumption]|]). right. split; auto.
    + right; left. exists a. eexists. split; [reflexivity|]. rewrite LD in A1, A2. split; [exact A1|]. split; [exact A2|]. apply restore_drag; auto.
    + right; right. split; auto. left. eexists. split; [exact T|]. split; [|reflexivity]. apply restore_drag; auto.
    + right; right. split; auto. right; left. exists k, lo, hi. eexists. do 8 (split; [eassumption|]). split; [auto|]. split; [|reflexivity]. apply restore_drag; auto.
    + right; right. split; auto.
Qed.

(** * C48 *)
(** A search that returns a limit returns a true boundary of the predicate in the bracket; it reports
    failure exactly when the ends of the bracket got the same answer. *)
Theorem C48_limit_is_a_boundary : forall E t_sec dt target find ask n o o' low high tol lim flag, In (find, ask) (searches E t_sec dt target) ->
  find n o low high tol = Some (o', Ok (lim, flag)) -> is_limit (answer ask o) low high tol lim flag.
Proof.
  intros E t_sec dt target find ask n o o' low high tol lim flag HI H.
  destruct (search_outcome _ _ _ _ _ _ _ _ _ _ _ _ HI H) as [(g & e & o1 & Q & _)|[(a & o1 & Q & A1 & A2 & R)|(Op & [(o1 & T & R & Q)|[(k & lo & hi & o1 & K1 & K2 & K3 & K4 & K5 & K6 & K7 & K8 & K9 & R & Q)|(Q & T)]])]]; try discriminate.
  - right. injection Q as _ <- <-. repeat split; auto. exists a. auto.
  - left. injection Q as _ <- <-. split; auto. split; auto. exists lo. repeat split; auto; try apply K6; apply K5.
Qed.
(** With a positive tolerance it ends: [n] rounds are enough as soon as the width is at most tol * 2^n. *)
Theorem C48_terminates : forall E t_sec dt target find ask n o low high tol, In (find, ask) (searches E t_sec dt target) ->
  Rabs (high - low) <= tol * 2 ^ n -> find n o low high tol <> None.
Proof.
  intros E t_sec dt target find ask n o low high tol HI Hw H.
  destruct (search_outcome _ _ _ _ _ _ _ _ _ _ _ _ HI H) as [(g & e & o1 & Q & _)|[(a & o1 & Q & A1 & A2 & R)|(Op & [(o1 & T & R & Q)|[(k & lo & hi & o1 & K1 & K2 & K3 & K4 & K5 & K6 & K7 & K8 & K9 & R & Q)|(Q & T)]])]]; try discriminate.
  assert (0 < 2 ^ n) by (apply pow_lt; lra). apply (Rmult_lt_compat_r (2 ^ n)) in T; auto. unfold Rdiv in T. rewrite Rmult_assoc, Rinv_l in T by lra. lra.
Qed.
(** It ends only then: the number of rounds is exactly the least n with width <= tol * 2^n. *)
Theorem C48_rounds_exact : forall E t_sec dt target find ask n o low high tol, In (find, ask) (searches E t_sec dt target) ->
  opposite (answer ask o) low high -> (forall g, within low high g -> exists a, answer ask o g = Ok a) ->
  (find n o low high tol = None <-> tol * 2 ^ n < Rabs (high - low)).
Proof.
  intros E t_sec dt target find ask n o low high tol HI Hop Hok. assert (Hp : 0 < 2 ^ n) by (apply pow_lt; lra).
  split; intros H.
  - destruct (Rlt_le_dec (tol * 2 ^ n) (Rabs (high - low))) as [L|L]; auto. exfalso. exact (C48_terminates _ _ _ _ _ _ _ _ _ _ _ HI L H).
  - destruct (search_outcome _ _ _ _ _ _ n o low high tol _ HI eq_refl) as [(g & e & o1 & Q & W & A & _)|[(a & o1 & Q & A1 & A2 & R)|(Op & [(o1 & T & R & Q)|[(k & lo & hi & o1 & K1 & K2 & K3 & K4 & K5 & K6 & K7 & K8 & K9 & R & Q)|(Q & T)]])]]; rewrite Q; auto; exfalso.
    + destruct (Hok _ W) as (a & Ea). congruence.
    + destruct Hop as [(P1 & P2)|(P1 & P2)]; rewrite P1 in A1; rewrite P2 in A2; injection A1 as <-; injection A2 as A2; lra.
    + pose proof (pow_R1_Rle 2 n ltac:(lra)). assert (0 <= Rabs (high - low)) by apply Rabs_pos. nra.
    + rewrite K3 in K4. assert (Hk : 0 < 2 ^ k) by (apply pow_lt; lra). apply (Rmult_le_compat_r (2 ^ k)) in K4; [|lra]. unfold Rdiv in K4. rewrite Rmult_assoc, Rinv_l in K4 by lra.
      assert (2 ^ k <= 2 ^ n) by (apply Rle_pow; [lra|lia]). assert (0 <= Rabs (high - low)) by apply Rabs_pos. destruct (Rle_lt_dec 0 tol); nra.
Qed.
(** A predicate with a single change of answer b in the bracket: the limit is b or up to one tolerance above it. *)
Theorem C48_unique_boundary : forall E t_sec dt target find ask n o low high tol b s, In (find, ask) (searches E t_sec dt target) ->
  low < b < high -> only_change (answer ask o) low high b s -> (exists a, answer ask o b = Ok a) -> tol < high - low <= tol * 2 ^ n ->
  exists o' lim, find n o low high tol = Some (o', Ok (lim, 1)) /\ b <= lim <= b + tol.
Proof.
  intros E t_sec dt target find ask n o low high tol b s HI Hb (_ & Hs & Hlo & Hhi) (ab & Hab) Ht.
  assert (Ab : Rabs (high - low) = high - low) by (apply Rabs_pos_eq; lra).
  assert (Hok : forall g, within low high g -> exists a, answer ask o g = Ok a).
  { intros g. unfold within. rewrite Rmin_left, Rmax_right by lra. intros W. destruct (Rtotal_order g b) as [L|[->|L]]; [exists s; apply Hlo; lra|exists ab; auto|exists (- s); apply Hhi; lra]. }
  destruct (search_outcome _ _ _ _ _ _ n o low high tol _ HI eq_refl) as [(g & e & o1 & Q & W & A & _)|[(a & o1 & Q & A1 & A2 & R)|(Op & [(o1 & T & R & Q)|[(k & lo & hi & o1 & K1 & K2 & K3 & K4 & K5 & K6 & K7 & K8 & K9 & R & Q)|(Q & T)]])]].
  - destruct (Hok _ W) as (a & Ea). congruence.
  - rewrite Hlo in A1 by lra. rewrite Hhi in A2 by lra. injection A1 as <-. injection A2 as A2. destruct Hs; subst; lra.
  - lra.
  - exists o1, hi. split; [exact Q|]. specialize (K7 ltac:(lra)). rewrite Rabs_pos_eq in K4 by lra. unfold within in K5, K6. rewrite Rmin_left, Rmax_right in K5, K6 by lra.
    assert (N : forall x y, answer ask o lo = Ok x -> answer ask o hi = Ok y -> x <> y). { intros x y E1 E2. destruct K9 as [(P1 & P2)|(P1 & P2)]; rewrite P1 in E1; rewrite P2 in E2; injection E1 as <-; injection E2 as <-; lra. }
    assert (b <= hi). { apply Rnot_lt_le. intros L. apply (N s s); [apply Hlo; lra|apply Hlo; lra|auto]. }
    assert (lo <= b). { apply Rnot_lt_le. intros L. apply (N (- s) (- s)); [apply Hhi; lra|apply Hhi; lra|auto]. }
    lra.
  - exfalso. refine (C48_terminates _ _ _ _ _ _ n o low high tol HI _ Q). lra.
Qed.
(** Without a positive tolerance a search that has a boundary in its bracket never ends. *)
Theorem C48_never_ends_without_tolerance : forall E t_sec dt target find ask n o low high tol, In (find, ask) (searches E t_sec dt target) ->
  opposite (answer ask o) low high -> (forall g, within low high g -> exists a, answer ask o g = Ok a) -> tol <= 0 -> find n o low high tol = None.
Proof.
  intros E t_sec dt target find ask n o low high tol HI Hop Hok Ht. apply (C48_rounds_exact _ _ _ _ _ _ _ _ _ _ _ HI Hop Hok).
  assert (low <> high). { intros ->. destruct Hop as [(P1 & P2)|(P1 & P2)]; rewrite P1 in P2; injection P2 as P2; lra. }
  assert (0 < Rabs (high - low)) by (apply Rabs_pos_lt; lra). assert (0 < 2 ^ n) by (apply pow_lt; lra). nra.
Qed.

(** * C49 *)
Theorem C49_restored : forall E t_sec dt target find ask n o o' low high tol r, In (find, ask) (searches E t_sec dt target) ->
  find n o low high tol = Some (o', Ok r) -> gamma0_deg (ob_init o') = gamma0_deg (ob_init o) /\ ob_init o' = ob_init o /\ ob_veh o' = ob_veh o /\ ob_tol o' = ob_tol o.
Proof.
  intros E t_sec dt target find ask n o o' low high tol r HI H.
  assert (S : same o o'); [|destruct S as (-> & -> & ->); auto].
  destruct (search_outcome _ _ _ _ _ _ _ _ _ _ _ _ HI H) as [(g & e & o1 & Q & _)|[(a & o1 & Q & A1 & A2 & R)|(Op & [(o1 & T & R & Q)|[(k & lo & hi & o1 & K1 & K2 & K3 & K4 & K5 & K6 & K7 & K8 & K9 & R & Q)|(Q & T)]])]]; try discriminate; injection Q as <- _; auto.
Qed.
(** A bracket already within the tolerance, with a boundary inside: the search raises (its result
    variables were never assigned), after having restored the angle. *)
Theorem C49_narrow_bracket_raises : forall E t_sec dt target find ask n o low high tol, In (find, ask) (searches E t_sec dt target) ->
  opposite (answer ask o) low high -> Rabs (high - low) <= tol ->
  exists o', find n o low high tol = Some (o', Err UnboundLocalError) /\ ob_init o' = ob_init o /\ ob_veh o' = ob_veh o.
Proof.
  intros E t_sec dt target find ask n o low high tol HI Hop Hw.
  assert (WR : forall g, low = g \/ high = g -> True) by auto. clear WR.
  (* the two evaluations at the ends of the bracket do not raise and the loop body is not run *)
  assert (GA : good ask). { unfold searches, lift_searches, drag_searches in HI. cbn in HI. intuition (match goal with X : (_, _) = (_, _) |- _ => injection X as <- <- end; first [apply good_hits|apply good_hits2]). }
  assert (K : forall o0, opposite (answer_at ask o0) low high -> exists o', search ask tol n o0 low high = Some (o', Ok None) /\ reached o0 o').
  { intros o0 Op. assert (R0 : reached o0 o0) by (exists (gamma0_deg (ob_init o0)); apply same_sym, set_own). unfold search.
    destruct (call_case ask GA o0 o0 low (fun o ans1 => call (ask (set_gamma0 o high)) (fun o ans2 => if Rltb (ans1 * ans2) 0 then bisect ask tol n o low high None else Some (o, Ok (Some (0, 0))))) _ R0 eq_refl) as [(e & o1 & A & _)|(a1 & o1 & A1 & P1 & R1 & _ & H1)].
    { exfalso. destruct Op as [(P & _)|(P & _)]; congruence. }
    rewrite <- H1. destruct (call_case ask GA o0 o1 high (fun o ans2 => if Rltb (a1 * ans2) 0 then bisect ask tol n o low high None else Some (o, Ok (Some (0, 0)))) _ R1 eq_refl) as [(e & o2 & A & _)|(a2 & o2 & A2 & P2 & R2 & _ & H2)].
    { exfalso. destruct Op as [(_ & P)|(_ & P)]; congruence. }
    rewrite <- H2. destruct (Rltb_spec (a1 * a2) 0) as [C|C].
    - exists o2. split; auto. destruct n; cbn [bisect]; destruct (Rltb_spec tol (Rabs (high - low))); auto; lra.
    - exfalso. destruct Op as [(Q1 & Q2)|(Q1 & Q2)]; rewrite Q1 in A1; rewrite Q2 in A2; injection A1 as <-; injection A2 as <-; lra. }
  assert (HIs := HI). unfold searches in HI. apply in_app_or in HI. destruct HI as [HI|HI].
  - assert (EF : find n o low high tol = limit_search ask tol n o low high).
    { unfold lift_searches in HI. cbn in HI. intuition (match goal with X : (_, _) = (_, _) |- _ => injection X as <- <- end; reflexivity). }
    destruct (K o Hop) as (o' & Es & R). rewrite EF. unfold limit_search. rewrite Es. cbn [then_ call bound]. eexists. split; [reflexivity|]. destruct (restore_lift _ _ R) as (S1 & S2 & S3). auto.
  - assert (EF : find n o low high tol = efpa_search ask tol n o low high).
    { unfold drag_searches in HI. cbn in HI. intuition (match goal with X : (_, _) = (_, _) |- _ => injection X as <- <- end; reflexivity). }
    assert (LD : forall g, answer_at ask (set_LD o 0) g = answer ask o g).
    { intros g. unfold drag_searches in HI. cbn in HI. change (answer_at ask (set_LD o 0) g) with (answer ask (set_LD o 0) g). intuition (match goal with X : (_, _) = (_, _) |- _ => injection X as <- <- end; apply ans_LD). }
    assert (Op : opposite (answer_at ask (set_LD o 0)) low high) by (unfold opposite in *; rewrite !LD; auto).
    destruct (K _ Op) as (o' & Es & R). rewrite EF. unfold efpa_search. rewrite Es. cbn [then_ call bound]. eexists. split; [reflexivity|]. destruct (restore_drag _ _ R) as (S1 & S2 & S3). auto.
Qed.
(** Any other exception comes from the predicate at a trial angle inside the bracket, and that angle is
    what the vehicle is left with; a drag-modulation search also leaves the lift-to-drag ratio at 0. *)
Theorem C49_crash_leaves_trial_angle : forall E t_sec dt target find ask n o o' low high tol e, In (find, ask) (searches E t_sec dt target) ->
  find n o low high tol = Some (o', Err e) ->
  (e = UnboundLocalError /\ Rabs (high - low) <= tol /\ opposite (answer ask o) low high /\ ob_init o' = ob_init o /\ ob_veh o' = ob_veh o) \/
  (exists g, within low high g /\ answer ask o g = Err e /\ ob_init o' = with_gamma0 (ob_init o) g /\
    (In (find, ask) (lift_searches E t_sec dt target) /\ ob_veh o' = ob_veh o \/ In (find, ask) (drag_searches E t_sec dt target) /\ ob_veh o' = with_LD (ob_veh o) 0)).
Proof.
  intros E t_sec dt target find ask n o o' low high tol e HI H.
  destruct (search_outcome _ _ _ _ _ _ _ _ _ _ _ _ HI H) as [(g & e1 & o1 & Q & W & A & S1 & S2 & S3)|[(a & o1 & Q & A1 & A2 & R)|(Op & [(o1 & T & R & Q)|[(k & lo & hi & o1 & K1 & K2 & K3 & K4 & K5 & K6 & K7 & K8 & K9 & R & Q)|(Q & T)]])]]; try discriminate.
  - right. injection Q as <- <-. exists g. auto.
  - left. injection Q as <- <-. destruct R as (R1 & R2 & R3). auto.
Qed.

(** * C51 *)
(** The last point a propagation keeps exists and is not below the surface. *)
Lemma terminal_above : forall solve name o t_sec dt delta_deg h0 o', solver_ok solve -> Planet name = Ok (vh_planet (ob_veh o)) ->
  store o (fly solve (ob_veh o) (ob_tol o) (ob_init o) t_sec dt delta_deg) h0 = (o', Ok tt) ->
  exists f, ob_flight o' = Some f /\ (1 <= f_index f)%nat /\ length (c_r (f_si f)) = f_index f /\ length (c_v (f_si f)) = f_index f /\ RP (vh_planet (ob_veh o)) <= x_r (terminal f).
Proof.
  intros solve name o t_sec dt delta_deg h0 o' HS HP H. destruct (Planet_facts _ _ HP) as (HRP & HGM & _ & _ & (Htr & Hts) & _).
  set (V := ob_veh o) in *. set (p := vh_planet V) in *. unfold fly, store in H. fold p in H.
  destruct (solve V (ob_tol o) (entry_state p (ob_init o)) t_sec dt (deg delta_deg)) as [c0|] eqn:Es; cbn [rbind] in H; [|discriminate H]. cbn [rbind] in H.
  destruct (post V (deg delta_deg) c0) as [f|] eqn:Ep; [|discriminate].
  destruct (ocumtrapz _ _ _) as [h|] eqn:Eh; [|discriminate]. assert (Ho : set_heat (set_flight o f) h = o') by (apply (f_equal fst) in H; exact H). subst o'. clear H.
  destruct (ocumtrapz_inv _ _ _ _ Eh) as (Hne & Hl & _). exists f. split; [reflexivity|].
  destruct (HS _ _ _ _ _ _ _ Es) as (n & Len & _).
  destruct (post_inv _ _ _ _ Ep) as (cls & qc & qr & Ec & Ei & Efl & Esi & _ & _ & _ & _ & _ & Qc & Qr & E1 & E2 & E3). cbv zeta in *. change (vh_planet V) with p in Ec, Esi.
  pose proof (dim_len p _ _ Len) as (N1 & N2 & N3 & N4 & N5 & N6 & N7 & N8). set (c := dimensionalize_traj p c0) in *.
  destruct cls as [i fl]. cbn [fst snd] in *. destruct (C42_retained _ _ _ _ _ HP Ec) as (Hidx & F1 & F2 & F3 & _).
  destruct (C42_classification _ _ _ _ _ HP Ec) as (Fl & _). cbv zeta in Fl.
  assert (LR : length (c_r (f_si f)) = i) by (rewrite Esi; cbn [c_r]; apply (firstn_min_len _ n); lia).
  assert (LV : length (c_v (f_si f)) = i) by (rewrite Esi; cbn [c_v]; apply (firstn_min_len _ n); lia).
  assert (LVR : length (c_v (f_si f)) = length (c_r (f_si f))) by congruence.
  assert (Lq : length (f_qtot f) = i). { rewrite E3. apply vsum_length; [rewrite (heat_len _ _ _ _ _ LVR Qc)|rewrite (heat_len _ _ _ _ _ LVR Qr)]; auto. }
  assert (H1 : (1 <= i)%nat). { destruct (f_qtot f); [congruence|]. cbn [length] in Lq. lia. }
  rewrite Ei. split; [lia|]. split; [lia|]. split; [lia|].
  unfold terminal. cbn [x_r]. rewrite Ei, Esi. cbn [c_r]. rewrite nth_firstn by lia.
  destruct Fl as [->|[->| ->]].
  - specialize (F1 eq_refl (i - 1)%nat ltac:(lia)). lra.
  - specialize (F3 eq_refl (i - 1)%nat ltac:(lia)). lra.
  - specialize (F2 eq_refl (i - 1)%nat ltac:(lia)). lra.
Qed.

Lemma is_apo_sq : forall mu E h h' ra, h * h = h' * h' -> is_apoapsis mu E h ra -> is_apoapsis mu E h' ra.
Proof. intros mu E h h' ra Hh. unfold is_apoapsis, can_be_at, radial_speed_sq. rewrite Hh. auto. Qed.
(** An orbit with non-negative energy has no farthest point. *)
Lemma no_apoapsis : forall mu E h ra, 0 < mu -> 0 <= E -> ~ is_apoapsis mu E h ra.
Proof.
  intros mu E h ra Hm HE ((Hp & A) & B). assert (A' : can_be_at mu E h ra) by (split; auto). apply can_be_at_poly in A'; auto.
  assert (can_be_at mu E h (ra + 1)) by (apply can_be_at_poly; nra). apply B in H. lra.
Qed.
Lemma apo_answer_spec : forall p target r v g, 0 < GM p -> 0 < r -> let E := v * v / 2 - GM p / r in
  (apo_answer p target r v (Some g) = -1 <-> 0 <= E \/ exists ra, is_apoapsis (GM p) E (r * v * cos g) ra /\ target <= (ra - RP p) / 1000).
Proof.
  intros p target r v g HGM Hr E. destruct (scalar_elements p r v g HGM Hr) as (E1 & E2 & e & E3 & He & Hee). cbv zeta in *. fold E in E1, E3, Hee.
  set (h := r * v * cos g) in *. unfold apo_answer. rewrite E1. destruct (Req_dec E 0) as [Z|Z].
  { unfold computeSemiMajorAxisScalar, np_div. destruct (Reqb_spec (2 * E) 0); [|lra]. split; auto. intros _. left. lra. }
  rewrite semi_major by auto. cbn [obind]. rewrite E2, E3. cbn [obind]. set (a := - GM p / (2 * E)).
  destruct (Rlt_le_dec E 0) as [L|L].
  - pose proof (apoapsis_formula (GM p) E h e HGM He Hee L) as A. fold a in A.
    assert (Ha : 0 < a). { unfold a. replace (- GM p / (2 * E)) with (GM p / (- (2 * E))) by (field; lra). apply Rdiv_lt_0_compat; lra. }
    destruct (Rltb_spec a 0); [lra|]. rewrite Bool.orb_false_r. destruct (Rleb_spec target ((a * (1 + e) - RP p) / 1e3)) as [T|T].
    + split; auto. intros _. right. exists (a * (1 + e)). split; auto. lra.
    + split; [lra|]. intros [K|(ra & K & T')]; [lra|]. rewrite (apoapsis_unique _ _ _ _ _ K A) in T'. lra.
  - assert (Ha : a < 0). { unfold a. assert (0 < GM p / (2 * E)) by (apply Rdiv_lt_0_compat; lra). replace (- GM p / (2 * E)) with (- (GM p / (2 * E))) by (field; lra). lra. }
    destruct (Rltb_spec a 0); [|lra]. rewrite Bool.orb_true_r. split; auto.
Qed.
Lemma low_override_spec : forall p r a ans, low_override p r a = Ok ans -> a = 1 \/ a = -1 ->
  (ans = 1 \/ ans = -1) /\ exists hl, h_low p = Some hl /\ (ans = -1 <-> hl <= r - RP p /\ a = -1).
Proof.
  intros p r a ans H Ha. unfold low_override in H. destruct (h_low p) as [hl|]; [|discriminate]. destruct (Rltb_spec ((r - RP p) / 1000) (hl / 1000)) as [L|L]; injection H as <-.
  - split; auto. exists hl. split; auto. split; [lra|]. lra.
  - split; auto. exists hl. split; auto. split; [intros ->; split; [lra|auto]|tauto].
Qed.

(** The state the decision is made on: the last point of the flight the call stored. *)
Definition last_state (o : vobj) (x : exit_state) : Prop := exists f, ob_flight o = Some f /\ (1 <= f_index f)%nat /\
  let '(_, s) := point (f_si f) (f_index f - 1) in
  x = mkExit (s_r s) (s_theta s) (s_phi s) (s_v s) (s_gamma s) (s_psi s).
Definition rel_energy (p : planet) (x : exit_state) : R := energy (GM p) (sph_pos (x_r x) (x_theta x) (x_phi x)) (rel_vel (x_v x) (x_g x) (x_psi x) (x_theta x) (x_phi x)).
Definition rel_momentum (x : exit_state) : R := norm (ang_mom (sph_pos (x_r x) (x_theta x) (x_phi x)) (rel_vel (x_v x) (x_g x) (x_psi x) (x_theta x) (x_phi x))).
Definition true_vel (p : planet) (x : exit_state) : vec := inertial_vel (OMEGA p) (x_r x) (x_v x) (x_g x) (x_psi x) (x_theta x) (x_phi x).
Definition true_energy (p : planet) (x : exit_state) : R := energy (GM p) (sph_pos (x_r x) (x_theta x) (x_phi x)) (true_vel p x).
Definition true_momentum (p : planet) (x : exit_state) : R := norm (ang_mom (sph_pos (x_r x) (x_theta x) (x_phi x)) (true_vel p x)).

Lemma rel_energy_eq : forall p x, 0 < x_r x -> rel_energy p x = x_v x * x_v x / 2 - GM p / x_r x.
Proof. intros. unfold rel_energy. rewrite energy_norm, norm_sq, rel_speed; auto. Qed.

Lemma energy_nth : forall p rc vc k, (k < length rc)%nat -> (k < length vc)%nat -> 0 < nth k rc 0 ->
  nth k (computeEnergy p rc vc) None = Some (-1 * GM p / nth k rc 0 + 0.5 * nth k vc 0 ^ 2).
Proof.
  intros p rc. unfold computeEnergy. induction rc as [|r rc IH]; intros [|v vc] [|k] H1 H2 H3; cbn [length] in *; try lia.
  - cbn [combine map nth fst snd] in *. rewrite np_div_some by lra. reflexivity.
  - cbn [combine map nth] in *. apply IH; auto; lia.
Qed.
Theorem C51_captured : forall E name o t_sec dt d o' ans, engine_ok E -> Planet name = Ok (vh_planet (ob_veh o)) -> isCaptured E o t_sec dt d = (o', Ok ans) ->
  exists x, last_state o' x /\ RP (vh_planet (ob_veh o)) <= x_r x /\ (ans = -1 \/ ans = 1) /\ (ans = -1 <-> rel_energy (vh_planet (ob_veh o)) x < 0).
Proof.
  intros E name o t_sec dt d o' ans HE HP H. destruct (Planet_facts _ _ HP) as (HRP & HGM & _). unfold isCaptured in H.
  destruct (propogateEntry E o t_sec dt d) as [o1 [[]|e]] eqn:Hp; [|discriminate]. cbn [ask_flight] in H.
  destruct (terminal_above _ _ _ _ _ _ _ _ (solver1_ok E HE) HP Hp) as (f & Ef & Hi & LR & LV & Hr). rewrite Ef in H.
  set (p := vh_planet (ob_veh o)) in *. exists (terminal f).
  assert (Eo : o1 = o') by (match goal with X : context [match ?m with Some _ => _ | None => _ end] |- _ => destruct m end; injection H as <- _; auto). subst o1.
  split; [exists f; split; [exact Ef|]; split; [exact Hi|reflexivity]|]. split; [exact Hr|].
  rewrite rel_energy_eq by lra.
  rewrite energy_nth in H by (try lia; fold (x_r (terminal f)); change (nth (f_index f - 1) (c_r (f_si f)) 0) with (x_r (terminal f)); lra).
  change (nth (f_index f - 1) (c_r (f_si f)) 0) with (x_r (terminal f)) in H. change (nth (f_index f - 1) (c_v (f_si f)) 0) with (x_v (terminal f)) in H.
  assert (Hinj : forall a b : R, Ok a = Ok b -> a = b) by congruence. apply (f_equal snd) in H. apply Hinj in H. subst ans.
  assert (Q : -1 * GM p / x_r (terminal f) + 0.5 * x_v (terminal f) ^ 2 = x_v (terminal f) * x_v (terminal f) / 2 - GM p / x_r (terminal f)) by (unfold Rdiv; cbn [pow]; lra).
  rewrite Q. match goal with |- context [Rltb ?a 0] => destruct (Rltb_spec a 0) end; split; auto; split; auto; lra.
Qed.

(** Version 1 uses the planet-relative velocity, version 2 the inertial velocity. *)
Theorem C51_hits_target : forall E name o t_sec dt d target o' ans, engine_ok E -> Planet name = Ok (vh_planet (ob_veh o)) ->
  hitsTargetApoapsis E o t_sec dt d target = (o', Ok ans) -> let p := vh_planet (ob_veh o) in
  exists x hl, last_state o' x /\ RP p <= x_r x /\ h_low p = Some hl /\ (ans = -1 \/ ans = 1) /\
    (ans = -1 <-> hl <= x_r x - RP p /\
       (0 <= rel_energy p x \/ exists ra, is_apoapsis (GM p) (rel_energy p x) (rel_momentum x) ra /\ target <= (ra - RP p) / 1000)).
Proof.
  intros E name o t_sec dt d target o' ans HE HP H p. destruct (Planet_facts _ _ HP) as (HRP & HGM & _). fold p in HRP, HGM, HP. unfold hitsTargetApoapsis in H.
  destruct (propogateEntry E o t_sec dt d) as [o1 [[]|e]] eqn:Hp; [|discriminate]. cbn [ask_flight] in H.
  destruct (terminal_above _ _ _ _ _ _ _ _ (solver1_ok E HE) HP Hp) as (f & Ef & Hi & LR & LV & Hr). rewrite Ef in H. fold p in H, Hr.
  set (x := terminal f) in *. assert (Eo : o1 = o') by (apply (f_equal fst) in H; exact H). subst o1.
  assert (H' : low_override p (x_r x) (apo_answer p target (x_r x) (x_v x) (Some (x_g x))) = Ok ans) by (apply (f_equal snd) in H; exact H). clear H. rename H' into H.
  destruct (low_override_spec _ _ _ _ H (apo_pm _ _ _ _ _)) as (Pm & hl & Hl & Q). exists x, hl.
  split; [exists f; split; [exact Ef|]; split; [exact Hi|reflexivity]|]. split; [exact Hr|]. split; [exact Hl|]. split; [tauto|].
  rewrite Q, (apo_answer_spec p target (x_r x) (x_v x) (x_g x) HGM) by lra. rewrite <- rel_energy_eq by lra.
  assert (M : rel_momentum x * rel_momentum x = (x_r x * x_v x * cos (x_g x)) * (x_r x * x_v x * cos (x_g x))) by (apply rel_ang_mom; lra).
  split; (intros (K1 & [K2|(ra & K2 & K3)]); split; auto; right; exists ra; split; auto; eapply is_apo_sq; [|exact K2]; auto).
Qed.
Theorem C51_hits_target2 : forall E name o t_sec dt d target o' ans, engine_ok E -> Planet name = Ok (vh_planet (ob_veh o)) ->
  hitsTargetApoapsis2 E o t_sec dt d target = (o', Ok ans) -> let p := vh_planet (ob_veh o) in
  exists x hl, last_state o' x /\ RP p <= x_r x /\ h_low p = Some hl /\ (ans = -1 \/ ans = 1) /\
    (true_vel p x <> vzero ->
     (ans = -1 <-> hl <= x_r x - RP p /\
       (0 <= true_energy p x \/ exists ra, is_apoapsis (GM p) (true_energy p x) (true_momentum p x) ra /\ target <= (ra - RP p) / 1000))).
Proof.
  intros E name o t_sec dt d target o' ans HE HP H p. destruct (Planet_facts _ _ HP) as (HRP & HGM & _). fold p in HRP, HGM, HP. unfold hitsTargetApoapsis2 in H.
  destruct (propogateEntry2 E o t_sec dt d) as [o1 [[]|e]] eqn:Hp; [|discriminate]. cbn [ask_flight] in H.
  destruct (terminal_above _ _ _ _ _ _ _ _ (solver2_ok E HE) HP Hp) as (f & Ef & Hi & LR & LV & Hr). rewrite Ef in H. fold p in H, Hr.
  set (x := terminal f) in *. assert (Eo : o1 = o') by (apply (f_equal fst) in H; exact H). subst o1.
  assert (H' : low_override p (x_r x) (apo_answer p target (x_r x) (norm (exit_v_ie p x)) (fpa_ie (exit_r_vec x) (exit_v_ie p x))) = Ok ans) by (apply (f_equal snd) in H; exact H). clear H. rename H' into H.
  destruct (low_override_spec _ _ _ _ H (apo_pm _ _ _ _ _)) as (Pm & hl & Hl & Q). exists x, hl.
  split; [exists f; split; [exact Ef|]; split; [exact Hi|reflexivity]|]. split; [exact Hr|]. split; [exact Hl|]. split; [tauto|]. intros Hv.
  assert (Hx : 0 < x_r x) by lra. set (rv := sph_pos (x_r x) (x_theta x) (x_phi x)). set (vv := true_vel p x) in *.
  assert (Evv : exit_v_ie p x = vv) by apply exit_v_ie_spec. assert (Erv : exit_r_vec x = rv) by apply exit_r_vec_spec.
  assert (Nr : norm rv = x_r x) by (apply sph_norm; lra).
  assert (Nz : norm vzero = 0) by (unfold norm, norm2, dot, vzero; cbn [vx vy vz]; replace (0 * 0 + 0 * 0 + 0 * 0) with 0 by ring; apply sqrt_0).
  assert (Hrv : rv <> vzero) by (intros Z; rewrite Z in Nr; lra).
  assert (EE : true_energy p x = norm vv * norm vv / 2 - GM p / x_r x) by (apply energy_norm; auto).
  destruct (fpa_horizontal rv vv Hrv Hv) as (g & Eg & Cg & Sg & _). fold (ang_mom rv vv) in Cg. fold rv in Cg. rewrite Nr in Cg. change (norm (ang_mom rv vv)) with (true_momentum p x) in Cg.
  rewrite Q, Evv, Erv, Eg, (apo_answer_spec p target (x_r x) (norm vv) g HGM) by lra. rewrite <- EE, Cg. reflexivity.
Qed.
(** Neither version can answer for JUPITER and SATURN. *)
Theorem C51_gas_giants_raise : forall E name o t_sec dt d target, name = "JUPITER"%string \/ name = "SATURN"%string -> Planet name = Ok (vh_planet (ob_veh o)) ->
  (forall o', propogateEntry E o t_sec dt d = (o', Ok tt) -> hitsTargetApoapsis E o t_sec dt d target = (o', Err AttributeError)) /\
  (forall o', propogateEntry2 E o t_sec dt d = (o', Ok tt) -> hitsTargetApoapsis2 E o t_sec dt d target = (o', Err AttributeError)) /\
  (forall a, snd (hitsTargetApoapsis E o t_sec dt d target) <> Ok a /\ snd (hitsTargetApoapsis2 E o t_sec dt d target) <> Ok a).
Proof.
  intros E name o t_sec dt d target HN HP. assert (HL : h_low (vh_planet (ob_veh o)) = None) by (destruct HN as [-> | ->]; cbn in HP; injection HP as <-; reflexivity).
  assert (ST : forall f h0 o', store o f h0 = (o', Ok tt) -> exists w, ob_flight o' = Some w).
  { intros [w|e] h0 o' H; unfold store in H; [|discriminate]. destruct (ocumtrapz _ _ _); [|discriminate]. apply (f_equal fst) in H. cbn in H. subst o'. exists w. reflexivity. }
  split; [|split].
  - intros o' H. unfold hitsTargetApoapsis. rewrite H. cbn [ask_flight]. destruct (ST _ _ _ H) as (w & ->). unfold low_override. rewrite HL. reflexivity.
  - intros o' H. unfold hitsTargetApoapsis2. rewrite H. cbn [ask_flight]. destruct (ST _ _ _ H) as (w & ->). unfold low_override. rewrite HL. reflexivity.
  - intros a. unfold hitsTargetApoapsis, hitsTargetApoapsis2, propogateEntry, propogateEntry2. rewrite !(proj1 (proj2 (ask_store _ _ _ _))). unfold low_override. rewrite HL.
    split; destruct (stored _ _); discriminate.
Qed.
(** So every corridor search on them raises, unless the propagation itself raised first. *)
Theorem C51_gas_giant_searches_raise : forall E name o t_sec dt target find ask n low high tol, name = "JUPITER"%string \/ name = "SATURN"%string ->
  Planet name = Ok (vh_planet (ob_veh o)) -> In (find, ask) (searches E t_sec dt target) ->
  exists o' e, find n o low high tol = Some (o', Err e).
Proof.
  intros E name o t_sec dt target find ask n low high tol HN HP HI.
  assert (NO : forall g a, answer ask o g <> Ok a).
  { intros g a. assert (HP' : Planet name = Ok (vh_planet (ob_veh (set_gamma0 o g)))) by exact HP. unfold answer.
    assert (K := fun d => proj2 (proj2 (C51_gas_giants_raise E name _ t_sec dt d target HN HP')) a).
    unfold searches, lift_searches, drag_searches in HI. cbn [In app] in HI. destruct HI as [HI|[HI|[HI|[HI|[HI|[HI|[]]]]]]]; injection HI as <- <-; apply K. }
  destruct (search_outcome _ _ _ _ _ _ n o low high tol _ HI eq_refl) as [(g & e & o1 & Q & W & A & _)|[(a & o1 & Q & A1 & A2 & R)|(Op & _)]].
  - eauto.
  - exfalso. exact (NO _ _ A1).
  - exfalso. destruct Op as [(P1 & _)|(P1 & _)]; exact (NO _ _ P1).
Qed.

(** The hovering engine of [PropTrajectory]: both propagations return and the last point is the initial state. *)
Lemma repeat_nth : forall {A} (x d : A) n k, (k < n)%nat -> nth k (repeat x n) d = x.
Proof. intros A x d n. induction n; intros [|k] H; cbn; try lia; auto. apply IHn. lia. Qed.
Lemma laws_exist : forall name p, Planet name = Ok p -> exists c r, con_law (ID p) = Some c /\ rad_law (ID p) = Some r.
Proof.
  intros name p H. unfold Planet in H.
  repeat match type of H with context [string_dec ?a ?b] => destruct (string_dec a b); [injection H as <-; cbn; eauto|] end. discriminate.
Qed.
Definition start_state (p : planet) (i : init) : exit_state :=
  mkExit (computeR p (h0_km i * 1e3)) (deg (theta0_deg i)) (deg (phi0_deg i)) (v0_kms i * 1e3) (deg (gamma0_deg i)) (deg (psi0_deg i)).
Lemma hover_solve : forall V tol x0 t_sec dt d, dt / tau (vh_planet V) <> 0 ->
  exists ts, arange ((t_sec + dt) / tau (vh_planet V)) (dt / tau (vh_planet V)) = Ok ts /\
    solveTrajectory hover V tol x0 t_sec dt d = Ok (channels ts (map (fun _ => x0) ts)) /\
    (ts <> [] -> solveTrajectory2 hover V tol x0 t_sec dt d = Ok (channels ts (map (fun _ => x0) ts))).
Proof.
  intros V tol x0 t_sec dt d H. assert (Ea : exists ts, arange ((t_sec + dt) / tau (vh_planet V)) (dt / tau (vh_planet V)) = Ok ts).
  { unfold arange. destruct (Reqb_spec (dt / tau (vh_planet V)) 0) as [E|E]; [congruence|eauto]. }
  destruct Ea as (ts & Ea). exists ts. split; auto. unfold solveTrajectory, solveTrajectory2. rewrite Ea. cbn [rbind]. split; [reflexivity|]. destruct ts; [congruence|reflexivity].
Qed.
Lemma hover_run : forall name V i tol fl ht t_sec dt d, Planet name = Ok (vh_planet V) -> 0 < dt -> 0 <= t_sec -> heatLoad0 i = 0 ->
  h_trap (vh_planet V) <= h0_km i * 1e3 < h_skip (vh_planet V) -> let o := mkObj V i tol fl ht in
  exists f o', ob_flight o' = Some f /\ (1 <= f_index f)%nat /\ terminal f = start_state (vh_planet V) i /\
    propogateEntry hover o t_sec dt d = (o', Ok tt) /\ propogateEntry2 hover o t_sec dt d = (o', Ok tt).
Proof.
  intros name V i tol fl ht t_sec dt d HP Hdt Ht H0 Hh o. set (p := vh_planet V) in *.
  destruct (Planet_facts _ _ HP) as (HRP & HGM & _ & _ & Htr & _).
  assert (HVr : 0 < Vref p) by (apply sqrt_lt_R0, Rdiv_lt_0_compat; auto). assert (HT : 0 < tau p) by (apply Rdiv_lt_0_compat; auto).
  assert (Hd : 0 < dt / tau p) by (apply Rdiv_lt_0_compat; auto).
  destruct (hover_solve V tol (entry_state p i) t_sec dt (deg d)) as (ts & Ea & S1 & S2); [fold p; lra|]. fold p in Ea.
  destruct (C73_time_grid name p ts t_sec dt HP Hdt Ht Ea) as (_ & Hne & _). specialize (S2 Hne).
  set (x0 := entry_state p i) in *. set (c0 := channels ts (map (fun _ => x0) ts)) in *. set (n := length ts) in *.
  assert (Hn : (1 <= n)%nat) by (unfold n; destruct ts; [congruence|cbn [length]; lia]).
  assert (Len : traj_len (dimensionalize_traj p c0) n) by (apply dim_len, channels_len, map_length).
  assert (Er : c_r (dimensionalize_traj p c0) = repeat (computeR p (h0_km i * 1e3)) n).
  { unfold dimensionalize_traj, c0, channels. cbn [c_r]. rewrite !map_map. unfold n. rewrite <- map_const_repeat. apply map_ext. intros _. unfold x0, entry_state, nonDimState. cbn [s_r]. field. lra. }
  assert (Ec : classifyTrajectory p (c_r (dimensionalize_traj p c0)) = Ok (n, 0)).
  { rewrite Er. destruct n as [|m]; [lia|]. apply hover_classify; auto. unfold computeR. lra. }
  assert (Ef : exists f, post V (deg d) c0 = Ok f).
  { unfold post. fold p. rewrite Ec. cbn [rbind fst snd truncateTrajectory]. unfold qStagConvective, qStagRadiative, heat_history. fold p. destruct (laws_exist _ _ HP) as (c & r & -> & ->). cbn [rbind]. eexists. reflexivity. }
  destruct Ef as (f & Ef).
  destruct (post_inv _ _ _ _ Ef) as (cls & qc & qr & Ec' & Ei & _ & Esi & _ & _ & _ & _ & _ & Qc & Qr & E1 & E2 & E3). cbv zeta in *. change (vh_planet V) with p in Ec', Esi.
  rewrite Ec in Ec'. injection Ec' as <-. cbn [fst snd] in *. destruct Len as (N1 & N2 & N3 & N4 & N5 & N6 & N7 & N8).
  assert (LT : length (c_t (f_si f)) = n) by (rewrite Esi; cbn [c_t]; apply (firstn_min_len _ n); auto).
  assert (LR : length (c_r (f_si f)) = n) by (rewrite Esi; cbn [c_r]; apply (firstn_min_len _ n); auto).
  assert (LV : length (c_v (f_si f)) = length (c_r (f_si f))) by (rewrite LR, Esi; cbn [c_v]; apply (firstn_min_len _ n); auto).
  assert (Lq : length (f_qtot f) = n). { rewrite E3. apply vsum_length; [rewrite (heat_len _ _ _ _ _ LV Qc)|rewrite (heat_len _ _ _ _ _ LV Qr)]; auto. }
  destruct (ocumtrapz_ok (f_qtot f) (c_t (f_si f))) as (h & Eh); [intros Z; rewrite Z in Lq; cbn in Lq; lia|congruence|].
  exists f, (set_heat (set_flight o f) h). split; [reflexivity|]. split; [lia|]. split.
  - unfold terminal, start_state. rewrite Ei, Esi. cbn [c_r c_theta c_phi c_v c_gamma c_psi]. rewrite !nth_firstn by lia.
    unfold dimensionalize_traj, c0, channels. cbn [c_r c_theta c_phi c_v c_gamma c_psi]. rewrite !map_map, !map_const_repeat. fold n. rewrite !repeat_nth by lia.
    unfold x0, entry_state, nonDimState. cbn [s_r s_theta s_phi s_v s_gamma s_psi]. f_equal; field; lra.
  - unfold propogateEntry, propogateEntry2, fly. cbn [ob_veh ob_tol ob_init o]. fold p. fold x0. rewrite S1, S2. cbn [rbind]. rewrite Ef. unfold store. rewrite H0, Eh. split; reflexivity.
Qed.

(** "Captured" is not what an inertial observer sees: at Earth a vehicle leaving eastward at the equator
    with 10.9 km/s relative to the air is reported as captured although it escapes. *)
Definition east_init (v_kms : R) : init := mkInit 100 0 0 v_kms 0 0 0 0.
Theorem C51_inertial_capture_refuted : forall V tol, vh_planet V = EARTH ->
  exists E o t_sec dt d o' x, engine_ok E /\ isCaptured E o t_sec dt d = (o', Ok (-1)) /\ ob_veh o = V /\ ob_tol o = tol /\ last_state o' x /\ 0 < true_energy EARTH x.
Proof.
  intros V tol HV. assert (HP : Planet "EARTH"%string = Ok (vh_planet V)) by (rewrite HV; reflexivity).
  destruct (hover_run _ V (east_init 10.9) tol None None 1 1 0 HP ltac:(lra) ltac:(lra) eq_refl) as (f & o' & Ef & Hi & Et & Hp & _); [rewrite HV; cbn; lra|].
  set (o := mkObj V (east_init 10.9) tol None None) in *. set (x := start_state EARTH (east_init 10.9)).
  assert (LS : last_state o' x). { exists f. split; auto. split; auto. rewrite HV in Et. fold x in Et. cbn [point s_r s_theta s_phi s_v s_gamma s_psi]. rewrite <- Et. reflexivity. }
  assert (D0 : deg 0 = 0) by (unfold deg; lra).
  assert (Ex : x = mkExit 6471e3 0 0 10.9e3 0 0). { unfold x, start_state, east_init. cbn [h0_km theta0_deg phi0_deg v0_kms gamma0_deg psi0_deg]. rewrite D0. unfold computeR. cbn [RP EARTH]. f_equal; lra. }
  assert (EA : exists a, isCaptured hover o 1 1 0 = (o', Ok a)). { unfold isCaptured. rewrite Hp. cbn [ask_flight]. rewrite Ef. destruct (nth _ _ _); eauto. }
  destruct EA as (a & EA). exists hover, o, 1, 1, 0, o', x. split; [apply hover_ok|].
  destruct (C51_captured hover "EARTH"%string o 1 1 0 o' a hover_ok HP EA) as (x' & (f' & Ef' & _ & Ex') & _ & _ & Hc).
  assert (x' = x). { rewrite Ef in Ef'. injection Ef' as <-. cbn [point s_r s_theta s_phi s_v s_gamma s_psi] in Ex'. rewrite Ex'. rewrite HV in Et. fold x in Et. rewrite <- Et. reflexivity. }
  subst x'. change (vh_planet (ob_veh o)) with (vh_planet V) in Hc. rewrite HV in Hc.
  split; [rewrite EA; do 2 f_equal; apply Hc; rewrite rel_energy_eq by (rewrite Ex; cbn [x_r]; lra); rewrite Ex; cbn [x_r x_v GM EARTH]; lra|].
  split; [reflexivity|]. split; [reflexivity|]. split; [exact LS|].
  unfold true_energy, true_vel. rewrite energy_norm by (rewrite Ex; cbn [x_r]; lra). rewrite norm_sq, Ex. cbn [x_r x_v x_g x_psi x_theta x_phi].
  unfold inertial_vel, rel_vel, sph_pos, up_dir, east_dir, north_dir. vsimpl. rewrite !sin_0, !cos_0. cbn [OMEGA GM EARTH]. lra.
Qed.

(** * C50 *)
(** The two versions of the corridor width: the call, the predicate of its overshoot search and that of its undershoot search. *)
Definition tcw_fun := nat -> vobj -> R -> R -> R -> R -> R -> R -> option (vobj * res R).
Definition tcw_versions (E : engine) (t_sec dt target_km : R) : list (tcw_fun * ((vobj -> vobj * res R) * (vobj -> vobj * res R))) :=
  [ (fun n o lo ho lu hu to tu => computeTCW E n o t_sec dt lo ho lu hu to tu target_km,
      (fun o => hitsTargetApoapsis E o t_sec dt 180 target_km, fun o => hitsTargetApoapsis E o t_sec dt 0 target_km));
    (fun n o lo ho lu hu to tu => computeTCW2 E n o t_sec dt lo ho lu hu to tu target_km,
      (fun o => hitsTargetApoapsis2 E o t_sec dt 180 target_km, fun o => hitsTargetApoapsis2 E o t_sec dt 0 target_km)) ].
Lemma answer_same : forall ask o o' g, good ask -> same o o' -> answer ask o g = answer ask o' g.
Proof. intros ask o o' g GA S. unfold answer. apply (g_ext _ GA). apply same_set, same_sym; auto. Qed.
Lemma tcw_split : forall E t_sec dt target tcw over under, In (tcw, (over, under)) (tcw_versions E t_sec dt target) ->
  exists find_o find_u, In (find_o, over) (searches E t_sec dt target) /\ In (find_u, under) (searches E t_sec dt target) /\ good over /\ good under /\
    forall n o lo ho lu hu to tu, tcw n o lo ho lu hu to tu =
      then_ (find_o n o lo ho to) (fun o os => then_ (find_u n o lu hu tu) (fun o us => Some (o, Ok (fst os - fst us)))).
Proof.
  intros E t_sec dt target tcw over under HI. unfold tcw_versions in HI. cbn [In] in HI. destruct HI as [HI|[HI|[]]]; injection HI as <- <- <-.
  - exists (fun n o low high tol => findOverShootLimit E n o t_sec dt low high tol target), (fun n o low high tol => findUnderShootLimit E n o t_sec dt low high tol target).
    split; [cbn; auto|]. split; [cbn; auto|]. split; [apply good_hits|]. split; [apply good_hits|]. reflexivity.
  - exists (fun n o low high tol => findOverShootLimit2 E n o t_sec dt low high tol target), (fun n o low high tol => findUnderShootLimit2 E n o t_sec dt low high tol target).
    split; [cbn; auto|]. split; [cbn; auto 6|]. split; [apply good_hits2|]. split; [apply good_hits2|]. reflexivity.
Qed.
Lemma same_attrs : forall o o', ob_veh o' = ob_veh o -> ob_init o' = ob_init o -> ob_tol o' = ob_tol o -> same o o'.
Proof. intros. repeat split; auto. Qed.
Theorem C50_width : forall E t_sec dt target tcw over under n o o' lo ho lu hu to tu w, In (tcw, (over, under)) (tcw_versions E t_sec dt target) ->
  tcw n o lo ho lu hu to tu = Some (o', Ok w) ->
  ob_init o' = ob_init o /\ ob_veh o' = ob_veh o /\
  exists l_os f_os l_us f_us, w = l_os - l_us /\ is_limit (answer over o) lo ho to l_os f_os /\ is_limit (answer under o) lu hu tu l_us f_us.
Proof.
  intros E t_sec dt target tcw over under n o o' lo ho lu hu to tu w HI H. destruct (tcw_split _ _ _ _ _ _ _ HI) as (fo & fu & I1 & I2 & G1 & G2 & Q). rewrite Q in H.
  destruct (fo n o lo ho to) as [[o1 [[l_os f_os]|e]]|] eqn:E1; try discriminate. cbn [then_ call] in H.
  destruct (fu n o1 lu hu tu) as [[o2 [[l_us f_us]|e]]|] eqn:E2; try discriminate. cbn [then_ call fst] in H. injection H as <- <-.
  destruct (C49_restored _ _ _ _ _ _ _ _ _ _ _ _ _ I1 E1) as (_ & R1 & R2 & R3). destruct (C49_restored _ _ _ _ _ _ _ _ _ _ _ _ _ I2 E2) as (_ & R4 & R5 & R6).
  split; [congruence|]. split; [congruence|]. exists l_os, f_os, l_us, f_us. split; auto. split; [eapply C48_limit_is_a_boundary; eauto|].
  pose proof (C48_limit_is_a_boundary _ _ _ _ _ _ _ _ _ _ _ _ _ _ I2 E2) as L.
  assert (EA : forall g, answer under o1 g = answer under o g) by (intros g; symmetry; apply answer_same; auto; apply same_attrs; auto).
  unfold is_limit, opposite in *. setoid_rewrite EA in L. exact L.
Qed.
(** A search that found no boundary counts as the angle 0: the width is then the other limit, up to sign. *)
Theorem C50_failure_is_silent : forall E t_sec dt target tcw over under n o o' lo ho lu hu to tu w, In (tcw, (over, under)) (tcw_versions E t_sec dt target) ->
  tcw n o lo ho lu hu to tu = Some (o', Ok w) ->
  (answer over o lo = answer over o ho -> exists l f, is_limit (answer under o) lu hu tu l f /\ w = - l) /\
  (answer under o lu = answer under o hu -> exists l f, is_limit (answer over o) lo ho to l f /\ w = l) /\
  (answer over o lo = answer over o ho -> answer under o lu = answer under o hu -> w = 0).
Proof.
  intros E t_sec dt target tcw over under n o o' lo ho lu hu to tu w HI H. destruct (C50_width _ _ _ _ _ _ _ _ _ _ _ _ _ _ _ _ _ HI H) as (_ & _ & l1 & f1 & l2 & f2 & -> & L1 & L2).
  assert (Z : forall ans low high tol l f, is_limit ans low high tol l f -> ans low = ans high -> l = 0).
  { intros ans low high tol l f [(_ & [(P1 & P2)|(P1 & P2)] & _)|(_ & -> & _)] Hs; auto; rewrite P1, P2 in Hs; injection Hs as Hs; lra. }
  split; [|split].
  - intros Hs. rewrite (Z _ _ _ _ _ _ L1 Hs). exists l2, f2. split; auto. lra.
  - intros Hs. rewrite (Z _ _ _ _ _ _ L2 Hs). exists l1, f1. split; auto. lra.
  - intros H1 H2. rewrite (Z _ _ _ _ _ _ L1 H1), (Z _ _ _ _ _ _ L2 H2). lra.
Qed.
(** Both predicates change once, inside their brackets: the width is the distance of the two boundaries,
    up to one tolerance of each search. *)
Theorem C50_true_width : forall E t_sec dt target tcw over under n o lo ho lu hu to tu b_os b_us s_os s_us, In (tcw, (over, under)) (tcw_versions E t_sec dt target) ->
  lo < b_os < ho -> only_change (answer over o) lo ho b_os s_os -> (exists a, answer over o b_os = Ok a) -> to < ho - lo <= to * 2 ^ n ->
  lu < b_us < hu -> only_change (answer under o) lu hu b_us s_us -> (exists a, answer under o b_us = Ok a) -> tu < hu - lu <= tu * 2 ^ n ->
  exists o' w, tcw n o lo ho lu hu to tu = Some (o', Ok w) /\ - tu <= w - (b_os - b_us) <= to.
Proof.
  intros E t_sec dt target tcw over under n o lo ho lu hu to tu b1 b2 s1 s2 HI B1 C1 A1 T1 B2 C2 A2 T2.
  destruct (tcw_split _ _ _ _ _ _ _ HI) as (fo & fu & I1 & I2 & G1 & G2 & Q).
  destruct (C48_unique_boundary _ _ _ _ _ _ n o lo ho to b1 s1 I1 B1 C1 A1 T1) as (o1 & l1 & E1 & R1).
  destruct (C49_restored _ _ _ _ _ _ _ _ _ _ _ _ _ I1 E1) as (_ & P1 & P2 & P3).
  assert (EA : forall g, answer under o1 g = answer under o g) by (intros g; symmetry; apply answer_same; auto; apply same_attrs; auto).
  assert (C2' : only_change (answer under o1) lu hu b2 s2) by (unfold only_change in *; setoid_rewrite EA; exact C2).
  assert (A2' : exists a, answer under o1 b2 = Ok a) by (setoid_rewrite EA; exact A2).
  destruct (C48_unique_boundary _ _ _ _ _ _ n o1 lu hu tu b2 s2 I2 B2 C2' A2' T2) as (o2 & l2 & E2 & R2).
  exists o2, (l1 - l2). split; [|lra]. rewrite Q, E1. cbn [then_ call]. rewrite E2. reflexivity.
Qed.

(** * C62 *)
Definition under_versions (E : engine) (t_sec dt target_km : R) : list (nat -> dm_params -> vobj -> R -> R -> R -> option (vobj * res (R * R))) :=
  [ (fun n dm o low high tol => findUnderShootLimitD E n dm o t_sec dt low high tol target_km);
    (fun n dm o low high tol => findUnderShootLimitD2 E n dm o t_sec dt low high tol target_km) ].
Definition over_versions (E : engine) (t_sec dt target_km : R) : list (nat -> dm_params -> vobj -> R -> R -> R -> option (vobj * res (R * R))) :=
  [ (fun n dm o low high tol => findOverShootLimitD E n dm o t_sec dt low high tol target_km);
    (fun n dm o low high tol => findOverShootLimitD2 E n dm o t_sec dt low high tol target_km) ].
Definition tcwd_versions (E : engine) (t_sec dt target_km : R) : list (nat -> dm_params -> vobj -> R -> R -> R -> option (vobj * res R)) :=
  [ (fun n dm o low high tol => computeTCWD E n dm o t_sec dt low high tol target_km);
    (fun n dm o low high tol => computeTCWD2 E n dm o t_sec dt low high tol target_km) ].
(** Everything else than the ballistic coefficient and CD is the same vehicle. *)
Definition reconfigured (b : R) (V V' : vehicle) : Prop :=
  b * vh_A V <> 0 /\ vh_beta V' = b /\ vh_CD V' = vh_mass V / (b * vh_A V) /\
  vh_mass V' = vh_mass V /\ vh_LD V' = vh_LD V /\ vh_A V' = vh_A V /\ vh_alpha V' = vh_alpha V /\ vh_RN V' = vh_RN V /\ vh_planet V' = vh_planet V /\
  vh_atm V' = vh_atm V /\ vh_user V' = vh_user V /\ vh_CDMach V' = vh_CDMach V /\ vh_Abar V' = vh_Abar V /\ vh_mbar V' = vh_mbar V /\ vh_CL V' = vh_CL V.
Lemma ballistic_ok : forall o b o', set_ballistic o b = (o', Ok tt) -> reconfigured b (ob_veh o) (ob_veh o') /\ ob_init o' = ob_init o /\ ob_tol o' = ob_tol o.
Proof.
  intros o b o' H. unfold set_ballistic in H. destruct (Reqb_spec (b * vh_A (with_beta (ob_veh o) b)) 0) as [Z|Z]; [discriminate|]. apply (f_equal fst) in H. cbn [fst] in H. subst o'.
  split; [|split; reflexivity]. split; [exact Z|]. repeat split.
Qed.
Lemma drag_in : forall E t_sec dt target find ask, In (find, ask) (drag_searches E t_sec dt target) -> In (find, ask) (searches E t_sec dt target).
Proof. intros. unfold searches. apply in_or_app; auto. Qed.
Lemma under_call : forall E t_sec dt target q, In q (under_versions E t_sec dt target) -> exists find ask, In (find, ask) (drag_searches E t_sec dt target) /\
  (In (fun n dm o low high tol => overshootD (fun o => find n o low high tol) dm o) (over_versions E t_sec dt target)) /\
  forall n dm o low high tol, q n dm o low high tol = undershootD (fun o => find n o low high tol) dm o.
Proof.
  intros E t_sec dt target q HI. cbn [In under_versions] in HI. destruct HI as [<-|[<-|[]]].
  - exists (fun n o low high tol => findEFPALimitD E n o t_sec dt low high tol target), (fun o => hitsTargetApoapsis E o t_sec dt 0 target). split; [cbn; auto|]. split; [left; reflexivity|]. reflexivity.
  - exists (fun n o low high tol => findEFPALimitD2 E n o t_sec dt low high tol target), (fun o => hitsTargetApoapsis2 E o t_sec dt 0 target). split; [cbn; auto|]. split; [right; left; reflexivity|]. reflexivity.
Qed.
Lemma over_call : forall E t_sec dt target q, In q (over_versions E t_sec dt target) -> exists find ask, In (find, ask) (drag_searches E t_sec dt target) /\
  forall n dm o low high tol, q n dm o low high tol = overshootD (fun o => find n o low high tol) dm o.
Proof.
  intros E t_sec dt target q HI. cbn [In over_versions] in HI. destruct HI as [<-|[<-|[]]].
  - exists (fun n o low high tol => findEFPALimitD E n o t_sec dt low high tol target), (fun o => hitsTargetApoapsis E o t_sec dt 0 target). split; [cbn; auto|]. reflexivity.
  - exists (fun n o low high tol => findEFPALimitD2 E n o t_sec dt low high tol target), (fun o => hitsTargetApoapsis2 E o t_sec dt 0 target). split; [cbn; auto|]. reflexivity.
Qed.
Lemma reconf_search : forall E t_sec dt target find ask n o o' b low high tol l f, In (find, ask) (drag_searches E t_sec dt target) ->
  call (set_ballistic o b) (fun o _ => find n o low high tol) = Some (o', Ok (l, f)) ->
  reconfigured b (ob_veh o) (ob_veh o') /\ ob_init o' = ob_init o /\ ob_tol o' = ob_tol o /\
  exists o1, set_ballistic o b = (o1, Ok tt) /\ is_limit (answer ask o1) low high tol l f.
Proof.
  intros E t_sec dt target find ask n o o' b low high tol l f HI H. destruct (set_ballistic o b) as [o1 [[]|e]] eqn:Eb; [|discriminate]. cbn [call] in H.
  destruct (ballistic_ok _ _ _ Eb) as (R1 & R2 & R3). pose proof (drag_in _ _ _ _ _ _ HI) as HI'.
  destruct (C49_restored _ _ _ _ _ _ _ _ _ _ _ _ _ HI' H) as (_ & P1 & P2 & P3). rewrite P2. split; auto. split; [congruence|]. split; [congruence|]. exists o1. split; auto. eapply C48_limit_is_a_boundary; eauto.
Qed.
Lemma then_ok : forall {A B} (r : option (vobj * res A)) (k : vobj -> A -> option (vobj * res B)) o' w, then_ r k = Some (o', Ok w) ->
  exists o1 a, r = Some (o1, Ok a) /\ k o1 a = Some (o', Ok w).
Proof. intros A B [[o1 [a|e]]|] k o' w H; cbn [then_ call] in H; try discriminate. eauto. Qed.
(** The queries leave the configuration they tried last: beta1 * ratio after the undershoot query, beta1
    after the overshoot query and after the corridor width. *)
Theorem C62_queries_reconfigure : forall E t_sec dt target b1 ratio n o o' low high tol r,
  (forall q, In q (under_versions E t_sec dt target) -> q n (Some (b1, ratio)) o low high tol = Some (o', Ok r) -> reconfigured (b1 * ratio) (ob_veh o) (ob_veh o') /\ ob_init o' = ob_init o) /\
  (forall q, In q (over_versions E t_sec dt target) -> q n (Some (b1, ratio)) o low high tol = Some (o', Ok r) -> reconfigured b1 (ob_veh o) (ob_veh o') /\ ob_init o' = ob_init o) /\
  (forall q w, In q (tcwd_versions E t_sec dt target) -> q n (Some (b1, ratio)) o low high tol = Some (o', Ok w) -> reconfigured b1 (ob_veh o) (ob_veh o') /\ ob_init o' = ob_init o).
Proof.
  intros E t_sec dt target b1 ratio n o o' low high tol [l f].
  assert (U : forall q o o' l f, In q (under_versions E t_sec dt target) -> q n (Some (b1, ratio)) o low high tol = Some (o', Ok (l, f)) -> reconfigured (b1 * ratio) (ob_veh o) (ob_veh o') /\ ob_init o' = ob_init o).
  { intros q o1 o2 l1 f1 HI H. destruct (under_call _ _ _ _ _ HI) as (find & ask & I & _ & Q). rewrite Q in H. cbn [undershootD] in H. destruct (reconf_search _ _ _ _ _ _ _ _ _ _ _ _ _ _ _ I H) as (R1 & R2 & _). auto. }
  assert (O : forall q o o' l f, In q (over_versions E t_sec dt target) -> q n (Some (b1, ratio)) o low high tol = Some (o', Ok (l, f)) -> reconfigured b1 (ob_veh o) (ob_veh o') /\ ob_init o' = ob_init o).
  { intros q o1 o2 l1 f1 HI H. destruct (over_call _ _ _ _ _ HI) as (find & ask & I & Q). rewrite Q in H. cbn [overshootD] in H. destruct (reconf_search _ _ _ _ _ _ _ _ _ _ _ _ _ _ _ I H) as (R1 & R2 & _). auto. }
  split; [intros; eapply U; eauto|]. split; [intros; eapply O; eauto|].
  intros q w HI H. assert (S : exists qu qo, In qu (under_versions E t_sec dt target) /\ In qo (over_versions E t_sec dt target) /\
    q n (Some (b1, ratio)) o low high tol = then_ (qu n (Some (b1, ratio)) o low high tol) (fun o us => then_ (qo n (Some (b1, ratio)) o low high tol) (fun o os => Some (o, Ok (fst os - fst us))))).
  { cbn [In tcwd_versions] in HI. destruct HI as [<-|[<-|[]]]; eexists; eexists; (split; [|split]); [left; reflexivity|left; reflexivity|reflexivity|right; left; reflexivity|right; left; reflexivity|reflexivity]. }
  destruct S as (qu & qo & I1 & I2 & Q). rewrite Q in H.
  destruct (qu n (Some (b1, ratio)) o low high tol) as [[o1 [[l1 f1]|e]]|] eqn:E1; try discriminate. cbn [then_ call] in H.
  destruct (qo n (Some (b1, ratio)) o1 low high tol) as [[o2 [[l2 f2]|e]]|] eqn:E2; try discriminate. cbn [then_ call fst] in H. injection H as <- _.
  destruct (U _ _ _ _ _ I1 E1) as (A & A0). destruct (O _ _ _ _ _ I2 E2) as (B & B0). split; [|congruence].
  destruct A as (A1 & A2 & A3 & A4 & A5 & A6 & A7 & A8 & A9 & A10 & A11 & A12 & A13 & A14 & A15). destruct B as (B1 & B2 & B3 & B4 & B5 & B6 & B7 & B8 & B9 & B10 & B11 & B12 & B13 & B14 & B15).
  rewrite A6 in B1. rewrite A4, A6 in B3. unfold reconfigured. repeat (split; [congruence|]). congruence.
Qed.
(** The corridor width of the drag-modulation vehicle is the limit of configuration beta1 less that of beta1 * ratio. *)
Theorem C50_drag_width : forall E t_sec dt target b1 ratio n o o' low high tol w q, In q (tcwd_versions E t_sec dt target) ->
  q n (Some (b1, ratio)) o low high tol = Some (o', Ok w) ->
  exists ask o_us o_os l_us f_us l_os f_os, In ask (map snd (drag_searches E t_sec dt target)) /\ w = l_os - l_us /\
    reconfigured (b1 * ratio) (ob_veh o) (ob_veh o_us) /\ ob_init o_us = ob_init o /\ reconfigured b1 (ob_veh o) (ob_veh o_os) /\ ob_init o_os = ob_init o /\
    is_limit (answer ask o_us) low high tol l_us f_us /\ is_limit (answer ask o_os) low high tol l_os f_os.
Proof.
  intros E t_sec dt target b1 ratio n o o' low high tol w q HI H.
  assert (S : exists find ask, In (find, ask) (drag_searches E t_sec dt target) /\
    q n (Some (b1, ratio)) o low high tol = then_ (call (set_ballistic o (b1 * ratio)) (fun o _ => find n o low high tol)) (fun o us => then_ (call (set_ballistic o b1) (fun o _ => find n o low high tol)) (fun o os => Some (o, Ok (fst os - fst us))))).
  { cbn [In tcwd_versions] in HI. destruct HI as [<-|[<-|[]]].
    - exists (fun n o low high tol => findEFPALimitD E n o t_sec dt low high tol target), (fun o => hitsTargetApoapsis E o t_sec dt 0 target). split; [cbn; auto|reflexivity].
    - exists (fun n o low high tol => findEFPALimitD2 E n o t_sec dt low high tol target), (fun o => hitsTargetApoapsis2 E o t_sec dt 0 target). split; [cbn; auto|reflexivity]. }
  destruct S as (find & ask & I & Q). rewrite Q in H.
  destruct (then_ok _ _ _ _ H) as (o1 & [l1 f1] & E1 & H1). cbv beta in H1. destruct (then_ok _ _ _ _ H1) as (o2 & [l2 f2] & E2 & H2). cbn [fst] in H2. injection H2 as <- <-.
  destruct (reconf_search _ _ _ _ _ _ _ _ _ _ _ _ _ _ _ I E1) as (R1 & R2 & R3 & x1 & R4 & R5). destruct (reconf_search _ _ _ _ _ _ _ _ _ _ _ _ _ _ _ I E2) as (Q1 & Q2 & Q3 & x2 & Q4 & Q5).
  destruct (ballistic_ok _ _ _ R4) as (T1 & T2 & _). destruct (ballistic_ok _ _ _ Q4) as (U1 & U2 & _).
  exists ask, x1, x2, l1, f1, l2, f2. split; [apply in_map_iff; exists (find, ask); split; auto|]. split; auto. split; auto. split; auto. split; [|split; [congruence|split; auto]].
  destruct R1 as (A1 & A2 & A3 & A4 & A5 & A6 & A7 & A8 & A9 & A10 & A11 & A12 & A13 & A14 & A15). destruct U1 as (B1 & B2 & B3 & B4 & B5 & B6 & B7 & B8 & B9 & B10 & B11 & B12 & B13 & B14 & B15).
  rewrite A6 in B1. rewrite A4, A6 in B3. unfold reconfigured. repeat (split; [congruence|]). congruence.
Qed.
(** What the change of configuration means for a vehicle as built: drag is scaled by old over new
    ballistic coefficient while lift stays, so the vehicle no longer has the lift-to-drag ratio it reports. *)
Theorem C62_effect : forall mass beta LD A alpha RN p atm V b V', Vehicle mass beta LD A alpha RN p atm false = Ok V -> reconfigured b V V' ->
  forall r th ph v, exists D D', Drag V r th ph v = Ok D /\ Drag V' r th ph v = Ok D' /\ D' = D * (beta / b) /\
    Lift V' r th ph v = Lift V r th ph v /\ Lift V r th ph v = LD * D /\ vh_LD V' = LD /\ Lift V' r th ph v = LD * (b / beta) * D'.
Proof.
  intros mass beta LD A alpha RN p atm V b V' HV HR r th ph v.
  destruct (Vehicle_inv _ _ _ _ _ _ _ _ _ _ HV) as (Hm & HbA & E1 & E2 & E3 & E4 & E5 & E6 & E7 & E8 & E9 & E10 & E11 & E12).
  destruct HR as (B1 & B2 & B3 & B4 & B5 & B6 & B7 & B8 & B9 & B10 & B11 & B12 & B13 & B14 & B15).
  unfold Drag, CD_scalar, Lift, rho_at. rewrite B11, E8, B9, B10, B6, B3, B15, B5, E3, E10, E11, E1, E4. cbn [rbind]. eexists. eexists. split; [reflexivity|]. split; [reflexivity|].
  rewrite E4 in B1. assert (beta <> 0) by (intros ->; apply HbA; ring). assert (A <> 0) by (intros ->; apply HbA; ring). assert (b <> 0) by (intros ->; apply B1; ring).
  repeat split; field; auto.
Qed.
(** Setting LD to 0 (or to anything) during the search changes no answer, no lift and no drag. *)
Theorem C62_LD_has_no_effect : forall E t_sec dt target find ask o x g, In (find, ask) (searches E t_sec dt target) ->
  answer ask (set_LD o x) g = answer ask o g /\
  (forall r th ph v, Lift (ob_veh (set_LD o x)) r th ph v = Lift (ob_veh o) r th ph v /\ Drag (ob_veh (set_LD o x)) r th ph v = Drag (ob_veh o) r th ph v).
Proof.
  intros E t_sec dt target find ask o x g HI. split; [|intros; split; reflexivity]. unfold answer. change (set_gamma0 (set_LD o x) g) with (set_LD (set_gamma0 o g) x).
  unfold searches, lift_searches, drag_searches in HI. cbn [In app] in HI. destruct HI as [HI|[HI|[HI|[HI|[HI|[HI|[]]]]]]]; injection HI as _ <-; first [apply hits_LD|apply hits2_LD].
Qed.
(** Before setDragModulationVehicleParams every query raises. *)
Theorem C62_parameters_required : forall E t_sec dt target n o low high tol,
  (forall q, In q (under_versions E t_sec dt target ++ over_versions E t_sec dt target) -> q n None o low high tol = Some (o, Err TypeError)) /\
  (forall q, In q (tcwd_versions E t_sec dt target) -> q n None o low high tol = Some (o, Err TypeError)).
Proof.
  intros. split; intros q HI; [cbn [In under_versions over_versions app] in HI; destruct HI as [<-|[<-|[<-|[<-|[]]]]]|cbn [In tcwd_versions] in HI; destruct HI as [<-|[<-|[]]]]; reflexivity.
Qed.

(** * Witnesses *)
(** Circular speed at 100 km over Earth, the entry angle being the only freedom: the apoapsis radius is
    r (1 + |sin gamma|), so the answer for a 200 km target changes once over [-60, 0], where
    |sin gamma| = 100/6471. *)
Definition circ_init : init := mkInit 100 0 0 (sqrt (GM EARTH / 6471e3) / 1000) 0 0 0 0.
Definition circ_edge : R := - (asin (100 / 6471) * 180 / PI).
Lemma circ_answer : forall V tol d g, vh_planet V = EARTH -> let o := mkObj V circ_init tol None None in
  let ask o := hitsTargetApoapsis hover o 1 1 d 200 in -90 <= g <= 0 ->
  (answer ask o g = Ok (-1) /\ sin (deg g) <= - (100 / 6471)) \/ (answer ask o g = Ok 1 /\ - (100 / 6471) < sin (deg g)).
Proof.
  intros V tol d g HV o ask Hg. assert (HP : Planet "EARTH"%string = Ok (vh_planet V)) by (rewrite HV; reflexivity).
  set (i := with_gamma0 circ_init g).
  destruct (hover_run _ V i tol None None 1 1 d HP ltac:(lra) ltac:(lra) eq_refl) as (f & o' & Ef & Hi & Et & Hp & _); [rewrite HV; cbn; lra|]. rewrite HV in Et.
  assert (EA : answer ask o g = Ok (apo_answer EARTH 200 6471e3 (sqrt (GM EARTH / 6471e3)) (Some (deg g)))).
  { unfold answer, ask. change (set_gamma0 o g) with (mkObj V i tol None None). unfold hitsTargetApoapsis. rewrite Hp. cbn [ask_flight]. rewrite Ef. cbn [snd ob_veh]. rewrite HV, Et.
    unfold start_state, low_override. cbn [h_low EARTH x_r x_v x_g]. unfold computeR. cbn [h0_km i circ_init with_gamma0 v0_kms gamma0_deg].
    replace (100 * 1e3 + RP EARTH) with 6471e3 by (cbn [RP EARTH]; lra). replace (RP EARTH + 100 * 1e3) with 6471e3 by (cbn [RP EARTH]; lra).
    match goal with |- context [Rltb ?a ?b] => destruct (Rltb_spec a b) as [K|K] end; [exfalso; cbn [RP EARTH] in K; lra|]. do 2 f_equal. field. }
  assert (GP : 0 < GM EARTH) by (cbn; lra). set (v := sqrt (GM EARTH / 6471e3)) in *. assert (Vv : v * v = GM EARTH / 6471e3) by (apply sqrt_sqrt; cbn [GM EARTH]; lra).
  pose proof (apo_answer_spec EARTH 200 6471e3 v (deg g) GP ltac:(lra)) as S. cbv zeta in S.
  set (E := v * v / 2 - GM EARTH / 6471e3) in *. assert (EE : E = - GM EARTH / (2 * 6471e3)) by (unfold E; rewrite Vv; field). assert (EN : E < 0) by (rewrite EE; cbn [GM EARTH]; lra).
  set (h := 6471e3 * v * cos (deg g)) in *. set (s := sin (deg g)) in *.
  assert (Hs : s <= 0). { unfold s, deg. pose proof PI_RGT_0. pose proof PI_4. apply Ropp_le_cancel. rewrite Ropp_0, <- sin_neg. apply sin_ge_0; nra. }
  assert (Hee : (- s) * (- s) = 1 + 2 * E * (h * h) / (GM EARTH * GM EARTH)).
  { replace (h * h) with (6471e3 * 6471e3 * (v * v) * (cos (deg g) * cos (deg g))) by (unfold h; ring). pose proof (sin2cos2 (deg g)) as SC. fold s in SC. replace (cos (deg g) * cos (deg g)) with (1 - s * s) by lra.
    rewrite EE, Vv. field. lra. }
  assert (A := apoapsis_formula (GM EARTH) E h (- s) GP ltac:(lra) Hee EN).
  replace (- GM EARTH / (2 * E) * (1 + - s)) with (6471e3 * (1 - s)) in A by (rewrite EE; field; lra).
  rewrite EA. destruct (apo_pm EARTH 200 6471e3 v (Some (deg g))) as [P|P]; rewrite P.
  - right. split; auto. apply Rnot_le_lt. intros L. assert (X : apo_answer EARTH 200 6471e3 v (Some (deg g)) = -1); [|lra]. apply S. right. exists (6471e3 * (1 - s)). split; auto. cbn [RP EARTH]. lra.
  - left. split; auto. destruct (proj1 S P) as [L|(ra & L1 & L2)]; [lra|]. rewrite (apoapsis_unique _ _ _ _ _ L1 A) in L2. cbn [RP EARTH] in L2. lra.
Qed.
Lemma edge_facts : sin (deg circ_edge) = - (100 / 6471) /\ -60 < circ_edge < 0.
Proof.
  pose proof PI_RGT_0 as P. assert (D : deg circ_edge = - asin (100 / 6471)) by (unfold deg, circ_edge; field; lra). rewrite D, sin_neg, sin_asin by lra. split; auto.
  assert (B := asin_bound (100 / 6471)). set (t := asin (100 / 6471)) in *. assert (St : sin t = 100 / 6471) by (unfold t; apply sin_asin; lra).
  assert (0 < t). { apply Rnot_le_lt. intros L. assert (0 <= sin (- t)) by (apply sin_ge_0; lra). rewrite sin_neg in H. lra. }
  assert (t < PI / 6). { apply Rnot_le_lt. intros L. assert (sin (PI / 6) <= sin t) by (apply sin_incr_1; lra). rewrite sin_PI6 in H0. lra. }
  unfold circ_edge. fold t. split; [|assert (0 < t * 180 / PI) by (apply Rmult_lt_0_compat; [lra|apply Rinv_0_lt_compat; lra]); lra].
  assert (t * 180 / PI < 30); [|lra]. apply (Rmult_lt_reg_r PI); auto. unfold Rdiv. rewrite Rmult_assoc, Rinv_l by lra. lra.
Qed.
Lemma circ_change : forall V tol d, vh_planet V = EARTH -> let o := mkObj V circ_init tol None None in
  let ask o := hitsTargetApoapsis hover o 1 1 d 200 in only_change (answer ask o) (-60) 0 circ_edge (-1) /\ (exists a, answer ask o circ_edge = Ok a).
Proof.
  intros V tol d HV o ask. destruct edge_facts as (Es & E1 & E2). pose proof PI_RGT_0 as P.
  split; [split; [lra|]; split; [auto|]; split|].
  - intros g Hg. destruct (circ_answer V tol d g HV ltac:(lra)) as [(A & _)|(_ & L)]; [exact A|]. exfalso. rewrite <- Es in L. unfold deg in L.
    assert (sin (g * PI / 180) < sin (circ_edge * PI / 180)) by (apply sin_increasing_1; nra). lra.
  - intros g Hg. replace (- -1) with 1 by lra. destruct (circ_answer V tol d g HV ltac:(lra)) as [(_ & L)|(A & _)]; [|exact A]. exfalso. rewrite <- Es in L. unfold deg in L.
    assert (sin (circ_edge * PI / 180) < sin (g * PI / 180)) by (apply sin_increasing_1; nra). lra.
  - destruct (circ_answer V tol d circ_edge HV ltac:(lra)) as [(A & _)|(A & _)]; eauto.
Qed.
(** The hypotheses of the convergence and width theorems are met, and the theorems then give the boundary
    to the tolerance asked for. *)
Example C48_witness : forall V tol, vh_planet V = EARTH -> let o := mkObj V circ_init tol None None in
  engine_ok hover /\ opposite (answer (fun o => hitsTargetApoapsis hover o 1 1 0 200) o) (-60) 0 /\
  exists o' lim, findUnderShootLimit hover 10 o 1 1 (-60) 0 0.1 200 = Some (o', Ok (lim, 1)) /\ circ_edge <= lim <= circ_edge + 0.1.
Proof.
  intros V tol HV o. split; [apply hover_ok|]. destruct (circ_change V tol 0 HV) as (C & A). destruct edge_facts as (_ & E). split.
  - right. destruct C as (_ & _ & C1 & C2). split; [apply C1; lra|]. assert (N1 : - -1 = 1) by lra. rewrite N1 in C2. apply C2; lra.
  - refine (C48_unique_boundary hover 1 1 200 (fun n o low high tol => findUnderShootLimit hover n o 1 1 low high tol 200) (fun o => hitsTargetApoapsis hover o 1 1 0 200) 10 o (-60) 0 0.1 circ_edge (-1) _ E C A _); [cbn; auto|cbn; lra].
Qed.
Example C50_witness : forall V tol, vh_planet V = EARTH -> let o := mkObj V circ_init tol None None in
  exists o' w, computeTCW hover 10 o 1 1 (-60) 0 (-60) 0 0.1 0.1 200 = Some (o', Ok w) /\ -0.1 <= w <= 0.1.
Proof.
  intros V tol HV o. destruct (circ_change V tol 0 HV) as (C & A). destruct (circ_change V tol 180 HV) as (C' & A'). destruct edge_facts as (_ & E).
  destruct (C50_true_width hover 1 1 200 (fun n o lo ho lu hu to tu => computeTCW hover n o 1 1 lo ho lu hu to tu 200) _ _ 10 o (-60) 0 (-60) 0 0.1 0.1 circ_edge circ_edge (-1) (-1)
    (or_introl eq_refl) E C' A' ltac:(cbn; lra) E C A ltac:(cbn; lra)) as (o' & w & H & B). exists o', w. split; [exact H|lra].
Qed.
(** A drag-modulation query that returns, on a vehicle as the constructor builds it. *)
Example C62_witness : exists V, Vehicle 1000 100 0.25 10 0 1 EARTH (mkAtm (fun _ => 1e-5) (fun _ => 200) (fun _ => 1) (fun _ => 300)) false = Ok V /\
  forall tol, exists o' r, findOverShootLimitD hover 10 (Some (50, 2)) (mkObj V circ_init tol None None) 1 1 (-60) 0 0.1 200 = Some (o', Ok r) /\ vh_beta (ob_veh o') = 50.
Proof.
  unfold Vehicle. destruct (Reqb_spec 1000 0); [lra|]. destruct (Reqb_spec (100 * 10) 0); [lra|]. eexists. split; [reflexivity|]. intros tol.
  match goal with |- context [mkObj ?x circ_init] => set (V := x) end.
  assert (Eb : exists V1, set_ballistic (mkObj V circ_init tol None None) 50 = (mkObj V1 circ_init tol None None, Ok tt) /\ vh_planet V1 = EARTH /\ vh_beta V1 = 50).
  { unfold set_ballistic. destruct (Reqb_spec (50 * vh_A (with_beta (ob_veh (mkObj V circ_init tol None None)) 50)) 0) as [Z|Z]; [cbn in Z; lra|]. eexists. split; [reflexivity|]. split; reflexivity. }
  destruct Eb as (V1 & Eb & HV1 & HB). unfold findOverShootLimitD, overshootD. rewrite Eb. cbn [call].
  set (o1 := mkObj V1 circ_init tol None None). destruct (circ_change V1 tol 0 HV1) as (C & A). destruct edge_facts as (_ & E).
  destruct (C48_unique_boundary hover 1 1 200 (fun n o low high tol => findEFPALimitD hover n o 1 1 low high tol 200) (fun o => hitsTargetApoapsis hover o 1 1 0 200) 10 o1 (-60) 0 0.1 circ_edge (-1)) as (o' & lim & H & _); auto; [cbn; auto 10|cbn; lra|].
  exists o', (lim, 1). split; [exact H|]. assert (HI : In (fun n o low high tol => findEFPALimitD hover n o 1 1 low high tol 200, fun o => hitsTargetApoapsis hover o 1 1 0 200) (searches hover 1 1 200)) by (cbn; auto 10).
  destruct (C49_restored _ _ _ _ _ _ _ _ _ _ _ _ _ HI H) as (_ & _ & -> & _). exact HB.
Qed.
