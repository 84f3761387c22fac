(** Property C84: a vehicle object has no memory beyond its configuration. *)
From Coq Require Import String List.
Require Import Verif.Base Verif.Numpy Verif.NumpyProofs Verif.PlanetModel Verif.PlanetProofs Verif.AeroModel Verif.FlightProofs Verif.HeatModel Verif.TrajectoryModel Verif.TrajectorySpec Verif.TrajectoryProofs Verif.PropTrajectory Verif.PropHeat
  Verif.OrbitScalarModel Verif.OrbiterModel Verif.CorridorModel Verif.CorridorSpec Verif.CorridorProofs Verif.PropCorridor Verif.SessionModel Verif.SessionSpec.

(** ** Two objects that agree on vehicle, initial state and tolerance answer alike and go on agreeing. *)
Definition agree {A} (q q' : option (vobj * res A)) : Prop :=
  match q, q' with
  | None, None => True
  | Some (o, a), Some (o', a') => same o o' /\ a' = a
  | _, _ => False
  end.
Lemma agree_call : forall {A B} (r r' : vobj * res A) (k k' : vobj -> A -> option (vobj * res B)), agree (Some r) (Some r') ->
  (forall o o' a, same o o' -> agree (k o a) (k' o' a)) -> agree (call r k) (call r' k').
Proof. intros A B [o a] [o' a'] k k' (S & ->) H. destruct a as [a|e]; cbn [call]; auto. split; auto. Qed.
Lemma agree_then : forall {A B} (r r' : option (vobj * res A)) (k k' : vobj -> A -> option (vobj * res B)), agree r r' ->
  (forall o o' a, same o o' -> agree (k o a) (k' o' a)) -> agree (then_ r k) (then_ r' k').
Proof. intros A B [r|] [r'|] k k' H K; cbn [then_]; auto; try contradiction. - apply agree_call; auto. - destruct r; contradiction. Qed.
Lemma agree_ask : forall {A} o o' (f f' : res flight) h0 (k k' : flight -> res A), same o o' -> f' = f -> (forall w, k' w = k w) ->
  agree (Some (ask_flight (store o f h0) k)) (Some (ask_flight (store o' f' h0) k')).
Proof.
  intros A o o' f f' h0 k k' S -> K. pose proof (ask_store o f h0 k) as (S1 & A1 & _). pose proof (ask_store o' f h0 k') as (S2 & A2 & _).
  destruct (ask_flight (store o f h0) k) as [o1 a1], (ask_flight (store o' f h0) k') as [o2 a2]. cbn [fst snd] in *. split.
  - eapply same_trans; [apply same_sym; exact S1|]. eapply same_trans; [exact S|exact S2].
  - rewrite A1, A2. destruct (stored f h0); cbn [rbind]; auto.
Qed.
Lemma agree_hits : forall E o o' t dt d x, same o o' ->
  agree (Some (hitsTargetApoapsis E o t dt d x)) (Some (hitsTargetApoapsis E o' t dt d x)) /\
  agree (Some (hitsTargetApoapsis2 E o t dt d x)) (Some (hitsTargetApoapsis2 E o' t dt d x)) /\
  agree (Some (isCaptured E o t dt d)) (Some (isCaptured E o' t dt d)).
Proof.
  intros E o o' t dt d x S. pose proof S as (H1 & H2 & H3). unfold hitsTargetApoapsis, hitsTargetApoapsis2, isCaptured, propogateEntry, propogateEntry2. rewrite H1, H2, H3.
  split; [|split]; apply agree_ask; auto.
Qed.
Lemma agree_bisect : forall ask tol, (forall o o', same o o' -> agree (Some (ask o)) (Some (ask o'))) ->
  forall fuel o o' low high lim, same o o' -> agree (bisect ask tol fuel o low high lim) (bisect ask tol fuel o' low high lim).
Proof.
  intros ask tol G fuel. induction fuel as [|fuel IH]; intros o o' low high lim S; cbn [bisect]; destruct (Rltb tol (Rabs (high - low))); try (split; auto; fail).
  apply agree_call; [apply G, same_set; auto|]. intros o1 o1' a1 S1. apply agree_call; [apply G, same_set; auto|]. intros o2 o2' a2 S2.
  apply agree_call; [apply G, same_set; auto|]. intros o3 o3' a3 S3. destruct (Rltb (a1 * a2) 0); [apply IH; auto|]. destruct (Rltb (a2 * a3) 0); apply IH; auto.
Qed.
Lemma agree_search : forall ask tol, (forall o o', same o o' -> agree (Some (ask o)) (Some (ask o'))) ->
  forall fuel o o' low high, same o o' -> agree (search ask tol fuel o low high) (search ask tol fuel o' low high).
Proof.
  intros ask tol G fuel o o' low high S. unfold search. apply agree_call; [apply G, same_set; auto|]. intros o1 o1' a1 S1.
  apply agree_call; [apply G, same_set; auto|]. intros o2 o2' a2 S2. destruct (Rltb (a1 * a2) 0); [apply agree_bisect; auto|]. split; auto.
Qed.
Lemma same_LD : forall o o' x, same o o' -> same (set_LD o x) (set_LD o' x).
Proof. intros o o' x (H1 & H2 & H3). unfold same, set_LD, set_veh. cbn [ob_veh ob_init ob_tol]. rewrite H1. auto. Qed.
Lemma agree_limit : forall ask tol, (forall o o', same o o' -> agree (Some (ask o)) (Some (ask o'))) ->
  forall fuel o o' low high, same o o' -> agree (limit_search ask tol fuel o low high) (limit_search ask tol fuel o' low high) /\
    agree (efpa_search ask tol fuel o low high) (efpa_search ask tol fuel o' low high).
Proof.
  intros ask tol G fuel o o' low high S. unfold limit_search, efpa_search. pose proof S as (H1 & H2 & H3). rewrite H1, H2. split.
  - apply agree_then; [apply agree_search; auto|]. intros o1 o1' a S1. split; auto. apply same_set; auto.
  - apply agree_then; [apply agree_search; auto; apply same_LD; auto|]. intros o1 o1' a S1. split; auto. apply same_LD, same_set; auto.
Qed.
Lemma agree_find : forall E fuel o o' t dt low high tol x, same o o' ->
  agree (findOverShootLimit E fuel o t dt low high tol x) (findOverShootLimit E fuel o' t dt low high tol x) /\
  agree (findOverShootLimit2 E fuel o t dt low high tol x) (findOverShootLimit2 E fuel o' t dt low high tol x) /\
  agree (findUnderShootLimit E fuel o t dt low high tol x) (findUnderShootLimit E fuel o' t dt low high tol x) /\
  agree (findUnderShootLimit2 E fuel o t dt low high tol x) (findUnderShootLimit2 E fuel o' t dt low high tol x) /\
  agree (findEFPALimitD E fuel o t dt low high tol x) (findEFPALimitD E fuel o' t dt low high tol x) /\
  agree (findEFPALimitD2 E fuel o t dt low high tol x) (findEFPALimitD2 E fuel o' t dt low high tol x).
Proof.
  intros. assert (K : forall d o o', same o o' -> agree (Some (hitsTargetApoapsis E o t dt d x)) (Some (hitsTargetApoapsis E o' t dt d x))) by (intros; apply agree_hits; auto).
  assert (K2 : forall d o o', same o o' -> agree (Some (hitsTargetApoapsis2 E o t dt d x)) (Some (hitsTargetApoapsis2 E o' t dt d x))) by (intros; apply (agree_hits E o0 o'0 t dt d x); auto).
  split; [|split; [|split; [|split; [|split]]]]; (apply agree_limit; [auto|exact H]).
Qed.
Lemma agree_ballistic : forall o o' b, same o o' -> agree (Some (set_ballistic o b)) (Some (set_ballistic o' b)).
Proof. intros o o' b (H1 & H2 & H3). unfold set_ballistic. rewrite H1. destruct (Reqb _ 0); (split; [|reflexivity]); unfold same, set_veh; cbn [ob_veh ob_init ob_tol]; auto. Qed.
Lemma agree_findD : forall E fuel dm o o' t dt low high tol x, same o o' ->
  agree (findUnderShootLimitD E fuel dm o t dt low high tol x) (findUnderShootLimitD E fuel dm o' t dt low high tol x) /\
  agree (findUnderShootLimitD2 E fuel dm o t dt low high tol x) (findUnderShootLimitD2 E fuel dm o' t dt low high tol x) /\
  agree (findOverShootLimitD E fuel dm o t dt low high tol x) (findOverShootLimitD E fuel dm o' t dt low high tol x) /\
  agree (findOverShootLimitD2 E fuel dm o t dt low high tol x) (findOverShootLimitD2 E fuel dm o' t dt low high tol x).
Proof.
  intros. unfold findUnderShootLimitD, findUnderShootLimitD2, findOverShootLimitD, findOverShootLimitD2, undershootD, overshootD.
  destruct dm as [[b r]|]; [|split; [|split; [|split]]; (split; [exact H|reflexivity])].
  split; [|split; [|split]]; (apply agree_call; [apply agree_ballistic; auto|intros; apply agree_find; auto]).
Qed.

(** ** The same for whole calls *)
Definition agree_s (q q' : option (sess * res ans)) : Prop :=
  match q, q' with
  | None, None => True
  | Some (s, a), Some (s', a') => config_of s' = config_of s /\ a' = a
  | _, _ => False
  end.
Lemma config_same : forall s s', config_of s' = config_of s <-> same (se_obj s) (se_obj s') /\ se_dm s' = se_dm s.
Proof. intros s s'. unfold config_of, same. split; [intros H; injection H; auto|intros ((-> & -> & ->) & ->); auto]. Qed.
Lemma agree_upd : forall {A} s s' (f : A -> ans) q q', se_dm s' = se_dm s -> agree (Some q) (Some q') -> agree_s (upd s f q) (upd s' f q').
Proof. intros A s s' f [o a] [o' a'] D (S & ->). split; [|reflexivity]. apply config_same. split; auto. Qed.
Lemma agree_updo : forall {A} s s' (f : A -> ans) q q', se_dm s' = se_dm s -> agree q q' -> agree_s (updo s f q) (updo s' f q').
Proof. intros A s s' f [q|] [q'|] D S; cbn [updo]; auto; try contradiction; [apply agree_upd; auto|destruct q; contradiction]. Qed.
Lemma serve_agree : forall E fuel c s s', config_of s' = config_of s -> agree_s (serve E fuel c s) (serve E fuel c s').
Proof.
  intros E fuel c s s' H. apply config_same in H. destruct H as (S & D). pose proof S as (H1 & H2 & H3).
  destruct c; cbn [serve]; try (split; [apply config_same; cbn [se_obj se_dm]; split; auto; unfold same; cbn [ob_veh ob_init ob_tol]; auto|reflexivity]).
  - apply agree_upd; auto. destruct two; unfold propogateEntry, propogateEntry2; rewrite H1, H2, H3.
    + destruct (fly _ _ _ _ _ _ _) as [w|e]; cbn [store]; [|split; auto]. destruct (ocumtrapz _ _ _); (split; [|reflexivity]); unfold same; auto.
    + destruct (fly _ _ _ _ _ _ _) as [w|e]; cbn [store]; [|split; auto]. destruct (ocumtrapz _ _ _); (split; [|reflexivity]); unfold same; auto.
  - apply agree_upd; auto. exact (proj2 (proj2 (agree_hits E _ _ t dt delta 0 S))).
  - apply agree_upd; auto. destruct two; [exact (proj1 (proj2 (agree_hits E _ _ t dt delta target S)))|exact (proj1 (agree_hits E _ _ t dt delta target S))].
  - apply agree_updo; auto. destruct (agree_find E fuel _ _ t dt low high tol target S) as (F1 & F2 & F3 & F4 & F5 & F6). destruct two; assumption.
  - apply agree_updo; auto. destruct (agree_find E fuel _ _ t dt low high tol target S) as (F1 & F2 & F3 & F4 & F5 & F6). destruct two; assumption.
  - apply agree_updo; auto. destruct (agree_find E fuel _ _ t dt low_os high_os tol_os target S) as (F1 & F2 & F3 & F4 & F5 & F6).
    destruct two; unfold computeTCW, computeTCW2; (apply agree_then; [assumption|]); intros o o' a So; destruct (agree_find E fuel _ _ t dt low_us high_us tol_us target So) as (G1 & G2 & G3 & G4 & G5 & G6);
      (apply agree_then; [assumption|]); intros o1 o1' a1 S1; (split; [exact S1|reflexivity]).
  - apply agree_updo; auto. destruct (agree_find E fuel _ _ t dt low high tol target S) as (F1 & F2 & F3 & F4 & F5 & F6). destruct two; assumption.
  - apply agree_updo; auto. rewrite D. destruct (agree_findD E fuel (se_dm s) _ _ t dt low high tol target S) as (F1 & F2 & F3 & F4). destruct two; assumption.
  - apply agree_updo; auto. rewrite D. destruct (agree_findD E fuel (se_dm s) _ _ t dt low high tol target S) as (F1 & F2 & F3 & F4). destruct two; assumption.
  - apply agree_updo; auto. rewrite D. destruct (agree_findD E fuel (se_dm s) _ _ t dt low high tol target S) as (F1 & F2 & F3 & F4).
    destruct two; unfold computeTCWD, computeTCWD2; (apply agree_then; [assumption|]); intros o o' a So; destruct (agree_findD E fuel (se_dm s) _ _ t dt low high tol target So) as (G1 & G2 & G3 & G4);
      (apply agree_then; [assumption|]); intros o1 o1' a1 S1; (split; [exact S1|reflexivity]).
  - apply agree_upd; auto. rewrite H1. split; [|reflexivity]. unfold same, set_veh. cbn [ob_veh ob_init ob_tol]. auto.
Qed.

(** ** What each call that returns leaves in force *)
Lemma find_restores : forall E t dt x find ask n o low high tol o' r, In (find, ask) (searches E t dt x) -> find n o low high tol = Some (o', Ok r) -> same o o'.
Proof. intros. destruct (C49_restored _ _ _ _ _ _ _ _ _ _ _ _ _ H H0) as (_ & A & B & C). unfold same. auto. Qed.
Ltac member := unfold searches, lift_searches, drag_searches; cbn [app In]; repeat first [left; reflexivity | right].
Lemma find_same : forall E fuel o o' t dt low high tol x r,
  (findOverShootLimit E fuel o t dt low high tol x = Some (o', Ok r) -> same o o') /\
  (findOverShootLimit2 E fuel o t dt low high tol x = Some (o', Ok r) -> same o o') /\
  (findUnderShootLimit E fuel o t dt low high tol x = Some (o', Ok r) -> same o o') /\
  (findUnderShootLimit2 E fuel o t dt low high tol x = Some (o', Ok r) -> same o o') /\
  (findEFPALimitD E fuel o t dt low high tol x = Some (o', Ok r) -> same o o') /\
  (findEFPALimitD2 E fuel o t dt low high tol x = Some (o', Ok r) -> same o o').
Proof.
  intros. split; [|split; [|split; [|split; [|split]]]]; intros H.
  - eapply (find_restores E t dt x (fun n o low high tol => findOverShootLimit E n o t dt low high tol x)); [member|exact H].
  - eapply (find_restores E t dt x (fun n o low high tol => findOverShootLimit2 E n o t dt low high tol x)); [member|exact H].
  - eapply (find_restores E t dt x (fun n o low high tol => findUnderShootLimit E n o t dt low high tol x)); [member|exact H].
  - eapply (find_restores E t dt x (fun n o low high tol => findUnderShootLimit2 E n o t dt low high tol x)); [member|exact H].
  - eapply (find_restores E t dt x (fun n o low high tol => findEFPALimitD E n o t dt low high tol x)); [member|exact H].
  - eapply (find_restores E t dt x (fun n o low high tol => findEFPALimitD2 E n o t dt low high tol x)); [member|exact H].
Qed.
(** The object flies with ballistic coefficient b and is otherwise the same. *)
Definition flies_with (b : R) (o o' : vobj) : Prop := ob_veh o' = flying_with (ob_veh o) b /\ ob_init o' = ob_init o /\ ob_tol o' = ob_tol o.
Lemma ballistic_flies : forall (find : vobj -> option (vobj * res (R * R))) b o o' r, (forall o o' r, find o = Some (o', Ok r) -> same o o') ->
  call (set_ballistic o b) (fun o _ => find o) = Some (o', Ok r) -> flies_with b o o'.
Proof.
  intros find b o o' r F H. unfold set_ballistic in H. destruct (Reqb _ 0); cbn [call] in H; [discriminate|]. apply F in H. destruct H as (H1 & H2 & H3). unfold flies_with. rewrite H1, H2, H3. auto.
Qed.
Lemma findD_flies : forall E fuel b rt o o' t dt low high tol x r,
  (findUnderShootLimitD E fuel (Some (b, rt)) o t dt low high tol x = Some (o', Ok r) -> flies_with (b * rt) o o') /\
  (findUnderShootLimitD2 E fuel (Some (b, rt)) o t dt low high tol x = Some (o', Ok r) -> flies_with (b * rt) o o') /\
  (findOverShootLimitD E fuel (Some (b, rt)) o t dt low high tol x = Some (o', Ok r) -> flies_with b o o') /\
  (findOverShootLimitD2 E fuel (Some (b, rt)) o t dt low high tol x = Some (o', Ok r) -> flies_with b o o').
Proof.
  intros. unfold findUnderShootLimitD, findUnderShootLimitD2, findOverShootLimitD, findOverShootLimitD2, undershootD, overshootD.
  split; [|split; [|split]]; (intros H; eapply ballistic_flies; [|exact H]; intros o1 o2 r1 H1);
    destruct (find_same E fuel o1 o2 t dt low high tol x r1) as (F1 & F2 & F3 & F4 & F5 & F6); auto.
Qed.
Lemma sweep_same : forall V tc rc vc rns V' rows, computeHeatingForMultipleRN V tc rc vc rns = (V', Ok rows) -> V' = V.
Proof.
  intros V tc rc vc rns V' rows H. unfold computeHeatingForMultipleRN in H. destruct (rn_loop V tc rc vc rns) as [V1 [rows'|e]] eqn:El; [|discriminate]. injection H as <- _.
  assert (X : set_RN V1 (vh_RN V) = set_RN V (vh_RN V)); [|rewrite X; apply set_RN_same]. clear rows. revert V V1 rows' El.
  assert (G : forall xs V V1 rows y, rn_loop V tc rc vc xs = (V1, Ok rows) -> set_RN V1 y = set_RN V y).
  { induction xs as [|x l IH]; intros V V1 rows y H; cbn [rn_loop] in H; [injection H as <- _; auto|].
    destruct (letr q := qStagTotal (set_RN V x) rc vc in letr m := pymax q in letr h := ocumtrapz q tc 0 in Ok (m, last h None)) as [row|e]; [|discriminate].
    destruct (rn_loop (set_RN V x) tc rc vc l) as [V2 out] eqn:E2. destruct out as [rows2|e]; [|discriminate]. injection H as <- _. rewrite (IH _ _ _ _ E2). reflexivity. }
  intros V V1 rows' El. apply (G _ _ _ _ _ El).
Qed.
Lemma upd_config : forall {A} s (f : A -> ans) q s' a, upd s f q = Some (s', Ok a) -> exists o' r, q = (o', Ok r) /\ s' = mkSess o' (se_dm s) /\ a = f r.
Proof. intros A s f [o' [r|e]] s' a H; unfold upd in H; cbn [fst snd rmap] in H; [|discriminate]. injection H as <- <-. eauto. Qed.
Lemma updo_config : forall {A} s (f : A -> ans) q s' a, updo s f q = Some (s', Ok a) -> exists o' r, q = Some (o', Ok r) /\ s' = mkSess o' (se_dm s) /\ a = f r.
Proof. intros A s f [q|] s' a H; cbn [updo] in H; [|discriminate]. destruct (upd_config _ _ _ _ _ H) as (o' & r & -> & B). eauto. Qed.
Lemma same_config : forall s o', same (se_obj s) o' -> config_of (mkSess o' (se_dm s)) = config_of s.
Proof. intros s o' H. apply config_same. auto. Qed.
Lemma serve_after : forall E fuel c s s' a, serve E fuel c s = Some (s', Ok a) -> config_of s' = after c (config_of s).
Proof.
  intros E fuel c s s' a H. destruct c; cbn [serve] in H; try (injection H as <- _; reflexivity).
  - destruct (upd_config _ _ _ _ _ H) as (o' & [] & Q & -> & _). apply same_config. destruct two; unfold propogateEntry, propogateEntry2 in Q.
    + destruct (fly _ _ _ _ _ _ _) as [w|e]; cbn [store] in Q; [|discriminate]. destruct (ocumtrapz _ _ _); [|discriminate]. injection Q as <-. unfold same; auto.
    + destruct (fly _ _ _ _ _ _ _) as [w|e]; cbn [store] in Q; [|discriminate]. destruct (ocumtrapz _ _ _); [|discriminate]. injection Q as <-. unfold same; auto.
  - destruct (upd_config _ _ _ _ _ H) as (o' & r & Q & -> & _). apply same_config. unfold isCaptured, propogateEntry in Q. apply (f_equal fst) in Q. cbn [fst] in Q. rewrite <- Q. apply ask_store.
  - destruct (upd_config _ _ _ _ _ H) as (o' & r & Q & -> & _). apply same_config. apply (f_equal fst) in Q. cbn [fst] in Q. rewrite <- Q. destruct two; [apply (g_same _ (good_hits2 E t dt delta target))|apply (g_same _ (good_hits E t dt delta target))].
  - destruct (updo_config _ _ _ _ _ H) as (o' & r & Q & -> & _). apply same_config. destruct (find_same E fuel (se_obj s) o' t dt low high tol target r) as (F1 & F2 & F3 & F4 & F5 & F6). destruct two; auto.
  - destruct (updo_config _ _ _ _ _ H) as (o' & r & Q & -> & _). apply same_config. destruct (find_same E fuel (se_obj s) o' t dt low high tol target r) as (F1 & F2 & F3 & F4 & F5 & F6). destruct two; auto.
  - destruct (updo_config _ _ _ _ _ H) as (o' & r & Q & -> & _). apply same_config. destruct two; unfold computeTCW, computeTCW2 in Q.
    + destruct (then_ok _ _ _ _ Q) as (o1 & a1 & Q1 & Q2). cbv beta in Q2. destruct (then_ok _ _ _ _ Q2) as (o2 & a2 & Q3 & Q4). injection Q4 as <- _.
      apply (find_same E fuel (se_obj s) o1 t dt low_os high_os tol_os target a1) in Q1. apply (find_same E fuel o1 o2 t dt low_us high_us tol_us target a2) in Q3. eapply same_trans; eauto.
    + destruct (then_ok _ _ _ _ Q) as (o1 & a1 & Q1 & Q2). cbv beta in Q2. destruct (then_ok _ _ _ _ Q2) as (o2 & a2 & Q3 & Q4). injection Q4 as <- _.
      apply (find_same E fuel (se_obj s) o1 t dt low_os high_os tol_os target a1) in Q1. apply (find_same E fuel o1 o2 t dt low_us high_us tol_us target a2) in Q3. eapply same_trans; eauto.
  - destruct (updo_config _ _ _ _ _ H) as (o' & r & Q & -> & _). apply same_config. destruct (find_same E fuel (se_obj s) o' t dt low high tol target r) as (F1 & F2 & F3 & F4 & F5 & F6). destruct two; auto.
  - destruct (updo_config _ _ _ _ _ H) as (o' & r & Q & -> & _). unfold config_of. cbn [after cf_dm cf_veh cf_init cf_tol se_obj se_dm]. destruct (se_dm s) as [[b rt]|]; [|destruct two; discriminate].
    destruct (findD_flies E fuel b rt (se_obj s) o' t dt low high tol target r) as (F1 & F2 & F3 & F4). assert (F : flies_with (b * rt) (se_obj s) o') by (destruct two; auto). destruct F as (-> & -> & ->). reflexivity.
  - destruct (updo_config _ _ _ _ _ H) as (o' & r & Q & -> & _). unfold config_of. cbn [after cf_dm cf_veh cf_init cf_tol se_obj se_dm]. destruct (se_dm s) as [[b rt]|]; [|destruct two; discriminate].
    destruct (findD_flies E fuel b rt (se_obj s) o' t dt low high tol target r) as (F1 & F2 & F3 & F4). assert (F : flies_with b (se_obj s) o') by (destruct two; auto). destruct F as (-> & -> & ->). reflexivity.
  - destruct (updo_config _ _ _ _ _ H) as (o' & r & Q & -> & _). unfold config_of. cbn [after cf_dm cf_veh cf_init cf_tol se_obj se_dm]. destruct (se_dm s) as [[b rt]|]; [|destruct two; discriminate].
    assert (F : exists o1, flies_with (b * rt) (se_obj s) o1 /\ flies_with b o1 o').
    { destruct two; unfold computeTCWD, computeTCWD2 in Q; destruct (then_ok _ _ _ _ Q) as (o1 & a1 & Q1 & Q2); cbv beta in Q2; destruct (then_ok _ _ _ _ Q2) as (o2 & a2 & Q3 & Q4); injection Q4 as <- _;
        destruct (findD_flies E fuel b rt (se_obj s) o1 t dt low high tol target a1) as (F1 & F2 & F3 & F4); destruct (findD_flies E fuel b rt o1 o2 t dt low high tol target a2) as (G1 & G2 & G3 & G4); exists o1; auto. }
    destruct F as (o1 & (A1 & A2 & A3) & (B1 & B2 & B3)). rewrite B1, B2, B3, A1, A2, A3. reflexivity.
  - destruct (upd_config _ _ _ _ _ H) as (o' & r & Q & -> & _). apply same_config. destruct (computeHeatingForMultipleRN (ob_veh (se_obj s)) tc rc vc rns) as [V' out] eqn:Eh. cbn [fst snd] in Q. injection Q as <- ->.
    rewrite (sweep_same _ _ _ _ _ _ _ Eh). unfold same, set_veh. auto.
Qed.

(** * C84 *)
(** After any history of calls that all returned, exactly what the setters (and the drag-modulation
    queries) put there is in force. *)
Theorem C84_configuration : forall E fuel history s s' answers, run E fuel history s = Some (s', answers) -> Forall returned answers ->
  config_of s' = after_all history (config_of s).
Proof.
  intros E fuel history. induction history as [|c l IH]; intros s s' answers H R; cbn [run] in H; [injection H as <- <-; reflexivity|].
  destruct (serve E fuel c s) as [[s1 a]|] eqn:E1; [|discriminate]. destruct (run E fuel l s1) as [[s2 as_]|] eqn:E2; [|discriminate]. injection H as <- <-.
  inversion R as [|? ? (x & ->) R']; subst. rewrite (IH _ _ _ E2 R'). unfold after_all. cbn [fold_left]. rewrite (serve_after _ _ _ _ _ _ E1). reflexivity.
Qed.
(** Two objects with the same configuration answer every sequence of calls alike, exceptions included,
    whatever each of them has been used for before. *)
Theorem C84_no_memory : forall E fuel calls s1 s2, config_of s2 = config_of s1 ->
  match run E fuel calls s1, run E fuel calls s2 with
  | Some (s1', answers1), Some (s2', answers2) => answers2 = answers1 /\ config_of s2' = config_of s1'
  | None, None => True
  | _, _ => False
  end.
Proof.
  intros E fuel calls. induction calls as [|c l IH]; intros s1 s2 H; cbn [run]; [auto|].
  pose proof (serve_agree E fuel c s1 s2 H) as A. destruct (serve E fuel c s1) as [[s1' a1]|], (serve E fuel c s2) as [[s2' a2]|]; cbn [agree_s] in A; try contradiction; auto. destruct A as (A & ->).
  specialize (IH s1' s2' A). destruct (run E fuel l s1') as [[s1'' l1]|], (run E fuel l s2') as [[s2'' l2]|]; try contradiction; auto. destruct IH as (-> & IH). auto.
Qed.
(** A used object is as good as a new one: after any history of calls that all returned, a further
    sequence of calls gets the answers a fresh object with that configuration gives. *)
Theorem C84_as_good_as_new : forall E fuel history s s' answers, run E fuel history s = Some (s', answers) -> Forall returned answers ->
  forall fresh calls, config_of fresh = after_all history (config_of s) ->
  match run E fuel calls fresh, run E fuel calls s' with
  | Some (f, answers1), Some (s'', answers2) => answers2 = answers1 /\ config_of s'' = config_of f
  | None, None => True
  | _, _ => False
  end.
Proof. intros E fuel history s s' answers H R fresh calls F. apply C84_no_memory. rewrite F. eapply C84_configuration; eauto. Qed.
(** A propagation that returns stores the same flight and heat load on both. *)
Theorem C84_stored_flight : forall E fuel s1 s2 two t dt delta s1' s2' a1 a2, config_of s2 = config_of s1 ->
  serve E fuel (PropogateEntry two t dt delta) s1 = Some (s1', Ok a1) -> serve E fuel (PropogateEntry two t dt delta) s2 = Some (s2', Ok a2) ->
  exists f h, ob_flight (se_obj s1') = Some f /\ ob_heat (se_obj s1') = Some h /\ ob_flight (se_obj s2') = Some f /\ ob_heat (se_obj s2') = Some h.
Proof.
  intros E fuel s1 s2 two t dt delta s1' s2' a1 a2 C H1 H2. apply config_same in C. destruct C as ((C1 & C2 & C3) & _). cbn [serve] in *.
  destruct (upd_config _ _ _ _ _ H1) as (o1 & [] & Q1 & -> & _). destruct (upd_config _ _ _ _ _ H2) as (o2 & [] & Q2 & -> & _). cbn [se_obj].
  destruct two; unfold propogateEntry, propogateEntry2 in Q1, Q2; rewrite C1, C2, C3 in Q2; destruct (fly _ _ _ _ _ _ _) as [w|e]; cbn [store] in *; try discriminate;
    destruct (ocumtrapz _ _ _) as [h|e]; try discriminate; injection Q1 as <-; injection Q2 as <-; exists w, h; auto.
Qed.

(** ** Whatever happens, exceptions included *)
Ltac trial := unfold same_but_trial; cbv zeta; split; [reflexivity|split; [reflexivity|split; [repeat (split; [reflexivity|]); reflexivity|repeat (split; [reflexivity|]); reflexivity]]].
Lemma trial_refl : forall k, same_but_trial k k. Proof. intros k. trial. Qed.
Lemma trial_trans : forall a b c, same_but_trial a b -> same_but_trial b c -> same_but_trial a c.
Proof.
  intros a b c (A1 & A2 & (I1 & I2 & I3 & I4 & I5 & I6 & I7) & (V1 & V2 & V3 & V4 & V5 & V6 & V7 & V8 & V9 & V10)) (B1 & B2 & (J1 & J2 & J3 & J4 & J5 & J6 & J7) & (W1 & W2 & W3 & W4 & W5 & W6 & W7 & W8 & W9 & W10)).
  unfold same_but_trial. cbv zeta. repeat (split; [first [congruence|repeat (split; [congruence|]); congruence]|]). repeat (split; [congruence|]). congruence.
Qed.
Definition oconf (dm : dm_params) (o : vobj) : config := config_of (mkSess o dm).
Definition keeps {A} (dm : dm_params) (o : vobj) (q : option (vobj * res A)) : Prop :=
  match q with None => True | Some (o', _) => same_but_trial (oconf dm o) (oconf dm o') end.
Lemma trial_gamma : forall dm o g, same_but_trial (oconf dm o) (oconf dm (set_gamma0 o g)).
Proof. intros. trial. Qed.
Lemma keeps_call : forall {A B} dm o (r : vobj * res A) (k : vobj -> A -> option (vobj * res B)), keeps dm o (Some r) ->
  (forall o1 a, same_but_trial (oconf dm o) (oconf dm o1) -> keeps dm o (k o1 a)) -> keeps dm o (call r k).
Proof. intros A B dm o [o1 [a|e]] k H K; cbn [call]; auto. Qed.
Lemma keeps_then : forall {A B} dm o (r : option (vobj * res A)) (k : vobj -> A -> option (vobj * res B)), keeps dm o r ->
  (forall o1 a, same_but_trial (oconf dm o) (oconf dm o1) -> keeps dm o (k o1 a)) -> keeps dm o (then_ r k).
Proof. intros A B dm o [r|] k H K; cbn [then_]; auto. apply keeps_call; auto. Qed.
Lemma keeps_same : forall dm o o', same o o' -> same_but_trial (oconf dm o) (oconf dm o').
Proof. intros dm o o' (H1 & H2 & H3). unfold oconf, config_of. cbn [se_obj se_dm]. rewrite H1, H2, H3. trial. Qed.
Lemma keeps_from : forall {A} dm o o1 (q : option (vobj * res A)), same_but_trial (oconf dm o) (oconf dm o1) -> keeps dm o1 q -> keeps dm o q.
Proof. intros A dm o o1 [[o2 a]|] H K; cbn [keeps] in *; auto. eapply trial_trans; eauto. Qed.
Lemma keeps_good : forall ask dm o o1 g, good ask -> same_but_trial (oconf dm o) (oconf dm o1) -> keeps dm o (Some (ask (set_gamma0 o1 g))).
Proof.
  intros ask dm o o1 g G H. pose proof (g_same _ G (set_gamma0 o1 g)) as S. destruct (ask (set_gamma0 o1 g)) as [o2 a]. cbn [fst keeps] in *.
  eapply trial_trans; [exact H|]. eapply trial_trans; [apply (trial_gamma dm o1 g)|]. apply keeps_same; auto.
Qed.
Lemma keeps_bisect : forall ask tol dm o, good ask -> forall fuel o1 low high lim, same_but_trial (oconf dm o) (oconf dm o1) -> keeps dm o (bisect ask tol fuel o1 low high lim).
Proof.
  intros ask tol dm o G fuel. induction fuel as [|fuel IH]; intros o1 low high lim S; cbn [bisect]; destruct (Rltb tol (Rabs (high - low))); try exact I; try exact S.
  apply keeps_call; [apply keeps_good; auto|]. intros o2 a2 S2. apply keeps_call; [apply keeps_good; auto|]. intros o3 a3 S3. apply keeps_call; [apply keeps_good; auto|]. intros o4 a4 S4.
  destruct (Rltb (a2 * a3) 0); [apply IH; auto|]. destruct (Rltb (a3 * a4) 0); apply IH; auto.
Qed.
Lemma keeps_search : forall ask tol dm o o1 fuel low high, good ask -> same_but_trial (oconf dm o) (oconf dm o1) -> keeps dm o (search ask tol fuel o1 low high).
Proof.
  intros ask tol dm o o1 fuel low high G S. unfold search. apply keeps_call; [apply keeps_good; auto|]. intros o2 a2 S2. apply keeps_call; [apply keeps_good; auto|]. intros o3 a3 S3.
  destruct (Rltb (a2 * a3) 0); [apply keeps_bisect; auto|exact S3].
Qed.
Lemma keeps_limit : forall ask tol dm o fuel low high, good ask -> keeps dm o (limit_search ask tol fuel o low high) /\ keeps dm o (efpa_search ask tol fuel o low high).
Proof.
  intros ask tol dm o fuel low high G. unfold limit_search, efpa_search. split.
  - apply keeps_then; [apply keeps_search; auto; trial|]. intros o1 a S. cbn [keeps]. eapply trial_trans; [exact S|]. apply trial_gamma.
  - apply keeps_then; [apply keeps_search; auto; trial|]. intros o1 a S. cbn [keeps]. eapply trial_trans; [exact S|]. trial.
Qed.
Lemma keeps_find : forall E fuel dm o t dt low high tol x,
  keeps dm o (findOverShootLimit E fuel o t dt low high tol x) /\ keeps dm o (findOverShootLimit2 E fuel o t dt low high tol x) /\
  keeps dm o (findUnderShootLimit E fuel o t dt low high tol x) /\ keeps dm o (findUnderShootLimit2 E fuel o t dt low high tol x) /\
  keeps dm o (findEFPALimitD E fuel o t dt low high tol x) /\ keeps dm o (findEFPALimitD2 E fuel o t dt low high tol x).
Proof.
  intros. pose proof (good_hits E t dt) as G. pose proof (good_hits2 E t dt) as G2.
  split; [exact (proj1 (keeps_limit _ tol dm o fuel low high (G 180 x)))|]. split; [exact (proj1 (keeps_limit _ tol dm o fuel low high (G2 180 x)))|].
  split; [exact (proj1 (keeps_limit _ tol dm o fuel low high (G 0 x)))|]. split; [exact (proj1 (keeps_limit _ tol dm o fuel low high (G2 0 x)))|].
  split; [exact (proj2 (keeps_limit _ tol dm o fuel low high (G 0 x)))|exact (proj2 (keeps_limit _ tol dm o fuel low high (G2 0 x)))].
Qed.
Lemma keeps_ballistic : forall dm o b, keeps dm o (Some (set_ballistic o b)).
Proof. intros. unfold set_ballistic. destruct (Reqb _ 0); cbn [keeps]; trial. Qed.
Lemma keeps_findD : forall E fuel dm o t dt low high tol x,
  keeps dm o (findUnderShootLimitD E fuel dm o t dt low high tol x) /\ keeps dm o (findUnderShootLimitD2 E fuel dm o t dt low high tol x) /\
  keeps dm o (findOverShootLimitD E fuel dm o t dt low high tol x) /\ keeps dm o (findOverShootLimitD2 E fuel dm o t dt low high tol x).
Proof.
  intros. unfold findUnderShootLimitD, findUnderShootLimitD2, findOverShootLimitD, findOverShootLimitD2, undershootD, overshootD.
  destruct dm as [[b r]|]; [|split; [|split; [|split]]; trial].
  split; [|split; [|split]]; (apply keeps_call; [apply keeps_ballistic|]); intros o1 [] S; destruct (keeps_find E fuel (Some (b, r)) o1 t dt low high tol x) as (F1 & F2 & F3 & F4 & F5 & F6);
    (eapply keeps_from; [exact S|assumption]).
Qed.
Lemma keeps_upd : forall {A} s (f : A -> ans) q s' a, upd s f q = Some (s', a) -> keeps (se_dm s) (se_obj s) (Some q) -> same_but_trial (config_of s) (config_of s').
Proof. intros A [o dm] f [o' r] s' a H K. unfold upd in H. cbn [fst snd se_dm] in *. injection H as <- _. exact K. Qed.
Lemma keeps_updo : forall {A} s (f : A -> ans) q s' a, updo s f q = Some (s', a) -> keeps (se_dm s) (se_obj s) q -> same_but_trial (config_of s) (config_of s').
Proof. intros A s f [q|] s' a H K; cbn [updo] in H; [|discriminate]. eapply keeps_upd; eauto. Qed.
Lemma sweep_keeps : forall V tc rc vc rns, exists x, fst (computeHeatingForMultipleRN V tc rc vc rns) = set_RN V x.
Proof.
  intros V tc rc vc rns. unfold computeHeatingForMultipleRN.
  assert (G : forall xs V, exists x, fst (rn_loop V tc rc vc xs) = set_RN V x).
  { induction xs as [|x l IH]; intros W; cbn [rn_loop]; [exists (vh_RN W); cbn [fst]; symmetry; apply set_RN_same|].
    destruct (letr q := qStagTotal (set_RN W x) rc vc in letr m := pymax q in letr h := ocumtrapz q tc 0 in Ok (m, last h None)) as [row|e]; [|exists x; reflexivity].
    destruct (IH (set_RN W x)) as (y & Hy). destruct (rn_loop (set_RN W x) tc rc vc l) as [V2 out]. cbn [fst] in *. exists y. rewrite Hy. reflexivity. }
  destruct (G rns V) as (x & Hx). destruct (rn_loop V tc rc vc rns) as [V1 [rows|e]]; cbn [fst] in *; subst V1; [exists (vh_RN V); reflexivity|exists x; reflexivity].
Qed.
Lemma serve_keeps : forall E fuel c s s' a, serve E fuel c s = Some (s', a) -> same_but_trial (set_by c (config_of s)) (config_of s').
Proof.
  intros E fuel c s s' a H. destruct c; cbn [serve set_by after] in *; try (injection H as <- _; trial).
  - apply (keeps_upd _ _ _ _ _ H). destruct two; unfold propogateEntry, propogateEntry2; destruct (fly _ _ _ _ _ _ _) as [w|e]; cbn [store]; try trial; destruct (ocumtrapz _ _ _); trial.
  - apply (keeps_upd _ _ _ _ _ H). unfold isCaptured, propogateEntry. match goal with |- context [ask_flight (store ?o ?f ?h) ?k] => pose proof (proj1 (ask_store o f h k)) as S; destruct (ask_flight (store o f h) k) as [o2 r] end. apply keeps_same. exact S.
  - apply (keeps_upd _ _ _ _ _ H). destruct two.
    + pose proof (g_same _ (good_hits2 E t dt delta target) (se_obj s)) as S. cbv beta in S. destruct (hitsTargetApoapsis2 E (se_obj s) t dt delta target) as [o2 r]. apply keeps_same. exact S.
    + pose proof (g_same _ (good_hits E t dt delta target) (se_obj s)) as S. cbv beta in S. destruct (hitsTargetApoapsis E (se_obj s) t dt delta target) as [o2 r]. apply keeps_same. exact S.
  - apply (keeps_updo _ _ _ _ _ H). destruct (keeps_find E fuel (se_dm s) (se_obj s) t dt low high tol target) as (F1 & F2 & F3 & F4 & F5 & F6). destruct two; assumption.
  - apply (keeps_updo _ _ _ _ _ H). destruct (keeps_find E fuel (se_dm s) (se_obj s) t dt low high tol target) as (F1 & F2 & F3 & F4 & F5 & F6). destruct two; assumption.
  - apply (keeps_updo _ _ _ _ _ H). destruct (keeps_find E fuel (se_dm s) (se_obj s) t dt low_os high_os tol_os target) as (F1 & F2 & F3 & F4 & F5 & F6).
    destruct two; unfold computeTCW, computeTCW2; (apply keeps_then; [assumption|]); intros o1 a1 S1; destruct (keeps_find E fuel (se_dm s) o1 t dt low_us high_us tol_us target) as (G1 & G2 & G3 & G4 & G5 & G6);
      (apply keeps_then; [eapply keeps_from; [exact S1|assumption]|]); intros o2 a2 S2; exact S2.
  - apply (keeps_updo _ _ _ _ _ H). destruct (keeps_find E fuel (se_dm s) (se_obj s) t dt low high tol target) as (F1 & F2 & F3 & F4 & F5 & F6). destruct two; assumption.
  - apply (keeps_updo _ _ _ _ _ H). destruct (keeps_findD E fuel (se_dm s) (se_obj s) t dt low high tol target) as (F1 & F2 & F3 & F4). destruct two; assumption.
  - apply (keeps_updo _ _ _ _ _ H). destruct (keeps_findD E fuel (se_dm s) (se_obj s) t dt low high tol target) as (F1 & F2 & F3 & F4). destruct two; assumption.
  - apply (keeps_updo _ _ _ _ _ H). destruct (keeps_findD E fuel (se_dm s) (se_obj s) t dt low high tol target) as (F1 & F2 & F3 & F4).
    destruct two; unfold computeTCWD, computeTCWD2; (apply keeps_then; [assumption|]); intros o1 a1 S1; destruct (keeps_findD E fuel (se_dm s) o1 t dt low high tol target) as (G1 & G2 & G3 & G4);
      (apply keeps_then; [eapply keeps_from; [exact S1|assumption]|]); intros o2 a2 S2; exact S2.
  - apply (keeps_upd _ _ _ _ _ H). cbn [keeps]. destruct (sweep_keeps (ob_veh (se_obj s)) tc rc vc rns) as (y & Hy). rewrite Hy. trial.
Qed.
Lemma set_by_trial : forall c k k', same_but_trial k k' -> same_but_trial (set_by c k) (set_by c k').
Proof.
  intros c k k' H. destruct c; cbn [set_by after]; auto; destruct H as (A1 & A2 & A3 & A4).
  - split; [exact A1|]. split; [exact A2|]. split; [|exact A4]. cbn. repeat (split; [reflexivity|]). reflexivity.
  - split; [exact A1|]. split; [reflexivity|]. split; [exact A3|exact A4].
  - split; [reflexivity|]. split; [exact A2|]. split; [exact A3|exact A4].
Qed.
(** Even when calls raised, at most the entry angle, LD, beta, CD and the nose radius can differ from
    what the setters asked for: planet, atmosphere, mass, areas, lift coefficient, drag curve, the rest of
    the initial state, the tolerance and the drag-modulation parameters are as set. *)
Theorem C84_after_exceptions : forall E fuel history s s' answers, run E fuel history s = Some (s', answers) ->
  same_but_trial (set_by_all history (config_of s)) (config_of s').
Proof.
  intros E fuel history s s' answers H.
  assert (G : forall history k s s' answers, run E fuel history s = Some (s', answers) -> same_but_trial k (config_of s) -> same_but_trial (set_by_all history k) (config_of s')).
  { clear. induction history as [|c l IH]; intros k s s' answers H K; cbn [run] in H; [injection H as <- _; exact K|].
    destruct (serve E fuel c s) as [[s1 a]|] eqn:E1; [|discriminate]. destruct (run E fuel l s1) as [[s2 as_]|] eqn:E2; [|discriminate]. injection H as <- _.
    unfold set_by_all. cbn [fold_left]. eapply IH; [exact E2|]. eapply trial_trans; [apply set_by_trial; exact K|]. eapply serve_keeps; eauto. }
  eapply G; [exact H|apply trial_refl].
Qed.
(** A plain propagation or capture question changes nothing at all, even when it raises. *)
Theorem C84_propagations_keep : forall E fuel c s s' a, is_propagation c -> serve E fuel c s = Some (s', a) -> config_of s' = config_of s.
Proof.
  intros E fuel c s s' a P H. destruct c; try contradiction; cbn [serve] in H; unfold upd in H; injection H as <- _; apply same_config; cbn [fst].
  - destruct two; unfold propogateEntry, propogateEntry2; destruct (fly _ _ _ _ _ _ _) as [w|e]; cbn [store fst]; try apply same_refl; destruct (ocumtrapz _ _ _); unfold same; auto.
  - apply ask_store.
  - destruct two; [apply (g_same _ (good_hits2 E t dt delta target))|apply (g_same _ (good_hits E t dt delta target))].
Qed.

(** A session on a vehicle as built: set the state, search the corridor, configure drag modulation, query
    it.  Every call returns, and the object ends up flying with beta1 instead of the 100 it was built with. *)
Example C84_witness : exists V, Vehicle 1000 100 0.25 10 0 1 EARTH (mkAtm (fun _ => 1e-5) (fun _ => 200) (fun _ => 1) (fun _ => 300)) false = Ok V /\
  forall i tol, exists s' answers,
    run hover 10 [SetInitialState circ_init; FindUnderShootLimit false 1 1 (-60) 0 0.1 200; SetDragModulationVehicleParams 50 2; FindOverShootLimitD false 1 1 (-60) 0 0.1 200]
      (mkSess (mkObj V i tol None None) None) = Some (s', answers) /\ Forall returned answers /\ vh_beta V = 100 /\ vh_beta (ob_veh (se_obj s')) = 50.
Proof.
  destruct C62_witness as (V & HV & W). exists V. split; [exact HV|]. intros i tol.
  assert (HP : vh_planet V = EARTH /\ vh_beta V = 100). { unfold Vehicle in HV. destruct (Reqb_spec 1000 0); [lra|]. destruct (Reqb_spec (100 * 10) 0); [lra|]. injection HV as <-. split; reflexivity. }
  destruct HP as (HP & HB). destruct (C48_witness V tol HP) as (_ & _ & o1 & lim & H1 & _). destruct (W tol) as (o2 & r & H2 & B2).
  cbn [run]. unfold serve at 1. cbn [se_obj se_dm ob_veh ob_tol ob_flight ob_heat]. unfold serve at 1. cbn [se_obj se_dm]. rewrite H1. cbn [updo]. unfold upd. cbn [fst snd rmap].
  unfold serve at 1. cbn [se_obj se_dm]. set (s1 := mkSess o1 (Some (50, 2))). set (s0 := mkSess (mkObj V circ_init tol None None) (Some (50, 2))).
  assert (C : config_of s1 = config_of s0). { apply config_same. split; [|reflexivity]. exact (proj1 (proj2 (proj2 (find_same hover 10 (mkObj V circ_init tol None None) o1 1 1 (-60) 0 0.1 200 (lim, 1)))) H1). }
  pose proof (serve_agree hover 10 (FindOverShootLimitD false 1 1 (-60) 0 0.1 200) s0 s1 C) as A.
  assert (E0 : serve hover 10 (FindOverShootLimitD false 1 1 (-60) 0 0.1 200) s0 = Some (mkSess o2 (Some (50, 2)), Ok (Limit r))). { unfold serve. cbn [se_obj se_dm s0]. rewrite H2. reflexivity. }
  rewrite E0 in A. destruct (serve hover 10 (FindOverShootLimitD false 1 1 (-60) 0 0.1 200) s1) as [[s2 a2]|]; cbn [agree_s] in A; [|contradiction]. destruct A as (A & ->).
  eexists. eexists. split; [reflexivity|]. split; [repeat (constructor; [eexists; reflexivity|]); constructor|]. split; [exact HB|].
  unfold config_of in A. cbn [se_obj] in A. injection A as A _ _ _. rewrite A. exact B2.
Qed.
