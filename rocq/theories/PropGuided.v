(** Property C100: guided flights in a session. *)
From Coq Require Import String List.
Require Import Verif.Base Verif.Numpy Verif.NumpyProofs Verif.PlanetModel Verif.PlanetProofs Verif.AeroModel Verif.FlightProofs Verif.HeatModel Verif.TrajectoryModel Verif.TrajectorySpec Verif.TrajectoryProofs Verif.PropTrajectory Verif.PropHeat
  Verif.OrbitScalarModel Verif.OrbiterModel Verif.OrbitModel Verif.CorridorModel Verif.CorridorSpec Verif.CorridorProofs Verif.PropCorridor Verif.SessionModel Verif.SessionSpec Verif.PropSession
  Verif.GuidanceModel Verif.GuidanceSpec Verif.GuidanceProofs Verif.PropControl Verif.PropGuidance Verif.DragModel Verif.PropDrag Verif.MonteModel Verif.MonteSpec Verif.MonteProofs
  Verif.GuidedModel Verif.GuidedSpec.
Local Open Scope R_scope.

(** ** Two flights from the same configuration *)
Definition twin (x y : option (vobj * res (gst * gst * report))) : Prop :=
  match x, y with
  | None, None => True
  | Some (o, Err e), Some (o2, Err e') => same o o2 /\ e' = e
  | Some (o, Ok (s, s', r)), Some (o2, Ok (s2, s2', r2)) => o2 = o /\ same_flight s s2 /\ same_flight s' s2' /\ r2 = r
  | _, _ => False
  end.
Lemma start_same : forall two E X V i tol fl ht fl' ht' hr hr' dt,
  match eg_start two E X (mkObj V i tol fl ht) hr dt, eg_start two E X (mkObj V i tol fl' ht') hr' dt with
  | (o1, Ok s), (o1', Ok s') => o1' = o1 /\ same_flight s s'
  | (o1, Err e), (o1', Err e') => same o1 o1' /\ e' = e
  | _, _ => False
  end.
Proof.
  intros two E X V i tol fl ht fl' ht' hr hr' dt. unfold eg_start.
  assert (K : (exists o2, propagate two E X (mkObj V i tol fl' ht') 1 dt (Some 0) = (o2, Ok tt) /\ propagate two E X (mkObj V i tol fl ht) 1 dt (Some 0) = (o2, Ok tt)) \/
    exists e o2 o3, propagate two E X (mkObj V i tol fl ht) 1 dt (Some 0) = (o2, Err e) /\ propagate two E X (mkObj V i tol fl' ht') 1 dt (Some 0) = (o3, Err e) /\ same o2 o3).
  { cbn [propagate]. unfold propogateEntry, propogateEntry2, store. cbn [ob_veh ob_tol ob_init].
    destruct two; (destruct (fly _ _ _ _ _ _ _) as [g|]; [|right; do 3 eexists; split; [reflexivity|split; [reflexivity|unfold same; auto]]]);
      (destruct (ocumtrapz _ _ _); [left; eexists; split; reflexivity|right; do 3 eexists; split; [reflexivity|split; [reflexivity|unfold same; auto]]]). }
  destruct K as [(o2 & -> & ->)|(e & o2 & o3 & -> & -> & S)]; [|auto].
  destruct (results o2) as [[f h]|]; cbn [rbind fst snd]; [|split; [apply same_refl|reflexivity]]. split; auto. eexists. split; [eexists; reflexivity|reflexivity].
Qed.
Lemma sf_same : forall s s2, same_flight s s2 -> same (s_obj s) (s_obj s2).
Proof. intros s s2 H. destruct (sf_obj _ _ H) as (-> & _). apply same_refl. Qed.
Lemma twin_lift : forall two E X P ts dt mt n V i tol fl ht fl' ht' hr hr',
  twin (propogateGuidedEntry two E X P ts dt mt n (mkObj V i tol fl ht) hr) (propogateGuidedEntry two E X P ts dt mt n (mkObj V i tol fl' ht') hr').
Proof.
  intros two E X P ts dt mt n V i tol fl ht fl' ht' hr hr'. unfold propogateGuidedEntry, propogateEquilibriumGlide.
  pose proof (start_same two E X V i tol fl ht fl' ht' hr hr' dt) as L0.
  destruct (eg_start two E X (mkObj V i tol fl ht) hr dt) as [o1 [s0|]], (eg_start two E X (mkObj V i tol fl' ht') hr' dt) as [o1' [s0'|]]; try contradiction; [|exact L0].
  destruct L0 as (_ & SF0).
  assert (W : forall s s2, same_flight s s2 -> eg_guard P s2 = eg_guard P s /\ like (eg_step two E X P ts dt mt s) (eg_step two E X P ts dt mt s2)).
  { intros sa sb SF. split; [destruct SF as (a' & _ & ->); reflexivity|apply eg_step_like; auto]. }
  pose proof (while_like _ _ W n _ _ SF0) as L. destruct (while_loop (eg_guard P) _ n s0) as [[s1 r1]|], (while_loop (eg_guard P) _ n s0') as [[s1' r1']|]; try contradiction; [|exact I].
  destruct L as (SF1 & <-). destruct r1 as [[]|e]; [|split; [apply sf_same; auto|reflexivity]]. unfold propogateExitPhase. destruct (sf_obj _ _ SF1) as (_ & -> & -> & _).
  match goal with |- context [while_loop exit_guard ?body n (exit_start s1)] => set (bd := body) end.
  assert (W2 : forall s s2, same_flight s s2 -> exit_guard s2 = exit_guard s /\ like (bd s) (bd s2)).
  { intros sa sb SF. split; [destruct SF as (a' & _ & ->); reflexivity|apply exit_step_like; auto]. }
  pose proof (while_like _ _ W2 n _ _ (sf_exit_start _ _ SF1)) as L. destruct (while_loop exit_guard bd n (exit_start s1)) as [[s2 r2]|], (while_loop exit_guard bd n (exit_start s1')) as [[s2' r2']|]; try contradiction; [|exact I].
  destruct L as (SF2 & <-). destruct r2 as [[]|e]; [|split; [apply sf_same; auto|reflexivity]]. cbn [twin]. destruct (sf_obj _ _ SF2) as (-> & -> & _). auto.
Qed.
Lemma set_ballistic_pair : forall V i tol fl ht fl' ht' b, exists V1 r, set_ballistic (mkObj V i tol fl ht) b = (mkObj V1 i tol fl ht, r) /\ set_ballistic (mkObj V i tol fl' ht') b = (mkObj V1 i tol fl' ht', r).
Proof. intros. unfold set_ballistic, set_veh. cbv zeta. cbn [ob_veh ob_init ob_tol ob_flight ob_heat]. destruct (Reqb _ 0); eexists; eexists; split; reflexivity. Qed.
Lemma twin_drag : forall two E X dm P tE tX dt mt n V i tol fl ht fl' ht' hr hr',
  twin (propogateGuidedEntryD two E X dm P tE tX dt mt n (mkObj V i tol fl ht) hr) (propogateGuidedEntryD two E X dm P tE tX dt mt n (mkObj V i tol fl' ht') hr').
Proof.
  intros two E X dm P tE tX dt mt n V i tol fl ht fl' ht' hr hr'. unfold propogateGuidedEntryD, propogateEntryPhaseD. destruct dm as [[b1 ratio]|]; [|split; [unfold same; auto|reflexivity]]. cbn [fst].
  destruct (set_ballistic_pair V i tol fl ht fl' ht' b1) as (V1 & [[]|e] & -> & ->); [|split; [unfold same; auto|reflexivity]].
  pose proof (start_same two E X V1 i tol fl ht fl' ht' hr hr' dt) as L0.
  destruct (eg_start two E X _ hr dt) as [o1 [s0|]], (eg_start two E X _ hr' dt) as [o1' [s0'|]]; try contradiction; [|exact L0].
  destruct L0 as (_ & SF0).
  assert (W : forall s s2, same_flight s s2 -> eg_guard P s2 = eg_guard P s /\ like (d_step two E X (b1, ratio) P tE dt mt s) (d_step two E X (b1, ratio) P tE dt mt s2)).
  { intros sa sb SF. split; [destruct SF as (a' & _ & ->); reflexivity|apply d_step_like; auto]. }
  pose proof (while_like _ _ W n _ _ SF0) as L. destruct (while_loop (eg_guard P) _ n s0) as [[s1 r1]|], (while_loop (eg_guard P) _ n s0') as [[s1' r1']|]; try contradiction; [|exact I].
  destruct L as (SF1 & <-). destruct r1 as [[]|e]; [|split; [apply sf_same; auto|reflexivity]]. unfold propogateExitPhaseD. destruct (sf_obj _ _ SF1) as (-> & -> & -> & _).
  destruct (set_ballistic (s_obj s1) (b1 * ratio)) as [o3 [[]|]]; [|split; [unfold same; auto|reflexivity]].
  match goal with |- context [while_loop exit_guard ?body n (exit_start (set_obj s1 o3))] => set (bd := body) end.
  assert (W2 : forall s s2, same_flight s s2 -> exit_guard s2 = exit_guard s /\ like (bd s) (bd s2)).
  { intros sa sb SF. split; [destruct SF as (a' & _ & ->); reflexivity|apply dexit_step_like; auto]. }
  pose proof (while_like _ _ W2 n _ _ (sf_exit_start _ _ (sf_set_obj _ _ o3 SF1))) as L. destruct (while_loop exit_guard bd n (exit_start (set_obj s1 o3))) as [[s2 r2]|], (while_loop exit_guard bd n (exit_start (set_obj s1' o3))) as [[s2' r2']|]; try contradiction; [|exact I].
  destruct L as (SF2 & <-). destruct r2 as [[]|e]; [|split; [apply sf_same; auto|reflexivity]]. cbn [twin]. destruct (sf_obj _ _ SF2) as (-> & -> & _). auto.
Qed.
Lemma see_same : forall s s2, same_flight s s2 -> see s2 = see s.
Proof. intros s s2 (a' & (l & ->) & ->). reflexivity. Qed.

Definition gagree (q q' : option (gsess * res gans)) : Prop :=
  match q, q' with
  | None, None => True
  | Some (s, a), Some (s', a') => gconfig_of s' = gconfig_of s /\ a' = a
  | _, _ => False
  end.
Lemma gagree_flight : forall s s' q q', gs_P s' = gs_P s -> se_dm (gs_sess s') = se_dm (gs_sess s) -> twin q q' -> gagree (gflight s q) (gflight s' q').
Proof.
  intros s s' q q' HP HD T. unfold gflight. rewrite HP, HD. destruct q as [[o [[[a b] r]|e]]|], q' as [[o' [[[a' b'] r']|e']]|]; cbn [twin] in T; try contradiction; cbn [gagree]; auto.
  - destruct T as (-> & S1 & S2 & ->). split; [reflexivity|]. rewrite (see_same _ _ S1), (see_same _ _ S2). reflexivity.
  - destruct T as (S & ->). split; [|reflexivity]. unfold gconfig_of. cbn [gs_sess gs_P]. f_equal. apply config_same. auto.
Qed.
Lemma gserve_agree : forall E X fuel c s s', gconfig_of s' = gconfig_of s -> gagree (gserve E X fuel c s) (gserve E X fuel c s').
Proof.
  intros E X fuel c s s' H. unfold gconfig_of in H. injection H as HV HI HT HD HP.
  assert (HC : config_of (gs_sess s') = config_of (gs_sess s)) by (unfold config_of; congruence).
  destruct c; cbn [gserve]; try (rewrite HP; split; [unfold gconfig_of; cbn [gs_sess gs_P]; rewrite HC; reflexivity|reflexivity]).
  - pose proof (serve_agree E fuel c _ _ HC) as A. destruct (serve E fuel c (gs_sess s)) as [[s1 a1]|], (serve E fuel c (gs_sess s')) as [[s2 a2]|]; cbn [agree_s] in A; try contradiction; [|exact I].
    destruct A as (A & ->). split; [unfold gconfig_of; cbn [gs_sess gs_P]; rewrite A, HP; reflexivity|reflexivity].
  - apply gagree_flight; auto. rewrite HP. destruct (se_obj (gs_sess s)) as [V i tol fl ht], (se_obj (gs_sess s')) as [V' i' tol' fl' ht']. cbn in HV, HI, HT. subst. apply twin_lift.
  - apply gagree_flight; auto. rewrite HP, HD. destruct (se_obj (gs_sess s)) as [V i tol fl ht], (se_obj (gs_sess s')) as [V' i' tol' fl' ht']. cbn in HV, HI, HT. subst. apply twin_drag.
Qed.

(** * C100 *)
(** Two objects with the same configuration answer every sequence of calls alike, guided flights and exceptions
    included, whatever each of them has flown before. *)
Theorem C100_no_memory : forall E X fuel calls s1 s2, gconfig_of s2 = gconfig_of s1 ->
  match grun E X fuel calls s1, grun E X fuel calls s2 with
  | Some (s1', answers1), Some (s2', answers2) => answers2 = answers1 /\ gconfig_of s2' = gconfig_of s1'
  | None, None => True
  | _, _ => False
  end.
Proof.
  intros E X fuel calls. induction calls as [|c l IH]; intros s1 s2 H; cbn [grun]; [auto|].
  pose proof (gserve_agree E X fuel c s1 s2 H) as A. destruct (gserve E X fuel c s1) as [[s1' a1]|], (gserve E X fuel c s2) as [[s2' a2]|]; cbn [gagree] in A; try contradiction; auto. destruct A as (A & ->).
  specialize (IH s1' s2' A). destruct (grun E X fuel l s1') as [[s1'' l1]|], (grun E X fuel l s2') as [[s2'' l2]|]; try contradiction; auto. destruct IH as (-> & IH). auto.
Qed.

Lemma gserve_after : forall E X fuel c s s' a k, nan_keeps X -> gserve E X fuel c s = Some (s', Ok a) -> holds k s -> holds (gafter c k) s'.
Proof.
  intros E X fuel c s s' a k HX H (HV & HT & HD & HP & HI). destruct c; cbn [gserve] in H.
  - destruct (serve E fuel c (gs_sess s)) as [[s1 [a1|]]|] eqn:Es; try discriminate. injection H as <- _. apply serve_after in Es. unfold holds. cbn [gs_sess gs_P].
    assert (G : config_of s1 = after c (config_of (gs_sess s))) by exact Es.
    unfold config_of in G. destruct c; cbn [after cf_veh cf_init cf_tol cf_dm] in G; rewrite ?HD in G; try (injection G as -> -> -> ->; unfold gafter; cbn [kn_veh kn_init kn_tol kn_dm kn_P]; auto; fail).
    all: unfold gafter; destruct (kn_dm k) as [[b r]|] eqn:Ek; injection G as -> -> -> ->; cbn [kn_veh kn_init kn_tol kn_dm kn_P]; rewrite ?HV, ?HD, ?Ek; auto.
  - injection H as <- _. unfold holds, gafter. cbn [gs_sess gs_P kn_veh kn_init kn_tol kn_dm kn_P]. rewrite HP. auto.
  - injection H as <- _. unfold holds, gafter. cbn [gs_sess gs_P kn_veh kn_init kn_tol kn_dm kn_P]. rewrite HP. auto.
  - injection H as <- _. unfold holds, gafter. cbn [gs_sess gs_P kn_veh kn_init kn_tol kn_dm kn_P]. rewrite HP. auto.
  - injection H as <- _. unfold holds, gafter. cbn [gs_sess gs_P kn_veh kn_init kn_tol kn_dm kn_P]. rewrite HP. auto.
  - unfold gflight in H. destruct (propogateGuidedEntry _ _ _ _ _ _ _ _ _ _) as [[o [[[x y] r]|]]|] eqn:F; try discriminate. injection H as <- _.
    destruct (lift_base _ _ _ _ _ _ _ _ _ _ _ _ _ _ HX F) as (A & B). unfold holds, gafter. cbn [gs_sess gs_P se_obj se_dm kn_veh kn_init kn_tol kn_dm kn_P]. rewrite A, B. auto.
  - unfold gflight in H. destruct (propogateGuidedEntryD _ _ _ _ _ _ _ _ _ _ _ _) as [[o [[[x y] r]|]]|] eqn:F; try discriminate. injection H as <- _.
    destruct (C76_left_behind _ _ _ _ _ _ _ _ _ _ _ _ _ _ _ _ F) as (b1 & ratio & E1 & _ & _ & _ & A & B & _). unfold holds, gafter. cbn [gs_sess gs_P se_obj se_dm kn_veh kn_init kn_tol kn_dm kn_P]. rewrite HD in E1. rewrite A, B, E1, HV. split; [reflexivity|]. repeat split; auto; congruence.
Qed.
(** After any history of calls that all returned, what the setters put there is in force, except that a guided flight
    spoils the initial state and (drag modulation) leaves the ballistic coefficient after jettison. *)
Theorem C100_configuration : forall E X fuel history s s' answers k, nan_keeps X -> grun E X fuel history s = Some (s', answers) -> Forall returned answers ->
  holds k s -> holds (gafter_all history k) s'.
Proof.
  intros E X fuel history. induction history as [|c l IH]; intros s s' answers k HX H R K; cbn [grun] in H; [injection H as <- _; exact K|].
  destruct (gserve E X fuel c s) as [[s1 a]|] eqn:E1; [|discriminate]. destruct (grun E X fuel l s1) as [[s2 as_]|] eqn:E2; [|discriminate]. injection H as <- <-.
  inversion R as [|? ? (x & ->) R']; subst. unfold gafter_all. cbn [fold_left]. apply (IH s1 s2 as_ (gafter c k) HX E2 R'). eapply gserve_after; eauto.
Qed.
(** So setting the initial state again is enough: after any history that returned, setInitialState followed by any
    calls answers as a fresh object configured like that would. *)
Theorem C100_reset : forall E X fuel history s s' answers k i fresh calls, nan_keeps X -> grun E X fuel history s = Some (s', answers) -> Forall returned answers ->
  holds k s -> holds (gafter_all (history ++ [Plain (SetInitialState i)]) k) fresh ->
  match grun E X fuel calls fresh, grun E X fuel (Plain (SetInitialState i) :: calls) s' with
  | Some (f, answers1), Some (s'', answers2) => answers2 = Ok (Answer Nothing) :: answers1 /\ gconfig_of s'' = gconfig_of f
  | None, None => True
  | _, _ => False
  end.
Proof.
  intros E X fuel history s s' answers k i fresh calls HX H R K F. pose proof (C100_configuration _ _ _ _ _ _ _ _ HX H R K) as (A1 & A2 & A3 & A4 & _).
  unfold gafter_all in F. rewrite fold_left_app in F. cbn [fold_left] in F. fold (gafter_all history k) in F. destruct F as (B1 & B2 & B3 & B4 & B5).
  cbn [grun gserve serve]. unfold rmap. cbn [gafter kn_veh kn_init kn_tol kn_dm kn_P] in *.
  set (t := mkGS _ _ _).
  assert (G : gconfig_of t = gconfig_of fresh). { unfold gconfig_of, config_of, t. cbn [gs_sess gs_P se_obj se_dm ob_veh ob_init ob_tol]. rewrite A1, A2, A3, A4, B1, B2, B3, B4, B5. reflexivity. }
  pose proof (C100_no_memory E X fuel calls fresh t G) as M. destruct (grun E X fuel calls fresh) as [[f l1]|], (grun E X fuel calls t) as [[f' l2]|]; try contradiction; auto. destruct M as (-> & M). auto.
Qed.
(** The glide parameters and the drag-entry parameters are the same four attributes: the last setter wins. *)
Theorem C100_shared_parameters : forall E X fuel s gh gq v l n h v' l' n' h' s' answers,
  grun E X fuel [SetEquilibriumGlideParams gh gq v l n h; SetDragEntryPhaseParams v' l' n' h'] s = Some (s', answers) ->
  g_vswitch (gs_P s') = v' /\ g_lowAlt (gs_P s') = l' /\ g_numLow (gs_P s') = n' /\ g_hdotthr (gs_P s') = h' /\ g_Ghdot (gs_P s') = gh /\ g_Gq (gs_P s') = gq.
Proof. intros. cbn [grun gserve] in H. injection H as <- _. cbn [gs_P g_vswitch g_lowAlt g_numLow g_hdotthr g_Ghdot g_Gq]. auto 7. Qed.
(** What a guided flight shows: the whole recorded history and the ten step arrays, nothing left out but hdotref_array,
    which starts with leftovers of earlier flights. *)
Theorem C100_what_is_seen : forall s s', see s = see s' <->
  s_hist s = s_hist s' /\ a_t (s_arr s) = a_t (s_arr s') /\ a_delta (s_arr s) = a_delta (s_arr s') /\ a_hdot (s_arr s) = a_hdot (s_arr s') /\
  a_hddot (s_arr s) = a_hddot (s_arr s') /\ a_qref (s_arr s) = a_qref (s_arr s') /\ a_q (s_arr s) = a_q (s_arr s') /\ a_h (s_arr s) = a_h (s_arr s') /\
  a_acc (s_arr s) = a_acc (s_arr s') /\ a_drag (s_arr s) = a_drag (s_arr s') /\ a_dens (s_arr s) = a_dens (s_arr s').
Proof.
  intros s s'. unfold see. split.
  - intros H. injection H. intros. do 10 (split; [assumption|]). assumption.
  - intros (-> & -> & -> & -> & -> & -> & -> & -> & -> & -> & ->). reflexivity.
Qed.
