(** Concrete histories of a newly made vehicle (witnesses of C114). *)
From Coq Require Import String List ZArith.
Require Import Verif.Base Verif.Numpy Verif.NumpyProofs Verif.PlanetModel Verif.PlanetProofs Verif.AeroModel Verif.FlightProofs Verif.HeatModel Verif.TrajectoryModel Verif.TrajectorySpec
  Verif.TrajectoryProofs Verif.PropTrajectory Verif.OrbitScalarModel Verif.OrbiterModel Verif.OrbitModel Verif.CorridorModel Verif.PropCorridor
  Verif.GuidanceModel Verif.GuidanceSpec Verif.GuidanceProofs Verif.PropControl Verif.PropGuidance Verif.PropGuidanceEx Verif.DragModel Verif.PropDrag
  Verif.MonteProofs Verif.PropMonteEx Verif.SessionModel Verif.GuidedModel Verif.SetupModel Verif.SetupSpec Verif.PropSetup.
Import ListNotations.
Local Open Scope R_scope.
Local Open Scope list_scope.

Definition start : init := mkInit 179 0 0 11 0 0 0 0.
Definition guided : greq := PropogateGuidedEntry false 1 1 600.
Definition glider_at (vs : R) : gsess := mkGS (mkSess (mkObj glider start 1 None None) None) (glide_params vs) [].
Definition configured (vs : R) : osess := mkOS glider (Some start) (Some 1) None None None (mkAtt (Some 30) (Some (0, 1)) (Some (vs, 50, 10%nat, 0)) (Some (200, 400, 10))) [].
Definition untargeted (vs : R) : osess := mkOS glider (Some start) (Some 1) None None None (mkAtt (Some 30) (Some (0, 1)) (Some (vs, 50, 10%nat, 0)) None) [].
Definition settings : list greq :=
  [Plain (SetSolverParams 1); SetTargetOrbitParams 200 400 10; SetEquilibriumGlideParams 0 1 5 50 10 0; SetMaxRollRate 30; Plain (SetInitialState start)].
Lemma orun_snoc : forall E X fuel l c s s1 a, orun E X fuel l s = Some (s1, a) ->
  orun E X fuel (l ++ [c]) s = match oserve E X fuel c s1 with None => None | Some (s2, b) => Some (s2, a ++ [b]) end.
Proof.
  intros E X fuel l c. induction l as [|d l IH]; intros s s1 a H; cbn [orun app] in *; [injection H as <- <-; destruct (oserve E X fuel c s) as [[? ?]|]; reflexivity|].
  destruct (oserve E X fuel d s) as [[s2 b]|]; [|discriminate]. destruct (orun E X fuel l s2) as [[s3 as_]|] eqn:O; [|discriminate]. injection H as <- <-. rewrite (IH _ _ _ O).
  destruct (oserve E X fuel c s3) as [[? ?]|]; reflexivity.
Qed.
(** The settings reach the configured object from a new one, in this and in the opposite order; the guided flight is
    refused before the initial state is set and returns once everything is. *)
Example C114_witness :
  orun (brake 1) no_nan 5 settings (fresh glider []) = Some (configured 5, repeat (Ok (Answer Nothing)) 5) /\
  orun (brake 1) no_nan 5 (rev settings) (fresh glider []) = Some (configured 5, repeat (Ok (Answer Nothing)) 5) /\
  Forall setter settings /\ ForallOrdPairs (fun c1 c2 => forall k, sets c1 k -> ~ sets c2 k) settings /\
  enough guided (set_in settings) /\ fills (configured 5) (glider_at 5) /\
  (exists s' f w r, orun (brake 1) no_nan 5 (settings ++ [guided]) (fresh glider []) = Some (s', repeat (Ok (Answer Nothing)) 5 ++ [Ok (Flown f w r)])) /\
  orun (brake 1) no_nan 5 [Plain (SetSolverParams 1); guided] (fresh glider []) =
    Some (mkOS glider None (Some 1) None None None (mkAtt None None None None) [], [Ok (Answer Nothing); Err TypeError]).
Proof.
  assert (R1 : orun (brake 1) no_nan 5 settings (fresh glider []) = Some (configured 5, repeat (Ok (Answer Nothing)) 5)) by reflexivity.
  assert (EN : enough guided (set_in settings)).
  { assert (K : forall k c, In c settings -> sets c k -> set_in settings k) by (intros k c A B; exists c; auto). unfold settings in *. cbn [In] in K.
    split; [intros _; split; [eapply K; [do 4 right; left; reflexivity|exact I]|eapply K; [left; reflexivity|exact I]]|]. split; [intros []|].
    cbn. repeat split; [eapply K; [do 3 right; left; reflexivity|exact I]|eapply K; [do 2 right; left; reflexivity|exact I]|eapply K; [do 2 right; left; reflexivity|exact I]|eapply K; [do 1 right; left; reflexivity|exact I]]. }
  assert (FI : fills (configured 5) (glider_at 5)).
  { unfold fills, configured, glider_at. cbn. do 5 (split; [reflexivity|]). repeat split; intros; congruence. }
  split; [exact R1|]. split; [reflexivity|].
  split; [repeat constructor; [exists KTolerance|exists KTarget|exists KGlide|exists KRollRate|exists KInitialState]; exact I|].
  split; [unfold settings; repeat constructor; intros k A B; destruct k; cbn in A, B; auto|].
  split; [exact EN|]. split; [exact FI|]. split; [|reflexivity].
  destruct (short_flight (fun _ => 0.001) ltac:(lra)) as (o' & s & s' & rep & F). change (with_density glider (fun _ => 0.001)) with glider in F. fold start in F.
  pose proof (C114_enough (brake 1) no_nan 5 glider [] settings (configured 5) _ guided (glider_at 5) R1 EN FI) as A. cbn [guided gserve glider_at gs_sess se_obj gs_P gs_href] in A. rewrite F in A. cbn [gflight] in A.
  change (oserve (brake 1) no_nan 5 (PropogateGuidedEntry false 1 1 600) (configured 5)) with (oserve (brake 1) no_nan 5 guided (configured 5)) in A.
  destruct (oserve (brake 1) no_nan 5 guided (configured 5)) as [[s2 a]|] eqn:O; [|contradiction]. destruct A as (A & _). subst a.
  exists s2, (see s), (see s'), rep. rewrite (orun_snoc _ _ _ _ guided _ _ _ R1), O. reflexivity.
Qed.

(** A switch speed above the speed of the vehicle: the flight has no glide cycle and one exit cycle. *)
Lemma slow_start : exists o' s s' rep, propogateGuidedEntry false (brake 1) no_nan (glide_params 20) 1 1 600 5 (mkObj glider start 1 None None) [] = Some (o', Ok (s, s', rep)) /\
  a_t (s_arr s) = [0] /\ a_t (s_arr s') <> [0].
Proof.
  set (X := no_nan). set (P := glide_params 20). set (V := glider).
  assert (EV : vh_planet V = VENUS) by reflexivity.
  assert (HL : lifting "VENUS" V 179) by (apply glider_lifting; lra). pose proof HL as (HP & _ & _ & _ & Hh).
  destruct (brake_start 1 X "VENUS"%string V 179 11 start 1 [] ltac:(lra) HP Hh eq_refl eq_refl eq_refl) as (o1 & s0 & H0 & (L11 & L12 & L13 & L14 & L15) & V0 & A0).
  assert (Ed : exists d, last (a_delta (s_arr s0)) None = Some d) by (rewrite A0; cbn; eexists; reflexivity). destruct Ed as (d1 & Ed).
  set (o := set_init (s_obj s0) (last_init (y_plot (s_hist s0)) (last (y_heat (s_hist s0)) None))).
  destruct (brake_second 1 X "VENUS"%string o (psuedoController (g_rate P) 0 d1 1)) as (f2 & ht2 & Ep & F1 & F2 & F3 & _).
  { unfold o. cbn [set_init ob_veh]. rewrite L11. auto. }
  { unfold o. cbn [set_init ob_veh ob_init last_init h0_km]. rewrite L11, L12. exact Hh. }
  assert (EX : exists s2, exit_step false (brake 1) X P 1 1 (last (a_hdot (s_arr s0)) 0) (last (y_heat (s_hist s0)) None) (exit_start s0) = (s2, Ok true) /\ a_t (s_arr s2) <> [0]).
  { unfold exit_step, exit_start. cbn [s_obj s_arr s_hist s_dens s_delta s_vcur s_hcur]. rewrite Ed. unfold controller. cbn [obind]. fold o. rewrite Ep. unfold results. cbn [ob_flight ob_heat].
    rewrite L11, L12, EV. cbn [VENUS h_skip]. destruct (Rltb_spec (180000 - 10e3) (179 * 1e3)) as [Hx|Hx]; [|exfalso; lra]. eexists. split; [reflexivity|]. cbn [s_arr steps_app_exit a_t]. rewrite A0. discriminate. }
  destruct EX as (s2 & EX & TW).
  assert (W1 : while_loop (eg_guard P) (eg_step false (brake 1) X P 1 1 600) 5 s0 = Some (s0, Ok tt)).
  { cbn [while_loop]. unfold eg_guard at 1. rewrite V0. cbn [P glide_params g_vswitch]. fold P. destruct (Rltb_spec 20 (1 * 11)) as [Hx|Hx]; [exfalso; lra|]. reflexivity. }
  assert (W2 : while_loop exit_guard (exit_step false (brake 1) X P 1 1 (last (a_hdot (s_arr s0)) 0) (last (y_heat (s_hist s0)) None)) 5 (exit_start s0) = Some (s2, Ok tt)).
  { cbn [while_loop]. unfold exit_guard at 1. cbn [exit_start s_hcur s_obj]. fold (exit_start s0). rewrite L11, L12, EV. cbn [VENUS h_skip]. destruct (Rltb_spec 179 (180000 / 1e3)) as [Hx|Hx]; [|exfalso; lra]. rewrite EX. reflexivity. }
  do 4 eexists. unfold propogateGuidedEntry, propogateEquilibriumGlide. fold P. rewrite H0, W1. unfold propogateExitPhase. rewrite W2. split; [reflexivity|]. split; [rewrite A0; reflexivity|exact TW].
Qed.
(** The flight whose target orbit was forgotten. *)
Definition forgetful : list greq := [Plain (SetSolverParams 1); SetEquilibriumGlideParams 0 1 20 50 10 0; SetMaxRollRate 30; Plain (SetInitialState start)].
Example C114_late_witness : exists (g' : gsess) (f w : seen) (r : report), orun (brake 1) no_nan 5 forgetful (fresh glider []) = Some (untargeted 20, repeat (Ok (Answer Nothing)) 4) /\
  ~ set_in forgetful KTarget /\ fills (untargeted 20) (glider_at 20) /\ gserve (brake 1) no_nan 5 guided (glider_at 20) = Some (g', Ok (Flown f w r)) /\ sn_t f = [0] /\
  exists s', orun (brake 1) no_nan 5 (forgetful ++ [guided]) (fresh glider []) = Some (s', repeat (Ok (Answer Nothing)) 4 ++ [Err AttributeError]).
Proof.
  destruct slow_start as (o' & s & s' & rep & F & T & _).
  assert (R1 : orun (brake 1) no_nan 5 forgetful (fresh glider []) = Some (untargeted 20, repeat (Ok (Answer Nothing)) 4)) by reflexivity.
  assert (FI : fills (untargeted 20) (glider_at 20)).
  { unfold fills, untargeted, glider_at. cbn. do 5 (split; [reflexivity|]). repeat split; intros; congruence. }
  assert (NT : ~ set_in forgetful KTarget) by (intros (c & C1 & C2); cbn [forgetful In] in C1; destruct C1 as [<-|[<-|[<-|[<-|[]]]]]; exact C2).
  assert (G : gserve (brake 1) no_nan 5 guided (glider_at 20) = Some (mkGS (mkSess o' None) (glide_params 20) (a_hdotref (s_arr s')), Ok (Flown (see s) (see s') rep))).
  { cbn [guided gserve glider_at gs_sess se_obj gs_P gs_href]. rewrite F. reflexivity. }
  do 4 eexists. split; [exact R1|]. split; [exact NT|]. split; [exact FI|]. split; [exact G|]. split; [exact T|].
  assert (K : forall k c, In c forgetful -> sets c k -> set_in forgetful k) by (intros k c A B; exists c; auto). unfold forgetful in K. cbn [In] in K.
  assert (S1 : set_in forgetful KInitialState) by (eapply K; [do 3 right; left; reflexivity|exact I]).
  assert (S2 : set_in forgetful KTolerance) by (eapply K; [left; reflexivity|exact I]).
  assert (S3 : set_in forgetful KRollRate) by (eapply K; [do 2 right; left; reflexivity|exact I]).
  assert (S4 : set_in forgetful KPhase) by (eapply K; [do 1 right; left; reflexivity|exact I]).
  destruct (C114_target_late _ _ _ _ _ _ _ _ _ _ _ _ _ _ _ _ _ R1 S1 S2 S3 S4 NT FI G T) as (s2 & O & _).
  exists s2. rewrite (orun_snoc _ _ _ _ guided _ _ _ R1). unfold guided. rewrite O. reflexivity.
Qed.

(** The same flight when the switch parameters, or only the roll rate, were forgotten; and a drag search before the
    initial state is set. *)
Definition unswitched : list greq := [Plain (SetSolverParams 1); SetTargetOrbitParams 200 400 10; Plain (SetInitialState start)].
Definition unrolled : list greq := [Plain (SetSolverParams 1); SetDragEntryPhaseParams 20 50 10 0; Plain (SetInitialState start)].
Definition unplaced : list greq := [Plain (SetDragModulationVehicleParams 100 2)].
Example C114_missing_witness :
  (exists s', orun (brake 1) no_nan 5 (unswitched ++ [guided]) (fresh glider []) = Some (s', repeat (Ok (Answer Nothing)) 3 ++ [Err AttributeError])) /\
  (exists s', orun (brake 1) no_nan 5 (unrolled ++ [guided]) (fresh glider []) = Some (s', repeat (Ok (Answer Nothing)) 3 ++ [Err AttributeError])) /\
  (forall two t dt low high tol apo, orun (brake 1) no_nan 5 (unplaced ++ [Plain (FindUnderShootLimitD two t dt low high tol apo)]) (fresh glider []) =
     Some (mkOS (liftless (SetupSpec.ballistic glider (100 * 2))) None None None None (Some (100, 2)) (mkAtt None None None None) [], [Ok (Answer Nothing); Err TypeError])).
Proof.
  destruct slow_start as (o' & s & s' & rep & F & T & TW).
  assert (G : gserve (brake 1) no_nan 5 guided (glider_at 20) = Some (mkGS (mkSess o' None) (glide_params 20) (a_hdotref (s_arr s')), Ok (Flown (see s) (see s') rep))).
  { cbn [guided gserve glider_at gs_sess se_obj gs_P gs_href]. rewrite F. reflexivity. }
  split; [|split].
  - assert (R1 : orun (brake 1) no_nan 5 unswitched (fresh glider []) = Some (mkOS glider (Some start) (Some 1) None None None (mkAtt None None None (Some (200, 400, 10))) [], repeat (Ok (Answer Nothing)) 3)) by reflexivity.
    assert (FI : fills (mkOS glider (Some start) (Some 1) None None None (mkAtt None None None (Some (200, 400, 10))) []) (glider_at 20)).
    { unfold fills, glider_at. cbn. do 5 (split; [reflexivity|]). repeat split; intros; congruence. }
    assert (N : ~ set_in unswitched KPhase) by (intros (c & C1 & C2); cbn [unswitched In] in C1; destruct C1 as [<-|[<-|[<-|[]]]]; exact C2).
    assert (S1 : set_in unswitched KInitialState) by (exists (Plain (SetInitialState start)); cbn; auto).
    assert (S2 : set_in unswitched KTolerance) by (exists (Plain (SetSolverParams 1)); cbn; auto).
    destruct (C114_no_switch _ _ _ _ _ _ _ _ _ _ _ _ _ _ R1 S1 S2 N FI G) as (s2 & O). exists s2. rewrite (orun_snoc _ _ _ _ guided _ _ _ R1), O. reflexivity.
  - assert (R1 : orun (brake 1) no_nan 5 unrolled (fresh glider []) = Some (mkOS glider (Some start) (Some 1) None None None (mkAtt None None (Some (20, 50, 10%nat, 0)) None) [], repeat (Ok (Answer Nothing)) 3)) by reflexivity.
    assert (FI : fills (mkOS glider (Some start) (Some 1) None None None (mkAtt None None (Some (20, 50, 10%nat, 0)) None) []) (glider_at 20)).
    { unfold fills, glider_at. cbn. do 5 (split; [reflexivity|]). repeat split; intros; congruence. }
    assert (N : ~ set_in unrolled KRollRate) by (intros (c & C1 & C2); cbn [unrolled In] in C1; destruct C1 as [<-|[<-|[<-|[]]]]; exact C2).
    assert (S1 : set_in unrolled KInitialState) by (exists (Plain (SetInitialState start)); cbn; auto).
    assert (S2 : set_in unrolled KTolerance) by (exists (Plain (SetSolverParams 1)); cbn; auto).
    assert (S3 : set_in unrolled KPhase) by (exists (SetDragEntryPhaseParams 20 50 10 0); cbn; auto).
    destruct (C114_no_roll_rate _ _ _ _ _ _ _ _ _ _ _ _ _ _ _ _ _ R1 S1 S2 S3 N FI G T TW) as (s2 & O). exists s2. rewrite (orun_snoc _ _ _ _ guided _ _ _ R1). unfold guided. rewrite O. reflexivity.
  - intros. assert (R1 : orun (brake 1) no_nan 5 unplaced (fresh glider []) = Some (mkOS glider None None None None (Some (100, 2)) (mkAtt None None None None) [], [Ok (Answer Nothing)])) by reflexivity.
    rewrite (orun_snoc _ _ _ _ _ _ _ _ R1). rewrite (C114_no_initial_state_drag _ _ _ _ _ _ _ _ _ 100 2 R1); [reflexivity| | |reflexivity| |].
    + intros (c & C1 & C2). cbn [unplaced In] in C1. destruct C1 as [<-|[]]. exact C2.
    + split; [intros (k & Hk); destruct k; exact Hk|exact I].
    + cbn. lra.
    + cbn. lra.
Qed.

(** The flight of C114_witness has a glide cycle; without the gains or the roll rate it raises there. *)
Definition ungained : list greq := [Plain (SetSolverParams 1); SetTargetOrbitParams 200 400 10; SetDragEntryPhaseParams 5 50 10 0; SetMaxRollRate 30; Plain (SetInitialState start)].
Example C114_no_gains_witness : exists (s' : osess) (g' : gsess) (f w : seen) (r : report),
  gserve (brake 1) no_nan 5 guided (glider_at 5) = Some (g', Ok (Flown f w r)) /\ sn_t f <> [0] /\ ~ set_in ungained KGlide /\
  orun (brake 1) no_nan 5 (ungained ++ [guided]) (fresh glider []) = Some (s', repeat (Ok (Answer Nothing)) 5 ++ [Err AttributeError]).
Proof.
  destruct (short_flight (fun _ => 0.001) ltac:(lra)) as (o' & s & s' & rep & F). change (with_density glider (fun _ => 0.001)) with glider in F. fold start in F.
  assert (T : a_t (s_arr s) <> [0]).
  { unfold propogateGuidedEntry, propogateEquilibriumGlide in F.
    assert (HL : lifting "VENUS" glider 179) by (apply glider_lifting; lra). pose proof HL as (HP & _ & _ & _ & Hh).
    destruct (brake_start 1 no_nan "VENUS"%string glider 179 11 start 1 [] ltac:(lra) HP Hh eq_refl eq_refl eq_refl) as (o1 & s0 & H0 & _ & V0 & A0).
    rewrite H0 in F. destruct (while_loop (eg_guard _) _ 5 s0) as [[s1 [[]|e]]|] eqn:W; try discriminate.
    destruct (propogateExitPhase _ _ _ _ _ _ _ _) as [[s2 [r|e]]|]; try discriminate. injection F as _ <- _ _.
    destruct (eg_loop_grows _ _ _ _ _ _ _ _ _ _ _ W) as [(-> & Gd)|L].
    - exfalso. unfold eg_guard in Gd. rewrite V0 in Gd. cbn [glide_params g_vswitch] in Gd. destruct (Rltb_spec 5 (1 * 11)) as [Hx|Hx]; [discriminate|lra].
    - intros T. rewrite T, (start_t _ _ _ _ _ _ _ _ H0) in L. cbn in L. lia. }
  assert (G : gserve (brake 1) no_nan 5 guided (glider_at 5) = Some (mkGS (mkSess o' None) (glide_params 5) (a_hdotref (s_arr s')), Ok (Flown (see s) (see s') rep))).
  { cbn [guided gserve glider_at gs_sess se_obj gs_P gs_href]. rewrite F. reflexivity. }
  assert (R1 : orun (brake 1) no_nan 5 ungained (fresh glider []) =
    Some (mkOS glider (Some start) (Some 1) None None None (mkAtt (Some 30) None (Some (5, 50, 10%nat, 0)) (Some (200, 400, 10))) [], repeat (Ok (Answer Nothing)) 5)) by reflexivity.
  assert (FI : fills (mkOS glider (Some start) (Some 1) None None None (mkAtt (Some 30) None (Some (5, 50, 10%nat, 0)) (Some (200, 400, 10))) []) (glider_at 5)).
  { unfold fills, glider_at. cbn. do 5 (split; [reflexivity|]). repeat split; intros; congruence. }
  assert (N : ~ set_in ungained KGlide) by (intros (c & C1 & C2); cbn [ungained In] in C1; destruct C1 as [<-|[<-|[<-|[<-|[<-|[]]]]]]; exact C2).
  assert (S1 : set_in ungained KInitialState) by (exists (Plain (SetInitialState start)); split; [do 4 right; left; reflexivity|exact I]).
  assert (S2 : set_in ungained KTolerance) by (exists (Plain (SetSolverParams 1)); split; [left; reflexivity|exact I]).
  assert (S3 : set_in ungained KPhase) by (exists (SetDragEntryPhaseParams 5 50 10 0); split; [do 2 right; left; reflexivity|exact I]).
  destruct (C114_no_gains _ _ _ _ _ _ _ _ _ _ _ _ _ _ _ _ _ R1 S1 S2 S3 (or_introl N) FI G T) as (s2 & O).
  exists s2. do 4 eexists. split; [exact G|]. split; [exact T|]. split; [exact N|]. rewrite (orun_snoc _ _ _ _ guided _ _ _ R1). unfold guided. rewrite O. reflexivity.
Qed.
