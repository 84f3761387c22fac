(** Theorems about the drag-modulation guidance: C76, and the counterparts of C58, C59, C74, C75, C77. *)
From Coq Require Import String List ZArith.
Require Import Verif.Base Verif.Numpy Verif.NumpyProofs Verif.PlanetModel Verif.PlanetProofs Verif.AeroModel Verif.FlightProofs Verif.HeatModel Verif.TrajectoryModel Verif.TrajectorySpec
  Verif.TrajectoryProofs Verif.PropTrajectory Verif.OrbitScalarModel Verif.OrbiterModel Verif.OrbitModel Verif.CorridorModel Verif.PropCorridor
  Verif.GuidanceModel Verif.GuidanceSpec Verif.GuidanceProofs Verif.PropControl Verif.PropGuidance Verif.DragModel.
Local Open Scope R_scope.

(** A pass of the entry loop that returns. *)
Lemma d_step_inv : forall two E X dm P timeStep dt maxTime s s' b, d_step two E X dm P timeStep dt maxTime s = (s', Ok b) ->
  let V := ob_veh (s_obj s) in let p := vh_planet V in let q' := y_plot (s_hist s') in
  exists f heat apo, propagate two E X (restarted s (cur_heat s)) timeStep dt (Some 0) = (s_obj s', Ok tt) /\
    ob_flight (s_obj s') = Some f /\ ob_heat (s_obj s') = Some heat /\
    s_hist s' = hist_app (s_hist s) f heat /\
    s_arr s' = steps_app_d (s_arr s) (cur_t s) (cur_hdot s) (cur_q s) (cur_h s) (last (f_acc_net f) None)
      (last (f_acc_drag f) None) (last (y_net (s_hist s')) None) (measured_density V (last (y_drag (s_hist s')) None) (cur_v s) (last (p_v q') 0)) /\
    s_delta s' = s_delta s /\ s_vcur s' = s_vcur s /\ s_hcur s' = s_hcur s /\ b = d_break p P apo (last (p_h q') 0) /\
    (cur_hdot s <= g_hdotthr P /\ apo = Some 0 /\ s_dens s' = s_dens s \/
     g_hdotthr P < cur_hdot s /\ exists d, s_dens s' = Some d /\
       (s_dens s = Some d \/ s_dens s = None /\
          createDensityMeasuredFunction p (density_int (vh_atm V)) (nan_dens X) (a_h (s_arr s')) (a_dens (s_arr s')) (g_lowAlt P) (g_numLow P) = Ok d) /\
       predictAfterJettison two E dm (ob_veh (s_obj s')) (ob_tol (s_obj s')) (last (p_h q') 0) (last (p_theta q') 0) (last (p_phi q') 0) (last (p_v q') 0)
         (last (p_gamma q') 0) (last (p_psi q') 0) (last (p_drange q') 0) (last (y_heat (s_hist s')) None) maxTime dt 0 d = Ok apo).
Proof.
  intros two E X dm P timeStep dt maxTime s s' b H. cbv zeta. unfold d_step in H. cbv zeta in H.
  fold (cur_v s) in H. fold (cur_h s) in H. fold (cur_t s) in H. fold (cur_heat s) in H.
  fold (cur_hdot s) in H. fold (cur_q s) in H. fold (restarted s (cur_heat s)) in H.
  destruct (propagate two E X _ timeStep dt (Some 0)) as [o2 [[]|]] eqn:Ep; [|discriminate].
  unfold results in H. destruct (ob_flight o2) as [f|] eqn:Ef; [|discriminate]. destruct (ob_heat o2) as [heat|] eqn:Eh; [|discriminate].
  set (H1 := hist_app (s_hist s) f heat) in *. set (a := steps_app_d _ _ _ _ _ _ _ _ _) in *.
  destruct (Rltb_spec (g_hdotthr P) (cur_hdot s)) as [Hd|Hd].
  - match type of H with match ?M with _ => _ end = _ => destruct M as [d|] eqn:Ed; [|discriminate] end.
    match type of H with match ?M with _ => _ end = _ => destruct M as [apo|] eqn:Ea; [|discriminate] end.
    injection H as <- <-. exists f, heat, apo. cbn [s_obj s_hist s_arr s_delta s_vcur s_hcur s_dens].
    do 8 (split; [auto|]). split; [auto|]. right. split; auto. exists d. split; [auto|]. split; [|auto].
    destruct (s_dens s) as [d'|]; [left; congruence|right; auto].
  - injection H as <- <-. exists f, heat, (Some 0). cbn [s_obj s_hist s_arr s_delta s_vcur s_hcur s_dens].
    do 8 (split; [auto|]). split; [auto|]. left. split; auto. lra.
Qed.
(** Any pass, also one that raises. *)
Lemma d_step_any : forall two E X dm P timeStep dt maxTime s s' r, d_step two E X dm P timeStep dt maxTime s = (s', r) ->
  s_vcur s' = s_vcur s /\ s_obj s' = fst (propagate two E X (restarted s (cur_heat s)) timeStep dt (Some 0)) /\
  (s_arr s' = s_arr s /\ s_hist s' = s_hist s /\ (exists e, r = Err e) \/
   exists t hdot q h n1 d n2 m, s_arr s' = steps_app_d (s_arr s) t hdot q h n1 d n2 m).
Proof.
  intros two E X dm P timeStep dt maxTime s s' r H. unfold d_step in H. cbv zeta in H. fold (cur_heat s) in H. fold (restarted s (cur_heat s)) in H.
  destruct (propagate two E X _ timeStep dt (Some 0)) as [o2 [[]|]] eqn:Ep; [|injection H as <- <-; split; auto; split; auto; left; eauto 6].
  destruct (results o2) as [[f heat]|]; [|injection H as <- <-; split; auto; split; auto; left; eauto 6].
  match type of H with (if ?b then _ else _) = _ => destruct b end.
  - match type of H with match ?M with _ => _ end = _ => destruct M as [d|] eqn:Ed end; [|injection H as <- <-; split; [reflexivity|]; split; [reflexivity|]; right; cbn [s_arr]; do 8 eexists; reflexivity].
    match type of H with match ?M with _ => _ end = _ => destruct M as [apo|] eqn:Ea end; injection H as <- <-; split; try reflexivity; split; try reflexivity; right; cbn [s_arr]; do 8 eexists; reflexivity.
  - injection H as <- <-; split; [reflexivity|]; split; [reflexivity|]; right; cbn [s_arr]; do 8 eexists; reflexivity.
Qed.
(** A pass of the exit loop that returns. *)
Lemma dexit_step_inv : forall two E X timeStep dt hdref Ji s s' b, dexit_step two E X timeStep dt hdref Ji s = (s', Ok b) ->
  exists f heat, propagate two E X (restarted s Ji) timeStep dt (Some 0) = (s_obj s', Ok tt) /\
    ob_flight (s_obj s') = Some f /\ ob_heat (s_obj s') = Some heat /\
    y_plot (s_hist s') = y_plot (hist_app (s_hist s) f heat) /\ y_net (s_hist s') = y_net (hist_app (s_hist s) f heat) /\
    y_drag (s_hist s') = y_drag (s_hist s) /\ y_dyn (s_hist s') = y_dyn (hist_app (s_hist s) f heat) /\ y_stag (s_hist s') = y_stag (hist_app (s_hist s) f heat) /\
    y_qtot (s_hist s') = y_qtot (hist_app (s_hist s) f heat) /\ y_heat (s_hist s') = y_heat (hist_app (s_hist s) f heat) /\
    s_arr s' = steps_app_exit (s_arr s) (cur_t s) (Some 0) (cur_hdot s) hdref /\ s_vcur s' = s_vcur s /\
    let top := h_skip (vh_planet (ob_veh (s_obj s))) - 1e3 in
    (b = true /\ (top < cur_h s * 1e3 \/ cur_h s * 1e3 < 20e3) /\ s_hcur s' = s_hcur s \/
     b = false /\ 20e3 <= cur_h s * 1e3 <= top /\ s_hcur s' = cur_h s').
Proof.
  intros two E X timeStep dt hdref Ji s s' b H. unfold dexit_step in H. cbv zeta in H.
  fold (cur_v s) in H. fold (cur_h s) in H. fold (cur_t s) in H. fold (cur_hdot s) in H. fold (restarted s Ji) in H.
  destruct (propagate two E X _ timeStep dt (Some 0)) as [o2 [[]|]] eqn:Ep; [|discriminate].
  unfold results in H. destruct (ob_flight o2) as [f|] eqn:Ef; [|discriminate]. destruct (ob_heat o2) as [heat|] eqn:Eh; [|discriminate].
  match type of H with context [Rltb ?x ?y] => destruct (Rltb_spec x y) as [Hd|Hd] end.
  2: match type of H with context [Rltb ?x ?y] => destruct (Rltb_spec x y) as [Hd'|Hd'] end.
  all: injection H as <- <-; exists f, heat; cbn [s_obj s_hist s_arr s_delta s_vcur s_hcur s_dens y_plot y_net y_drag y_dyn y_stag y_qtot y_heat];
    do 12 (split; [auto|]); cbv zeta; first [left; split; [reflexivity|]; split; [first [left; lra|right; lra]|reflexivity]|right; split; [reflexivity|]; split; [lra|reflexivity]].
Qed.
Lemma dexit_step_any : forall two E X timeStep dt hdref Ji s s' r, dexit_step two E X timeStep dt hdref Ji s = (s', r) ->
  s_obj s' = fst (propagate two E X (restarted s Ji) timeStep dt (Some 0)) /\
  (s_arr s' = s_arr s /\ s_hist s' = s_hist s /\ (exists e, r = Err e) \/
   exists t hdot, s_arr s' = steps_app_exit (s_arr s) t (Some 0) hdot hdref).
Proof.
  intros two E X timeStep dt hdref Ji s s' r H. unfold dexit_step in H. cbv zeta in H. fold (restarted s Ji) in H.
  destruct (propagate two E X _ timeStep dt (Some 0)) as [o2 [[]|]] eqn:Ep; [|injection H as <- <-; split; auto; left; eauto 6].
  destruct (results o2) as [[f heat]|]; [|injection H as <- <-; split; auto; left; eauto 6].
  match type of H with (if ?b then _ else _) = _ => destruct b end; [|match type of H with (if ?b then _ else _) = _ => destruct b end];
  injection H as <- <-; cbn [s_arr s_obj fst]; (split; [auto|]); right; do 2 eexists; reflexivity.
Qed.

(** * C76: which vehicle is flown *)
Definition solver (two : bool) (E : engine) := if two then solveTrajectory2 E else solveTrajectory E.
(** What a propagation does to the object, returning or not. *)
Lemma propagate_keeps : forall two E X o t dt d, let o' := fst (propagate two E X o t dt (Some d)) in
  ob_veh o' = ob_veh o /\ ob_init o' = ob_init o /\ ob_tol o' = ob_tol o.
Proof.
  intros two E X o t dt d. cbn [propagate]. assert (G : forall f h, let o' := fst (store o f h) in ob_veh o' = ob_veh o /\ ob_init o' = ob_init o /\ ob_tol o' = ob_tol o).
  { intros f h. unfold store. destruct f as [g|]; [|cbn; auto]. destruct (ocumtrapz _ _ h); cbn; auto. }
  destruct two; unfold propogateEntry, propogateEntry2; apply G.
Qed.
Lemma propagate_flies : forall two E X o t dt d o', propagate two E X o t dt (Some d) = (o', Ok tt) ->
  exists f, ob_flight o' = Some f /\ fly (solver two E) (ob_veh o) (ob_tol o) (ob_init o) t dt d = Ok f.
Proof.
  intros two E X o t dt d o' H. cbn [propagate] in H. destruct two; unfold propogateEntry, propogateEntry2 in H; destruct (store_heat _ _ _ _ H) as (g & heat & A & B & _); exists g; auto.
Qed.
Lemma set_ballistic_ok : forall o b o', set_ballistic o b = (o', Ok tt) -> o' = set_veh o (ballistic (ob_veh o) b) /\ b * vh_A (ob_veh o) <> 0.
Proof.
  intros o b o' H. unfold set_ballistic in H. cbn [with_beta vh_A vh_mass] in H. destruct (Reqb_spec (b * vh_A (ob_veh o)) 0); [discriminate|]. injection H as <-. split; auto.
Qed.
Lemma ballistic_twice : forall V b c, ballistic (ballistic V b) c = ballistic V c. Proof. intros [] b c. reflexivity. Qed.
Lemma start_keeps : forall two E X o hr dt o1 s, eg_start two E X o hr dt = (o1, Ok s) -> ob_veh (s_obj s) = ob_veh o /\ ob_tol (s_obj s) = ob_tol o.
Proof.
  intros two E X o hr dt o1 s H. destruct (start_inv _ _ _ _ _ _ _ _ H) as (Hp & f & h & _ & _ & ->). pose proof (propagate_keeps two E X o 1 dt 0) as K. rewrite Hp in K. cbn [fst s_obj] in *. tauto.
Qed.
Definition flown_as (V : vehicle) (tol : R) (s : gst) : Prop := ob_veh (s_obj s) = V /\ ob_tol (s_obj s) = tol.
Lemma d_flown : forall two E X dm P ts dt mt V tol s s' r, flown_as V tol s -> d_step two E X dm P ts dt mt s = (s', r) -> flown_as V tol s'.
Proof.
  intros two E X dm P ts dt mt V tol s s' r (A & B) S. destruct (d_step_any _ _ _ _ _ _ _ _ _ _ _ S) as (_ & Eo & _). unfold flown_as. rewrite Eo.
  destruct (propagate_keeps two E X (restarted s (cur_heat s)) ts dt 0) as (K1 & _ & K2). rewrite K1, K2. auto.
Qed.
Lemma dexit_flown : forall two E X ts dt hr J V tol s s' r, flown_as V tol s -> dexit_step two E X ts dt hr J s = (s', r) -> flown_as V tol s'.
Proof.
  intros two E X ts dt hr J V tol s s' r (A & B) S. destruct (dexit_step_any _ _ _ _ _ _ _ _ _ _ S) as (Eo & _). unfold flown_as. rewrite Eo.
  destruct (propagate_keeps two E X (restarted s J) ts dt 0) as (K1 & _ & K2). rewrite K1, K2. auto.
Qed.
(** Every cycle of the entry phase: the segment added to the history is the flight, at zero bank and from
    the last recorded point, of the vehicle with ballistic coefficient beta1 (drag coefficient
    mass/(beta1*A), everything else, the lift coefficient included, as the user left it). *)
Theorem C76_entry_cycle : forall two E X P b1 ratio timeStep dt maxTime o o0 hdotref o1 s0 k s s' b,
  set_ballistic o b1 = (o0, Ok tt) -> eg_start two E X o0 hdotref dt = (o1, Ok s0) ->
  passes (d_step two E X (b1, ratio) P timeStep dt maxTime) k s0 s -> d_step two E X (b1, ratio) P timeStep dt maxTime s = (s', Ok b) ->
  let V := ob_veh o in
  let W := mkVehicle (vh_mass V) b1 (vh_LD V) (vh_A V) (vh_alpha V) (vh_RN V) (vh_planet V) (vh_atm V) (vh_user V) (vh_CDMach V)
             (vh_Abar V) (vh_mbar V) (vh_mass V / (b1 * vh_A V)) (vh_CL V) in
  exists f heat J, fly (solver two E) W (ob_tol o) (last_init (y_plot (s_hist s)) J) timeStep dt 0 = Ok f /\
    s_hist s' = hist_app (s_hist s) f heat /\ last (a_delta (s_arr s')) None = Some 0.
Proof.
  intros two E X P b1 ratio timeStep dt maxTime o o0 hdotref o1 s0 k s s' b H0 H1 Hk B V W. destruct (set_ballistic_ok _ _ _ H0) as (-> & _).
  assert (F : flown_as W (ob_tol o) s).
  { eapply (passes_invariant (flown_as W (ob_tol o))); [|exact Hk|]; [intros; eapply d_flown; eauto|]. destruct (start_keeps _ _ _ _ _ _ _ _ H1) as (A1 & A2). split; [rewrite A1; reflexivity|rewrite A2; reflexivity]. }
  destruct (d_step_inv _ _ _ _ _ _ _ _ _ _ _ B) as (f & heat & apo & Hp & Hf & Hh & Hy & Ha & _). destruct (propagate_flies _ _ _ _ _ _ _ _ Hp) as (g & Hg & G). rewrite Hf in Hg. injection Hg as <-.
  destruct F as (F1 & F2). cbn [restarted set_init ob_veh ob_tol ob_init] in G. rewrite F1, F2 in G. exists f, heat, (cur_heat s). split; auto. split; auto. rewrite Ha. cbn [steps_app_d a_delta]. apply last_last.
Qed.
(** The first second is flown the same way. *)
Theorem C76_first_second : forall two E X b1 dt o o0 hdotref o1 s0, set_ballistic o b1 = (o0, Ok tt) -> eg_start two E X o0 hdotref dt = (o1, Ok s0) ->
  exists f heat, fly (solver two E) (ballistic (ob_veh o) b1) (ob_tol o) (ob_init o) 1 dt 0 = Ok f /\ s_hist s0 = hist_of f heat.
Proof.
  intros two E X b1 dt o o0 hdotref o1 s0 H0 H1. destruct (set_ballistic_ok _ _ _ H0) as (-> & _). destruct (start_inv _ _ _ _ _ _ _ _ H1) as (Hp & f & h & Hf & Hh & ->).
  destruct (propagate_flies _ _ _ _ _ _ _ _ Hp) as (g & Hg & G). rewrite Hf in Hg. injection Hg as <-. exists f, h. auto.
Qed.
(** Every cycle of the exit phase: the same with ballistic coefficient beta1*betaRatio. *)
Theorem C76_exit_cycle : forall two E X b1 ratio timeStep dt hdot_ref Ji s1 o0 m s s' b, set_ballistic (s_obj s1) (b1 * ratio) = (o0, Ok tt) ->
  passes (dexit_step two E X timeStep dt hdot_ref Ji) m (exit_start (set_obj s1 o0)) s -> dexit_step two E X timeStep dt hdot_ref Ji s = (s', Ok b) ->
  let V := ob_veh (s_obj s1) in
  let W := mkVehicle (vh_mass V) (b1 * ratio) (vh_LD V) (vh_A V) (vh_alpha V) (vh_RN V) (vh_planet V) (vh_atm V) (vh_user V) (vh_CDMach V)
             (vh_Abar V) (vh_mbar V) (vh_mass V / (b1 * ratio * vh_A V)) (vh_CL V) in
  exists f heat, fly (solver two E) W (ob_tol (s_obj s1)) (last_init (y_plot (s_hist s)) Ji) timeStep dt 0 = Ok f /\
    y_plot (s_hist s') = y_plot (hist_app (s_hist s) f heat) /\ last (a_delta (s_arr s')) None = Some 0.
Proof.
  intros two E X b1 ratio timeStep dt hdot_ref Ji s1 o0 m s s' b H0 Hk B V W. destruct (set_ballistic_ok _ _ _ H0) as (-> & _).
  assert (F : flown_as W (ob_tol (s_obj s1)) s) by (eapply (passes_invariant (flown_as W (ob_tol (s_obj s1)))); [|exact Hk|split; reflexivity]; intros; eapply dexit_flown; eauto).
  destruct (dexit_step_inv _ _ _ _ _ _ _ _ _ _ B) as (f & heat & Hp & Hf & Hh & Hy & _ & _ & _ & _ & _ & _ & Ha & _). destruct (propagate_flies _ _ _ _ _ _ _ _ Hp) as (g & Hg & G). rewrite Hf in Hg. injection Hg as <-.
  destruct F as (F1 & F2). cbn [restarted set_init ob_veh ob_tol ob_init] in G. rewrite F1, F2 in G. exists f, heat. split; auto. split; auto. rewrite Ha. cbn [steps_app_exit a_delta]. apply last_last.
Qed.
(** After a guided flight the vehicle keeps the exit configuration: the user's ballistic and drag
    coefficients are lost, nothing else changed; every bank angle recorded is zero. *)
Theorem C76_left_behind : forall two E X dm P timeStepEntry timeStepExit dt maxTime n o hdotref o' s s' rep,
  propogateGuidedEntryD two E X dm P timeStepEntry timeStepExit dt maxTime n o hdotref = Some (o', Ok (s, s', rep)) ->
  exists b1 ratio, dm = Some (b1, ratio) /\ b1 * vh_A (ob_veh o) <> 0 /\ b1 * ratio * vh_A (ob_veh o) <> 0 /\
    ob_veh (s_obj s) = ballistic (ob_veh o) b1 /\ ob_veh o' = ballistic (ob_veh o) (b1 * ratio) /\ ob_tol o' = ob_tol o /\
    Forall (fun d => d = Some 0) (a_delta (s_arr s')).
Proof.
  intros two E X dm P tE tX dt mt n o hdotref o' s s' rep H. unfold propogateGuidedEntryD, propogateEntryPhaseD in H. destruct dm as [[b1 ratio]|]; [|discriminate]. cbn [fst] in H.
  destruct (set_ballistic o b1) as [o0 [[]|]] eqn:B0; [|discriminate]. destruct (eg_start two E X o0 hdotref dt) as [o1 [s0|]] eqn:E0; [|discriminate].
  destruct (while_loop (eg_guard P) _ n s0) as [[s1 [[]|]]|] eqn:E1; try discriminate.
  unfold propogateExitPhaseD in H. destruct (set_ballistic (s_obj s1) (b1 * ratio)) as [o2 [[]|]] eqn:B1; [|discriminate].
  destruct (while_loop exit_guard _ n (exit_start (set_obj s1 o2))) as [[s2 [[]|]]|] eqn:E2; try discriminate. injection H as <- <- <- <-.
  destruct (while_passes _ _ _ _ _ E1) as (k1 & P1). destruct (while_passes _ _ _ _ _ E2) as (k2 & P2).
  destruct (set_ballistic_ok _ _ _ B0) as (-> & N0). destruct (set_ballistic_ok _ _ _ B1) as (-> & N1).
  set (zero := fun s : gst => Forall (fun d => d = Some 0) (a_delta (s_arr s))).
  assert (F0 : flown_as (ballistic (ob_veh o) b1) (ob_tol o) s0) by (destruct (start_keeps _ _ _ _ _ _ _ _ E0) as (A1 & A2); split; [rewrite A1; reflexivity|rewrite A2; reflexivity]).
  assert (Z0 : zero s0) by (destruct (start_inv _ _ _ _ _ _ _ _ E0) as (_ & f & h & _ & _ & ->); unfold zero; cbn; auto).
  assert (F1 : flown_as (ballistic (ob_veh o) b1) (ob_tol o) s1) by (refine (pob_invariant _ _ _ _ _ _ P1 F0); intros; eapply d_flown; eauto).
  assert (Z1 : zero s1).
  { refine (pob_invariant zero _ _ _ _ _ P1 Z0). unfold zero. intros s s' b Z B. destruct (d_step_inv _ _ _ _ _ _ _ _ _ _ _ B) as (f & heat & apo & _ & _ & _ & _ & -> & _). cbn [steps_app_d a_delta]. apply Forall_app; auto. }
  destruct F1 as (F1 & T1). 
  assert (F2 : flown_as (ballistic (ob_veh o) (b1 * ratio)) (ob_tol o) s2).
  { refine (pob_invariant _ _ _ _ _ _ P2 _); [intros; eapply dexit_flown; eauto|]. split; cbn [exit_start set_obj s_obj set_veh ob_veh ob_tol]; auto. rewrite F1. apply ballistic_twice. }
  assert (Z2 : zero s2).
  { refine (pob_invariant zero _ _ _ _ _ P2 Z1). unfold zero. intros s s' b Z B. destruct (dexit_step_inv _ _ _ _ _ _ _ _ _ _ B) as (f & heat & _ & _ & _ & _ & _ & _ & _ & _ & _ & _ & -> & _). cbn [steps_app_exit a_delta]. apply Forall_app; auto. }
  destruct F2 as (F2 & T2). exists b1, ratio. split; auto. split; auto. split; [rewrite F1 in N1; exact N1|]. auto.
Qed.

(** The flight does not depend on what was on the vehicle before: ballistic and drag coefficients (they are
    overwritten), stored results, and the reference array left by an earlier guided flight. *)
Definition fresh_as (o o' : vobj) : Prop := exists b c fl ht, o' = mkObj (with_CD (with_beta (ob_veh o) b) c) (ob_init o) (ob_tol o) fl ht.
Definition but_href (a a' : steps) : Prop := exists l, a' = mkSteps (a_t a) (a_delta a) (a_hdot a) (a_hddot a) (a_qref a) (a_q a) (a_h a) (a_acc a) (a_drag a) (a_dens a) l.
Definition same_flight (s s' : gst) : Prop := exists a', but_href (s_arr s) a' /\ s' = mkGst (s_obj s) a' (s_hist s) (s_dens s) (s_delta s) (s_vcur s) (s_hcur s).
Lemma same_flight_refl : forall s, same_flight s s.
Proof. intros [o a h d dl v hc]. exists a. split; [destruct a; eexists; reflexivity|reflexivity]. Qed.
Definition like (x y : gst * res bool) : Prop := same_flight (fst x) (fst y) /\ snd x = snd y.
Lemma like_refl : forall s r, like (s, r) (s, r). Proof. intros s r. split; [apply same_flight_refl|reflexivity]. Qed.
Lemma d_step_like : forall two E X dm P ts dt mt s s2, same_flight s s2 -> like (d_step two E X dm P ts dt mt s) (d_step two E X dm P ts dt mt s2).
Proof.
  intros two E X dm P ts dt mt [o a h d dl v hc] s2 (a' & (l & ->) & ->). cbn [s_obj s_arr s_hist s_dens s_delta s_vcur s_hcur] in *.
  unfold d_step. cbv zeta. cbn [s_obj s_arr s_hist s_dens s_delta s_vcur s_hcur].
  destruct (propagate two E X _ ts dt (Some 0)) as [o2 [[]|]].
  2:{ split; [|reflexivity]. exists (mkSteps (a_t a) (a_delta a) (a_hdot a) (a_hddot a) (a_qref a) (a_q a) (a_h a) (a_acc a) (a_drag a) (a_dens a) l). split; [eexists; reflexivity|reflexivity]. }
  destruct (results o2) as [[f heat]|].
  2:{ split; [|reflexivity]. exists (mkSteps (a_t a) (a_delta a) (a_hdot a) (a_hddot a) (a_qref a) (a_q a) (a_h a) (a_acc a) (a_drag a) (a_dens a) l). split; [eexists; reflexivity|reflexivity]. }
  unfold steps_app_d. cbn [a_t a_delta a_hdot a_hddot a_qref a_q a_h a_acc a_drag a_dens a_hdotref].
  destruct (Rltb _ _); [|apply like_refl]. destruct (match d with Some d0 => Ok d0 | None => _ end); [|apply like_refl]. destruct (predictAfterJettison _ _ _ _ _ _ _ _ _ _ _ _ _ _ _ _ _); apply like_refl.
Qed.
Lemma dexit_step_like : forall two E X ts dt hr J s s2, same_flight s s2 -> like (dexit_step two E X ts dt hr J s) (dexit_step two E X ts dt hr J s2).
Proof.
  intros two E X ts dt hr J [o a h d dl v hc] s2 (a' & (l & ->) & ->). cbn [s_obj s_arr s_hist s_dens s_delta s_vcur s_hcur] in *.
  unfold dexit_step. cbv zeta. cbn [s_obj s_arr s_hist s_dens s_delta s_vcur s_hcur].
  assert (G : forall o2 r a1 l1 H1 d1 hc1, like (mkGst o2 a1 H1 d1 dl v hc1, r) (mkGst o2 (mkSteps (a_t a1) (a_delta a1) (a_hdot a1) (a_hddot a1) (a_qref a1) (a_q a1) (a_h a1) (a_acc a1) (a_drag a1) (a_dens a1) l1) H1 d1 dl v hc1, r)).
  { intros. split; [|reflexivity]. eexists. split; [eexists; reflexivity|reflexivity]. }
  destruct (propagate two E X _ ts dt (Some 0)) as [o2 [[]|]]; [|apply G]. destruct (results o2) as [[f heat]|]; [|apply G].
  unfold steps_app_exit. cbn [a_t a_delta a_hdot a_hddot a_qref a_q a_h a_acc a_drag a_dens a_hdotref].
  destruct (Rltb _ _); [|destruct (Rltb _ _)]; (split; [|reflexivity]; eexists; split; [eexists; reflexivity|reflexivity]).
Qed.
Lemma while_like : forall guard body, (forall s s2, same_flight s s2 -> guard s2 = guard s /\ like (body s) (body s2)) -> forall n s s2, same_flight s s2 ->
  match while_loop guard body n s, while_loop guard body n s2 with
  | Some (a, r), Some (b, r') => same_flight a b /\ r = r' | None, None => True | _, _ => False end.
Proof.
  intros guard body H n. induction n as [|n IH]; intros s s2 S; cbn [while_loop]; auto. destruct (H _ _ S) as (-> & L1 & L2).
  destruct (guard s); [|auto]. destruct (body s) as [s' r], (body s2) as [s2' r2]. cbn [fst snd] in *. subst r2. destruct r as [[|]|e]; [auto|apply IH; auto|auto].
Qed.
Lemma set_ballistic_fresh : forall o o' b, fresh_as o o' -> snd (set_ballistic o' b) = snd (set_ballistic o b) /\
  (snd (set_ballistic o b) = Ok tt -> exists V fl ht, fst (set_ballistic o b) = mkObj V (ob_init o) (ob_tol o) (ob_flight o) (ob_heat o) /\ fst (set_ballistic o' b) = mkObj V (ob_init o) (ob_tol o) fl ht).
Proof.
  intros [V i tol fl ht] o' b (b' & c & fl' & ht' & ->). unfold set_ballistic. cbn. destruct (Reqb _ _); cbn; split; auto; [discriminate|]. intros _. exists (ballistic V b), fl', ht'. split; reflexivity.
Qed.
Lemma eg_start_fresh : forall two E X V i tol fl ht fl' ht' hr hr' dt o1 s, eg_start two E X (mkObj V i tol fl ht) hr dt = (o1, Ok s) ->
  exists s', eg_start two E X (mkObj V i tol fl' ht') hr' dt = (o1, Ok s') /\ same_flight s s'.
Proof.
  intros two E X V i tol fl ht fl' ht' hr hr' dt o1 s H. unfold eg_start in *.
  assert (K : propagate two E X (mkObj V i tol fl' ht') 1 dt (Some 0) = propagate two E X (mkObj V i tol fl ht) 1 dt (Some 0) \/ exists e o2, propagate two E X (mkObj V i tol fl ht) 1 dt (Some 0) = (o2, Err e)).
  { cbn [propagate]. unfold propogateEntry, propogateEntry2, store. cbn [ob_veh ob_tol ob_init]. destruct two; (destruct (fly _ _ _ _ _ _ _) as [g|]; [|right; eauto]); (destruct (ocumtrapz _ _ _); [left; reflexivity|right; eauto]). }
  destruct K as [->|(e & o2 & Z)]; [|rewrite Z in H; discriminate].
  destruct (propagate two E X (mkObj V i tol fl ht) 1 dt (Some 0)) as [o2 [[]|]]; [|discriminate]. unfold results in *. destruct (ob_flight o2) as [f|]; [|discriminate]. destruct (ob_heat o2) as [hh|]; [|discriminate].
  cbn [rbind fst snd] in *. injection H as <- <-. eexists. split; [reflexivity|]. eexists. split; [|reflexivity]. eexists. reflexivity.
Qed.
Theorem C76_flight_independent_of_the_past : forall two E X dm P timeStepEntry timeStepExit dt maxTime n o o2 hdotref hdotref2 o' s s' rep, fresh_as o o2 ->
  propogateGuidedEntryD two E X dm P timeStepEntry timeStepExit dt maxTime n o hdotref = Some (o', Ok (s, s', rep)) ->
  exists s2 s2', propogateGuidedEntryD two E X dm P timeStepEntry timeStepExit dt maxTime n o2 hdotref2 = Some (o', Ok (s2, s2', rep)) /\
    same_flight s s2 /\ same_flight s' s2'.
Proof.
  intros two E X dm P tE tX dt mt n o o2 hr hr2 o' s s' rep HF H. unfold propogateGuidedEntryD, propogateEntryPhaseD in *. destruct dm as [[b1 ratio]|]; [|discriminate]. cbn [fst] in *.
  destruct (set_ballistic_fresh o o2 b1 HF) as (E1 & E2).
  destruct (set_ballistic o b1) as [o0 [[]|]] eqn:B0; [|discriminate]. destruct (set_ballistic o2 b1) as [o02 r02] eqn:B02. cbn [fst snd] in *. subst r02.
  destruct (E2 eq_refl) as (V & fl & ht & -> & ->). destruct (eg_start two E X _ hr dt) as [o1 [s0|]] eqn:S0; [|discriminate].
  destruct (eg_start_fresh _ _ _ _ _ _ _ _ fl ht _ hr2 _ _ _ S0) as (s02 & -> & SF0).
  assert (W : forall s s2, same_flight s s2 -> eg_guard P s2 = eg_guard P s /\ like (d_step two E X (b1, ratio) P tE dt mt s) (d_step two E X (b1, ratio) P tE dt mt s2)).
  { intros sa sb SF. split; [destruct SF as (a' & _ & ->); reflexivity|apply d_step_like; auto]. }
  pose proof (while_like _ _ W n _ _ SF0) as L. destruct (while_loop (eg_guard P) _ n s0) as [[s1 [[]|]]|]; try discriminate.
  destruct (while_loop (eg_guard P) _ n s02) as [[s12 r12]|]; [|contradiction]. destruct L as (SF1 & <-).
  unfold propogateExitPhaseD in *. destruct SF1 as (a1 & (l1 & ->) & ->). cbn [s_obj s_arr s_hist set_obj exit_start a_hdot a_delta s_dens s_delta s_vcur s_hcur] in *.
  destruct (set_ballistic (s_obj s1) (b1 * ratio)) as [o3 [[]|]]; [|discriminate].
  match goal with H : context [while_loop exit_guard ?body n ?st] |- _ => set (bd := body) in *; set (st1 := st) in * end.
  match goal with |- context [while_loop exit_guard bd n ?st] => set (st2 := st) end.
  assert (SF2 : same_flight st1 st2) by (eexists; split; [|reflexivity]; eexists; reflexivity).
  assert (W2 : forall s s2, same_flight s s2 -> exit_guard s2 = exit_guard s /\ like (bd s) (bd s2)).
  { intros sa sb SF. split; [destruct SF as (a' & _ & ->); reflexivity|apply dexit_step_like; auto]. }
  pose proof (while_like _ _ W2 n _ _ SF2) as L. destruct (while_loop exit_guard bd n st1) as [[s4 [[]|]]|]; try discriminate.
  destruct (while_loop exit_guard bd n st2) as [[s42 r42]|]; [|contradiction]. destruct L as (SF4 & <-). injection H as <- <- <- <-.
  assert (Eo : s_obj s42 = s_obj s4 /\ s_hist s42 = s_hist s4) by (destruct SF4 as (a' & _ & ->); auto). destruct Eo as (-> & ->).
  eexists. eexists. split; [reflexivity|]. split; [|auto]. eexists. split; [|reflexivity]. eexists. reflexivity.
Qed.

(** * C58: what ends the phases *)
Lemma d_vcur : forall two E X dm P ts dt mt k s s', passes (d_step two E X dm P ts dt mt) k s s' -> s_vcur s' = s_vcur s.
Proof. intros two E X dm P ts dt mt k s s' HP. induction HP as [|k s s1 s2 HP IH B]; auto. destruct (d_step_any _ _ _ _ _ _ _ _ _ _ _ B) as (-> & _). auto. Qed.
(** The jettison time: the phase made some cycles, the last of which left it because the apoapsis predicted
    for the vehicle WITHOUT its drag skirt, in the measured atmosphere, fell below the target or within the
    tolerance, or because the vehicle climbed to within 1 km of the skip altitude.  While the climb rate is at
    most the threshold the prediction counts as 0.  The speed does not matter. *)
Theorem C58_drag_how_entry_ends : forall two E X P b1 ratio timeStep dt maxTime n o o0 hdotref o1 s0 o' s',
  set_ballistic o b1 = (o0, Ok tt) -> eg_start two E X o0 hdotref dt = (o1, Ok s0) ->
  propogateEntryPhaseD two E X (Some (b1, ratio)) P timeStep dt maxTime n o hdotref = Some (o', Ok s') -> g_vswitch P < first_speed s0 ->
  exists k s apo, passes (d_step two E X (b1, ratio) P timeStep dt maxTime) k s0 s /\ d_step two E X (b1, ratio) P timeStep dt maxTime s = (s', Ok true) /\
    let q' := y_plot (s_hist s') in let hdot := last (a_hdot (s_arr s')) 0 in
    (hdot <= g_hdotthr P -> apo = Some 0) /\
    (g_hdotthr P < hdot -> exists dens, s_dens s' = Some dens /\ b1 * ratio * vh_A (ob_veh o) <> 0 /\
       predictApoapsis (solver two E) (ballistic (ob_veh o) (b1 * ratio)) (ob_tol o) (last (p_h q') 0) (last (p_theta q') 0) (last (p_phi q') 0) (last (p_v q') 0)
         (last (p_gamma q') 0) (last (p_psi q') 0) (last (p_drange q') 0) (if two then last (y_heat (s_hist s')) None else Some 0) maxTime dt 0 dens = Ok apo) /\
    ((exists a, apo = Some a /\ 0 < a < g_apo P) \/ (exists a, apo = Some a /\ Rabs (a - g_apo P) < g_apotol P) \/
     h_skip (vh_planet (ob_veh o)) / 1000 - 1 < last (p_h q') 0).
Proof.
  intros two E X P b1 ratio timeStep dt maxTime n o o0 hdotref o1 s0 o' s' HB H0 H Hv. unfold propogateEntryPhaseD in H. cbn [fst] in H. rewrite HB, H0 in H.
  destruct (while_loop (eg_guard P) _ n s0) as [[s1 [[]|]]|] eqn:E1; try discriminate. injection H as _ <-. destruct (set_ballistic_ok _ _ _ HB) as (-> & _).
  destruct (while_inv _ _ _ _ _ E1) as [(k & Pk & G)|(k & s & Pk & _ & B)].
  - exfalso. unfold eg_guard in G. rewrite (d_vcur _ _ _ _ _ _ _ _ _ _ _ Pk), (start_vcur _ _ _ _ _ _ _ _ H0) in G. revert G. rcases; [discriminate|lra].
  - assert (F0 : flown_as (ballistic (ob_veh o) b1) (ob_tol o) s0) by (destruct (start_keeps _ _ _ _ _ _ _ _ H0) as (A1 & A2); split; [rewrite A1; reflexivity|rewrite A2; reflexivity]).
    assert (F1 : flown_as (ballistic (ob_veh o) b1) (ob_tol o) s) by (eapply passes_invariant; [|exact Pk|exact F0]; intros; eapply d_flown; eauto).
    pose proof (d_flown _ _ _ _ _ _ _ _ _ _ _ _ _ F1 B) as F2. destruct F1 as (F1 & _). destruct F2 as (F2 & T2).
    destruct (d_step_inv _ _ _ _ _ _ _ _ _ _ _ B) as (f & heat & apo & _ & _ & _ & _ & EA & _ & _ & _ & Eb & C). cbv zeta in *.
    exists k, s, apo. split; auto. split; auto. cbv zeta.
    assert (EH : last (a_hdot (s_arr s1)) 0 = cur_hdot s) by (rewrite EA; cbn [steps_app_d a_hdot]; apply last_last). rewrite EH.
    split. { intros L. destruct C as [(_ & C & _)|(C & _)]; auto. lra. }
    split. { intros L. destruct C as [(C & _)|(_ & d & C1 & _ & C2)]; [lra|]. exists d. split; auto. rewrite F2, T2 in C2. unfold predictAfterJettison in C2. cbn [fst snd] in C2. rewrite ballistic_twice in C2.
      change (vh_A (ballistic (ob_veh o) b1)) with (vh_A (ob_veh o)) in C2. destruct (Reqb_spec (b1 * ratio * vh_A (ob_veh o)) 0); [discriminate|]. split; auto. }
    symmetry in Eb. rewrite F1 in Eb. change (vh_planet (ballistic (ob_veh o) b1)) with (vh_planet (ob_veh o)) in Eb. unfold d_break in Eb. apply Bool.orb_true_iff in Eb. destruct Eb as [Eb|Eb]; [apply Bool.orb_true_iff in Eb; destruct Eb as [Eb|Eb]|].
    + left. destruct apo as [a|]; [|discriminate]. exists a. split; auto. apply Bool.andb_true_iff in Eb. destruct Eb as (L1 & L2). revert L1 L2. rcases; intros; try discriminate. lra.
    + right; left. destruct apo as [a|]; [|discriminate]. exists a. split; auto. revert Eb. rcases; [auto|discriminate].
    + right; right. revert Eb. rcases; [auto|discriminate].
Qed.
(** The exit phase ends, if it does, after a cycle that started within 1 km of the skip altitude or below
    20 km, or at a point at or above the skip altitude; otherwise another cycle is flown. *)
Theorem C58_drag_how_exit_ends : forall two E X b1 ratio P timeStep dt n s s' rep,
  propogateExitPhaseD two E X (Some (b1, ratio)) P timeStep dt n s = Some (s', Ok rep) ->
  let top := h_skip (vh_planet (ob_veh (s_obj s))) in
  exists o0 k, set_ballistic (s_obj s) (b1 * ratio) = (o0, Ok tt) /\
    passes_or_break (dexit_step two E X timeStep dt (last (a_hdot (s_arr s)) 0) (last (y_heat (s_hist s)) None)) k (exit_start (set_obj s o0)) s' /\
    rep = exit_report (vh_planet (ob_veh (s_obj s))) P (y_plot (s_hist s')) /\
    (top / 1e3 <= last (p_h (y_plot (s_hist s'))) 0 \/
     exists s1, dexit_step two E X timeStep dt (last (a_hdot (s_arr s)) 0) (last (y_heat (s_hist s)) None) s1 = (s', Ok true) /\
       (top - 1e3 < last (p_h (y_plot (s_hist s1))) 0 * 1e3 \/ last (p_h (y_plot (s_hist s1))) 0 * 1e3 < 20e3)).
Proof.
  intros two E X b1 ratio P timeStep dt n s s' rep H top. unfold propogateExitPhaseD in H. destruct (set_ballistic (s_obj s) (b1 * ratio)) as [o0 [[]|]] eqn:HB; [|discriminate].
  destruct (while_loop exit_guard _ n (exit_start (set_obj s o0))) as [[s2 [[]|]]|] eqn:E2; try discriminate. injection H as <- <-.
  destruct (while_passes _ _ _ _ _ E2) as (k & Pk). exists o0, k. split; auto. split; auto.
  destruct (set_ballistic_ok _ _ _ HB) as (Eo & _).
  set (W := ballistic (ob_veh (s_obj s)) (b1 * ratio)). assert (Ep : vh_planet W = vh_planet (ob_veh (s_obj s))) by reflexivity.
  assert (F0 : flown_as W (ob_tol (s_obj s)) (exit_start (set_obj s o0))) by (rewrite Eo; split; reflexivity).
  assert (F2 : flown_as W (ob_tol (s_obj s)) s2) by (refine (pob_invariant _ _ _ _ _ _ Pk F0); intros; eapply dexit_flown; eauto).
  destruct F2 as (F2 & _). rewrite F2, Ep. split; auto. unfold top. rewrite <- Ep. clear top.
  destruct (while_inv _ _ _ _ _ E2) as [(j & Pj & G)|(j & s1 & Pj & _ & B)].
  - left. unfold exit_guard in G. rewrite F2 in G.
    assert (Hc : s_hcur s2 = cur_h s2).
    { inversion Pj as [z|j' z1 z2 z3 Q B]; subst; [reflexivity|]. destruct (dexit_step_inv _ _ _ _ _ _ _ _ _ _ B) as (f & heat & _ & _ & _ & _ & _ & _ & _ & _ & _ & _ & _ & _ & C). cbv zeta in C. destruct C as [(C & _)|(_ & _ & C)]; [discriminate|auto]. }
    rewrite Hc in G. revert G. rcases; [discriminate|]. unfold cur_h in *. lra.
  - right. exists s1. split; auto. assert (F1 : flown_as W (ob_tol (s_obj s)) s1) by (eapply passes_invariant; [|exact Pj|exact F0]; intros; eapply dexit_flown; eauto). destruct F1 as (F1 & _).
    destruct (dexit_step_inv _ _ _ _ _ _ _ _ _ _ B) as (f & heat & _ & _ & _ & _ & _ & _ & _ & _ & _ & _ & _ & _ & C). cbv zeta in C. rewrite F1 in C. destruct C as [(_ & C & _)|(C & _)]; [exact C|discriminate].
Qed.
(** The switch speed is irrelevant once it is below the speed after the first second. *)
Theorem C58_drag_switch_irrelevant : forall two E X P P' b1 ratio timeStep dt maxTime n o o0 hdotref o1 s0,
  set_ballistic o b1 = (o0, Ok tt) -> eg_start two E X o0 hdotref dt = (o1, Ok s0) ->
  same_but_switch P P' -> g_vswitch P < first_speed s0 -> g_vswitch P' < first_speed s0 ->
  propogateEntryPhaseD two E X (Some (b1, ratio)) P' timeStep dt maxTime n o hdotref = propogateEntryPhaseD two E X (Some (b1, ratio)) P timeStep dt maxTime n o hdotref.
Proof.
  intros two E X P P' b1 ratio timeStep dt maxTime n o o0 hdotref o1 s0 HB H0 HS H1 H2. unfold propogateEntryPhaseD. cbn [fst]. rewrite HB, H0.
  assert (SS : forall s, d_step two E X (b1, ratio) P' timeStep dt maxTime s = d_step two E X (b1, ratio) P timeStep dt maxTime s) by (intros s; rewrite (same_but_switch_eq _ _ HS); destruct P; reflexivity).
  enough (G : forall m s, s_vcur s = first_speed s0 -> while_loop (eg_guard P') (d_step two E X (b1, ratio) P' timeStep dt maxTime) m s = while_loop (eg_guard P) (d_step two E X (b1, ratio) P timeStep dt maxTime) m s)
    by (rewrite G; auto; eapply start_vcur; eauto).
  induction m as [|m IH]; intros s Hs; cbn [while_loop]; auto. unfold eg_guard. rewrite Hs, SS.
  rcases; try lra. destruct (d_step two E X (b1, ratio) P timeStep dt maxTime s) as [s' [[|]|]] eqn:B; auto. apply IH. destruct (d_step_any _ _ _ _ _ _ _ _ _ _ _ B) as (-> & _). auto.
Qed.

(** * C59: arrays and histories *)
Definition arr_len_d (a : steps) (n : nat) : Prop :=
  length (a_t a) = S n /\ length (a_delta a) = S n /\ length (a_hdot a) = S n /\ length (a_hddot a) = S n /\ length (a_q a) = S n /\
  length (a_h a) = S n /\ length (a_drag a) = S n /\ length (a_dens a) = S n /\ length (a_acc a) = (2 * n + 1)%nat /\ length (a_qref a) = 1%nat.
Lemma pob_count : forall (Inv : nat -> gst -> Prop) body, (forall k s s' b, Inv k s -> body s = (s', Ok b) -> Inv (S k) s') ->
  forall k s s', passes_or_break body k s s' -> Inv 0%nat s -> Inv k s'.
Proof.
  intros Inv body St k s s' HP I0. assert (G : forall k s1, passes body k s s1 -> Inv k s1) by (intros k1 s1 Q; induction Q; eauto).
  destruct HP as [HP|(j & s1 & -> & HP & B)]; eauto.
Qed.
(** A guided flight of [n] entry and [m] exit cycles. *)
Theorem C59_drag_arrays : forall two E X dm P timeStepEntry timeStepExit dt maxTime fuel o hdotref o' s s' rep,
  propogateGuidedEntryD two E X dm P timeStepEntry timeStepExit dt maxTime fuel o hdotref = Some (o', Ok (s, s', rep)) ->
  exists n m, let a := s_arr s' in
    length (a_t a) = (n + m + 1)%nat /\ length (a_delta a) = (n + m + 1)%nat /\ length (a_hdot a) = (n + m + 1)%nat /\ length (a_hddot a) = (n + m + 1)%nat /\
    length (a_h a) = (n + 1)%nat /\ length (a_q a) = (n + 1)%nat /\ length (a_drag a) = (n + 1)%nat /\ length (a_dens a) = (n + 1)%nat /\
    length (a_acc a) = (2 * n + 1)%nat /\ length (a_qref a) = 1%nat /\
    length (a_hdotref a) = (if Nat.eqb n 0 then length hdotref + m else n + m + 1)%nat.
Proof.
  intros two E X dm P tE tX dt mt fuel o hdotref o' s s' rep H. unfold propogateGuidedEntryD, propogateEntryPhaseD in H. destruct dm as [[b1 ratio]|]; [|discriminate]. cbn [fst] in H.
  destruct (set_ballistic o b1) as [o0 [[]|]] eqn:B0; [|discriminate]. destruct (eg_start two E X o0 hdotref dt) as [o1 [s0|]] eqn:E0; [|discriminate].
  destruct (while_loop (eg_guard P) _ fuel s0) as [[s1 [[]|]]|] eqn:E1; try discriminate.
  unfold propogateExitPhaseD in H. destruct (set_ballistic (s_obj s1) (b1 * ratio)) as [o2 [[]|]] eqn:B1; [|discriminate].
  destruct (while_loop exit_guard _ fuel (exit_start (set_obj s1 o2))) as [[s2 [[]|]]|] eqn:E2; try discriminate. injection H as <- <- <- <-.
  destruct (while_passes _ _ _ _ _ E1) as (n & P1). destruct (while_passes _ _ _ _ _ E2) as (m & P2). exists n, m.
  set (I1 := fun k s => arr_len_d (s_arr s) k /\ length (a_hdotref (s_arr s)) = if Nat.eqb k 0 then length hdotref else S k).
  assert (L1 : I1 n s1).
  { refine (pob_count I1 _ _ _ _ _ P1 _).
    - intros k s s' b ((A1 & A2 & A3 & A4 & A5 & A6 & A7 & A8 & A9 & A10) & _) B. destruct (d_step_inv _ _ _ _ _ _ _ _ _ _ _ B) as (f & heat & apo & _ & _ & _ & _ & EA & _).
      unfold I1, arr_len_d. rewrite EA. cbn [steps_app_d a_t a_delta a_hdot a_hddot a_qref a_q a_h a_acc a_drag a_dens a_hdotref]. rewrite repeat_length, !app_length. cbn [length Nat.eqb]. rewrite A1, A2, A3, A4, A5, A6, A7, A8, A9. repeat split; auto; lia.
    - destruct (start_inv _ _ _ _ _ _ _ _ E0) as (_ & f & h & _ & _ & ->). unfold I1, arr_len_d. cbn. auto 12. }
  set (a1 := s_arr s1) in *.
  set (I2 := fun k s => length (a_t (s_arr s)) = (length (a_t a1) + k)%nat /\ length (a_delta (s_arr s)) = (length (a_delta a1) + k)%nat /\ length (a_hdot (s_arr s)) = (length (a_hdot a1) + k)%nat /\
    length (a_hddot (s_arr s)) = (length (a_hddot a1) + k)%nat /\ length (a_hdotref (s_arr s)) = (length (a_hdotref a1) + k)%nat /\ a_h (s_arr s) = a_h a1 /\ a_q (s_arr s) = a_q a1 /\ a_drag (s_arr s) = a_drag a1 /\
    a_dens (s_arr s) = a_dens a1 /\ a_acc (s_arr s) = a_acc a1 /\ a_qref (s_arr s) = a_qref a1).
  assert (L2 : I2 m s2).
  { refine (pob_count I2 _ _ _ _ _ P2 _).
    - intros k s s' b (A1 & A2 & A3 & A4 & A5 & A6) B. destruct (dexit_step_any _ _ _ _ _ _ _ _ _ _ B) as (_ & [(_ & _ & e & Ee)|(t & hd & EA)]); [discriminate|].
      unfold I2. rewrite EA. cbn [steps_app_exit a_t a_delta a_hdot a_hddot a_qref a_q a_h a_acc a_drag a_dens a_hdotref]. rewrite !app_length. cbn [length]. rewrite A1, A2, A3, A4, A5. do 5 (split; [lia|]). auto.
    - unfold I2. cbn [exit_start set_obj s_arr]. fold a1. rewrite !Nat.add_0_r. auto 14. }
  destruct L1 as ((L1 & L2' & L3 & L4 & L5 & L6 & L7 & L8 & L9 & L10) & L11). destruct L2 as (M1 & M2 & M3 & M4 & M5 & M6 & M7 & M8 & M9 & M10 & M11). fold a1 in L1, L2', L3, L4, L5, L6, L7, L8, L9, L10, L11.
  cbv zeta. rewrite M1, M2, M3, M4, M5, M6, M7, M8, M9, M10, M11, L11. do 10 (split; [lia|]). destruct (Nat.eqb_spec n 0); lia.
Qed.
(** The bank angle is always numeric here, so nothing about NaN angles is assumed. *)
Definition no_nan (X : gext) : gext := mkGext (fun o _ _ => (o, Err OracleError)) (nan_dens X).
Lemma no_nan_ok : forall X, nan_ok (no_nan X). Proof. intros X o t dt o' H. discriminate. Qed.
Lemma timed_d : forall two E X dm P name ts dt mt s s' b, engine_ok E -> 0 < dt -> timed name s -> d_step two E X dm P ts dt mt s = (s', Ok b) ->
  timed name s' /\ joined (y_plot (s_hist s)) (y_plot (s_hist s')) /\ exists i, forall n nd, hist_len (s_hist s) n nd -> hist_len (s_hist s') (n + i) (nd + i).
Proof.
  intros two E X dm P name ts dt mt s s' b HE Hdt T B. destruct (d_step_inv _ _ _ _ _ _ _ _ _ _ _ B) as (f & heat & apo & Hp & Hf & Hh & Hy & Ha & _).
  change (propagate two E (no_nan X) (restarted s (cur_heat s)) ts dt (Some 0) = (s_obj s', Ok tt)) in Hp. pose proof (no_nan_ok X) as HX.
  pose proof T as (T1 & (n & nd & T2 & T3) & _).
  destruct (propagate_ok two E (no_nan X) name (restarted s _) ts dt _ _ HE HX T1 Hp) as (_ & _ & _ & f' & h' & Hf' & Hh' & FA & _). rewrite Hf in Hf'. rewrite Hh in Hh'. injection Hf' as <-. injection Hh' as <-.
  assert (HL : forall n nd, hist_len (s_hist s) n nd -> hist_len (s_hist s') (n + f_index f) (nd + f_index f)) by (intros; rewrite Hy; eapply hist_app_len; eauto).
  split; [|split; [eapply step_joined; eauto; rewrite Hy; auto|exists (f_index f); auto]].
  eapply timed_step; eauto; [rewrite Hy; auto| |rewrite Ha; reflexivity]. exists (n + f_index f)%nat, (nd + f_index f)%nat. split; [auto|lia].
Qed.
Lemma timed_dexit : forall two E X name ts dt hr J s s' b, engine_ok E -> 0 < dt -> timed name s -> dexit_step two E X ts dt hr J s = (s', Ok b) ->
  timed name s' /\ joined (y_plot (s_hist s)) (y_plot (s_hist s')) /\ exists i, forall n nd, hist_len (s_hist s) n nd -> hist_len (s_hist s') (n + i) nd.
Proof.
  intros two E X name ts dt hr J s s' b HE Hdt T B. destruct (dexit_step_inv _ _ _ _ _ _ _ _ _ _ B) as (f & heat & Hp & Hf & Hh & Y1 & Y2 & Y3 & Y4 & Y5 & Y6 & Y7 & Ha & _).
  change (propagate two E (no_nan X) (restarted s J) ts dt (Some 0) = (s_obj s', Ok tt)) in Hp. pose proof (no_nan_ok X) as HX.
  pose proof T as (T1 & (n & nd & T2 & T3) & _).
  destruct (propagate_ok two E (no_nan X) name (restarted s _) ts dt _ _ HE HX T1 Hp) as (_ & _ & _ & f' & h' & Hf' & Hh' & FA & _). rewrite Hf in Hf'. rewrite Hh in Hh'. injection Hf' as <-. injection Hh' as <-.
  assert (HL : forall n nd, hist_len (s_hist s) n nd -> hist_len (s_hist s') (n + f_index f) nd).
  { intros n' nd' L. pose proof L as (_ & _ & L' & _). destruct (hist_app_len _ _ _ _ _ _ L FA) as (Q1 & Q2 & Q3 & Q4 & Q5 & Q6 & Q7). unfold hist_len. rewrite Y1, Y2, Y3, Y4, Y5, Y6, Y7. auto 10. }
  split; [|split; [eapply step_joined; eauto|exists (f_index f); auto]].
  eapply timed_step; eauto; [|rewrite Ha; reflexivity]. exists (n + f_index f)%nat, nd. split; [auto|lia].
Qed.
Lemma timed_d_start : forall two E X name o hr dt o1 s, engine_ok E -> 0 < dt -> Planet name = Ok (vh_planet (ob_veh o)) ->
  eg_start two E X o hr dt = (o1, Ok s) -> timed name s /\ exists n, hist_len (s_hist s) n n.
Proof.
  intros two E X name o hr dt o1 s HE Hdt HP H. change (eg_start two E (no_nan X) o hr dt = (o1, Ok s)) in H. split; [eapply timed_start; eauto; apply no_nan_ok|].
  destruct (start_inv _ _ _ _ _ _ _ _ H) as (Hp & f & h & Hf & Hh & ->).
  destruct (propagate_ok two E (no_nan X) name _ 1 dt _ _ HE (no_nan_ok X) HP Hp) as (_ & _ & _ & f' & h' & Hf' & Hh' & FA & _). rewrite Hf in Hf'. rewrite Hh in Hh'. injection Hf' as <-. injection Hh' as <-.
  destruct FA as (_ & _ & FP & F1 & F2 & F3 & F4 & F5 & F6 & F7 & F8 & _). exists (f_index f). unfold hist_len; cbn [s_hist hist_of y_plot y_net y_drag y_dyn y_stag y_qtot y_heat]; auto 10.
Qed.
(** Time stamps never decrease; all channels stay aligned except drag, which the exit phase does not extend. *)
Theorem C59_drag_times : forall two E X dm P name timeStepEntry timeStepExit dt maxTime fuel o hdotref o' s s' rep, engine_ok E -> 0 < dt ->
  Planet name = Ok (vh_planet (ob_veh o)) ->
  propogateGuidedEntryD two E X dm P timeStepEntry timeStepExit dt maxTime fuel o hdotref = Some (o', Ok (s, s', rep)) ->
  nondec (a_t (s_arr s')) /\ nondec (p_t (y_plot (s_hist s'))) /\
  exists n n', hist_len (s_hist s) n n /\ hist_len (s_hist s') n' n /\ (n <= n')%nat.
Proof.
  intros two E X dm P name tE tX dt mt fuel o hdotref o' s s' rep HE Hdt HP H. unfold propogateGuidedEntryD, propogateEntryPhaseD in H. destruct dm as [[b1 ratio]|]; [|discriminate]. cbn [fst] in H.
  destruct (set_ballistic o b1) as [o0 [[]|]] eqn:B0; [|discriminate]. destruct (eg_start two E X o0 hdotref dt) as [o1 [s0|]] eqn:E0; [|discriminate].
  destruct (while_loop (eg_guard P) _ fuel s0) as [[s1 [[]|]]|] eqn:E1; try discriminate.
  unfold propogateExitPhaseD in H. destruct (set_ballistic (s_obj s1) (b1 * ratio)) as [o2 [[]|]] eqn:B1; [|discriminate].
  destruct (while_loop exit_guard _ fuel (exit_start (set_obj s1 o2))) as [[s2 [[]|]]|] eqn:E2; try discriminate. injection H as <- <- <- <-.
  destruct (while_passes _ _ _ _ _ E1) as (n & P1). destruct (while_passes _ _ _ _ _ E2) as (m & P2).
  destruct (set_ballistic_ok _ _ _ B0) as (-> & _). destruct (set_ballistic_ok _ _ _ B1) as (-> & _).
  set (I1 := fun s => timed name s /\ exists n, hist_len (s_hist s) n n).
  assert (T1 : I1 s1).
  { refine (pob_invariant I1 _ _ _ _ _ P1 _); [|apply (timed_d_start two E X name (set_veh o (ballistic (ob_veh o) b1)) hdotref dt o1 s0 HE Hdt HP E0)]. intros s s' b (T & k & L) B. destruct (timed_d _ _ _ _ _ _ _ _ _ _ _ _ HE Hdt T B) as (T' & _ & i & Hi). split; auto. exists (k + i)%nat. auto. }
  destruct T1 as (T1 & k & L1). set (I2 := fun s => timed name s /\ exists n', hist_len (s_hist s) n' k /\ (k <= n')%nat).
  assert (T2 : I2 s2).
  { refine (pob_invariant I2 _ _ _ _ _ P2 _); [|split; [exact T1|exists k; split; [exact L1|lia]]]. intros s s' b (T & n' & L & Hn) B. destruct (timed_dexit _ _ _ _ _ _ _ _ _ _ _ HE Hdt T B) as (T' & _ & i & Hi). split; auto. exists (n' + i)%nat. split; [auto|lia]. }
  destruct T2 as (T2 & n' & L2 & Hn). split; [apply T2|]. split; [apply T2|]. exists k, n'. auto.
Qed.
(** At every junction the new segment starts at the last recorded point. *)
Theorem C59_drag_junctions : forall two E X P name b1 ratio timeStepEntry timeStepExit dt maxTime o o0 hdotref o1 s0 k s s' b, engine_ok E -> 0 < dt ->
  Planet name = Ok (vh_planet (ob_veh o)) -> set_ballistic o b1 = (o0, Ok tt) -> eg_start two E X o0 hdotref dt = (o1, Ok s0) ->
  passes (d_step two E X (b1, ratio) P timeStepEntry dt maxTime) k s0 s ->
  (d_step two E X (b1, ratio) P timeStepEntry dt maxTime s = (s', Ok b) -> joined (y_plot (s_hist s)) (y_plot (s_hist s'))) /\
  (forall s1 hr J m, passes_or_break (d_step two E X (b1, ratio) P timeStepEntry dt maxTime) k s0 s1 -> forall o2 s2 s3 c,
   set_ballistic (s_obj s1) (b1 * ratio) = (o2, Ok tt) -> passes (dexit_step two E X timeStepExit dt hr J) m (exit_start (set_obj s1 o2)) s2 ->
   dexit_step two E X timeStepExit dt hr J s2 = (s3, Ok c) -> joined (y_plot (s_hist s2)) (y_plot (s_hist s3))).
Proof.
  intros two E X P name b1 ratio tE tX dt mt o o0 hdotref o1 s0 k s s' b HE Hdt HP B0 E0 Hk. destruct (set_ballistic_ok _ _ _ B0) as (-> & _).
  destruct (timed_d_start two E X name (set_veh o (ballistic (ob_veh o) b1)) hdotref dt o1 s0 HE Hdt HP E0) as (T0 & _).
  assert (St : forall s s' b, timed name s -> d_step two E X (b1, ratio) P tE dt mt s = (s', Ok b) -> timed name s') by (intros; eapply timed_d; eauto).
  split.
  - intros B. assert (T : timed name s) by (eapply (passes_invariant (timed name)); eauto). eapply timed_d; eauto.
  - intros s1 hr J m Hk1 o2 s2 s3 c B1 Hm B. assert (T : timed name s1) by (eapply (pob_invariant (timed name)); eauto).
    destruct (set_ballistic_ok _ _ _ B1) as (-> & _). assert (T2 : timed name s2).
    { eapply (passes_invariant (timed name)); [|exact Hm|exact T]. intros; eapply timed_dexit; eauto. }
    eapply timed_dexit; eauto.
Qed.

(** * C74, C75, C77 *)
(** Every cycle's heat load starts from zero. *)
Theorem C74_drag_heat_restarts : forall two E X dm P timeStep dt maxTime hdot_ref Ji s s' b,
  d_step two E X dm P timeStep dt maxTime s = (s', Ok b) \/ dexit_step two E X timeStep dt hdot_ref Ji s = (s', Ok b) ->
  exists f heat, ob_flight (s_obj s') = Some f /\ ocumtrapz (f_qtot f) (c_t (f_si f)) 0 = Ok heat /\
    y_heat (s_hist s') = y_heat (s_hist s) ++ heat /\ nth (length (y_heat (s_hist s))) (y_heat (s_hist s')) None = Some 0 /\
    last (y_heat (s_hist s')) None = last heat None.
Proof.
  intros two E X dm P timeStep dt maxTime hdot_ref Ji s s' b B.
  assert (G : exists f heat J, propagate two E X (restarted s J) timeStep dt (Some 0) = (s_obj s', Ok tt) /\ ob_flight (s_obj s') = Some f /\ ob_heat (s_obj s') = Some heat /\ y_heat (s_hist s') = y_heat (s_hist s) ++ heat).
  { destruct B as [B|B].
    - destruct (d_step_inv _ _ _ _ _ _ _ _ _ _ _ B) as (f & heat & apo & Hp & Hf & Hh & Hy & _). exists f, heat, (cur_heat s). rewrite Hy. auto.
    - destruct (dexit_step_inv _ _ _ _ _ _ _ _ _ _ B) as (f & heat & Hp & Hf & Hh & _ & _ & _ & _ & _ & _ & Hy & _). exists f, heat, Ji. rewrite Hy. auto. }
  destruct G as (f & heat & J & Hp & Hf & Hh & Hy). destruct (propagate_heat _ _ _ _ _ _ _ _ Hp) as (g & heat' & Hf' & Hh' & _ & A & N). rewrite Hf in Hf'. rewrite Hh in Hh'. injection Hf' as <-. injection Hh' as <-.
  exists f, heat. split; auto. split; auto. rewrite Hy. split; auto. split; [rewrite app_nth2, Nat.sub_diag by lia; auto|].
  assert (heat <> []) by (intros Z; rewrite Z in N; discriminate). destruct (exists_last H) as (l & x & ->). rewrite app_assoc, !last_last. auto.
Qed.
(** Version 2 completes a cycle, or a prediction, only from a heat load of exactly zero; version 1 has no
    such restriction: its predictions and cycles integrate from zero. *)
Theorem C75_drag_version2_needs_no_heat : forall E X dm P timeStep dt maxTime hdot_ref Ji s s' b,
  (d_step true E X dm P timeStep dt maxTime s = (s', Ok b) -> cur_heat s = Some 0 /\ (g_hdotthr P < cur_hdot s -> last (y_heat (s_hist s')) None = Some 0)) /\
  (dexit_step true E X timeStep dt hdot_ref Ji s = (s', Ok b) -> Ji = Some 0).
Proof.
  assert (G : forall J, heatLoad0 (last_init (y_plot (mkHist (mkPlot [] [] [] [] [] [] [] []) [] [] [] [] [] [])) J) = 0 -> J = Some 0).
  { intros [j|] H; cbn in H; [congruence|lra]. }
  intros E X dm P timeStep dt maxTime hdot_ref Ji s s' b. split; intros B.
  - destruct (d_step_inv _ _ _ _ _ _ _ _ _ _ _ B) as (f & heat & apo & Hp & _ & _ & _ & _ & _ & _ & _ & _ & C). cbv zeta in C.
    destruct (propagate_heat _ _ _ _ _ _ _ _ Hp) as (g & heat' & _ & _ & Z & _). split; [apply G; exact (Z eq_refl)|].
    intros Hd. destruct C as [(C & _)|(_ & d & _ & _ & C)]; [lra|]. unfold predictAfterJettison in C. destruct (Reqb _ _); [discriminate|]. unfold predictApoapsis in C. destruct (fly _ _ _ _ _ _ _) as [g'|]; [|discriminate]. cbn [rbind] in C.
    destruct (last (y_heat (s_hist s')) None) as [j|]; [|discriminate]. destruct (ocumtrapz (f_qtot g') (c_t (f_si g')) j) as [l|] eqn:Eo; [|discriminate].
    destruct (ocumtrapz_inv _ _ _ _ Eo) as (_ & _ & -> & _). auto.
  - destruct (dexit_step_inv _ _ _ _ _ _ _ _ _ _ B) as (f & heat & Hp & _). destruct (propagate_heat _ _ _ _ _ _ _ _ Hp) as (g & heat' & _ & _ & Z & _). apply G. exact (Z eq_refl).
Qed.
(** Version 1: whatever the heat load, the same step is flown (the initial heat load is stored but not used). *)
Theorem C75_drag_version1_ignores_heat : forall E X timeStep dt hdot_ref Ji Ji' s s' b,
  dexit_step false E X timeStep dt hdot_ref Ji s = (s', Ok b) ->
  exists s2, dexit_step false E X timeStep dt hdot_ref Ji' s = (s2, Ok b) /\ s_hist s2 = s_hist s' /\ s_arr s2 = s_arr s'.
Proof.
  intros E X timeStep dt hdot_ref Ji Ji' s s' b H. unfold dexit_step in *. cbv zeta in *.
  assert (K : forall J, propagate false E X (set_init (s_obj s) (last_init (y_plot (s_hist s)) J)) timeStep dt (Some 0) =
    match fly (solveTrajectory E) (ob_veh (s_obj s)) (ob_tol (s_obj s)) (last_init (y_plot (s_hist s)) (Some 0)) timeStep dt 0 with
    | Err e => (set_init (s_obj s) (last_init (y_plot (s_hist s)) J), Err e)
    | Ok f => match ocumtrapz (f_qtot f) (c_t (f_si f)) 0 with
              | Err e => (set_flight (set_init (s_obj s) (last_init (y_plot (s_hist s)) J)) f, Err e)
              | Ok h => (set_heat (set_flight (set_init (s_obj s) (last_init (y_plot (s_hist s)) J)) f) h, Ok tt) end end) by reflexivity.
  rewrite K in H. rewrite K. destruct (fly _ _ _ _ _ _ _) as [f|]; [|discriminate]. destruct (ocumtrapz _ _ 0) as [h|]; [|discriminate].
  unfold results in *. cbn [set_heat set_flight ob_flight ob_heat] in *. revert H. destruct (Rltb _ _); [|destruct (Rltb _ _)]; intros H; injection H as <- <-; eexists; (split; [reflexivity|split; reflexivity]).
Qed.
Theorem C77_drag_initial_state_overwritten : forall two E X dm P timeStep dt maxTime hdot_ref Ji s s' r,
  d_step two E X dm P timeStep dt maxTime s = (s', r) \/ dexit_step two E X timeStep dt hdot_ref Ji s = (s', r) ->
  let q := y_plot (s_hist s) in let i := ob_init (s_obj s') in
  ob_veh (s_obj s') = ob_veh (s_obj s) /\ ob_tol (s_obj s') = ob_tol (s_obj s) /\
  h0_km i = last (p_h q) 0 /\ theta0_deg i = last (p_theta q) 0 /\ phi0_deg i = last (p_phi q) 0 /\ v0_kms i = last (p_v q) 0 /\
  psi0_deg i = last (p_psi q) 0 /\ gamma0_deg i = last (p_gamma q) 0 /\ drange0_km i = last (p_drange q) 0.
Proof.
  intros two E X dm P timeStep dt maxTime hdot_ref Ji s s' r HB. cbv zeta.
  assert (G : exists J, s_obj s' = fst (propagate two E X (restarted s J) timeStep dt (Some 0))).
  { destruct HB as [B|B]; [destruct (d_step_any _ _ _ _ _ _ _ _ _ _ _ B) as (_ & Hp & _)|destruct (dexit_step_any _ _ _ _ _ _ _ _ _ _ B) as (Hp & _)]; eauto. }
  destruct G as (J & ->). destruct (propagate_keeps two E X (restarted s J) timeStep dt 0) as (Ev & Ei & Et). rewrite Ei, Ev, Et. cbn. auto 12.
Qed.
