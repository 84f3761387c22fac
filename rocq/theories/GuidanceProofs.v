(** Lemmas about the guidance loops. *)
From Coq Require Import String List ZArith.
Require Import Verif.Base Verif.Numpy Verif.NumpyProofs Verif.PlanetModel Verif.PlanetProofs Verif.AeroModel Verif.HeatModel Verif.TrajectoryModel Verif.TrajectorySpec
  Verif.TrajectoryProofs Verif.PropTrajectory Verif.OrbitScalarModel Verif.OrbiterModel Verif.OrbitModel Verif.GuidanceModel Verif.GuidanceSpec.
Local Open Scope R_scope.

(** What a pass sees of the state it starts from. *)
Definition cur_v (s : gst) : R := last (p_v (y_plot (s_hist s))) 0 * 1e3.
Definition cur_h (s : gst) : R := last (p_h (y_plot (s_hist s))) 0.
Definition cur_t (s : gst) : R := last (p_t (y_plot (s_hist s))) 0.
Definition cur_hdot (s : gst) : R := cur_v s * sin (deg (last (p_gamma (y_plot (s_hist s))) 0)).
Definition cur_q (s : gst) : R := 0.5 * density (vh_planet (ob_veh (s_obj s))) (density_int (vh_atm (ob_veh (s_obj s)))) (cur_h s * 1e3) * cur_v s ^ 2.
Definition cur_heat (s : gst) : option R := match ob_heat (s_obj s) with Some l => last l None | None => None end.
Definition restarted (s : gst) (J : option R) : vobj := set_init (s_obj s) (last_init (y_plot (s_hist s)) J).

(** A pass of the glide loop that returns. *)
Lemma eg_step_inv : forall two E X P timeStep dt maxTime s s' b, eg_step two E X P timeStep dt maxTime s = (s', Ok b) ->
  let V := ob_veh (s_obj s) in let p := vh_planet V in let q' := y_plot (s_hist s') in
  exists qref f heat apo, qref_of V (cur_v s) (cur_h s * 1e3 + RP p) = Ok qref /\
    propagate two E X (restarted s (cur_heat s)) timeStep dt (s_delta s') = (s_obj s', Ok tt) /\
    ob_flight (s_obj s') = Some f /\ ob_heat (s_obj s') = Some heat /\
    s_hist s' = hist_app (s_hist s) f heat /\
    s_arr s' = steps_app (s_arr s) (cur_t s) (s_delta s') (cur_hdot s) qref (cur_q s) (cur_h s) (last (f_acc_net f) None)
      (last (f_acc_drag f) None) (last (y_net (s_hist s')) None) (measured_density V (last (y_drag (s_hist s')) None) (cur_v s) (last (p_v q') 0)) /\
    s_delta s' = controller (g_rate P) (bank_command (cosDeltaCMD V P (cur_v s) (cur_h s * 1e3 + RP p) (cur_q s) (cur_hdot s) qref)) (s_delta s) timeStep /\
    s_vcur s' = s_vcur s /\ s_hcur s' = s_hcur s /\ b = eg_break p P apo (last (p_h q') 0) /\
    (cur_hdot s <= g_hdotthr P /\ apo = Some 0 /\ s_dens s' = s_dens s \/
     g_hdotthr P < cur_hdot s /\ exists d, s_dens s' = Some d /\
       (s_dens s = Some d \/ s_dens s = None /\
          createDensityMeasuredFunction p (density_int (vh_atm V)) (nan_dens X) (a_h (s_arr s')) (a_dens (s_arr s')) (g_lowAlt P) (g_numLow P) = Ok d) /\
       predictApoapsis (solveTrajectory E) (ob_veh (s_obj s')) (ob_tol (s_obj s')) (last (p_h q') 0) (last (p_theta q') 0) (last (p_phi q') 0) (last (p_v q') 0)
         (last (p_gamma q') 0) (last (p_psi q') 0) (last (p_drange q') 0) (last (y_heat (s_hist s')) None) maxTime dt 0 d = Ok apo).
Proof.
  intros two E X P timeStep dt maxTime s s' b H. cbv zeta. unfold eg_step in H. cbv zeta in H.
  fold (cur_v s) in H. fold (cur_h s) in H. fold (cur_t s) in H. fold (cur_heat s) in H.
  fold (cur_hdot s) in H. fold (cur_q s) in H. fold (restarted s (cur_heat s)) in H.
  destruct (qref_of _ _ _) as [qref|] eqn:Eq; [|discriminate].
  set (delta := controller _ _ _ _) in *.
  destruct (propagate two E X _ timeStep dt delta) as [o2 [[]|]] eqn:Ep; [|discriminate].
  unfold results in H. destruct (ob_flight o2) as [f|] eqn:Ef; [|discriminate]. destruct (ob_heat o2) as [heat|] eqn:Eh; [|discriminate].
  set (H1 := hist_app (s_hist s) f heat) in *. set (a := steps_app _ _ _ _ _ _ _ _ _ _ _) in *.
  destruct (Rltb_spec (g_hdotthr P) (cur_hdot s)) as [Hd|Hd].
  - match type of H with match ?M with _ => _ end = _ => destruct M as [d|] eqn:Ed; [|discriminate] end.
    match type of H with match ?M with _ => _ end = _ => destruct M as [apo|] eqn:Ea; [|discriminate] end.
    injection H as <- <-. exists qref, f, heat, apo. cbn [s_obj s_hist s_arr s_delta s_vcur s_hcur s_dens].
    split; [auto|]. split; [auto|]. do 7 (split; [auto|]). split; [auto|]. right. split; auto. exists d. split; [auto|]. split; [|auto].
    destruct (s_dens s) as [d'|]; [left; congruence|right; auto].
  - injection H as <- <-. exists qref, f, heat, (Some 0). cbn [s_obj s_hist s_arr s_delta s_vcur s_hcur s_dens].
    split; [auto|]. split; [auto|]. do 7 (split; [auto|]). split; [auto|]. left. split; auto. lra.
Qed.
(** Any pass, also one that raises: the step arrays are unchanged or have one more cycle in them. *)
Lemma eg_step_arr : forall two E X P timeStep dt maxTime s s' r, eg_step two E X P timeStep dt maxTime s = (s', r) ->
  s_vcur s' = s_vcur s /\
  (s_arr s' = s_arr s /\ s_delta s' = s_delta s /\ s_hist s' = s_hist s /\ (exists e, r = Err e) \/
   exists c t hdot qref q h n1 d n2 m, s_arr s' = steps_app (s_arr s) t (s_delta s') hdot qref q h n1 d n2 m /\
     s_delta s' = controller (g_rate P) (bank_command c) (s_delta s) timeStep).
Proof.
  intros two E X P timeStep dt maxTime s s' r H. unfold eg_step in H. cbv zeta in H.
  destruct (qref_of _ _ _) as [qref|] eqn:Eq; [|injection H as <- <-; split; auto; left; eauto].
  set (delta := controller _ _ _ _) in *.
  destruct (propagate two E X _ timeStep dt delta) as [o2 [[]|]] eqn:Ep; [|injection H as <- <-; split; auto; left; eauto 6].
  destruct (results o2) as [[f heat]|]; [|injection H as <- <-; split; auto; left; eauto 6].
  match type of H with (if ?b then _ else _) = _ => destruct b end.
  - match type of H with match ?M with _ => _ end = _ => destruct M as [d|] eqn:Ed end; [|injection H as <- <-; split; [reflexivity|]; right; cbn [s_arr s_delta]; do 10 eexists; split; [reflexivity|]; reflexivity].
    match type of H with match ?M with _ => _ end = _ => destruct M as [apo|] eqn:Ea end; injection H as <- <-; split; try reflexivity; right; cbn [s_arr s_delta]; do 10 eexists; split; reflexivity.
  - injection H as <- <-; split; [reflexivity|]; right; cbn [s_arr s_delta]; do 10 eexists; split; reflexivity.
Qed.
(** A pass of the exit loop that returns. *)
Lemma exit_step_inv : forall two E X P timeStep dt hdref Ji s s' b, exit_step two E X P timeStep dt hdref Ji s = (s', Ok b) ->
  exists f heat, propagate two E X (restarted s Ji) timeStep dt (s_delta s') = (s_obj s', Ok tt) /\
    ob_flight (s_obj s') = Some f /\ ob_heat (s_obj s') = Some heat /\
    y_plot (s_hist s') = y_plot (hist_app (s_hist s) f heat) /\ y_net (s_hist s') = y_net (hist_app (s_hist s) f heat) /\
    y_drag (s_hist s') = y_drag (s_hist s) /\ y_dyn (s_hist s') = y_dyn (hist_app (s_hist s) f heat) /\ y_stag (s_hist s') = y_stag (hist_app (s_hist s) f heat) /\
    y_qtot (s_hist s') = y_qtot (hist_app (s_hist s) f heat) /\ y_heat (s_hist s') = y_heat (hist_app (s_hist s) f heat) /\
    s_arr s' = steps_app_exit (s_arr s) (cur_t s) (s_delta s') (cur_hdot s) hdref /\
    s_delta s' = controller (g_rate P) (Some 0) (s_delta s) timeStep /\ s_vcur s' = s_vcur s /\
    (b = true /\ h_skip (vh_planet (ob_veh (s_obj s))) - 10e3 < cur_h s * 1e3 /\ s_hcur s' = s_hcur s \/
     b = false /\ cur_h s * 1e3 <= h_skip (vh_planet (ob_veh (s_obj s))) - 10e3 /\ s_hcur s' = cur_h s').
Proof.
  intros two E X P timeStep dt hdref Ji s s' b H. unfold exit_step in H. cbv zeta in H.
  fold (cur_v s) in H. fold (cur_h s) in H. fold (cur_t s) in H. fold (cur_hdot s) in H. fold (restarted s Ji) in H.
  set (delta := controller _ _ _ _) in *.
  destruct (propagate two E X _ timeStep dt delta) as [o2 [[]|]] eqn:Ep; [|discriminate].
  unfold results in H. destruct (ob_flight o2) as [f|] eqn:Ef; [|discriminate]. destruct (ob_heat o2) as [heat|] eqn:Eh; [|discriminate].
  match type of H with context [Rltb ?x ?y] => destruct (Rltb_spec x y) as [Hd|Hd] end; injection H as <- <-;
    exists f, heat; cbn [s_obj s_hist s_arr s_delta s_vcur s_hcur s_dens y_plot y_net y_drag y_dyn y_stag y_qtot y_heat];
    do 13 (split; [auto|]); [left|right]; split; auto; split; auto; lra.
Qed.
Lemma exit_step_arr : forall two E X P timeStep dt hdref Ji s s' r, exit_step two E X P timeStep dt hdref Ji s = (s', r) ->
  s_arr s' = s_arr s /\ s_delta s' = s_delta s /\ s_hist s' = s_hist s /\ (exists e, r = Err e) \/
  exists t hdot, s_arr s' = steps_app_exit (s_arr s) t (s_delta s') hdot hdref /\ s_delta s' = controller (g_rate P) (Some 0) (s_delta s) timeStep.
Proof.
  intros two E X P timeStep dt hdref Ji s s' r H. unfold exit_step in H. cbv zeta in H.
  set (delta := controller _ _ _ _) in *.
  destruct (propagate two E X _ timeStep dt delta) as [o2 [[]|]] eqn:Ep; [|injection H as <- <-; left; eauto 6].
  destruct (results o2) as [[f heat]|]; [|injection H as <- <-; left; eauto 6].
  right. match type of H with (if ?b then _ else _) = _ => destruct b end; injection H as <- <-; cbn [s_arr s_delta]; do 2 eexists; split; reflexivity.
Qed.

(** Loops. *)
Lemma passes_cons : forall body k s s1 s2, body s = (s1, Ok false) -> passes body k s1 s2 -> passes body (S k) s s2.
Proof. intros body k s s1 s2 H Q. induction Q; [econstructor; [constructor|auto]|econstructor; [apply IHQ; auto|eauto]]. Qed.
(** A loop that returned made some passes, the last of which left it by a break, or stopped at its guard. *)
Lemma while_inv : forall guard body n s s', while_loop guard body n s = Some (s', Ok tt) ->
  (exists k, passes body k s s' /\ guard s' = false) \/
  (exists k s1, passes body k s s1 /\ guard s1 = true /\ body s1 = (s', Ok true)).
Proof.
  intros guard body n. induction n as [|n IH]; intros s s' H; cbn [while_loop] in H; [discriminate|].
  destruct (guard s) eqn:G; [|injection H as <-; left; exists 0%nat; split; [constructor|auto]].
  destruct (body s) as [s1 [[|]|]] eqn:B; [| |discriminate].
  - injection H as <-. right. exists 0%nat, s. repeat split; auto. constructor.
  - destruct (IH _ _ H) as [(k & P & G')|(k & s2 & P & G' & B')]; [left; exists (S k)|right; exists (S k), s2]; repeat split; auto; eapply passes_cons; eauto.
Qed.
(** One that raised did so in a pass. *)
Lemma while_err : forall guard body n s s' e, while_loop guard body n s = Some (s', Err e) ->
  exists k s1, passes body k s s1 /\ guard s1 = true /\ body s1 = (s', Err e).
Proof.
  intros guard body n. induction n as [|n IH]; intros s s' e H; cbn [while_loop] in H; [discriminate|].
  destruct (guard s) eqn:G; [|discriminate].
  destruct (body s) as [s1 [[|]|]] eqn:B; [discriminate| |].
  - destruct (IH _ _ _ H) as (k & s2 & P & G' & B'). exists (S k), s2. repeat split; auto. eapply passes_cons; eauto.
  - injection H as <- <-. exists 0%nat, s. repeat split; auto. constructor.
Qed.
(** Invariants. *)
Lemma passes_invariant : forall (I : gst -> Prop) body, (forall s s' b, I s -> body s = (s', Ok b) -> I s') ->
  forall k s s', passes body k s s' -> I s -> I s'.
Proof. intros I body HI k s s1 Q. induction Q as [|k s s1 s2 Q IH B]; auto. intros H0. eapply HI; [apply IH; auto|eauto]. Qed.
Lemma pob_invariant : forall (I : gst -> Prop) body, (forall s s' b, I s -> body s = (s', Ok b) -> I s') ->
  forall k s s', passes_or_break body k s s' -> I s -> I s'.
Proof.
  intros I body HI k s s' [P|(j & s1 & _ & P & B)] H; [eapply passes_invariant; eauto|]. eapply HI; [|eauto]. eapply passes_invariant; eauto.
Qed.
Lemma while_passes : forall guard body n s s', while_loop guard body n s = Some (s', Ok tt) -> exists k, passes_or_break body k s s'.
Proof.
  intros guard body n s s' H. destruct (while_inv _ _ _ _ _ H) as [(k & P & _)|(k & s1 & P & _ & B)]; [exists k; left; auto|exists (S k); right; eauto].
Qed.
