(** Theorems about the lift-modulation guidance loops: C56 (in the loops), C58, C59, C74, C75, C77. *)
From Coq Require Import String List ZArith.
Require Import Verif.Base Verif.Numpy Verif.NumpyProofs Verif.PlanetModel Verif.PlanetProofs Verif.AeroModel Verif.FlightProofs Verif.HeatModel Verif.TrajectoryModel Verif.TrajectorySpec
  Verif.TrajectoryProofs Verif.PropTrajectory Verif.OrbitScalarModel Verif.OrbiterModel Verif.OrbitModel Verif.CorridorModel Verif.PropCorridor
  Verif.GuidanceModel Verif.GuidanceSpec Verif.GuidanceProofs Verif.PropControl.
Local Open Scope R_scope.

(** * C56: the bank angles flown *)
Definition bank_ok (step : R) (d : option R) : Prop := forall x, d = Some x -> - step < x < 180 + step /\ on_lattice step 0 x.
Lemma bank_ok_step : forall rate ts c d, 0 < rate * ts -> (forall x, c = Some x -> 0 <= x <= 180) -> bank_ok (rate * ts) d -> bank_ok (rate * ts) (controller rate c d ts).
Proof.
  intros rate ts c d H Hc Hd x E. unfold controller in E. destruct c as [c|]; [|discriminate]. destruct d as [d|]; [|discriminate]. cbn [obind] in E. injection E as <-.
  destruct (Hd d eq_refl) as (A & B). split; [apply controller_range; auto|]. eapply lattice_trans; [exact B|]. apply lattice_step.
Qed.
Lemma bank_command_range : forall c d, bank_command c = Some d -> 0 <= d <= 180.
Proof.
  intros x d H. pose proof PI_RGT_0 as HPI.
  assert (K : forall y, 0 <= y <= PI -> 0 <= y * 180 / PI <= 180).
  { intros y Hy. split; [apply Rmult_le_pos; [lra|left; apply Rinv_0_lt_compat; auto]|]. apply (Rmult_le_reg_r PI); auto. replace (y * 180 / PI * PI) with (y * 180) by (field; lra). nra. }
  unfold bank_command in H. destruct (xgtb x 1); [cbn [obind] in H; injection H as <-; apply K; lra|]. destruct (xltb x (-1)); [cbn [obind] in H; injection H as <-; apply K; lra|].
  destruct x as [x| | |]; cbn [obind] in H; try discriminate. unfold np_arccos in H. destruct (_ && _); cbn [obind] in H; [|discriminate]. injection H as <-. apply K. apply acos_bound.
Qed.
Definition banks_ok (step : R) (s : gst) : Prop := Forall (bank_ok step) (a_delta (s_arr s)) /\ bank_ok step (s_delta s).
Lemma eg_banks : forall two E X P ts dt mt s s' r, 0 < g_rate P * ts -> banks_ok (g_rate P * ts) s -> eg_step two E X P ts dt mt s = (s', r) -> banks_ok (g_rate P * ts) s'.
Proof.
  intros two E X P ts dt mt s s' r H (A & B) S. destruct (eg_step_arr _ _ _ _ _ _ _ _ _ _ S) as (_ & [(E1 & E2 & _)|(c & t & hd & qr & q & h & n1 & d & n2 & m & E1 & E2)]).
  - unfold banks_ok. rewrite E1, E2. auto.
  - assert (B' : bank_ok (g_rate P * ts) (s_delta s')) by (rewrite E2; apply bank_ok_step; auto; apply bank_command_range).
    split; auto. rewrite E1. cbn [steps_app a_delta]. apply Forall_app. split; auto.
Qed.
Lemma exit_banks : forall two E X P ts dt hr J s s' r, 0 < g_rate P * ts -> banks_ok (g_rate P * ts) s -> exit_step two E X P ts dt hr J s = (s', r) -> banks_ok (g_rate P * ts) s'.
Proof.
  intros two E X P ts dt hr J s s' r H (A & B) S. destruct (exit_step_arr _ _ _ _ _ _ _ _ _ _ _ S) as [(E1 & E2 & _)|(t & hd & E1 & E2)].
  - unfold banks_ok. rewrite E1, E2. auto.
  - assert (B' : bank_ok (g_rate P * ts) (s_delta s')) by (rewrite E2; apply bank_ok_step; auto; intros x Ex; injection Ex as <-; lra).
    split; auto. rewrite E1. cbn [steps_app_exit a_delta]. apply Forall_app. split; auto.
Qed.
Lemma start_inv : forall two E X o hr dt o1 s, eg_start two E X o hr dt = (o1, Ok s) ->
  propagate two E X o 1 dt (Some 0) = (o1, Ok tt) /\ exists f h, ob_flight o1 = Some f /\ ob_heat o1 = Some h /\
  s = mkGst o1 (steps0 hr) (hist_of f h) None (Some 0) (last (p_v (f_plot f)) 0) (last (p_h (f_plot f)) 0).
Proof.
  intros two E X o hr dt o1 s H. unfold eg_start in H. destruct (propagate two E X o 1 dt (Some 0)) as [o2 [[]|]] eqn:Ep; [|discriminate].
  unfold results in H. destruct (ob_flight o2) as [f|] eqn:Ef; [|discriminate]. destruct (ob_heat o2) as [h|] eqn:Eh; [|discriminate].
  cbn [rbind fst snd hist_of y_plot] in H. injection H as <- <-. split; auto. exists f, h. auto.
Qed.
Lemma start_banks : forall two E X o hr dt o1 s step, 0 < step -> eg_start two E X o hr dt = (o1, Ok s) -> banks_ok step s.
Proof.
  intros two E X o hr dt o1 s step Hs H. destruct (start_inv _ _ _ _ _ _ _ _ H) as (_ & f & h & _ & _ & ->).
  assert (B : bank_ok step (Some 0)) by (intros x Ex; injection Ex as <-; split; [lra|exists 0%Z; lra]).
  split; cbn [s_arr s_delta steps0 a_delta]; auto.
Qed.
(** Whatever the vehicle, atmosphere and integrator, and however the glide phase ends (also by an
    exception in any cycle), every bank angle recorded is a number of steps and within one step of [0,180]. *)
Theorem C56_glide_bank : forall two E X P timeStep dt maxTime o hdotref o1 s0 k s s' r, 0 < g_rate P * timeStep ->
  eg_start two E X o hdotref dt = (o1, Ok s0) ->
  passes (eg_step two E X P timeStep dt maxTime) k s0 s -> eg_step two E X P timeStep dt maxTime s = (s', r) ->
  forall d, In (Some d) (a_delta (s_arr s')) -> - (g_rate P * timeStep) < d < 180 + g_rate P * timeStep /\ exists n : Z, d = IZR n * (g_rate P * timeStep).
Proof.
  intros two E X P timeStep dt maxTime o hdotref o1 s0 k s s' r H H0 Hk Hs d Hd.
  assert (B : banks_ok (g_rate P * timeStep) s').
  { eapply eg_banks; eauto. eapply (passes_invariant (banks_ok (g_rate P * timeStep))); [|eauto|eapply start_banks; eauto]. intros; eapply eg_banks; eauto. }
  destruct B as (B & _). rewrite Forall_forall in B. destruct (B _ Hd d eq_refl) as (A1 & n & ->). split; auto. exists n. lra.
Qed.
(** The same for a whole guided entry. *)
Theorem C56_guided_bank : forall two E X P timeStep dt maxTime n o hdotref o' s s' rep, 0 < g_rate P * timeStep ->
  propogateGuidedEntry two E X P timeStep dt maxTime n o hdotref = Some (o', Ok (s, s', rep)) ->
  forall d, In (Some d) (a_delta (s_arr s')) -> - (g_rate P * timeStep) < d < 180 + g_rate P * timeStep /\ exists n : Z, d = IZR n * (g_rate P * timeStep).
Proof.
  intros two E X P timeStep dt maxTime n o hdotref o' s s' rep H HG d Hd.
  unfold propogateGuidedEntry, propogateEquilibriumGlide in HG. destruct (eg_start two E X o hdotref dt) as [o1 [s0|]] eqn:E0; [|discriminate].
  destruct (while_loop (eg_guard P) _ n s0) as [[s1 [[]|]]|] eqn:E1; try discriminate.
  unfold propogateExitPhase in HG. destruct (while_loop exit_guard _ n (exit_start s1)) as [[s2 [[]|]]|] eqn:E2; try discriminate. injection HG as <- <- <- <-.
  destruct (while_passes _ _ _ _ _ E1) as (k1 & P1). destruct (while_passes _ _ _ _ _ E2) as (k2 & P2).
  assert (B1 : banks_ok (g_rate P * timeStep) s1) by (eapply (pob_invariant (banks_ok (g_rate P * timeStep))); [|exact P1|eapply start_banks; eauto]; intros; eapply eg_banks; eauto).
  assert (B1' : banks_ok (g_rate P * timeStep) (exit_start s1)).
  { destruct B1 as (A & B). split; auto. cbn [exit_start s_delta]. clear -A H. induction A as [|x l Hx A IH]; [intros x Ex; discriminate|]. destruct l; auto. }
  assert (B2 : banks_ok (g_rate P * timeStep) s2) by (eapply (pob_invariant (banks_ok (g_rate P * timeStep))); [|exact P2|exact B1']; intros; eapply exit_banks; eauto).
  destruct B2 as (B & _). rewrite Forall_forall in B. destruct (B _ Hd d eq_refl) as (A1 & j & ->). split; auto. exists j. lra.
Qed.
(** In the exit phase the bank angle is brought to zero one step per cycle, exactly, and held. *)
Theorem C56_exit_levels : forall two E X P timeStep dt hdot_ref Ji m s s' k, 0 < g_rate P * timeStep ->
  passes (exit_step two E X P timeStep dt hdot_ref Ji) m s s' -> s_delta s = Some (IZR k * (g_rate P * timeStep)) ->
  s_delta s' = Some (IZR (toward_zero k m) * (g_rate P * timeStep)).
Proof.
  intros two E X P timeStep dt hdot_ref Ji m s s' k H HP H0. induction HP as [s|m s s1 s2 HP IH B].
  - rewrite H0. f_equal. f_equal. f_equal. unfold toward_zero. destruct (Z.leb_spec 0 k); lia.
  - specialize (IH H0). destruct (exit_step_arr _ _ _ _ _ _ _ _ _ _ _ B) as [(_ & _ & _ & (e & He))|(_ & _ & _ & ->)]; [discriminate|].
    rewrite IH. unfold controller. cbn [obind]. f_equal. destruct (controller_cases (g_rate P) 0 (IZR (toward_zero k m) * (g_rate P * timeStep)) timeStep) as (C1 & C2 & C3).
    set (j := toward_zero k m) in *. set (step := g_rate P * timeStep) in *.
    destruct (Z.lt_trichotomy j 0) as [L|[L|L]].
    + rewrite C2. 2:{ apply IZR_lt in L. nra. } replace (toward_zero k (S m)) with (j + 1)%Z; [rewrite plus_IZR; lra|].
      unfold j, toward_zero in *. destruct (Z.leb_spec 0 k); lia.
    + rewrite C1 by (rewrite L; lra). rewrite L. replace (toward_zero k (S m)) with 0%Z; [lra|]. unfold j, toward_zero in *. destruct (Z.leb_spec 0 k); lia.
    + rewrite C3. 2:{ apply IZR_lt in L. nra. } replace (toward_zero k (S m)) with (j - 1)%Z; [rewrite minus_IZR; lra|].
      unfold j, toward_zero in *. destruct (Z.leb_spec 0 k); lia.
Qed.

(** * C58: what ends the glide phase *)
(** Speed, in km/s, after the first second of flight. *)
Definition first_speed (s0 : gst) : R := last (p_v (y_plot (s_hist s0))) 0.
Lemma start_vcur : forall two E X o hr dt o1 s, eg_start two E X o hr dt = (o1, Ok s) -> s_vcur s = first_speed s.
Proof. intros two E X o hr dt o1 s H. destruct (start_inv _ _ _ _ _ _ _ _ H) as (_ & f & h & _ & _ & ->). reflexivity. Qed.
Lemma vcur_const : forall two E X P ts dt mt k s s', passes (eg_step two E X P ts dt mt) k s s' -> s_vcur s' = s_vcur s.
Proof. intros two E X P ts dt mt k s s' HP. induction HP as [|k s s1 s2 HP IH B]; auto. destruct (eg_step_arr _ _ _ _ _ _ _ _ _ _ B) as (-> & _). auto. Qed.
(** The phase made some cycles; the last one left it because the predicted apoapsis fell below the target
    or within the tolerance, or because the vehicle climbed to within 2 km of the skip altitude.  (The
    predicted apoapsis counts as 0 while the climb rate is at most the threshold.)  The speed does not matter. *)
Theorem C58_how_it_ends : forall two E X P timeStep dt maxTime n o hdotref o1 s0 o' s', eg_start two E X o hdotref dt = (o1, Ok s0) ->
  propogateEquilibriumGlide two E X P timeStep dt maxTime n o hdotref = Some (o', Ok s') -> g_vswitch P < first_speed s0 ->
  exists k s apo, passes (eg_step two E X P timeStep dt maxTime) k s0 s /\ eg_step two E X P timeStep dt maxTime s = (s', Ok true) /\
    let q' := y_plot (s_hist s') in let hdot := last (a_hdot (s_arr s')) 0 in
    (hdot <= g_hdotthr P -> apo = Some 0) /\
    (g_hdotthr P < hdot -> exists dens, s_dens s' = Some dens /\
       predictApoapsis (solveTrajectory E) (ob_veh (s_obj s')) (ob_tol (s_obj s')) (last (p_h q') 0) (last (p_theta q') 0) (last (p_phi q') 0) (last (p_v q') 0)
         (last (p_gamma q') 0) (last (p_psi q') 0) (last (p_drange q') 0) (last (y_heat (s_hist s')) None) maxTime dt 0 dens = Ok apo) /\
    ((exists a, apo = Some a /\ 0 < a < g_apo P) \/ (exists a, apo = Some a /\ Rabs (a - g_apo P) < g_apotol P) \/
     h_skip (vh_planet (ob_veh (s_obj s))) / 1000 - 2 < last (p_h q') 0).
Proof.
  intros two E X P timeStep dt maxTime n o hdotref o1 s0 o' s' H0 H Hv. unfold propogateEquilibriumGlide in H. rewrite H0 in H.
  destruct (while_loop (eg_guard P) _ n s0) as [[s1 [[]|]]|] eqn:E1; try discriminate. injection H as _ <-.
  destruct (while_inv _ _ _ _ _ E1) as [(k & Pk & G)|(k & s & Pk & _ & B)].
  - exfalso. unfold eg_guard in G. rewrite (vcur_const _ _ _ _ _ _ _ _ _ _ Pk), (start_vcur _ _ _ _ _ _ _ _ H0) in G. revert G. rcases; [discriminate|lra].
  - destruct (eg_step_inv _ _ _ _ _ _ _ _ _ _ B) as (qref & f & heat & apo & _ & _ & _ & _ & _ & EA & _ & _ & _ & Eb & C). cbv zeta in *.
    exists k, s, apo. split; auto. split; auto. cbv zeta.
    assert (EH : last (a_hdot (s_arr s1)) 0 = cur_hdot s) by (rewrite EA; cbn [steps_app a_hdot]; apply last_last). rewrite EH.
    split. { intros L. destruct C as [(_ & C & _)|(C & _)]; auto. lra. }
    split. { intros L. destruct C as [(C & _)|(_ & d & C1 & _ & C2)]; [lra|]. exists d. auto. }
    symmetry in Eb. unfold eg_break in Eb. apply Bool.orb_true_iff in Eb. destruct Eb as [Eb|Eb]; [apply Bool.orb_true_iff in Eb; destruct Eb as [Eb|Eb]|].
    + left. destruct apo as [a|]; [|discriminate]. exists a. split; auto. apply Bool.andb_true_iff in Eb. destruct Eb as (L1 & L2). revert L1 L2. rcases; intros; try discriminate. lra.
    + right; left. destruct apo as [a|]; [|discriminate]. exists a. split; auto. revert Eb. rcases; [auto|discriminate].
    + right; right. revert Eb. rcases; [auto|discriminate].
Qed.
(** A cycle whose outcome meets none of the three conditions does not end the phase. *)
Theorem C58_what_continues : forall two E X P timeStep dt maxTime s s' b, eg_step two E X P timeStep dt maxTime s = (s', Ok b) ->
  cur_hdot s <= g_hdotthr P -> g_apotol P <= Rabs (g_apo P) ->
  (b = true <-> h_skip (vh_planet (ob_veh (s_obj s))) / 1000 - 2 < cur_h s').
Proof.
  intros two E X P timeStep dt maxTime s s' b B Hd Ht. destruct (eg_step_inv _ _ _ _ _ _ _ _ _ _ B) as (qref & f & heat & apo & _ & _ & _ & _ & _ & _ & _ & _ & _ & -> & C). cbv zeta in *.
  destruct C as [(_ & -> & _)|(C & _)]; [|lra]. unfold eg_break, cur_h. replace (0 - g_apo P) with (- g_apo P) by ring. rewrite Rabs_Ropp.
  rcases; cbn; split; intros; auto; try discriminate; lra.
Qed.
(** So the switch speed is irrelevant once it is below the speed after the first second. *)
Definition same_but_switch (P P' : gparams) : Prop :=
  g_rate P' = g_rate P /\ g_Ghdot P' = g_Ghdot P /\ g_Gq P' = g_Gq P /\ g_lowAlt P' = g_lowAlt P /\ g_numLow P' = g_numLow P /\
  g_hdotthr P' = g_hdotthr P /\ g_peri P' = g_peri P /\ g_apo P' = g_apo P /\ g_apotol P' = g_apotol P.
Lemma same_but_switch_eq : forall P P', same_but_switch P P' -> P' = mkG (g_rate P) (g_Ghdot P) (g_Gq P) (g_vswitch P') (g_lowAlt P) (g_numLow P) (g_hdotthr P) (g_peri P) (g_apo P) (g_apotol P).
Proof. intros [? ? ? ? ? ? ? ? ? ?] [? ? ? ? ? ? ? ? ? ?] H. unfold same_but_switch in H. cbn in *. destruct H as (-> & -> & -> & -> & -> & -> & -> & -> & ->). reflexivity. Qed.
Lemma eg_step_switch : forall two E X P P' ts dt mt s, same_but_switch P P' -> eg_step two E X P' ts dt mt s = eg_step two E X P ts dt mt s.
Proof. intros two E X P P' ts dt mt s H. rewrite (same_but_switch_eq _ _ H). destruct P. reflexivity. Qed.
Theorem C58_switch_irrelevant : forall two E X P P' timeStep dt maxTime n o hdotref o1 s0, eg_start two E X o hdotref dt = (o1, Ok s0) ->
  same_but_switch P P' -> g_vswitch P < first_speed s0 -> g_vswitch P' < first_speed s0 ->
  propogateEquilibriumGlide two E X P' timeStep dt maxTime n o hdotref = propogateEquilibriumGlide two E X P timeStep dt maxTime n o hdotref.
Proof.
  intros two E X P P' timeStep dt maxTime n o hdotref o1 s0 H0 HS H1 H2. unfold propogateEquilibriumGlide. rewrite H0.
  enough (G : forall m s, s_vcur s = first_speed s0 -> while_loop (eg_guard P') (eg_step two E X P' timeStep dt maxTime) m s = while_loop (eg_guard P) (eg_step two E X P timeStep dt maxTime) m s)
    by (rewrite G; auto; eapply start_vcur; eauto).
  induction m as [|m IH]; intros s Hs; cbn [while_loop]; auto. unfold eg_guard. rewrite Hs. rewrite (eg_step_switch _ _ _ _ _ _ _ _ _ HS).
  rcases; try lra. destruct (eg_step two E X P timeStep dt maxTime s) as [s' [[|]|]] eqn:B; auto. apply IH. destruct (eg_step_arr _ _ _ _ _ _ _ _ _ _ B) as (-> & _). auto.
Qed.
(** At or below the switch speed there is no guidance at all: no cycle is flown. *)
Theorem C58_slow_start : forall two E X P timeStep dt maxTime n o hdotref o1 s0, eg_start two E X o hdotref dt = (o1, Ok s0) ->
  first_speed s0 <= g_vswitch P -> (0 < n)%nat ->
  propogateEquilibriumGlide two E X P timeStep dt maxTime n o hdotref = Some (o1, Ok s0).
Proof.
  intros two E X P timeStep dt maxTime n o hdotref o1 s0 H0 H Hn. unfold propogateEquilibriumGlide. rewrite H0. destruct n as [|n]; [lia|]. cbn [while_loop].
  unfold eg_guard. rewrite (start_vcur _ _ _ _ _ _ _ _ H0). destruct (start_inv _ _ _ _ _ _ _ _ H0) as (_ & f & h & _ & _ & ->). rcases; [lra|]. reflexivity.
Qed.

(** * C59: step arrays *)
Definition arr_len (a : steps) (n : nat) : Prop :=
  length (a_t a) = S n /\ length (a_delta a) = S n /\ length (a_hdot a) = S n /\ length (a_hddot a) = S n /\ length (a_qref a) = S n /\ length (a_q a) = S n /\
  length (a_h a) = S n /\ length (a_drag a) = S n /\ length (a_dens a) = S n /\ length (a_acc a) = (2 * n + 1)%nat.
Lemma eg_arr_len : forall two E X P ts dt mt s s' b n, eg_step two E X P ts dt mt s = (s', Ok b) -> arr_len (s_arr s) n ->
  arr_len (s_arr s') (S n) /\ length (a_hdotref (s_arr s')) = S (S n).
Proof.
  intros two E X P ts dt mt s s' b n B L. destruct (eg_step_inv _ _ _ _ _ _ _ _ _ _ B) as (qref & f & heat & apo & _ & _ & _ & _ & _ & -> & _).
  unfold arr_len in *. cbn [steps_app a_t a_delta a_hdot a_hddot a_qref a_q a_h a_acc a_drag a_dens a_hdotref]. rewrite repeat_length, !app_length. cbn [length].
  destruct L as (L1 & L2 & L3 & L4 & L5 & L6 & L7 & L8 & L9 & L10). rewrite L1, L2, L3, L4, L5, L6, L7, L8, L9, L10. repeat split; lia.
Qed.
Lemma eg_passes_len : forall two E X P ts dt mt k s s', passes (eg_step two E X P ts dt mt) k s s' -> arr_len (s_arr s) 0 ->
  arr_len (s_arr s') k /\ (length (a_hdotref (s_arr s')) = if Nat.eqb k 0 then length (a_hdotref (s_arr s)) else S k).
Proof.
  intros two E X P ts dt mt k s s' HP. induction HP as [|k s s1 s2 HP IH B]; intros L; [auto|]. destruct (IH L) as (IH1 & _).
  destruct (eg_arr_len _ _ _ _ _ _ _ _ _ _ _ B IH1) as (A1 & A2). split; auto.
Qed.
(** After [n] cycles of a glide phase: nine step arrays of [n]+1 entries, an acceleration array of 2[n]+1. *)
Theorem C59_glide_arrays : forall two E X P timeStep dt maxTime fuel o hdotref o' s, propogateEquilibriumGlide two E X P timeStep dt maxTime fuel o hdotref = Some (o', Ok s) ->
  exists o1 s0 n, eg_start two E X o hdotref dt = (o1, Ok s0) /\ passes_or_break (eg_step two E X P timeStep dt maxTime) n s0 s /\
    arr_len (s_arr s) n /\ length (a_hdotref (s_arr s)) = (if Nat.eqb n 0 then length hdotref else S n).
Proof.
  intros two E X P timeStep dt maxTime fuel o hdotref o' s H. unfold propogateEquilibriumGlide in H.
  destruct (eg_start two E X o hdotref dt) as [o1 [s0|]] eqn:E0; [|discriminate]. destruct (while_loop (eg_guard P) _ fuel s0) as [[s1 [[]|]]|] eqn:E1; try discriminate. injection H as _ <-.
  destruct (while_passes _ _ _ _ _ E1) as (k & Pk). exists o1, s0, k. split; auto. split; auto.
  assert (L0 : arr_len (s_arr s0) 0 /\ a_hdotref (s_arr s0) = hdotref) by (destruct (start_inv _ _ _ _ _ _ _ _ E0) as (_ & f & h & _ & _ & ->); unfold arr_len; cbn; auto 12).
  destruct L0 as (L0 & L0'). destruct Pk as [Pk|(j & s2 & -> & Pk & B)].
  - destruct (eg_passes_len _ _ _ _ _ _ _ _ _ _ Pk L0) as (A & A'). rewrite L0' in A'. auto.
  - destruct (eg_passes_len _ _ _ _ _ _ _ _ _ _ Pk L0) as (A & _). exact (eg_arr_len _ _ _ _ _ _ _ _ _ _ _ B A).
Qed.
(** Each exit cycle extends the time, bank and climb-rate arrays by one entry and leaves the six others alone. *)
Theorem C59_exit_arrays : forall two E X P timeStep dt fuel s s' rep, propogateExitPhase two E X P timeStep dt fuel s = Some (s', Ok rep) ->
  exists m, passes_or_break (exit_step two E X P timeStep dt (last (a_hdot (s_arr s)) 0) (last (y_heat (s_hist s)) None)) m (exit_start s) s' /\
    let a := s_arr s in let a' := s_arr s' in
    length (a_t a') = (length (a_t a) + m)%nat /\ length (a_delta a') = (length (a_delta a) + m)%nat /\ length (a_hdot a') = (length (a_hdot a) + m)%nat /\
    length (a_hddot a') = (length (a_hddot a) + m)%nat /\ a_hdotref a' = a_hdotref a ++ repeat (Some (last (a_hdot a) 0)) m /\
    a_qref a' = a_qref a /\ a_q a' = a_q a /\ a_h a' = a_h a /\ a_acc a' = a_acc a /\ a_drag a' = a_drag a /\ a_dens a' = a_dens a.
Proof.
  intros two E X P timeStep dt fuel s s' rep H. unfold propogateExitPhase in H.
  destruct (while_loop exit_guard _ fuel (exit_start s)) as [[s2 [[]|]]|] eqn:E2; try discriminate. injection H as <- <-.
  destruct (while_passes _ _ _ _ _ E2) as (m & Pm). exists m. split; auto. set (hr := last (a_hdot (s_arr s)) 0) in *. set (J := last (y_heat (s_hist s)) None) in *.
  set (Inv := fun m (s' : gst) => length (a_t (s_arr s')) = (length (a_t (s_arr s)) + m)%nat /\ length (a_delta (s_arr s')) = (length (a_delta (s_arr s)) + m)%nat /\
    length (a_hdot (s_arr s')) = (length (a_hdot (s_arr s)) + m)%nat /\ length (a_hddot (s_arr s')) = (length (a_hddot (s_arr s)) + m)%nat /\
    a_hdotref (s_arr s') = a_hdotref (s_arr s) ++ repeat (Some hr) m /\ a_qref (s_arr s') = a_qref (s_arr s) /\ a_q (s_arr s') = a_q (s_arr s) /\
    a_h (s_arr s') = a_h (s_arr s) /\ a_acc (s_arr s') = a_acc (s_arr s) /\ a_drag (s_arr s') = a_drag (s_arr s) /\ a_dens (s_arr s') = a_dens (s_arr s)).
  assert (St : forall k s1 s3 b, Inv k s1 -> exit_step two E X P timeStep dt hr J s1 = (s3, Ok b) -> Inv (S k) s3).
  { intros k s1 s3 b HI B. destruct (exit_step_arr _ _ _ _ _ _ _ _ _ _ _ B) as [(_ & _ & _ & (e & He))|(t & hd & EA & _)]; [discriminate|].
    unfold Inv in *. rewrite EA. cbn [steps_app_exit a_t a_delta a_hdot a_hddot a_qref a_q a_h a_acc a_drag a_dens a_hdotref].
    destruct HI as (I1 & I2 & I3 & I4 & I5 & I6 & I7 & I8 & I9 & I10 & I11). rewrite !app_length, I1, I2, I3, I4, I5. cbn [length]. rewrite (repeat_snoc (Some hr) k).
    do 4 (split; [lia|]). split; [symmetry; apply app_assoc|auto 8]. }
  assert (G : forall k s1 s3, passes (exit_step two E X P timeStep dt hr J) k s1 s3 -> Inv 0%nat s1 -> Inv k s3).
  { intros k s1 s3 HP. induction HP as [|k s1 s3 s4 HP IH B]; auto. intros I0. eapply St; eauto. }
  assert (I0 : Inv 0%nat (exit_start s)) by (unfold Inv; cbn [exit_start s_arr repeat]; rewrite app_nil_r; rewrite !Nat.add_0_r; auto 12).
  cbv zeta. change (Inv m s2). destruct Pm as [Pm|(j & s3 & -> & Pm & B)]; [eapply G; eauto|eapply St; [eapply G; eauto|eauto]].
Qed.
(** A whole guided entry of [n] glide and [m] exit cycles. *)
Theorem C59_guided_arrays : forall two E X P timeStep dt maxTime fuel o hdotref o' s s' rep,
  propogateGuidedEntry two E X P timeStep dt maxTime fuel o hdotref = Some (o', Ok (s, s', rep)) ->
  exists n m, let a := s_arr s' in
    length (a_t a) = (n + m + 1)%nat /\ length (a_delta a) = (n + m + 1)%nat /\ length (a_hdot a) = (n + m + 1)%nat /\ length (a_hddot a) = (n + m + 1)%nat /\
    length (a_h a) = (n + 1)%nat /\ length (a_q a) = (n + 1)%nat /\ length (a_qref a) = (n + 1)%nat /\ length (a_drag a) = (n + 1)%nat /\ length (a_dens a) = (n + 1)%nat /\
    length (a_acc a) = (2 * n + 1)%nat /\
    length (a_hdotref a) = (if Nat.eqb n 0 then length hdotref + m else n + m + 1)%nat.
Proof.
  intros two E X P timeStep dt maxTime fuel o hdotref o' s s' rep H. unfold propogateGuidedEntry in H.
  destruct (propogateEquilibriumGlide two E X P timeStep dt maxTime fuel o hdotref) as [[o1 [s1|]]|] eqn:E1; try discriminate.
  destruct (propogateExitPhase two E X P timeStep dt fuel s1) as [[s2 [r|]]|] eqn:E2; try discriminate. injection H as _ <- <- _.
  destruct (C59_glide_arrays _ _ _ _ _ _ _ _ _ _ _ _ E1) as (_ & _ & n & _ & _ & (L1 & L2 & L3 & L4 & L5 & L6 & L7 & L8 & L9 & L10) & L11).
  destruct (C59_exit_arrays _ _ _ _ _ _ _ _ _ _ E2) as (m & _ & M1 & M2 & M3 & M4 & M5 & M6 & M7 & M8 & M9 & M10 & M11). cbv zeta in *. exists n, m.
  rewrite M1, M2, M3, M4, M5, M6, M7, M8, M9, M10, M11, app_length, repeat_length, L11. do 10 (split; [lia|]). destruct (Nat.eqb_spec n 0); lia.
Qed.

(** * C59: time stamps and histories *)
(** What is assumed of a propagation at a NaN bank angle that returns: like any other it stores aligned
    channels on the time grid, starting at the state it was given. *)
Definition nan_ok (X : gext) : Prop := forall o t_sec dt o', nan_run X o t_sec dt = (o', Ok tt) ->
  ob_veh o' = ob_veh o /\ ob_init o' = ob_init o /\ ob_tol o' = ob_tol o /\
  exists f h, ob_flight o' = Some f /\ ob_heat o' = Some h /\ flight_aligned (vh_planet (ob_veh o)) f h /\ starts_at (ob_init o) f /\
    forall k, (k < f_index f)%nat -> nth k (c_t (f_si f)) 0 = INR k * dt.
Lemma propagate_ok : forall two E X name o t_sec dt d o', engine_ok E -> nan_ok X -> Planet name = Ok (vh_planet (ob_veh o)) ->
  propagate two E X o t_sec dt d = (o', Ok tt) ->
  ob_veh o' = ob_veh o /\ ob_init o' = ob_init o /\ ob_tol o' = ob_tol o /\
  exists f h, ob_flight o' = Some f /\ ob_heat o' = Some h /\ flight_aligned (vh_planet (ob_veh o)) f h /\ starts_at (ob_init o) f /\
    forall k, (k < f_index f)%nat -> nth k (c_t (f_si f)) 0 = INR k * dt.
Proof.
  intros two E X name o t_sec dt d o' HE HX HP H. destruct d as [d|]; cbn [propagate] in H; [|apply (HX _ _ _ _ H)].
  apply (C43_flight_aligned E name o t_sec dt d o' HE HP). destruct two; auto.
Qed.
Lemma last_nth : forall {A} (l : list A) d, last l d = nth (length l - 1) l d.
Proof.
  intros A l d. induction l as [|a [|b l] IH]; [reflexivity|reflexivity|]. transitivity (last (b :: l) d); [reflexivity|]. rewrite IH. cbn [length].
  replace (S (S (length l)) - 1)%nat with (S (S (length l) - 1)) by lia. reflexivity.
Qed.
Lemma nondec_snoc : forall l x, nondec l -> (forall i, (i < length l)%nat -> nth i l 0 <= x) -> nondec (l ++ [x]).
Proof.
  intros l x H Hx i j Hij Hj. rewrite app_length in Hj. cbn [length] in Hj. destruct (Nat.eq_dec j (length l)) as [->|].
  - rewrite (app_nth2 l [x] 0 (n:=length l)) by lia. rewrite Nat.sub_diag. cbn [nth]. destruct (Nat.eq_dec i (length l)) as [->|]; [rewrite app_nth2, Nat.sub_diag by lia; cbn; lra|].
    rewrite app_nth1 by lia. apply Hx. lia.
  - rewrite !app_nth1 by lia. apply H; lia.
Qed.
Lemma nondec_app : forall l m, nondec l -> nondec m -> (forall i j, (i < length l)%nat -> (j < length m)%nat -> nth i l 0 <= nth j m 0) -> nondec (l ++ m).
Proof.
  intros l m Hl Hm H i j Hij Hj. rewrite app_length in Hj. destruct (Nat.lt_ge_cases j (length l)); [rewrite !app_nth1 by lia; apply Hl; lia|].
  rewrite (app_nth2 l m 0 (n:=j)) by lia. destruct (Nat.lt_ge_cases i (length l)); [rewrite app_nth1 by lia; apply H; lia|rewrite app_nth2 by lia; apply Hm; lia].
Qed.
Lemma nondec_last : forall l i, nondec l -> (i < length l)%nat -> nth i l 0 <= last l 0.
Proof. intros l i H Hi. rewrite last_nth. apply H; lia. Qed.
(** All channels of a history have [n] entries (the drag channel [nd]). *)
Definition hist_len (H : hist) (n nd : nat) : Prop := plot_len (y_plot H) n /\ length (y_net H) = n /\ length (y_drag H) = nd /\ length (y_dyn H) = n /\
  length (y_stag H) = n /\ length (y_qtot H) = n /\ length (y_heat H) = n.
Lemma hist_app_len : forall p H f h n nd, hist_len H n nd -> flight_aligned p f h -> hist_len (hist_app H f h) (n + f_index f) (nd + f_index f).
Proof.
  intros p H f h n nd ((A1 & A2 & A3 & A4 & A5 & A6 & A7 & A8) & B1 & B2 & B3 & B4 & B5 & B6) F. unfold flight_aligned in F. cbv zeta in F.
  destruct F as (_ & _ & (P1 & P2 & P3 & P4 & P5 & P6 & P7 & P8) & F1 & F2 & F3 & F4 & F5 & F6 & F7 & F8 & _).
  unfold hist_len, plot_len, hist_app. cbn [y_plot y_net y_drag y_dyn y_stag y_qtot y_heat p_t p_h p_v p_phi p_psi p_theta p_gamma p_drange].
  rewrite !app_length, map_length. repeat split; congruence.
Qed.
(** The times of a segment, in minutes. *)
Lemma segment_times : forall p f h dt, flight_aligned p f h -> (forall k, (k < f_index f)%nat -> nth k (c_t (f_si f)) 0 = INR k * dt) ->
  length (p_t (f_plot f)) = f_index f /\ forall k, (k < f_index f)%nat -> nth k (p_t (f_plot f)) 0 = INR k * dt / 60.
Proof.
  intros p f h dt F T. unfold flight_aligned in F. cbv zeta in F. destruct F as (_ & _ & (P1 & _) & _ & _ & _ & _ & _ & _ & _ & _ & Pt).
  split; auto. intros k Hk. specialize (Pt k Hk). unfold point in Pt. destruct Pt as (Pt & _). rewrite T in Pt by auto. lra.
Qed.
Lemma segment_nondec : forall p f h dt c, 0 < dt -> flight_aligned p f h -> (forall k, (k < f_index f)%nat -> nth k (c_t (f_si f)) 0 = INR k * dt) ->
  nondec (map (fun x => x + c) (p_t (f_plot f))) /\ forall j, (j < f_index f)%nat -> c <= nth j (map (fun x => x + c) (p_t (f_plot f))) 0.
Proof.
  intros p f h dt c Hdt F T. destruct (segment_times _ _ _ _ F T) as (L & N). split.
  - intros i j Hij Hj. rewrite map_length, L in Hj. rewrite !(nth_map_lt (fun x => x + c) _ _ 0) by lia. rewrite !N by lia. apply le_INR in Hij. nra.
  - intros j Hj. rewrite (nth_map_lt (fun x => x + c) _ _ 0) by lia. rewrite N by lia. pose proof (pos_INR j). nra.
Qed.
(** The invariant of both loops. *)
Definition timed (name : string) (s : gst) : Prop := Planet name = Ok (vh_planet (ob_veh (s_obj s))) /\
  (exists n nd, hist_len (s_hist s) n nd /\ (1 <= n)%nat) /\ nondec (p_t (y_plot (s_hist s))) /\ nondec (a_t (s_arr s)) /\ (1 <= length (a_t (s_arr s)))%nat /\ last (a_t (s_arr s)) 0 <= cur_t s.
Lemma timed_step : forall two E X name ts dt d J s s' f heat, engine_ok E -> nan_ok X -> 0 < dt -> timed name s ->
  propagate two E X (restarted s J) ts dt d = (s_obj s', Ok tt) -> ob_flight (s_obj s') = Some f -> ob_heat (s_obj s') = Some heat ->
  y_plot (s_hist s') = y_plot (hist_app (s_hist s) f heat) -> (exists n nd, hist_len (s_hist s') n nd /\ (1 <= n)%nat) -> a_t (s_arr s') = a_t (s_arr s) ++ [cur_t s] -> timed name s'.
Proof.
  intros two E X name ts dt d J s s' f heat HE HX Hdt (T1 & (n & nd & T2 & T3) & T4 & T5 & T6 & T7) Hp Hf Hh Hy Hl Ha.
  destruct (propagate_ok two E X name (restarted s _) ts dt d _ HE HX T1 Hp) as (Ev & _ & _ & f' & h' & Hf' & Hh' & FA & _ & FT).
  rewrite Hf in Hf'. rewrite Hh in Hh'. injection Hf' as <-. injection Hh' as <-. change (ob_veh (restarted s J)) with (ob_veh (s_obj s)) in *.
  destruct (segment_nondec _ _ _ dt (last (p_t (y_plot (s_hist s))) 0) Hdt FA FT) as (S1 & S2). destruct (segment_times _ _ _ _ FA FT) as (L & _).
  assert (Hn : (1 <= f_index f)%nat) by (destruct FA as (FA & _); exact FA).
  assert (Et : p_t (y_plot (s_hist s')) = p_t (y_plot (s_hist s)) ++ map (fun x => x + last (p_t (y_plot (s_hist s))) 0) (p_t (f_plot f))) by (rewrite Hy; reflexivity).
  assert (ND : nondec (p_t (y_plot (s_hist s')))).
  { rewrite Et. apply nondec_app; auto. intros i j Hi Hj. rewrite map_length, L in Hj. eapply Rle_trans; [apply nondec_last; auto|apply S2; auto]. }
  assert (Lc : cur_t s <= cur_t s').
  { unfold cur_t at 2. rewrite Et. rewrite last_nth, app_nth2; rewrite app_length, map_length, L; [|lia]. apply S2. lia. }
  split; [rewrite Ev; auto|]. split; auto. split; auto. rewrite Ha. split; [|split; [rewrite app_length; lia|]].
  - apply nondec_snoc; auto. intros i Hi. eapply Rle_trans; [apply nondec_last; auto|auto].
  - rewrite last_last. auto.
Qed.
Lemma timed_eg : forall two E X P name ts dt mt s s' b, engine_ok E -> nan_ok X -> 0 < dt -> timed name s -> eg_step two E X P ts dt mt s = (s', Ok b) -> timed name s'.
Proof.
  intros two E X P name ts dt mt s s' b HE HX Hdt T B. destruct (eg_step_inv _ _ _ _ _ _ _ _ _ _ B) as (qref & f & heat & apo & _ & Hp & Hf & Hh & Hy & Ha & _).
  eapply timed_step; eauto; [rewrite Hy; auto| |rewrite Ha; reflexivity]. destruct T as (T1 & (n & nd & T2 & T3) & _).
  destruct (propagate_ok two E X name (restarted s _) ts dt _ _ HE HX T1 Hp) as (_ & _ & _ & f' & h' & Hf' & Hh' & FA & _). rewrite Hf in Hf'. rewrite Hh in Hh'. injection Hf' as <-. injection Hh' as <-.
  exists (n + f_index f)%nat, (nd + f_index f)%nat. split; [|lia]. rewrite Hy. eapply hist_app_len; eauto.
Qed.
Lemma timed_exit : forall two E X P name ts dt hr J s s' b, engine_ok E -> nan_ok X -> 0 < dt -> timed name s -> exit_step two E X P ts dt hr J s = (s', Ok b) -> timed name s'.
Proof.
  intros two E X P name ts dt hr J s s' b HE HX Hdt T B. destruct (exit_step_inv _ _ _ _ _ _ _ _ _ _ _ B) as (f & heat & Hp & Hf & Hh & Y1 & Y2 & Y3 & Y4 & Y5 & Y6 & Y7 & Ha & _).
  eapply timed_step; eauto; [|rewrite Ha; reflexivity]. destruct T as (T1 & (n & nd & T2 & T3) & _).
  destruct (propagate_ok two E X name (restarted s _) ts dt _ _ HE HX T1 Hp) as (_ & _ & _ & f' & h' & Hf' & Hh' & FA & _). rewrite Hf in Hf'. rewrite Hh in Hh'. injection Hf' as <-. injection Hh' as <-.
  exists (n + f_index f)%nat, nd. split; [|lia]. pose proof T2 as (_ & _ & T2' & _). destruct (hist_app_len _ _ _ _ _ _ T2 FA) as (Q1 & Q2 & Q3 & Q4 & Q5 & Q6 & Q7).
  unfold hist_len. rewrite Y1, Y2, Y3, Y4, Y5, Y6, Y7. auto 10.
Qed.
Lemma timed_start : forall two E X name o hr dt o1 s, engine_ok E -> nan_ok X -> 0 < dt -> Planet name = Ok (vh_planet (ob_veh o)) ->
  eg_start two E X o hr dt = (o1, Ok s) -> timed name s.
Proof.
  intros two E X name o hr dt o1 s HE HX Hdt HP H. destruct (start_inv _ _ _ _ _ _ _ _ H) as (Hp & f & h & Hf & Hh & ->).
  destruct (propagate_ok two E X name _ 1 dt _ _ HE HX HP Hp) as (Ev & _ & _ & f' & h' & Hf' & Hh' & FA & _ & FT). rewrite Hf in Hf'. rewrite Hh in Hh'. injection Hf' as <-. injection Hh' as <-.
  destruct (segment_times _ _ _ _ FA FT) as (L & N). pose proof FA as FA'. destruct FA' as (Hn & _ & FP & F1 & F2 & F3 & F4 & F5 & F6 & F7 & F8 & _).
  split; [cbn [s_obj]; congruence|]. split; [exists (f_index f), (f_index f); unfold hist_len; cbn [s_hist hist_of y_plot y_net y_drag y_dyn y_stag y_qtot y_heat]; auto 10|].
  cbn [s_hist hist_of y_plot s_arr steps0 a_t]. split; [intros i j Hij Hj; rewrite !N by lia; apply le_INR in Hij; nra|].
  split; [intros i j Hij Hj; cbn [length] in Hj; replace i with 0%nat by lia; replace j with 0%nat by lia; lra|]. split; [cbn; lia|].
  unfold cur_t. cbn [s_hist hist_of y_plot last]. rewrite last_nth, L, N by lia. pose proof (pos_INR (f_index f - 1)). nra.
Qed.
(** For every known planet, integrator and number of cycles: the guidance time stamps and the times of the
    concatenated trajectory never decrease, and all its channels have the same length, except the drag
    channel, which the exit phase does not extend. *)
Theorem C59_times : forall two E X P name timeStep dt maxTime fuel o hdotref o' s s' rep, engine_ok E -> nan_ok X -> 0 < dt ->
  Planet name = Ok (vh_planet (ob_veh o)) ->
  propogateGuidedEntry two E X P timeStep dt maxTime fuel o hdotref = Some (o', Ok (s, s', rep)) ->
  nondec (a_t (s_arr s')) /\ nondec (p_t (y_plot (s_hist s'))) /\
  exists n n', hist_len (s_hist s) n n /\ hist_len (s_hist s') n' n /\ (n <= n')%nat.
Proof.
  intros two E X P name timeStep dt maxTime fuel o hdotref o' s s' rep HE HX Hdt HP H.
  unfold propogateGuidedEntry, propogateEquilibriumGlide in H. destruct (eg_start two E X o hdotref dt) as [o1 [s0|]] eqn:E0; [|discriminate].
  destruct (while_loop (eg_guard P) _ fuel s0) as [[s1 [[]|]]|] eqn:E1; try discriminate.
  unfold propogateExitPhase in H. destruct (while_loop exit_guard _ fuel (exit_start s1)) as [[s2 [[]|]]|] eqn:E2; try discriminate. injection H as <- <- <- <-.
  destruct (while_passes _ _ _ _ _ E1) as (k1 & P1). destruct (while_passes _ _ _ _ _ E2) as (k2 & P2).
  assert (T0 : timed name s0) by (eapply timed_start; eauto).
  assert (T1 : timed name s1) by (eapply (pob_invariant (timed name)); [|exact P1|exact T0]; intros; eapply timed_eg; eauto).
  assert (T1' : timed name (exit_start s1)) by exact T1.
  assert (T2 : timed name s2) by (eapply (pob_invariant (timed name)); [|exact P2|exact T1']; intros; eapply timed_exit; eauto).
  split; [apply T2|]. split; [apply T2|].
  assert (N1 : exists n, hist_len (s_hist s1) n n).
  { assert (G : forall s s' b, (timed name s /\ exists n, hist_len (s_hist s) n n) -> eg_step two E X P timeStep dt maxTime s = (s', Ok b) -> timed name s' /\ exists n, hist_len (s_hist s') n n).
    { intros s s' b (T & n & L) B. split; [eapply timed_eg; eauto|]. destruct (eg_step_inv _ _ _ _ _ _ _ _ _ _ B) as (qref & f & heat & apo & _ & Hp & Hf & Hh & Hy & _).
      destruct T as (T & _). destruct (propagate_ok two E X name (restarted s _) timeStep dt _ _ HE HX T Hp) as (_ & _ & _ & f' & h' & Hf' & Hh' & FA & _). rewrite Hf in Hf'. rewrite Hh in Hh'. injection Hf' as <-. injection Hh' as <-.
      exists (n + f_index f)%nat. rewrite Hy. eapply hist_app_len; eauto. }
    apply (pob_invariant _ _ G _ _ _ P1). split; auto. destruct (start_inv _ _ _ _ _ _ _ _ E0) as (Hp & f & h & Hf & Hh & ->).
    destruct (propagate_ok two E X name _ 1 dt _ _ HE HX HP Hp) as (_ & _ & _ & f' & h' & Hf' & Hh' & FA & _). rewrite Hf in Hf'. rewrite Hh in Hh'. injection Hf' as <-. injection Hh' as <-.
    destruct FA as (_ & _ & FP & F1 & F2 & F3 & F4 & F5 & F6 & F7 & F8 & _). exists (f_index f). unfold hist_len; cbn [s_hist hist_of y_plot y_net y_drag y_dyn y_stag y_qtot y_heat]; auto 10. }
  destruct N1 as (n & N1). exists n.
  set (Inv := fun s => timed name s /\ exists n', hist_len (s_hist s) n' n /\ (n <= n')%nat).
  assert (N2 : Inv s2).
  { refine (pob_invariant Inv _ _ _ _ _ P2 _).
    - clear -HE HX Hdt. intros s s' b (T & n' & L & Hn) B. split; [eapply timed_exit; eauto|].
      destruct (exit_step_inv _ _ _ _ _ _ _ _ _ _ _ B) as (f & heat & Hp & Hf & Hh & Y1 & Y2 & Y3 & Y4 & Y5 & Y6 & Y7 & _).
      destruct T as (T & _). destruct (propagate_ok two E X name (restarted s _) timeStep dt _ _ HE HX T Hp) as (_ & _ & _ & f' & h' & Hf' & Hh' & FA & _). rewrite Hf in Hf'. rewrite Hh in Hh'. injection Hf' as <-. injection Hh' as <-.
      exists (n' + f_index f)%nat. split; [|lia]. pose proof L as (_ & _ & L3 & _). destruct (hist_app_len _ _ _ _ _ _ L FA) as (Q1 & Q2 & Q3 & Q4 & Q5 & Q6 & Q7).
      unfold hist_len. rewrite Y1, Y2, Y3, Y4, Y5, Y6, Y7. auto 10.
    - split; [exact T1'|]. exists n. split; [exact N1|auto]. }
  destruct N2 as (_ & n' & N2 & Hn). exists n'. auto.
Qed.

(** At every junction the new segment starts at the point where the last one ended, so that point occurs
    twice; what was recorded before is kept. *)
Definition continues (l l' : list R) : Prop := (length l < length l')%nat /\ firstn (length l) l' = l /\ nth (length l) l' 0 = last l 0.
Definition joined (q q' : plot) : Prop := continues (p_t q) (p_t q') /\ continues (p_h q) (p_h q') /\ continues (p_v q) (p_v q') /\ continues (p_phi q) (p_phi q') /\
  continues (p_psi q) (p_psi q') /\ continues (p_theta q) (p_theta q') /\ continues (p_gamma q) (p_gamma q') /\ continues (p_drange q) (p_drange q').
Lemma continues_app : forall l m, (1 <= length m)%nat -> nth 0 m 0 = last l 0 -> continues l (l ++ m).
Proof.
  intros l m L H. split; [rewrite app_length; lia|]. split; [rewrite firstn_app, Nat.sub_diag; cbn [firstn]; rewrite app_nil_r; apply firstn_all|].
  rewrite app_nth2, Nat.sub_diag by lia. auto.
Qed.
Lemma step_joined : forall two E X name ts dt d J s s' f heat, engine_ok E -> nan_ok X -> timed name s ->
  propagate two E X (restarted s J) ts dt d = (s_obj s', Ok tt) -> ob_flight (s_obj s') = Some f -> ob_heat (s_obj s') = Some heat ->
  y_plot (s_hist s') = y_plot (hist_app (s_hist s) f heat) -> joined (y_plot (s_hist s)) (y_plot (s_hist s')).
Proof.
  intros two E X name ts dt d J s s' f heat HE HX (T1 & _) Hp Hf Hh Hy.
  destruct (propagate_ok two E X name (restarted s J) ts dt d _ HE HX T1 Hp) as (_ & _ & _ & f' & h' & Hf' & Hh' & FA & (S1 & S2 & S3 & S4 & S5 & S6 & S7 & S8) & _).
  rewrite Hf in Hf'. rewrite Hh in Hh'. injection Hf' as <-. injection Hh' as <-. rewrite Hy.
  destruct FA as (Hn & _ & (P1 & P2 & P3 & P4 & P5 & P6 & P7 & P8) & _).
  cbn [restarted set_init last_init ob_init h0_km theta0_deg phi0_deg v0_kms psi0_deg gamma0_deg drange0_km] in *.
  unfold joined, hist_app. cbn [y_plot p_t p_h p_v p_phi p_psi p_theta p_gamma p_drange].
  repeat match goal with |- _ /\ _ => split end; try (apply continues_app; [lia|auto]).
  apply continues_app; [rewrite map_length; lia|]. rewrite (nth_map_lt (fun x => x + _) _ _ 0) by lia. rewrite S1. lra.
Qed.
Theorem C59_junctions : forall two E X P name timeStep dt maxTime o hdotref o1 s0 k s s' b, engine_ok E -> nan_ok X -> 0 < dt ->
  Planet name = Ok (vh_planet (ob_veh o)) -> eg_start two E X o hdotref dt = (o1, Ok s0) ->
  passes (eg_step two E X P timeStep dt maxTime) k s0 s -> eg_step two E X P timeStep dt maxTime s = (s', Ok b) ->
  joined (y_plot (s_hist s)) (y_plot (s_hist s')).
Proof.
  intros two E X P name timeStep dt maxTime o hdotref o1 s0 k s s' b HE HX Hdt HP H0 Hk B.
  assert (T : timed name s) by (eapply (passes_invariant (timed name)); [|exact Hk|eapply timed_start; eauto]; intros; eapply timed_eg; eauto).
  destruct (eg_step_inv _ _ _ _ _ _ _ _ _ _ B) as (qref & f & heat & apo & _ & Hp & Hf & Hh & Hy & _). eapply step_joined; eauto. rewrite Hy; auto.
Qed.
Lemma timed_glide : forall two E X P name timeStep dt maxTime fuel o hdotref o1 s, engine_ok E -> nan_ok X -> 0 < dt -> Planet name = Ok (vh_planet (ob_veh o)) ->
  propogateEquilibriumGlide two E X P timeStep dt maxTime fuel o hdotref = Some (o1, Ok s) -> timed name s.
Proof.
  intros two E X P name timeStep dt maxTime fuel o hdotref o1 s HE HX Hdt HP H. unfold propogateEquilibriumGlide in H.
  destruct (eg_start two E X o hdotref dt) as [o2 [s0|]] eqn:E0; [|discriminate]. destruct (while_loop (eg_guard P) _ fuel s0) as [[s1 [[]|]]|] eqn:E1; try discriminate. injection H as _ <-.
  destruct (while_passes _ _ _ _ _ E1) as (k1 & P1). eapply (pob_invariant (timed name)); [|exact P1|eapply timed_start; eauto]; intros; eapply timed_eg; eauto.
Qed.
Theorem C59_exit_junctions : forall two E X P name timeStep dt maxTime fuel o hdotref o1 s1 m s s' b, engine_ok E -> nan_ok X -> 0 < dt ->
  Planet name = Ok (vh_planet (ob_veh o)) -> propogateEquilibriumGlide two E X P timeStep dt maxTime fuel o hdotref = Some (o1, Ok s1) ->
  let body := exit_step two E X P timeStep dt (last (a_hdot (s_arr s1)) 0) (last (y_heat (s_hist s1)) None) in
  passes body m (exit_start s1) s -> body s = (s', Ok b) -> joined (y_plot (s_hist s)) (y_plot (s_hist s')).
Proof.
  intros two E X P name timeStep dt maxTime fuel o hdotref o1 s1 m s s' b HE HX Hdt HP H body Hk B.
  assert (T1 : timed name s1) by (eapply timed_glide; eauto).
  assert (T : timed name s) by (eapply (passes_invariant (timed name)); [|exact Hk|exact T1]; intros; eapply timed_exit; eauto).
  destruct (exit_step_inv _ _ _ _ _ _ _ _ _ _ _ B) as (f & heat & Hp & Hf & Hh & Hy & _). eapply step_joined; eauto.
Qed.

(** * C74: heat load of a guided flight *)
Lemma store_heat : forall o f h0 o', store o f h0 = (o', Ok tt) -> exists g heat, f = Ok g /\ ob_flight o' = Some g /\ ob_heat o' = Some heat /\
  h0 = 0 /\ ocumtrapz (f_qtot g) (c_t (f_si g)) 0 = Ok heat /\ nth 0 heat None = Some 0.
Proof.
  intros o f h0 o' H. unfold store in H. destruct f as [g|]; [|discriminate]. destruct (ocumtrapz (f_qtot g) (c_t (f_si g)) h0) as [heat|] eqn:E; [|discriminate]. assert (Ho : set_heat (set_flight o g) heat = o') by (apply (f_equal fst) in H; exact H). subst o'.
  exists g, heat. destruct (ocumtrapz_inv _ _ _ _ E) as (_ & _ & -> & _). do 4 (split; [reflexivity|]). split; auto.
  unfold ocumtrapz in E. destruct (f_qtot g); [discriminate|]. destruct (c_t (f_si g)); [discriminate|]. destruct (negb _); [discriminate|]. destruct (negb _); [discriminate|]. injection E as <-. reflexivity.
Qed.
Lemma propagate_heat : forall two E X o ts dt d o', propagate two E X o ts dt (Some d) = (o', Ok tt) -> exists g heat, ob_flight o' = Some g /\ ob_heat o' = Some heat /\
  (two = true -> heatLoad0 (ob_init o) = 0) /\ ocumtrapz (f_qtot g) (c_t (f_si g)) 0 = Ok heat /\ nth 0 heat None = Some 0.
Proof.
  intros two E X o ts dt d o' H. cbn [propagate] in H. destruct two; unfold propogateEntry, propogateEntry2 in H;
    destruct (store_heat _ _ _ _ H) as (g & heat & _ & A & B & C & D & F); exists g, heat; do 2 (split; [auto|]); (split; [intros; auto; discriminate|auto]).
Qed.
(** In both versions, and in every cycle at a numeric bank angle, the recorded heat load starts again from
    zero: the cycle contributes only its own heating, integrated from zero, so the final entry is the heat
    load of the last cycle alone. *)
Theorem C74_glide_heat_restarts : forall two E X P timeStep dt maxTime s s' b, eg_step two E X P timeStep dt maxTime s = (s', Ok b) -> s_delta s' <> None ->
  exists f heat, ob_flight (s_obj s') = Some f /\ ocumtrapz (f_qtot f) (c_t (f_si f)) 0 = Ok heat /\
    y_heat (s_hist s') = y_heat (s_hist s) ++ heat /\ nth (length (y_heat (s_hist s))) (y_heat (s_hist s')) None = Some 0 /\
    last (y_heat (s_hist s')) None = last heat None.
Proof.
  intros two E X P timeStep dt maxTime s s' b B Hd. destruct (eg_step_inv _ _ _ _ _ _ _ _ _ _ B) as (qref & f & heat & apo & _ & Hp & Hf & Hh & Hy & _).
  destruct (s_delta s') as [d|]; [|congruence]. destruct (propagate_heat _ _ _ _ _ _ _ _ Hp) as (g & heat' & Hf' & Hh' & _ & A & N). rewrite Hf in Hf'. rewrite Hh in Hh'. injection Hf' as <-. injection Hh' as <-.
  exists f, heat. split; auto. split; auto. rewrite Hy. cbn [hist_app y_heat]. split; auto. split; [rewrite app_nth2, Nat.sub_diag by lia; auto|].
  assert (heat <> []) by (intros Z; rewrite Z in N; discriminate). destruct (exists_last H) as (l & x & ->). rewrite app_assoc, !last_last. auto.
Qed.
Theorem C74_exit_heat_restarts : forall two E X P timeStep dt hdot_ref Ji s s' b, exit_step two E X P timeStep dt hdot_ref Ji s = (s', Ok b) -> s_delta s' <> None ->
  exists f heat, ob_flight (s_obj s') = Some f /\ ocumtrapz (f_qtot f) (c_t (f_si f)) 0 = Ok heat /\
    y_heat (s_hist s') = y_heat (s_hist s) ++ heat /\ nth (length (y_heat (s_hist s))) (y_heat (s_hist s')) None = Some 0 /\
    last (y_heat (s_hist s')) None = last heat None.
Proof.
  intros two E X P timeStep dt hdot_ref Ji s s' b B Hd. destruct (exit_step_inv _ _ _ _ _ _ _ _ _ _ _ B) as (f & heat & Hp & Hf & Hh & _ & _ & _ & _ & _ & _ & Hy & _).
  destruct (s_delta s') as [d|]; [|congruence]. destruct (propagate_heat _ _ _ _ _ _ _ _ Hp) as (g & heat' & Hf' & Hh' & _ & A & N). rewrite Hf in Hf'. rewrite Hh in Hh'. injection Hf' as <-. injection Hh' as <-.
  exists f, heat. split; auto. split; auto. rewrite Hy. cbn [hist_app y_heat]. split; auto. split; [rewrite app_nth2, Nat.sub_diag by lia; auto|].
  assert (heat <> []) by (intros Z; rewrite Z in N; discriminate). destruct (exists_last H) as (l & x & ->). rewrite app_assoc, !last_last. auto.
Qed.

(** * C75: SciPy refuses a non-zero initial heat load *)
(** Version 2 cannot fly a glide or exit cycle (at a numeric bank angle) from a state with a heat load. *)
Theorem C75_version2_needs_no_heat : forall E X P timeStep dt maxTime hdot_ref Ji s s' b, s_delta s' <> None ->
  (eg_step true E X P timeStep dt maxTime s = (s', Ok b) -> cur_heat s = Some 0) /\
  (exit_step true E X P timeStep dt hdot_ref Ji s = (s', Ok b) -> Ji = Some 0).
Proof.
  assert (G : forall J, heatLoad0 (last_init (y_plot (mkHist (mkPlot [] [] [] [] [] [] [] []) [] [] [] [] [] [])) J) = 0 -> J = Some 0).
  { intros [j|] H; cbn in H; [congruence|lra]. }
  intros E X P timeStep dt maxTime hdot_ref Ji s s' b Hd. split; intros B.
  - destruct (eg_step_inv _ _ _ _ _ _ _ _ _ _ B) as (qref & f & heat & apo & _ & Hp & _). destruct (s_delta s') as [d|]; [|congruence].
    destruct (propagate_heat _ _ _ _ _ _ _ _ Hp) as (g & heat' & _ & _ & Z & _). apply G. exact (Z eq_refl).
  - destruct (exit_step_inv _ _ _ _ _ _ _ _ _ _ _ B) as (f & heat & Hp & _). destruct (s_delta s') as [d|]; [|congruence].
    destruct (propagate_heat _ _ _ _ _ _ _ _ Hp) as (g & heat' & _ & _ & Z & _). apply G. exact (Z eq_refl).
Qed.
(** In either version the apoapsis prediction, made whenever the climb rate exceeds the threshold, returns
    only if the heat load at the end of the cycle is exactly zero. *)
Theorem C75_prediction_needs_no_heat : forall two E X P timeStep dt maxTime s s' b, eg_step two E X P timeStep dt maxTime s = (s', Ok b) ->
  g_hdotthr P < cur_hdot s -> last (y_heat (s_hist s')) None = Some 0.
Proof.
  intros two E X P timeStep dt maxTime s s' b B Hd. destruct (eg_step_inv _ _ _ _ _ _ _ _ _ _ B) as (qref & f & heat & apo & _ & _ & _ & _ & _ & _ & _ & _ & _ & _ & C). cbv zeta in *.
  destruct C as [(C & _)|(_ & d & _ & _ & C)]; [lra|]. unfold predictApoapsis in C. destruct (fly _ _ _ _ _ _ _) as [g|]; [|discriminate]. cbn [rbind] in C.
  destruct (last (y_heat (s_hist s')) None) as [j|]; [|discriminate]. destruct (ocumtrapz (f_qtot g) (c_t (f_si g)) j) as [l|] eqn:Eo; [|discriminate].
  destruct (ocumtrapz_inv _ _ _ _ Eo) as (_ & _ & -> & _). auto.
Qed.

(** * C77: the initial state is lost *)
(** After a cycle the vehicle's initial state is the state at the start of that cycle, whatever the user set;
    the vehicle itself is unchanged. *)
Theorem C77_initial_state_overwritten : forall two E X P name timeStep dt maxTime hdot_ref Ji s s' b, engine_ok E -> nan_ok X ->
  Planet name = Ok (vh_planet (ob_veh (s_obj s))) ->
  eg_step two E X P timeStep dt maxTime s = (s', Ok b) \/ exit_step two E X P timeStep dt hdot_ref Ji s = (s', Ok b) ->
  let q := y_plot (s_hist s) in let i := ob_init (s_obj s') in
  ob_veh (s_obj s') = ob_veh (s_obj s) /\ ob_tol (s_obj s') = ob_tol (s_obj s) /\
  h0_km i = last (p_h q) 0 /\ theta0_deg i = last (p_theta q) 0 /\ phi0_deg i = last (p_phi q) 0 /\ v0_kms i = last (p_v q) 0 /\
  psi0_deg i = last (p_psi q) 0 /\ gamma0_deg i = last (p_gamma q) 0 /\ drange0_km i = last (p_drange q) 0.
Proof.
  intros two E X P name timeStep dt maxTime hdot_ref Ji s s' b HE HX HP HB. cbv zeta.
  assert (G : exists J, propagate two E X (restarted s J) timeStep dt (s_delta s') = (s_obj s', Ok tt)).
  { destruct HB as [B|B]; [destruct (eg_step_inv _ _ _ _ _ _ _ _ _ _ B) as (qref & f & heat & apo & _ & Hp & _)|destruct (exit_step_inv _ _ _ _ _ _ _ _ _ _ _ B) as (f & heat & Hp & _)]; eauto. }
  destruct G as (J & Hp). destruct (propagate_ok two E X name (restarted s J) timeStep dt _ _ HE HX HP Hp) as (Ev & Ei & Et & _). rewrite Ei, Ev, Et. cbn. auto 12.
Qed.
