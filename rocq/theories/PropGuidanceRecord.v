(** Theorems about what a guided flight records (C90) and reports at the end (C91). *)
From Coq Require Import String List ZArith.
Require Import Verif.Base Verif.Numpy Verif.NumpyProofs Verif.PlanetModel Verif.PlanetProofs Verif.AeroModel Verif.FlightProofs Verif.HeatModel Verif.TrajectoryModel Verif.TrajectorySpec
  Verif.TrajectoryProofs Verif.PropTrajectory Verif.OrbitScalarModel Verif.OrbiterModel Verif.OrbitModel Verif.CorridorModel Verif.PropCorridor
  Verif.GuidanceModel Verif.GuidanceSpec Verif.GuidanceProofs Verif.PropControl Verif.PropGuidance Verif.PropGuidanceEx Verif.DragModel Verif.PropDrag Verif.ReportSpec Verif.PropReport Verif.PropOrbit
  Verif.GuidanceRecordSpec.
Local Open Scope R_scope.

Lemma np_div_is : forall a b, quotient_is a b (np_div a b).
Proof. intros a b. unfold np_div. split; intros H; destruct (Reqb_spec b 0); auto; contradiction. Qed.
Lemma quotient_ext : forall a b a' b' q, a = a' -> b = b' -> quotient_is a b q -> quotient_is a' b' q.
Proof. intros; subst; auto. Qed.
Lemma hddot_is : forall l m x t, l <> [] -> m <> [] -> quotient_is (x - last l 0) (60 * (t - last m 0)) (hddot_of (l ++ [x]) (m ++ [t])).
Proof.
  intros l m x t Hl Hm. unfold hddot_of. cbv zeta. rewrite !app_length. cbn [length].
  assert (G : forall (A : Type) (l : list A) x d, l <> [] -> nth (length l + 1 - 1) (l ++ [x]) d = x /\ nth (length l + 1 - 2) (l ++ [x]) d = last l d).
  { intros A l0 x0 d H. split; [rewrite app_nth2 by lia; replace (length l0 + 1 - 1 - length l0)%nat with 0%nat by lia; reflexivity|].
    assert (1 <= length l0)%nat by (destruct l0; [congruence|cbn [length]; lia]). rewrite app_nth1 by lia. rewrite last_nth. f_equal. lia. }
  destruct (G R l x 0 Hl) as (-> & ->). destruct (G R m t 0 Hm) as (-> & ->). eapply quotient_ext; [reflexivity| |apply np_div_is]. ring.
Qed.
(** The step arrays are never empty once the flight has started. *)
Definition started (s : gst) : Prop := a_t (s_arr s) <> [] /\ a_hdot (s_arr s) <> [].
Lemma app_not_nil : forall {A} (l : list A) x, l ++ [x] <> []. Proof. intros A l x H. apply app_eq_nil in H. destruct H; discriminate. Qed.

Lemma cur_is : forall s, cur_t s = end_time (s_hist s) /\ cur_v s = end_speed (s_hist s) /\ cur_h s = end_altitude (s_hist s) / 1000 /\
  cur_hdot s = climb_rate (s_hist s) /\ cur_h s * 1e3 = end_altitude (s_hist s).
Proof.
  intros s. unfold cur_hdot, cur_t, cur_v, cur_h, climb_rate, end_time, end_speed, end_altitude, end_angle, deg.
  assert (Ev : last (p_v (y_plot (s_hist s))) 0 * 1e3 = last (p_v (y_plot (s_hist s))) 0 * 1000) by lra.
  split; [reflexivity|]. split; [exact Ev|]. split; [lra|]. split; [rewrite Ev; reflexivity|lra].
Qed.
Lemma clock : forall s a' ds rest, started s -> a_t a' = a_t (s_arr s) ++ [cur_t s] -> a_hdot a' = a_hdot (s_arr s) ++ [cur_hdot s] ->
  a_hddot a' = a_hddot (s_arr s) ++ [hddot_of (a_hdot (s_arr s) ++ [cur_hdot s]) (a_t (s_arr s) ++ [cur_t s])] -> ds = rest :> unit -> clock_recorded (s_hist s) (s_arr s) a'.
Proof.
  intros s a' _ _ (Ht & Hd) E1 E2 E3 _. destruct (cur_is s) as (C1 & _ & _ & C4 & _). unfold clock_recorded. rewrite <- C1, <- C4.
  split; auto. split; auto. eexists. split; [exact E3|]. apply hddot_is; auto.
Qed.
Lemma repeat_in : forall {A} (x y : A) n, In y (repeat x n) -> y = x.
Proof. intros A x y n H. apply repeat_spec in H. auto. Qed.
Lemma measured_is : forall V H H' n v, v = end_speed H -> last (y_drag H') None = Some n ->
  quotient_is (2 * vh_mass V * (n * 9.80665)) (vh_CD V * vh_A V * (((end_speed H + end_speed H') / 2) * ((end_speed H + end_speed H') / 2)))
    (measured_density V (last (y_drag H') None) v (last (p_v (y_plot H')) 0)).
Proof.
  intros V H H' n v -> En. rewrite En. unfold measured_density. cbn [obind]. eapply quotient_ext; [| |apply np_div_is].
  - unfold EARTHG. ring.
  - replace (0.5 * (end_speed H + last (p_v (y_plot H')) 0 * 1e3)) with ((end_speed H + end_speed H') / 2) by (unfold end_speed; lra). ring.
Qed.

Lemma cycle_is : forall V s s' f heat a a' qr de, started s -> V = ob_veh (s_obj s) -> a = s_arr s ->
  (1 <= f_index f)%nat -> length (f_acc_net f) = f_index f -> length (f_acc_drag f) = f_index f -> s_hist s' = hist_app (s_hist s) f heat ->
  a' = mkSteps (a_t a ++ [cur_t s]) de (a_hdot a ++ [cur_hdot s]) (a_hddot a ++ [hddot_of (a_hdot a ++ [cur_hdot s]) (a_t a ++ [cur_t s])]) qr
    (a_q a ++ [cur_q s]) (a_h a ++ [cur_h s]) ((a_acc a ++ [last (f_acc_net f) None]) ++ [last (y_net (s_hist s')) None]) (a_drag a ++ [last (f_acc_drag f) None])
    (a_dens a ++ [measured_density V (last (y_drag (s_hist s')) None) (cur_v s) (last (p_v (y_plot (s_hist s'))) 0)]) (repeat (Some 0) (length (a_t a ++ [cur_t s]))) ->
  cycle_recorded V (s_hist s) (s_hist s') a a'.
Proof.
  intros V s s' f heat a a' qr de St -> -> Hn Ln Ld Hy ->. destruct (cur_is s) as (C1 & C2 & C3 & C4 & C5).
  assert (NN : forall l : list (option R), length l = f_index f -> l <> []) by (intros l L Z; rewrite Z in L; cbn in L; lia).
  assert (Enet : last (y_net (s_hist s')) None = last (f_acc_net f) None) by (rewrite Hy; cbn [hist_app y_net]; apply last_app2; auto).
  assert (Edrag : last (y_drag (s_hist s')) None = last (f_acc_drag f) None) by (rewrite Hy; cbn [hist_app y_drag]; apply last_app2; auto).
  unfold cycle_recorded. cbv zeta.
  split; [apply (clock s _ tt tt); auto|]. cbn [a_h a_q a_acc a_drag a_dens a_hdotref a_t].
  split; [rewrite C3; reflexivity|]. split.
  { do 2 f_equal. unfold cur_q. rewrite C5, C2. replace 0.5 with (/ 2) by lra. unfold Rdiv. ring. }
  split; [rewrite <- app_assoc; cbn [app]; rewrite Enet; reflexivity|]. split; [rewrite Edrag; reflexivity|]. split.
  { eexists. split; [reflexivity|]. split; [intros ->; reflexivity|]. intros n En. apply measured_is; auto. }
  split; [apply repeat_length|]. intros x Hx. exact (repeat_in _ _ _ Hx).
Qed.

(** * C90: what each cycle records *)
(** Every array starts with one zero entry, which is no measurement. *)
Theorem C90_first : forall two E X o hdotref dt o1 s0, eg_start two E X o hdotref dt = (o1, Ok s0) ->
  let a := s_arr s0 in a_t a = [0] /\ a_hdot a = [0] /\ a_q a = [0] /\ a_h a = [0] /\ a_qref a = [Fin 0] /\
    a_delta a = [Some 0] /\ a_hddot a = [Some 0] /\ a_acc a = [Some 0] /\ a_drag a = [Some 0] /\ a_dens a = [Some 0].
Proof.
  intros two E X o hdotref dt o1 s0 H. destruct (start_inv _ _ _ _ _ _ _ _ H) as (_ & f & h & _ & _ & ->). cbv zeta. cbn [s_arr steps0]. cbn [a_t a_hdot a_q a_h a_qref a_delta a_hddot a_acc a_drag a_dens]. auto 12.
Qed.
Lemma started_start : forall two E X o hdotref dt o1 s0, eg_start two E X o hdotref dt = (o1, Ok s0) -> started s0.
Proof. intros two E X o hdotref dt o1 s0 H. destruct (C90_first _ _ _ _ _ _ _ _ H) as (A & B & _). split; rewrite ?A, ?B; discriminate. Qed.
Lemma started_eg : forall two E X P ts dt mt s s' b, eg_step two E X P ts dt mt s = (s', Ok b) -> started s'.
Proof. intros two E X P ts dt mt s s' b B. destruct (eg_step_inv _ _ _ _ _ _ _ _ _ _ B) as (qref & f & heat & apo & _ & _ & _ & _ & _ & Ha & _). split; rewrite Ha; apply app_not_nil. Qed.
Lemma started_d : forall two E X dm P ts dt mt s s' b, d_step two E X dm P ts dt mt s = (s', Ok b) -> started s'.
Proof. intros two E X dm P ts dt mt s s' b B. destruct (d_step_inv _ _ _ _ _ _ _ _ _ _ _ B) as (f & heat & apo & _ & _ & _ & _ & Ha & _). split; rewrite Ha; apply app_not_nil. Qed.

(** Every cycle of the glide phase that returns. *)
Theorem C90_glide_cycle : forall two E X P name timeStep dt maxTime o hdotref o1 s0 k s s' b, engine_ok E -> nan_ok X ->
  eg_start two E X o hdotref dt = (o1, Ok s0) -> passes (eg_step two E X P timeStep dt maxTime) k s0 s ->
  Planet name = Ok (vh_planet (ob_veh (s_obj s))) -> eg_step two E X P timeStep dt maxTime s = (s', Ok b) ->
  cycle_recorded (ob_veh (s_obj s)) (s_hist s) (s_hist s') (s_arr s) (s_arr s') /\
  a_delta (s_arr s') = a_delta (s_arr s) ++ [s_delta s'] /\
  exists x, a_qref (s_arr s') = a_qref (s_arr s) ++ [x] /\
    qref_of (ob_veh (s_obj s)) (end_speed (s_hist s)) (RP (vh_planet (ob_veh (s_obj s))) + end_altitude (s_hist s)) = Ok x.
Proof.
  intros two E X P name timeStep dt maxTime o hdotref o1 s0 k s s' b HE HX H0 Hk HP B.
  assert (St : started s) by (eapply (passes_invariant started); [|exact Hk|eapply started_start; eauto]; intros; eapply started_eg; eauto).
  destruct (eg_step_inv _ _ _ _ _ _ _ _ _ _ B) as (qref & f & heat & apo & Hq & Hp & Hf & Hh & Hy & Ha & _). cbv zeta in *.
  destruct (propagate_ok two E X name (restarted s _) timeStep dt _ _ HE HX HP Hp) as (_ & _ & _ & f' & h' & Hf' & Hh' & FA & _). rewrite Hf in Hf'. rewrite Hh in Hh'. injection Hf' as <-. injection Hh' as <-.
  destruct FA as (Hn & _ & _ & L1 & L2 & _). split; [|split].
  - eapply (cycle_is _ s s' f heat _ _ _ _ St eq_refl eq_refl Hn L1 L2 Hy). rewrite Ha. unfold steps_app. cbv zeta. reflexivity.
  - rewrite Ha. reflexivity.
  - exists qref. split; [rewrite Ha; reflexivity|]. destruct (cur_is s) as (_ & C2 & _ & _ & C5). rewrite <- C2, <- C5, Rplus_comm. exact Hq.
Qed.
(** Every cycle of the drag-modulation entry phase that returns; the bank angle is zero and no reference
    pressure is recorded. *)
Theorem C90_drag_cycle : forall two E X dm P name timeStep dt maxTime o hdotref o1 s0 k s s' b, engine_ok E ->
  eg_start two E X o hdotref dt = (o1, Ok s0) -> passes (d_step two E X dm P timeStep dt maxTime) k s0 s ->
  Planet name = Ok (vh_planet (ob_veh (s_obj s))) -> d_step two E X dm P timeStep dt maxTime s = (s', Ok b) ->
  cycle_recorded (ob_veh (s_obj s)) (s_hist s) (s_hist s') (s_arr s) (s_arr s') /\
  a_delta (s_arr s') = a_delta (s_arr s) ++ [Some 0] /\ a_qref (s_arr s') = a_qref (s_arr s).
Proof.
  intros two E X dm P name timeStep dt maxTime o hdotref o1 s0 k s s' b HE H0 Hk HP B.
  assert (St : started s) by (eapply (passes_invariant started); [|exact Hk|eapply started_start; eauto]; intros; eapply started_d; eauto).
  destruct (d_step_inv _ _ _ _ _ _ _ _ _ _ _ B) as (f & heat & apo & Hp & Hf & Hh & Hy & Ha & _). cbv zeta in *.
  change (propagate two E (no_nan X) (restarted s (cur_heat s)) timeStep dt (Some 0) = (s_obj s', Ok tt)) in Hp.
  destruct (propagate_ok two E (no_nan X) name (restarted s _) timeStep dt _ _ HE (no_nan_ok X) HP Hp) as (_ & _ & _ & f' & h' & Hf' & Hh' & FA & _). rewrite Hf in Hf'. rewrite Hh in Hh'. injection Hf' as <-. injection Hh' as <-.
  destruct FA as (Hn & _ & _ & L1 & L2 & _). split; [|split].
  - eapply (cycle_is _ s s' f heat _ _ _ _ St eq_refl eq_refl Hn L1 L2 Hy). rewrite Ha. unfold steps_app_d. cbv zeta. reflexivity.
  - rewrite Ha. reflexivity.
  - rewrite Ha. reflexivity.
Qed.
(** Every exit-phase cycle of either kind of guidance: only the clock, the bank angle and the reference climb
    rate are recorded. *)
Theorem C90_exit_cycle : forall two E X P timeStep dt hdot_ref Ji s s' b, a_t (s_arr s) <> [] -> a_hdot (s_arr s) <> [] ->
  exit_step two E X P timeStep dt hdot_ref Ji s = (s', Ok b) \/ dexit_step two E X timeStep dt hdot_ref Ji s = (s', Ok b) ->
  let a := s_arr s in let a' := s_arr s' in clock_recorded (s_hist s) a a' /\
  a_hdotref a' = a_hdotref a ++ [Some hdot_ref] /\ (exists d, a_delta a' = a_delta a ++ [d]) /\
  a_qref a' = a_qref a /\ a_q a' = a_q a /\ a_h a' = a_h a /\ a_acc a' = a_acc a /\ a_drag a' = a_drag a /\ a_dens a' = a_dens a.
Proof.
  intros two E X P timeStep dt hdot_ref Ji s s' b N1 N2 HB. cbv zeta.
  assert (G : exists d, s_arr s' = steps_app_exit (s_arr s) (cur_t s) d (cur_hdot s) hdot_ref).
  { destruct HB as [B|B]; [destruct (exit_step_inv _ _ _ _ _ _ _ _ _ _ _ B) as (f & heat & _ & _ & _ & _ & _ & _ & _ & _ & _ & _ & Ha & _)|
      destruct (dexit_step_inv _ _ _ _ _ _ _ _ _ _ B) as (f & heat & _ & _ & _ & _ & _ & _ & _ & _ & _ & _ & Ha & _)]; eauto. }
  destruct G as (d & Ha). split; [apply (clock s _ tt tt); [split; auto| | | |auto]; rewrite Ha; reflexivity|]. rewrite Ha. unfold steps_app_exit. cbv zeta.
  cbn [a_hdotref a_delta a_qref a_q a_h a_acc a_drag a_dens]. eauto 12.
Qed.

Lemma measured_physics : forall two E X name timeStep dt d s s' f heat, engine_ok E -> nan_ok X ->
  let V := ob_veh (s_obj s) in Planet name = Ok (vh_planet V) -> vh_user V = false -> 0 < vh_mass V -> 0 < vh_CD V * vh_A V ->
  propagate two E X (restarted s (cur_heat s)) timeStep dt (Some d) = (s_obj s', Ok tt) -> ob_flight (s_obj s') = Some f -> ob_heat (s_obj s') = Some heat ->
  s_hist s' = hist_app (s_hist s) f heat -> cycle_recorded V (s_hist s) (s_hist s') (s_arr s) (s_arr s') ->
  let rho := density_int (vh_atm V) (end_altitude (s_hist s')) in
  let v := end_speed (s_hist s') in let mean := (end_speed (s_hist s) + v) / 2 in
  0 <= rho -> mean <> 0 -> last (a_dens (s_arr s')) None = Some (rho * (v / mean) ^ 2).
Proof.
  intros two E X name timeStep dt d s s' f heat HE HX V HP HU Hm HCA Hp Hf Hh Hy (_ & _ & _ & _ & _ & (x & Ex & _ & Hx) & _) rho v mean Hrho Hmean. rewrite Ex, last_last.
  pose proof Hp as Hp2. cbn [propagate] in Hp2.
  assert (Hfl : propogateEntry E (restarted s (cur_heat s)) timeStep dt d = (s_obj s', Ok tt) \/ propogateEntry2 E (restarted s (cur_heat s)) timeStep dt d = (s_obj s', Ok tt)) by (destruct two; auto).
  destruct (C86_every_point E name (restarted s (cur_heat s)) timeStep dt d (s_obj s') HE HP HU Hfl) as (f' & Hf' & Hn & Rep). rewrite Hf in Hf'. injection Hf' as <-.
  destruct (propagate_ok two E X name (restarted s _) timeStep dt _ _ HE HX HP Hp) as (_ & _ & _ & f' & h' & Hf' & Hh' & FA & _). rewrite Hf in Hf'. rewrite Hh in Hh'. injection Hf' as <-. injection Hh' as <-.
  destruct FA as (_ & _ & PL & L1 & L2 & _).
  change (ob_veh (restarted s (cur_heat s))) with V in *.
  specialize (Rep (f_index f - 1)%nat ltac:(lia)). unfold reported in Rep. cbv zeta in Rep. destruct Rep as (_ & _ & Ad & _).
  destruct PL as (P1 & P2 & P3 & _).
  assert (NL : forall {A} (l : list A), length l = f_index f -> l <> []) by (intros A l L Z; rewrite Z in L; cbn in L; lia).
  assert (Eh : end_altitude (s_hist s') = altitude_at f (f_index f - 1)) by (unfold end_altitude, altitude_at; rewrite Hy; cbn [hist_app y_plot p_h]; rewrite last_app2, last_nth, P2 by auto; reflexivity).
  assert (Ev : end_speed (s_hist s') = speed_at f (f_index f - 1)) by (unfold end_speed, speed_at; rewrite Hy; cbn [hist_app y_plot p_v]; rewrite last_app2, last_nth, P3 by auto; reflexivity).
  rewrite <- Eh, <- Ev in Ad. fold rho v in Ad.
  assert (Ed : last (y_drag (s_hist s')) None = Some (Rabs (rho * v * v / 2 * vh_A V * vh_CD V / vh_mass V) / 9.80665)).
  { rewrite Hy. cbn [hist_app y_drag]. rewrite last_app2 by auto. rewrite last_nth, L2. exact Ad. }
  destruct (Hx _ Ed) as (Hq & _). fold v mean V in Hq. assert (Hm2 : mean * mean <> 0) by (intros Z; apply Rmult_integral in Z; tauto).
  rewrite Hq by (intros Z; apply Rmult_integral in Z; destruct Z; [lra|auto]). f_equal.
  rewrite Rabs_pos_eq.
  2:{ replace (rho * v * v / 2 * vh_A V * vh_CD V / vh_mass V) with (rho * (v * v) * (vh_CD V * vh_A V) * / (2 * vh_mass V)) by (field; lra).
      apply Rmult_le_pos; [|left; apply Rinv_0_lt_compat; lra]. apply Rmult_le_pos; [apply Rmult_le_pos; [auto|nra]|lra]. }
  assert (vh_CD V <> 0 /\ vh_A V <> 0) as (? & ?) by (split; intros Z; rewrite Z in HCA; lra).
  replace (rho * v * v / 2 * vh_A V * vh_CD V / vh_mass V / 9.80665 * 9.80665) with (rho * v * v / 2 * vh_A V * vh_CD V / vh_mass V) by (field; lra).
  field. repeat split; auto; lra.
Qed.
(** What the measured density is: the density of the atmosphere where the cycle ended, times the square of
    the ratio of the final speed to the mean of the initial and final speeds. *)
Theorem C90_measured_density : forall two E X P name timeStep dt maxTime o hdotref o1 s0 k s s' b, engine_ok E -> nan_ok X ->
  eg_start two E X o hdotref dt = (o1, Ok s0) -> passes (eg_step two E X P timeStep dt maxTime) k s0 s -> s_delta s' <> None ->
  let V := ob_veh (s_obj s) in Planet name = Ok (vh_planet V) -> vh_user V = false -> 0 < vh_mass V -> 0 < vh_CD V * vh_A V ->
  eg_step two E X P timeStep dt maxTime s = (s', Ok b) ->
  let rho := density_int (vh_atm V) (end_altitude (s_hist s')) in
  let v := end_speed (s_hist s') in let mean := (end_speed (s_hist s) + v) / 2 in
  0 <= rho -> mean <> 0 ->
  last (a_dens (s_arr s')) None = Some (rho * (v / mean) ^ 2).
Proof.
  intros two E X P name timeStep dt maxTime o hdotref o1 s0 k s s' b HE HX H0 Hk Hd V HP HU Hm HCA B.
  destruct (C90_glide_cycle _ _ _ _ name _ _ _ _ _ _ _ _ _ _ _ HE HX H0 Hk HP B) as (HC & _).
  destruct (eg_step_inv _ _ _ _ _ _ _ _ _ _ B) as (qref & f & heat & apo & _ & Hp & Hf & Hh & Hy & _). destruct (s_delta s') as [d|]; [|congruence].
  exact (measured_physics _ _ _ name _ _ _ _ _ _ _ HE HX HP HU Hm HCA Hp Hf Hh Hy HC).
Qed.
Theorem C90_drag_measured_density : forall two E X dm P name timeStep dt maxTime o hdotref o1 s0 k s s' b, engine_ok E ->
  eg_start two E X o hdotref dt = (o1, Ok s0) -> passes (d_step two E X dm P timeStep dt maxTime) k s0 s ->
  let V := ob_veh (s_obj s) in Planet name = Ok (vh_planet V) -> vh_user V = false -> 0 < vh_mass V -> 0 < vh_CD V * vh_A V ->
  d_step two E X dm P timeStep dt maxTime s = (s', Ok b) ->
  let rho := density_int (vh_atm V) (end_altitude (s_hist s')) in
  let v := end_speed (s_hist s') in let mean := (end_speed (s_hist s) + v) / 2 in
  0 <= rho -> mean <> 0 ->
  last (a_dens (s_arr s')) None = Some (rho * (v / mean) ^ 2).
Proof.
  intros two E X dm P name timeStep dt maxTime o hdotref o1 s0 k s s' b HE H0 Hk V HP HU Hm HCA B.
  destruct (C90_drag_cycle _ _ _ _ _ name _ _ _ _ _ _ _ _ _ _ _ HE H0 Hk HP B) as (HC & _).
  destruct (d_step_inv _ _ _ _ _ _ _ _ _ _ _ B) as (f & heat & apo & Hp & Hf & Hh & Hy & _).
  exact (measured_physics _ _ (no_nan X) name _ _ _ _ _ _ _ HE (no_nan_ok X) HP HU Hm HCA Hp Hf Hh Hy HC).
Qed.
Lemma slowing : forall rho v u, 0 < rho -> 0 < v < u -> rho * (v / u) ^ 2 < rho * (v / ((u + v) / 2)) ^ 2 < rho.
Proof.
  intros rho v u Hr Hv.
  assert (A : 0 < v / u) by (apply Rdiv_lt_0_compat; lra).
  assert (B : v / u < v / ((u + v) / 2)) by (apply Rmult_lt_compat_l; [lra|]; apply Rinv_lt_contravar; [apply Rmult_lt_0_compat; lra|lra]).
  assert (C : v / ((u + v) / 2) < 1) by (apply (Rmult_lt_reg_r ((u + v) / 2)); [lra|]; unfold Rdiv at 1; rewrite Rmult_assoc, Rinv_l by lra; lra).
  split.
  - apply Rmult_lt_compat_l; auto. cbn [pow]. nra.
  - rewrite <- (Rmult_1_r rho) at 2. apply Rmult_lt_compat_l; auto. cbn [pow]. nra.
Qed.
(** So a vehicle that slowed down during the cycle always measures less than the density, but more than
    dividing by its initial speed would give. *)
Theorem C90_underestimates : forall two E X P name timeStep dt maxTime o hdotref o1 s0 k s s' b, engine_ok E -> nan_ok X ->
  eg_start two E X o hdotref dt = (o1, Ok s0) -> passes (eg_step two E X P timeStep dt maxTime) k s0 s -> s_delta s' <> None ->
  let V := ob_veh (s_obj s) in Planet name = Ok (vh_planet V) -> vh_user V = false -> 0 < vh_mass V -> 0 < vh_CD V * vh_A V ->
  eg_step two E X P timeStep dt maxTime s = (s', Ok b) ->
  let rho := density_int (vh_atm V) (end_altitude (s_hist s')) in
  0 < rho -> 0 < end_speed (s_hist s') < end_speed (s_hist s) ->
  exists m, last (a_dens (s_arr s')) None = Some m /\ rho * (end_speed (s_hist s') / end_speed (s_hist s)) ^ 2 < m < rho.
Proof.
  intros two E X P name timeStep dt maxTime o hdotref o1 s0 k s s' b HE HX H0 Hk Hd V HP HU Hm HCA B rho Hrho Hv.
  eexists. split; [eapply (C90_measured_density _ _ _ _ name); eauto; [fold V rho; lra|lra]|]. fold V. fold rho. apply slowing; auto.
Qed.
Example C90_witness : exists X P i o1 s0 s' b, nan_ok X /\ engine_ok (brake (/ 2)) /\
  eg_start false (brake (/ 2)) X (mkObj glider i 1 None None) [] 1 = (o1, Ok s0) /\ eg_step false (brake (/ 2)) X P 1 1 600 s0 = (s', Ok b) /\
  ob_veh (s_obj s0) = glider /\ Planet "VENUS" = Ok (vh_planet glider) /\ vh_user glider = false /\ 0 < vh_mass glider /\ 0 < vh_CD glider * vh_A glider /\
  s_delta s' <> None /\ 0 < density_int (vh_atm glider) (end_altitude (s_hist s')) /\ 0 < end_speed (s_hist s') < end_speed (s_hist s0).
Proof.
  set (X := mkGext (fun o _ _ => (o, Err ValueError)) (fun _ _ _ => 0)). set (P := glide_params 5). set (i := mkInit 100 0 0 11 0 0 0 0).
  assert (HL : lifting "VENUS" glider 100) by (apply glider_lifting; lra). pose proof HL as (HP & _ & _ & _ & Hh).
  destruct (brake_start (/ 2) X "VENUS"%string glider 100 11 i 1 [] ltac:(lra) HP Hh eq_refl eq_refl eq_refl) as (o1 & s0 & H0 & L0 & _).
  destruct (brake_cycle (/ 2) X P "VENUS"%string glider 100 600 (/ 2 * 11) s0 ltac:(lra) HL ltac:(lra) L0) as (s1 & b & B1 & L1 & _); [cbn; lra|cbn [glide_params P g_apotol g_apo]; rewrite Rabs_right; lra|].
  exists X, P, i, o1, s0, s1, b. split; [intros ? ? ? ? Hx; discriminate|]. split; [apply brake_ok|]. split; auto. split; auto. destruct L0 as (A1 & _ & _ & A4 & _). destruct L1 as (_ & _ & _ & B4 & B5).
  split; auto. split; [reflexivity|]. split; [reflexivity|]. split; [cbn [glider vh_mass]; lra|]. split; [cbn [glider vh_CD vh_A]; lra|]. split; auto.
  split; [cbn [glider vh_atm thin_air density_int]; lra|]. unfold end_speed. rewrite A4, B4. lra.
Qed.

(** * C91: what the guided flight reports at the end *)
Lemma plot_last_is : forall p q, plot_last p q = end_state p q.
Proof. intros p q. unfold plot_last, end_state, deg. f_equal; lra. Qed.
Lemma report_is_made : forall p P q, report_is p P q (exit_report p P q).
Proof.
  intros p P q. unfold exit_report, report_is. cbv zeta. rewrite plot_last_is. cbn [r_apo r_peri r_perc r_DVperi r_DVapo].
  split; [reflexivity|]. split; [reflexivity|]. split.
  - intros ->. cbn [obind]. destruct (compute_PeriapsisAltitudeKm _ _); auto.
  - intros a ->. cbn [obind]. split; [eapply quotient_ext; [| |apply np_div_is]; ring|]. split; [reflexivity|]. intros pe ->. reflexivity.
Qed.
(** Whichever guidance flew the exit phase, the report is that of the last point of the returned history. *)
Theorem C91_report : forall two E X dm P timeStep dt n s s' rep,
  propogateExitPhase two E X P timeStep dt n s = Some (s', Ok rep) \/ propogateExitPhaseD two E X dm P timeStep dt n s = Some (s', Ok rep) ->
  report_is (vh_planet (ob_veh (s_obj s'))) P (y_plot (s_hist s')) rep.
Proof.
  intros two E X dm P timeStep dt n s s' rep [H|H].
  - unfold propogateExitPhase in H. cbv zeta in H. destruct (while_loop _ _ _ _) as [[s1 [|]]|]; try discriminate. injection H as <- <-. apply report_is_made.
  - unfold propogateExitPhaseD in H. destruct dm as [[b1 ratio]|]; [|discriminate]. destruct (set_ballistic _ _) as [o0 [|]]; [|discriminate]. cbv zeta in H.
    destruct (while_loop _ _ _ _) as [[s1 [|]]|]; try discriminate. injection H as <- <-. apply report_is_made.
Qed.
(** What the numbers mean for a final orbit above the centre of the planet: the error is positive exactly when the
    apoapsis is too high, and each impulse is zero exactly when its apsis is on target and positive when too low. *)
Theorem C91_meaning : forall name p P q rep a pe, Planet name = Ok p -> report_is p P q rep -> r_apo rep = Some a -> r_peri rep = Some pe ->
  0 < g_apo P -> 0 < radius_km p a -> 0 < radius_km p pe -> 0 < radius_km p (g_peri P) ->
  exists e d1 d2, r_perc rep = Some e /\ r_DVperi rep = Some d1 /\ r_DVapo rep = Some d2 /\
    a = g_apo P * (1 + e / 100) /\ (0 < e <-> g_apo P < a) /\ (e = 0 <-> a = g_apo P) /\
    (d1 = 0 <-> pe = g_peri P) /\ (0 < d1 <-> pe < g_peri P) /\ (d2 = 0 <-> a = g_apo P) /\ (0 < d2 <-> a < g_apo P).
Proof.
  intros name p P q rep a pe HP (_ & _ & _ & HR) Ea Ep Ht Ha Hpe Hpt. destruct (HR a Ea) as ((Hq & _) & Hd2 & Hd1). specialize (Hd1 pe Ep).
  destruct (Planet_facts _ _ HP) as (HRP & _).
  assert (Hat : 0 < radius_km p (g_apo P)) by (unfold radius_km; lra).
  destruct (C54_periapsis_raise name p pe a (g_peri P) HP Hpe Ha Hpt) as (v & v' & E1 & _ & _ & M1 & Z1).
  destruct (C54_apoapsis_raise name p (g_peri P) a (g_apo P) HP Hpt Ha Hat) as (w & w' & E2 & _ & _ & M2 & Z2).
  exists (100 * (a - g_apo P) / g_apo P), (v' - v), (w' - w). split; [apply Hq; lra|]. split; [congruence|]. split; [congruence|].
  split; [field; lra|]. set (e := 100 * (a - g_apo P) / g_apo P). assert (Ee : e * g_apo P = 100 * (a - g_apo P)) by (unfold e; field; lra).
  split; [split; intros; nra|]. split; [split; intros Z; [rewrite Z in Ee; lra|assert (e * g_apo P = 0) by lra; apply Rmult_integral in H; destruct H; lra]|].
  split; [exact Z1|]. split; [exact M1|]. split; [exact Z2|exact M2].
Qed.
(** The onboard prediction of the apoapsis is that of the last point of a flight of the same vehicle at the
    given state, through the density function given and otherwise the same atmosphere. *)
Theorem C91_prediction : forall solve V tol h theta phi v gamma psi drange heat0 t_sec dt delta_deg dens apo,
  predictApoapsis solve V tol h theta phi v gamma psi drange heat0 t_sec dt delta_deg dens = Ok apo ->
  exists W f, fly solve W tol (mkInit h theta phi v psi gamma drange 0) t_sec dt delta_deg = Ok f /\
    apo = compute_ApoapsisAltitudeKm (vh_planet V) (end_state (vh_planet V) (f_plot f)) /\
    density_int (vh_atm W) = dens /\ temp_int (vh_atm W) = temp_int (vh_atm V) /\ pressure_int (vh_atm W) = pressure_int (vh_atm V) /\
    sonic_int (vh_atm W) = sonic_int (vh_atm V) /\ vh_planet W = vh_planet V /\ vh_mass W = vh_mass V /\ vh_beta W = vh_beta V /\ vh_LD W = vh_LD V /\
    vh_A W = vh_A V /\ vh_CD W = vh_CD V /\ vh_CL W = vh_CL V /\ vh_RN W = vh_RN V /\ vh_user W = vh_user V /\ vh_CDMach W = vh_CDMach V.
Proof.
  intros solve V tol h theta phi v gamma psi drange heat0 t_sec dt delta_deg dens apo H. unfold predictApoapsis in H. cbv zeta in H.
  destruct (fly _ _ _ _ _ _ _) as [f|] eqn:Ef; [|discriminate]. cbn [rbind] in H. destruct (match heat0 with Some _ => _ | None => _ end); [|discriminate]. cbn [rbind] in H. injection H as <-.
  exists (with_density V dens), f. rewrite plot_last_is. split; [exact Ef|]. split; [reflexivity|]. cbn [with_density vh_atm density_int temp_int pressure_int sonic_int vh_planet vh_mass vh_beta vh_LD vh_A vh_CD vh_CL vh_RN vh_user vh_CDMach]. auto 20.
Qed.
(** A flight that ends 100 km above Venus at 8 km/s reports a bound orbit. *)
Example C91_witness : let q := mkPlot [0] [100] [8] [0] [0] [0] [0] [0] in let P := glide_params 5 in
  exists a pe, report_is VENUS P q (exit_report VENUS P q) /\ r_apo (exit_report VENUS P q) = Some a /\ r_peri (exit_report VENUS P q) = Some pe /\
    Planet "VENUS" = Ok VENUS /\ 0 < g_apo P /\ 0 < radius_km VENUS a /\ 0 < radius_km VENUS pe /\ 0 < radius_km VENUS (g_peri P).
Proof.
  intros q P. set (x := mkExit (RP VENUS + 100e3) 0 0 8000 0 0).
  assert (Ex : end_state VENUS q = x) by (unfold end_state, x, q; cbn [p_h p_theta p_phi p_v p_gamma p_psi last]; f_equal; lra).
  destruct C52_witness as (W1 & W2 & W3). fold x in W1, W2, W3.
  destruct (C52_reported_apsides "VENUS" VENUS x eq_refl ltac:(cbn [x x_r VENUS RP]; lra)) as (_ & C). specialize (C W1). destruct C as (C1 & C2 & _).
  destruct (C1 W2) as (ra & Ea & ((Ha & _) & _) & _). destruct (C2 (Rlt_not_eq _ _ W2) W3) as (rp & Ep & ((Hp & _) & _) & _).
  exists ((ra - RP VENUS) / 1000), ((rp - RP VENUS) / 1000). split; [apply report_is_made|]. destruct (report_is_made VENUS P q) as (R1 & R2 & _). rewrite R1, R2, Ex. split; auto. split; auto. split; auto.
  split; [cbn [P glide_params g_apo]; lra|]. unfold radius_km. split; [replace (RP VENUS + (ra - RP VENUS) / 1000 * 1000) with ra by field; auto|]. split; [replace (RP VENUS + (rp - RP VENUS) / 1000 * 1000) with rp by field; auto|].
  cbn [P glide_params g_peri VENUS RP]; lra.
Qed.
