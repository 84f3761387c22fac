(** Lemmas for the Monte Carlo campaigns: a run does not see what earlier runs left on the vehicle; file
    system steps. *)
From Coq Require Import String List ZArith DecimalString DecimalNat.
Require Import Verif.Base Verif.Numpy Verif.NumpyProofs Verif.PlanetModel Verif.AeroModel Verif.HeatModel Verif.TrajectoryModel Verif.TrajectorySpec
  Verif.TrajectoryProofs Verif.PropTrajectory Verif.OrbitScalarModel Verif.OrbiterModel Verif.OrbitModel Verif.CorridorModel
  Verif.GuidanceModel Verif.GuidanceSpec Verif.GuidanceProofs Verif.PropControl Verif.PropGuidance Verif.DragModel Verif.PropDrag Verif.MonteModel Verif.MonteSpec.
Local Open Scope R_scope.

(** * Flights *)
Definition agree (x y : option (vobj * res (gst * gst * report))) : Prop :=
  match x, y with
  | None, None => True
  | Some (_, Err e), Some (_, Err e') => e = e'
  | Some (o, Ok (s, s', r)), Some (o2, Ok (s2, s2', r2)) => o = o2 /\ same_flight s s2 /\ same_flight s' s2' /\ r = r2
  | _, _ => False
  end.
Lemma eg_start_like : forall two E X V i tol fl ht fl' ht' hr hr' dt,
  match eg_start two E X (mkObj V i tol fl ht) hr dt, eg_start two E X (mkObj V i tol fl' ht') hr' dt with
  | (o1, Ok s), (o1', Ok s') => o1 = o1' /\ same_flight s s'
  | (_, Err e), (_, Err e') => e = e'
  | _, _ => False
  end.
Proof.
  intros two E X V i tol fl ht fl' ht' hr hr' dt. unfold eg_start.
  assert (K : (exists o2, propagate two E X (mkObj V i tol fl' ht') 1 dt (Some 0) = (o2, Ok tt) /\ propagate two E X (mkObj V i tol fl ht) 1 dt (Some 0) = (o2, Ok tt)) \/
    exists e o2 o3, propagate two E X (mkObj V i tol fl ht) 1 dt (Some 0) = (o2, Err e) /\ propagate two E X (mkObj V i tol fl' ht') 1 dt (Some 0) = (o3, Err e)).
  { cbn [propagate]. unfold propogateEntry, propogateEntry2, store. cbn [ob_veh ob_tol ob_init]. destruct two; (destruct (fly _ _ _ _ _ _ _) as [g|]; [|right; eauto 6]); (destruct (ocumtrapz _ _ _); [left; eexists; split; reflexivity|right; do 3 eexists; split; reflexivity]). }
  destruct K as [(o2 & -> & ->)|(e & o2 & o3 & -> & ->)]; [|reflexivity].
  destruct (results o2) as [[f h]|]; cbn [rbind fst snd]; [|reflexivity]. split; auto. eexists. split; [eexists; reflexivity|reflexivity].
Qed.
Lemma eg_step_like : forall two E X P ts dt mt s s2, same_flight s s2 -> like (eg_step two E X P ts dt mt s) (eg_step two E X P ts dt mt s2).
Proof.
  intros two E X P ts dt mt [o a h d dl v hc] s2 (a' & (l & ->) & ->). cbn [s_obj s_arr s_hist s_dens s_delta s_vcur s_hcur] in *.
  unfold eg_step. cbv zeta. cbn [s_obj s_arr s_hist s_dens s_delta s_vcur s_hcur].
  assert (G : forall o2 r, like (mkGst o2 a h d dl v hc, r) (mkGst o2 (mkSteps (a_t a) (a_delta a) (a_hdot a) (a_hddot a) (a_qref a) (a_q a) (a_h a) (a_acc a) (a_drag a) (a_dens a) l) h d dl v hc, r)).
  { intros. split; [|reflexivity]. eexists. split; [eexists; reflexivity|reflexivity]. }
  destruct (qref_of _ _ _); [|apply G].
  destruct (propagate two E X _ ts dt _) as [o2 [[]|]]; [|apply G]. destruct (results o2) as [[f heat]|]; [|apply G].
  unfold steps_app. cbn [a_t a_delta a_hdot a_hddot a_qref a_q a_h a_acc a_drag a_dens a_hdotref].
  destruct (Rltb _ _); [|apply like_refl]. destruct (match d with Some d0 => Ok d0 | None => _ end); [|apply like_refl]. destruct (predictApoapsis _ _ _ _ _ _ _ _ _ _ _ _ _ _ _); apply like_refl.
Qed.
Lemma exit_step_like : forall two E X P ts dt hr J s s2, same_flight s s2 -> like (exit_step two E X P ts dt hr J s) (exit_step two E X P ts dt hr J s2).
Proof.
  intros two E X P ts dt hr J [o a h d dl v hc] s2 (a' & (l & ->) & ->). cbn [s_obj s_arr s_hist s_dens s_delta s_vcur s_hcur] in *.
  unfold exit_step. cbv zeta. cbn [s_obj s_arr s_hist s_dens s_delta s_vcur s_hcur].
  assert (G : forall o2 r, like (mkGst o2 a h d dl v hc, r) (mkGst o2 (mkSteps (a_t a) (a_delta a) (a_hdot a) (a_hddot a) (a_qref a) (a_q a) (a_h a) (a_acc a) (a_drag a) (a_dens a) l) h d dl v hc, r)).
  { intros. split; [|reflexivity]. eexists. split; [eexists; reflexivity|reflexivity]. }
  destruct (propagate two E X _ ts dt _) as [o2 [[]|]]; [|apply G]. destruct (results o2) as [[f heat]|]; [|apply G].
  unfold steps_app_exit. cbn [a_t a_delta a_hdot a_hddot a_qref a_q a_h a_acc a_drag a_dens a_hdotref].
  destruct (Rltb _ _); (split; [|reflexivity]; eexists; split; [eexists; reflexivity|reflexivity]).
Qed.
Lemma sf_obj : forall s s2, same_flight s s2 -> s_obj s2 = s_obj s /\ s_hist s2 = s_hist s /\ a_hdot (s_arr s2) = a_hdot (s_arr s) /\ a_delta (s_arr s2) = a_delta (s_arr s).
Proof. intros s s2 (a' & (l & ->) & ->). auto. Qed.
Lemma sf_exit_start : forall s s2, same_flight s s2 -> same_flight (exit_start s) (exit_start s2).
Proof. intros s s2 (a' & (l & ->) & ->). eexists. split; [eexists; reflexivity|reflexivity]. Qed.
Lemma sf_set_obj : forall s s2 o, same_flight s s2 -> same_flight (set_obj s o) (set_obj s2 o).
Proof. intros s s2 o (a' & (l & ->) & ->). eexists. split; [eexists; reflexivity|reflexivity]. Qed.

Lemma lift_agree : forall two E X P ts dt mt n V i tol fl ht fl' ht' hr hr',
  agree (propogateGuidedEntry two E X P ts dt mt n (mkObj V i tol fl ht) hr) (propogateGuidedEntry two E X P ts dt mt n (mkObj V i tol fl' ht') hr').
Proof.
  intros two E X P ts dt mt n V i tol fl ht fl' ht' hr hr'. unfold propogateGuidedEntry, propogateEquilibriumGlide.
  pose proof (eg_start_like two E X V i tol fl ht fl' ht' hr hr' dt) as L0.
  destruct (eg_start two E X (mkObj V i tol fl ht) hr dt) as [o1 [s0|]], (eg_start two E X (mkObj V i tol fl' ht') hr' dt) as [o1' [s0'|]]; try contradiction; [|exact L0].
  destruct L0 as (_ & SF0).
  assert (W : forall s s2, same_flight s s2 -> eg_guard P s2 = eg_guard P s /\ like (eg_step two E X P ts dt mt s) (eg_step two E X P ts dt mt s2)).
  { intros sa sb SF. split; [destruct SF as (a' & _ & ->); reflexivity|apply eg_step_like; auto]. }
  pose proof (while_like _ _ W n _ _ SF0) as L. destruct (while_loop (eg_guard P) _ n s0) as [[s1 r1]|], (while_loop (eg_guard P) _ n s0') as [[s1' r1']|]; try contradiction; [|exact I].
  destruct L as (SF1 & <-). destruct r1 as [[]|e]; [|reflexivity]. unfold propogateExitPhase. destruct (sf_obj _ _ SF1) as (_ & -> & -> & _).
  match goal with |- context [while_loop exit_guard ?body n (exit_start s1)] => set (bd := body) end.
  assert (W2 : forall s s2, same_flight s s2 -> exit_guard s2 = exit_guard s /\ like (bd s) (bd s2)).
  { intros sa sb SF. split; [destruct SF as (a' & _ & ->); reflexivity|apply exit_step_like; auto]. }
  pose proof (while_like _ _ W2 n _ _ (sf_exit_start _ _ SF1)) as L. destruct (while_loop exit_guard bd n (exit_start s1)) as [[s2 r2]|], (while_loop exit_guard bd n (exit_start s1')) as [[s2' r2']|]; try contradiction; [|exact I].
  destruct L as (SF2 & <-). destruct r2 as [[]|e]; [|reflexivity]. cbn [agree]. destruct (sf_obj _ _ SF2) as (-> & -> & _). auto.
Qed.
Lemma drag_agree : forall two E X dm P tE tX dt mt n o o2 hr hr', fresh_as o o2 ->
  agree (propogateGuidedEntryD two E X dm P tE tX dt mt n o hr) (propogateGuidedEntryD two E X dm P tE tX dt mt n o2 hr').
Proof.
  intros two E X dm P tE tX dt mt n o o2 hr hr' HF. unfold propogateGuidedEntryD, propogateEntryPhaseD. destruct dm as [[b1 ratio]|]; [|reflexivity]. cbn [fst].
  destruct (set_ballistic_fresh o o2 b1 HF) as (E1 & E2).
  destruct (set_ballistic o b1) as [o0 r0] eqn:B0. destruct (set_ballistic o2 b1) as [o02 r02] eqn:B02. cbn [fst snd] in *. subst r02. destruct r0 as [[]|e]; [|reflexivity].
  destruct (E2 eq_refl) as (V & fl & ht & -> & ->).
  pose proof (eg_start_like two E X V (ob_init o) (ob_tol o) (ob_flight o) (ob_heat o) fl ht hr hr' dt) as L0.
  destruct (eg_start two E X _ hr dt) as [o1 [s0|]], (eg_start two E X _ hr' dt) as [o1' [s0'|]]; try contradiction; [|exact L0].
  destruct L0 as (_ & SF0).
  assert (W : forall s s2, same_flight s s2 -> eg_guard P s2 = eg_guard P s /\ like (d_step two E X (b1, ratio) P tE dt mt s) (d_step two E X (b1, ratio) P tE dt mt s2)).
  { intros sa sb SF. split; [destruct SF as (a' & _ & ->); reflexivity|apply d_step_like; auto]. }
  pose proof (while_like _ _ W n _ _ SF0) as L. destruct (while_loop (eg_guard P) _ n s0) as [[s1 r1]|], (while_loop (eg_guard P) _ n s0') as [[s1' r1']|]; try contradiction; [|exact I].
  destruct L as (SF1 & <-). destruct r1 as [[]|e]; [|reflexivity]. unfold propogateExitPhaseD. destruct (sf_obj _ _ SF1) as (-> & -> & -> & _).
  destruct (set_ballistic (s_obj s1) (b1 * ratio)) as [o3 [[]|]]; [|reflexivity].
  match goal with |- context [while_loop exit_guard ?body n (exit_start (set_obj s1 o3))] => set (bd := body) end.
  assert (W2 : forall s s2, same_flight s s2 -> exit_guard s2 = exit_guard s /\ like (bd s) (bd s2)).
  { intros sa sb SF. split; [destruct SF as (a' & _ & ->); reflexivity|apply dexit_step_like; auto]. }
  pose proof (while_like _ _ W2 n _ _ (sf_exit_start _ _ (sf_set_obj _ _ o3 SF1))) as L. destruct (while_loop exit_guard bd n (exit_start (set_obj s1 o3))) as [[s2 r2]|], (while_loop exit_guard bd n (exit_start (set_obj s1' o3))) as [[s2' r2']|]; try contradiction; [|exact I].
  destruct L as (SF2 & <-). destruct r2 as [[]|e]; [|reflexivity]. cbn [agree]. destruct (sf_obj _ _ SF2) as (-> & -> & _). auto.
Qed.

(** A propagation at a NaN bank angle leaves the vehicle's properties alone, like any other. *)
Definition nan_keeps (X : gext) : Prop := forall o t_sec dt o', nan_run X o t_sec dt = (o', Ok tt) -> ob_veh o' = ob_veh o /\ ob_tol o' = ob_tol o.
Lemma nan_ok_keeps : forall X, nan_ok X -> nan_keeps X. Proof. intros X H o t dt o' E. destruct (H _ _ _ _ E) as (A & _ & B & _). auto. Qed.
Lemma propagate_base : forall two E X o ts dt d o', nan_keeps X -> propagate two E X o ts dt d = (o', Ok tt) -> ob_veh o' = ob_veh o /\ ob_tol o' = ob_tol o.
Proof.
  intros two E X o ts dt [d|] o' HX H; [|apply (HX _ _ _ _ H)]. destruct (propagate_keeps two E X o ts dt d) as (A & _ & B). rewrite H in A, B. auto.
Qed.
Lemma while_keeps : forall (Inv : gst -> Prop) guard body, (forall s s' b, Inv s -> body s = (s', Ok b) -> Inv s') -> forall n s s', while_loop guard body n s = Some (s', Ok tt) -> Inv s -> Inv s'.
Proof.
  intros Inv guard body St n. induction n as [|n IH]; intros s s' H I; cbn [while_loop] in H; [discriminate|]. destruct (guard s); [|injection H as <-; auto].
  destruct (body s) as [s1 [[|]|]] eqn:B; [injection H as <-; eauto|eauto|discriminate].
Qed.
Lemma lift_base : forall two E X P ts dt mt n o hr o' s s' r, nan_keeps X -> propogateGuidedEntry two E X P ts dt mt n o hr = Some (o', Ok (s, s', r)) -> ob_veh o' = ob_veh o /\ ob_tol o' = ob_tol o.
Proof.
  intros two E X P ts dt mt n o hr o' s s' r HX H. unfold propogateGuidedEntry, propogateEquilibriumGlide in H. destruct (eg_start two E X o hr dt) as [o1 [s0|]] eqn:E0; [|discriminate].
  destruct (while_loop (eg_guard P) _ n s0) as [[s1 [[]|]]|] eqn:E1; try discriminate. unfold propogateExitPhase in H.
  destruct (while_loop exit_guard _ n (exit_start s1)) as [[s2 [[]|]]|] eqn:E2; try discriminate. injection H as <- <- <- <-.
  set (Inv := flown_as (ob_veh o) (ob_tol o)).
  assert (I0 : Inv s0) by (destruct (start_keeps _ _ _ _ _ _ _ _ E0); split; auto).
  assert (I1 : Inv s1).
  { refine (while_keeps Inv _ _ _ _ _ _ E1 I0). intros a b c (A & B) H. destruct (eg_step_inv _ _ _ _ _ _ _ _ _ _ H) as (qref & f & heat & apo & Hp & Hr). 
    unfold eg_step in H. cbv zeta in H. destruct (qref_of _ _ _); [|discriminate]. destruct (propagate two E X _ ts dt _) as [o2 [[]|]] eqn:Ep; [|discriminate]. destruct (propagate_base _ _ _ _ _ _ _ _ HX Ep) as (U1 & U2). cbn in U1, U2.
    assert (s_obj b = o2). { destruct (results o2) as [[f' h']|]; [|discriminate]. destruct (Rltb _ _); [|injection H as <- _; reflexivity]. destruct (match s_dens a with Some d => Ok d | None => _ end); [|discriminate]. destruct (predictApoapsis _ _ _ _ _ _ _ _ _ _ _ _ _ _ _); [|discriminate]. injection H as <- _; reflexivity. }
    subst o2. split; congruence. }
  assert (I2 : Inv s2).
  { refine (while_keeps Inv _ _ _ _ _ _ E2 I1). intros a b c (A & B) H. unfold exit_step in H. cbv zeta in H. destruct (propagate two E X _ ts dt _) as [o2 [[]|]] eqn:Ep; [|discriminate]. destruct (propagate_base _ _ _ _ _ _ _ _ HX Ep) as (U1 & U2). cbn in U1, U2.
    assert (s_obj b = o2). { destruct (results o2) as [[f' h']|]; [|discriminate]. destruct (Rltb _ _); injection H as <- _; reflexivity. }
    subst o2. split; congruence. }
  exact I2.
Qed.

(** * Runs *)
(** Vehicles that differ only in what a campaign changes: the density function, and with drag modulation the
    ballistic and drag coefficients. *)
Definition same_base (drag : bool) (V V' : vehicle) : Prop := exists f b c, V' = (if drag then with_CD (with_beta (with_density V f) b) c else with_density V f).
Lemma with_density_twice : forall V f g, with_density (with_density V f) g = with_density V g. Proof. reflexivity. Qed.
Lemma same_base_refl : forall drag V, same_base drag V V.
Proof. intros drag V. exists (density_int (vh_atm V)), (vh_beta V), (vh_CD V). destruct drag, V as [? ? ? ? ? ? ? []]; reflexivity. Qed.
Notation alone := flown_alone.
Lemma mc_run_alone : forall m W S rnd V tol i s, nan_keeps (w_X W) -> same_base (is_drag m) V (ob_veh (v_obj s)) -> ob_tol (v_obj s) = tol ->
  snd (mc_run m W S rnd i s) = alone m W S rnd V tol i /\
  (forall x, snd (mc_run m W S rnd i s) = Some (Ok x) -> same_base (is_drag m) V (ob_veh (v_obj (fst (mc_run m W S rnd i s)))) /\ ob_tol (v_obj (fst (mc_run m W S rnd i s))) = tol).
Proof.
  intros m W S rnd V tol i [[V2 i2 tol2 fl ht] hr] HX (f0 & b0 & c0 & EV) Et. cbn [v_obj ob_veh ob_tol] in *. subst tol2. unfold flown_alone, mc_run. cbn [v_obj v_href ob_veh ob_tol ob_flight ob_heat].
  destruct (draws m S rnd i) as [d|e]; [|split; [reflexivity|discriminate]].
  destruct (load_density _ S (w_load W) d) as [f|e]; [|split; [reflexivity|discriminate]].
  set (ini := mkInit _ _ _ _ _ _ _ _).
  destruct (is_drag m) eqn:Ed.
  - subst V2. assert (HF : fresh_as (mkObj (with_density V f) ini tol None None) (mkObj (with_density (with_CD (with_beta (with_density V f0) b0) c0) f) ini tol fl ht)) by (exists b0, c0, fl, ht; reflexivity).
    pose proof (drag_agree (is_two m) (w_E W) (w_X W) (w_dm W) (w_P W) (mc_stepEntry S) (mc_stepExit S) (mc_dt S) (mc_maxTime S) (w_fuel W) _ _ [] hr HF) as A.
    destruct (propogateGuidedEntryD _ _ _ _ _ _ _ _ _ _ (mkObj (with_density V f) ini tol None None) []) as [[o1 [[[s1 s2] r]|]]|] eqn:P1, (propogateGuidedEntryD _ _ _ _ _ _ _ _ _ _ _ hr) as [[o1' [[[s1' s2'] r']|]]|] eqn:P2; cbn [agree] in A; try contradiction.
    + destruct A as (<- & SF1 & SF2 & <-). destruct (sf_obj _ _ SF2) as (_ & -> & _). cbn [fst snd v_obj]. split; [reflexivity|]. intros x Hx.
      destruct (C76_left_behind _ _ _ _ _ _ _ _ _ _ _ _ _ _ _ _ P1) as (b1 & ratio & _ & _ & _ & _ & -> & -> & _). split; [|reflexivity]. cbn [ob_veh]. exists f, (b1 * ratio), (vh_mass V / (b1 * ratio * vh_A V)). reflexivity.
    + subst. split; [reflexivity|discriminate].
    + split; [reflexivity|discriminate].
  - subst V2. rewrite with_density_twice.
    pose proof (lift_agree (is_two m) (w_E W) (w_X W) (w_P W) (mc_stepEntry S) (mc_dt S) (mc_maxTime S) (w_fuel W) (with_density V f) ini tol None None fl ht [] hr) as A.
    destruct (propogateGuidedEntry _ _ _ _ _ _ _ _ (mkObj (with_density V f) ini tol None None) []) as [[o1 [[[s1 s2] r]|]]|] eqn:P1, (propogateGuidedEntry _ _ _ _ _ _ _ _ _ hr) as [[o1' [[[s1' s2'] r']|]]|] eqn:P2; cbn [agree] in A; try contradiction.
    + destruct A as (<- & SF1 & SF2 & <-). destruct (sf_obj _ _ SF2) as (_ & -> & _). cbn [fst snd v_obj]. split; [reflexivity|]. intros x Hx.
      destruct (lift_base _ _ _ _ _ _ _ _ _ _ _ _ _ _ HX P1) as (-> & ->). cbn [ob_veh ob_tol]. split; [|reflexivity]. exists f, 0, 0. reflexivity.
    + subst. split; [reflexivity|discriminate].
    + split; [reflexivity|discriminate].
Qed.

(** * The file system *)
Definition empty_fs : fs := fun _ => None.
Lemma applies_app : forall l1 l2 F, applies F (l1 ++ l2) = applies (applies F l1) l2.
Proof. intros. apply fold_left_app. Qed.
Lemma applies_cons : forall F x l, applies F (x :: l) = applies (apply F x) l. Proof. reflexivity. Qed.
(** What a list of operations leaves at a path: the last thing it put there, or what was there. *)
Lemma applies_over : forall l F q, applies F l q = match applies empty_fs l q with Some n => Some n | None => F q end.
Proof.
  induction l as [|x l IH] using rev_ind; intros F q; [reflexivity|]. rewrite !applies_app. cbn [applies fold_left]. fold (applies F l). fold (applies empty_fs l).
  destruct x; cbn [apply]; unfold put; destruct (path_dec _ q); auto.
Qed.
Definition target (x : op) : path := match x with Mkdir p => p | Open p _ => p | Close p _ => p end.
Lemma applies_other : forall l F q, ~ In q (map target l) -> applies F l q = F q.
Proof.
  induction l as [|x l IH]; intros F q H; [reflexivity|]. cbn [applies fold_left map In] in *. fold (applies (apply F x) l). rewrite IH by tauto.
  destruct x; cbn [apply target] in *; unfold put; destruct (path_dec _ q); tauto.
Qed.

Lemma app_snoc_inj : forall {A} (l : list A) x y, l ++ [x] = l ++ [y] -> x = y.
Proof. intros A l x y H. apply app_inv_head in H. injection H as ->. auto. Qed.
Lemma str_inj : forall i j, str i = str j -> i = j.
Proof.
  intros i j H. unfold str in H. assert (N : forall n, Nat.to_uint n <> Decimal.Nil).
  { intros n E. pose proof (f_equal Nat.of_uint E) as E'. rewrite DecimalNat.Unsigned.of_to in E'. cbn in E'. subst n. discriminate. }
  apply (f_equal NilZero.uint_of_string) in H. rewrite !NilZero.usu in H by apply N. injection H as H. apply DecimalNat.Unsigned.to_uint_inj. auto.
Qed.
Lemma folder_inj : forall main i j, run_folder main i = run_folder main j -> i = j.
Proof. intros main i j H. unfold run_folder in H. apply app_snoc_inj in H. cbn [String.append] in H. injection H as H. apply str_inj in H. lia. Qed.
Lemma folder_not_summary : forall main i n, In n summary_names -> run_folder main i <> main ++ [n].
Proof.
  intros main i n H E. unfold run_folder in E. apply app_snoc_inj in E. cbn [String.append] in E. subst n. cbn in H. repeat (destruct H as [H|H]; [discriminate H|]). auto.
Qed.

(** os.makedirs *)
Lemma consapp : forall {A} (l : list A) x r, (l ++ [x]) ++ r = l ++ x :: r. Proof. intros. rewrite <- app_assoc. reflexivity. Qed.
Lemma mk_parents_spec : forall F todo done l, mk_parents F done todo = Ok l ->
  (forall x, In x l -> exists t1 t2, todo = t1 ++ t2 /\ x = Mkdir (done ++ t1) /\ F (done ++ t1) = None) /\
  (forall t1 t2, todo = t1 ++ t2 -> F (done ++ t1) = Some Dir \/ F (done ++ t1) = None /\ In (Mkdir (done ++ t1)) l).
Proof.
  intros F todo. induction todo as [|x todo IH]; intros done l H; cbn [mk_parents] in H.
  - destruct (F done) as [[| |]|] eqn:E; try discriminate.
    + injection H as <-. split; [intros ? []|]. intros t1 t2 Ht. symmetry in Ht. apply app_eq_nil in Ht. destruct Ht as (-> & ->). rewrite app_nil_r. auto.
    + cbn [rbind] in H. injection H as <-. split.
      * intros y [<-|[]]. exists [], []. rewrite (app_nil_r done). auto.
      * intros t1 t2 Ht. symmetry in Ht. apply app_eq_nil in Ht. destruct Ht as (-> & ->). rewrite app_nil_r. right. cbn; auto.
  - destruct (F done) as [[| |]|] eqn:E; try discriminate.
    + destruct (IH _ _ H) as (A & B). split.
      * intros y Hy. destruct (A y Hy) as (t1 & t2 & -> & -> & N). exists (x :: t1), t2. rewrite consapp in N. rewrite consapp. split; [reflexivity|auto].
      * intros [|y t1] t2 Ht; [rewrite app_nil_r; auto|]. injection Ht as <- Ht. destruct (B t1 t2 Ht) as [C|(C1 & C2)]; [rewrite consapp in C; auto|rewrite consapp in C1, C2; auto].
    + destruct (mk_parents F (done ++ [x]) todo) as [l'|] eqn:E2; [|discriminate]. cbn [rbind] in H. injection H as <-. destruct (IH _ _ E2) as (A & B). split.
      * intros y [<-|Hy]; [exists [], (x :: todo); rewrite (app_nil_r done); auto|]. destruct (A y Hy) as (t1 & t2 & -> & -> & N). exists (x :: t1), t2. rewrite consapp in N. rewrite consapp. split; [reflexivity|auto].
      * intros [|y t1] t2 Ht; [rewrite app_nil_r; right; cbn; auto|]. injection Ht as <- Ht. destruct (B t1 t2 Ht) as [C|(C1 & C2)]; [rewrite consapp in C; auto|rewrite consapp in C1, C2; cbn; auto].
Qed.
Lemma applies_mkdirs : forall l F q, (forall x, In x l -> exists p, x = Mkdir p) -> applies F l q = F q \/ applies F l q = Some Dir.
Proof.
  intros l. induction l as [|x l IH]; intros F q H; [auto|]. cbn [applies fold_left]. fold (applies (apply F x) l). destruct (H x (or_introl eq_refl)) as (p & ->).
  destruct (IH (apply F (Mkdir p)) q) as [-> | ->]; auto; [intros y Hy; apply H; right; auto|]. cbn [apply]. unfold put. destruct (path_dec p q); auto.
Qed.
Lemma applies_mkdir_in : forall l F q, (forall x, In x l -> exists p, x = Mkdir p) -> In (Mkdir q) l -> applies F l q = Some Dir.
Proof.
  intros l. induction l as [|x l IH]; intros F q H HI; [contradiction|]. cbn [applies fold_left]. fold (applies (apply F x) l). assert (H' : forall y, In y l -> exists p, y = Mkdir p) by (intros; apply H; right; auto).
  destruct HI as [->|HI]; [|auto]. destruct (applies_mkdirs l (apply F (Mkdir q)) q H') as [-> | ->]; auto. cbn [apply]. unfold put. destruct (path_dec q q); congruence.
Qed.
Lemma last_split : forall {A} (l : list A), l <> [] -> exists x, l = removelast l ++ [x].
Proof. intros A l H. destruct (exists_last H) as (l' & x & ->). exists x. rewrite removelast_last. auto. Qed.
Lemma prefix_snoc : forall {A} (p : list A) x t1 t2, p ++ [x] = t1 ++ t2 -> (t1 = p ++ [x] /\ t2 = []) \/ exists t2', p = t1 ++ t2' /\ t2 = t2' ++ [x].
Proof.
  intros A p x t1 t2 H. destruct t2 as [|y t2] using rev_ind; [left; rewrite app_nil_r in H; auto|]. right. exists t2. rewrite app_assoc in H. apply app_inj_tail in H. destruct H as (-> & ->). auto.
Qed.
Lemma makedirs_spec : forall F main l, main <> [] -> makedirs F main = Ok l ->
  F main = None /\
  (forall x, In x l -> exists t1 t2, main = t1 ++ t2 /\ x = Mkdir t1 /\ F t1 = None) /\
  (forall t1 t2, main = t1 ++ t2 -> applies F l t1 = Some Dir).
Proof.
  intros F main l Hne H. unfold makedirs in H. destruct (F main) eqn:E; [discriminate|]. destruct (mk_parents F [] (removelast main)) as [l'|] eqn:E2; [|discriminate]. cbn [rbind] in H. injection H as <-.
  destruct (mk_parents_spec _ _ _ _ E2) as (A & B). destruct (last_split main Hne) as (x & Ex). split; auto.
  assert (A' : forall y, In y (l' ++ [Mkdir main]) -> exists t1 t2, main = t1 ++ t2 /\ y = Mkdir t1 /\ F t1 = None).
  { intros y Hy. apply in_app_or in Hy. destruct Hy as [Hy|[<-|[]]]; [|exists main, []; rewrite app_nil_r; auto]. destruct (A y Hy) as (t1 & t2 & Ht & -> & N). exists t1, (t2 ++ [x]). cbn [app] in *. rewrite app_assoc, <- Ht. auto. }
  split; auto. assert (M : forall y, In y (l' ++ [Mkdir main]) -> exists p, y = Mkdir p) by (intros y Hy; destruct (A' y Hy) as (t1 & _ & _ & -> & _); eauto).
  intros t1 t2 Ht. rewrite Ex in Ht. destruct (prefix_snoc _ _ _ _ Ht) as [(-> & _)|(t2' & Ht' & _)].
  - rewrite <- Ex. apply applies_mkdir_in; auto. apply in_or_app; right; cbn; auto.
  - destruct (B t1 t2' Ht') as [D|(_ & D)]; cbn [app] in D; [|apply applies_mkdir_in; auto; apply in_or_app; auto].
    destruct (applies_mkdirs _ F t1 M) as [-> | ->]; auto.
Qed.
Lemma mk_parents_nil : forall F todo done, (forall t1 t2, todo = t1 ++ t2 -> F (done ++ t1) = Some Dir) -> mk_parents F done todo = Ok [].
Proof.
  intros F todo. induction todo as [|x todo IH]; intros done H; cbn [mk_parents]; pose proof (H [] _ eq_refl) as H0; rewrite app_nil_r in H0; rewrite H0; auto.
  apply IH. intros t1 t2 ->. specialize (H (x :: t1) t2 eq_refl). rewrite <- app_assoc. auto.
Qed.

(** np.savetxt, several times *)
Definition writes (l : list (path * content)) : list op := flat_map (fun pc => [Open (fst pc) (snd pc); Close (fst pc) (snd pc)]) l.
Lemma writes_ok : forall l mm arr F ops, (forall pc, In pc l -> F (removelast (fst pc)) = Some Dir /\ F (fst pc) <> Some Dir) ->
  perform_all (mkCamp mm arr F ops) (map (fun pc F => savetxt F (fst pc) (snd pc)) l) = (mkCamp mm arr (applies F (writes l)) (ops ++ writes l), Ok tt).
Proof.
  induction l as [|[p c] l IH]; intros mm arr F ops H; cbn [map perform_all writes flat_map]; [rewrite app_nil_r; reflexivity|].
  destruct (H (p, c) (or_introl eq_refl)) as (H1 & H2). cbn [fst snd] in *. unfold perform, savetxt. cbn [k_fs k_mem k_arr k_ops]. rewrite H1.
  assert (K : forall pc, In pc l -> applies F [Open p c; Close p c] (removelast (fst pc)) = Some Dir /\ applies F [Open p c; Close p c] (fst pc) <> Some Dir).
  { intros pc Hpc. destruct (H pc (or_intror Hpc)) as (G1 & G2). cbn [applies fold_left apply]. unfold put.
    destruct (path_dec p (removelast (fst pc))); [congruence|]. split; auto. destruct (path_dec p (fst pc)); [discriminate|auto]. }
  destruct (F p) as [[| |]|] eqn:E; try congruence; rewrite IH by exact K; cbn [app]; rewrite <- app_assoc; reflexivity.
Qed.
Lemma writes_targets : forall l q, In q (map target (writes l)) <-> In q (map fst l).
Proof. induction l as [|[p c] l IH]; intros q; cbn [writes flat_map app map target In fst snd]; [tauto|]. fold (writes l). rewrite IH. tauto. Qed.
Lemma writes_app : forall l1 l2, writes (l1 ++ l2) = writes l1 ++ writes l2. Proof. intros. apply flat_map_app. Qed.
Lemma writes_in : forall l F p c, NoDup (map fst l) -> In (p, c) l -> applies F (writes l) p = Some (File c).
Proof.
  intros l. induction l as [|[p' c'] l IH]; intros F p c ND H; [contradiction|]. cbn [map fst] in ND. inversion ND as [|? ? N1 N2]; subst. cbn [writes flat_map app]. fold (writes l). rewrite !applies_cons.
  destruct H as [H|H]; [|apply IH; auto]. injection H as -> ->. rewrite applies_other by (rewrite writes_targets; auto). cbn [apply fst snd]. unfold put. destruct (path_dec p p); congruence.
Qed.
(** The prefixes of a list of writes: some files written, at most one more being written. *)
Lemma writes_prefix : forall l pre post, writes l = pre ++ post -> exists l1 l2, l = l1 ++ l2 /\ (pre = writes l1 \/ exists p c l3, l2 = (p, c) :: l3 /\ pre = writes l1 ++ [Open p c]).
Proof.
  intros l. induction l as [|[p c] l IH]; intros pre post H; cbn [writes flat_map app fst snd] in H.
  - symmetry in H. apply app_eq_nil in H. destruct H as (-> & _). exists [], []. auto.
  - fold (writes l) in H. destruct pre as [|x [|y pre]]; cbn [app] in H.
    + exists [], ((p, c) :: l). split; auto.
    + injection H as <- H. exists [], ((p, c) :: l). split; auto. right. exists p, c, l. auto.
    + injection H as <- <- H. destruct (IH _ _ H) as (l1 & l2 & -> & [->|(p' & c' & l3 & -> & ->)]); exists ((p, c) :: l1); eexists; (split; [reflexivity|]); [left; reflexivity|right; do 3 eexists; split; reflexivity].
Qed.

(** * Writing a run's results *)
Definition file_writes (main : path) (i : nat) (d : draw) (q : mc_result) : list (path * content) := map (fun nc => (run_folder main i ++ [fst nc], snd nc)) (run_files d q).
Definition sum_writes (main : path) (arr : list (list (option R))) : list (path * content) := map (fun na => (main ++ [fst na], Nums (snd na))) (combine summary_names arr).
Definition run_ops (main : path) (i : nat) (d : draw) (q : mc_result) (arr : list (list (option R))) : list op :=
  Mkdir (run_folder main i) :: writes (file_writes main i d q) ++ writes (sum_writes main arr).
Definition ready (main : path) (i : nat) (F : fs) : Prop :=
  (forall t1 t2, main = t1 ++ t2 -> F t1 = Some Dir) /\ (forall j r, (i <= j)%nat -> F (run_folder main j ++ r) = None) /\
  (forall n, In n summary_names -> F (main ++ [n]) <> Some Dir).
Lemma snoc_not_nil : forall {A} (l : list A) x, l ++ [x] <> []. Proof. intros A [|a l] x; discriminate. Qed.
Lemma app_self : forall {A} (l r : list A), l ++ r = l -> r = [].
Proof. intros A l r H. apply (app_inv_head l). rewrite app_nil_r. auto. Qed.
Lemma file_paths : forall main i d q p c, In (p, c) (file_writes main i d q) -> exists n, p = run_folder main i ++ [n] /\ In (n, c) (run_files d q).
Proof. intros main i d q p c H. unfold file_writes in H. apply in_map_iff in H. destruct H as ([n c'] & E & H). cbn in E. injection E as <- <-. eauto. Qed.
Lemma sum_paths : forall main arr p c, In (p, c) (sum_writes main arr) -> exists n a, p = main ++ [n] /\ c = Nums a /\ In (n, a) (combine summary_names arr).
Proof. intros main arr p c H. unfold sum_writes in H. apply in_map_iff in H. destruct H as ([n a] & E & H). cbn in E. injection E as <- <-. eauto. Qed.
Lemma run_targets : forall main i d q arr p, In p (map target (run_ops main i d q arr)) ->
  p = run_folder main i \/ (exists n c, In (n, c) (run_files d q) /\ p = run_folder main i ++ [n]) \/ exists n, In n summary_names /\ p = main ++ [n].
Proof.
  intros main i d q arr p H. cbn [run_ops map target In] in H. destruct H as [<-|H]; auto. right. rewrite map_app in H. apply in_app_or in H. destruct H as [H|H].
  - left. rewrite writes_targets in H. apply in_map_iff in H. destruct H as ([p' c] & <- & H). apply file_paths in H. destruct H as (n & -> & H). eauto.
  - right. rewrite writes_targets in H. apply in_map_iff in H. destruct H as ([p' c] & <- & H). apply sum_paths in H. destruct H as (n & a & -> & _ & H). exists n. split; auto. eapply in_combine_l; eauto.
Qed.
Lemma perform_all_app : forall l1 l2 s s', perform_all s l1 = (s', Ok tt) -> perform_all s (l1 ++ l2) = perform_all s' l2.
Proof.
  intros l1. induction l1 as [|a l1 IH]; intros l2 s s' H; cbn [perform_all app] in *; [injection H as ->; auto|]. destruct (perform s a) as [s1 [[]|]]; [auto|discriminate].
Qed.
Lemma folder_prefix : forall main i t r, main = t ++ r -> run_folder main i <> t.
Proof. intros main i t r E H. unfold run_folder in H. rewrite <- H in E. rewrite <- app_assoc in E. symmetry in E. apply app_self in E. discriminate. Qed.
Lemma write_run_ok : forall main i d q arr mm arr0 F ops, ready main i F ->
  perform_all (mkCamp mm arr0 F ops) (write_run main i d q arr) = (mkCamp mm arr0 (applies F (run_ops main i d q arr)) (ops ++ run_ops main i d q arr), Ok tt) /\
  ready main (i + 1) (applies F (run_ops main i d q arr)).
Proof.
  intros main i d q arr mm arr0 F ops (R1 & R2 & R3). set (fd := run_folder main i).
  assert (N0 : F fd = None) by (specialize (R2 i [] (Nat.le_refl _)); rewrite app_nil_r in R2; auto).
  assert (MK : makedirs F fd = Ok [Mkdir fd]).
  { unfold makedirs. rewrite N0. replace (removelast fd) with main by (unfold fd, run_folder; rewrite removelast_last; auto). rewrite mk_parents_nil; auto. }
  set (F1 := applies F [Mkdir fd]). assert (F1o : forall p, p <> fd -> F1 p = F p) by (intros p Hp; unfold F1; apply applies_other; cbn; intuition congruence).
  assert (F1d : F1 fd = Some Dir) by (unfold F1; cbn [applies fold_left apply]; unfold put; destruct (path_dec fd fd); congruence).
  assert (Fm : F1 main = Some Dir) by (rewrite F1o; [apply (R1 main []); rewrite app_nil_r; auto|apply not_eq_sym, (folder_prefix main i main []); rewrite app_nil_r; auto]).
  assert (W1 : forall pc, In pc (file_writes main i d q) -> F1 (removelast (fst pc)) = Some Dir /\ F1 (fst pc) <> Some Dir).
  { intros [p c] H. apply file_paths in H. destruct H as (n & -> & _). fold fd. cbn [fst]. rewrite removelast_last. split; auto. rewrite F1o; [unfold fd; rewrite R2 by lia; discriminate|]. intros E. apply app_self in E. discriminate. }
  set (F2 := applies F1 (writes (file_writes main i d q))).
  assert (F2o : forall p, (forall n, p <> fd ++ [n]) -> F2 p = F1 p).
  { intros p Hp. unfold F2. apply applies_other. rewrite writes_targets. intros H. apply in_map_iff in H. destruct H as ([p' c] & <- & H). apply file_paths in H. destruct H as (n & E & _). apply (Hp n); auto. }
  assert (len : forall (a b : path), a = b -> length a = length b) by congruence.
  assert (W2 : forall pc, In pc (sum_writes main arr) -> F2 (removelast (fst pc)) = Some Dir /\ F2 (fst pc) <> Some Dir).
  { intros [p c] H. apply sum_paths in H. destruct H as (n & a & -> & _ & H). apply in_combine_l in H. cbn [fst]. rewrite removelast_last. split.
    - rewrite F2o; auto. intros n' E. apply len in E. unfold fd, run_folder in E. rewrite !app_length in E. cbn in E. lia.
    - rewrite F2o; [rewrite F1o; [auto|apply not_eq_sym, folder_not_summary; auto]|]. intros n' E. apply len in E. unfold fd, run_folder in E. rewrite !app_length in E. cbn in E. lia. }
  assert (EF : applies F (run_ops main i d q arr) = applies F2 (writes (sum_writes main arr))).
  { unfold run_ops. fold fd. change (Mkdir fd :: ?l) with ([Mkdir fd] ++ l). rewrite !applies_app. reflexivity. }
  split.
  - unfold write_run. fold fd. cbn [perform_all]. unfold perform. cbn [k_fs k_mem k_arr k_ops]. rewrite MK. fold F1.
    replace (map (fun nc F => savetxt F (fd ++ [fst nc]) (snd nc)) (run_files d q)) with (map (fun pc F => savetxt F (fst pc) (snd pc)) (file_writes main i d q)) by (unfold file_writes; rewrite map_map; reflexivity).
    replace (map (fun na F => savetxt F (main ++ [fst na]) (Nums (snd na))) (combine summary_names arr)) with (map (fun pc F => savetxt F (fst pc) (snd pc)) (sum_writes main arr)) by (unfold sum_writes; rewrite map_map; reflexivity).
    rewrite (perform_all_app _ _ _ _ (writes_ok _ mm arr0 F1 (ops ++ [Mkdir fd]) W1)). fold F2. rewrite (writes_ok _ _ _ _ _ W2), EF. unfold run_ops. fold fd. rewrite <- !app_assoc. reflexivity.
  - rewrite EF. set (F3 := applies F2 (writes (sum_writes main arr))).
    assert (F3o : forall p, (forall n, In n summary_names -> p <> main ++ [n]) -> F3 p = F2 p).
    { intros p Hp. unfold F3. apply applies_other. rewrite writes_targets. intros H. apply in_map_iff in H. destruct H as ([p' c] & <- & H). apply sum_paths in H. destruct H as (n & a & E & _ & H). apply in_combine_l in H. apply (Hp n); auto. }
    split; [|split].
    + intros t1 t2 Et. rewrite F3o, F2o, F1o; [eauto|apply not_eq_sym; eapply folder_prefix; eauto| |].
      * intros n E. apply len in E. apply len in Et. unfold fd, run_folder in E. rewrite !app_length in *. cbn in E. lia.
      * intros n _ E. apply len in E. apply len in Et. rewrite !app_length in *. cbn in E. lia.
    + intros j r Hj. assert (D : forall r', run_folder main j ++ r <> fd ++ r').
      { intros r' E. unfold fd, run_folder in E. rewrite <- !app_assoc in E. apply app_inv_head in E. cbn [app String.append] in E. injection E as E _. apply str_inj in E. lia. }
      rewrite F3o, F2o, F1o; [apply R2; lia| | |].
      * specialize (D []). rewrite app_nil_r in D. auto.
      * intros n. apply D.
      * intros n Hn E. unfold run_folder in E. rewrite <- app_assoc in E. apply app_inv_head in E. cbn [app String.append] in E. injection E as E _. subst n. cbn in Hn. repeat (destruct Hn as [Hn|Hn]; [discriminate Hn|]). auto.
    + intros n Hn. unfold F3. rewrite applies_over. destruct (applies empty_fs (writes (sum_writes main arr)) (main ++ [n])) as [x|] eqn:E.
      * intros Z. injection Z as ->. revert E. generalize (sum_writes main arr). intros l. assert (G : forall l F, F (main ++ [n]) <> Some Dir -> applies F (writes l) (main ++ [n]) <> Some Dir).
        { clear. intros l. induction l as [|[p c] l IH]; intros F H; [auto|]. cbn [writes flat_map app fst snd]. fold (writes l). rewrite !applies_cons. apply IH. cbn [apply]. unfold put. destruct (path_dec p (main ++ [n])); [discriminate|auto]. }
        apply G. discriminate.
      * rewrite F2o; [rewrite F1o; [auto|apply not_eq_sym, folder_not_summary; auto]|]. intros n' E'. apply len in E'. unfold fd, run_folder in E'. rewrite !app_length in E'. cbn in E'. lia.
Qed.

(** * The campaign *)
(** Summary column [c] after runs with the results [qs]: their values, then zeros. *)
Definition summary_col (N : nat) (qs : list mc_result) (c : nat) : list (option R) := map (fun q => nth c (summary_row q) None) qs ++ repeat (Some 0) (N - length qs).
Definition arrays (N : nat) (qs : list mc_result) : list (list (option R)) := map (summary_col N qs) (seq 0 7).
Lemma upd_at : forall {A} (l : list A) x y t, upd (length l) x (l ++ y :: t) = l ++ x :: t.
Proof.
  intros A l x y t. unfold upd. replace (skipn (length l) (l ++ y :: t)) with (y :: t). - rewrite firstn_app, Nat.sub_diag, firstn_all. cbn. rewrite app_nil_r. auto.
  - rewrite skipn_app, Nat.sub_diag, skipn_all. reflexivity.
Qed.
Lemma summary_col_snoc : forall N qs q c, (length qs < N)%nat -> upd (length qs) (nth c (summary_row q) None) (summary_col N qs c) = summary_col N (qs ++ [q]) c.
Proof.
  intros N qs q c H. unfold summary_col. replace (N - length qs)%nat with (S (N - length (qs ++ [q])))%nat by (rewrite app_length; cbn; lia). cbn [repeat].
  rewrite <- (map_length (fun q => nth c (summary_row q) None) qs) at 1. rewrite upd_at, map_app, <- app_assoc. reflexivity.
Qed.
Lemma record_arrays : forall N qs q, (length qs < N)%nat -> record (length qs) q (arrays N qs) = arrays N (qs ++ [q]).
Proof.
  intros N qs q H. unfold record, arrays. cbn [seq map]. rewrite <- !(summary_col_snoc N qs q) by auto. reflexivity.
Qed.
Fixpoint camp_ops (main : path) (N : nat) (before xs : list (draw * mc_result)) : list op :=
  match xs with
  | [] => []
  | x :: xs' => run_ops main (length before) (fst x) (snd x) (arrays N (map snd (before ++ [x]))) ++ camp_ops main N (before ++ [x]) xs'
  end.
Lemma camp_ops_app : forall main N xs ys before, camp_ops main N before (xs ++ ys) = camp_ops main N before xs ++ camp_ops main N (before ++ xs) ys.
Proof.
  intros main N xs. induction xs as [|x xs IH]; intros ys before; cbn [camp_ops app]; [rewrite app_nil_r; auto|]. rewrite IH, <- !app_assoc. reflexivity.
Qed.
Lemma mc_loop_spec : forall m W S rnd main N V tol, nan_keeps (w_X W) -> forall n s xs s' out,
  (length xs + n = N)%nat -> ready main (length xs) (k_fs s) -> k_arr s = arrays N (map snd xs) ->
  same_base (is_drag m) V (ob_veh (v_obj (k_mem s))) -> ob_tol (v_obj (k_mem s)) = tol ->
  mc_loop m W S rnd main n (length xs) s = (s', out) ->
  exists ys, (length ys <= n)%nat /\ (forall j y, nth_error ys j = Some y -> alone m W S rnd V tol (length xs + j) = Some (Ok y)) /\
    k_ops s' = k_ops s ++ camp_ops main N xs ys /\ k_fs s' = applies (k_fs s) (camp_ops main N xs ys) /\
    match out with
    | None => (length ys < n)%nat /\ alone m W S rnd V tol (length xs + length ys) = None
    | Some (Err e) => (length ys < n)%nat /\ alone m W S rnd V tol (length xs + length ys) = Some (Err e)
    | Some (Ok _) => length ys = n /\ same_base (is_drag m) V (ob_veh (v_obj (k_mem s'))) /\ ob_tol (v_obj (k_mem s')) = tol
    end.
Proof.
  intros m W S rnd main N V tol HX n. induction n as [|n IH]; intros s xs s' out HN HR HA HB HT H; cbn [mc_loop] in H.
  - injection H as <- <-. exists []. split; [auto|]. split; [intros [|j] y; discriminate|]. cbn [camp_ops]. rewrite app_nil_r. cbn. auto.
  - destruct (mc_run_alone m W S rnd V tol (length xs) (k_mem s) HX HB HT) as (RA & RB).
    destruct (mc_run m W S rnd (length xs) (k_mem s)) as [mm r] eqn:ER. cbn [fst snd] in *.
    assert (Z : forall j (y : draw * mc_result), nth_error (@nil (draw * mc_result)) j = Some y -> alone m W S rnd V tol (length xs + j) = Some (Ok y)) by (intros [|j] y; discriminate).
    destruct r as [[[d q]|e]|].
    + set (arr := record (length xs) q (k_arr s)) in *.
      assert (EA : arr = arrays N (map snd (xs ++ [(d, q)]))).
      { unfold arr. rewrite HA, map_app. rewrite <- (map_length snd xs) at 1. cbn [map snd]. apply record_arrays. rewrite map_length. lia. }
      destruct (write_run_ok main (length xs) d q arr mm arr (k_fs s) (k_ops s) HR) as (WO & RD). rewrite WO in H.
      replace (length xs + 1)%nat with (length (xs ++ [(d, q)])) in * by (rewrite app_length; reflexivity).
      destruct (RB (d, q) eq_refl) as (HB' & HT').
      destruct (IH (mkCamp mm arr (applies (k_fs s) (run_ops main (length xs) d q arr)) (k_ops s ++ run_ops main (length xs) d q arr)) (xs ++ [(d, q)]) s' out) as (ys & L & A & O1 & O2 & C); [rewrite app_length; cbn; lia|exact RD|exact EA|exact HB'|exact HT'|exact H|].
      cbn [k_ops k_fs] in O1, O2. exists ((d, q) :: ys).
      assert (EO : camp_ops main N xs ((d, q) :: ys) = run_ops main (length xs) d q arr ++ camp_ops main N (xs ++ [(d, q)]) ys) by (cbn [camp_ops fst snd]; rewrite EA; reflexivity).
      split; [cbn; lia|]. split.
      * intros [|j] y Hy; cbn [nth_error] in Hy; [injection Hy as <-; rewrite Nat.add_0_r; auto|]. apply A in Hy. rewrite app_length in Hy. cbn [length] in Hy. replace (length xs + Datatypes.S j)%nat with (length xs + 1 + j)%nat by lia. auto.
      * rewrite EO. split; [rewrite O1, <- app_assoc; auto|]. split; [rewrite O2, applies_app; auto|]. rewrite app_length in C. cbn [length] in *.
        replace (length xs + Datatypes.S (length ys))%nat with (length xs + 1 + length ys)%nat by lia. destruct out as [[u|e]|]; destruct C as (C1 & C2); split; auto; lia.
    + injection H as <- <-. exists []. cbn [camp_ops k_ops k_fs]. rewrite app_nil_r, Nat.add_0_r. cbn [length]. split; [lia|]. split; [auto|]. split; [auto|]. split; [auto|]. split; [lia|auto].
    + injection H as <- <-. exists []. cbn [camp_ops k_ops k_fs]. rewrite app_nil_r, Nat.add_0_r. cbn [length]. split; [lia|]. split; [auto|]. split; [auto|]. split; [auto|]. split; [lia|auto].
Qed.

Lemma ready_start : forall F main l, main <> [] -> sane F -> makedirs F main = Ok l -> ready main 0 (applies F l) /\ forall r, r <> [] -> applies F l (main ++ r) = None.
Proof.
  intros F main l Hne HS H. destruct (makedirs_spec _ _ _ Hne H) as (N & T & D).
  assert (G : forall r, r <> [] -> applies F l (main ++ r) = None).
  { intros r Hr. rewrite applies_other; [apply HS; auto|]. intros HI. apply in_map_iff in HI. destruct HI as (x & Ex & HI). destruct (T x HI) as (t1 & t2 & Et & -> & _). cbn [target] in Ex. subst t1. rewrite <- app_assoc in Et. symmetry in Et. apply app_self in Et. apply app_eq_nil in Et. tauto. }
  split; auto. split; [auto|]. split.
  - intros j r _. unfold run_folder. rewrite <- app_assoc. apply G. discriminate.
  - intros n _. rewrite G; discriminate.
Qed.

(** The campaign as a whole. *)
Lemma campaign_spec : forall m W S rnd N main s F st out, main <> [] -> sane F -> nan_keeps (w_X W) ->
  runMonteCarlo m W S rnd N main s F = (st, out) ->
  (exists e, makedirs F main = Err e /\ st = mkCamp s (map (fun _ => repeat (Some 0) N) summary_names) F [] /\ out = Some (Err e)) \/
  exists l xs, makedirs F main = Ok l /\ (length xs <= N)%nat /\
    (forall j x, nth_error xs j = Some x -> alone m W S rnd (ob_veh (v_obj s)) (ob_tol (v_obj s)) j = Some (Ok x)) /\
    k_ops st = l ++ camp_ops main N [] xs /\ k_fs st = applies F (k_ops st) /\
    match out with
    | None => (length xs < N)%nat /\ alone m W S rnd (ob_veh (v_obj s)) (ob_tol (v_obj s)) (length xs) = None
    | Some (Err e) => (length xs < N)%nat /\ alone m W S rnd (ob_veh (v_obj s)) (ob_tol (v_obj s)) (length xs) = Some (Err e)
    | Some (Ok _) => length xs = N /\ same_base (is_drag m) (ob_veh (v_obj s)) (ob_veh (v_obj (k_mem st))) /\ ob_tol (v_obj (k_mem st)) = ob_tol (v_obj s)
    end.
Proof.
  intros m W S rnd N main s F st out Hne HS HX H. unfold runMonteCarlo, perform in H. cbn [k_fs k_mem k_arr k_ops] in H.
  destruct (makedirs F main) as [l|e] eqn:EM; [|injection H as <- <-; left; exists e; auto]. right.
  destruct (ready_start _ _ _ Hne HS EM) as (RD & _).
  destruct (mc_loop_spec m W S rnd main N (ob_veh (v_obj s)) (ob_tol (v_obj s)) HX N (mkCamp s (map (fun _ => repeat (Some 0) N) summary_names) (applies F l) ([] ++ l)) [] st out) as (ys & A1 & A2 & A3 & A4 & A5); auto.
  - cbn [k_arr map]. unfold arrays, summary_col. cbn [map app length seq summary_names]. rewrite Nat.sub_0_r. reflexivity.
  - apply same_base_refl.
  - exists l, ys. cbn [length Nat.add app k_ops k_fs] in *. rewrite A3, applies_app, A4. auto 8.
Qed.

(** * Crash points *)
Notation torn := half_written.
Inductive tidy : list op -> Prop :=
| tidy_nil : tidy []
| tidy_mkdir : forall p l, tidy l -> tidy (Mkdir p :: l)
| tidy_write : forall p c l, tidy l -> tidy (Open p c :: Close p c :: l).
Lemma tidy_app : forall l1 l2, tidy l1 -> tidy l2 -> tidy (l1 ++ l2).
Proof. intros l1 l2 H1 H2. induction H1; cbn [app]; try constructor; auto. Qed.
Lemma tidy_writes : forall l, tidy (writes l). Proof. induction l as [|[p c] l IH]; cbn [writes flat_map app]; constructor; auto. Qed.
Lemma tidy_camp : forall main N xs before, tidy (camp_ops main N before xs).
Proof. intros main N xs. induction xs as [|x xs IH]; intros before; cbn [camp_ops]; [constructor|]. apply tidy_app; auto. constructor. apply tidy_app; apply tidy_writes. Qed.
Lemma tidy_mkdirs : forall l, (forall x, In x l -> exists p, x = Mkdir p) -> tidy l.
Proof. induction l as [|x l IH]; intros H; [constructor|]. destruct (H x (or_introl eq_refl)) as (p & ->). constructor. apply IH. intros; apply H; right; auto. Qed.
Lemma tidy_prefix : forall l, tidy l -> forall pre post, l = pre ++ post -> exists l1, tidy l1 /\ (pre = l1 \/ exists p c, pre = l1 ++ [Open p c]).
Proof.
  intros l H. induction H as [|p l H IH|p c l H IH]; intros pre post E.
  - symmetry in E. apply app_eq_nil in E. destruct E as (-> & _). exists []. split; [constructor|auto].
  - destruct pre as [|x pre]; [exists []; split; [constructor|auto]|]. injection E as <- E. destruct (IH _ _ E) as (l1 & T & C). exists (Mkdir p :: l1). split; [constructor; auto|]. destruct C as [->|(p' & c & ->)]; [auto|right; exists p', c; auto].
  - destruct pre as [|x [|y pre]]; [exists []; split; [constructor|auto]| |].
    + injection E as <- E. exists []. split; [constructor|]. right. exists p, c. auto.
    + injection E as <- <- E. destruct (IH _ _ E) as (l1 & T & C). exists (Open p c :: Close p c :: l1). split; [constructor; auto|]. destruct C as [->|(p' & c' & ->)]; [auto|right; exists p', c'; auto].
Qed.
Lemma tidy_torn : forall l, tidy l -> forall F p, torn (applies F l) p -> torn F p.
Proof.
  intros l H. induction H as [|q l H IH|q c l H IH]; intros F p HT; [auto| |]; rewrite ?applies_cons in HT; apply IH in HT; destruct HT as (c' & HT); cbn [apply] in HT; unfold put in HT.
  - destruct (path_dec q p); [discriminate|]. exists c'; auto.
  - destruct (path_dec q p); [discriminate|]. exists c'; auto.
Qed.
Lemma torn_prefix : forall l pre post F p p', tidy l -> l = pre ++ post -> torn (applies F pre) p -> torn (applies F pre) p' -> p <> p' -> torn F p \/ torn F p'.
Proof.
  intros l pre post F p p' T E H1 H2 Hn. destruct (tidy_prefix _ T _ _ E) as (l1 & T1 & [->|(q & c & ->)]); [left; eapply tidy_torn; eauto|].
  rewrite applies_app in H1, H2. cbn [applies fold_left apply] in H1, H2. unfold half_written, put in H1, H2. destruct (path_dec q p).
  - destruct (path_dec q p'); [congruence|]. right. eapply tidy_torn; eauto.
  - left. eapply tidy_torn; eauto.
Qed.
Lemma split_app : forall {A} (a b c d : list A), a ++ b = c ++ d -> (exists r, a = c ++ r /\ d = r ++ b) \/ (exists r, c = a ++ r /\ b = r ++ d).
Proof.
  intros A a. induction a as [|x a IH]; intros b c d H; [right; exists c; auto|]. destruct c as [|y c]; [left; exists (x :: a); auto|]. cbn in H. injection H as <- H.
  destruct (IH _ _ _ H) as [(r & -> & ->)|(r & -> & ->)]; [left|right]; exists r; auto.
Qed.
Lemma camp_prefix : forall main N xs before pre post, camp_ops main N before xs = pre ++ post ->
  exists xs1 xs2 pre', xs = xs1 ++ xs2 /\ pre = camp_ops main N before xs1 ++ pre' /\
    (pre' = [] \/ exists x xs3 post', xs2 = x :: xs3 /\ run_ops main (length (before ++ xs1)) (fst x) (snd x) (arrays N (map snd ((before ++ xs1) ++ [x]))) = pre' ++ post').
Proof.
  intros main N xs. induction xs as [|x xs IH]; intros before pre post H.
  - cbn [camp_ops] in H. symmetry in H. apply app_eq_nil in H. destruct H as (-> & _). exists [], [], []. auto.
  - cbn [camp_ops] in H. destruct (split_app _ _ _ _ H) as [(r & E1 & E2)|(r & E1 & E2)].
    + exists [], (x :: xs), pre. cbn [camp_ops app]. rewrite app_nil_r. split; auto. split; auto. right. exists x, xs, r. auto.
    + destruct (IH _ _ _ E2) as (xs1 & xs2 & pre' & -> & -> & C). exists (x :: xs1), xs2, pre'. rewrite <- app_assoc in C. split; [reflexivity|]. split; [rewrite E1; cbn [camp_ops]; rewrite <- app_assoc; reflexivity|exact C].
Qed.

(** What is on disk after complete runs. *)
Definition run_saved (F : fs) (main : path) (j : nat) (x : draw * mc_result) : Prop :=
  F (run_folder main j) = Some Dir /\ forall n c, In (n, c) (run_files (fst x) (snd x)) -> F (run_folder main j ++ [n]) = Some (File c).
Lemma file_nodup : forall main i d q, NoDup (map fst (file_writes main i d q)).
Proof.
  intros main i d q. unfold file_writes. rewrite map_map.
  change (NoDup (map (fun n => run_folder main i ++ [n]) (map fst (run_files d q)))).
  apply FinFun.Injective_map_NoDup; [intros a b H; apply app_snoc_inj in H; auto|]. cbn [run_files map fst]. repeat (constructor; [intros H; cbn [In] in H; repeat (destruct H as [H|H]; [discriminate H|]); exact H|]); constructor.
Qed.
Lemma sum_nodup : forall main N qs, NoDup (map fst (sum_writes main (arrays N qs))).
Proof.
  intros main N qs. unfold sum_writes, arrays. cbn [seq map combine summary_names fst].
  change (NoDup (map (fun n => main ++ [n]) summary_names)). apply FinFun.Injective_map_NoDup; [intros a b H; apply app_snoc_inj in H; auto|]. unfold summary_names. repeat (constructor; [intros H; cbn [In] in H; repeat (destruct H as [H|H]; [discriminate H|]); exact H|]); constructor.
Qed.
Lemma sum_in : forall main N qs c n, nth_error summary_names c = Some n -> In (main ++ [n], Nums (summary_col N qs c)) (sum_writes main (arrays N qs)).
Proof.
  intros main N qs c n H. unfold sum_writes, arrays. cbn [seq map combine summary_names fst snd].
  do 7 (destruct c as [|c]; [cbn in H; injection H as <-; cbn; tauto|]). cbn in H. destruct c; discriminate.
Qed.
Lemma len_neq : forall (a b : path), length a <> length b -> a <> b. Proof. congruence. Qed.
Ltac plen := apply len_neq; unfold run_folder; rewrite ?app_length; cbn [length]; lia.
Lemma folder_apart : forall main i j r r', i <> j -> run_folder main i ++ r <> run_folder main j ++ r'.
Proof. intros main i j r r' H E. unfold run_folder in E. rewrite <- !app_assoc in E. apply app_inv_head in E. cbn [app String.append] in E. injection E as E _. apply str_inj in E. lia. Qed.
Lemma folder_sum_apart : forall main i r n, In n summary_names -> run_folder main i ++ r <> main ++ [n].
Proof. intros main i r n Hn E. unfold run_folder in E. rewrite <- app_assoc in E. apply app_inv_head in E. cbn [app String.append] in E. injection E as E _. subst n. cbn in Hn. repeat (destruct Hn as [Hn|Hn]; [discriminate Hn|]). auto. Qed.
(** Writes into folder [i] and the summaries do not touch folder [j]. *)
Lemma untouched : forall main i j r F l, i <> j -> (forall x, In x l -> target x = run_folder main i \/ (exists n, target x = run_folder main i ++ [n]) \/ exists n, In n summary_names /\ target x = main ++ [n]) ->
  applies F l (run_folder main j ++ r) = F (run_folder main j ++ r).
Proof.
  intros main i j r F l Hij H. apply applies_other. intros HI. apply in_map_iff in HI. destruct HI as (x & Ex & HI). destruct (H x HI) as [T|[(n & T)|(n & Hn & T)]]; rewrite T in Ex.
  - apply (folder_apart main i j [] r Hij). rewrite app_nil_r. auto.
  - apply (folder_apart main i j [n] r Hij). auto.
  - apply (folder_sum_apart main j r n Hn). auto.
Qed.
Lemma run_ops_targets : forall main i d q arr x, In x (run_ops main i d q arr) -> target x = run_folder main i \/ (exists n, target x = run_folder main i ++ [n]) \/ exists n, In n summary_names /\ target x = main ++ [n].
Proof.
  intros main i d q arr x H. destruct (run_targets main i d q arr (target x)) as [T|[(n & c & _ & T)|T]]; auto; [apply in_map; auto|]. right; left; exists n; auto.
Qed.
Definition complete (N : nat) (main : path) (F0 F : fs) (xs : list (draw * mc_result)) : Prop :=
  (forall j x, nth_error xs j = Some x -> run_saved F main j x) /\
  (forall j r, (length xs <= j)%nat -> F (run_folder main j ++ r) = F0 (run_folder main j ++ r)) /\
  (forall c n, nth_error summary_names c = Some n -> F (main ++ [n]) = match xs with [] => F0 (main ++ [n]) | _ => Some (File (Nums (summary_col N (map snd xs) c))) end).
Lemma sum_name_in : forall c n, nth_error summary_names c = Some n -> In n summary_names. Proof. intros. eapply nth_error_In; eauto. Qed.
Lemma files_after : forall main i d q F, run_saved (applies F (Mkdir (run_folder main i) :: writes (file_writes main i d q))) main i (d, q).
Proof.
  intros main i d q F. split.
  - rewrite applies_cons, applies_other; [cbn [apply]; unfold put; destruct (path_dec (run_folder main i) (run_folder main i)); congruence|].
    rewrite writes_targets. intros H. apply in_map_iff in H. destruct H as ([p c] & E & H). apply file_paths in H. destruct H as (n & -> & _). cbn [fst] in E. apply app_self in E. discriminate.
  - intros n c H. rewrite applies_cons. apply writes_in; [apply file_nodup|]. unfold file_writes. cbn [fst snd] in H. apply (in_map (fun nc => (run_folder main i ++ [fst nc], snd nc))) in H. exact H.
Qed.
Lemma sum_keeps_folder : forall main N qs l F j x, (forall p c, In (p, c) l -> In (p, c) (sum_writes main (arrays N qs))) -> run_saved F main j x -> run_saved (applies F (writes l)) main j x.
Proof.
  intros main N qs l F j x Hl (R1 & R2).
  assert (G : forall r, applies F (writes l) (run_folder main j ++ r) = F (run_folder main j ++ r)).
  { intros r. apply applies_other. rewrite writes_targets. intros H. apply in_map_iff in H. destruct H as ([p c] & E & H). apply Hl, sum_paths in H. destruct H as (n & a & Ep & _ & H). apply in_combine_l in H. cbn [fst] in E. subst p. apply (folder_sum_apart main j r n H). auto. }
  split; [specialize (G []); rewrite app_nil_r in G; rewrite G; auto|]. intros n c H. rewrite G. auto.
Qed.
Lemma complete_snoc : forall N main F0 F xs x, complete N main F0 F xs ->
  complete N main F0 (applies F (run_ops main (length xs) (fst x) (snd x) (arrays N (map snd (xs ++ [x]))))) (xs ++ [x]).
Proof.
  intros N main F0 F xs [d q] (C1 & C2 & C3). cbn [fst snd]. set (arr := arrays N (map snd (xs ++ [(d, q)]))). split; [|split].
  - intros j x Hj. destruct (Nat.eq_dec (length xs) j) as [<-|Hn].
    + rewrite nth_error_app2, Nat.sub_diag in Hj by lia. cbn in Hj. injection Hj as <-. unfold run_ops. rewrite app_comm_cons, applies_app. eapply sum_keeps_folder; [|apply files_after]. intros p c H; exact H.
    + rewrite nth_error_app1 in Hj.
      2:{ assert (j < length (xs ++ [(d, q)]))%nat by (apply nth_error_Some; congruence). rewrite app_length in H. cbn in H. lia. }
      destruct (C1 j x Hj) as (R1 & R2). split.
      * pose proof (untouched main (length xs) j [] F _ Hn (run_ops_targets main (length xs) d q arr)) as U. rewrite app_nil_r in U. rewrite U. auto.
      * intros n c H. rewrite (untouched main (length xs) j [n] F _ Hn (run_ops_targets main (length xs) d q arr)). auto.
  - intros j r Hj. rewrite app_length in Hj. cbn in Hj. rewrite (untouched main (length xs) j r F _ ltac:(lia) (run_ops_targets main (length xs) d q arr)). apply C2. lia.
  - intros c n H. replace (match xs ++ [(d, q)] with [] => F0 (main ++ [n]) | _ => Some (File (Nums (summary_col N (map snd (xs ++ [(d, q)])) c))) end) with (Some (File (Nums (summary_col N (map snd (xs ++ [(d, q)])) c)))) by (destruct xs; reflexivity).
    unfold run_ops. rewrite app_comm_cons, applies_app. apply writes_in; [apply sum_nodup|apply sum_in; auto].
Qed.
Lemma complete_all : forall N main F xs, complete N main F (applies F (camp_ops main N [] xs)) xs.
Proof.
  intros N main F xs. induction xs as [|x xs IH] using rev_ind.
  - split; [intros [|j] x; discriminate|]. split; auto.
  - rewrite camp_ops_app, applies_app. cbn [camp_ops app]. rewrite app_nil_r. apply complete_snoc. auto.
Qed.

(** A crash while a run is being written. *)
Lemma writes_state : forall l pre post F p, NoDup (map fst l) -> writes l = pre ++ post ->
  applies F pre p = F p \/ exists c, In (p, c) l /\ (applies F pre p = Some (File c) \/ applies F pre p = Some (Torn c)).
Proof.
  intros l pre post F p ND E. destruct (writes_prefix _ _ _ E) as (l1 & l2 & -> & C).
  assert (G : applies F (writes l1) p = F p \/ exists c, In (p, c) (l1 ++ l2) /\ applies F (writes l1) p = Some (File c)).
  { destruct (in_dec path_dec p (map fst l1)) as [I|I].
    - right. apply in_map_iff in I. destruct I as ([p' c] & <- & I). exists c. cbn [fst]. split; [apply in_or_app; auto|]. apply writes_in; auto. rewrite map_app in ND. clear -ND. induction (map fst l1) as [|a l IH]; [constructor|]. cbn [app] in ND. inversion ND; subst. constructor; [intros HI; apply H1; apply in_or_app; auto|auto].
    - left. apply applies_other. rewrite writes_targets. auto. }
  destruct C as [->|(p' & c & l3 & -> & ->)].
  - destruct G as [G|(c & G1 & G2)]; [auto|right; exists c; auto].
  - rewrite applies_app. cbn [applies fold_left apply]. fold (applies F (writes l1)). unfold put. destruct (path_dec p' p) as [<-|Hn].
    + right. exists c. split; [apply in_or_app; right; cbn; auto|auto].
    + destruct G as [G|(c' & G1 & G2)]; [auto|right; exists c'; auto].
Qed.
Lemma in_progress : forall N main F xs x pre post, run_ops main (length xs) (fst x) (snd x) (arrays N (map snd (xs ++ [x]))) = pre ++ post ->
  let G := applies F pre in let k := length xs in
  (forall j r, j <> k -> G (run_folder main j ++ r) = F (run_folder main j ++ r)) /\
  (forall n, G (run_folder main k ++ [n]) = F (run_folder main k ++ [n]) \/ exists c, In (n, c) (run_files (fst x) (snd x)) /\ (G (run_folder main k ++ [n]) = Some (File c) \/ G (run_folder main k ++ [n]) = Some (Torn c))) /\
  (forall c n, nth_error summary_names c = Some n -> G (main ++ [n]) = F (main ++ [n]) \/
     run_saved G main k x /\ (G (main ++ [n]) = Some (File (Nums (summary_col N (map snd (xs ++ [x])) c))) \/ G (main ++ [n]) = Some (Torn (Nums (summary_col N (map snd (xs ++ [x])) c))))).
Proof.
  intros N main F xs x pre post E G k.
  assert (A : forall j r, j <> k -> G (run_folder main j ++ r) = F (run_folder main j ++ r)).
  { intros j r Hj. unfold G. apply (untouched main k); [auto|]. intros y Hy. apply (run_ops_targets main (length xs) (fst x) (snd x) (arrays N (map snd (xs ++ [x])))). rewrite E. apply in_or_app; auto. }
  split; auto. destruct pre as [|y pre]; [split; intros; left; reflexivity|].
  assert (Ey : y = Mkdir (run_folder main k)) by (apply (f_equal (hd (Mkdir []))) in E; symmetry; exact E). subst y.
  assert (E' : writes (file_writes main k (fst x) (snd x)) ++ writes (sum_writes main (arrays N (map snd (xs ++ [x])))) = pre ++ post) by (apply (f_equal (@tl op)) in E; exact E). clear E. rename E' into E.
  destruct (split_app _ _ _ _ E) as [(r & E1 & E2)|(r & E1 & E2)].
  - (* the files *)
    assert (FF : forall p, p <> run_folder main k -> G p = F p \/ exists c, In (p, c) (file_writes main k (fst x) (snd x)) /\ (G p = Some (File c) \/ G p = Some (Torn c))).
    { intros p Hp. unfold G. rewrite applies_cons. destruct (writes_state _ _ _ (apply F (Mkdir (run_folder main k))) p (file_nodup _ _ _ _) E1) as [B|B]; [left|right; auto].
      rewrite B. cbn [apply]. unfold put. destruct (path_dec (run_folder main k) p); [congruence|auto]. }
    split.
    + intros n. destruct (FF (run_folder main k ++ [n])) as [B|(c & B1 & B2)]; [intros H; apply app_self in H; discriminate|auto|]. right. exists c. split; auto. apply file_paths in B1. destruct B1 as (n' & Hn & B1). apply app_snoc_inj in Hn. subst n'. auto.
    + intros c n Hc. left. destruct (FF (main ++ [n])) as [B|(c' & B1 & B2)]; [|auto|].
      * intros H. apply (folder_sum_apart main k [] n (sum_name_in _ _ Hc)). rewrite app_nil_r. auto.
      * exfalso. apply file_paths in B1. destruct B1 as (n' & Hn & _). apply (folder_sum_apart main k [n'] n (sum_name_in _ _ Hc)). auto.
  - (* the summaries *)
    subst pre. set (F1 := applies F (Mkdir (run_folder main k) :: writes (file_writes main k (fst x) (snd x)))).
    assert (EG : G = applies F1 r) by (unfold G, F1; rewrite app_comm_cons, applies_app; reflexivity).
    assert (FF : forall p, G p = F1 p \/ exists c, In (p, c) (sum_writes main (arrays N (map snd (xs ++ [x])))) /\ (G p = Some (File c) \/ G p = Some (Torn c))).
    { intros p. rewrite EG. apply (writes_state _ _ _ F1 p (sum_nodup _ _ _) E2). }
    assert (FD : forall r', G (run_folder main k ++ r') = F1 (run_folder main k ++ r')).
    { intros r'. destruct (FF (run_folder main k ++ r')) as [B|(c & B & _)]; auto. exfalso. apply sum_paths in B. destruct B as (n & a & Hn & _ & B). apply in_combine_l in B. apply (folder_sum_apart main k r' n B). auto. }
    assert (RS1 : run_saved F1 main k x) by (destruct x as [d q]; apply files_after).
    assert (RS : run_saved G main k x).
    { destruct RS1 as (R1 & R2). split; [specialize (FD []); rewrite app_nil_r in FD; rewrite FD; auto|]. intros n c H. rewrite FD. auto. }
    split.
    + intros n. rewrite FD. unfold F1. rewrite applies_cons. destruct (writes_state (file_writes main k (fst x) (snd x)) (writes (file_writes main k (fst x) (snd x))) [] (apply F (Mkdir (run_folder main k))) (run_folder main k ++ [n]) (file_nodup _ _ _ _)) as [B|(c & B1 & B2)]; [rewrite app_nil_r; auto| |].
      * left. rewrite B. cbn [apply]. unfold put. destruct (path_dec (run_folder main k) (run_folder main k ++ [n])) as [Hp|]; [symmetry in Hp; apply app_self in Hp; discriminate|auto].
      * right. exists c. split; auto. apply file_paths in B1. destruct B1 as (n' & Hn & B1). apply app_snoc_inj in Hn. subst n'. auto.
    + intros c n Hc. destruct (FF (main ++ [n])) as [B|(c' & B1 & B2)].
      * left. rewrite B. unfold F1. rewrite applies_cons, applies_other; [cbn [apply]; unfold put; destruct (path_dec (run_folder main k) (main ++ [n])) as [Hp|]; auto; exfalso; apply (folder_sum_apart main k [] n (sum_name_in _ _ Hc)); rewrite app_nil_r; auto|].
        rewrite writes_targets. intros H. apply in_map_iff in H. destruct H as ([p c'] & Ep & H). apply file_paths in H. destruct H as (n' & -> & _). cbn [fst] in Ep. apply (folder_sum_apart main k [n'] n (sum_name_in _ _ Hc)). auto.
      * right. split; auto. assert (c' = Nums (summary_col N (map snd (xs ++ [x])) c)) as <-; [|auto].
        pose proof (sum_in main N (map snd (xs ++ [x])) c n Hc) as HI. clear -B1 HI.
        pose proof (sum_nodup main N (map snd (xs ++ [x]))) as ND. induction (sum_writes main (arrays N (map snd (xs ++ [x])))) as [|[p a] l IH]; [contradiction|].
        cbn [map fst] in ND. inversion ND; subst. destruct B1 as [B1|B1], HI as [HI|HI]; [congruence| | |auto].
        { injection B1 as -> ->. exfalso. apply H1. apply (in_map fst) in HI. exact HI. }
        { injection HI as -> ->. exfalso. apply H1. apply (in_map fst) in B1. exact B1. }
Qed.
