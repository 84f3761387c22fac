(** Property C120: what the figures of a vehicle and of a planet show. *)
From Coq Require Import String List ZArith Lia.
Require Import Verif.Base Verif.Numpy Verif.NumpyProofs Verif.PlanetModel Verif.PlanetProofs Verif.AeroModel Verif.HeatModel Verif.TrajectoryModel Verif.TrajectorySpec Verif.TrajectoryProofs Verif.PropTrajectory
  Verif.ReportSpec Verif.PropReport Verif.OrbitScalarModel Verif.OrbiterModel Verif.OrbitModel Verif.CorridorModel Verif.CorridorSpec Verif.CorridorProofs Verif.SessionModel Verif.SessionSpec Verif.PropSession
  Verif.GuidanceModel Verif.GuidanceSpec Verif.GuidanceProofs Verif.PropGuidance Verif.DragModel Verif.PropDrag Verif.FigureModel Verif.FigureSpec.
Local Open Scope R_scope.

(** ** Panels *)
Lemma nth_error_combine : forall {A B} (x : list A) (y : list B) k a b, nth_error x k = Some a -> nth_error y k = Some b -> nth_error (combine x y) k = Some (a, b).
Proof. induction x as [|a0 x IH]; intros [|b0 y] [|k] a b Ha Hb; cbn in *; try discriminate; [congruence|auto]. Qed.
Lemma nth_nth_error : forall {A} (l : list A) k d, (k < length l)%nat -> nth_error l k = Some (nth k l d).
Proof. intros. apply nth_error_nth'; auto. Qed.
Lemma draw_plots : forall xl yl x y n fx fy, length x = n -> length y = n ->
  (forall k, (k < n)%nat -> nth k x None = fx k /\ nth k y None = fy k) ->
  exists pn, draw xl yl (Some x) (Some y) = Ok pn /\ plots pn xl yl n fx fy.
Proof.
  intros xl yl x y n fx fy Hx Hy H. unfold draw. rewrite Hx, Hy, Nat.eqb_refl. eexists. split; [reflexivity|].
  unfold plots. cbn [pn_xlabel pn_ylabel pn_points]. rewrite combine_length, Hx, Hy, Nat.min_id. do 3 (split; [auto|]).
  intros k Hk. destruct (H k Hk) as [<- <-]. apply nth_error_combine; apply nth_nth_error; lia.
Qed.
Lemma nth_nums : forall l k, (k < length l)%nat -> nth k (nums l) None = Some (nth k l 0).
Proof. intros. unfold nums. rewrite (nth_indep _ None (Some 0)) by (rewrite map_length; auto). apply (map_nth Some). Qed.
Lemma nums_len : forall l, length (nums l) = length l. Proof. intros. apply map_length. Qed.

(** ** Flights with channels of one length *)
Definition even (p : planet) (f : flight) : Prop :=
  let n := f_index f in let q := f_plot f in
  length (p_t q) = n /\ length (p_h q) = n /\ length (p_v q) = n /\ length (f_acc_net f) = n /\ length (f_dyn f) = n /\ length (f_qtot f) = n /\
  forall k, (k < n)%nat -> nth k (p_t q) 0 = nth k (c_t (f_si f)) 0 / 60 /\ nth k (p_h q) 0 = (nth k (c_r (f_si f)) 0 - RP p) / 1000 /\
    nth k (p_v q) 0 = nth k (c_v (f_si f)) 0 / 1000.
Lemma aligned_even : forall p f h, flight_aligned p f h -> even p f.
Proof.
  intros p f h (H1 & _ & (P1 & P2 & P3 & _) & A & _ & D & _ & _ & _ & Q & _ & K). unfold even.
  do 6 (split; [assumption|]). intros k Hk. specialize (K k Hk). cbn [point s_r s_v] in K. destruct K as (K1 & K2 & K3 & _). unfold computeR in K2. lra.
Qed.
Lemma flown_even : forall E name p f, engine_ok E -> Planet name = Ok p -> really_flown E p f -> even p f.
Proof.
  intros E name p f HE HP (two & V & tol & i & t_sec & dt & delta & <- & H). destruct (Planet_facts _ _ HP) as (HRP & _ & _ & _ & (Htr & Hts) & _).
  assert (HS : solver_ok (if two then solveTrajectory2 E else solveTrajectory E)) by (destruct two; [apply solver2_ok|apply solver1_ok]; auto).
  unfold fly in H. set (sv := if two then solveTrajectory2 E else solveTrajectory E) in *.
  destruct (sv V tol (entry_state (vh_planet V) i) t_sec dt (deg delta)) as [c0|] eqn:Es; [|discriminate]. cbn [rbind] in H.
  destruct (HS _ _ _ _ _ _ _ Es) as (n & Len & _).
  destruct (post_inv _ _ _ _ H) as (cls & qc & qr & Ec & Ei & Efl & Esi & Epl & An & Ad & Dy & St & Qc & Qr & E1 & E2 & E3). cbv zeta in *.
  pose proof (dim_len (vh_planet V) _ _ Len) as (N1 & N2 & N3 & N4 & N5 & N6 & N7 & N8). set (c := dimensionalize_traj (vh_planet V) c0) in *.
  assert (Hidx : (fst cls <= n)%nat) by (rewrite <- N2; apply (classify_index (vh_planet V)); auto).
  assert (LR : length (c_r (f_si f)) = fst cls) by (rewrite Esi; cbn [c_r]; apply (firstn_min_len _ n); auto).
  assert (LV : length (c_v (f_si f)) = fst cls) by (rewrite Esi; cbn [c_v]; apply (firstn_min_len _ n); auto).
  assert (LVR : length (c_v (f_si f)) = length (c_r (f_si f))) by congruence.
  destruct (aero_len V _ _ (deg delta) LVR) as (La1 & La2 & La3).
  unfold even. rewrite Ei, Epl. unfold convertToPlotUnits. cbn [p_t p_h p_v].
  do 3 (split; [apply (firstn_min_len _ n); [rewrite map_length|]; auto|]).
  split. { rewrite An. unfold computeAccelerationLoad. rewrite zip3_len; congruence. }
  split. { rewrite Dy, map_length, dyn_len; congruence. }
  split. { rewrite E3. unfold vsum. rewrite map_length, combine_length, (heat_len _ _ _ _ _ LVR Qc), (heat_len _ _ _ _ _ LVR Qr). lia. }
  intros k Hk. rewrite Esi. cbn [c_t c_r c_v]. rewrite !nth_firstn by auto. rewrite !(nth_map_lt _ _ _ 0) by lia. repeat split; lra.
Qed.
Lemma even_figure : forall p o f, ob_flight o = Some f -> even p f -> exists ps, makeBasicEntryPlots o = Ok ps /\ entry_figure p f ps.
Proof.
  intros p o f Hf (L1 & L2 & L3 & L4 & L5 & L6 & K). unfold makeBasicEntryPlots, attr. rewrite Hf. cbn [option_map]. set (n := f_index f) in *.
  set (time := fun k => Some (nth k (c_t (f_si f)) 0 / 60)).
  destruct (draw_plots "Time, min" "Altitude, km" (nums (p_t (f_plot f))) (nums (p_h (f_plot f))) n time (fun k => Some ((nth k (c_r (f_si f)) 0 - RP p) / 1000))) as (a & -> & Pa); try (rewrite nums_len; auto).
  { intros k Hk. destruct (K k Hk) as (K1 & K2 & K3). rewrite !nth_nums by lia. unfold time. rewrite K1, K2. auto. }
  destruct (draw_plots "Time, min" "Velocity (km/s)" (nums (p_t (f_plot f))) (nums (p_v (f_plot f))) n time (fun k => Some (nth k (c_v (f_si f)) 0 / 1000))) as (b & -> & Pb); try (rewrite nums_len; auto).
  { intros k Hk. destruct (K k Hk) as (K1 & K2 & K3). rewrite !nth_nums by lia. unfold time. rewrite K1, K3. auto. }
  destruct (draw_plots "Time, min" "Deceleration (Earth g)" (nums (p_t (f_plot f))) (f_acc_net f) n time (fun k => nth k (f_acc_net f) None)) as (c & -> & Pc); try (rewrite nums_len); auto.
  { intros k Hk. destruct (K k Hk) as (K1 & K2 & K3). rewrite !nth_nums by lia. unfold time. rewrite K1. auto. }
  destruct (draw_plots "Time, min" "Stag. point heat-rate (W/cm2)" (nums (p_t (f_plot f))) (f_qtot f) n time (fun k => nth k (f_qtot f) None)) as (d & -> & Pd); try (rewrite nums_len); auto.
  { intros k Hk. destruct (K k Hk) as (K1 & K2 & K3). rewrite !nth_nums by lia. unfold time. rewrite K1. auto. }
  cbn [rbind]. eexists. split; [reflexivity|]. unfold entry_figure. cbv zeta. exists a, b, c, d. auto 6.
Qed.

(** ** What is stored on the object, through any session *)
Definition fine (E : engine) (p : planet) (o : vobj) : Prop :=
  vh_planet (ob_veh o) = p /\ match ob_flight o with None => True | Some f => really_flown E p f end.
Definition stays {A} E p (q : option (vobj * res A)) : Prop := match q with None => True | Some (o', _) => fine E p o' end.
Lemma fine_gamma : forall E p o g, fine E p o -> fine E p (set_gamma0 o g). Proof. intros E p o g H. exact H. Qed.
Lemma fine_store : forall E p o (two : bool) t dt d h, fine E p o ->
  fine E p (fst (store o (fly (if two then solveTrajectory2 E else solveTrajectory E) (ob_veh o) (ob_tol o) (ob_init o) t dt d) h)).
Proof.
  intros E p o two t dt d h (HV & HF). destruct (fly _ _ _ _ _ _ _) as [f|] eqn:Ef; cbn [store].
  - assert (R : really_flown E p f) by (exists two; do 6 eexists; split; [exact HV|exact Ef]).
    destruct (ocumtrapz _ _ _); cbn [fst]; (split; [exact HV|exact R]).
  - split; assumption.
Qed.
Lemma ask_obj : forall {A} pr (k : flight -> res A), fst (ask_flight pr k) = fst pr.
Proof. intros A [o [u|e]] k; cbn [ask_flight]; [destruct (ob_flight o)|]; reflexivity. Qed.
Lemma fine_entry : forall E p o (two : bool) t dt d, fine E p o -> fine E p (fst ((if two then propogateEntry2 else propogateEntry) E o t dt d)).
Proof. intros E p o two t dt d H. destruct two; [apply (fine_store E p o true)|apply (fine_store E p o false)]; auto. Qed.
Lemma fine_hits : forall E p o t dt d x, fine E p o -> fine E p (fst (hitsTargetApoapsis E o t dt d x)) /\ fine E p (fst (hitsTargetApoapsis2 E o t dt d x)).
Proof. intros. unfold hitsTargetApoapsis, hitsTargetApoapsis2. rewrite !ask_obj. split; [apply (fine_entry E p o false)|apply (fine_entry E p o true)]; auto. Qed.
Definition kind_ E p (ask : vobj -> vobj * res R) : Prop := forall o, fine E p o -> fine E p (fst (ask o)).
Lemma stays_call : forall {A B} E p (r : vobj * res A) (k : vobj -> A -> option (vobj * res B)), fine E p (fst r) -> (forall o a, fine E p o -> stays E p (k o a)) -> stays E p (call r k).
Proof. intros A B E p [o [a|e]] k H K; cbn [call]; [apply K; exact H|exact H]. Qed.
Lemma stays_then : forall {A B} E p (r : option (vobj * res A)) (k : vobj -> A -> option (vobj * res B)), stays E p r -> (forall o a, fine E p o -> stays E p (k o a)) -> stays E p (then_ r k).
Proof. intros A B E p [[o r]|] k H K; cbn [then_]; [|exact I]. apply stays_call; auto. Qed.
Lemma stays_bisect : forall E p ask tol, kind_ E p ask -> forall fuel o low high lim, fine E p o -> stays E p (bisect ask tol fuel o low high lim).
Proof.
  intros E p ask tol G fuel. induction fuel as [|fuel IH]; intros o low high lim S; cbn [bisect]; destruct (Rltb tol (Rabs (high - low))); try exact I; try exact S.
  apply stays_call; [apply G; auto|]. intros o2 a2 S2. apply stays_call; [apply G; auto|]. intros o3 a3 S3. apply stays_call; [apply G; auto|]. intros o4 a4 S4.
  destruct (Rltb (a2 * a3) 0); [apply IH; auto|]. destruct (Rltb (a3 * a4) 0); apply IH; auto.
Qed.
Lemma stays_search : forall E p ask tol fuel o low high, kind_ E p ask -> fine E p o -> stays E p (search ask tol fuel o low high).
Proof.
  intros E p ask tol fuel o low high G S. unfold search. apply stays_call; [apply G; auto|]. intros o2 a2 S2. apply stays_call; [apply G; auto|]. intros o3 a3 S3.
  destruct (Rltb (a2 * a3) 0); [apply stays_bisect; auto|exact S3].
Qed.
Lemma stays_limit : forall E p ask tol fuel o low high, kind_ E p ask -> fine E p o -> stays E p (limit_search ask tol fuel o low high) /\ stays E p (efpa_search ask tol fuel o low high).
Proof.
  intros E p ask tol fuel o low high G S. unfold limit_search, efpa_search.
  split; (apply stays_then; [apply stays_search; auto|]; intros o1 a S1; exact S1).
Qed.
Lemma kinds : forall E p t dt d x, kind_ E p (fun o => hitsTargetApoapsis E o t dt d x) /\ kind_ E p (fun o => hitsTargetApoapsis2 E o t dt d x).
Proof. intros. split; intros o H; apply (fine_hits E p o t dt d x H). Qed.
Lemma stays_find : forall E p fuel o t dt low high tol x, fine E p o ->
  stays E p (findOverShootLimit E fuel o t dt low high tol x) /\ stays E p (findOverShootLimit2 E fuel o t dt low high tol x) /\
  stays E p (findUnderShootLimit E fuel o t dt low high tol x) /\ stays E p (findUnderShootLimit2 E fuel o t dt low high tol x) /\
  stays E p (findEFPALimitD E fuel o t dt low high tol x) /\ stays E p (findEFPALimitD2 E fuel o t dt low high tol x).
Proof.
  intros E p fuel o t dt low high tol x S. pose proof (fun d => proj1 (kinds E p t dt d x)) as G. pose proof (fun d => proj2 (kinds E p t dt d x)) as G2.
  split; [exact (proj1 (stays_limit E p _ tol fuel o low high (G 180) S))|]. split; [exact (proj1 (stays_limit E p _ tol fuel o low high (G2 180) S))|].
  split; [exact (proj1 (stays_limit E p _ tol fuel o low high (G 0) S))|]. split; [exact (proj1 (stays_limit E p _ tol fuel o low high (G2 0) S))|].
  split; [exact (proj2 (stays_limit E p _ tol fuel o low high (G 0) S))|exact (proj2 (stays_limit E p _ tol fuel o low high (G2 0) S))].
Qed.
Lemma fine_ballistic : forall E p o b, fine E p o -> fine E p (fst (set_ballistic o b)).
Proof. intros E p o b H. unfold set_ballistic. destruct (Reqb _ 0); exact H. Qed.
Lemma stays_findD : forall E p fuel dm o t dt low high tol x, fine E p o ->
  stays E p (findUnderShootLimitD E fuel dm o t dt low high tol x) /\ stays E p (findUnderShootLimitD2 E fuel dm o t dt low high tol x) /\
  stays E p (findOverShootLimitD E fuel dm o t dt low high tol x) /\ stays E p (findOverShootLimitD2 E fuel dm o t dt low high tol x).
Proof.
  intros E p fuel dm o t dt low high tol x S. unfold findUnderShootLimitD, findUnderShootLimitD2, findOverShootLimitD, findOverShootLimitD2, undershootD, overshootD.
  destruct dm as [[b r]|]; [|split; [|split; [|split]]; exact S].
  split; [|split; [|split]]; (apply stays_call; [apply fine_ballistic; auto|]); intros o1 [] S1; destruct (stays_find E p fuel o1 t dt low high tol x S1) as (F1 & F2 & F3 & F4 & F5 & F6); assumption.
Qed.
Lemma stays_upd : forall {A} E p s (f : A -> ans) q s' a, upd s f q = Some (s', a) -> fine E p (fst q) -> fine E p (se_obj s').
Proof. intros A E p s f [o' r] s' a H K. unfold upd in H. injection H as <- _. exact K. Qed.
Lemma stays_updo : forall {A} E p s (f : A -> ans) q s' a, updo s f q = Some (s', a) -> stays E p q -> fine E p (se_obj s').
Proof. intros A E p s f [[o r]|] s' a H K; cbn [updo] in H; [|discriminate]. eapply stays_upd; eauto. Qed.
Lemma serve_fine : forall E p fuel c s s' a, serve E fuel c s = Some (s', a) -> fine E p (se_obj s) -> fine E p (se_obj s').
Proof.
  intros E p fuel c s s' a H S. destruct c; cbn [serve] in H; try (injection H as <- _; exact S).
  - apply (stays_upd E p _ _ _ _ _ H). apply fine_entry; auto.
  - apply (stays_upd E p _ _ _ _ _ H). unfold isCaptured. rewrite ask_obj. apply (fine_entry E p _ false); auto.
  - apply (stays_upd E p _ _ _ _ _ H). destruct (fine_hits E p _ t dt delta target S). destruct two; auto.
  - apply (stays_updo E p _ _ _ _ _ H). destruct (stays_find E p fuel _ t dt low high tol target S) as (F1 & F2 & F3 & F4 & F5 & F6). destruct two; assumption.
  - apply (stays_updo E p _ _ _ _ _ H). destruct (stays_find E p fuel _ t dt low high tol target S) as (F1 & F2 & F3 & F4 & F5 & F6). destruct two; assumption.
  - apply (stays_updo E p _ _ _ _ _ H). destruct (stays_find E p fuel _ t dt low_os high_os tol_os target S) as (F1 & F2 & F3 & F4 & F5 & F6).
    destruct two; unfold computeTCW, computeTCW2; (apply stays_then; [assumption|]); intros o1 a1 S1; destruct (stays_find E p fuel o1 t dt low_us high_us tol_us target S1) as (G1 & G2 & G3 & G4 & G5 & G6);
      (apply stays_then; [assumption|]); intros o2 a2 S2; exact S2.
  - apply (stays_updo E p _ _ _ _ _ H). destruct (stays_find E p fuel _ t dt low high tol target S) as (F1 & F2 & F3 & F4 & F5 & F6). destruct two; assumption.
  - apply (stays_updo E p _ _ _ _ _ H). destruct (stays_findD E p fuel (se_dm s) _ t dt low high tol target S) as (F1 & F2 & F3 & F4). destruct two; assumption.
  - apply (stays_updo E p _ _ _ _ _ H). destruct (stays_findD E p fuel (se_dm s) _ t dt low high tol target S) as (F1 & F2 & F3 & F4). destruct two; assumption.
  - apply (stays_updo E p _ _ _ _ _ H). destruct (stays_findD E p fuel (se_dm s) _ t dt low high tol target S) as (F1 & F2 & F3 & F4).
    destruct two; unfold computeTCWD, computeTCWD2; (apply stays_then; [assumption|]); intros o1 a1 S1; destruct (stays_findD E p fuel (se_dm s) o1 t dt low high tol target S1) as (G1 & G2 & G3 & G4);
      (apply stays_then; [assumption|]); intros o2 a2 S2; exact S2.
  - apply (stays_upd E p _ _ _ _ _ H). cbn [fst]. destruct (sweep_keeps (ob_veh (se_obj s)) tc rc vc rns) as (y & Hy). rewrite Hy. exact S.
Qed.
Lemma run_fine : forall E p fuel l s s' as_, run E fuel l s = Some (s', as_) -> fine E p (se_obj s) -> fine E p (se_obj s').
Proof.
  intros E p fuel l. induction l as [|c l IH]; intros s s' as_ H S; cbn [run] in H; [injection H as <- _; exact S|].
  destruct (serve E fuel c s) as [[s1 a]|] eqn:E1; [|discriminate]. destruct (run E fuel l s1) as [[s2 as2]|] eqn:E2; [|discriminate]. injection H as <- _.
  eapply IH; [exact E2|]. eapply serve_fine; eauto.
Qed.
(** After any session on a new vehicle, whatever its calls returned or raised: either nothing has been flown and the
    figure is refused, or it shows one flight that was really flown at this planet, all four panels point by point. *)
Theorem C120_entry_plots : forall E name p fuel history s s' answers, engine_ok E -> Planet name = Ok p -> vh_planet (ob_veh (se_obj s)) = p ->
  ob_flight (se_obj s) = None -> run E fuel history s = Some (s', answers) ->
  (ob_flight (se_obj s') = None /\ makeBasicEntryPlots (se_obj s') = Err ValueError) \/
  (exists f ps, ob_flight (se_obj s') = Some f /\ really_flown E p f /\ makeBasicEntryPlots (se_obj s') = Ok ps /\ entry_figure p f ps).
Proof.
  intros E name p fuel history s s' answers HE HP HV HN H.
  assert (S : fine E p (se_obj s)) by (split; [auto|rewrite HN; exact I]). apply (run_fine _ _ _ _ _ _ _ H) in S. destruct S as (_ & S).
  destruct (ob_flight (se_obj s')) as [f|] eqn:Ef.
  - right. destruct (even_figure p _ f Ef (flown_even E name p f HE HP S)) as (ps & A & B). exists f, ps. auto.
  - left. split; auto. unfold makeBasicEntryPlots, attr. rewrite Ef. reflexivity.
Qed.

(** ** After a search *)
(** What an asking function leaves on the object when it answers. *)
Definition leaves (ask : vobj -> vobj * res R) (trial : vehicle -> R -> init -> res flight) : Prop := forall o o' a, ask o = (o', Ok a) ->
  ob_veh o' = ob_veh o /\ ob_tol o' = ob_tol o /\ ob_init o' = ob_init o /\ exists f, ob_flight o' = Some f /\ trial (ob_veh o) (ob_tol o) (ob_init o) = Ok f.
Lemma hits_leaves : forall E t dt d x, leaves (fun o => hitsTargetApoapsis E o t dt d x) (fun V tol i => fly (solveTrajectory E) V tol i t dt d).
Proof.
  intros E t dt d x o o' a H. unfold hitsTargetApoapsis, propogateEntry in H. destruct (fly _ _ _ _ _ _ _) as [f|] eqn:Ef; cbn [store] in H; [|discriminate].
  destruct (ocumtrapz _ _ _); cbn [ask_flight set_heat set_flight ob_flight] in H; [|discriminate]. injection H as <- _. cbn. repeat split; auto. exists f. auto.
Qed.
Lemma hits2_leaves : forall E t dt d x, leaves (fun o => hitsTargetApoapsis2 E o t dt d x) (fun V tol i => fly (solveTrajectory2 E) V tol i t dt d).
Proof.
  intros E t dt d x o o' a H. unfold hitsTargetApoapsis2, propogateEntry2 in H. destruct (fly _ _ _ _ _ _ _) as [f|] eqn:Ef; cbn [store] in H; [|discriminate].
  destruct (ocumtrapz _ _ _); cbn [ask_flight set_heat set_flight ob_flight] in H; [|discriminate]. injection H as <- _. cbn. repeat split; auto. exists f. auto.
Qed.
(** The trial at angle [g] from [o0] is on the object. *)
Definition shows_trial (trial : vehicle -> R -> init -> res flight) (o0 o : vobj) (g : R) : Prop :=
  ob_veh o = ob_veh o0 /\ ob_tol o = ob_tol o0 /\ (exists g', ob_init o = with_gamma0 (ob_init o0) g') /\
  exists f, ob_flight o = Some f /\ trial (ob_veh o0) (ob_tol o0) (with_gamma0 (ob_init o0) g) = Ok f.
Lemma with_gamma0_twice : forall i g g', with_gamma0 (with_gamma0 i g) g' = with_gamma0 i g'. Proof. reflexivity. Qed.
Lemma asked : forall ask trial o0 o g o' a, leaves ask trial -> ob_veh o = ob_veh o0 -> ob_tol o = ob_tol o0 -> (exists g', ob_init o = with_gamma0 (ob_init o0) g') ->
  ask (set_gamma0 o g) = (o', Ok a) -> shows_trial trial o0 o' g.
Proof.
  intros ask trial o0 o g o' a L HV HT (g' & HI) H. destruct (L _ _ _ H) as (A & B & C & f & F1 & F2). cbn [set_gamma0 ob_veh ob_tol ob_init] in *.
  rewrite HI, with_gamma0_twice in C, F2. rewrite HV in *. rewrite HT in *. split; [auto|]. split; [auto|]. split; [eauto|]. exists f. auto.
Qed.
Lemma bisect_trial : forall ask trial o0 tol, leaves ask trial -> forall fuel o low high lim o' l fl, shows_trial trial o0 o high ->
  bisect ask tol fuel o low high lim = Some (o', Ok (Some (l, fl))) -> 
  (lim = Some (l, fl) /\ o' = o /\ Rabs (high - low) <= tol) \/ (fl = 1 /\ exists g, Rabs (l - g) <= tol /\ shows_trial trial o0 o' g).
Proof.
  intros ask trial o0 tol L.
  assert (G : forall fuel o low high lim o' l fl gs, shows_trial trial o0 o gs -> bisect ask tol fuel o low high lim = Some (o', Ok (Some (l, fl))) ->
    (lim = Some (l, fl) /\ o' = o /\ Rabs (high - low) <= tol) \/ (fl = 1 /\ exists g, Rabs (l - g) <= tol /\ shows_trial trial o0 o' g)).
  { induction fuel as [|fuel IH]; intros o low high lim o' l fl gs S H; cbn [bisect] in H; destruct (Rltb_spec tol (Rabs (high - low))) as [W|W]; try discriminate;
      try (injection H as <- ->; left; split; [auto|split; [auto|lra]]).
    set (mid := 0.5 * (low + high)) in *.
    destruct (ask (set_gamma0 o low)) as [o1 [a1|]] eqn:A1; cbn [call] in H; [|discriminate].
    destruct S as (S1 & S2 & S3 & _). pose proof (asked _ _ _ _ _ _ _ L S1 S2 S3 A1) as T1. destruct T1 as (T1 & T2 & T3 & _).
    destruct (ask (set_gamma0 o1 mid)) as [o2 [a2|]] eqn:A2; cbn [call] in H; [|discriminate].
    pose proof (asked _ _ _ _ _ _ _ L T1 T2 T3 A2) as U1. destruct U1 as (U1 & U2 & U3 & _).
    destruct (ask (set_gamma0 o2 high)) as [o3 [a3|]] eqn:A3; cbn [call] in H; [|discriminate].
    pose proof (asked _ _ _ _ _ _ _ L U1 U2 U3 A3) as V1.
    destruct (Rltb (a1 * a2) 0); [|destruct (Rltb (a2 * a3) 0)]; (destruct (IH _ _ _ _ _ _ _ _ V1 H) as [(Q & -> & W')|Q]; [|right; exact Q]); injection Q as <- <-; right; (split; [reflexivity|]); exists high; split; auto.
    - replace (mid - high) with (- (mid - low)) by (unfold mid; lra). rewrite Rabs_Ropp. exact W'.
    - replace (high - high) with 0 by ring. rewrite Rabs_R0. pose proof (Rabs_pos (high - mid)). lra.
    - replace (high - high) with 0 by ring. rewrite Rabs_R0. pose proof (Rabs_pos (high - low)). lra. }
  intros fuel o low high lim o' l fl S H. apply (G fuel o low high lim o' l fl high S H).
Qed.
Lemma limit_trial : forall ask trial o tol fuel low high o' l fl, leaves ask trial -> limit_search ask tol fuel o low high = Some (o', Ok (l, fl)) ->
  ob_veh o' = ob_veh o /\ ob_init o' = ob_init o /\ exists g f, ob_flight o' = Some f /\ trial (ob_veh o) (ob_tol o) (with_gamma0 (ob_init o) g) = Ok f /\
    (fl = 1 /\ Rabs (l - g) <= tol \/ fl = 0 /\ l = 0 /\ g = high).
Proof.
  intros ask trial o tol fuel low high o' l fl L H. unfold limit_search, search in H.
  assert (I0 : exists g', ob_init o = with_gamma0 (ob_init o) g') by (exists (gamma0_deg (ob_init o)); destruct (ob_init o); reflexivity).
  destruct (ask (set_gamma0 o low)) as [o1 [a1|]] eqn:A1; cbn [call then_] in H; [|discriminate].
  destruct (asked _ _ o _ _ _ _ L eq_refl eq_refl I0 A1) as (T1 & T2 & T3 & _).
  destruct (ask (set_gamma0 o1 high)) as [o2 [a2|]] eqn:A2; cbn [call then_] in H; [|discriminate].
  pose proof (asked _ _ _ _ _ _ _ L T1 T2 T3 A2) as U.
  assert (Fin : forall o3 lim g, shows_trial trial o o3 g -> call (o3, Ok lim) (fun o' lim => Some (set_gamma0 o' (gamma0_deg (ob_init o)), bound lim)) = Some (o', Ok (l, fl)) ->
    lim = Some (l, fl) /\ ob_veh o' = ob_veh o /\ ob_init o' = ob_init o /\ exists f, ob_flight o' = Some f /\ trial (ob_veh o) (ob_tol o) (with_gamma0 (ob_init o) g) = Ok f).
  { intros o3 lim g (S1 & S2 & (g' & S3) & f & F1 & F2) Q. cbn [call] in Q. destruct lim as [lf|]; cbn [bound] in Q; [|discriminate]. injection Q as <- ->. split; [auto|].
    cbn [set_gamma0 ob_veh ob_init ob_flight]. split; [auto|]. split; [rewrite S3, with_gamma0_twice; destruct (ob_init o); reflexivity|eauto]. }
  destruct (Rltb (a1 * a2) 0).
  - destruct (bisect ask tol fuel o2 low high None) as [[o3 [lim|]]|] eqn:B; cbn [then_ call] in H; try discriminate.
    destruct lim as [[l' fl']|]; [|discriminate]. cbn [bound] in H. injection H as <- <- <-.
    destruct (bisect_trial _ _ _ _ L _ _ _ _ _ _ _ _ U B) as [(Q & _)|(-> & g & W & S)]; [discriminate|].
    destruct (Fin _ (Some (l', 1)) _ S) as (_ & V1 & V2 & f & F1 & F2).
    { cbn [call bound]. reflexivity. }
    split; [exact V1|]. split; [exact V2|]. exists g, f. auto.
  - cbn [then_] in H. destruct (Fin _ _ _ U H) as (Q & V1 & V2 & f & F1 & F2). injection Q as <- <-. split; [auto|]. split; [auto|]. exists high, f. auto 6.
Qed.
(** After a search for a corridor limit the object again carries the user's entry angle, but the figure shows another
    entry: the trial flown last, at full lift down or up, at an angle within the tolerance of the reported limit, or at the
    upper end of the bracket when the search gave up. *)
Theorem C120_after_limit : forall E name (two over : bool) fuel o t_sec dt low high tol target o' limit flag, engine_ok E -> Planet name = Ok (vh_planet (ob_veh o)) ->
  (if over then (if two then findOverShootLimit2 else findOverShootLimit) else (if two then findUnderShootLimit2 else findUnderShootLimit))
    E fuel o t_sec dt low high tol target = Some (o', Ok (limit, flag)) ->
  ob_init o' = ob_init o /\
  exists g f ps, fly (if two then solveTrajectory2 E else solveTrajectory E) (ob_veh o) (ob_tol o) (with_gamma0 (ob_init o) g) t_sec dt (if over then 180 else 0) = Ok f /\
    makeBasicEntryPlots o' = Ok ps /\ entry_figure (vh_planet (ob_veh o)) f ps /\
    (flag = 1 /\ Rabs (limit - g) <= tol \/ flag = 0 /\ limit = 0 /\ g = high).
Proof.
  intros E name two over fuel o t_sec dt low high tol target o' limit flag HE HP H.
  assert (K : ob_veh o' = ob_veh o /\ ob_init o' = ob_init o /\ exists g f, ob_flight o' = Some f /\
    fly (if two then solveTrajectory2 E else solveTrajectory E) (ob_veh o) (ob_tol o) (with_gamma0 (ob_init o) g) t_sec dt (if over then 180 else 0) = Ok f /\
    (flag = 1 /\ Rabs (limit - g) <= tol \/ flag = 0 /\ limit = 0 /\ g = high)).
  { destruct two, over; [apply (limit_trial _ _ _ _ _ _ _ _ _ _ (hits2_leaves E t_sec dt 180 target) H)|apply (limit_trial _ _ _ _ _ _ _ _ _ _ (hits2_leaves E t_sec dt 0 target) H)
      |apply (limit_trial _ _ _ _ _ _ _ _ _ _ (hits_leaves E t_sec dt 180 target) H)|apply (limit_trial _ _ _ _ _ _ _ _ _ _ (hits_leaves E t_sec dt 0 target) H)]. }
  destruct K as (_ & KI & g & f & F1 & F2 & C). split; [exact KI|].
  assert (R : really_flown E (vh_planet (ob_veh o)) f) by (exists two; do 6 eexists; split; [reflexivity|exact F2]).
  destruct (even_figure _ _ f F1 (flown_even E name _ f HE HP R)) as (ps & A & B). exists g, f, ps. auto.
Qed.

(** ** After a guided entry *)
Definition end_shown (p : planet) (s : gst) : Prop :=
  vh_planet (ob_veh (s_obj s)) = p /\ exists f bt T, ob_flight (s_obj s) = Some f /\ even p f /\ (0 < f_index f)%nat /\ nth 0 (c_t (f_si f)) 0 = 0 /\
    only_the_end (s_hist s) f bt T /\ ((1 < length (a_t (s_arr s)))%nat -> bt <> nil).
Lemma hist_lens : forall p s, end_shown p s -> let q := y_plot (s_hist s) in (0 < length (p_t q))%nat /\ length (p_h q) = length (p_t q) /\ length (p_v q) = length (p_t q) /\
  length (y_net (s_hist s)) = length (p_t q) /\ length (y_qtot (s_hist s)) = length (p_t q).
Proof.
  intros p s (_ & f & bt & T & _ & (L1 & L2 & L3 & L4 & L5 & L6 & _) & N & _ & (bh & bv & bn & bq & B1 & B2 & B3 & B4 & C1 & C2 & C3 & C4 & C5) & _) q.
  unfold q. rewrite C1, C2, C3, C4, C5, !app_length, map_length. lia.
Qed.
Lemma end_step : forall p s s' f h J, end_shown p s -> vh_planet (ob_veh (s_obj s')) = p -> ob_flight (s_obj s') = Some f -> flight_aligned p f h -> nth 0 (c_t (f_si f)) 0 = 0 ->
  y_plot (s_hist s') = y_plot (hist_app (s_hist s) f J) -> y_net (s_hist s') = y_net (hist_app (s_hist s) f J) -> y_qtot (s_hist s') = y_qtot (hist_app (s_hist s) f J) -> end_shown p s'.
Proof.
  intros p s s' f h J S HP HF FA H0 Y1 Y2 Y3. destruct (hist_lens p s S) as (L0 & L1 & L2 & L3 & L4). cbv zeta in *.
  split; [auto|]. exists f, (p_t (y_plot (s_hist s))), (last (p_t (y_plot (s_hist s))) 0). split; [auto|]. split; [eapply aligned_even; eauto|].
  split; [apply FA|]. split; [auto|]. split.
  - exists (p_h (y_plot (s_hist s))), (p_v (y_plot (s_hist s))), (y_net (s_hist s)), (y_qtot (s_hist s)). do 4 (split; [auto|]). rewrite Y1, Y2, Y3. auto.
  - intros _ Q. rewrite Q in L0. cbn in L0. lia.
Qed.
Lemma end_start : forall two E X name p o hr dt o1 s, engine_ok E -> nan_ok X -> Planet name = Ok p -> vh_planet (ob_veh o) = p -> eg_start two E X o hr dt = (o1, Ok s) -> end_shown p s.
Proof.
  intros two E X name p o hr dt o1 s HE HX HP HV H. destruct (start_inv _ _ _ _ _ _ _ _ H) as (Hp & f & h & Hf & Hh & ->). subst p.
  destruct (propagate_ok two E X name _ 1 dt _ _ HE HX HP Hp) as (Ev & _ & _ & f' & h' & Hf' & Hh' & FA & _ & FT). rewrite Hf in Hf'. injection Hf' as <-.
  split; [cbn [s_obj]; congruence|]. exists f, nil, 0. split; [exact Hf|]. split; [eapply aligned_even; eauto|]. pose proof (proj1 FA) as N. split; [exact N|].
  split; [rewrite (FT 0%nat N); cbn; ring|]. split; [|cbn [s_arr steps0 a_t length]; lia].
  exists nil, nil, nil, nil. cbn [s_hist hist_of y_plot y_net y_qtot app]. do 4 (split; [reflexivity|]). split; [|auto].
  rewrite (map_ext _ (fun x => x)) by (intros; ring). symmetry. apply map_id.
Qed.
Lemma end_propagate : forall two E X name p s J ts dt d s' f h, engine_ok E -> nan_ok X -> Planet name = Ok p -> vh_planet (ob_veh (s_obj s)) = p ->
  propagate two E X (restarted s J) ts dt d = (s_obj s', Ok tt) -> ob_flight (s_obj s') = Some f -> ob_heat (s_obj s') = Some h ->
  vh_planet (ob_veh (s_obj s')) = p /\ flight_aligned p f h /\ nth 0 (c_t (f_si f)) 0 = 0.
Proof.
  intros two E X name p s J ts dt d s' f h HE HX HP HV Hp Hf Hh. subst p.
  destruct (propagate_ok two E X name (restarted s J) ts dt d _ HE HX HP Hp) as (Ev & _ & _ & f' & h' & Hf' & Hh' & FA & _ & FT).
  rewrite Hf in Hf'. injection Hf' as <-. rewrite Hh in Hh'. injection Hh' as <-. cbn [restarted set_init ob_veh] in *.
  split; [rewrite Ev; reflexivity|]. split; [exact FA|]. rewrite (FT 0%nat (proj1 FA)). cbn. ring.
Qed.
Lemma end_finish : forall p o s, end_shown p s -> o = s_obj s -> exists f ps bt T, makeBasicEntryPlots o = Ok ps /\ entry_figure p f ps /\ (0 < f_index f)%nat /\ nth 0 (c_t (f_si f)) 0 = 0 /\
  only_the_end (s_hist s) f bt T /\ ((1 < length (a_t (s_arr s)))%nat -> bt <> nil).
Proof.
  intros p o s (_ & f & bt & T & F & Ev & N & Z & O & C) ->. destruct (even_figure p _ f F Ev) as (ps & A & B). exists f, ps, bt, T. auto 8.
Qed.
(** After a guided entry with lift modulation the figure shows only the last guidance cycle, its clock starting at zero
    again, and not the trajectory; as soon as one cycle has been made some of the trajectory is missing. *)
Theorem C120_guided_shows_last_cycle : forall two E X P name p timeStep dt maxTime fuel o hdotref o' s s' rep, engine_ok E -> nan_ok X -> Planet name = Ok p -> vh_planet (ob_veh o) = p ->
  propogateGuidedEntry two E X P timeStep dt maxTime fuel o hdotref = Some (o', Ok (s, s', rep)) ->
  exists f ps bt T, makeBasicEntryPlots o' = Ok ps /\ entry_figure p f ps /\ (0 < f_index f)%nat /\ nth 0 (c_t (f_si f)) 0 = 0 /\
    only_the_end (s_hist s') f bt T /\ ((1 < length (a_t (s_arr s')))%nat -> bt <> nil).
Proof.
  intros two E X P name p timeStep dt maxTime fuel o hdotref o' s s' rep HE HX HP HV HG.
  unfold propogateGuidedEntry, propogateEquilibriumGlide in HG. destruct (eg_start two E X o hdotref dt) as [o1 [s0|]] eqn:E0; [|discriminate].
  destruct (while_loop (eg_guard P) _ fuel s0) as [[s1 [[]|]]|] eqn:E1; try discriminate.
  unfold propogateExitPhase in HG. destruct (while_loop exit_guard _ fuel (exit_start s1)) as [[s2 [[]|]]|] eqn:E2; try discriminate. injection HG as <- <- <- <-.
  destruct (while_passes _ _ _ _ _ E1) as (k1 & P1). destruct (while_passes _ _ _ _ _ E2) as (k2 & P2).
  assert (S0 : end_shown p s0) by (eapply end_start; eauto).
  assert (S1 : end_shown p s1).
  { refine (pob_invariant (end_shown p) _ _ _ _ _ P1 S0). intros z z' b Hz B. destruct (eg_step_inv _ _ _ _ _ _ _ _ _ _ B) as (qref & f & heat & apo & _ & Hp & Hf & Hh & Hy & _).
    destruct (end_propagate _ _ _ name p _ _ _ _ _ _ f heat HE HX HP (proj1 Hz) Hp Hf Hh) as (Q1 & Q2 & Q3). eapply (end_step p z z' f heat heat); eauto; rewrite Hy; reflexivity. }
  assert (S2 : end_shown p s2).
  { refine (pob_invariant (end_shown p) _ _ _ _ _ P2 S1). intros z z' b Hz B. destruct (exit_step_inv _ _ _ _ _ _ _ _ _ _ _ B) as (f & heat & Hp & Hf & Hh & Y1 & Y2 & Y3 & Y4 & Y5 & Y6 & _).
    destruct (end_propagate _ _ _ name p _ _ _ _ _ _ f heat HE HX HP (proj1 Hz) Hp Hf Hh) as (Q1 & Q2 & Q3). eapply (end_step p z z' f heat heat); eauto. }
  apply (end_finish p _ s2 S2 eq_refl).
Qed.
(** The same with drag modulation. *)
Theorem C120_guided_drag_shows_last_cycle : forall two E X dm P name p stepEntry stepExit dt maxTime fuel o hdotref o' s s' rep, engine_ok E -> nan_ok X -> Planet name = Ok p -> vh_planet (ob_veh o) = p ->
  propogateGuidedEntryD two E X dm P stepEntry stepExit dt maxTime fuel o hdotref = Some (o', Ok (s, s', rep)) ->
  exists f ps bt T, makeBasicEntryPlots o' = Ok ps /\ entry_figure p f ps /\ (0 < f_index f)%nat /\ nth 0 (c_t (f_si f)) 0 = 0 /\
    only_the_end (s_hist s') f bt T /\ ((1 < length (a_t (s_arr s')))%nat -> bt <> nil).
Proof.
  intros two E X dm P name p stepEntry stepExit dt maxTime fuel o hdotref o' s s' rep HE HX HP HV HG.
  unfold propogateGuidedEntryD, propogateEntryPhaseD in HG. destruct dm as [[b1 ratio]|]; [|discriminate]. cbn [fst] in HG.
  destruct (set_ballistic o b1) as [o0 [[]|]] eqn:B0; [|discriminate]. destruct (eg_start two E X o0 hdotref dt) as [o1 [s0|]] eqn:E0; [|discriminate].
  destruct (while_loop (eg_guard P) _ fuel s0) as [[s1 [[]|]]|] eqn:E1; try discriminate.
  unfold propogateExitPhaseD in HG. destruct (set_ballistic (s_obj s1) (b1 * ratio)) as [o2 [[]|]] eqn:B1; [|discriminate].
  destruct (while_loop exit_guard _ fuel (exit_start (set_obj s1 o2))) as [[s2 [[]|]]|] eqn:E2; try discriminate. injection HG as <- <- <- <-.
  destruct (while_passes _ _ _ _ _ E1) as (k1 & P1). destruct (while_passes _ _ _ _ _ E2) as (k2 & P2).
  destruct (set_ballistic_ok _ _ _ B0) as (-> & _). destruct (set_ballistic_ok _ _ _ B1) as (-> & _).
  assert (S0 : end_shown p s0) by (eapply end_start; [exact HE|exact HX|exact HP| |exact E0]; exact HV).
  assert (S1 : end_shown p s1).
  { refine (pob_invariant (end_shown p) _ _ _ _ _ P1 S0). intros z z' b Hz B. destruct (d_step_inv _ _ _ _ _ _ _ _ _ _ _ B) as (f & heat & apo & Hp & Hf & Hh & Hy & _).
    destruct (end_propagate _ _ _ name p _ _ _ _ _ _ f heat HE HX HP (proj1 Hz) Hp Hf Hh) as (Q1 & Q2 & Q3). eapply (end_step p z z' f heat heat); eauto; rewrite Hy; reflexivity. }
  assert (S1' : end_shown p (exit_start (set_obj s1 (set_veh (s_obj s1) (ballistic (ob_veh (s_obj s1)) (b1 * ratio)))))) by exact S1.
  assert (S2 : end_shown p s2).
  { refine (pob_invariant (end_shown p) _ _ _ _ _ P2 S1'). intros z z' b Hz B. destruct (dexit_step_inv _ _ _ _ _ _ _ _ _ _ B) as (f & heat & Hp & Hf & Hh & Y1 & Y2 & Y3 & Y4 & Y5 & Y6 & _).
    destruct (end_propagate _ _ _ name p _ _ _ _ _ _ f heat HE HX HP (proj1 Hz) Hp Hf Hh) as (Q1 & Q2 & Q3). eapply (end_step p z z' f heat heat); eauto. }
  apply (end_finish p _ s2 S2 eq_refl).
Qed.

(** ** createQPlot *)
Lemma flown_dyn : forall E name two V tol i t_sec dt delta f, engine_ok E -> Planet name = Ok (vh_planet V) ->
  fly (if two : bool then solveTrajectory2 E else solveTrajectory E) V tol i t_sec dt delta = Ok f -> forall k, (k < f_index f)%nat ->
  nth k (f_dyn f) 0 = 0.5 * density_int (vh_atm V) (nth k (c_r (f_si f)) 0 - RP (vh_planet V)) * nth k (c_v (f_si f)) 0 ^ 2 / 1.01325e5.
Proof.
  intros E name two V tol i t_sec dt delta f HE HP H k Hk. destruct (Planet_facts _ _ HP) as (_ & _ & _ & _ & (Htr & Hts) & _).
  assert (HS : solver_ok (if two then solveTrajectory2 E else solveTrajectory E)) by (destruct two; [apply solver2_ok|apply solver1_ok]; auto).
  unfold fly in H. set (sv := if two then solveTrajectory2 E else solveTrajectory E) in *.
  destruct (sv V tol (entry_state (vh_planet V) i) t_sec dt (deg delta)) as [c0|] eqn:Es; [|discriminate]. cbn [rbind] in H.
  destruct (HS _ _ _ _ _ _ _ Es) as (n & Len & _).
  destruct (post_inv _ _ _ _ H) as (cls & qc & qr & Ec & Ei & Efl & Esi & Epl & An & Ad & Dy & _). cbv zeta in *.
  pose proof (dim_len (vh_planet V) _ _ Len) as (N1 & N2 & N3 & N4 & N5 & N6 & N7 & N8). set (c := dimensionalize_traj (vh_planet V) c0) in *.
  assert (Hidx : (fst cls <= n)%nat) by (rewrite <- N2; apply (classify_index (vh_planet V)); auto).
  assert (LR : length (c_r (f_si f)) = fst cls) by (rewrite Esi; cbn [c_r]; apply (firstn_min_len _ n); auto).
  assert (LV : length (c_v (f_si f)) = fst cls) by (rewrite Esi; cbn [c_v]; apply (firstn_min_len _ n); auto).
  rewrite Dy, (nth_map_lt _ _ _ 0) by (rewrite dyn_len; lia). unfold computeDynPres. rewrite Ei in Hk.
  rewrite (nth_map_lt _ _ _ (0, 0)) by (rewrite combine_length, rho_vec_len; lia). rewrite combine_nth by (rewrite rho_vec_len; lia). cbn [fst snd].
  unfold rho_vec, rhovectorized. rewrite (nth_map_lt _ _ _ 0) by lia. reflexivity.
Qed.
(** createQPlot flies a new flight, which replaces the stored one, and draws altitude in metres against the dynamic
    pressure in pascals of exactly its points; only altitudes of 100 km to 700 km and pressures up to 12500 Pa are in view. *)
Theorem C120_qplot : forall E name o t_sec dt delta o' q, engine_ok E -> Planet name = Ok (vh_planet (ob_veh o)) -> createQPlot E o t_sec dt delta = (o', Ok q) ->
  let V := ob_veh o in
  exists f, ob_flight o' = Some f /\ fly (solveTrajectory E) V (ob_tol o) (ob_init o) t_sec dt delta = Ok f /\
    plots (qp_panel q) "Altitude, m" "Dynamic pressure, Pa " (f_index f) (fun k => Some (nth k (c_r (f_si f)) 0 - RP (vh_planet V)))
      (fun k => Some (1 / 2 * density_int (vh_atm V) (nth k (c_r (f_si f)) 0 - RP (vh_planet V)) * nth k (c_v (f_si f)) 0 ^ 2)) /\
    forall h_m pressure, visible q h_m pressure <-> 100 * 1000 <= h_m <= 700 * 1000 /\ 0 <= pressure <= 12500.
Proof.
  intros E name o t_sec dt delta o' q HE HP H V. unfold createQPlot in H. destruct (propogateEntry E o t_sec dt delta) as [o1 [[]|]] eqn:Ep; [|discriminate].
  unfold propogateEntry in Ep. destruct (fly _ _ _ _ _ _ _) as [f|] eqn:Ef; cbn [store] in Ep; [|discriminate].
  destruct (ocumtrapz _ _ _) as [hh|]; [|discriminate]. injection Ep as <-. unfold attr in H. cbn [set_heat set_flight ob_flight option_map] in H.
  assert (R : really_flown E (vh_planet V) f) by (exists false; do 6 eexists; split; [reflexivity|exact Ef]).
  destruct (flown_even E name _ f HE HP R) as (L1 & L2 & L3 & L4 & L5 & L6 & K).
  destruct (draw_plots "Altitude, m" "Dynamic pressure, Pa " (nums (map (fun x => x * 1e3) (p_h (f_plot f)))) (nums (map (fun x => x * 1.01325e5) (f_dyn f))) (f_index f)
    (fun k => Some (nth k (c_r (f_si f)) 0 - RP (vh_planet V))) (fun k => Some (1 / 2 * density_int (vh_atm V) (nth k (c_r (f_si f)) 0 - RP (vh_planet V)) * nth k (c_v (f_si f)) 0 ^ 2))) as (pn & Dr & Pl).
  { rewrite nums_len, map_length. auto. } { rewrite nums_len, map_length. auto. }
  { intros k Hk. rewrite !nth_nums by (rewrite map_length; lia). rewrite !(nth_map_lt _ _ _ 0) by lia. destruct (K k Hk) as (_ & -> & _).
    rewrite (flown_dyn E name false V _ _ _ _ _ f HE HP Ef k Hk). fold V. split; f_equal; [lra|]. generalize (density_int (vh_atm V) (nth k (c_r (f_si f)) 0 - RP (vh_planet V))) as X. generalize (nth k (c_v (f_si f)) 0 ^ 2) as Y. intros Y X.
    replace (0.5 * X * Y) with (1 / 2 * X * Y) by lra. generalize (1 / 2 * X * Y) as U. intros U. lra. }
  rewrite Dr in H. cbn [rbind] in H. injection H as <- <-. exists f. split; [reflexivity|]. split; [reflexivity|]. split; [exact Pl|].
  intros h_m pressure. unfold visible. cbn [qp_xlim qp_ylim fst snd]. split; intros (A & B); split; lra.
Qed.

(** ** checkAtmProfiles *)
Lemma int_part_bounds : forall x, IZR (Int_part x) <= x < IZR (Int_part x) + 1.
Proof. intros. destruct (base_Int_part x). lra. Qed.
(** When it fails or shows nothing. *)
Theorem C120_profiles_fail : forall name p a h0 dh, Planet name = Ok p ->
  (checkAtmProfiles p a h0 dh = Err ZeroDivisionError <-> dh = 0) /\
  (checkAtmProfiles p a h0 dh = Err ValueError <-> - h_thres p <= dh < 0) /\
  (dh < - h_thres p \/ h_thres p < dh -> exists ps, checkAtmProfiles p a h0 dh = Ok ps /\ length ps = 4%nat /\ forall pn, In pn ps -> pn_points pn = nil).
Proof.
  intros name p a h0 dh HP. destruct (Planet_facts _ _ HP) as (_ & _ & _ & _ & (Htr & Hts) & Heq & _). assert (Ht : 0 < h_thres p) by lra.
  assert (Hneg : - h_thres p <= dh < 0 <-> dh <> 0 /\ (py_int (h_thres p / dh) < 0)%Z).
  { unfold py_int. split.
    - intros (A & B). split; [lra|]. assert (Q : h_thres p / dh <= -1). { apply (Rmult_le_reg_r (- dh)); [lra|]. unfold Rdiv. replace (h_thres p * / dh * - dh) with (- h_thres p) by (field; lra). lra. }
      destruct (Rleb_spec 0 (h_thres p / dh)); [lra|]. destruct (int_part_bounds (- (h_thres p / dh))) as (_ & C). assert (0 < IZR (Int_part (- (h_thres p / dh)))) by lra. apply lt_IZR in H. lia.
    - intros (A & B). destruct (Rleb_spec 0 (h_thres p / dh)) as [Q|Q].
      + exfalso. destruct (int_part_bounds (h_thres p / dh)) as (_ & C). assert (-1 < IZR (Int_part (h_thres p / dh))) by lra. apply lt_IZR in H. lia.
      + assert (D : dh < 0). { destruct (Rtotal_order dh 0) as [D|[D|D]]; [auto|contradiction|]. exfalso. apply Q. left. apply Rdiv_lt_0_compat; lra. }
        split; [|auto]. assert (1 <= Int_part (- (h_thres p / dh)))%Z by lia. apply IZR_le in H. destruct (int_part_bounds (- (h_thres p / dh))) as (C & _).
        assert (G : 1 <= - (h_thres p / dh)) by lra. apply (Rmult_le_compat_r (- dh)) in G; [|lra]. replace (- (h_thres p / dh) * - dh) with (h_thres p) in G by (field; lra). lra. }
  unfold checkAtmProfiles. destruct (Reqb_spec dh 0) as [D|D].
  - split; [split; auto|]. split; [split; [discriminate|lra]|]. intros [Q|Q]; lra.
  - set (n := py_int (h_thres p / dh)) in *.
    destruct (Z.ltb_spec n 0) as [L|L].
    + split; [split; [discriminate|contradiction]|]. split; [split; [intros _; apply Hneg; auto|auto]|]. intros Q. exfalso. assert (- h_thres p <= dh < 0) by (apply Hneg; auto). lra.
    + cbv zeta. unfold draw, nums, tempvectorized, presvectorized, densityvectorized, avectorized. rewrite !map_length, !Nat.eqb_refl. cbn [rbind].
      split; [split; [discriminate|contradiction]|]. split; [split; [discriminate|intros Q; exfalso; apply Hneg in Q; lia]|].
      intros Q. eexists. split; [reflexivity|]. split; [reflexivity|].
      assert (n = 0%Z).
      { apply Z.le_antisymm; [|lia]. unfold n, py_int. destruct (Rleb_spec 0 (h_thres p / dh)) as [C|C].
        - destruct (int_part_bounds (h_thres p / dh)) as (G & _). assert (h_thres p / dh < 1).
          { destruct Q as [Q|Q].
            - apply Rle_lt_trans with 0; [|lra]. unfold Rdiv. assert (/ dh < 0) by (apply Rinv_lt_0_compat; lra). nra.
            - apply (Rmult_lt_reg_r dh); [lra|]. unfold Rdiv. replace (h_thres p * / dh * dh) with (h_thres p) by (field; lra). lra. }
          assert (IZR (Int_part (h_thres p / dh)) < 1) by lra. apply lt_IZR in H0. lia.
        - destruct (int_part_bounds (- (h_thres p / dh))) as (_ & G). assert (-1 < IZR (Int_part (- (h_thres p / dh)))) by lra. apply lt_IZR in H. lia. }
      rewrite H. intros pn [<-|[<-|[<-|[<-|[]]]]]; reflexivity.
Qed.
(** Otherwise the four panels show the loaded profiles at [n] evenly spaced altitudes, [n] being how many whole intervals
    fit below the top of the atmosphere; with two or more altitudes the first is [h0] and the last the top.  On the way the
    drawn density is the one every flight uses. *)
Theorem C120_profiles : forall name p a h0 dh, Planet name = Ok p -> 0 < dh <= h_thres p ->
  exists n T P r s (altitude : nat -> R), checkAtmProfiles p a h0 dh = Ok [T; P; r; s] /\ INR n * dh <= h_thres p < (INR n + 1) * dh /\ (1 <= n)%nat /\
    altitude 0%nat = h0 /\ ((2 <= n)%nat -> altitude (n - 1)%nat = h_thres p /\ forall k, (S k < n)%nat -> altitude (S k) - altitude k = (h_thres p - h0) / (INR n - 1)) /\
    plots T "Temperature, K" "Altitude, km" n (fun k => Some (temp_int a (altitude k))) (fun k => Some (altitude k / 1000)) /\
    plots P "Pressure, kPa" "Altitude, km" n (fun k => Some (pressure_int a (altitude k) / 1000)) (fun k => Some (altitude k / 1000)) /\
    plots r "Density, kg/m3" "Altitude, km" n (fun k => Some (density_int a (altitude k))) (fun k => Some (altitude k / 1000)) /\
    plots s "Speed of Sound, m/s" "Altitude, km" n (fun k => Some (sonic_int a (altitude k))) (fun k => Some (altitude k / 1000)) /\
    (0 <= h0 <= h_thres p -> forall k, (k < n)%nat -> h0 <= altitude k <= h_thres p /\ density p (density_int a) (altitude k) = density_int a (altitude k)).
Proof.
  intros name p a h0 dh HP (D1 & D2). destruct (Planet_facts _ _ HP) as (_ & _ & _ & _ & (Htr & Hts) & Heq & _). assert (Ht : 0 < h_thres p) by lra. unfold checkAtmProfiles.
  destruct (Reqb_spec dh 0) as [D|D]; [lra|]. set (z := py_int (h_thres p / dh)).
  assert (Q : 1 <= h_thres p / dh). { apply (Rmult_le_reg_r dh); [lra|]. unfold Rdiv. replace (h_thres p * / dh * dh) with (h_thres p) by (field; lra). lra. }
  assert (Hz : z = Int_part (h_thres p / dh)) by (unfold z, py_int; destruct (Rleb_spec 0 (h_thres p / dh)); [auto|lra]).
  destruct (int_part_bounds (h_thres p / dh)) as (B1 & B2). rewrite <- Hz in B1, B2.
  assert (Z1 : (1 <= z)%Z). { assert (0 < IZR z) by lra. apply lt_IZR in H. lia. }
  destruct (Z.ltb_spec z 0) as [L|L]; [lia|]. set (n := Z.to_nat z). assert (HN : INR n = IZR z) by (unfold n; rewrite INR_IZR_INZ, Z2Nat.id; auto; lia).
  assert (N1 : (1 <= n)%nat) by (unfold n; lia).
  set (H := linspace h0 (h_thres p) n). assert (LH : length H = n) by apply linspace_length.
  set (altitude := fun k => nth k H 0).
  assert (Hk : forall (fn g : R -> R) l, (forall x, g x = x / 1000) -> l = map fn H -> forall xl, exists pn, draw xl "Altitude, km" (Some (nums l)) (Some (nums (map g H))) = Ok pn /\
    plots pn xl "Altitude, km" n (fun k => Some (fn (altitude k))) (fun k => Some (altitude k / 1000))).
  { intros fn g l Hg -> xl. apply draw_plots; try (rewrite nums_len, map_length; auto). intros k Lk. rewrite !nth_nums by (rewrite map_length; lia). rewrite !(nth_map_lt _ _ _ 0) by lia. rewrite Hg. auto. }
  assert (Hg : forall x : R, x * 1e-3 = x / 1000) by (intros; lra).
  destruct (Hk (temp_int a) (fun x => x * 1e-3) (tempvectorized (temp_int a) H) Hg eq_refl "Temperature, K"%string) as (T & -> & PT).
  destruct (Hk (fun x => pressure_int a x / 1000) (fun x => x * 1e-3) (map (fun x => x * 1e-3) (presvectorized (pressure_int a) H)) Hg) with (xl := "Pressure, kPa"%string) as (P & -> & PP).
  { unfold presvectorized. rewrite map_map. apply map_ext. intros; apply Hg. }
  destruct (Hk (density_int a) (fun x => x * 1e-3) (densityvectorized (density_int a) H) Hg eq_refl "Density, kg/m3"%string) as (r & -> & Pr).
  destruct (Hk (sonic_int a) (fun x => x * 1e-3) (avectorized (sonic_int a) H) Hg eq_refl "Speed of Sound, m/s"%string) as (s & -> & Ps).
  cbn [rbind]. exists n, T, P, r, s, altitude. split; [reflexivity|].
  assert (A0 : altitude 0%nat = h0). { unfold altitude, H. destruct n as [|[|n']] eqn:En; [lia|reflexivity|]. rewrite linspace_nth by lia. cbn [INR]. ring. }
  assert (AK : (2 <= n)%nat -> forall k, (k < n)%nat -> altitude k = h0 + INR k * ((h_thres p - h0) / (INR n - 1))).
  { intros N2 k Lk. unfold altitude, H. rewrite linspace_nth by lia. rewrite minus_INR by lia. reflexivity. }
  assert (MD : h_thres p / dh * dh = h_thres p) by (field; lra).
  split. { rewrite HN. split; [rewrite <- MD; apply Rmult_le_compat_r; lra|]. rewrite <- MD at 1. apply Rmult_lt_compat_r; lra. }
  split; [exact N1|]. split; [exact A0|]. split.
  { intros N2. assert (1 < INR n) by (apply (lt_INR 1) in N2; cbn in N2; lra). split.
    - rewrite AK by lia. rewrite minus_INR by lia. cbn [INR]. field. lra.
    - intros k Lk. rewrite !AK by lia. rewrite S_INR. ring. }
  do 4 (split; [assumption|]). intros Hh k Lk.
  assert (R : h0 <= altitude k <= h_thres p).
  { destruct (le_lt_dec 2 n) as [N2|N2]; [|replace k with 0%nat by lia; rewrite A0; lra]. rewrite AK by lia.
    assert (1 < INR n) by (apply (lt_INR 1) in N2; cbn in N2; lra). assert (Lk' : INR k <= INR n - 1). { assert (k <= n - 1)%nat by lia. apply le_INR in H1. rewrite minus_INR in H1 by lia. cbn in H1. lra. }
    pose proof (pos_INR k). set (w := (h_thres p - h0) / (INR n - 1)). assert (W : w * (INR n - 1) = h_thres p - h0) by (unfold w; field; lra).
    assert (0 <= w) by (unfold w; apply Rmult_le_pos; [lra|left; apply Rinv_0_lt_compat; lra]). nra. }
  split; [exact R|]. unfold density. destruct (Rleb_spec 0 (altitude k)); [|lra]. destruct (Rleb_spec (altitude k) (h_thres p)); [|lra]. reflexivity.
Qed.
(** The documented meaning of [dh], "height interval", is never met from the ground up: the interval drawn is larger. *)
Theorem C120_profiles_interval_refuted : forall name p dh n, Planet name = Ok p -> 0 < dh -> (2 <= n)%nat -> INR n * dh <= h_thres p < (INR n + 1) * dh ->
  dh < (h_thres p - 0) / (INR n - 1).
Proof.
  intros name p dh n HP D N2 (A & B). assert (1 < INR n) by (apply (lt_INR 1) in N2; cbn in N2; lra).
  apply (Rmult_lt_reg_r (INR n - 1)); [lra|]. unfold Rdiv. rewrite Rmult_assoc, Rinv_l by lra. nra.
Qed.
