(** C86, C87: every point of a flight report, and the event that ends a propogateEntry2. *)
From Coq Require Import String List.
Require Import Verif.Base Verif.Numpy Verif.PlanetModel Verif.PlanetProofs Verif.AeroModel Verif.HeatModel Verif.TrajectoryModel Verif.TrajectorySpec Verif.TrajectoryProofs Verif.FlightProofs Verif.PropTrajectory Verif.ReportSpec.

Lemma nth_map2 : forall {A} (F : R * R -> A) a b d k, (k < length a)%nat -> length b = length a ->
  nth k (map F (combine a b)) d = F (nth k a 0, nth k b 0).
Proof.
  intros A F a b d k H L. rewrite (nth_indep _ d (F (0, 0))) by (rewrite map_length, combine_length; lia). rewrite map_nth, combine_nth; auto.
Qed.
Lemma nth_zip3 : forall F a b c k, (k < length a)%nat -> length b = length a -> length c = length a ->
  nth k (zip3 F a b c) None = F (nth k a 0) (nth k b 0) (nth k c 0).
Proof.
  intros F a b c k H L1 L2. unfold zip3. rewrite (nth_indep _ None (F 0 0 0)) by (rewrite map_length, !combine_length; lia).
  change (F 0 0 0) with ((fun q : R * R * R => F (fst (fst q)) (snd (fst q)) (snd q)) (0, 0, 0)). rewrite map_nth, combine_nth by (rewrite combine_length; lia).
  rewrite combine_nth by auto. reflexivity.
Qed.
Lemma load_is_net : forall s n w, load_is (s * s + n * n + 2 * w) (net_g s n w).
Proof.
  intros s n w. unfold load_is, net_g, np_sqrt. replace (s ^ 2 + n ^ 2 + w * 2) with (s * s + n * n + 2 * w) by ring. fold EARTHG.
  split; intros H; rcases; try lra; reflexivity.
Qed.
(** The stored flight is the one computed from the integrator's channels. *)
Lemma stored_post : forall solve o t_sec dt delta_deg h0 o' f,
  store o (fly solve (ob_veh o) (ob_tol o) (ob_init o) t_sec dt delta_deg) h0 = (o', Ok tt) -> ob_flight o' = Some f ->
  exists c0, solve (ob_veh o) (ob_tol o) (entry_state (vh_planet (ob_veh o)) (ob_init o)) t_sec dt (deg delta_deg) = Ok c0 /\ post (ob_veh o) (deg delta_deg) c0 = Ok f.
Proof.
  intros solve o t_sec dt delta_deg h0 o' f H Hf. unfold fly in H.
  destruct (solve _ _ _ _ _ _) as [c0|] eqn:Es; cbn [rbind] in H; [|discriminate H]. unfold store in H.
  destruct (post _ _ c0) as [g|] eqn:Ep; [|discriminate H]. destruct (ocumtrapz _ _ _) as [h|]; [|discriminate H].
  assert (Ho : set_heat (set_flight o g) h = o') by (apply (f_equal fst) in H; exact H). subst o'. cbn [ob_flight set_heat set_flight] in Hf. injection Hf as <-.
  exists c0. split; [reflexivity|]. exact Ep.
Qed.
Lemma post_reported : forall V delta c0 f h, post V delta c0 = Ok f -> flight_aligned (vh_planet V) f h -> forall k, (k < f_index f)%nat -> reported V delta f k.
Proof.
  intros V delta c0 f h Hp Al k Hk.
  destruct Al as (_ & (_ & LR & _ & _ & LV & _) & _ & _ & _ & _ & _ & _ & _ & _ & _ & Pt).
  specialize (Pt k Hk). unfold point in Pt. cbn [s_r s_v s_phi s_psi s_theta s_gamma s_drange] in Pt. destruct Pt as (_ & Er & Ev & _).
  destruct (post_inv _ _ _ _ Hp) as (cls & qc & qr & _ & _ & _ & _ & _ & An & Ad & Dy & St & Qc & Qr & E1 & E2 & E3). cbv zeta in *.
  unfold reported, altitude_at, speed_at. cbv zeta.
  set (r := c_r (f_si f)) in *. set (v := c_v (f_si f)) in *.
  assert (Lvr : length v = length r) by congruence. assert (Kr : (k < length r)%nat) by congruence.
  rewrite Ev. replace (nth k (p_h (f_plot f)) 0 * 1000) with (nth k r 0 - RP (vh_planet V)) by (rewrite <- Er; unfold computeR; ring).
  assert (ER : nth k (rho_vec V r) 0 = density_int (vh_atm V) (nth k r 0 - RP (vh_planet V))).
  { unfold rho_vec, rhovectorized. rewrite (nth_map_lt _ _ _ 0) by lia. reflexivity. }
  pose proof (rho_vec_len V r) as LRho.
  assert (EP : nth k (pressurevectorized (vh_planet V) (pressure_int (vh_atm V)) r) 0 = pressure_int (vh_atm V) (nth k r 0 - RP (vh_planet V))).
  { unfold pressurevectorized. rewrite (nth_map_lt _ _ _ 0) by lia. reflexivity. }
  assert (LP : length (pressurevectorized (vh_planet V) (pressure_int (vh_atm V)) r) = length r) by (unfold pressurevectorized; apply map_length).
  set (rho := density_int (vh_atm V) (nth k r 0 - RP (vh_planet V))) in *. set (x := nth k v 0) in *.
  assert (ED : nth k (computeDynPres V r v) 0 = 0.5 * rho * x ^ 2).
  { unfold computeDynPres. rewrite nth_map2 by lia. cbn [fst snd]. rewrite ER. reflexivity. }
  destruct (aero_len V r v delta Lvr) as (Ls & Ln & Lw).
  assert (Es : nth k (a_svectorized V r v delta) 0 = - (rho * x * x / 2 * vh_A V * vh_CD V / vh_mass V)).
  { unfold a_svectorized, Dvectorized. rewrite map_map, nth_map2 by lia. cbn [fst snd]. rewrite ER. fold x. replace 0.5 with (/ 2) by lra. unfold Rdiv. ring. }
  assert (En : nth k (a_nvectorized V r v delta) 0 = rho * x * x / 2 * vh_A V * vh_CL V / vh_mass V * cos delta).
  { unfold a_nvectorized, Lvectorized. rewrite map_map, nth_map2 by lia. cbn [fst snd]. rewrite ER. fold x. replace 0.5 with (/ 2) by lra. unfold Rdiv. ring. }
  assert (Ew : nth k (a_wvectorized V r v delta) 0 = rho * x * x / 2 * vh_A V * vh_CL V / vh_mass V * sin delta).
  { unfold a_wvectorized, Lvectorized. rewrite map_map, nth_map2 by lia. cbn [fst snd]. rewrite ER. fold x. replace 0.5 with (/ 2) by lra. unfold Rdiv. ring. }
  split. { rewrite Dy, (nth_map_lt _ _ _ 0) by (rewrite dyn_len; lia). rewrite ED. lra. }
  split. { rewrite St, (nth_map_lt _ _ _ 0) by (unfold computeStagPres; rewrite map_length, combine_length, dyn_len; lia).
    unfold computeStagPres. rewrite nth_map2 by (rewrite ?dyn_len; lia). cbn [fst snd]. rewrite ED, EP. lra. }
  split. { rewrite Ad. unfold computeAccelerationDrag. rewrite nth_zip3 by lia. rewrite Es. destruct (C44_load_formula (- (rho * x * x / 2 * vh_A V * vh_CD V / vh_mass V)) (nth k (a_nvectorized V r v delta) 0) (nth k (a_wvectorized V r v delta) 0)) as (_ & _ & ->). rewrite Rabs_Ropp. reflexivity. }
  split. { rewrite An. unfold computeAccelerationLoad. rewrite nth_zip3 by lia. rewrite Es, En, Ew.
    replace (rho * x * x / 2 * vh_A V * vh_CD V / vh_mass V * (rho * x * x / 2 * vh_A V * vh_CD V / vh_mass V)) with (- (rho * x * x / 2 * vh_A V * vh_CD V / vh_mass V) * - (rho * x * x / 2 * vh_A V * vh_CD V / vh_mass V)) by ring. apply load_is_net. }
  assert (HC : forall law q, heat_history law V r v = Ok q -> forall l, law (ID (vh_planet V)) = Some l -> nth k q None = l (vh_RN V) rho x).
  { intros law q Hq l Hl. unfold heat_history in Hq. rewrite Hl in Hq. injection Hq as <-. rewrite nth_map2 by lia. cbn [fst snd]. rewrite ER. reflexivity. }
  split. { intros law Hl. rewrite E1. apply (HC con_law _ Qc _ Hl). }
  split. { intros law Hl. rewrite E2. apply (HC rad_law _ Qr _ Hl). }
  rewrite E1, E2, E3. pose proof (heat_len _ _ _ _ _ Lvr Qc) as L1. pose proof (heat_len _ _ _ _ _ Lvr Qr) as L2.
  unfold vsum. rewrite (nth_indep _ None (oadd None None)) by (rewrite map_length, combine_length; lia).
  change (oadd None None) with ((fun q : option R * option R => oadd (fst q) (snd q)) (None, None)). rewrite map_nth, combine_nth by lia. cbn [fst snd]. unfold oadd, obind.
  destruct (nth k qc None), (nth k qr None); reflexivity.
Qed.

(** Every point of the report of a propagation that returned. *)
Theorem C86_every_point : forall E name o t_sec dt delta_deg o', engine_ok E -> Planet name = Ok (vh_planet (ob_veh o)) -> vh_user (ob_veh o) = false ->
  propogateEntry E o t_sec dt delta_deg = (o', Ok tt) \/ propogateEntry2 E o t_sec dt delta_deg = (o', Ok tt) ->
  exists f, ob_flight o' = Some f /\ (1 <= f_index f)%nat /\ forall k, (k < f_index f)%nat -> reported (ob_veh o) (delta_deg * PI / 180) f k.
Proof.
  intros E name o t_sec dt delta_deg o' HE HP _ H.
  destruct (C43_flight_aligned _ _ _ _ _ _ _ HE HP H) as (_ & _ & _ & f & h & Hf & _ & Al & _). exists f. split; [exact Hf|]. split; [exact (proj1 Al)|]. intros k Hk.
  destruct H as [H|H]; destruct (stored_post _ _ _ _ _ _ _ _ H Hf) as (c0 & _ & Hp); exact (post_reported _ _ _ _ _ Hp Al k Hk).
Qed.
(** For a vehicle as constructed, the drag load is the dynamic pressure over the ballistic coefficient, and the lift is LD times the drag. *)
Theorem C86_ballistic : forall mass beta LD A alpha RN p atm V delta f k, Vehicle mass beta LD A alpha RN p atm false = Ok V -> 0 < beta -> reported V delta f k ->
  let q := nth k (f_dyn f) 0 * 101325 in let d := q / beta in
  (0 <= q -> nth k (f_acc_drag f) None = Some (d / 9.80665)) /\
  load_is (d * d + (LD * d * cos delta) * (LD * d * cos delta) + 2 * (LD * d * sin delta)) (nth k (f_acc_net f) None).
Proof.
  intros mass beta LD A alpha RN p atm V delta f k HV Hb (Ed & _ & Ea & El & _) q d. fold q in Ed. rewrite <- Ed in Ea, El.
  destruct (Vehicle_inv _ _ _ _ _ _ _ _ _ _ HV) as (Hm & HbA & E1 & _ & _ & E4 & _ & _ & _ & _ & _ & E10 & E11 & _).
  assert (HA : A <> 0) by (intros ->; apply HbA; ring). rewrite E1, E4, E10 in Ea, El. rewrite E11 in El.
  replace (q * A * (mass / (beta * A)) / mass) with d in Ea, El by (unfold d; field; repeat split; auto; lra).
  replace (q * A * (LD * (mass / (beta * A))) / mass) with (LD * d) in El by (unfold d; field; repeat split; auto; lra).
  split; [|exact El]. intros Hq. rewrite Ea. rewrite Rabs_right; [reflexivity|]. apply Rle_ge. unfold d, Rdiv. apply Rmult_le_pos; [exact Hq|]. left. apply Rinv_0_lt_compat, Hb.
Qed.
(** Mach number at every point; profiles asked for at radii are the profiles at the altitudes above the surface. *)
Theorem C86_mach : forall V rc vc k, length vc = length rc -> (k < length rc)%nat ->
  let a := sonic_int (vh_atm V) (nth k rc 0 - RP (vh_planet V)) in length (computeMach V rc vc) = length rc /\
  (a <> 0 -> nth k (computeMach V rc vc) None = Some (nth k vc 0 / a)) /\ (a = 0 -> nth k (computeMach V rc vc) None = None).
Proof.
  intros V rc vc k L K a. unfold computeMach. split; [rewrite map_length, combine_length; lia|]. rewrite nth_map2 by lia. cbn [fst snd]. fold a. unfold np_div.
  split; intros H; rcases; try contradiction; reflexivity.
Qed.
Theorem C86_profiles : forall p F h, let r := map (computeR p) h in
  rhovectorized p F r = map F h /\ pressurevectorized p F r = map F h /\ temperaturevectorized p F r = map F h /\ sonicvectorized p F r = map F h /\
  densityvectorized F h = map F h /\ tempvectorized F h = map F h /\ presvectorized F h = map F h /\ avectorized F h = map F h.
Proof.
  intros p F h r. unfold r, rhovectorized, pressurevectorized, temperaturevectorized, sonicvectorized.
  assert (E : forall l, map (fun x => F (x - RP p)) (map (computeR p) l) = map F l) by (intros l; rewrite map_map; apply map_ext; intros x; f_equal; unfold computeR; ring).
  rewrite E. repeat split.
Qed.
(** Unit conversions: a kilopascal is 1000 Pa, a square metre is 10000 square centimetres. *)
Theorem C86_units : forall x, convertToKPa x * 1000 = x /\ convertToPerCm2 x * 10000 = x.
Proof. intros x. unfold convertToKPa, convertToPerCm2. split; field. Qed.

(** ** C87: the steepness event. *)
Lemma solver2_event : forall E V tol x0 t_sec dt delta c0, engine_ok E -> stops_at_event E -> solveTrajectory2 E V tol x0 t_sec dt delta = Ok c0 ->
  (- (88 * PI / 180) < s_gamma x0 -> forall g, In g (c_gamma c0) -> - (88 * PI / 180) <= g) /\
  (s_gamma x0 < - (88 * PI / 180) -> forall g, In g (c_gamma c0) -> g <= - (88 * PI / 180)).
Proof.
  intros E V tol x0 t_sec dt delta c0 HE HS H. unfold solveTrajectory2 in H. destruct (arange _ _) as [tb|]; [|discriminate H]. cbn [rbind] in H.
  destruct tb as [|t0 tb]; [discriminate H|]. destruct (solve_ivp _ _ _ _ _ _ _) as [[us xs]|] eqn:Es; [|discriminate H]. cbn [rbind fst snd] in H. injection H as <-.
  destruct (HS _ _ _ _ _ _ _ _ Es) as (A & B). unfold hit_EFPA_90 in A, B. cbn [c_gamma channels].
  split; intros Hg g Hi; apply in_map_iff in Hi; destruct Hi as (x & <- & Hx).
  - specialize (A ltac:(lra) x Hx). lra.
  - specialize (B ltac:(lra) x Hx). lra.
Qed.
Lemma in_firstn_in : forall {A} (l : list A) n x, In x (firstn n l) -> In x l.
Proof. intros A l. induction l as [|a l IH]; intros [|n] x H; cbn in *; try tauto. destruct H; eauto. Qed.
Theorem C87_never_steeper : forall E name o t_sec dt delta_deg o', engine_ok E -> stops_at_event E -> Planet name = Ok (vh_planet (ob_veh o)) ->
  propogateEntry2 E o t_sec dt delta_deg = (o', Ok tt) -> exists f, ob_flight o' = Some f /\ (1 <= f_index f)%nat /\
  (-88 < gamma0_deg (ob_init o) -> forall k, (k < f_index f)%nat -> -88 <= nth k (p_gamma (f_plot f)) 0) /\
  (gamma0_deg (ob_init o) < -88 -> forall k, (k < f_index f)%nat -> nth k (p_gamma (f_plot f)) 0 <= -88).
Proof.
  intros E name o t_sec dt delta_deg o' HE HS HP H.
  destruct (C43_flight_aligned _ _ _ _ _ _ _ HE HP (or_intror H)) as (_ & _ & _ & f & h & Hf & _ & Al & _). exists f. split; [exact Hf|]. split; [exact (proj1 Al)|].
  destruct (stored_post _ _ _ _ _ _ _ _ H Hf) as (c0 & Hs & Hp). destruct (solver2_event _ _ _ _ _ _ _ _ HE HS Hs) as (A & B).
  change (s_gamma (entry_state (vh_planet (ob_veh o)) (ob_init o))) with (deg (gamma0_deg (ob_init o))) in A, B. unfold deg in A, B.
  destruct (post_inv _ _ _ _ Hp) as (cls & qc & qr & _ & _ & _ & Esi & _). cbv zeta in Esi.
  destruct Al as (_ & (_ & _ & _ & _ & _ & _ & LG & _) & _ & _ & _ & _ & _ & _ & _ & _ & _ & Pt).
  assert (G : forall k, (k < f_index f)%nat -> In (nth k (p_gamma (f_plot f)) 0 * PI / 180) (c_gamma c0)).
  { intros k Hk. specialize (Pt k Hk). unfold point in Pt. cbn [s_r s_v s_phi s_psi s_theta s_gamma s_drange] in Pt. destruct Pt as (_ & _ & _ & _ & _ & _ & Eg & _). unfold deg in Eg. rewrite Eg.
    rewrite Esi in *. cbn [c_gamma] in *. cbn [c_gamma dimensionalize_traj] in *.
    apply (in_firstn_in _ (fst cls)). apply nth_In. lia. }
  pose proof PI_RGT_0 as HPI.
  split; intros Hg k Hk; specialize (G k Hk).
  - specialize (A ltac:(nra) _ G). apply Rnot_lt_le. intros N. nra.
  - specialize (B ltac:(nra) _ G). apply Rnot_lt_le. intros N. nra.
Qed.

(** The hovering integrator meets every hypothesis, and both propagations of a vehicle between the trap and skip altitudes return under it. *)
Lemma hover_stops : stops_at_event hover.
Proof.
  intros f te x0 ts ev tol us xs H. cbn [hover solve_ivp] in H. injection H as <- <-.
  split; intros Hs x Hx; apply in_map_iff in Hx; destruct Hx as (_ & <- & _); lra.
Qed.
Example C86_witness : forall i, h_trap VENUS <= h0_km i * 1e3 < h_skip VENUS ->
  exists V o', Vehicle 1000 100 0.25 10 0 1 VENUS (mkAtm (fun _ => 1e-5) (fun _ => 200) (fun _ => 1) (fun _ => 300)) false = Ok V /\ vh_user V = false /\
    Planet "VENUS" = Ok (vh_planet V) /\ engine_ok hover /\ propogateEntry hover (mkObj V i 1e-5 None None) 100 1 15 = (o', Ok tt).
Proof.
  intros i Hh. destruct (Vehicle 1000 100 0.25 10 0 1 VENUS (mkAtm (fun _ => 1e-5) (fun _ => 200) (fun _ => 1) (fun _ => 300)) false) as [V|] eqn:HV.
  2:{ exfalso. unfold Vehicle in HV. rcases; try discriminate HV; lra. }
  destruct (Vehicle_inv _ _ _ _ _ _ _ _ _ _ HV) as (_ & _ & _ & _ & _ & _ & _ & HP & _ & HU & _).
  destruct (C43_witness V i 1e-5 100 1 15 HP Hh ltac:(lra) ltac:(lra)) as (HE & o' & H). exists V, o'. rewrite HP. auto 10.
Qed.
Example C87_witness : forall i, h_trap VENUS <= h0_km i * 1e3 < h_skip VENUS -> heatLoad0 i = 0 ->
  exists V o', vh_planet V = VENUS /\ engine_ok hover /\ stops_at_event hover /\ propogateEntry2 hover (mkObj V i 1e-5 None None) 100 1 15 = (o', Ok tt).
Proof.
  intros i Hh H0. destruct (C86_witness i Hh) as (V & o' & HV & _ & HP & HE & H). exists V, o'. injection HP as HP. split; [auto|]. split; [exact HE|]. split; [apply hover_stops|].
  rewrite <- H. unfold propogateEntry2, propogateEntry, fly. cbn [ob_init ob_veh ob_tol]. rewrite H0.
  assert (ES : forall x0 d, solveTrajectory2 hover V 1e-5 x0 100 1 d = solveTrajectory hover V 1e-5 x0 100 1 d).
  { intros x0 d. unfold solveTrajectory2, solveTrajectory. destruct (arange _ _) as [ts|e] eqn:Ea; [|reflexivity]. cbn [rbind].
    rewrite <- HP in Ea. destruct (C73_time_grid "VENUS"%string VENUS ts 100 1 eq_refl ltac:(lra) ltac:(lra) Ea) as (_ & Hne & _). destruct ts as [|t ts]; [congruence|]. reflexivity. }
  rewrite ES. reflexivity.
Qed.
