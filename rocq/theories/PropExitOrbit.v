(** C129, the orbit after the exit: the apsides reported from the last point of a flight that left the atmosphere approach those of the true exit state. *)
From Coq Require Import String List Reals Lra Lia Classical.
Require Import Verif.Base Verif.Numpy Verif.NumpyProofs Verif.PlanetModel Verif.PlanetProofs Verif.AeroModel Verif.HeatModel Verif.PropHeat Verif.TrajectoryModel Verif.TrajectorySpec Verif.TrajectoryProofs Verif.PropTrajectory Verif.FlightProofs Verif.PropFlight
  Verif.ExactSpec Verif.ExactProofs Verif.PropExact Verif.DetSpec Verif.DetProofs Verif.PropDet Verif.NearSpec Verif.NearProofs Verif.ExistSpec Verif.ExistProofs Verif.ExitSpec Verif.ExitProofs Verif.PropExit
  Verif.FrameModel Verif.FrameProofs Verif.ConicSpec Verif.ConicProofs Verif.OrbitScalarModel Verif.OrbiterModel Verif.OrbiterProofs Verif.OrbitModel Verif.OrbitSpec Verif.OrbitProofs Verif.PropOrbit Verif.CorridorModel.
Import ListNotations.
Local Open Scope R_scope.

(** A state of the flight in metres, metres per second and radians. *)
Definition exit_of (p : planet) (a : state) : exit_state := mkExit (s_r a * RP p) (s_theta a) (s_phi a) (s_v a * Vref p) (s_gamma a) (s_psi a).
Definition ie_of (p : planet) (a : state) : vec :=
  inertial_vel (OMEGA p) (s_r a * RP p) (s_v a * Vref p) (s_gamma a) (s_psi a) (s_theta a) (s_phi a).
Definition pos_of (p : planet) (a : state) : vec := sph_pos (s_r a * RP p) (s_theta a) (s_phi a).
Definition energy_of (p : planet) (a : state) : R := energy (GM p) (pos_of p a) (ie_of p a).
Definition momentum_of (p : planet) (a : state) : R := norm (ang_mom (pos_of p a) (ie_of p a)).

Definition near_cont (F : state -> R) (x : state) : Prop := forall eps, 0 < eps -> exists e, 0 < e /\ forall a, dist x a < e -> Rabs (F a - F x) < eps.
Lemma ll_near : forall F x, loclip F x -> near_cont F x.
Proof.
  intros F x (e & L & He & HL & H) eps Heps. exists (Rmin e (eps / (L + 1))). assert (0 < eps / (L + 1)) by (apply Rdiv_lt_0_compat; lra). split; [apply Rmin_glb_lt; auto|].
  intros a Ha. pose proof (Rmin_l e (eps / (L + 1))). pose proof (Rmin_r e (eps / (L + 1))). specialize (H a x ltac:(lra) ltac:(rewrite dist_self; lra)). rewrite (dist_sym a x) in H.
  assert (E : eps / (L + 1) * (L + 1) = eps) by (field; lra). pose proof (dist_pos x a). nra.
Qed.
Lemma near_bound : forall F x, near_cont F x -> exists e, 0 < e /\ forall a, dist x a < e -> Rabs (F a) < Rabs (F x) + 1.
Proof. intros F x H. destruct (H 1 ltac:(lra)) as (e & He & B). exists e. split; auto. intros a Ha. specialize (B a Ha). pose proof (Rabs_triang_inv (F a) (F x)). lra. Qed.
Lemma near_mult : forall F G x, near_cont F x -> near_cont G x -> near_cont (fun a => F a * G a) x.
Proof.
  intros F G x HF HG eps Heps. destruct (near_bound G x HG) as (e0 & He0 & B). set (M := Rabs (G x) + 1 + Rabs (F x)). pose proof (Rabs_pos (G x)). pose proof (Rabs_pos (F x)). assert (HM : 0 < M) by (unfold M; lra).
  set (u := eps / (2 * M)). assert (Hu : 0 < u) by (apply Rdiv_lt_0_compat; lra). assert (Eu : u * M = eps / 2) by (unfold u; field; lra).
  destruct (HF u Hu) as (e1 & He1 & B1). destruct (HG u Hu) as (e2 & He2 & B2). exists (Rmin e0 (Rmin e1 e2)). split; [repeat apply Rmin_glb_lt; auto|].
  intros a Ha. pose proof (Rmin_l e0 (Rmin e1 e2)). pose proof (Rmin_r e0 (Rmin e1 e2)). pose proof (Rmin_l e1 e2). pose proof (Rmin_r e1 e2).
  specialize (B a ltac:(lra)). specialize (B1 a ltac:(lra)). specialize (B2 a ltac:(lra)).
  replace (F a * G a - F x * G x) with ((F a - F x) * G a + F x * (G a - G x)) by ring. eapply Rle_lt_trans; [apply Rabs_triang|]. rewrite !Rabs_mult.
  pose proof (Rabs_pos (F a - F x)). pose proof (Rabs_pos (G a - G x)). pose proof (Rabs_pos (G a)).
  assert (Rabs (F a - F x) * Rabs (G a) <= u * (Rabs (G x) + 1)) by (apply Rmult_le_compat; lra). assert (Rabs (F x) * Rabs (G a - G x) <= Rabs (F x) * u) by (apply Rmult_le_compat_l; lra). unfold M in Eu. lra.
Qed.
Lemma near_lin : forall F c k x, near_cont F x -> near_cont (fun a => c + k * F a) x.
Proof.
  intros F c k x H eps Heps. pose proof (Rabs_pos k). destruct (H (eps / (Rabs k + 1))) as (e & He & B); [apply Rdiv_lt_0_compat; lra|]. exists e. split; auto. intros a Ha. specialize (B a Ha).
  replace (c + k * F a - (c + k * F x)) with (k * (F a - F x)) by ring. rewrite Rabs_mult. assert (E : eps / (Rabs k + 1) * (Rabs k + 1) = eps) by (field; lra). pose proof (Rabs_pos (F a - F x)). nra.
Qed.
Lemma sqrt_gap : forall a b, 0 <= a -> 0 <= b -> Rabs (sqrt a - sqrt b) * Rabs (sqrt a - sqrt b) <= Rabs (a - b).
Proof.
  intros a b Ha Hb. pose proof (sqrt_pos a). pose proof (sqrt_pos b). pose proof (sqrt_sqrt a Ha) as Ea. pose proof (sqrt_sqrt b Hb) as Eb. set (s := sqrt a) in *. set (t := sqrt b) in *.
  rewrite <- Ea, <- Eb. replace (s * s - t * t) with ((s - t) * (s + t)) by ring. rewrite Rabs_mult. apply Rmult_le_compat_l; [apply Rabs_pos|]. rewrite (Rabs_right (s + t)) by lra. apply Rabs_le. lra.
Qed.
Lemma near_sqrt : forall F x, (forall a, 0 <= F a) -> near_cont F x -> near_cont (fun a => sqrt (F a)) x.
Proof.
  intros F x P H eps Heps. destruct (H (eps * eps)) as (e & He & B); [nra|]. exists e. split; auto. intros a Ha. specialize (B a Ha). pose proof (sqrt_gap (F a) (F x) (P a) (P x)). pose proof (Rabs_pos (sqrt (F a) - sqrt (F x))).
  apply Rnot_le_lt. intros C. nra.
Qed.

Lemma ll_opp : forall F x, loclip F x -> loclip (fun a => - F a) x.
Proof. intros F x (e & L & He & HL & H). exists e, L. split; auto. split; auto. intros a b Ha Hb. replace (- F a - - F b) with (F b - F a) by ring. rewrite Rabs_minus_sym. auto. Qed.
Ltac llo := repeat (progress ll || match goal with |- loclip (fun a => - @?F a) _ => apply (ll_opp F) end).
(** The energy and the squared angular momentum of the inertial orbit. *)
Lemma ll_energy : forall p x, 0 < RP p -> s_r x <> 0 -> loclip (fun a => norm2 (ie_of p a) / 2 - GM p / (s_r a * RP p)) x.
Proof.
  intros p x HR Hx. unfold ie_of, inertial_vel, rel_vel, sph_pos, up_dir, east_dir, north_dir. vsimpl.
  assert (D : s_r x * RP p <> 0) by (apply Rmult_integral_contrapositive_currified; [auto|lra]).
  apply (ll_minus (fun a => _) (fun a => GM p / (s_r a * RP p))); [|apply (ll_div (fun a => GM p) (fun a => s_r a * RP p)); [llo|llo|exact D]]. llo.
Qed.
Lemma ll_momentum : forall p x, loclip (fun a => norm2 (ang_mom (pos_of p a) (ie_of p a))) x.
Proof. intros p x. unfold ang_mom, pos_of, ie_of, inertial_vel, rel_vel, sph_pos, up_dir, east_dir, north_dir. vsimpl. llo. Qed.

(** The reported apsides of a state. *)
Lemma apsides : forall name p a, Planet name = Ok p -> 0 < s_r a -> ie_of p a <> vzero -> energy_of p a <> 0 ->
  let G := 1 + 2 * energy_of p a * norm2 (ang_mom (pos_of p a) (ie_of p a)) / (GM p * GM p) in
  0 <= G /\ energy_of p a = norm2 (ie_of p a) / 2 - GM p / (s_r a * RP p) /\
  compute_ApoapsisAltitudeKm p (exit_of p a) = Some ((- GM p / (2 * energy_of p a) * (1 + sqrt G) - RP p) / 1e3) /\
  compute_PeriapsisAltitudeKm p (exit_of p a) = Some ((- GM p / (2 * energy_of p a) * (1 - sqrt G) - RP p) / 1e3).
Proof.
  intros name p a HP Hr0 Hv HE G. destruct (Planet_facts _ _ HP) as (HRP & HGM & _). set (x := exit_of p a). assert (Hr : 0 < x_r x) by (unfold x; cbn; nra).
  assert (Evv : exit_v_ie p x = ie_of p a) by apply exit_v_ie_spec. assert (Erv : exit_r_vec x = pos_of p a) by apply exit_r_vec_spec.
  assert (Nr : norm (pos_of p a) = x_r x) by (apply sph_norm; lra).
  assert (Hrv : pos_of p a <> vzero). { intros Z. rewrite Z in Nr. unfold norm, norm2, dot, vzero in Nr. cbn in Nr. replace (0 * 0 + 0 * 0 + 0 * 0) with 0 in Nr by ring. rewrite sqrt_0 in Nr. unfold x in *. cbn in Hr. lra. }
  assert (EE : energy_of p a = norm (ie_of p a) * norm (ie_of p a) / 2 - GM p / x_r x) by (apply (energy_norm (GM p) (x_r x) (x_theta x) (x_phi x)); auto).
  destruct (fpa_horizontal (pos_of p a) (ie_of p a) Hrv Hv) as (g & Eg & Cg & Sg & _). fold (ang_mom (pos_of p a) (ie_of p a)) in Cg. rewrite Nr in Cg.
  destruct (scalar_elements p (x_r x) (norm (ie_of p a)) g HGM Hr) as (E1 & E2 & e & E3 & He & Hee). cbv zeta in *. rewrite <- EE, Cg in *.
  assert (T : terminal_orbit p x = Some (- GM p / (2 * energy_of p a), e)).
  { unfold terminal_orbit. rewrite Evv, Erv, E1, Eg. cbn [obind]. rewrite E2, semi_major by auto. cbn [obind]. rewrite E3. reflexivity. }
  assert (HG : G = e * e). { rewrite Hee. unfold G. rewrite norm_sq. reflexivity. }
  assert (Q : sqrt G = e) by (rewrite HG; apply sqrt_square; auto). rewrite Q. split; [rewrite HG; nra|]. split; [rewrite EE, norm_sq; reflexivity|].
  unfold compute_ApoapsisAltitudeKm, compute_PeriapsisAltitudeKm. rewrite T. cbn [obind fst snd]. auto.
Qed.
(** They depend continuously on the state. *)
Lemma apsides_near : forall name p x, Planet name = Ok p -> 0 < s_r x -> ie_of p x <> vzero -> energy_of p x <> 0 ->
  exists ra rp, compute_ApoapsisAltitudeKm p (exit_of p x) = Some ra /\ compute_PeriapsisAltitudeKm p (exit_of p x) = Some rp /\
  forall eps, 0 < eps -> exists e, 0 < e /\ forall a, dist x a < e -> exists ra' rp', compute_ApoapsisAltitudeKm p (exit_of p a) = Some ra' /\ compute_PeriapsisAltitudeKm p (exit_of p a) = Some rp' /\
    Rabs (ra' - ra) < eps /\ Rabs (rp' - rp) < eps.
Proof.
  intros name p x HP Hr Hv HE. destruct (Planet_facts _ _ HP) as (HRP & HGM & _). destruct (apsides name p x HP Hr Hv HE) as (G0 & Ex & A & P). cbv zeta in *.
  set (En := fun a => norm2 (ie_of p a) / 2 - GM p / (s_r a * RP p)). set (H2 := fun a => norm2 (ang_mom (pos_of p a) (ie_of p a))).
  assert (LE : loclip En x) by (apply ll_energy; lra). assert (LH : loclip H2 x) by apply ll_momentum.
  change (norm2 (ang_mom (pos_of p x) (ie_of p x))) with (H2 x) in *. rewrite Ex in *. change (norm2 (ie_of p x) / 2 - GM p / (s_r x * RP p)) with (En x) in *. clear Ex.
  set (Gf := fun a => 1 + 2 * En a * H2 a / (GM p * GM p)). change (1 + 2 * En x * H2 x / (GM p * GM p)) with (Gf x) in *.
  assert (LG : near_cont (fun a => sqrt (Rmax 0 (Gf a))) x).
  { apply (near_sqrt (fun a => Rmax 0 (Gf a))); [intros; apply Rmax_l|]. assert (N : near_cont Gf x) by (apply ll_near; unfold Gf; ll). intros eps Heps. destruct (N eps Heps) as (e & He & B). exists e. split; auto. intros a Ha. specialize (B a Ha).
    rewrite (Rmax_right 0 (Gf x)) by auto. apply Rabs_def2 in B. unfold Rmax. destruct (Rle_dec 0 (Gf a)); apply Rabs_def1; lra. }
  assert (LS : near_cont (fun a => - GM p / (2 * En a)) x) by (apply ll_near; apply (ll_div (fun a => - GM p) (fun a => 2 * En a)); [apply ll_const|apply (ll_mult (fun a => 2) En); [apply ll_const|auto]|lra]).
  assert (NA : near_cont (fun a => - RP p / 1000 + / 1000 * (- GM p / (2 * En a) * (1 + 1 * sqrt (Rmax 0 (Gf a))))) x) by (apply (near_lin (fun a => _)); apply (near_mult (fun a => _) (fun a => _)); [exact LS|apply (near_lin (fun a => _)); exact LG]).
  assert (NP : near_cont (fun a => - RP p / 1000 + / 1000 * (- GM p / (2 * En a) * (1 + -1 * sqrt (Rmax 0 (Gf a))))) x) by (apply (near_lin (fun a => _)); apply (near_mult (fun a => _) (fun a => _)); [exact LS|apply (near_lin (fun a => _)); exact LG]).
  cbv beta in NA, NP. 
  eexists; eexists; split; [exact A|]; split; [exact P|]. intros eps Heps. destruct (NA eps Heps) as (e1 & He1 & B1). destruct (NP eps Heps) as (e2 & He2 & B2).
  destruct (ll_near _ _ LE (Rabs (En x)) (Rabs_pos_lt _ HE)) as (e3 & He3 & B3).
  assert (LV : loclip (fun a => norm2 (ie_of p a)) x) by (unfold ie_of, inertial_vel, rel_vel, sph_pos, up_dir, east_dir, north_dir; vsimpl; llo).
  assert (V0 : 0 < norm2 (ie_of p x)) by (rewrite <- norm_sq; pose proof (norm_pos _ Hv); nra).
  destruct (ll_near _ _ LV _ V0) as (e4 & He4 & B4). set (e := Rmin (Rmin e1 e2) (Rmin (Rmin e3 e4) (s_r x))).
  assert (He : 0 < e) by (unfold e; repeat apply Rmin_glb_lt; auto). exists e. split; auto. intros a Ha.
  assert (M : e <= e1 /\ e <= e2 /\ e <= e3 /\ e <= e4 /\ e <= s_r x).
  { unfold e. pose proof (Rmin_l (Rmin e1 e2) (Rmin (Rmin e3 e4) (s_r x))). pose proof (Rmin_r (Rmin e1 e2) (Rmin (Rmin e3 e4) (s_r x))). pose proof (Rmin_l e1 e2). pose proof (Rmin_r e1 e2). pose proof (Rmin_l (Rmin e3 e4) (s_r x)). pose proof (Rmin_r (Rmin e3 e4) (s_r x)). pose proof (Rmin_l e3 e4). pose proof (Rmin_r e3 e4). repeat split; lra. }
  destruct M as (M1 & M2 & M3 & M4 & M5).
  assert (Ra : 0 < s_r a). { pose proof (comp_dist x a 0) as C. cbn [comp] in C. assert (C' : Rabs (s_r x - s_r a) < s_r x) by lra. apply Rabs_def2 in C'. lra. }
  assert (Va : ie_of p a <> vzero). { intros Z. specialize (B4 a ltac:(lra)). cbv beta in B4. apply Rabs_def2 in B4. rewrite Z in B4. replace (norm2 vzero) with 0 in B4 by (vsimpl; ring). lra. }
  assert (Ha' : forall u, energy (GM p) (sph_pos (s_r a * RP p) (s_theta a) (s_phi a)) u = norm u * norm u / 2 - GM p / (s_r a * RP p)) by (intros; apply energy_norm; nra).
  assert (Eq : energy_of p a = En a) by (unfold energy_of, pos_of; rewrite Ha', norm_sq; reflexivity).
  assert (Ea : energy_of p a <> 0). { rewrite Eq. intros Z. specialize (B3 a ltac:(lra)). rewrite Z, Rminus_0_l, Rabs_Ropp in B3. lra. }
  destruct (apsides name p a HP Ra Va Ea) as (Ga & _ & Aa & Pa). cbv zeta in *. rewrite Eq in *. change (1 + 2 * En a * norm2 (ang_mom (pos_of p a) (ie_of p a)) / (GM p * GM p)) with (Gf a) in *.
  specialize (B1 a ltac:(lra)). specialize (B2 a ltac:(lra)). rewrite !Rmax_right in B1, B2 by auto.
  eexists; eexists; split; [exact Aa|]; split; [exact Pa|]. split; [eapply Rle_lt_trans; [|exact B1]|eapply Rle_lt_trans; [|exact B2]]; right; f_equal; lra.
Qed.

(** The last point as the orbit computation reads it, in terms of the reported series. *)
Lemma terminal_plot : forall name V delta c f k n, Planet name = Ok (vh_planet V) -> post V delta c = Ok f -> traj_len c n -> length (p_t (f_plot f)) = S k ->
  let p := vh_planet V in let q := f_plot f in
  terminal f = mkExit (nth k (p_h q) 0 * 1000 + RP p) (nth k (p_theta q) 0 * PI / 180) (nth k (p_phi q) 0 * PI / 180) (nth k (p_v q) 0 * 1000) (nth k (p_gamma q) 0 * PI / 180) (nth k (p_psi q) 0 * PI / 180).
Proof.
  intros name V delta c f k n HP H (L1 & L2 & L3 & L4 & L5 & L6 & L7 & L8) Lk p q. destruct (Planet_facts _ _ HP) as (_ & _ & _ & _ & (Ht0 & Hts) & _). fold p in Ht0, Hts. pose proof PI_RGT_0 as HPI.
  destruct (post_inv _ _ _ _ H) as (cls & qc & qr & A). cbv zeta in A. destruct A as (Ec & Ei & _ & Es & Ep & _). fold p in Ec, Es, Ep. fold q in Ep, Lk.
  pose proof (classify_index _ _ _ Hts Ht0 Ec) as Hi. cbn [dimensionalize_traj c_r] in Hi. rewrite map_length, L2 in Hi.
  rewrite Ep in Lk |- *. cbn [p_t p_h p_v p_phi p_psi p_theta p_gamma p_drange convertToPlotUnits dimensionalize_traj c_t c_r c_v c_phi c_psi c_theta c_gamma c_drange] in *.
  rewrite firstn_length, !map_length, L1 in Lk. assert (Ek : fst cls = S k) by lia. unfold terminal. rewrite Ei, Es, Ek. cbn [c_t c_r c_v c_phi c_psi c_theta c_gamma c_drange]. rewrite Nat.sub_0_r || idtac. replace (S k - 1)%nat with k by lia.
  rewrite !nth_firstn by lia. rewrite !(nth_map_lt _ _ _ 0) by (rewrite ?map_length; lia). f_equal; try field; lra.
Qed.
(** Whatever the solver and the time step: the last point of a stored flight. *)
Lemma terminal_run : forall (two : bool) E name V i tol secs dt d o f k, engine_ok E -> Planet name = Ok (vh_planet V) ->
  (if two then propogateEntry2 else propogateEntry) E (mkObj V i tol None None) secs dt d = (o, Ok tt) -> ob_flight o = Some f -> length (p_t (f_plot f)) = S k ->
  let p := vh_planet V in let q := f_plot f in
  terminal f = mkExit (nth k (p_h q) 0 * 1000 + RP p) (nth k (p_theta q) 0 * PI / 180) (nth k (p_phi q) 0 * PI / 180) (nth k (p_v q) 0 * 1000) (nth k (p_gamma q) 0 * PI / 180) (nth k (p_psi q) 0 * PI / 180).
Proof.
  intros two E name V i tol secs dt d o f k HE HP H Hf Lk p q.
  assert (G : exists solve h0, solver_ok solve /\ store (mkObj V i tol None None) (fly solve V tol i secs dt d) h0 = (o, Ok tt)).
  { destruct two; [exists (solveTrajectory2 E), (heatLoad0 i)|exists (solveTrajectory E), 0]; (split; [auto using solver1_ok, solver2_ok|exact H]). }
  destruct G as (solve & h0 & HK & G). clear H. unfold store in G. destruct (fly _ _ _ _ _ _ _) as [f'|] eqn:Ef; [|discriminate].
  assert (f' = f). { destruct (ocumtrapz _ _ _); injection G as <-; [|discriminate]. cbn [ob_flight set_flight set_heat] in Hf. congruence. } subst f'. clear G.
  unfold fly in Ef. destruct (solve V tol (entry_state (vh_planet V) i) secs dt (deg d)) as [c|] eqn:Es; [|discriminate]. cbn [rbind] in Ef.
  destruct (HK _ _ _ _ _ _ _ Es) as (n & L & _). exact (terminal_plot name V (deg d) c f k n HP Ef L Lk).
Qed.
(** A reported point close to [x] in plot units is close to it in the state space. *)
Lemma plot_state : forall name p x e, Planet name = Ok p -> 0 < e -> exists eps, 0 < eps /\ forall q k, shows_within eps p q k x ->
  exists a, dist x a < e /\ exit_of p a = mkExit (nth k (p_h q) 0 * 1000 + RP p) (nth k (p_theta q) 0 * PI / 180) (nth k (p_phi q) 0 * PI / 180) (nth k (p_v q) 0 * 1000) (nth k (p_gamma q) 0 * PI / 180) (nth k (p_psi q) 0 * PI / 180).
Proof.
  intros name p x e HP He. destruct (ref_facts _ _ HP) as (HV & _ & _ & _ & HR & _). pose proof PI_RGT_0 as HPI. pose proof PI_4 as HP4. 
  set (K := 1000 / RP p + 1000 / Vref p + 1). assert (K1 : 0 < 1000 / RP p) by (apply Rdiv_lt_0_compat; lra). assert (K2 : 0 < 1000 / Vref p) by (apply Rdiv_lt_0_compat; lra). assert (HK : 0 < K) by (unfold K; lra).
  exists (e / (8 * K)). assert (Hu : 0 < e / (8 * K)) by (apply Rdiv_lt_0_compat; lra). assert (EK : 8 * (e / (8 * K) * K) = e) by (field; lra). set (u := e / (8 * K)) in *. split; auto.
  intros q k (S1 & S2 & S3 & S4 & S5 & S6 & S7).
  exists (mkState ((nth k (p_h q) 0 * 1000 + RP p) / RP p) (nth k (p_theta q) 0 * PI / 180) (nth k (p_phi q) 0 * PI / 180) (nth k (p_v q) 0 * 1000 / Vref p) (nth k (p_psi q) 0 * PI / 180) (nth k (p_gamma q) 0 * PI / 180) (s_drange x)).
  split; [|unfold exit_of; cbn; f_equal; field; lra].
  assert (DEG : forall w s, Rabs (w - s * 180 / PI) < u -> Rabs (s - w * PI / 180) <= u * K).
  { intros w s B. replace (s - w * PI / 180) with ((s * 180 / PI - w) * (PI / 180)) by (field; lra). rewrite Rabs_mult, (Rabs_minus_sym _ w), (Rabs_right (PI / 180)) by lra. pose proof (Rabs_pos (w - s * 180 / PI)). apply Rmult_le_compat; unfold K; lra. }
  assert (C1 : Rabs (s_r x - (nth k (p_h q) 0 * 1000 + RP p) / RP p) <= u * K).
  { replace (s_r x - (nth k (p_h q) 0 * 1000 + RP p) / RP p) with ((- (nth k (p_h q) 0 - (RP p * s_r x - RP p) / 1000)) * (1000 / RP p)) by (field; lra). rewrite Rabs_mult, Rabs_Ropp, (Rabs_right (1000 / RP p)) by lra. apply Rmult_le_compat; try apply Rabs_pos; unfold K; lra. }
  assert (C2 : Rabs (s_v x - nth k (p_v q) 0 * 1000 / Vref p) <= u * K).
  { replace (s_v x - nth k (p_v q) 0 * 1000 / Vref p) with ((- (nth k (p_v q) 0 - Vref p * s_v x / 1000)) * (1000 / Vref p)) by (field; lra). rewrite Rabs_mult, Rabs_Ropp, (Rabs_right (1000 / Vref p)) by lra. apply Rmult_le_compat; try apply Rabs_pos; unfold K; lra. }
  pose proof (DEG _ _ S3). pose proof (DEG _ _ S4). pose proof (DEG _ _ S5). pose proof (DEG _ _ S6). unfold dist. cbn [s_r s_theta s_phi s_v s_psi s_gamma s_drange]. rewrite (Rminus_diag_eq (s_drange x)), Rabs_R0 by auto. assert (0 < u * K) by nra. lra.
Qed.
(** The orbit reported after the exit.  [E] and [h] are the energy and the angular momentum of the true exit state in the inertial frame; the apsides
    reported from the last point of the flight approach the apsides of that orbit. *)
Theorem C129_orbit : forall name V i d T y, Planet name = Ok (vh_planet V) -> vh_user V = false -> lipschitz_air (vh_planet V) (vh_atm V) -> leaves V i d T y ->
  let p := vh_planet V in let x := y T in
  let rv := sph_pos (RP p * s_r x) (s_theta x) (s_phi x) in
  let vv := inertial_vel (OMEGA p) (RP p * s_r x) (Vref p * s_v x) (s_gamma x) (s_psi x) (s_theta x) (s_phi x) in
  let En := energy (GM p) rv vv in let h := norm (ang_mom rv vv) in vv <> vzero -> En <> 0 ->
  exists ra rp, (En < 0 -> is_apoapsis (GM p) En h (RP p + 1000 * ra)) /\ (h <> 0 -> is_periapsis (GM p) En h (RP p + 1000 * rp)) /\
  forall eps, 0 < eps -> exists delta, 0 < delta /\ forall (two : bool) E tol secs dt o f, engine_ok E -> exact E -> 0 < dt < delta ->
    (if two then propogateEntry2 else propogateEntry) E (mkObj V i tol None None) secs dt d = (o, Ok tt) -> ob_flight o = Some f -> f_exitflag f = 1 ->
    exists ra' rp', compute_ApoapsisAltitudeKm p (terminal f) = Some ra' /\ compute_PeriapsisAltitudeKm p (terminal f) = Some rp' /\ Rabs (ra' - ra) < eps /\ Rabs (rp' - rp) < eps.
Proof.
  intros name V i d T y HP Hu HL LV p x rv vv En h Hvv HEn. destruct (ref_facts _ _ HP) as (_ & _ & _ & _ & HR & _). fold p in HR, HP. destruct (Planet_facts _ _ HP) as (_ & _ & _ & _ & (Ht0 & Hts) & Hthr & _).
  pose proof (leaves_top _ _ _ _ _ Hu LV) as (_ & AT). pose proof LV as (_ & _ & _ & _ & Etop & _). fold p in Etop. fold x in Etop. unfold height in Etop. assert (Hr : 0 < s_r x) by nra.
  assert (Erv : rv = pos_of p x) by (unfold rv, pos_of; rewrite (Rmult_comm (RP p)); reflexivity). assert (Evv : vv = ie_of p x) by (unfold vv, ie_of; rewrite (Rmult_comm (RP p)), (Rmult_comm (Vref p)); reflexivity).
  assert (EEn : En = energy_of p x) by (unfold En, energy_of; rewrite Erv, Evv; reflexivity).
  destruct (apsides_near name p x HP Hr ltac:(rewrite <- Evv; auto) ltac:(rewrite <- EEn; auto)) as (ra & rp & Ea & Ep & N).
  destruct (C52_reported_apsides name p (exit_of p x) HP ltac:(cbn; nra)) as (_ & C). cbn [exit_of x_r x_theta x_phi x_v x_g x_psi] in C. fold (pos_of p x) in C. fold (ie_of p x) in C. rewrite <- Erv, <- Evv in C. fold En in C. fold h in C. destruct (C Hvv) as (CA & CP & _).
  exists ra, rp. split; [|split].
  - intros Hn. destruct (CA Hn) as (r & Er & A & _). rewrite Ea in Er. injection Er as ->. replace (RP p + 1000 * ((r - RP p) / 1000)) with r by lra. exact A.
  - intros Hh. destruct (CP HEn Hh) as (r & Er & A & _). rewrite Ep in Er. injection Er as ->. replace (RP p + 1000 * ((r - RP p) / 1000)) with r by lra. exact A.
  - intros eps Heps. destruct (N eps Heps) as (e & He & Ne). destruct (plot_state name p x e HP He) as (u & Hu' & PS). destruct (C129_exit name V i d T y HP Hu HL LV u Hu') as (delta & Hd & X). exists delta. split; auto.
    intros two E tol secs dt o f HE HX Hdt H Hf Hfl. destruct (X two E tol secs dt o f HE HX Hdt H Hf Hfl) as (k & Lk & _ & SW). destruct (PS _ _ SW) as (a & Da & Ex). rewrite (terminal_run two E name V i tol secs dt d o f k HE HP H Hf Lk). fold p. rewrite <- Ex. exact (Ne a Da).
Qed.
