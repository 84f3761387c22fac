(** Lemmas for C104: exact solutions of the equations of motion. *)
From Coq Require Import List Ranalysis5.
Require Import Verif.Base Verif.Numpy Verif.PlanetModel Verif.AeroModel Verif.HeatModel Verif.TrajectoryModel Verif.TrajectorySpec Verif.TrajectoryProofs
  Verif.PlanetProofs Verif.FlightSpec Verif.FlightProofs Verif.DerivTactic Verif.PropFlight Verif.ExactSpec.
Local Open Scope R_scope.

Lemma last_is_nth : forall (l : list R) d, last l d = nth (length l - 1) l d.
Proof. induction l as [|a [|b l] IH]; intros d; cbn in *; auto. rewrite IH. destruct (length l) eqn:E; cbn; auto. Qed.
(** A continuous function whose derivative is at most 0 away from finitely many points does not grow. *)
Lemma nonincreasing_corners : forall f f' l a b, a <= b -> (forall c, a <= c <= b -> continuity_pt f c) ->
  (forall c, a < c < b -> ~ In c l -> derivable_pt_lim f c (f' c) /\ f' c <= 0) -> f b <= f a.
Proof.
  intros f f' l. induction l as [|x l IH]; intros a b Hab Hc Hd.
  - destruct (Req_dec a b) as [E|E]; [subst; lra|].
    assert (pr1 : forall c, a < c < b -> derivable_pt f c) by (intros c Hcc; exists (f' c); apply Hd; auto).
    destruct (MVT f id a b pr1 (fun c _ => derivable_pt_id c) ltac:(lra) Hc) as (c & P & EQ).
    { intros c _. apply derivable_continuous_pt, derivable_pt_id. }
    destruct (Hd c P (fun z => z)) as (Dd & Hn).
    assert (Ed : derive_pt f c (pr1 c P) = f' c) by (apply derive_pt_eq_0; exact Dd).
    rewrite Ed, derive_pt_id in EQ. unfold id in EQ. nra.
  - destruct (Rlt_dec a x) as [H1|H1]; [destruct (Rlt_dec x b) as [H2|H2]|].
    + apply Rle_trans with (f x).
      * apply (IH x b); [lra|intros c Hcc; apply Hc; lra|]. intros c Hcc Hn. apply Hd; [lra|]. intros [E|I]; [lra|auto].
      * apply (IH a x); [lra|intros c Hcc; apply Hc; lra|]. intros c Hcc Hn. apply Hd; [lra|]. intros [E|I]; [lra|auto].
    + apply (IH a b); auto. intros c Hcc Hn. apply Hd; auto. intros [E|I]; [lra|auto].
    + apply (IH a b); auto. intros c Hcc Hn. apply Hd; auto. intros [E|I]; [lra|auto].
Qed.

(** A continuous function that never meets [c] stays on its side. *)
Lemma stays_above : forall g c T, (forall t, 0 <= t <= T -> continuity_pt g t) -> (forall t, 0 <= t <= T -> g t <> c) -> c < g 0 ->
  forall t, 0 <= t <= T -> c < g t.
Proof.
  intros g c T Hc Hn H0 t Ht. destruct (Rlt_or_le c (g t)) as [L|L]; auto. exfalso.
  destruct (Req_dec t 0) as [->|Z]; [lra|]. assert (g t <> c) by (apply Hn; auto).
  destruct (IVT_interv (fun u => c - g u) 0 t) as (z & Hz & Ez); try lra.
  - intros a Ha. apply (continuity_pt_minus (fun _ => c) g); [apply continuity_pt_const; intros ? ?; reflexivity|apply Hc; lra].
  - apply (Hn z); lra.
Qed.
Lemma stays_below : forall g c T, (forall t, 0 <= t <= T -> continuity_pt g t) -> (forall t, 0 <= t <= T -> g t <> c) -> g 0 < c ->
  forall t, 0 <= t <= T -> g t < c.
Proof.
  intros g c T Hc Hn H0 t Ht. assert (- c < - g t); [|lra].
  apply (stays_above (fun u => - g u) (- c) T); [|intros u Hu E; apply (Hn u Hu); lra|lra|auto].
  intros u Hu. apply (continuity_pt_opp g). auto.
Qed.

(** Continuity of expressions. *)
Lemma ct_comp : forall f g x, continuity_pt f x -> continuity g -> continuity_pt (fun t => g (f t)) x.
Proof. intros f g x Hf Hg. apply (continuity_pt_comp f g); auto. Qed.
Lemma ct_const : forall c x, continuity_pt (fun _ => c) x.
Proof. intros. apply continuity_pt_const. intros ? ?; reflexivity. Qed.
Lemma ct_plus : forall f g x, continuity_pt f x -> continuity_pt g x -> continuity_pt (fun t => f t + g t) x.
Proof. intros. apply (continuity_pt_plus f g); auto. Qed.
Lemma ct_minus : forall f g x, continuity_pt f x -> continuity_pt g x -> continuity_pt (fun t => f t - g t) x.
Proof. intros. apply (continuity_pt_minus f g); auto. Qed.
Lemma ct_mult : forall f g x, continuity_pt f x -> continuity_pt g x -> continuity_pt (fun t => f t * g t) x.
Proof. intros. apply (continuity_pt_mult f g); auto. Qed.
Lemma ct_div : forall f g x, continuity_pt f x -> continuity_pt g x -> g x <> 0 -> continuity_pt (fun t => f t / g t) x.
Proof. intros. apply (continuity_pt_div f g); auto. Qed.
Lemma ct_pow : forall n f x, continuity_pt f x -> continuity_pt (fun t => f t ^ n) x.
Proof. intros n f x Hf. apply (ct_comp f (fun y => y ^ n)); auto. apply derivable_continuous, derivable_pow. Qed.
Ltac cstep :=
  lazymatch goal with
  | |- continuity_pt (fun _ => ?c) _ => apply ct_const
  | |- continuity_pt (fun t => @?f t + @?g t) ?x => apply (ct_plus f g x)
  | |- continuity_pt (fun t => @?f t - @?g t) ?x => apply (ct_minus f g x)
  | |- continuity_pt (fun t => @?f t * @?g t) ?x => apply (ct_mult f g x)
  | |- continuity_pt (fun t => @?f t / @?g t) ?x => apply (ct_div f g x)
  | |- continuity_pt (fun t => @?f t ^ ?n) ?x => apply (ct_pow n f x)
  | |- continuity_pt (fun t => sin (@?f t)) ?x => apply (ct_comp f sin x); [|exact continuity_sin]
  | |- continuity_pt (fun t => cos (@?f t)) ?x => apply (ct_comp f cos x); [|exact continuity_cos]
  end.
Lemma jacobi_continuous : forall p y t, continuous_at y t -> s_r (y t) <> 0 -> continuity_pt (fun u => jacobi_of p (y u)) t.
Proof.
  intros p y t (Cr & _ & Cph & Cv & _) Hr. unfold jacobi_of, jacobi, zonal_potential.
  repeat (first [assumption | cstep]); try (apply pow_nonzero; auto); try lra.
Qed.

(** The drag of the vehicle acts against the motion *)
Definition braking (V : vehicle) : Prop := forall r th ph v delta, exists k, 0 <= k /\ a_sbar V r th ph v delta = Ok (- (k * v ^ 2)).
Lemma jacobi_rate : forall V delta y t d, EOM V (y t) delta = Ok (Some d) -> moving_by y t d ->
  exists asb, a_sbar V (s_r (y t)) (s_theta (y t)) (s_phi (y t)) (s_v (y t)) delta = Ok asb /\ derivable_pt_lim (fun u => jacobi_of (vh_planet V) (y u)) t (asb * s_v (y t)).
Proof.
  intros V delta y t d HE (Hr & _ & Hph & Hv & _).
  destruct (EOM_inv _ _ _ _ HE) as (R0 & V0 & C0 & G0 & asb & Hs & ->). exists asb. split; auto. cbn [s_r s_phi s_v] in Hr, Hph, Hv.
  clear Hs. set (p := vh_planet V) in *. clearbody p.
  unfold jacobi_of, jacobi, zonal_potential, gr_of, gp_of in *.
  dlim; try lra; try (apply pow_nonzero; auto); auto. unfold Rsqr. half.
  field. auto.
Qed.

(** Along an exact solution. *)
Lemma run_upright : forall V delta y T, solves (fun z => EOM V z delta) y T -> 0 < s_v (y 0) -> - (PI / 2) < s_phi (y 0) < PI / 2 ->
  - acos (-0.01) < s_gamma (y 0) < acos (-0.01) ->
  forall t, 0 <= t <= T -> 0 < s_v (y t) /\ - (PI / 2) < s_phi (y t) < PI / 2 /\ - acos (-0.01) < s_gamma (y t) < acos (-0.01).
Proof.
  intros V delta y T (l & S) Hv Hph Hg.
  assert (D : forall t, 0 <= t <= T -> s_v (y t) <> 0 /\ cos (s_phi (y t)) <> 0 /\ cos (s_gamma (y t)) <> - 0.01).
  { intros t Ht. destruct (S t Ht) as (_ & d & HE & _). destruct (EOM_inv _ _ _ _ HE) as (_ & V0 & C0 & G0 & _). repeat split; auto. intros E. apply G0. lra. }
  assert (A : cos (acos (- 0.01)) = - 0.01) by (apply cos_acos; lra).
  intros t Ht. repeat split.
  - apply (stays_above (fun u => s_v (y u)) 0 T); auto; intros u Hu; [apply (S u Hu)|apply (D u Hu)].
  - apply (stays_above (fun u => s_phi (y u)) (- (PI / 2)) T); auto; try lra; intros u Hu; [apply (S u Hu)|]. destruct (D u Hu) as (_ & C0 & _). intros E. apply C0. rewrite E, cos_neg. apply cos_PI2.
  - apply (stays_below (fun u => s_phi (y u)) (PI / 2) T); auto; try lra; intros u Hu; [apply (S u Hu)|]. destruct (D u Hu) as (_ & C0 & _). intros E. apply C0. rewrite E. apply cos_PI2.
  - apply (stays_above (fun u => s_gamma (y u)) (- acos (-0.01)) T); auto; try lra; intros u Hu; [apply (S u Hu)|]. destruct (D u Hu) as (_ & _ & C0). intros E. apply C0. rewrite E, cos_neg. exact A.
  - apply (stays_below (fun u => s_gamma (y u)) (acos (-0.01)) T); auto; try lra; intros u Hu; [apply (S u Hu)|]. destruct (D u Hu) as (_ & _ & C0). intros E. apply C0. rewrite E. exact A.
Qed.
Definition rate_of (V : vehicle) (delta : R) (z : state) : R :=
  match a_sbar V (s_r z) (s_theta z) (s_phi z) (s_v z) delta with Ok a => a * s_v z | Err _ => 0 end.
Lemma run_rate : forall V delta y T, solves (fun z => EOM V z delta) y T -> exists l, forall t, 0 <= t <= T ->
  continuity_pt (fun u => jacobi_of (vh_planet V) (y u)) t /\
  (0 < t < T -> ~ In t l -> derivable_pt_lim (fun u => jacobi_of (vh_planet V) (y u)) t (rate_of V delta (y t))).
Proof.
  intros V delta y T (l & S). exists l. intros t Ht. destruct (S t Ht) as (C & d & HE & M). split.
  - apply jacobi_continuous; auto. apply (EOM_inv _ _ _ _ HE).
  - intros H1 H2. destruct (jacobi_rate _ _ _ _ _ HE (M H1 H2)) as (asb & Ea & D). unfold rate_of. rewrite Ea. exact D.
Qed.
Lemma run_energy : forall V delta y T t1 t2, solves (fun z => EOM V z delta) y T -> braking V -> (forall t, 0 <= t <= T -> 0 < s_v (y t)) ->
  0 <= t1 <= t2 -> t2 <= T -> jacobi_of (vh_planet V) (y t2) <= jacobi_of (vh_planet V) (y t1).
Proof.
  intros V delta y T t1 t2 S B Hv H1 H2. destruct (run_rate _ _ _ _ S) as (l & Q).
  apply (nonincreasing_corners (fun u => jacobi_of (vh_planet V) (y u)) (fun u => rate_of V delta (y u)) l); [lra|intros c Hc; apply Q; lra|].
  intros c Hc Hn. split; [apply Q; auto; lra|]. unfold rate_of.
  destruct (B (s_r (y c)) (s_theta (y c)) (s_phi (y c)) (s_v (y c)) delta) as (k & Hk & ->).
  assert (0 < s_v (y c)) by (apply Hv; lra). assert (0 <= k * s_v (y c) ^ 3) by (apply Rmult_le_pos; [auto|apply pow_le; lra]). lra.
Qed.
(** * Flights *)
Definition grid (ts : list R) (T : R) : Prop := Forall (fun t => 0 <= t <= T) ts /\ forall j k, (j <= k < length ts)%nat -> nth j ts 0 <= nth k ts 0.
Lemma grid_firstn : forall n ts T, grid ts T -> grid (firstn n ts) T.
Proof.
  intros n ts T (A & B). split.
  - apply Forall_forall. intros x Hx. apply (proj1 (Forall_forall _ _) A). rewrite <- (firstn_skipn n ts). apply in_or_app. auto.
  - intros j k Hk. rewrite firstn_length in Hk. rewrite !nth_firstn by lia. apply B. lia.
Qed.
Lemma grid_regular : forall ts step, 0 <= step -> (forall k, (k < length ts)%nat -> nth k ts 0 = INR k * step) -> grid ts (last ts 0).
Proof.
  intros ts step Hs Hn.
  assert (M : forall j k, (j <= k < length ts)%nat -> nth j ts 0 <= nth k ts 0).
  { intros j k Hk. rewrite !Hn by lia. apply Rmult_le_compat_r; auto. apply le_INR. lia. }
  split; auto. apply Forall_forall. intros x Hx. destruct (In_nth ts x 0 Hx) as (k & Hk & <-). split.
  - rewrite Hn by auto. apply Rmult_le_pos; auto. apply pos_INR.
  - rewrite last_is_nth. apply M. lia.
Qed.
(** What an exact integrator returns. *)
Definition exact_solver (solve : vehicle -> R -> state -> R -> R -> R -> res traj) : Prop :=
  forall V tol x0 t_sec dt delta c, 0 < tau (vh_planet V) -> 0 < dt -> solve V tol x0 t_sec dt delta = Ok c -> c_t c <> [] ->
  exists y T, y 0 = x0 /\ solves (fun z => EOM V z delta) y T /\ grid (c_t c) T /\ c = channels (c_t c) (map y (c_t c)).
Lemma exact_solver1 : forall E, exact E -> exact_solver (solveTrajectory E).
Proof.
  intros E (H1 & _) V tol x0 t_sec dt delta c Ht Hdt H Hne. unfold solveTrajectory in H.
  destruct (arange _ _) as [ts|] eqn:Ea; [|discriminate]. cbn [rbind] in H. destruct (odeint E _ _ _ _) as [xs|] eqn:Eo; [|discriminate].
  cbn [rbind] in H. injection H as <-. cbn [c_t channels] in *. destruct (arange_inv _ _ _ Ea) as (La & Na).
  assert (Hst : 0 < dt / tau (vh_planet V)) by (apply Rdiv_lt_0_compat; auto).
  assert (Hz : nth_error ts 0 = Some 0). { destruct ts as [|t ts]; [congruence|]. pose proof (Na 0%nat ltac:(cbn; lia)) as N. cbn in *. rewrite N. f_equal. ring. }
  destruct (H1 _ _ _ _ _ Hz Eo) as (y & Y0 & S & ->). exists y, (last ts 0). split; auto. split; auto. split; auto. apply (grid_regular ts _ (Rlt_le _ _ Hst) Na).
Qed.
Lemma exact_solver2 : forall E, engine_ok E -> exact E -> exact_solver (solveTrajectory2 E).
Proof.
  intros E (_ & K) (_ & H2) V tol x0 t_sec dt delta c Ht Hdt H Hne. unfold solveTrajectory2 in H.
  destruct (arange _ _) as [ts|] eqn:Ea; [|discriminate]. cbn [rbind] in H. destruct (arange_inv _ _ _ Ea) as (La & Na).
  assert (Hn : ts <> []) by (destruct ts; [discriminate|congruence]).
  assert (H' : (letr out := solve_ivp E (fun y => EOM V y delta) (last ts 0) x0 ts hit_EFPA_90 tol in Ok (channels (fst out) (snd out))) = Ok c)
    by (destruct ts; [congruence|exact H]). clear H.
  destruct (solve_ivp E _ _ _ _ _ _) as [[us xs]|] eqn:Eo; [|discriminate]. cbn [rbind fst snd] in H'. injection H' as <-. cbn [c_t channels] in *.
  destruct (K _ _ _ _ _ _ _ _ Eo) as (L & (n & ->) & F). 
  assert (Hst : 0 < dt / tau (vh_planet V)) by (apply Rdiv_lt_0_compat; auto).
  assert (Hz : nth_error ts 0 = Some 0). { destruct ts as [|t ts]; [congruence|]. pose proof (Na 0%nat ltac:(cbn; lia)) as N. cbn in *. rewrite N. f_equal. ring. }
  destruct (H2 _ _ _ _ _ _ _ _ Hz Eo) as (y & Y0 & S & ->). exists y, (last (firstn n ts) 0). split; auto. split; auto. split; auto.
  apply (grid_regular _ _ (Rlt_le _ _ Hst)). intros k Hk. rewrite firstn_length in Hk. rewrite nth_firstn by lia. apply Na. lia.
Qed.
(** The points a propagation stores lie on an exact solution from the initial conditions. *)
Lemma exact_flight : forall (two : bool) E name V i tol secs dt d o f, engine_ok E -> exact E -> Planet name = Ok (vh_planet V) -> 0 < dt ->
  (if two then propogateEntry2 else propogateEntry) E (mkObj V i tol None None) secs dt d = (o, Ok tt) -> ob_flight o = Some f ->
  let p := vh_planet V in
  exists y T ts, y 0 = entry_state p i /\ solves (fun z => EOM V z (deg d)) y T /\ grid ts T /\
    p_h (f_plot f) = map (fun t => (s_r (y t) * RP p - RP p) * 1e-3) ts /\ p_v (f_plot f) = map (fun t => s_v (y t) * Vref p * 1e-3) ts /\
    p_phi (f_plot f) = map (fun t => s_phi (y t) * 180 / PI) ts /\ p_gamma (f_plot f) = map (fun t => s_gamma (y t) * 180 / PI) ts.
Proof.
  intros two E name V i tol secs dt d o f HE HX HP Hdt H Hf p.
  assert (G : exists solve h0, solver_ok solve /\ exact_solver solve /\ store (mkObj V i tol None None) (fly solve V tol i secs dt d) h0 = (o, Ok tt)).
  { destruct two; [exists (solveTrajectory2 E), (heatLoad0 i)|exists (solveTrajectory E), 0]; (split; [auto using solver1_ok, solver2_ok|split; [auto using exact_solver1, exact_solver2|exact H]]). }
  destruct G as (solve & h0 & HK & HS & G). clear H. unfold store in G. destruct (fly _ _ _ _ _ _ _) as [f'|] eqn:Ef; [|discriminate].
  assert (f' = f). { destruct (ocumtrapz _ _ _); injection G as <-; [|discriminate]. cbn [ob_flight set_flight set_heat] in Hf. congruence. } subst f'. clear G.
  unfold fly in Ef. destruct (solve V tol (entry_state (vh_planet V) i) secs dt (deg d)) as [c|] eqn:Es; [|discriminate]. cbn [rbind] in Ef. fold p in Es.
  destruct (post_inv _ _ _ _ Ef) as (cls & qc & qr & A). cbv zeta in A. destruct A as (Ec & _ & _ & _ & Ep & _). fold p in Ec, Ep.
  destruct (ref_facts _ _ HP) as (_ & _ & Ht & _).
  assert (Hne : c_t c <> []).
  { intros Z. destruct (HK _ _ _ _ _ _ _ Es) as (n & (L1 & L2 & _) & _). rewrite Z in L1. cbn in L1. subst n. cbn [dimensionalize_traj c_r] in Ec.
    destruct (c_r c); [discriminate Ec|discriminate L2]. }
  destruct (HS V tol (entry_state p i) secs dt (deg d) c Ht Hdt Es Hne) as (y & T & Y0 & S & G & Ech).
  exists y, T, (firstn (fst cls) (c_t c)). split; auto. split; auto. split; [apply grid_firstn; auto|].
  rewrite Ep. rewrite Ech. cbn [p_h p_v p_phi p_gamma convertToPlotUnits dimensionalize_traj c_t c_r c_v c_phi c_gamma channels].
  rewrite !map_map, !firstn_map. repeat split; reflexivity.
Qed.
(** How far past the vertical cos = -0.01 is. *)
Lemma sin_low : forall x, 0 <= x <= 1 -> x - x^3/6 <= sin x.
Proof.
  intros x Hx. pose proof PI2_3_2. pose proof (pre_sin_bound x 0 (proj1 Hx) ltac:(lra)) as (H1 & _).
  unfold sin_approx, sum_f_R0, sin_term in H1. cbn in H1. lra.
Qed.
Lemma sin_up : forall x, 0 <= x <= 1 -> sin x <= x - x^3/6 + x^5/120.
Proof.
  intros x Hx. pose proof (pre_sin_bound x 0 (proj1 Hx) ltac:(lra)) as (_ & H1).
  unfold sin_approx, sum_f_R0, sin_term in H1. cbn in H1. lra.
Qed.
Lemma pi_low : 3.1 < PI.
Proof.
  destruct (Rlt_or_le 3.1 PI) as [L|L]; auto. exfalso. pose proof PI2_3_2. pose proof PI_RGT_0.
  assert (sin (PI / 6) <= sin (3.1 / 6)). { apply sin_incr_1; lra. }
  rewrite sin_PI6 in H1. pose proof (sin_up (3.1/6) ltac:(lra)). lra.
Qed.
Lemma acos_bounds : PI / 2 < acos (-0.01) < PI / 2 + PI / 300.
Proof.
  pose proof pi_low. pose proof PI_4. destruct (acos_bound (-0.01)) as (B1 & B2).
  assert (C : cos (acos (-0.01)) = -0.01) by (apply cos_acos; lra). set (a := acos (-0.01)) in *. split.
  - destruct (Rlt_or_le (PI/2) a); auto. exfalso. assert (0 <= cos a) by (apply cos_ge_0; lra). lra.
  - destruct (Rlt_or_le a (PI/2 + PI/300)); auto. exfalso.
    assert (cos a <= cos (PI/2 + PI/300)). { apply cos_decr_1; lra. }
    rewrite cos_plus, cos_PI2, sin_PI2 in H2. pose proof (sin_low (PI/300) ltac:(lra)).
    assert ((PI/300)^3 <= 0.00001). { apply Rle_trans with ((4/300)^3); [apply pow_incr; lra|lra]. } lra.
Qed.
