(** What a flight does and does not depend on, and its symmetries (C80-C83). *)
From Coq Require Import String List FunctionalExtensionality.
Require Import Verif.Base Verif.Numpy Verif.PlanetModel Verif.PlanetProofs Verif.AeroModel Verif.FlightProofs Verif.PropFlight
  Verif.HeatModel Verif.TrajectoryModel Verif.TrajectoryProofs Verif.PropTrajectory Verif.InvarianceSpec.

(** The two propagation methods as one, [two] selecting propogateEntry2. *)
Definition flown (two : bool) (E : engine) (V : vehicle) (i : init) (tol t_sec dt delta_deg : R) : vobj * res unit :=
  (if two then propogateEntry2 else propogateEntry) E (mkObj V i tol None None) t_sec dt delta_deg.

Lemma EOM_ext : forall V1 V2 d1 d2, vh_planet V1 = vh_planet V2 ->
  (forall r th ph v, a_sbar V1 r th ph v d1 = a_sbar V2 r th ph v d2) ->
  (forall r th ph v, a_nbar V1 r th ph v d1 = a_nbar V2 r th ph v d2) ->
  (forall r th ph v, a_wbar V1 r th ph v d1 = a_wbar V2 r th ph v d2) ->
  (fun y => EOM V1 y d1) = (fun y => EOM V2 y d2).
Proof. intros V1 V2 d1 d2 HP Hs Hn Hw. apply functional_extensionality. intros y. unfold EOM. rewrite HP, Hs, Hn, Hw. reflexivity. Qed.

Lemma solve_ext : forall (two : bool) E V1 V2 tol x0 t dt d1 d2, vh_planet V1 = vh_planet V2 -> (fun y => EOM V1 y d1) = (fun y => EOM V2 y d2) ->
  (if two then solveTrajectory2 else solveTrajectory) E V1 tol x0 t dt d1 = (if two then solveTrajectory2 else solveTrajectory) E V2 tol x0 t dt d2.
Proof. intros [] E V1 V2 tol x0 t dt d1 d2 HP HE; unfold solveTrajectory2, solveTrajectory; rewrite HP, HE; reflexivity. Qed.

(** What [post] computes from the cut channels, when it returns. *)
Lemma post_same : forall V1 V2 d1 d2 c (P : flight -> flight -> Prop), vh_planet V1 = vh_planet V2 ->
  (forall f g, post V1 d1 c = Ok f -> post V2 d2 c = Ok g -> same_path f g -> P f g) ->
  match post V1 d1 c, post V2 d2 c with Ok f, Ok g => P f g | Err a, Err b => a = b | _, _ => False end.
Proof.
  intros V1 V2 d1 d2 c P HP H. revert H. unfold post. rewrite HP. set (p := vh_planet V2).
  destruct (classifyTrajectory p _) as [cls|e]; cbn [rbind]; auto.
  unfold truncateTrajectory. unfold qStagConvective, qStagRadiative, heat_history. rewrite HP. fold p.
  destruct (con_law (ID p)); cbn [rbind]; auto. destruct (rad_law (ID p)); cbn [rbind]; auto.
  intros H. apply H; auto. unfold same_path. cbn [f_index f_exitflag f_si f_plot]. auto.
Qed.

Lemma heat_len : forall law V r v q, heat_history law V r v = Ok q -> length q = Nat.min (length r) (length v).
Proof.
  intros law V r v q H. unfold heat_history in H. destruct (law _); [|discriminate]. injection H as <-.
  rewrite map_length, combine_length. unfold rho_vec, rhovectorized. rewrite map_length. reflexivity.
Qed.
Lemma ocumtrapz_len : forall a b x i, length a = length b ->
  match ocumtrapz a x i, ocumtrapz b x i with Ok _, Ok _ => True | Err e, Err e' => e = e' | _, _ => False end.
Proof.
  intros [|y0 ys] [|z0 zs] [|x0 xs] i H; cbn [length] in H; try discriminate; cbn; auto.
  injection H as H. rewrite H. destruct (negb _); auto. destruct (negb _); auto.
Qed.
Lemma post_qtot : forall V d c f, post V d c = Ok f -> length (f_qtot f) = Nat.min (length (c_r (f_si f))) (length (c_v (f_si f))) /\
  f_acc_net f = computeAccelerationLoad V (c_r (f_si f)) (c_v (f_si f)) d /\
  f_acc_drag f = computeAccelerationDrag V (c_r (f_si f)) (c_v (f_si f)) d /\
  f_dyn f = map (fun x => x / 1.01325e5) (computeDynPres V (c_r (f_si f)) (c_v (f_si f))) /\
  f_stag f = map (fun x => x / 1.01325e5) (computeStagPres V (c_r (f_si f)) (c_v (f_si f))) /\
  qStagConvective V (c_r (f_si f)) (c_v (f_si f)) = Ok (f_qcon f) /\ qStagRadiative V (c_r (f_si f)) (c_v (f_si f)) = Ok (f_qrad f) /\
  f_qtot f = vsum (f_qcon f) (f_qrad f).
Proof.
  intros V d c f H. unfold post in H. destruct (classifyTrajectory _ _) as [cls|]; [|discriminate]. cbn [rbind] in H. unfold truncateTrajectory in H.
  destruct (qStagConvective _ _ _) as [qc|] eqn:Q1; [|discriminate]. cbn [rbind] in H.
  destruct (qStagRadiative _ _ _) as [qr|] eqn:Q2; [|discriminate]. cbn [rbind] in H. injection H as <-.
  cbn [f_qtot f_si c_r c_v f_acc_net f_acc_drag f_dyn f_stag f_qcon f_qrad]. repeat split; auto.
  unfold vsum. rewrite map_length, combine_length. rewrite (heat_len _ _ _ _ _ Q1), (heat_len _ _ _ _ _ Q2). apply Nat.min_id.
Qed.

(** Two flights whose equations of motion coincide. *)
Lemma flown_same : forall two E V1 V2 i tol t dt d1 d2 (P : flight -> flight -> Prop), vh_planet V1 = vh_planet V2 ->
  (forall r th ph v, a_sbar V1 r th ph v (deg d1) = a_sbar V2 r th ph v (deg d2)) ->
  (forall r th ph v, a_nbar V1 r th ph v (deg d1) = a_nbar V2 r th ph v (deg d2)) ->
  (forall r th ph v, a_wbar V1 r th ph v (deg d1) = a_wbar V2 r th ph v (deg d2)) ->
  (forall f g c, post V1 (deg d1) c = Ok f -> post V2 (deg d2) c = Ok g -> same_path f g -> P f g) ->
  same_outcome P (flown two E V1 i tol t dt d1) (flown two E V2 i tol t dt d2).
Proof.
  intros two E V1 V2 i tol t dt d1 d2 P HP Hs Hn Hw HPost.
  pose proof (EOM_ext V1 V2 (deg d1) (deg d2) HP Hs Hn Hw) as HE.
  pose proof (solve_ext two E V1 V2 tol (entry_state (vh_planet V2) i) t dt (deg d1) (deg d2) HP HE) as HS.
  assert (G : forall h0, same_outcome P (store (mkObj V1 i tol None None) (fly (if two then solveTrajectory2 E else solveTrajectory E) V1 tol i t dt d1) h0)
    (store (mkObj V2 i tol None None) (fly (if two then solveTrajectory2 E else solveTrajectory E) V2 tol i t dt d2) h0)).
  { intros h0. unfold fly. rewrite HP. replace ((if two then solveTrajectory2 E else solveTrajectory E) V1 tol (entry_state (vh_planet V2) i) t dt (deg d1))
      with ((if two then solveTrajectory2 E else solveTrajectory E) V2 tol (entry_state (vh_planet V2) i) t dt (deg d2)) by (destruct two; symmetry; exact HS).
    destruct ((if two then solveTrajectory2 E else solveTrajectory E) V2 tol (entry_state (vh_planet V2) i) t dt (deg d2)) as [c|e]; cbn [rbind].
    2: { unfold same_outcome. cbn. auto. }
    pose proof (post_same V1 V2 (deg d1) (deg d2) c (fun f g => P f g /\ same_path f g) HP (fun f g A B C => conj (HPost f g c A B C) C)) as Q.
    destruct (post V1 (deg d1) c) as [f|e1] eqn:F; destruct (post V2 (deg d2) c) as [g|e2] eqn:G; try contradiction.
    2: { subst. unfold same_outcome. cbn. auto. }
    destruct Q as [Q S]. destruct S as (_ & _ & S & _).
    assert (L : length (f_qtot f) = length (f_qtot g)).
    { destruct (post_qtot _ _ _ _ F) as [-> _], (post_qtot _ _ _ _ G) as [-> _]. rewrite S. reflexivity. }
    pose proof (ocumtrapz_len _ _ (c_t (f_si g)) h0 L) as K. unfold store. rewrite S.
    destruct (ocumtrapz (f_qtot f) _ _), (ocumtrapz (f_qtot g) _ _); try contradiction; unfold same_outcome; cbn; subst; auto. }
  unfold flown. destruct two; apply G.
Qed.

(** * C80 *)
Lemma vec_accels : forall mass beta LD A alpha RN p atm V r v delta, Vehicle mass beta LD A alpha RN p atm false = Ok V ->
  let dyn := map (fun q => 0.5 * fst q * snd q ^ 2) (combine (rhovectorized p (density_int atm) r) v) in
  a_svectorized V r v delta = map (fun q => - q / beta) dyn /\ a_nvectorized V r v delta = map (fun q => LD * q / beta * cos delta) dyn /\
  a_wvectorized V r v delta = map (fun q => LD * q / beta * sin delta) dyn /\ computeDynPres V r v = dyn.
Proof.
  intros mass beta LD A alpha RN p atm V r v delta H dyn.
  destruct (Vehicle_inv _ _ _ _ _ _ _ _ _ _ H) as (Hm & HbA & E1 & E2 & E3 & E4 & E5 & E6 & E7 & E8 & E9 & E10 & E11 & E12).
  assert (Hb : beta <> 0) by (intros ->; apply HbA; ring). assert (HA : A <> 0) by (intros ->; apply HbA; ring).
  unfold a_svectorized, a_nvectorized, a_wvectorized, computeDynPres, Dvectorized, Lvectorized, dyn, rho_vec. rewrite E1, E4, E6, E7, E10, E11, !map_map.
  repeat split; auto; apply map_ext; intros [a b]; cbn [fst snd]; field; auto.
Qed.
Lemma same_vec : forall m1 A1 al1 RN1 V1 m2 A2 al2 RN2 V2 beta LD p atm r v d1 d2,
  Vehicle m1 beta LD A1 al1 RN1 p atm false = Ok V1 -> Vehicle m2 beta LD A2 al2 RN2 p atm false = Ok V2 ->
  LD = 0 \/ (cos d1 = cos d2 /\ sin d1 = sin d2) ->
  computeAccelerationLoad V1 r v d1 = computeAccelerationLoad V2 r v d2 /\ computeAccelerationDrag V1 r v d1 = computeAccelerationDrag V2 r v d2 /\
  computeDynPres V1 r v = computeDynPres V2 r v /\ computeStagPres V1 r v = computeStagPres V2 r v.
Proof.
  intros m1 A1 al1 RN1 V1 m2 A2 al2 RN2 V2 beta LD p atm r v d1 d2 H1 H2 HD.
  destruct (vec_accels _ _ _ _ _ _ _ _ _ r v d1 H1) as (S1 & N1 & W1 & Y1). destruct (vec_accels _ _ _ _ _ _ _ _ _ r v d2 H2) as (S2 & N2 & W2 & Y2).
  destruct (Vehicle_inv _ _ _ _ _ _ _ _ _ _ H1) as (_ & _ & _ & _ & _ & _ & _ & P1 & T1 & _).
  destruct (Vehicle_inv _ _ _ _ _ _ _ _ _ _ H2) as (_ & _ & _ & _ & _ & _ & _ & P2 & T2 & _).
  unfold computeAccelerationLoad, computeAccelerationDrag, computeStagPres. rewrite S1, S2, N1, N2, W1, W2, Y1, Y2, P1, P2, T1, T2.
  set (dyn := map (fun q => 0.5 * fst q * snd q ^ 2) (combine (rhovectorized p (density_int atm) r) v)). clearbody dyn.
  assert (N : map (fun q => LD * q / beta * cos d1) dyn = map (fun q => LD * q / beta * cos d2) dyn).
  { apply map_ext. intros q. destruct HD as [-> | [-> _]]; unfold Rdiv; ring. }
  assert (W : map (fun q => LD * q / beta * sin d1) dyn = map (fun q => LD * q / beta * sin d2) dyn).
  { apply map_ext. intros q. destruct HD as [-> | [_ ->]]; unfold Rdiv; ring. }
  rewrite N, W. auto.
Qed.
Lemma same_bar : forall name m1 A1 al1 RN1 V1 m2 A2 al2 RN2 V2 beta LD p atm r th ph v d1 d2, Planet name = Ok p ->
  Vehicle m1 beta LD A1 al1 RN1 p atm false = Ok V1 -> Vehicle m2 beta LD A2 al2 RN2 p atm false = Ok V2 ->
  LD = 0 \/ (cos d1 = cos d2 /\ sin d1 = sin d2) ->
  a_sbar V1 r th ph v d1 = a_sbar V2 r th ph v d2 /\ a_nbar V1 r th ph v d1 = a_nbar V2 r th ph v d2 /\ a_wbar V1 r th ph v d1 = a_wbar V2 r th ph v d2.
Proof.
  intros name m1 A1 al1 RN1 V1 m2 A2 al2 RN2 V2 beta LD p atm r th ph v d1 d2 HP H1 H2 HD.
  destruct (Planet_facts _ _ HP) as (HRP & _ & Hr0 & _).
  destruct (bar_accels _ _ _ _ _ _ _ _ _ r th ph v d1 H1 HRP Hr0) as (-> & -> & ->).
  destruct (bar_accels _ _ _ _ _ _ _ _ _ r th ph v d2 H2 HRP Hr0) as (-> & -> & ->).
  split; [reflexivity|]. destruct HD as [-> | [-> ->]]; split; ring.
Qed.
Lemma heat_same : forall law V1 V2 r v, vh_planet V1 = vh_planet V2 -> vh_atm V1 = vh_atm V2 -> vh_RN V1 = vh_RN V2 ->
  heat_history law V1 r v = heat_history law V2 r v.
Proof. intros law V1 V2 r v A B C. unfold heat_history, rho_vec. rewrite A, B, C. reflexivity. Qed.

(** Two vehicles with the same ballistic coefficient and lift-to-drag ratio, in the same atmosphere, fly the same
    trajectory with the same loads and pressures, whatever their masses, areas, angles of attack and nose radii. *)
Theorem C80_mass_and_area : forall name p atm beta LD m1 A1 al1 RN1 V1 m2 A2 al2 RN2 V2 two E i tol t dt delta,
  Planet name = Ok p -> Vehicle m1 beta LD A1 al1 RN1 p atm false = Ok V1 -> Vehicle m2 beta LD A2 al2 RN2 p atm false = Ok V2 ->
  same_outcome (fun f g => same_path f g /\ same_loads f g /\ f_stag f = f_stag g /\ (RN1 = RN2 -> same_heating f g))
    (flown two E V1 i tol t dt delta) (flown two E V2 i tol t dt delta).
Proof.
  intros name p atm beta LD m1 A1 al1 RN1 V1 m2 A2 al2 RN2 V2 two E i tol t dt delta HP H1 H2.
  destruct (Vehicle_inv _ _ _ _ _ _ _ _ _ _ H1) as (_ & _ & _ & _ & _ & _ & R1 & P1 & T1 & _).
  destruct (Vehicle_inv _ _ _ _ _ _ _ _ _ _ H2) as (_ & _ & _ & _ & _ & _ & R2 & P2 & T2 & _).
  pose proof (fun r th ph v => same_bar _ _ _ _ _ _ _ _ _ _ _ _ _ _ _ r th ph v (deg delta) (deg delta) HP H1 H2 (or_intror (conj eq_refl eq_refl))) as B.
  apply flown_same; try (intros; apply B); [congruence|].
  intros f g c F G (I1 & I2 & I3 & I4). destruct (post_qtot _ _ _ _ F) as (_ & F1 & F2 & F3 & F4 & F5 & F6 & F7).
  destruct (post_qtot _ _ _ _ G) as (_ & G1 & G2 & G3 & G4 & G5 & G6 & G7). rewrite I3 in F1, F2, F3, F4, F5, F6.
  destruct (same_vec _ _ _ _ _ _ _ _ _ _ _ _ _ _ (c_r (f_si g)) (c_v (f_si g)) (deg delta) (deg delta) H1 H2 (or_intror (conj eq_refl eq_refl))) as (L1 & L2 & L3 & L4).
  split; [unfold same_path; auto|]. split; [unfold same_loads; rewrite F1, F2, F3, G1, G2, G3, L1, L2, L3; auto|].
  split; [rewrite F4, G4, L4; reflexivity|]. intros HR.
  unfold qStagConvective, qStagRadiative in *. rewrite (heat_same _ V1 V2) in F5 by congruence. rewrite (heat_same _ V1 V2) in F6 by congruence.
  assert (f_qcon f = f_qcon g) by congruence. assert (f_qrad f = f_qrad g) by congruence. unfold same_heating. rewrite F7, G7. intuition congruence.
Qed.
(** The stored flights are equal in full, and so is the whole result, when the nose radius is the same too. *)
Theorem C80_same_nose_radius : forall name p atm beta LD m1 A1 al1 RN V1 m2 A2 al2 V2 two E i tol t dt delta,
  Planet name = Ok p -> Vehicle m1 beta LD A1 al1 RN p atm false = Ok V1 -> Vehicle m2 beta LD A2 al2 RN p atm false = Ok V2 ->
  let a := flown two E V1 i tol t dt delta in let b := flown two E V2 i tol t dt delta in
  snd a = snd b /\ ob_flight (fst a) = ob_flight (fst b) /\ ob_heat (fst a) = ob_heat (fst b).
Proof.
  intros name p atm beta LD m1 A1 al1 RN V1 m2 A2 al2 V2 two E i tol t dt delta HP H1 H2 a b.
  pose proof (C80_mass_and_area _ _ _ _ _ _ _ _ _ _ _ _ _ _ _ two E i tol t dt delta HP H1 H2) as [S Q]. fold a in S, Q. fold b in S, Q.
  assert (EF : ob_flight (fst a) = ob_flight (fst b)).
  { destruct (ob_flight (fst a)) as [f|], (ob_flight (fst b)) as [g|]; try contradiction; auto.
    destruct Q as ((A & B & C & D) & (F & G & H) & I & J). destruct (J eq_refl) as (K & L & M). destruct f, g. cbn in *. subst. reflexivity. }
  split; [exact S|]. split; [exact EF|]. clear Q.
  assert (G : forall h0 V fl, (let o := fst (store (mkObj V i tol None None) fl h0) in
     ob_heat o = match ob_flight o with Some f => match ocumtrapz (f_qtot f) (c_t (f_si f)) h0 with Ok h => Some h | Err _ => None end | None => None end)).
  { intros h0 V fl. cbv zeta. unfold store. destruct fl as [f|e]; cbn; auto. destruct (ocumtrapz (f_qtot f) (c_t (f_si f)) h0) eqn:Q; cbn; rewrite Q; auto. }
  unfold a, b in *. unfold flown in *. destruct two; unfold propogateEntry, propogateEntry2 in *; rewrite !G, EF; reflexivity.
Qed.

(** * C81 *)
Lemma flown_eq : forall name p atm mass beta LD A alpha RN V two E i tol t dt d1 d2,
  Planet name = Ok p -> Vehicle mass beta LD A alpha RN p atm false = Ok V ->
  LD = 0 \/ (cos (deg d1) = cos (deg d2) /\ sin (deg d1) = sin (deg d2)) ->
  flown two E V i tol t dt d1 = flown two E V i tol t dt d2.
Proof.
  intros name p atm mass beta LD A alpha RN V two E i tol t dt d1 d2 HP HV HD.
  pose proof (fun r th ph v => same_bar _ _ _ _ _ _ _ _ _ _ _ _ _ _ _ r th ph v (deg d1) (deg d2) HP HV HV HD) as B.
  assert (HE : (fun y => EOM V y (deg d1)) = (fun y => EOM V y (deg d2))) by (apply EOM_ext; auto; intros; apply B).
  pose proof (fun r v => same_vec _ _ _ _ _ _ _ _ _ _ _ _ _ _ r v (deg d1) (deg d2) HV HV HD) as HW.
  assert (HQ : forall c, post V (deg d1) c = post V (deg d2) c).
  { intros c. unfold post. destruct (classifyTrajectory _ _); cbn [rbind]; auto. unfold truncateTrajectory.
    match goal with |- context [computeAccelerationLoad V ?x ?y _] => destruct (HW x y) as (-> & -> & _) end. reflexivity. }
  unfold flown. destruct two; unfold propogateEntry, propogateEntry2; cbn [ob_veh ob_init ob_tol]; f_equal; unfold fly, solveTrajectory, solveTrajectory2; rewrite HE.
  - destruct (arange _ _) as [a|]; cbn [rbind]; auto. destruct a; auto. destruct (solve_ivp _ _ _ _ _ _ _) as [[a0 a2]|]; cbn [rbind]; auto.
  - destruct (arange _ _); cbn [rbind]; auto. destruct (odeint _ _ _ _ _); cbn [rbind]; auto.
Qed.
(** A vehicle without lift flies the same way at every bank angle. *)
Theorem C81_ballistic_ignores_bank : forall name p atm mass beta A alpha RN V two E i tol t dt d1 d2,
  Planet name = Ok p -> Vehicle mass beta 0 A alpha RN p atm false = Ok V ->
  flown two E V i tol t dt d1 = flown two E V i tol t dt d2.
Proof. intros. eapply flown_eq; eauto. Qed.
(** Every vehicle flies the same way at bank angles a whole number of turns apart. *)
Theorem C81_bank_is_an_angle : forall name p atm mass beta LD A alpha RN V two E i tol t dt d (k : nat),
  Planet name = Ok p -> Vehicle mass beta LD A alpha RN p atm false = Ok V ->
  flown two E V i tol t dt (d + 360 * INR k) = flown two E V i tol t dt d.
Proof.
  intros. eapply flown_eq; eauto. right. unfold deg. replace ((d + 360 * INR k) * PI / 180) with (d * PI / 180 + 2 * INR k * PI) by field.
  split; [apply cos_period|apply sin_period].
Qed.
(** With lift and air the bank angle matters: opposite banks turn the heading in opposite directions. *)
Theorem C81_lift_turns : forall name p atm mass beta LD A alpha RN V r th ph v d, Planet name = Ok p ->
  Vehicle mass beta LD A alpha RN p atm false = Ok V ->
  a_wbar V r th ph v (- d) = - a_wbar V r th ph v d /\ a_nbar V r th ph v (- d) = a_nbar V r th ph v d /\
  (a_wbar V r th ph v d = 0 <-> LD = 0 \/ density p (density_int atm) (r * RP p - RP p) = 0 \/ v = 0 \/ sin d = 0).
Proof.
  intros name p atm mass beta LD A alpha RN V r th ph v d HP HV. destruct (Planet_facts _ _ HP) as (HRP & _ & Hr0 & _).
  destruct (bar_accels _ _ _ _ _ _ _ _ _ r th ph v d HV HRP Hr0) as (_ & -> & ->). destruct (bar_accels _ _ _ _ _ _ _ _ _ r th ph v (- d) HV HRP Hr0) as (_ & -> & ->).
  destruct (Vehicle_inv _ _ _ _ _ _ _ _ _ _ HV) as (_ & HbA & _). assert (Hb : beta <> 0) by (intros ->; apply HbA; ring).
  rewrite sin_neg, cos_neg. split; [ring|]. split; [ring|]. unfold drag_coeff. set (q := density _ _ _).
  split.
  - intros H. apply Rmult_integral in H. destruct H as [H|H]; auto. apply Rmult_integral in H. destruct H as [H|H]; auto.
    apply Rmult_integral in H. destruct H as [H|H].
    + right. left. unfold Rdiv in H. apply Rmult_integral in H. destruct H as [H|H].
      * apply Rmult_integral in H. destruct H as [H|H]; [exact H|exfalso; lra].
      * exfalso. assert (K : 2 * beta <> 0) by (intros K; apply Hb; lra). exact (Rinv_neq_0_compat _ K H).
    + right. right. left. destruct (Req_EM_T v 0) as [|N]; auto. exfalso. exact (pow_nonzero v 2 N H).
  - intros [-> | [-> | [-> | ->]]]; unfold Rdiv; ring.
Qed.

(** * C82 *)
Definition same_air (p : planet) (a b : atmosphere) : Prop := forall h, 0 <= h <= h_thres p -> density_int a h = density_int b h.
Lemma density_same : forall p a b h, same_air p a b -> density p (density_int a) h = density p (density_int b) h.
Proof. intros p a b h H. unfold density. rcases; cbn [andb]; auto. Qed.
(** The points a flight kept all lie between the surface and the top of the atmosphere. *)
Definition kept_inside (p : planet) (f : flight) : Prop := Forall (fun r => 0 <= r - RP p <= h_thres p) (c_r (f_si f)).
Lemma rho_same : forall p a b r, same_air p a b -> Forall (fun x => 0 <= x - RP p <= h_thres p) r ->
  rhovectorized p (density_int a) r = rhovectorized p (density_int b) r.
Proof. intros p a b r H HF. unfold rhovectorized. induction HF; cbn [map]; auto. rewrite IHHF, (H _ H0). reflexivity. Qed.
Lemma kept : forall name V d c f, Planet name = Ok (vh_planet V) -> post V d c = Ok f -> f_exitflag f = 1 \/ f_exitflag f = 0 -> kept_inside (vh_planet V) f.
Proof.
  intros name V d c f HP H HX. destruct (Planet_facts _ _ HP) as (_ & _ & _ & _ & (Ht & Hts) & Hth & _).
  unfold post in H. destruct (classifyTrajectory _ _) as [[idx fl]|] eqn:C; [|discriminate]. cbn [rbind] in H. unfold truncateTrajectory in H.
  destruct (qStagConvective _ _ _) as [qc|] eqn:Q1; [|discriminate]. cbn [rbind] in H.
  destruct (qStagRadiative _ _ _) as [qr|] eqn:Q2; [|discriminate]. cbn [rbind] in H. injection H as <-.
  cbn [f_exitflag snd fst f_si c_r] in *. unfold kept_inside. cbn [f_si c_r fst].
  destruct (C42_retained _ _ _ _ _ HP C) as (L & K1 & _ & K0 & _).
  apply Forall_forall. intros x Hx. apply In_nth with (d := 0) in Hx. destruct Hx as (k & Hk & <-). rewrite firstn_length in Hk.
  rewrite nth_firstn by lia. destruct HX as [-> | ->].
  - specialize (K1 eq_refl k ltac:(lia)). rewrite Hth. exact K1.
  - destruct (K0 eq_refl k ltac:(lia)) as [Ka Kb]. rewrite Hth. split; [eapply Rle_trans; [|exact Ka]; apply Rlt_le; exact Ht|exact Kb].
Qed.

(** Of the atmosphere the trajectory sees only the density between the surface and the top of the atmosphere: what a
    table holds elsewhere, and its temperatures, pressures and sound speeds, do not matter.  The loads and heating
    rates are the same too when the kept points lie in that range; in particular whenever the vehicle left the atmosphere
    or was still in it at the end. *)
Theorem C82_only_air_inside : forall name p atm1 atm2 mass beta LD A alpha RN V1 V2 two E i tol t dt delta, Planet name = Ok p -> same_air p atm1 atm2 ->
  Vehicle mass beta LD A alpha RN p atm1 false = Ok V1 -> Vehicle mass beta LD A alpha RN p atm2 false = Ok V2 ->
  same_outcome (fun f g => same_path f g /\ (kept_inside p f -> same_loads f g /\ same_heating f g) /\ (f_exitflag f = 1 \/ f_exitflag f = 0 -> kept_inside p f))
    (flown two E V1 i tol t dt delta) (flown two E V2 i tol t dt delta).
Proof.
  intros name p atm1 atm2 mass beta LD A alpha RN V1 V2 two E i tol t dt delta HP HA H1 H2.
  destruct (Vehicle_inv _ _ _ _ _ _ _ _ _ _ H1) as (Hm & HbA & M1 & B1 & L1 & A1 & R1 & P1 & T1 & U1 & MB1 & C1 & CL1 & AB1).
  destruct (Vehicle_inv _ _ _ _ _ _ _ _ _ _ H2) as (_ & _ & M2 & B2 & L2 & A2 & R2 & P2 & T2 & U2 & MB2 & C2 & CL2 & AB2).
  destruct (Planet_facts _ _ HP) as (HRP & _ & Hr0 & _).
  assert (HK : forall r, drag_coeff p atm1 beta r = drag_coeff p atm2 beta r) by (intros; unfold drag_coeff; rewrite (density_same p atm1 atm2) by auto; reflexivity).
  apply flown_same; [congruence| | | |].
  1-3: intros r th ph v; destruct (bar_accels _ _ _ _ _ _ _ _ _ r th ph v (deg delta) H1 HRP Hr0) as (X1 & Y1 & Z1);
    destruct (bar_accels _ _ _ _ _ _ _ _ _ r th ph v (deg delta) H2 HRP Hr0) as (X2 & Y2 & Z2); rewrite HK in *; congruence.
  intros f g c F G (I1 & I2 & I3 & I4). destruct (post_qtot _ _ _ _ F) as (_ & F1 & F2 & F3 & F4 & F5 & F6 & F7).
  destruct (post_qtot _ _ _ _ G) as (_ & G1 & G2 & G3 & G4 & G5 & G6 & G7).
  split; [unfold same_path; auto|]. split.
  2: { rewrite <- P1. eapply kept; [rewrite P1|]; eauto. }
  intros HI. unfold kept_inside in HI. pose proof (rho_same p atm1 atm2 _ HA HI) as HR. rewrite I3 in F1, F2, F3, F4, F5, F6, HR.
  set (r := c_r (f_si g)) in *. set (v := c_v (f_si g)) in *.
  destruct (vec_accels _ _ _ _ _ _ _ _ _ r v (deg delta) H1) as (S1 & N1 & W1 & Y1). destruct (vec_accels _ _ _ _ _ _ _ _ _ r v (deg delta) H2) as (S2 & N2 & W2 & Y2).
  rewrite HR in S1, N1, W1, Y1.
  unfold computeAccelerationLoad, computeAccelerationDrag in *. rewrite S1, N1, W1 in *. rewrite S2, N2, W2 in *. rewrite Y1 in F3. rewrite Y2 in G3.
  split; [unfold same_loads; rewrite F1, F2, F3, G1, G2, G3; auto|].
  assert (HH : forall law, heat_history law V1 r v = heat_history law V2 r v).
  { intros law. unfold heat_history, rho_vec. rewrite P1, P2, T1, T2, R1, R2, HR. reflexivity. }
  unfold qStagConvective, qStagRadiative in *. rewrite HH in F5, F6.
  assert (f_qcon f = f_qcon g) by congruence. assert (f_qrad f = f_qrad g) by congruence. unfold same_heating. rewrite F7, G7. intuition congruence.
Qed.

(** * C83 *)
(** The mirror image of a state in the equatorial plane, and a state turned about the axis. *)
Definition mirror (y : state) : state := mkState (s_r y) (s_theta y) (- s_phi y) (s_v y) (- s_psi y) (s_gamma y) (s_drange y).
Definition turn (c : R) (y : state) : state := mkState (s_r y) (s_theta y + c) (s_phi y) (s_v y) (s_psi y) (s_gamma y) (s_drange y).

(** Longitude does not matter: a trajectory turned about the axis is a trajectory. *)
Theorem C83_longitude : forall V delta c y t, flies V delta y t -> flies V delta (fun u => turn c (y u)) t.
Proof.
  intros V delta c y t (d & HE & H1 & H2 & H3 & H4 & H5 & H6 & H7). exists d. split; [exact HE|].
  unfold turn. cbn [s_r s_theta s_phi s_v s_psi s_gamma s_drange]. repeat split; auto.
  replace (s_theta d) with (s_theta d + 0) by ring. apply derivable_pt_lim_plus; auto. apply derivable_pt_lim_const.
Qed.
(** A planet without the odd zonal term: the mirror image of a trajectory, flown with the opposite bank, is a trajectory. *)
Theorem C83_mirror : forall V delta y t, J3 (vh_planet V) = 0 -> flies V delta y t -> flies V (fun u => - delta u) (fun u => mirror (y u)) t.
Proof.
  intros V delta y t HJ (d & HE & H1 & H2 & H3 & H4 & H5 & H6 & H7). exists (mirror d). split.
  - assert (N1 : forall x y, np_div (- x) y = match np_div x y with Some a => Some (- a) | None => None end).
    { intros a b. unfold np_div. destruct (Reqb b 0); auto. f_equal. unfold Rdiv. ring. }
    destruct (EOM_inv _ _ _ _ HE) as (R0 & V0 & C0 & G0 & asb & Hs & ->).
    set (p := vh_planet V) in *. set (q := y t) in *.
    assert (HS : a_sbar V (s_r q) (s_theta q) (- s_phi q) (s_v q) (- delta t) = Ok asb) by exact Hs.
    assert (HN : a_nbar V (s_r q) (s_theta q) (- s_phi q) (s_v q) (- delta t) = a_nbar V (s_r q) (s_theta q) (s_phi q) (s_v q) (delta t)).
    { unfold a_nbar. rewrite cos_neg. reflexivity. }
    assert (HW : a_wbar V (s_r q) (s_theta q) (- s_phi q) (s_v q) (- delta t) = - a_wbar V (s_r q) (s_theta q) (s_phi q) (s_v q) (delta t)).
    { unfold a_wbar. rewrite sin_neg. change (Lbar V (s_r q) (s_theta q) (- s_phi q) (s_v q)) with (Lbar V (s_r q) (s_theta q) (s_phi q) (s_v q)). unfold Rdiv. ring. }
    unfold EOM, mirror. cbn [s_r s_theta s_phi s_v s_psi s_gamma s_drange]. rewrite HS. cbn [rbind]. f_equal.
    fold p. unfold gsbar, gnbar, gwbar, grbar, gphibar, gthetabar, cfpsibar, cfgammabar, copsibar, cogammabar, cfvbar.
    rewrite HN, HW.
    rewrite !cos_neg, !sin_neg.
    assert (D : forall x y, y <> 0 -> np_div x y = Some (x / y)) by (intros a b Hb; unfold np_div; rcases; congruence).
    assert (M1 : s_r q * cos (s_phi q) <> 0) by (apply Rmult_integral_contrapositive; auto).
    assert (M2 : s_v q * (cos (s_gamma q) + 1e-2) <> 0) by (apply Rmult_integral_contrapositive; auto).
    rewrite !D by (auto using pow_nonzero). cbn [obind]. rewrite !D by (auto using pow_nonzero). cbn [obind]. f_equal.
    unfold gr_of, gp_of. rewrite HJ. f_equal; field; repeat split; auto; intros K; apply G0; lra.
  - unfold mirror. cbn [s_r s_theta s_phi s_v s_psi s_gamma s_drange]. repeat split; auto; apply derivable_pt_lim_opp; auto.
Qed.
(** Which planets of the catalogue have that symmetry. *)
Theorem C83_which_planets : forall name p, Planet name = Ok p ->
  (J3 p = 0 <-> name = "VENUS" \/ name = "JUPITER" \/ name = "SATURN" \/ name = "URANUS" \/ name = "NEPTUNE")%string.
Proof.
  intros name p H. unfold Planet in H.
  repeat match type of H with context [string_dec ?a ?b] => destruct (string_dec a b) as [->|] end; try discriminate H; injection H as <-; simpl; split; intros K; auto 6; try lra;
  repeat (destruct K as [K|K]; [discriminate K|]); discriminate K.
Qed.
(** Otherwise it is broken: heading north over the equator the vehicle gains speed at a rate that differs from that of
    its mirror image, heading south, by 3 J3 / r^5. *)
Theorem C83_odd_term_breaks_it : forall name p atm mass beta LD A alpha RN V r th v delta, Planet name = Ok p ->
  Vehicle mass beta LD A alpha RN p atm false = Ok V -> r <> 0 -> v <> 0 ->
  let y := mkState r th 0 v (PI / 2) 0 0 in
  exists d d', EOM V y delta = Ok (Some d) /\ EOM V (mirror y) (- delta) = Ok (Some d') /\ s_v d - s_v d' = 3 * J3 p / r ^ 5.
Proof.
  intros name p atm mass beta LD A alpha RN V r th v delta HP HV Hr Hv y.
  destruct (Planet_facts _ _ HP) as (HRP & _ & Hr0 & _).
  destruct (bar_accels _ _ _ _ _ _ _ _ _ r th 0 v delta HV HRP Hr0) as (S1 & _). destruct (bar_accels _ _ _ _ _ _ _ _ _ r th (-0) v (- delta) HV HRP Hr0) as (S2 & _).
  destruct (Vehicle_inv _ _ _ _ _ _ _ _ _ _ HV) as (_ & _ & _ & _ & _ & _ & _ & P1 & _).
  assert (D : forall x y, y <> 0 -> np_div x y = Some (x / y)) by (intros a b Hb; unfold np_div; rcases; congruence).
  assert (M1 : r * 1 <> 0) by (rewrite Rmult_1_r; auto). assert (M3 : 1 + 1e-2 <> 0) by lra.
  assert (M2 : v * (1 + 1e-2) <> 0) by (apply Rmult_integral_contrapositive; auto).
  unfold y, mirror, EOM. cbn [s_r s_theta s_phi s_v s_psi s_gamma s_drange]. rewrite S1, S2, P1. cbn [rbind].
  unfold gsbar, gnbar, gwbar, grbar, gphibar, gthetabar, cfpsibar, cfgammabar, copsibar, cogammabar, cfvbar. rewrite !cos_neg, !sin_neg, cos_0, sin_0, cos_PI2, sin_PI2.
  rewrite !D by (auto using pow_nonzero). cbn [obind]. rewrite !D by (auto using pow_nonzero; lra). cbn [obind].
  do 2 eexists. split; [reflexivity|]. split; [reflexivity|]. cbn [s_v]. replace 1.5 with (3 / 2) by lra. field. auto.
Qed.

(** Non-vacuity: two different vehicles with the same ballistic coefficient, and an integrator. *)
Definition thin_air : atmosphere := mkAtm (fun h => 1 / (1 + h * h)) (fun _ => 200) (fun h => 5) (fun _ => 300).
Example C80_witness : exists V1 V2, Vehicle 1000 100 0.25 5 0 1 VENUS thin_air false = Ok V1 /\ Vehicle 300 100 0.25 2 0 1 VENUS thin_air false = Ok V2 /\ V1 <> V2.
Proof.
  unfold Vehicle. rcases; try lra. do 2 eexists. split; [reflexivity|]. split; [reflexivity|]. intros H. apply (f_equal vh_mass) in H. cbn in H. lra.
Qed.
Example C82_witness : exists a b, same_air EARTH a b /\ density_int a 200000 <> density_int b 200000.
Proof.
  exists thin_air, (mkAtm (fun h => if Rltb 120e3 h then 0 else 1 / (1 + h * h)) (fun _ => 210) (fun h => 6) (fun _ => 300)). split.
  - intros h Hh. cbn in *. rcases; auto. lra.
  - cbn [density_int thin_air]. assert (0 < 1 / (1 + 200000 * 200000)) by (apply Rdiv_lt_0_compat; lra). destruct (Rltb_spec 120e3 200000) as [L|L]; [apply Rgt_not_eq; exact H|exfalso; lra].
Qed.
