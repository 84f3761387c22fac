(** Uniqueness of the solutions of the equations of motion inside the atmosphere. *)
From Coq Require Import String List Classical_Prop.
Require Import Verif.Base Verif.Numpy Verif.PlanetModel Verif.AeroModel Verif.TrajectoryModel Verif.PlanetProofs Verif.FlightProofs Verif.TrajectorySpec Verif.TrajectoryProofs Verif.ExactSpec Verif.ExactProofs Verif.DetSpec.
Import ListNotations.
Local Open Scope R_scope.

Definition dist (a b : state) : R :=
  Rabs (s_r a - s_r b) + Rabs (s_theta a - s_theta b) + Rabs (s_phi a - s_phi b) + Rabs (s_v a - s_v b) + Rabs (s_psi a - s_psi b) +
  Rabs (s_gamma a - s_gamma b) + Rabs (s_drange a - s_drange b).
Ltac absall := repeat match goal with |- context [Rabs ?x] => lazymatch goal with H : 0 <= Rabs x |- _ => fail | _ => pose proof (Rabs_pos x) end | H : context [Rabs ?x] |- _ => lazymatch goal with H' : 0 <= Rabs x |- _ => fail | _ => pose proof (Rabs_pos x) end end.
Lemma dist_pos : forall a b, 0 <= dist a b.
Proof. intros. unfold dist. absall. lra. Qed.
Lemma dist_self : forall a, dist a a = 0.
Proof. intros. unfold dist. rewrite !Rminus_diag_eq, Rabs_R0 by auto. ring. Qed.
(** Lipschitz near a state. *)
Definition loclip (F : state -> R) (x : state) : Prop :=
  exists e L, 0 < e /\ 0 <= L /\ forall a b, dist x a < e -> dist x b < e -> Rabs (F a - F b) <= L * dist a b.
Lemma ll_const : forall c x, loclip (fun _ => c) x.
Proof. intros. exists 1, 0. split; [lra|]. split; [lra|]. intros. rewrite Rminus_diag_eq, Rabs_R0 by auto. lra. Qed.
Lemma ll_proj : forall (F : state -> R) x, (forall a b, Rabs (F a - F b) <= dist a b) -> loclip F x.
Proof. intros. exists 1, 1. split; [lra|]. split; [lra|]. intros. rewrite Rmult_1_l. auto. Qed.
Lemma ll_lip : forall g F x, (forall a b, Rabs (g a - g b) <= Rabs (a - b)) -> loclip F x -> loclip (fun a => g (F a)) x.
Proof. intros g F x G (e & L & He & HL & H). exists e, L. split; auto. split; auto. intros. eapply Rle_trans; [apply G|auto]. Qed.
Lemma ll_plus : forall F G x, loclip F x -> loclip G x -> loclip (fun a => F a + G a) x.
Proof.
  intros F G x (e & L & He & HL & H) (e' & L' & He' & HL' & H'). exists (Rmin e e'), (L + L'). split; [apply Rmin_glb_lt; auto|]. split; [lra|].
  intros a b Ha Hb. pose proof (Rmin_l e e'). pose proof (Rmin_r e e').
  replace (F a + G a - (F b + G b)) with (F a - F b + (G a - G b)) by ring. eapply Rle_trans; [apply Rabs_triang|].
  specialize (H a b ltac:(lra) ltac:(lra)). specialize (H' a b ltac:(lra) ltac:(lra)). lra.
Qed.
Lemma ll_opp : forall F x, loclip F x -> loclip (fun a => - F a) x.
Proof. intros F x H. apply (ll_lip Ropp); auto. intros. replace (- a - - b) with (- (a - b)) by ring. rewrite Rabs_Ropp. lra. Qed.
Lemma ll_minus : forall F G x, loclip F x -> loclip G x -> loclip (fun a => F a - G a) x.
Proof. intros. apply (ll_plus F (fun a => - G a)); auto using ll_opp. Qed.
Lemma ll_bound : forall F x, loclip F x -> exists e M, 0 < e /\ 0 <= M /\ forall a, dist x a < e -> Rabs (F a) <= M.
Proof.
  intros F x (e & L & He & HL & H). exists e, (Rabs (F x) + L * e). split; auto. split; [pose proof (Rabs_pos (F x)); nra|].
  intros a Ha. specialize (H x a ltac:(rewrite dist_self; auto) Ha). pose proof (dist_pos x a).
  replace (F a) with (F x + - (F x - F a)) by ring. eapply Rle_trans; [apply Rabs_triang|]. rewrite Rabs_Ropp. nra.
Qed.
Lemma ll_mult : forall F G x, loclip F x -> loclip G x -> loclip (fun a => F a * G a) x.
Proof.
  intros F G x HF HG. destruct (ll_bound F x HF) as (e1 & M1 & He1 & HM1 & B1). destruct (ll_bound G x HG) as (e2 & M2 & He2 & HM2 & B2).
  destruct HF as (e & L & He & HL & H). destruct HG as (e' & L' & He' & HL' & H').
  exists (Rmin (Rmin e e') (Rmin e1 e2)), (M1 * L' + M2 * L). split; [repeat apply Rmin_glb_lt; auto|]. split; [nra|].
  intros a b Ha Hb. pose proof (Rmin_l e e'). pose proof (Rmin_r e e'). pose proof (Rmin_l e1 e2). pose proof (Rmin_r e1 e2).
  pose proof (Rmin_l (Rmin e e') (Rmin e1 e2)). pose proof (Rmin_r (Rmin e e') (Rmin e1 e2)).
  specialize (H a b ltac:(lra) ltac:(lra)). specialize (H' a b ltac:(lra) ltac:(lra)). specialize (B1 a ltac:(lra)). specialize (B2 b ltac:(lra)).
  replace (F a * G a - F b * G b) with (F a * (G a - G b) + G b * (F a - F b)) by ring. eapply Rle_trans; [apply Rabs_triang|]. rewrite !Rabs_mult.
  pose proof (Rabs_pos (F a)). pose proof (Rabs_pos (G b)). pose proof (Rabs_pos (G a - G b)). pose proof (Rabs_pos (F a - F b)). pose proof (dist_pos a b).
  assert (Rabs (F a) * Rabs (G a - G b) <= M1 * (L' * dist a b)) by (apply Rmult_le_compat; auto).
  assert (Rabs (G b) * Rabs (F a - F b) <= M2 * (L * dist a b)) by (apply Rmult_le_compat; auto). lra.
Qed.
Lemma ll_inv : forall F x, loclip F x -> F x <> 0 -> loclip (fun a => / F a) x.
Proof.
  intros F x (e & L & He & HL & H) Hx. pose proof (Rabs_pos_lt _ Hx) as Px. set (m := Rabs (F x)) in *.
  set (e' := Rmin e (m / 2 / (L + 1))). assert (0 < m / 2 / (L + 1)) by (apply Rdiv_lt_0_compat; lra).
  exists e', (L * (4 / (m * m))). split; [apply Rmin_glb_lt; auto|]. split; [apply Rmult_le_pos; auto; apply Rlt_le, Rdiv_lt_0_compat; [lra|nra]|].
  assert (B : forall a, dist x a < e' -> m / 2 <= Rabs (F a)).
  { intros a Ha. pose proof (Rmin_l e (m / 2 / (L + 1))). pose proof (Rmin_r e (m / 2 / (L + 1))). fold e' in H1, H2.
    specialize (H x a ltac:(rewrite dist_self; auto) ltac:(lra)). pose proof (dist_pos x a).
    assert (L * dist x a <= m / 2). { apply Rle_trans with ((L + 1) * (m / 2 / (L + 1))); [|right; field; lra]. apply Rmult_le_compat; lra. }
    pose proof (Rabs_triang (F a) (F x - F a)). replace (F a + (F x - F a)) with (F x) in H5 by ring. fold m in H5. lra. }
  intros a b Ha Hb. pose proof (B a Ha) as Ba. pose proof (B b Hb) as Bb. pose proof (Rmin_l e (m / 2 / (L + 1))). fold e' in H1.
  specialize (H a b ltac:(lra) ltac:(lra)). assert (Na : F a <> 0) by (intros Z; rewrite Z, Rabs_R0 in Ba; lra). assert (Nb : F b <> 0) by (intros Z; rewrite Z, Rabs_R0 in Bb; lra).
  replace (/ F a - / F b) with ((F b - F a) * / (F a * F b)) by (field; auto). rewrite Rabs_mult, Rabs_minus_sym, Rabs_inv, Rabs_mult.
  replace (L * (4 / (m * m)) * dist a b) with (L * dist a b * (4 / (m * m))) by ring.
  apply Rmult_le_compat; auto using Rabs_pos; [apply Rlt_le, Rinv_0_lt_compat; nra|].
  replace (4 / (m * m)) with (/ (m / 2 * (m / 2))) by (field; lra). apply Rinv_le_contravar; [nra|]. apply Rmult_le_compat; lra.
Qed.
Lemma ll_div : forall F G x, loclip F x -> loclip G x -> G x <> 0 -> loclip (fun a => F a / G a) x.
Proof. intros. apply (ll_mult F (fun a => / G a)); auto using ll_inv. Qed.
Lemma ll_pow : forall n F x, loclip F x -> loclip (fun a => F a ^ n) x.
Proof. induction n; intros; cbn [pow]; [apply ll_const|apply (ll_mult F (fun a => F a ^ n)); auto]. Qed.
Lemma sin_lip : forall a b, Rabs (sin a - sin b) <= Rabs (a - b).
Proof.
  intros a b. destruct (Req_dec a b) as [->|N]; [rewrite !Rminus_diag_eq by auto; lra|].
  assert (G : forall u v, u < v -> Rabs (sin v - sin u) <= Rabs (v - u)).
  { intros u v Huv. destruct (MVT_cor2 sin cos u v Huv) as (c & E & _). { intros. apply derivable_pt_lim_sin. }
    rewrite E, Rabs_mult. pose proof (COS_bound c). assert (Rabs (cos c) <= 1) by (apply Rabs_le; lra). pose proof (Rabs_pos (v - u)). nra. }
  destruct (Rtotal_order a b) as [L|[L|L]]; [|lra|apply G; auto]. rewrite Rabs_minus_sym, (Rabs_minus_sym a b). apply G; auto.
Qed.
Lemma cos_lip : forall a b, Rabs (cos a - cos b) <= Rabs (a - b).
Proof. intros. rewrite !cos_sin. eapply Rle_trans; [apply sin_lip|]. right. f_equal. ring. Qed.
Lemma ll_sin : forall F x, loclip F x -> loclip (fun a => sin (F a)) x.
Proof. intros. apply (ll_lip sin); auto using sin_lip. Qed.
Lemma ll_cos : forall F x, loclip F x -> loclip (fun a => cos (F a)) x.
Proof. intros. apply (ll_lip cos); auto using cos_lip. Qed.
Ltac projs := intros; apply ll_proj; intros; unfold dist; absall; lra.
Lemma ll_r : forall x, loclip s_r x. Proof. projs. Qed.
Lemma ll_theta : forall x, loclip s_theta x. Proof. projs. Qed.
Lemma ll_phi : forall x, loclip s_phi x. Proof. projs. Qed.
Lemma ll_v : forall x, loclip s_v x. Proof. projs. Qed.
Lemma ll_psi : forall x, loclip s_psi x. Proof. projs. Qed.
Lemma ll_gamma : forall x, loclip s_gamma x. Proof. projs. Qed.
(** The density the equations of motion use. *)
Lemma ll_density : forall p atm x, 0 < RP p -> lipschitz_air p atm -> in_air p x -> loclip (fun a => density p (density_int atm) (s_r a * RP p - RP p)) x.
Proof.
  intros p atm x HR (L & HL) (I1 & I2).
  set (e := Rmin ((RP p * s_r x - RP p) / RP p) ((h_thres p - (RP p * s_r x - RP p)) / RP p)).
  assert (0 < e) by (apply Rmin_glb_lt; apply Rdiv_lt_0_compat; lra).
  exists e, (Rabs L * RP p). split; auto. split; [apply Rmult_le_pos; [apply Rabs_pos|lra]|].
  assert (In : forall a, dist x a < e -> 0 <= s_r a * RP p - RP p <= h_thres p /\ density p (density_int atm) (s_r a * RP p - RP p) = density_int atm (s_r a * RP p - RP p)).
  { intros a Ha. assert (D : Rabs (s_r x - s_r a) < e) by (revert Ha; unfold dist; absall; lra). apply Rabs_def2 in D.
    pose proof (Rmin_l ((RP p * s_r x - RP p) / RP p) ((h_thres p - (RP p * s_r x - RP p)) / RP p)) as M1. pose proof (Rmin_r ((RP p * s_r x - RP p) / RP p) ((h_thres p - (RP p * s_r x - RP p)) / RP p)) as M2. fold e in M1, M2.
    assert (e * RP p <= RP p * s_r x - RP p) by (apply (Rmult_le_compat_r (RP p)) in M1; [|lra]; unfold Rdiv in M1; rewrite Rmult_assoc, Rinv_l, Rmult_1_r in M1 by lra; exact M1).
    assert (e * RP p <= h_thres p - (RP p * s_r x - RP p)) by (apply (Rmult_le_compat_r (RP p)) in M2; [|lra]; unfold Rdiv in M2; rewrite Rmult_assoc, Rinv_l, Rmult_1_r in M2 by lra; exact M2).
    assert (B : 0 <= s_r a * RP p - RP p <= h_thres p) by nra. split; auto. unfold density. destruct (Rleb_spec 0 (s_r a * RP p - RP p)); [|lra]. destruct (Rleb_spec (s_r a * RP p - RP p) (h_thres p)); [|lra]. reflexivity. }
  intros a b Ha Hb. destruct (In a Ha) as (Ia & ->). destruct (In b Hb) as (Ib & ->). eapply Rle_trans; [apply HL; auto|].
  replace (s_r a * RP p - RP p - (s_r b * RP p - RP p)) with ((s_r a - s_r b) * RP p) by ring. rewrite Rabs_mult, (Rabs_right (RP p)) by lra.
  assert (Rabs (s_r a - s_r b) <= dist a b) by (unfold dist; absall; lra). pose proof (Rabs_pos (s_r a - s_r b)). pose proof (Rabs_pos L). pose proof (Rle_abs L). 
  assert (L * (Rabs (s_r a - s_r b) * RP p) <= Rabs L * (Rabs (s_r a - s_r b) * RP p)) by (apply Rmult_le_compat_r; [nra|auto]).
  assert (Rabs L * (Rabs (s_r a - s_r b) * RP p) <= Rabs L * (dist a b * RP p)) by (apply Rmult_le_compat_l; [auto|apply Rmult_le_compat_r; lra]). lra.
Qed.
(** The right hand side as a function of the state, for a vehicle with a fixed drag coefficient. *)
Definition air_at (V : vehicle) (y : state) : R := density (vh_planet V) (density_int (vh_atm V)) (s_r y * RP (vh_planet V) - RP (vh_planet V)) / rho0 (vh_planet V).
Definition fas V (y : state) : R := (0 * cos (vh_alpha V) - 0.5 * air_at V y * s_v y ^ 2 * vh_Abar V * vh_CD V) / vh_mbar V.
Definition fan V delta (y : state) : R := (0.5 * air_at V y * s_v y ^ 2 * vh_Abar V * vh_CL V + 0 * sin (vh_alpha V)) * cos delta / vh_mbar V.
Definition faw V delta (y : state) : R := (0.5 * air_at V y * s_v y ^ 2 * vh_Abar V * vh_CL V + 0 * sin (vh_alpha V)) * sin delta / vh_mbar V.
Definition fgr V (y : state) : R := gr_of (J2 (vh_planet V)) (J3 (vh_planet V)) (s_r y) (sin (s_phi y)).
Definition fgp V (y : state) : R := gp_of (J2 (vh_planet V)) (J3 (vh_planet V)) (s_r y) (sin (s_phi y)) (cos (s_phi y)).
Definition f1 (y : state) : R := s_v y * sin (s_gamma y).
Definition f2 (y : state) : R := s_v y * cos (s_gamma y) * cos (s_psi y) / (s_r y * cos (s_phi y)).
Definition f3 (y : state) : R := s_v y * cos (s_gamma y) * sin (s_psi y) / s_r y.
Definition f4 V (y : state) : R :=
  fas V y + (sin (s_gamma y) * fgr V y + cos (s_gamma y) * sin (s_psi y) * fgp V y)
  + OMEGAbar (vh_planet V) ^ 2 * s_r y * cos (s_phi y) * (sin (s_gamma y) * cos (s_phi y) - cos (s_gamma y) * sin (s_phi y) * sin (s_psi y)).
Definition f5 V delta (y : state) : R :=
  (faw V delta y + cos (s_psi y) * fgp V y) / (s_v y * (cos (s_gamma y) + 1e-2)) - s_v y / s_r y * cos (s_gamma y) * cos (s_psi y) * (sin (s_phi y) / cos (s_phi y))
  + -1 * OMEGAbar (vh_planet V) ^ 2 * s_r y / (s_v y * (cos (s_gamma y) + 1e-2)) * sin (s_phi y) * cos (s_phi y) * cos (s_psi y)
  + 2 * OMEGAbar (vh_planet V) * (sin (s_gamma y) / (cos (s_gamma y) + 1e-2) * cos (s_phi y) * sin (s_psi y) - sin (s_phi y)).
Definition f6 V delta (y : state) : R :=
  (fan V delta y + (cos (s_gamma y) * fgr V y - sin (s_gamma y) * sin (s_psi y) * fgp V y)) / s_v y + s_v y / s_r y * cos (s_gamma y)
  + OMEGAbar (vh_planet V) ^ 2 * s_r y / s_v y * cos (s_phi y) * (cos (s_gamma y) * cos (s_phi y) + sin (s_gamma y) * sin (s_phi y) * sin (s_psi y))
  + 2 * OMEGAbar (vh_planet V) * cos (s_phi y) * cos (s_psi y).
Definition f7 (y : state) : R := s_v y * cos (s_gamma y).
Lemma field_is : forall V delta y d, vh_user V = false -> EOM V y delta = Ok (Some d) ->
  d = mkState (f1 y) (f2 y) (f3 y) (f4 V y) (f5 V delta y) (f6 V delta y) (f7 y) /\ s_r y <> 0 /\ s_v y <> 0 /\ cos (s_phi y) <> 0 /\ cos (s_gamma y) + 1e-2 <> 0.
Proof.
  intros V delta y d Hu H. destruct (EOM_inv _ _ _ _ H) as (Hr & Hv & Hc & Hg & asb & Ea & ->).
  unfold a_sbar, Dbar, CD_scalar in Ea. rewrite Hu in Ea. cbn [rbind] in Ea. injection Ea as <-. repeat split; auto.
Qed.
Ltac ll := repeat match goal with
  | |- loclip (fun a => ?c) _ => apply (ll_const c)
  | |- loclip s_r _ => apply ll_r | |- loclip s_theta _ => apply ll_theta | |- loclip s_phi _ => apply ll_phi
  | |- loclip s_v _ => apply ll_v | |- loclip s_psi _ => apply ll_psi | |- loclip s_gamma _ => apply ll_gamma
  | |- loclip (fun a => s_r a) _ => apply ll_r | |- loclip (fun a => s_theta a) _ => apply ll_theta | |- loclip (fun a => s_phi a) _ => apply ll_phi
  | |- loclip (fun a => s_v a) _ => apply ll_v | |- loclip (fun a => s_psi a) _ => apply ll_psi | |- loclip (fun a => s_gamma a) _ => apply ll_gamma
  | |- loclip (fun a => @?F a + @?G a) _ => apply (ll_plus F G)
  | |- loclip (fun a => @?F a - @?G a) _ => apply (ll_minus F G)
  | |- loclip (fun a => @?F a * @?G a) _ => apply (ll_mult F G)
  | |- loclip (fun a => @?F a / ?c) _ => apply (ll_mult F (fun _ => / c))
  | |- loclip (fun a => @?F a / @?G a) _ => apply (ll_div F G)
  | |- loclip (fun a => (@?F a) ^ ?n) _ => apply (ll_pow n F)
  | |- loclip (fun a => sin (@?F a)) _ => apply (ll_sin F)
  | |- loclip (fun a => cos (@?F a)) _ => apply (ll_cos F)
  | H : loclip ?F _ |- loclip ?F _ => exact H
  | H : loclip ?F _ |- loclip (fun a => ?F a) _ => exact H
  end; cbv beta; auto using pow_nonzero, Rmult_integral_contrapositive_currified.
Lemma field_loclip : forall V delta x, 0 < RP (vh_planet V) -> lipschitz_air (vh_planet V) (vh_atm V) -> in_air (vh_planet V) x ->
  s_r x <> 0 -> s_v x <> 0 -> cos (s_phi x) <> 0 -> cos (s_gamma x) + 1e-2 <> 0 ->
  loclip f1 x /\ loclip f2 x /\ loclip f3 x /\ loclip (f4 V) x /\ loclip (f5 V delta) x /\ loclip (f6 V delta) x /\ loclip f7 x.
Proof.
  intros V delta x HR HL HI Hr Hv Hc Hg.
  assert (Ha : loclip (air_at V) x) by (unfold air_at; apply (ll_mult _ (fun _ => / rho0 (vh_planet V))); [apply ll_density; auto|apply ll_const]).
  assert (Hs : loclip (fas V) x) by (unfold fas; ll).
  assert (Hw : loclip (faw V delta) x) by (unfold faw; ll).
  assert (Hn : loclip (fan V delta) x) by (unfold fan; ll).
  assert (Hgr : loclip (fgr V) x) by (unfold fgr, gr_of; ll).
  assert (Hgp : loclip (fgp V) x) by (unfold fgp, gp_of; ll).
  unfold f1, f2, f3, f4, f5, f6, f7. repeat split; ll.
Qed.
Lemma ll_shrink : forall (F G : state -> R) x, loclip F x -> loclip G x -> exists e L, 0 < e /\ 0 <= L /\ forall a b, dist x a < e -> dist x b < e ->
  Rabs (F a - F b) <= L * dist a b /\ Rabs (G a - G b) <= L * dist a b.
Proof.
  intros F G x (e & L & He & HL & H) (e' & L' & He' & HL' & H'). exists (Rmin e e'), (L + L'). split; [apply Rmin_glb_lt; auto|]. split; [lra|].
  intros a b Ha Hb. pose proof (Rmin_l e e'). pose proof (Rmin_r e e'). pose proof (dist_pos a b).
  specialize (H a b ltac:(lra) ltac:(lra)). specialize (H' a b ltac:(lra) ltac:(lra)). nra.
Qed.
(** All seven at once. *)
Definition all_lip (V : vehicle) (delta e L : R) (x : state) : Prop := forall a b, dist x a < e -> dist x b < e ->
  Rabs (f1 a - f1 b) + Rabs (f2 a - f2 b) + Rabs (f3 a - f3 b) + Rabs (f4 V a - f4 V b) + Rabs (f5 V delta a - f5 V delta b) +
  Rabs (f6 V delta a - f6 V delta b) + Rabs (f7 a - f7 b) <= L * dist a b.
Lemma field_near : forall V delta x, 0 < RP (vh_planet V) -> lipschitz_air (vh_planet V) (vh_atm V) -> in_air (vh_planet V) x ->
  s_r x <> 0 -> s_v x <> 0 -> cos (s_phi x) <> 0 -> cos (s_gamma x) + 1e-2 <> 0 -> exists e L, 0 < e /\ 0 <= L /\ all_lip V delta e L x.
Proof.
  intros V delta x HR HL HI Hr Hv Hc Hg.
  destruct (field_loclip V delta x HR HL HI Hr Hv Hc Hg) as ((e1 & L1 & A1 & B1 & C1) & (e2 & L2 & A2 & B2 & C2) & (e3 & L3 & A3 & B3 & C3) & (e4 & L4 & A4 & B4 & C4) &
    (e5 & L5 & A5 & B5 & C5) & (e6 & L6 & A6 & B6 & C6) & (e7 & L7 & A7 & B7 & C7)).
  set (e := Rmin e1 (Rmin e2 (Rmin e3 (Rmin e4 (Rmin e5 (Rmin e6 e7)))))).
  assert (0 < e) by (repeat apply Rmin_glb_lt; auto).
  assert (e <= e1 /\ e <= e2 /\ e <= e3 /\ e <= e4 /\ e <= e5 /\ e <= e6 /\ e <= e7) as (U1 & U2 & U3 & U4 & U5 & U6 & U7).
  { unfold e. pose proof (Rmin_l e6 e7). pose proof (Rmin_r e6 e7). set (m6 := Rmin e6 e7) in *. pose proof (Rmin_l e5 m6). pose proof (Rmin_r e5 m6). set (m5 := Rmin e5 m6) in *.
    pose proof (Rmin_l e4 m5). pose proof (Rmin_r e4 m5). set (m4 := Rmin e4 m5) in *. pose proof (Rmin_l e3 m4). pose proof (Rmin_r e3 m4). set (m3 := Rmin e3 m4) in *.
    pose proof (Rmin_l e2 m3). pose proof (Rmin_r e2 m3). set (m2 := Rmin e2 m3) in *. pose proof (Rmin_l e1 m2). pose proof (Rmin_r e1 m2). lra. }
  exists e, (L1 + L2 + L3 + L4 + L5 + L6 + L7). split; auto. split; [lra|]. intros a b Ha Hb.
  specialize (C1 a b ltac:(lra) ltac:(lra)). specialize (C2 a b ltac:(lra) ltac:(lra)). specialize (C3 a b ltac:(lra) ltac:(lra)). specialize (C4 a b ltac:(lra) ltac:(lra)).
  specialize (C5 a b ltac:(lra) ltac:(lra)). specialize (C6 a b ltac:(lra) ltac:(lra)). specialize (C7 a b ltac:(lra) ltac:(lra)). lra.
Qed.
Lemma solves_upto : forall f y T T', solves f y T -> T' <= T -> solves f y T'.
Proof.
  intros f y T T' (l & H) L. exists l. intros t Ht. destruct (H t ltac:(lra)) as (C & d & E & D). split; auto. exists d. split; auto. intros Ht' Hl. apply D; auto; lra.
Qed.
Definition Dsq (y z : R -> state) (t : R) : R :=
  (s_r (y t) - s_r (z t)) * (s_r (y t) - s_r (z t)) + (s_theta (y t) - s_theta (z t)) * (s_theta (y t) - s_theta (z t)) + (s_phi (y t) - s_phi (z t)) * (s_phi (y t) - s_phi (z t)) +
  (s_v (y t) - s_v (z t)) * (s_v (y t) - s_v (z t)) + (s_psi (y t) - s_psi (z t)) * (s_psi (y t) - s_psi (z t)) + (s_gamma (y t) - s_gamma (z t)) * (s_gamma (y t) - s_gamma (z t)) +
  (s_drange (y t) - s_drange (z t)) * (s_drange (y t) - s_drange (z t)).
Lemma sq_pos : forall a : R, 0 <= a * a. Proof. intros. nra. Qed.
Lemma Dsq_pos : forall y z t, 0 <= Dsq y z t.
Proof. intros. unfold Dsq. repeat apply Rplus_le_le_0_compat; apply sq_pos. Qed.
Lemma Dsq_zero : forall y z t, Dsq y z t <= 0 -> y t = z t.
Proof.
  intros y z t H. unfold Dsq in H.
  pose proof (sq_pos (s_r (y t) - s_r (z t))). pose proof (sq_pos (s_theta (y t) - s_theta (z t))). pose proof (sq_pos (s_phi (y t) - s_phi (z t))).
  pose proof (sq_pos (s_v (y t) - s_v (z t))). pose proof (sq_pos (s_psi (y t) - s_psi (z t))). pose proof (sq_pos (s_gamma (y t) - s_gamma (z t))). pose proof (sq_pos (s_drange (y t) - s_drange (z t))).
  assert (Z : forall a b, (a - b) * (a - b) <= 0 -> a = b) by (intros a b Q; assert (a - b = 0) by nra; lra).
  destruct (y t) as [a1 a2 a3 a4 a5 a6 a7], (z t) as [b1 b2 b3 b4 b5 b6 b7]. cbn [s_r s_theta s_phi s_v s_psi s_gamma s_drange] in *. f_equal; apply Z; lra.
Qed.
Lemma Dsq_same : forall y z t, y t = z t -> Dsq y z t = 0.
Proof. intros y z t H. unfold Dsq. rewrite H. ring. Qed.
Lemma dist_Dsq : forall y z t, dist (y t) (z t) * dist (y t) (z t) <= 7 * Dsq y z t.
Proof.
  intros. unfold dist, Dsq. assert (A : forall u, u * u = Rabs u * Rabs u) by (intros; rewrite <- Rabs_mult; symmetry; apply Rabs_right; nra).
  rewrite (A (s_r (y t) - _)), (A (s_theta (y t) - _)), (A (s_phi (y t) - _)), (A (s_v (y t) - _)), (A (s_psi (y t) - _)), (A (s_gamma (y t) - _)), (A (s_drange (y t) - _)).
  repeat match goal with |- context [Rabs ?x] => generalize (Rabs x); intro end.
  assert (S : forall a b : R, 2 * (a * b) <= a * a + b * b) by (intros u v; pose proof (sq_pos (u - v)); lra).
  repeat match goal with a : R, b : R |- _ => lazymatch goal with H : 2 * (a * b) <= _ |- _ => fail | H : 2 * (b * a) <= _ |- _ => fail | _ => pose proof (S a b) end end. lra.
Qed.
Lemma Dsq_continuous : forall y z t, continuous_at y t -> continuous_at z t -> continuity_pt (Dsq y z) t.
Proof.
  intros y z t (A1 & A2 & A3 & A4 & A5 & A6 & A7) (B1 & B2 & B3 & B4 & B5 & B6 & B7). unfold Dsq.
  repeat match goal with |- continuity_pt (fun u => @?F u + @?G u) _ => apply (ct_plus F G) | |- continuity_pt (fun u => @?F u * @?G u) _ => apply (ct_mult F G) | |- continuity_pt (fun u => @?F u - @?G u) _ => apply (ct_minus F G) end; auto.
Qed.
Definition Dsq' (y z : R -> state) (d e : state) (t : R) : R :=
  2 * ((s_r (y t) - s_r (z t)) * (s_r d - s_r e) + (s_theta (y t) - s_theta (z t)) * (s_theta d - s_theta e) + (s_phi (y t) - s_phi (z t)) * (s_phi d - s_phi e) +
  (s_v (y t) - s_v (z t)) * (s_v d - s_v e) + (s_psi (y t) - s_psi (z t)) * (s_psi d - s_psi e) + (s_gamma (y t) - s_gamma (z t)) * (s_gamma d - s_gamma e) +
  (s_drange (y t) - s_drange (z t)) * (s_drange d - s_drange e)).
Lemma sq_rate : forall f g t f' g', derivable_pt_lim f t f' -> derivable_pt_lim g t g' ->
  derivable_pt_lim (fun u => (f u - g u) * (f u - g u)) t (2 * ((f t - g t) * (f' - g'))).
Proof.
  intros f g t f' g' A B. replace (2 * ((f t - g t) * (f' - g'))) with ((f' - g') * (f t - g t) + (f t - g t) * (f' - g')) by ring.
  apply (derivable_pt_lim_mult (fun u => f u - g u) (fun u => f u - g u)); apply (derivable_pt_lim_minus f g); auto.
Qed.
Lemma Dsq_rate : forall y z t d e, moving_by y t d -> moving_by z t e -> derivable_pt_lim (Dsq y z) t (Dsq' y z d e t).
Proof.
  intros y z t d e (A1 & A2 & A3 & A4 & A5 & A6 & A7) (B1 & B2 & B3 & B4 & B5 & B6 & B7). unfold Dsq, Dsq'.
  rewrite !Rmult_plus_distr_l.
  repeat match goal with |- derivable_pt_lim (fun u => @?F u + @?G u) _ _ => apply (derivable_pt_lim_plus F G) end;
  match goal with |- derivable_pt_lim (fun u => (?f (y u) - _) * _) _ _ => apply (sq_rate (fun u => f (y u)) (fun u => f (z u))); auto end.
Qed.
Lemma le_abs_mult : forall a b, a * b <= Rabs a * Rabs b.
Proof. intros. rewrite <- Rabs_mult. apply Rle_abs. Qed.
(** From a common point on, the two solutions agree for a while. *)
Lemma unique_local : forall V delta y z T m, vh_user V = false -> 0 < RP (vh_planet V) -> lipschitz_air (vh_planet V) (vh_atm V) ->
  solves (fun x => EOM V x delta) y T -> solves (fun x => EOM V x delta) z T -> 0 <= m < T -> y m = z m -> in_air (vh_planet V) (y m) ->
  exists w, 0 < w /\ m + w <= T /\ forall t, m <= t <= m + w -> y t = z t.
Proof.
  intros V delta y z T m Hu HR HL (l1 & S1) (l2 & S2) Hm Em HI.
  destruct (S1 m ltac:(lra)) as (Cm & dm & Dm & _). destruct (S2 m ltac:(lra)) as (Cm' & _).
  destruct (field_is _ _ _ _ Hu Dm) as (_ & Hr & Hv & Hc & Hg).
  destruct (field_near V delta (y m) HR HL HI Hr Hv Hc Hg) as (e & L & He & HL0 & HN).
  assert (NB : forall u, continuous_at u m -> exists a, 0 < a /\ forall t, Rabs (t - m) < a -> dist (u m) (u t) < e).
  { intros u (C1 & C2 & C3 & C4 & C5 & C6 & C7).
    assert (P : forall g, continuity_pt g m -> exists a, 0 < a /\ forall t, Rabs (t - m) < a -> Rabs (g m - g t) < e / 7).
    { intros g C. destruct (C (e / 7) ltac:(lra)) as (a & Ha & Hd). exists a. split; auto. intros t Ht. destruct (Req_dec t m) as [->|N]; [rewrite Rminus_diag_eq, Rabs_R0 by auto; lra|].
      rewrite Rabs_minus_sym. apply (Hd t). split; [split; [exact I|auto]|exact Ht]. }
    destruct (P _ C1) as (a1 & H1 & G1). destruct (P _ C2) as (a2 & H2 & G2). destruct (P _ C3) as (a3 & H3 & G3). destruct (P _ C4) as (a4 & H4 & G4).
    destruct (P _ C5) as (a5 & H5 & G5). destruct (P _ C6) as (a6 & H6 & G6). destruct (P _ C7) as (a7 & H7 & G7).
    exists (Rmin a1 (Rmin a2 (Rmin a3 (Rmin a4 (Rmin a5 (Rmin a6 a7)))))). split; [repeat apply Rmin_glb_lt; auto|]. intros t Ht.
    assert (Rabs (t - m) < a1 /\ Rabs (t - m) < a2 /\ Rabs (t - m) < a3 /\ Rabs (t - m) < a4 /\ Rabs (t - m) < a5 /\ Rabs (t - m) < a6 /\ Rabs (t - m) < a7) as (U1 & U2 & U3 & U4 & U5 & U6 & U7).
    { revert Ht. pose proof (Rmin_l a6 a7). pose proof (Rmin_r a6 a7). set (m6 := Rmin a6 a7) in *. pose proof (Rmin_l a5 m6). pose proof (Rmin_r a5 m6). set (m5 := Rmin a5 m6) in *.
      pose proof (Rmin_l a4 m5). pose proof (Rmin_r a4 m5). set (m4 := Rmin a4 m5) in *. pose proof (Rmin_l a3 m4). pose proof (Rmin_r a3 m4). set (m3 := Rmin a3 m4) in *.
      pose proof (Rmin_l a2 m3). pose proof (Rmin_r a2 m3). set (m2 := Rmin a2 m3) in *. pose proof (Rmin_l a1 m2). pose proof (Rmin_r a1 m2). intros. lra. }
    specialize (G1 t U1). specialize (G2 t U2). specialize (G3 t U3). specialize (G4 t U4). specialize (G5 t U5). specialize (G6 t U6). specialize (G7 t U7). unfold dist. lra. }
  destruct (NB y Cm) as (a & Ha & Na). destruct (NB z Cm') as (b & Hb & Nb).
  set (w := Rmin (Rmin (a / 2) (b / 2)) (T - m)). assert (Hw : 0 < w) by (repeat apply Rmin_glb_lt; lra).
  assert (Wa : w <= a / 2 /\ w <= b / 2 /\ w <= T - m).
  { unfold w. pose proof (Rmin_l (a / 2) (b / 2)). pose proof (Rmin_r (a / 2) (b / 2)). pose proof (Rmin_l (Rmin (a / 2) (b / 2)) (T - m)). pose proof (Rmin_r (Rmin (a / 2) (b / 2)) (T - m)). lra. }
  exists w. split; auto. split; [lra|]. intros t Ht. apply Dsq_zero.
  set (K := 14 * L).
  set (g := fun u => Dsq y z u * exp (- K * (u - m))).
  assert (G : g t <= g m).
  { set (fy := fun c => mkState (f1 (y c)) (f2 (y c)) (f3 (y c)) (f4 V (y c)) (f5 V delta (y c)) (f6 V delta (y c)) (f7 (y c))).
    set (fz := fun c => mkState (f1 (z c)) (f2 (z c)) (f3 (z c)) (f4 V (z c)) (f5 V delta (z c)) (f6 V delta (z c)) (f7 (z c))).
    apply (nonincreasing_corners g (fun c => Dsq' y z (fy c) (fz c) c * exp (- K * (c - m)) + Dsq y z c * (exp (- K * (c - m)) * (- K))) (l1 ++ l2)); [lra| |].
    - intros c Hcc. apply (ct_mult (Dsq y z) (fun u => exp (- K * (u - m)))); [apply Dsq_continuous; [apply (S1 c)|apply (S2 c)]; lra|].
      apply (ct_comp (fun u => - K * (u - m)) exp); [|apply derivable_continuous, derivable_exp].
      apply (ct_mult (fun _ => - K) (fun u => u - m)); [apply ct_const|]. apply (ct_minus (fun u => u) (fun _ => m)); [apply derivable_continuous_pt, derivable_pt_id|apply ct_const].
    - intros c Hcc Hn. destruct (S1 c ltac:(lra)) as (_ & d & D1 & M1). destruct (S2 c ltac:(lra)) as (_ & d' & D2 & M2).
      specialize (M1 ltac:(lra) (fun Z => Hn (in_or_app _ _ _ (or_introl Z)))). specialize (M2 ltac:(lra) (fun Z => Hn (in_or_app _ _ _ (or_intror Z)))).
      destruct (field_is _ _ _ _ Hu D1) as (-> & _). destruct (field_is _ _ _ _ Hu D2) as (-> & _). fold (fy c) in M1. fold (fz c) in M2.
      split.
      + apply (derivable_pt_lim_mult (Dsq y z) (fun u => exp (- K * (u - m)))); [apply Dsq_rate; auto|].
        apply (derivable_pt_lim_comp (fun u => - K * (u - m)) exp); [|apply derivable_pt_lim_exp].
        assert (EK : - K = 0 * (c - m) + - K * (1 - 0)) by ring. eapply eq_ind_r with (P := fun q => derivable_pt_lim (fun u => - K * (u - m)) c q); [|exact EK].
        apply (derivable_pt_lim_mult (fun _ => - K) (fun u => u - m)); [apply derivable_pt_lim_const|].
        apply (derivable_pt_lim_minus (fun u => u) (fun _ => m)); [apply derivable_pt_lim_id|apply derivable_pt_lim_const].
      + pose proof (exp_pos (- K * (c - m))) as Pe. set (x := exp (- K * (c - m))) in *.
        assert (Bd : Dsq' y z (fy c) (fz c) c <= K * Dsq y z c).
        { assert (B1 : dist (y m) (y c) < e) by (apply Na; apply Rabs_def1; lra). assert (B2 : dist (y m) (z c) < e) by (rewrite Em; apply Nb; apply Rabs_def1; lra).
          specialize (HN (y c) (z c) B1 B2). pose proof (dist_Dsq y z c) as Q. pose proof (dist_pos (y c) (z c)) as Pd.
          unfold Dsq', fy, fz. cbn [s_r s_theta s_phi s_v s_psi s_gamma s_drange].
          assert (B : forall u u', Rabs u <= dist (y c) (z c) -> u * u' <= dist (y c) (z c) * Rabs u').
          { intros u u' Hx. eapply Rle_trans; [apply le_abs_mult|]. apply Rmult_le_compat_r; [apply Rabs_pos|auto]. }
          assert (U : forall s, (s = s_r \/ s = s_theta \/ s = s_phi \/ s = s_v \/ s = s_psi \/ s = s_gamma \/ s = s_drange) -> Rabs (s (y c) - s (z c)) <= dist (y c) (z c)).
          { intros s Hs. unfold dist. repeat destruct Hs as [->|Hs]; try subst s; absall; lra. }
          pose proof (B _ (f1 (y c) - f1 (z c)) (U s_r ltac:(tauto))). pose proof (B _ (f2 (y c) - f2 (z c)) (U s_theta ltac:(tauto))). pose proof (B _ (f3 (y c) - f3 (z c)) (U s_phi ltac:(tauto))).
          pose proof (B _ (f4 V (y c) - f4 V (z c)) (U s_v ltac:(tauto))). pose proof (B _ (f5 V delta (y c) - f5 V delta (z c)) (U s_psi ltac:(tauto))).
          pose proof (B _ (f6 V delta (y c) - f6 V delta (z c)) (U s_gamma ltac:(tauto))). pose proof (B _ (f7 (y c) - f7 (z c)) (U s_drange ltac:(tauto))).
          set (dd := dist (y c) (z c)) in *. apply (Rmult_le_compat_l dd) in HN; [|exact Pd]. unfold K.
          assert (L * (dd * dd) <= L * (7 * Dsq y z c)) by (apply Rmult_le_compat_l; auto). lra. }
        nra. }
  unfold g in G. rewrite (Dsq_same y z m Em), Rmult_0_l in G. pose proof (exp_pos (- K * (t - m))). pose proof (Dsq_pos y z t). nra.
Qed.
(** Two solutions from the same state are the same while the first is inside the atmosphere. *)
Lemma unique : forall V delta y z T, vh_user V = false -> 0 < RP (vh_planet V) -> lipschitz_air (vh_planet V) (vh_atm V) ->
  solves (fun x => EOM V x delta) y T -> solves (fun x => EOM V x delta) z T -> y 0 = z 0 -> (forall t, 0 <= t <= T -> in_air (vh_planet V) (y t)) ->
  forall t, 0 <= t <= T -> y t = z t.
Proof.
  intros V delta y z T Hu HR HL S1 S2 E0 HI t1 Ht1.
  set (E := fun s => 0 <= s <= t1 /\ forall u, 0 <= u <= s -> y u = z u).
  assert (E_0 : E 0) by (split; [lra|]; intros u Hu'; replace u with 0 by lra; auto).
  destruct (completeness E) as (m & Um & Lm). { exists t1. intros s (Hs & _). lra. } { exists 0. auto. }
  assert (Hm : 0 <= m <= t1). { split; [apply Um; auto|]. apply Lm. intros s (Hs & _). lra. }
  assert (Below : forall u, 0 <= u < m -> y u = z u).
  { intros u Hu'. destruct (classic (exists s, E s /\ u < s)) as [(s & (Hs & Q) & L)|N]; [apply Q; lra|]. exfalso. assert (m <= u); [|lra]. apply Lm. intros s Es. apply Rnot_lt_le. intros L. apply N. exists s. auto. }
  assert (Em : y m = z m).
  { destruct (Req_dec m 0) as [->|Nm]; auto. apply Dsq_zero. apply Rnot_lt_le. intros P.
    assert (C : continuity_pt (Dsq y z) m). { destruct S1 as (l1 & S1). destruct S2 as (l2 & S2). apply Dsq_continuous; [apply (S1 m)|apply (S2 m)]; lra. }
    destruct (C (Dsq y z m) P) as (a & Ha & Hd). set (u := Rmax 0 (m - a / 2)). assert (Hu1 : 0 <= u < m) by (unfold u; split; [apply Rmax_l|apply Rmax_lub_lt; lra]).
    assert (Hu2 : m - a / 2 <= u) by apply Rmax_r. specialize (Hd u). cbn in Hd. unfold R_dist in Hd.
    assert (Q : Rabs (Dsq y z u - Dsq y z m) < Dsq y z m). { apply Hd. split; [split; [exact I|lra]|]. apply Rabs_def1; lra. }
    rewrite (Dsq_same y z u (Below u Hu1)), Rminus_0_l, Rabs_Ropp, Rabs_right in Q by lra. lra. }
  assert (Upto : forall u, 0 <= u <= m -> y u = z u). { intros u Hu'. destruct (Req_dec u m) as [->|N]; auto. apply Below. lra. }
  destruct (Req_dec m t1) as [->|Nm]; [apply Upto; lra|]. exfalso.
  destruct (unique_local V delta y z T m Hu HR HL S1 S2 ltac:(lra) Em (HI m ltac:(lra))) as (w & Hw & _ & Hq).
  set (s := Rmin (m + w) t1). assert (Hs : m < s <= t1 /\ s <= m + w) by (unfold s; pose proof (Rmin_l (m + w) t1); pose proof (Rmin_r (m + w) t1); split; auto; split; auto; apply Rmin_glb_lt; lra).
  assert (E s). { split; [lra|]. intros u Hu'. destruct (Rle_or_lt u m) as [L|L]; [apply Upto|apply Hq]; lra. }
  specialize (Um s H). lra.
Qed.
