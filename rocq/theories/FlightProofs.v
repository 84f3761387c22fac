(** Lemmas about the force model and the equations of motion. *)
From Coq Require Import Nsatz.
Require Import Verif.Base Verif.Numpy Verif.PlanetModel Verif.PlanetProofs Verif.FrameProofs Verif.ConicSpec Verif.FlightSpec Verif.DerivTactic Verif.AeroModel.
Local Open Scope R_scope.

(** Explicit right-hand sides. *)
Definition gr_of (J2 J3 r s : R) : R := -1 / r ^ 2 + 1.5 * J2 / r ^ 4 * (3 * s * s - 1) + 2 * J3 / r ^ 5 * (5 * s ^ 3 - 3 * s).
Definition gp_of (J2 J3 r s c : R) : R := -3 * J2 / r ^ 4 * s * c + 1.5 * J3 / r ^ 5 * c * (1 - 5 * s * s).

Lemma np_div_zero : forall x, np_div x 0 = None.
Proof. intros. unfold np_div. rewrite (proj2 (Reqb_true 0 0) eq_refl). reflexivity. Qed.
Lemma grbar_some : forall p r ph, r <> 0 -> grbar p r ph = Some (gr_of (J2 p) (J3 p) r (sin ph)).
Proof. intros. unfold grbar. rewrite !np_div_some by (apply pow_nonzero; auto). reflexivity. Qed.
Lemma gphibar_some : forall p r ph, r <> 0 -> gphibar p r ph = Some (gp_of (J2 p) (J3 p) r (sin ph) (cos ph)).
Proof. intros. unfold gphibar. rewrite !np_div_some by (apply pow_nonzero; auto). reflexivity. Qed.

Lemma Vehicle_inv : forall mass beta LD A alpha RN p atm user V, Vehicle mass beta LD A alpha RN p atm user = Ok V ->
  mass <> 0 /\ beta * A <> 0 /\ vh_mass V = mass /\ vh_beta V = beta /\ vh_LD V = LD /\ vh_A V = A /\ vh_RN V = RN /\ vh_planet V = p /\ vh_atm V = atm /\
  vh_user V = user /\ vh_mbar V = 1 /\ vh_CD V = mass / (beta * A) /\ vh_CL V = LD * (mass / (beta * A)) /\ vh_Abar V = A / (mass / (rho0 p * RP p)).
Proof.
  intros mass beta LD A alpha RN p atm user V H. unfold Vehicle in H. rcases; try discriminate. injection H as <-. cbn.
  repeat split; auto. field; auto.
Qed.

(** What a defined right-hand side says. *)
Lemma EOM_inv : forall V y delta d, EOM V y delta = Ok (Some d) ->
  let p := vh_planet V in let r := s_r y in let ph := s_phi y in let v := s_v y in let ps := s_psi y in let g := s_gamma y in
  let gr := gr_of (J2 p) (J3 p) r (sin ph) in let gp := gp_of (J2 p) (J3 p) r (sin ph) (cos ph) in
  let aw := a_wbar V r (s_theta y) ph v delta in let an := a_nbar V r (s_theta y) ph v delta in
  r <> 0 /\ v <> 0 /\ cos ph <> 0 /\ cos g + 1e-2 <> 0 /\
  exists asb, a_sbar V r (s_theta y) ph v delta = Ok asb /\
  d = mkState (v * sin g) (v * cos g * cos ps / (r * cos ph)) (v * cos g * sin ps / r)
        (asb + (sin g * gr + cos g * sin ps * gp) + OMEGAbar p ^ 2 * r * cos ph * (sin g * cos ph - cos g * sin ph * sin ps))
        ((aw + cos ps * gp) / (v * (cos g + 1e-2)) - v / r * cos g * cos ps * (sin ph / cos ph)
         + -1 * OMEGAbar p ^ 2 * r / (v * (cos g + 1e-2)) * sin ph * cos ph * cos ps
         + 2 * OMEGAbar p * (sin g / (cos g + 1e-2) * cos ph * sin ps - sin ph))
        ((an + (cos g * gr - sin g * sin ps * gp)) / v + v / r * cos g
         + OMEGAbar p ^ 2 * r / v * cos ph * (cos g * cos ph + sin g * sin ph * sin ps) + 2 * OMEGAbar p * cos ph * cos ps)
        (v * cos g).
Proof.
  intros V y delta d H. cbv zeta. unfold EOM in H. set (p := vh_planet V) in *.
  destruct (a_sbar V (s_r y) (s_theta y) (s_phi y) (s_v y) delta) as [asb|x] eqn:Ea; cbn [rbind] in H; [|discriminate].
  assert (H' : forall (A : Type) (x y : A), Ok x = Ok y -> x = y) by (intros; congruence). apply H' in H. clear H'.
  destruct (Req_dec (s_r y) 0) as [Z|Hr]. { rewrite Z in H. replace (0 * cos (s_phi y)) with 0 in H by ring. rewrite np_div_zero in H. discriminate. }
  destruct (Req_dec (cos (s_phi y)) 0) as [Z|Hc]. { rewrite Z in H. replace (s_r y * 0) with 0 in H by ring. rewrite np_div_zero in H. discriminate. }
  rewrite (np_div_some _ (s_r y * cos (s_phi y))) in H by (apply Rmult_integral_contrapositive_currified; auto). rewrite !(np_div_some _ (s_r y)) in H by auto.
  unfold gsbar, gwbar, gnbar in H. rewrite grbar_some, gphibar_some in H by auto. cbn [obind] in H.
  destruct (Req_dec (s_v y) 0) as [Z|Hv]. { rewrite Z in H. replace (0 * (cos (s_gamma y) + 1e-2)) with 0 in H by ring. rewrite np_div_zero in H. discriminate. }
  destruct (Req_dec (cos (s_gamma y) + 1e-2) 0) as [Z|Hg]. { rewrite Z in H. replace (s_v y * 0) with 0 in H by ring. rewrite np_div_zero in H. discriminate. }
  split; auto. split; auto. split; auto. split; auto. exists asb. split; auto.
  unfold cfpsibar, cfgammabar, copsibar, cfvbar, cogammabar, gthetabar in H.
  rewrite !(np_div_some _ (s_v y * _)) in H by (apply Rmult_integral_contrapositive_currified; auto).
  rewrite !np_div_some in H by auto. cbn [obind] in H. injection H as <-.
  f_equal; try ring.
  - f_equal. f_equal. f_equal. f_equal. ring.
  - f_equal. f_equal. f_equal. f_equal. ring.
Qed.

Lemma orth_frame : forall th ph, norm2 (up_dir th ph) = 1 /\ norm2 (east_dir th) = 1 /\ norm2 (north_dir th ph) = 1 /\
  dot (up_dir th ph) (east_dir th) = 0 /\ dot (up_dir th ph) (north_dir th ph) = 0 /\ dot (east_dir th) (north_dir th ph) = 0.
Proof.
  intros th ph. pose proof (sin2cos2 th) as A. pose proof (sin2cos2 ph) as B. unfold up_dir, east_dir, north_dir. vsimpl.
  generalize dependent (sin th). generalize dependent (cos th). generalize dependent (sin ph). generalize dependent (cos ph). intros.
  repeat split; nsatz.
Qed.
(** Components of a vector in the local frame determine it. *)
Definition local (th ph a b c : R) : vec := vadd (vscale a (up_dir th ph)) (vadd (vscale b (east_dir th)) (vscale c (north_dir th ph))).
Lemma dot_local : forall th ph a b c a' b' c', dot (local th ph a b c) (local th ph a' b' c') = a * a' + b * b' + c * c'.
Proof.
  intros. destruct (orth_frame th ph) as (U & E & N & UE & UN & EN). unfold local.
  set (u := up_dir th ph) in *. set (e := east_dir th) in *. set (n := north_dir th ph) in *. clearbody u e n.
  transitivity (a * a' * norm2 u + b * b' * norm2 e + c * c' * norm2 n + (a * b' + b * a') * dot u e + (a * c' + c * a') * dot u n + (b * c' + c * b') * dot e n).
  - destruct u, e, n. vsimpl. ring.
  - rewrite U, E, N, UE, UN, EN. ring.
Qed.
Lemma local_vel : forall v g ps th ph, rel_vel v g ps th ph = local th ph (v * sin g) (v * cos g * cos ps) (v * cos g * sin ps).
Proof. reflexivity. Qed.
Lemma local_pos : forall r th ph, sph_pos r th ph = local th ph r 0 0.
Proof. intros. unfold sph_pos, local. generalize (up_dir th ph) (east_dir th) (north_dir th ph). intros [] [] []. apply vec_eq; vsimpl; ring. Qed.
Lemma local_lin : forall th ph k a b c a' b' c', vadd (local th ph a b c) (vscale k (local th ph a' b' c')) = local th ph (a + k * a') (b + k * b') (c + k * c').
Proof. intros. unfold local. generalize (up_dir th ph) (east_dir th) (north_dir th ph). intros [] [] []. apply vec_eq; vsimpl; ring. Qed.
Lemma local_scale : forall th ph k a b c, vscale k (local th ph a b c) = local th ph (k * a) (k * b) (k * c).
Proof. intros. unfold local. generalize (up_dir th ph) (east_dir th) (north_dir th ph). intros [] [] []. apply vec_eq; vsimpl; ring. Qed.
Lemma local_add : forall th ph a b c a' b' c', vadd (local th ph a b c) (local th ph a' b' c') = local th ph (a + a') (b + b') (c + c').
Proof. intros. unfold local. generalize (up_dir th ph) (east_dir th) (north_dir th ph). intros [] [] []. apply vec_eq; vsimpl; ring. Qed.
Lemma local_spin : forall Om th ph a b c, cross (V3 0 0 Om) (local th ph a b c) = local th ph (- Om * cos ph * b) (Om * (cos ph * a - sin ph * c)) (Om * sin ph * b).
Proof.
  intros. unfold local, up_dir, east_dir, north_dir. pose proof (sin2cos2 ph) as B. apply vec_eq; vsimpl; generalize dependent (sin ph); generalize dependent (cos ph); intros; nsatz.
Qed.
Lemma along_local : forall g ps th ph, along_dir g ps th ph = local th ph (sin g) (cos g * cos ps) (cos g * sin ps).
Proof. reflexivity. Qed.
Lemma normal_local : forall g ps th ph, normal_dir g ps th ph = local th ph (cos g) (- sin g * cos ps) (- sin g * sin ps).
Proof. reflexivity. Qed.
Lemma left_local : forall ps th ph, left_dir ps th ph = local th ph 0 (- sin ps) (cos ps).
Proof. intros. unfold left_dir, local. generalize (up_dir th ph) (east_dir th) (north_dir th ph). intros [] [] []. apply vec_eq; vsimpl; ring. Qed.

(** Derivative of a vector given in the moving local frame. *)
Lemma local_deriv : forall th ph a b c t dth dph da db dc,
  derivable_pt_lim th t dth -> derivable_pt_lim ph t dph -> derivable_pt_lim a t da -> derivable_pt_lim b t db -> derivable_pt_lim c t dc ->
  velocity_is (fun u => local (th u) (ph u) (a u) (b u) (c u)) t
    (local (th t) (ph t) (da - b t * dth * cos (ph t) - c t * dph)
                         (db + a t * dth * cos (ph t) - c t * dth * sin (ph t))
                         (dc + a t * dph + b t * dth * sin (ph t))).
Proof.
  intros th ph a b c t dth dph da db dc Hth Hph Ha Hb Hc. unfold local, up_dir, east_dir, north_dir. vsimpl.
  pose proof (sin2cos2 (ph t)) as Q.
  unfold velocity_is. cbn [vx vy vz]. split; [|split]; dlim; generalize dependent (sin (ph t)); generalize dependent (cos (ph t)); intros; nsatz.
Qed.

Lemma dot_vadd_l : forall a b c, dot (vadd a b) c = dot a c + dot b c.
Proof. intros [] [] []. vsimpl. ring. Qed.
Lemma dot_vscale : forall k a b, dot (vscale k a) b = k * dot a b.
Proof. intros k [] []. vsimpl. ring. Qed.
Lemma dot_sym : forall a b, dot a b = dot b a.
Proof. intros [] []. vsimpl. ring. Qed.
(** The trajectory frame is orthonormal. *)
Lemma traj_frame : forall g ps th ph, let s := along_dir g ps th ph in let n := normal_dir g ps th ph in let w := left_dir ps th ph in
  dot s s = 1 /\ dot n n = 1 /\ dot w w = 1 /\ dot s n = 0 /\ dot s w = 0 /\ dot n w = 0.
Proof.
  intros g ps th ph. cbv zeta. rewrite along_local, normal_local, left_local, !dot_local.
  pose proof (sin2cos2 g) as A. pose proof (sin2cos2 ps) as B.
  assert (B' : cos ps * cos ps = 1 - sin ps * sin ps) by lra. assert (A' : cos g * cos g = 1 - sin g * sin g) by lra.
  split. { transitivity (sin g * sin g + (cos g * cos g) * (sin ps * sin ps + cos ps * cos ps)); [ring|]. rewrite B. lra. }
  split. { transitivity (cos g * cos g + (sin g * sin g) * (sin ps * sin ps + cos ps * cos ps)); [ring|]. rewrite B. lra. }
  split. { lra. }
  split. { transitivity (sin g * cos g * (1 - (sin ps * sin ps + cos ps * cos ps))); [ring|]. rewrite B. ring. }
  split; ring.
Qed.
(** Any vector is the sum of its components in the trajectory frame. *)
Lemma in_local : forall th ph F, F = local th ph (dot F (up_dir th ph)) (dot F (east_dir th)) (dot F (north_dir th ph)).
Proof.
  intros th ph [x y z]. unfold local, up_dir, east_dir, north_dir. pose proof (sin2cos2 th) as A. pose proof (sin2cos2 ph) as B.
  apply vec_eq; vsimpl; generalize dependent (sin ph); generalize dependent (cos ph); generalize dependent (sin th); generalize dependent (cos th); intros; nsatz.
Qed.
Lemma decompose : forall g ps th ph F, F = vadd (vscale (dot F (along_dir g ps th ph)) (along_dir g ps th ph))
  (vadd (vscale (dot F (normal_dir g ps th ph)) (normal_dir g ps th ph)) (vscale (dot F (left_dir ps th ph)) (left_dir ps th ph))).
Proof.
  intros g ps th ph F. rewrite (in_local th ph F). set (a := dot F (up_dir th ph)). set (b := dot F (east_dir th)). set (c := dot F (north_dir th ph)). clearbody a b c. clear F.
  rewrite along_local, normal_local, left_local, !dot_local, !local_scale, !local_add.
  pose proof (sin2cos2 g) as A. pose proof (sin2cos2 ps) as B.
  f_equal; generalize dependent (sin g); generalize dependent (cos g); generalize dependent (sin ps); generalize dependent (cos ps); intros; nsatz.
Qed.

(** Kinematics: how the Cartesian velocity changes when speed, heading and flight-path angle change at
    given rates and the position follows the velocity. *)
Lemma kinematics : forall (r th ph v ps g : R -> R) t dv dps dg, r t <> 0 -> cos (ph t) <> 0 ->
  derivable_pt_lim r t (v t * sin (g t)) -> derivable_pt_lim th t (v t * cos (g t) * cos (ps t) / (r t * cos (ph t))) ->
  derivable_pt_lim ph t (v t * cos (g t) * sin (ps t) / r t) ->
  derivable_pt_lim v t dv -> derivable_pt_lim ps t dps -> derivable_pt_lim g t dg ->
  velocity_is (fun u => sph_pos (r u) (th u) (ph u)) t (rel_vel (v t) (g t) (ps t) (th t) (ph t)) /\
  velocity_is (fun u => rel_vel (v u) (g u) (ps u) (th u) (ph u)) t
    (vadd (vscale dv (along_dir (g t) (ps t) (th t) (ph t)))
      (vadd (vscale (v t * dg - v t * v t * cos (g t) / r t) (normal_dir (g t) (ps t) (th t) (ph t)))
        (vscale (v t * cos (g t) * dps + v t * v t * (cos (g t) * cos (g t)) * cos (ps t) * (sin (ph t) / cos (ph t)) / r t) (left_dir (ps t) (th t) (ph t))))).
Proof.
  intros r th ph v ps g t dv dps dg Hr Hc Dr Dth Dph Dv Dps Dg. split.
  - assert (X : velocity_is (fun u => local (th u) (ph u) (r u) 0 0) t
      (local (th t) (ph t) (v t * sin (g t) - 0 * (v t * cos (g t) * cos (ps t) / (r t * cos (ph t))) * cos (ph t) - 0 * (v t * cos (g t) * sin (ps t) / r t))
         (0 + r t * (v t * cos (g t) * cos (ps t) / (r t * cos (ph t))) * cos (ph t) - 0 * (v t * cos (g t) * cos (ps t) / (r t * cos (ph t))) * sin (ph t))
         (0 + r t * (v t * cos (g t) * sin (ps t) / r t) + 0 * (v t * cos (g t) * cos (ps t) / (r t * cos (ph t))) * sin (ph t)))).
    { apply (local_deriv th ph r (fun _ => 0) (fun _ => 0)); auto; apply dl_const. }
    assert (E : local (th t) (ph t) (v t * sin (g t) - 0 * (v t * cos (g t) * cos (ps t) / (r t * cos (ph t))) * cos (ph t) - 0 * (v t * cos (g t) * sin (ps t) / r t))
         (0 + r t * (v t * cos (g t) * cos (ps t) / (r t * cos (ph t))) * cos (ph t) - 0 * (v t * cos (g t) * cos (ps t) / (r t * cos (ph t))) * sin (ph t))
         (0 + r t * (v t * cos (g t) * sin (ps t) / r t) + 0 * (v t * cos (g t) * cos (ps t) / (r t * cos (ph t))) * sin (ph t)) = rel_vel (v t) (g t) (ps t) (th t) (ph t)).
    { rewrite local_vel. f_equal; field; auto. }
    rewrite E in X. destruct X as (X1 & X2 & X3).
    split; [|split]; [refine (dl_ext _ _ _ _ _ X1)|refine (dl_ext _ _ _ _ _ X2)|refine (dl_ext _ _ _ _ _ X3)]; intros u; rewrite local_pos; reflexivity.
  - set (a := fun u => v u * sin (g u)). set (b := fun u => v u * cos (g u) * cos (ps u)). set (c := fun u => v u * cos (g u) * sin (ps u)).
    assert (Da : derivable_pt_lim a t (dv * sin (g t) + v t * cos (g t) * dg)) by (unfold a; dlim; ring).
    assert (Db : derivable_pt_lim b t (dv * cos (g t) * cos (ps t) - v t * sin (g t) * dg * cos (ps t) - v t * cos (g t) * sin (ps t) * dps)) by (unfold b; dlim; ring).
    assert (Dc : derivable_pt_lim c t (dv * cos (g t) * sin (ps t) - v t * sin (g t) * dg * sin (ps t) + v t * cos (g t) * cos (ps t) * dps)) by (unfold c; dlim; ring).
    pose proof (local_deriv th ph a b c t _ _ _ _ _ Dth Dph Da Db Dc) as X. unfold a, b, c in X.
    match type of X with velocity_is _ _ ?d => match goal with |- velocity_is _ _ ?d' => replace d' with d; [exact X|] end end.
    rewrite along_local, normal_local, left_local, !local_scale, !local_add. clear X Da Db Dc a b c Dr Dth Dph Dv Dps Dg.
    pose proof (sin2cos2 (g t)) as A. pose proof (sin2cos2 (ps t)) as B.
    generalize dependent (sin (g t)). generalize dependent (cos (g t)). generalize dependent (sin (ps t)). generalize dependent (cos (ps t)). intros cp sp B cg sg A.
    assert (B' : sp * sp = 1 - cp * cp) by lra. assert (A' : sg * sg = 1 - cg * cg) by lra.
    f_equal.
    + transitivity (dv * sg + v t * cg * dg - v t * v t * cg * cg * (sp * sp + cp * cp) / r t); [field; auto|]. rewrite B. field. auto.
    + field. auto.
    + transitivity (dv * cg * sp - v t * sg * dg * sp + v t * cg * cp * dps + v t * v t * sg * cg * sp / r t + v t * v t * cg * cg * cp * cp * sin (ph t) / (r t * cos (ph t))); field; auto.
Qed.

Lemma EOM_some : forall V y delta asb, a_sbar V (s_r y) (s_theta y) (s_phi y) (s_v y) delta = Ok asb ->
  s_r y <> 0 -> s_v y <> 0 -> cos (s_phi y) <> 0 -> cos (s_gamma y) + 1e-2 <> 0 -> exists d, EOM V y delta = Ok (Some d).
Proof.
  intros V y delta asb Ha Hr Hv Hc Hg. unfold EOM. rewrite Ha. cbn [rbind].
  rewrite (np_div_some _ (s_r y * _)) by (apply Rmult_integral_contrapositive_currified; auto). rewrite !(np_div_some _ (s_r y)) by auto.
  unfold gsbar, gwbar, gnbar. rewrite grbar_some, gphibar_some by auto. cbn [obind].
  unfold cfpsibar, cfgammabar, copsibar. rewrite !(np_div_some _ (s_v y * _)) by (apply Rmult_integral_contrapositive_currified; auto).
  rewrite !np_div_some by auto. cbn [obind]. eexists. reflexivity.
Qed.
