(** Theorems about the force model and the equations of motion: C37-C41, C72. *)
From Coq Require Import String Nsatz List.
Require Import Verif.Base Verif.Numpy Verif.PlanetModel Verif.PlanetProofs Verif.FrameProofs Verif.ConicSpec Verif.FlightSpec Verif.DerivTactic Verif.AeroModel Verif.FlightProofs.
Local Open Scope R_scope.

Ltac half := repeat match goal with |- context [0.5] => replace 0.5 with (1 / 2) by lra | |- context [1.5] => replace 1.5 with (3 / 2) by lra end.

(** C37.  [q] is the dynamic pressure. *)
Theorem C37_aero_decomposition : forall mass beta LD A alpha RN p atm V r th ph v delta,
  Vehicle mass beta LD A alpha RN p atm false = Ok V ->
  let q := 1 / 2 * density p (density_int atm) (r - RP p) * v ^ 2 in
  exists D s, Drag V r th ph v = Ok D /\ a_s V r th ph v delta = Ok s /\
    Lift V r th ph v = LD * D /\ s = - D / mass /\ s = - q / beta /\
    a_n V r th ph v delta ^ 2 + a_w V r th ph v delta ^ 2 = (Lift V r th ph v / mass) ^ 2 /\
    a_n V r th ph v delta = cos delta * (LD * q / beta) /\ a_w V r th ph v delta = sin delta * (LD * q / beta) /\
    (forall delta', a_s V r th ph v delta' = Ok s) /\
    (0 < beta -> 0 <= density p (density_int atm) (r - RP p) -> s <= 0).
Proof.
  intros mass beta LD A alpha RN p atm V r th ph v delta H q.
  destruct (Vehicle_inv _ _ _ _ _ _ _ _ _ _ H) as (Hm & HbA & E1 & E2 & E3 & E4 & E5 & E6 & E7 & E8 & E9 & E10 & E11 & E12).
  assert (Hb : beta <> 0) by (intros ->; apply HbA; ring). assert (HA : A <> 0) by (intros ->; apply HbA; ring).
  assert (ED : Drag V r th ph v = Ok (q * mass / beta)).
  { unfold Drag, CD_scalar. rewrite E8. cbn [rbind]. f_equal. unfold rho_at, rho. rewrite E4, E6, E7, E10. unfold q. half. field. auto. }
  assert (EL : Lift V r th ph v = LD * (q * mass / beta)).
  { unfold Lift, rho_at, rho. rewrite E4, E6, E7, E11. unfold q. half. field. auto. }
  assert (ES : forall d, a_s V r th ph v d = Ok (- q / beta)).
  { intros d. unfold a_s. rewrite ED. cbn [rbind]. f_equal. rewrite E1. field. auto. }
  exists (q * mass / beta), (- q / beta). split; auto. split; auto. split; auto. split; [field; auto|]. split; auto.
  assert (EN : a_n V r th ph v delta = cos delta * (LD * q / beta)) by (unfold a_n; rewrite EL, E1; field; auto).
  assert (EW : a_w V r th ph v delta = sin delta * (LD * q / beta)) by (unfold a_w; rewrite EL, E1; field; auto).
  split. { rewrite EN, EW, EL. pose proof (sin2cos2 delta). transitivity ((LD * q / beta) ^ 2 * (sin delta * sin delta + cos delta * cos delta)); [ring|]. rewrite H0. field. auto. }
  split; auto. split; auto. split; auto. intros Hb0 Hd.
  assert (0 <= q / beta). { unfold q. apply Rmult_le_pos; [|left; apply Rinv_0_lt_compat; auto]. apply Rmult_le_pos; [lra|apply pow2_ge_0]. }
  unfold Rdiv in *. lra.
Qed.

(** The arrays used for loads hold, at every point inside the atmosphere, the accelerations the
    equations of motion use. *)
Theorem C37_vectorised_is_scalar : forall mass beta LD A alpha RN p atm V (rs vs : list R) delta k th ph,
  Vehicle mass beta LD A alpha RN p atm false = Ok V -> length vs = length rs -> (k < length rs)%nat ->
  0 <= nth k rs 0 - RP p <= h_thres p ->
  length (a_svectorized V rs vs delta) = length rs /\
  a_s V (nth k rs 0) th ph (nth k vs 0) delta = Ok (nth k (a_svectorized V rs vs delta) 0) /\
  a_n V (nth k rs 0) th ph (nth k vs 0) delta = nth k (a_nvectorized V rs vs delta) 0 /\
  a_w V (nth k rs 0) th ph (nth k vs 0) delta = nth k (a_wvectorized V rs vs delta) 0.
Proof.
  intros mass beta LD A alpha RN p atm V rs vs delta k th ph H Hlen Hk Hh.
  destruct (Vehicle_inv _ _ _ _ _ _ _ _ _ _ H) as (Hm & HbA & E1 & E2 & E3 & E4 & E5 & E6 & E7 & E8 & E9 & E10 & E11 & E12).
  assert (Hl1 : length (rho_vec V rs) = length rs) by (unfold rho_vec, rhovectorized; apply map_length).
  assert (Hl2 : length (combine (rho_vec V rs) vs) = length rs) by (rewrite combine_length, Hl1, Hlen; apply Nat.min_id).
  assert (Hr : nth k (rho_vec V rs) 0 = rho_at V (nth k rs 0) th ph).
  { unfold rho_vec, rhovectorized. rewrite nth_indep with (d' := density_int (vh_atm V) (0 - RP (vh_planet V))) by (rewrite map_length; auto).
    rewrite (map_nth (fun x => density_int (vh_atm V) (x - RP (vh_planet V)))). unfold rho_at, rho, density. rewrite E6. rcases; cbn [andb]; auto; lra. }
  assert (Hc : nth k (combine (rho_vec V rs) vs) (0, 0) = (rho_at V (nth k rs 0) th ph, nth k vs 0)).
  { rewrite combine_nth by (rewrite Hl1; auto). f_equal; auto. }
  assert (M : forall (X : Type) (f : R * R -> X) d', nth k (map f (combine (rho_vec V rs) vs)) d' = f (rho_at V (nth k rs 0) th ph, nth k vs 0)).
  { intros X f d'. rewrite nth_indep with (d' := f (0, 0)) by (rewrite map_length, Hl2; auto). rewrite map_nth, Hc. reflexivity. }
  split. { unfold a_svectorized, Dvectorized. rewrite !map_length. auto. }
  split; [|split].
  - unfold a_s, Drag, CD_scalar. rewrite E8. cbn [rbind]. f_equal. unfold a_svectorized, Dvectorized. rewrite map_map, M. reflexivity.
  - unfold a_n, a_nvectorized, Lvectorized. rewrite map_map, M. reflexivity.
  - unfold a_w, a_wvectorized, Lvectorized. rewrite map_map, M. reflexivity.
Qed.

(** C38 *)
Theorem C38_gravity_is_gradient : forall p r ph, r <> 0 ->
  exists gr gp, grbar p r ph = Some gr /\ gphibar p r ph = Some gp /\ gthetabar p r ph = 0 /\
  derivable_pt_lim (fun x => zonal_potential (J2 p) (J3 p) x ph) r gr /\
  derivable_pt_lim (fun x => zonal_potential (J2 p) (J3 p) r x / r) ph gp.
Proof.
  intros p r ph Hr. rewrite grbar_some, gphibar_some by auto. do 2 eexists. split; [reflexivity|]. split; [reflexivity|]. split; [reflexivity|].
  unfold zonal_potential, gr_of, gp_of. split.
  - dlim; auto; try (apply pow_nonzero; auto); unfold Rsqr; half; field; auto.
  - dlim; auto; try (apply pow_nonzero; auto); try lra; unfold Rsqr; half; field; auto.
Qed.
Theorem C38_projections : forall p r th ph g ps, r <> 0 ->
  exists gr gp gs gn gw, grbar p r ph = Some gr /\ gphibar p r ph = Some gp /\
    gsbar p r ph g ps = Some gs /\ gnbar p r ph g ps = Some gn /\ gwbar p r ph g ps = Some gw /\
    let G := vadd (vscale gr (up_dir th ph)) (vscale gp (north_dir th ph)) in
    gs = dot G (along_dir g ps th ph) /\ gn = dot G (normal_dir g ps th ph) /\ gw = dot G (left_dir ps th ph) /\
    gs ^ 2 + gn ^ 2 + gw ^ 2 = norm2 G.
Proof.
  intros p r th ph g ps Hr. unfold gsbar, gnbar, gwbar. rewrite grbar_some, gphibar_some by auto. cbn [obind]. unfold gthetabar.
  set (gr := gr_of _ _ _ _). set (gp := gp_of _ _ _ _ _). do 5 eexists. do 5 (split; [reflexivity|]). cbv zeta.
  assert (EG : vadd (vscale gr (up_dir th ph)) (vscale gp (north_dir th ph)) = local th ph gr 0 gp).
  { unfold local. generalize (up_dir th ph) (east_dir th) (north_dir th ph). intros [] [] []. apply vec_eq; vsimpl; ring. }
  rewrite EG, along_local, normal_local, left_local. unfold norm2. rewrite !dot_local.
  split; [ring|]. split; [ring|]. split; [ring|].
  pose proof (sin2cos2 g) as A. pose proof (sin2cos2 ps) as B.
  transitivity ((gr ^ 2 + sin ps * sin ps * gp ^ 2) * (sin g * sin g + cos g * cos g) + cos ps * cos ps * gp ^ 2); [ring|].
  rewrite A. transitivity (gr ^ 2 + gp ^ 2 * (sin ps * sin ps + cos ps * cos ps)); [ring|]. rewrite B. ring.
Qed.

(** A trajectory obeys the equations of motion at time t. *)
Definition flies (V : vehicle) (delta : R -> R) (y : R -> state) (t : R) : Prop :=
  exists d, EOM V (y t) (delta t) = Ok (Some d) /\
    derivable_pt_lim (fun u => s_r (y u)) t (s_r d) /\ derivable_pt_lim (fun u => s_theta (y u)) t (s_theta d) /\
    derivable_pt_lim (fun u => s_phi (y u)) t (s_phi d) /\ derivable_pt_lim (fun u => s_v (y u)) t (s_v d) /\
    derivable_pt_lim (fun u => s_psi (y u)) t (s_psi d) /\ derivable_pt_lim (fun u => s_gamma (y u)) t (s_gamma d) /\
    derivable_pt_lim (fun u => s_drange (y u)) t (s_drange d).
(** Ballistic drag per unit speed squared, per planet radius: rho RP / (2 beta). *)
Definition drag_coeff (p : planet) (atm : atmosphere) (beta rbar : R) : R := density p (density_int atm) (rbar * RP p - RP p) * RP p / (2 * beta).

Lemma bar_accels : forall mass beta LD A alpha RN p atm V r th ph v delta, Vehicle mass beta LD A alpha RN p atm false = Ok V ->
  0 < RP p -> 0 < rho0 p -> let k := drag_coeff p atm beta r in
  a_sbar V r th ph v delta = Ok (- (k * v ^ 2)) /\ a_nbar V r th ph v delta = LD * (k * v ^ 2) * cos delta /\ a_wbar V r th ph v delta = LD * (k * v ^ 2) * sin delta.
Proof.
  intros mass beta LD A alpha RN p atm V r th ph v delta H HRP Hr0 k.
  destruct (Vehicle_inv _ _ _ _ _ _ _ _ _ _ H) as (Hm & HbA & E1 & E2 & E3 & E4 & E5 & E6 & E7 & E8 & E9 & E10 & E11 & E12).
  assert (Hb : beta <> 0) by (intros ->; apply HbA; ring). assert (HA : A <> 0) by (intros ->; apply HbA; ring).
  unfold a_sbar, a_nbar, a_wbar, Dbar, Lbar, CD_scalar. rewrite E8. cbn [rbind]. rewrite E9, E10, E11, E12. unfold rhobar_at, rhobar, rho2, rho. rewrite E6, E7.
  unfold k, drag_coeff. half. split; [f_equal|split]; field; repeat split; auto; lra.
Qed.

(** C39.  In units of the planet's radius and circular speed. *)
Definition jacobi_of (p : planet) (y : state) : R := jacobi (J2 p) (J3 p) (OMEGAbar p) (s_r y) (s_phi y) (s_v y).
Theorem C39_jacobi_rate : forall name mass beta LD A alpha RN p atm V delta y t, Planet name = Ok p ->
  Vehicle mass beta LD A alpha RN p atm false = Ok V -> flies V delta y t ->
  derivable_pt_lim (fun u => jacobi_of p (y u)) t (- (drag_coeff p atm beta (s_r (y t)) * s_v (y t) ^ 3)).
Proof.
  intros name mass beta LD A alpha RN p atm V delta y t HP HV (d & HE & Hr & _ & Hph & Hv & _).
  destruct (Planet_facts _ _ HP) as (HRP & _ & Hr0 & _).
  destruct (bar_accels _ _ _ _ _ _ _ _ _ (s_r (y t)) (s_theta (y t)) (s_phi (y t)) (s_v (y t)) (delta t) HV HRP Hr0) as (As & _). cbv zeta in As.
  destruct (Vehicle_inv _ _ _ _ _ _ _ _ _ _ HV) as (_ & _ & _ & _ & _ & _ & _ & E6 & _).
  destruct (EOM_inv _ _ _ _ HE) as (R0 & V0 & C0 & G0 & asb & Hs & ->). rewrite E6 in *. cbn [s_r s_phi s_v] in Hr, Hph, Hv.
  rewrite As in Hs. injection Hs as <-. set (k := drag_coeff _ _ _ _) in *. clearbody k.
  unfold jacobi_of, jacobi, zonal_potential, gr_of, gp_of in *.
  dlim; try lra; try (apply pow_nonzero; auto); auto. unfold Rsqr. half.
  field. auto.
Qed.
Theorem C39_dissipation : forall name mass beta LD A alpha RN p atm V delta y t1 t2, Planet name = Ok p ->
  Vehicle mass beta LD A alpha RN p atm false = Ok V -> 0 < beta -> (forall h, 0 <= h <= h_thres p -> 0 <= density_int atm h) ->
  t1 <= t2 -> (forall t, t1 <= t <= t2 -> flies V delta y t /\ 0 <= s_v (y t)) ->
  jacobi_of p (y t2) <= jacobi_of p (y t1).
Proof.
  intros name mass beta LD A alpha RN p atm V delta y t1 t2 HP HV Hb Hd Ht Hfl.
  apply (nonincreasing_of_deriv (fun u => jacobi_of p (y u)) (fun t => - (drag_coeff p atm beta (s_r (y t)) * s_v (y t) ^ 3))); auto.
  - intros c Hc. eapply C39_jacobi_rate; eauto. apply Hfl; auto.
  - intros c Hc. destruct (Hfl c Hc) as (_ & Hv). destruct (Planet_facts _ _ HP) as (HRP & _ & Hr0 & _).
    assert (0 <= drag_coeff p atm beta (s_r (y c)) * s_v (y c) ^ 3); [|lra]. apply Rmult_le_pos; [|apply pow_le; auto].
    unfold drag_coeff. assert (0 <= density p (density_int atm) (s_r (y c) * RP p - RP p)).
    { unfold density. rcases; cbn [andb]; try lra; apply Hd; auto. }
    apply Rmult_le_pos; [nra|]. left. apply Rinv_0_lt_compat. lra.
Qed.
Theorem C39_vacuum : forall name mass beta LD A alpha RN p atm V delta y t1 t2, Planet name = Ok p ->
  Vehicle mass beta LD A alpha RN p atm false = Ok V ->
  t1 <= t2 -> (forall t, t1 <= t <= t2 -> flies V delta y t /\ 1 + h_thres p / RP p < s_r (y t)) ->
  jacobi_of p (y t2) = jacobi_of p (y t1).
Proof.
  intros name mass beta LD A alpha RN p atm V delta y t1 t2 HP HV Ht Hfl.
  apply (constant_of_deriv (fun u => jacobi_of p (y u))); auto. intros c Hc. destruct (Hfl c Hc) as (Hf & Hh).
  eapply dl_eq; [eapply C39_jacobi_rate; eauto|]. destruct (Planet_facts _ _ HP) as (HRP & _).
  assert (h_thres p < s_r (y c) * RP p - RP p).
  { apply Rmult_lt_compat_r with (r := RP p) in Hh; auto. rewrite Rmult_plus_distr_r in Hh. unfold Rdiv in Hh. rewrite Rmult_assoc, Rinv_l in Hh by lra. lra. }
  unfold drag_coeff. replace (density p (density_int atm) (s_r (y c) * RP p - RP p)) with 0; [unfold Rdiv; ring|].
  unfold density. rcases; cbn [andb]; lra.
Qed.

(** C40.  Newton's second law in the frame rotating with the planet, units of planet radius and
    circular speed: [F] is the total specific force (aerodynamic, gravitational, Coriolis, centrifugal).
    The code integrates exactly [F] except for its lateral component. *)
Theorem C40_rotating_newton : forall name mass beta LD A alpha RN p atm V delta y t, Planet name = Ok p ->
  Vehicle mass beta LD A alpha RN p atm false = Ok V -> flies V delta y t ->
  let r := s_r (y t) in let th := s_theta (y t) in let ph := s_phi (y t) in
  let v := s_v (y t) in let ps := s_psi (y t) in let g := s_gamma (y t) in
  let X := fun u => sph_pos (s_r (y u)) (s_theta (y u)) (s_phi (y u)) in
  let W := fun u => rel_vel (s_v (y u)) (s_gamma (y u)) (s_psi (y u)) (s_theta (y u)) (s_phi (y u)) in
  let k := drag_coeff p atm beta r * v ^ 2 in
  exists gr gp, derivable_pt_lim (fun x => zonal_potential (J2 p) (J3 p) x ph) r gr /\
    derivable_pt_lim (fun x => zonal_potential (J2 p) (J3 p) r x / r) ph gp /\
    let aero := vadd (vscale (- k) (along_dir g ps th ph))
      (vadd (vscale (LD * k * cos (delta t)) (normal_dir g ps th ph)) (vscale (LD * k * sin (delta t)) (left_dir ps th ph))) in
    let gravity := vadd (vscale gr (up_dir th ph)) (vscale gp (north_dir th ph)) in
    let F := vadd aero (vadd gravity (vadd (coriolis (OMEGAbar p) (W t)) (centrifugal (OMEGAbar p) (X t)))) in
    let lateral_error := 1e-2 / (cos g + 1e-2) * (dot F (left_dir ps th ph) + 2 * OMEGAbar p * v * cos g * sin ph) in
    velocity_is X t (W t) /\
    velocity_is W t (vsub F (vscale lateral_error (left_dir ps th ph))) /\
    derivable_pt_lim (fun u => s_drange (y u)) t (v * cos g).
Proof.
  intros name mass beta LD A alpha RN p atm V delta y t HP HV (d & HE & Hr & Hth & Hph & Hv & Hps & Hg & Hd) r th ph v ps g X W k.
  destruct (Planet_facts _ _ HP) as (HRP & _ & Hr0 & _).
  destruct (bar_accels _ _ _ _ _ _ _ _ _ r th ph v (delta t) HV HRP Hr0) as (As & An & Aw). cbv zeta in As, An, Aw. fold k in As, An, Aw.
  destruct (Vehicle_inv _ _ _ _ _ _ _ _ _ _ HV) as (_ & _ & _ & _ & _ & _ & _ & E6 & _).
  destruct (EOM_inv _ _ _ _ HE) as (R0 & V0 & C0 & G0 & asb & Hs & ->). fold r th ph v ps g in R0, V0, C0, G0, Hs, Hr, Hth, Hph, Hv, Hps, Hg, Hd.
  rewrite E6 in *. rewrite An, Aw in *. rewrite As in Hs. injection Hs as <-. cbn [s_r s_theta s_phi s_v s_psi s_gamma s_drange] in Hr, Hth, Hph, Hv, Hps, Hg, Hd.
  destruct (C38_gravity_is_gradient p r ph R0) as (gr & gp & Egr & Egp & _ & Dgr & Dgp). exists gr, gp. split; auto. split; auto.
  rewrite grbar_some in Egr by auto. rewrite gphibar_some in Egp by auto. injection Egr as Egr. injection Egp as Egp. rewrite Egr, Egp in *.
  intros aero gravity F lat. 
  destruct (kinematics (fun u => s_r (y u)) (fun u => s_theta (y u)) (fun u => s_phi (y u)) (fun u => s_v (y u)) (fun u => s_psi (y u)) (fun u => s_gamma (y u)) t _ _ _ R0 C0 Hr Hth Hph Hv Hps Hg) as (K1 & K2).
  split; [exact K1|]. split; [|exact Hd].
  match type of K2 with velocity_is _ _ ?d => replace (vsub F (vscale lat (left_dir ps th ph))) with d; [exact K2|] end. clear K1 K2 Hr Hth Hph Hv Hps Hg Hd Dgr Dgp Egr Egp HE As An Aw.
  fold r th ph v ps g. set (Om := OMEGAbar p) in *.
  destruct (traj_frame g ps th ph) as (SS & NN & WW & SN & SW & NW). cbv zeta in *.
  assert (EW : coriolis Om (W t) = local th ph (2 * Om * cos ph * (v * cos g * cos ps)) (-2 * Om * (cos ph * (v * sin g) - sin ph * (v * cos g * sin ps))) (-2 * Om * sin ph * (v * cos g * cos ps))).
  { unfold coriolis, W. fold th ph v ps g. rewrite local_vel, local_spin, local_scale. f_equal; ring. }
  assert (EX : centrifugal Om (X t) = local th ph (Om ^ 2 * r * cos ph * cos ph) 0 (- (Om ^ 2 * r * cos ph * sin ph))).
  { unfold centrifugal, X. fold r th ph. rewrite local_pos, !local_spin, local_scale. f_equal; ring. }
  assert (EG : gravity = local th ph gr 0 gp).
  { unfold gravity, local. generalize (up_dir th ph) (east_dir th) (north_dir th ph). intros [] [] []. apply vec_eq; vsimpl; ring. }
  set (G := vadd gravity (vadd (coriolis Om (W t)) (centrifugal Om (X t)))) in F.
  assert (EGG : G = local th ph (gr + (2 * Om * cos ph * (v * cos g * cos ps) + Om ^ 2 * r * cos ph * cos ph)) (0 + (-2 * Om * (cos ph * (v * sin g) - sin ph * (v * cos g * sin ps)) + 0))
     (gp + (-2 * Om * sin ph * (v * cos g * cos ps) + - (Om ^ 2 * r * cos ph * sin ph)))) by (unfold G; rewrite EW, EX, EG, !local_add; reflexivity).
  pose proof (sin2cos2 g) as Ag. pose proof (sin2cos2 ps) as Ap.
  assert (FS : dot F (along_dir g ps th ph) = - k + (sin g * gr + cos g * sin ps * gp) + Om ^ 2 * r * cos ph * (sin g * cos ph - cos g * sin ph * sin ps)).
  { unfold F, aero. rewrite !dot_vadd_l, !dot_vscale, SS, (dot_sym (normal_dir _ _ _ _)), SN, (dot_sym (left_dir _ _ _)), SW, EGG, along_local, dot_local. ring. }
  assert (FN : dot F (normal_dir g ps th ph) = LD * k * cos (delta t) + (cos g * gr - sin g * sin ps * gp) + Om ^ 2 * r * cos ph * (cos g * cos ph + sin g * sin ph * sin ps) + 2 * Om * v * cos ph * cos ps).
  { unfold F, aero. rewrite !dot_vadd_l, !dot_vscale, SN, NN, (dot_sym (left_dir _ _ _)), NW, EGG, normal_local, dot_local.
    transitivity (LD * k * cos (delta t) + (cos g * gr - sin g * sin ps * gp) + Om ^ 2 * r * cos ph * (cos g * cos ph + sin g * sin ph * sin ps) + 2 * Om * v * cos ph * cos ps * (sin g * sin g + cos g * cos g)); [ring|]. rewrite Ag. ring. }
  assert (FW : dot F (left_dir ps th ph) = LD * k * sin (delta t) + cos ps * gp - Om ^ 2 * r * sin ph * cos ph * cos ps + 2 * Om * v * sin g * cos ph * sin ps - 2 * Om * v * cos g * sin ph).
  { unfold F, aero. rewrite !dot_vadd_l, !dot_vscale, SW, NW, WW, EGG, left_local, dot_local.
    transitivity (LD * k * sin (delta t) + cos ps * gp - Om ^ 2 * r * sin ph * cos ph * cos ps + 2 * Om * v * sin g * cos ph * sin ps - 2 * Om * v * cos g * sin ph * (sin ps * sin ps + cos ps * cos ps)); [ring|]. rewrite Ap. ring. }
  rewrite (decompose g ps th ph F) at 1. unfold lat. rewrite FS, FN, FW.
  assert (G1 : forall a b c b' c' e (s n w : vec), b = b' -> c = c' - e -> vadd (vscale a s) (vadd (vscale b n) (vscale c w)) = vsub (vadd (vscale a s) (vadd (vscale b' n) (vscale c' w))) (vscale e w)).
  { intros; subst. destruct s, n, w; apply vec_eq; vsimpl; ring. }
  set (eps := 1e-2) in *. clearbody eps. apply G1; field; auto.
Qed.

(** Without the lateral error the code would be Newton's law; the error is an acceleration that no force
    produces: in vacuum, the rate of change of the inertial angular momentum about the polar axis. *)
Definition polar_momentum (Om : R) (y : state) : R := s_r y * cos (s_phi y) * (s_v y * cos (s_gamma y) * cos (s_psi y) + Om * (s_r y * cos (s_phi y))).
Theorem C40_polar_momentum_rate : forall name mass beta LD A alpha RN p atm V delta y t, Planet name = Ok p ->
  Vehicle mass beta LD A alpha RN p atm false = Ok V -> flies V delta y t -> 1 + h_thres p / RP p < s_r (y t) ->
  let r := s_r (y t) in let ph := s_phi (y t) in let v := s_v (y t) in let ps := s_psi (y t) in let g := s_gamma (y t) in let Om := OMEGAbar p in
  exists gp, derivable_pt_lim (fun x => zonal_potential (J2 p) (J3 p) r x / r) ph gp /\
  derivable_pt_lim (fun u => polar_momentum Om (y u)) t
    (r * cos ph * sin ps * (1e-2 / (cos g + 1e-2)) * (gp * cos ps - Om ^ 2 * r * sin ph * cos ph * cos ps + 2 * Om * v * sin g * cos ph * sin ps)).
Proof.
  intros name mass beta LD A alpha RN p atm V delta y t HP HV (d & HE & Hr & Hth & Hph & Hv & Hps & Hg & Hd) Hh r ph v ps g Om.
  destruct (Planet_facts _ _ HP) as (HRP & _ & Hr0 & _).
  destruct (bar_accels _ _ _ _ _ _ _ _ _ r (s_theta (y t)) ph v (delta t) HV HRP Hr0) as (As & An & Aw). cbv zeta in As, An, Aw.
  assert (K0 : drag_coeff p atm beta r = 0).
  { assert (h_thres p < r * RP p - RP p).
    { fold r in Hh. apply Rmult_lt_compat_r with (r := RP p) in Hh; auto. rewrite Rmult_plus_distr_r in Hh. unfold Rdiv in Hh. rewrite Rmult_assoc, Rinv_l in Hh by lra. lra. }
    unfold drag_coeff. replace (density p (density_int atm) (r * RP p - RP p)) with 0; [unfold Rdiv; ring|]. unfold density. rcases; cbn [andb]; lra. }
  rewrite K0, !Rmult_0_l in *. replace (LD * 0 * cos (delta t)) with 0 in An by ring. replace (LD * 0 * sin (delta t)) with 0 in Aw by ring.
  destruct (Vehicle_inv _ _ _ _ _ _ _ _ _ _ HV) as (_ & _ & _ & _ & _ & _ & _ & E6 & _).
  destruct (EOM_inv _ _ _ _ HE) as (R0 & V0 & C0 & G0 & asb & Hs & ->). fold r ph v ps g in R0, V0, C0, G0, Hs, Hr, Hth, Hph, Hv, Hps, Hg, Hd.
  rewrite E6 in *. rewrite An, Aw in *. rewrite As in Hs. injection Hs as <-. cbn [s_r s_theta s_phi s_v s_psi s_gamma s_drange] in Hr, Hth, Hph, Hv, Hps, Hg, Hd.
  destruct (C38_gravity_is_gradient p r ph R0) as (gr & gp & Egr & Egp & _ & Dgr & Dgp). exists gp. split; auto.
  rewrite grbar_some in Egr by auto. rewrite gphibar_some in Egp by auto. injection Egr as Egr. injection Egp as Egp. rewrite Egr, Egp in *. clear Egr Egp Dgr Dgp HE An Aw As Hth Hd.
  fold Om in Hv, Hps, Hg. unfold polar_momentum. dlim.
  fold r ph v ps g. pose proof (sin2cos2 g) as Ag. pose proof (sin2cos2 ps) as Ap.
  set (eps := 1e-2) in *. clearbody eps r ph v Om. clear Hr Hph Hv Hps Hg.
  generalize dependent (sin g). generalize dependent (cos g). generalize dependent (sin ps). generalize dependent (cos ps). intros cp sp Ap cg Hcg sg Ag.
  generalize dependent (sin ph). generalize dependent (cos ph). intros cf Hcf sf.
  assert (B' : sp * sp = 1 - cp * cp) by lra. assert (A' : sg * sg = 1 - cg * cg) by lra.
  apply Rminus_diag_uniq. field_simplify_eq; auto. cbn [pow].
  nsatz.
Qed.

Theorem C40_vacuum_momentum_not_conserved : forall name mass beta LD A alpha RN p atm V delta y t th x, Planet name = Ok p ->
  Vehicle mass beta LD A alpha RN p atm false = Ok V -> flies V delta y t -> y t = mkState 3 th 0 1 (PI / 2) (PI / 6) x ->
  exists d, d <> 0 /\ derivable_pt_lim (fun u => polar_momentum (OMEGAbar p) (y u)) t d.
Proof.
  intros name mass beta LD A alpha RN p atm V delta y t th x HP HV Hf Hy.
  destruct (Planet_facts _ _ HP) as (HRP & HGM & _ & _ & _ & HH & Hskip & HOm & _).
  assert (Hh : 1 + h_thres p / RP p < s_r (y t)).
  { rewrite Hy. cbn [s_r]. assert (h_thres p / RP p < 1); [|lra]. apply Rmult_lt_reg_r with (RP p); auto. unfold Rdiv. rewrite Rmult_assoc, Rinv_l by lra. lra. }
  destruct (C40_polar_momentum_rate _ _ _ _ _ _ _ _ _ _ _ _ _ HP HV Hf Hh) as (gp & _ & D). eexists. split; [|exact D].
  rewrite Hy. cbn [s_r s_phi s_v s_psi s_gamma]. rewrite cos_0, sin_0, sin_PI2, cos_PI2, sin_PI6.
  assert (0 < cos (PI / 6)) by (pose proof PI_RGT_0; apply cos_gt_0; lra).
  assert (HO : OMEGAbar p <> 0).
  { unfold OMEGAbar, tau, Vref. assert (0 < sqrt (GM p / RP p)) by (apply sqrt_lt_R0; pos). assert (0 < RP p / sqrt (GM p / RP p)) by (apply Rdiv_lt_0_compat; auto).
    intros Z. destruct (Rmult_integral _ _ Z); [contradiction|lra]. }
  assert (0 < 1e-2 / (cos (PI / 6) + 1e-2)) by (apply Rdiv_lt_0_compat; lra).
  intros Z. destruct (Rmult_integral _ _ Z) as [Z1|Z1]; [lra|apply HO; lra].
Qed.

(** C41 *)
Lemma ref_facts : forall name p, Planet name = Ok p -> 0 < Vref p /\ Vref p * Vref p = GM p / RP p /\ 0 < tau p /\ tau p * Vref p = RP p /\ 0 < RP p /\ 0 < GM p /\ 0 < rho0 p.
Proof.
  intros name p HP. destruct (Planet_facts _ _ HP) as (HRP & HGM & Hr0 & _).
  assert (0 < GM p / RP p) by (apply Rdiv_lt_0_compat; auto). assert (0 < Vref p) by (apply sqrt_lt_R0; auto).
  split; auto. split; [apply sqrt_sqrt; lra|]. split; [apply Rdiv_lt_0_compat; auto|]. split; auto. unfold tau. field. lra.
Qed.
Theorem C41_same_accelerations : forall name mass beta LD A alpha RN p atm V rbar th ph vbar delta, Planet name = Ok p ->
  Vehicle mass beta LD A alpha RN p atm false = Ok V ->
  let g0 := GM p / RP p ^ 2 in let r := rbar * RP p in let v := vbar * Vref p in
  exists db d sb s, Dbar V rbar th ph vbar = Ok db /\ Drag V r th ph v = Ok d /\ d / mass = g0 * db /\
    a_sbar V rbar th ph vbar delta = Ok sb /\ a_s V r th ph v delta = Ok s /\ s = g0 * sb /\
    Lift V r th ph v / mass = g0 * Lbar V rbar th ph vbar /\
    a_n V r th ph v delta = g0 * a_nbar V rbar th ph vbar delta /\ a_w V r th ph v delta = g0 * a_wbar V rbar th ph vbar delta.
Proof.
  intros name mass beta LD A alpha RN p atm V rbar th ph vbar delta HP H g0 r v.
  destruct (ref_facts _ _ HP) as (HV & HV2 & _ & _ & HRP & HGM & Hr0).
  destruct (Vehicle_inv _ _ _ _ _ _ _ _ _ _ H) as (Hm & HbA & E1 & E2 & E3 & E4 & E5 & E6 & E7 & E8 & E9 & E10 & E11 & E12).
  assert (Hb : beta <> 0) by (intros ->; apply HbA; ring). assert (HA : A <> 0) by (intros ->; apply HbA; ring).
  unfold a_sbar, a_s, Dbar, Drag, a_n, a_w, a_nbar, a_wbar, Lift, Lbar, CD_scalar. rewrite E8. cbn [rbind]. unfold rhobar_at, rhobar, rho2, rho_at. rewrite E1, E4, E6, E7, E9, E10, E11, E12.
  fold r. set (w := rho p (density_int atm) r th ph). clearbody w.
  assert (Ev : v ^ 2 = vbar ^ 2 * (GM p / RP p)) by (unfold v; rewrite <- HV2; ring).
  assert (Eg : g0 = GM p / RP p / RP p) by (unfold g0; field; lra). rewrite Eg, Ev. clearbody v. clear Ev Eg g0 E1 E2 E3 E4 E5 E6 E7 E8 E9 E10 E11 E12 H HV2.
  do 4 eexists. split; [reflexivity|]. split; [reflexivity|]. half. split; [field; repeat split; auto; lra|]. split; [reflexivity|]. split; [reflexivity|].
  repeat split; field; repeat split; auto; lra.
Qed.

Lemma velocity_scaled : forall (f : R -> vec) c T t d, T <> 0 -> velocity_is f (t / T) d -> velocity_is (fun u => vscale c (f (u / T))) t (vscale (c / T) d).
Proof.
  intros f c T t d HT (H1 & H2 & H3).
  assert (G : forall h l, derivable_pt_lim h (t / T) l -> derivable_pt_lim (fun u => c * h (u / T)) t (c / T * l)).
  { intros h l H. assert (X : derivable_pt_lim (fun u => h (u / T)) t (l * (1 / T))).
    { apply (derivable_pt_lim_comp (fun u => u / T) h t (1 / T) l); auto. dlim; auto. unfold Rsqr. field. auto. }
    dlim. field. auto. }
  destruct d as [a b e]. cbn [vx vy vz] in *. split; [|split]; cbn [vscale vx vy vz]; [exact (G _ _ H1)|exact (G _ _ H2)|exact (G _ _ H3)].
Qed.

(** The dimensionalised trajectory obeys Newton's law in SI units. *)
Theorem C41_si_newton : forall name mass beta LD A alpha RN p atm V delta y t, Planet name = Ok p ->
  Vehicle mass beta LD A alpha RN p atm false = Ok V -> flies V delta y (t / tau p) ->
  let z := fun u => snd (dimensionalize p (u / tau p) (y (u / tau p))) in
  let r := s_r (z t) in let th := s_theta (z t) in let ph := s_phi (z t) in
  let v := s_v (z t) in let ps := s_psi (z t) in let g := s_gamma (z t) in
  let X := fun u => sph_pos (s_r (z u)) (s_theta (z u)) (s_phi (z u)) in
  let W := fun u => rel_vel (s_v (z u)) (s_gamma (z u)) (s_psi (z u)) (s_theta (z u)) (s_phi (z u)) in
  let k := density p (density_int atm) (r - RP p) * v ^ 2 / (2 * beta) in
  let dl := delta (t / tau p) in
  fst (dimensionalize p (t / tau p) (y (t / tau p))) = t /\
  exists gr gp, derivable_pt_lim (fun x => zonal_potential_si (GM p) (RP p) (J2 p) (J3 p) x ph) r gr /\
    derivable_pt_lim (fun x => zonal_potential_si (GM p) (RP p) (J2 p) (J3 p) r x / r) ph gp /\
    let aero := vadd (vscale (- k) (along_dir g ps th ph))
      (vadd (vscale (LD * k * cos dl) (normal_dir g ps th ph)) (vscale (LD * k * sin dl) (left_dir ps th ph))) in
    let gravity := vadd (vscale gr (up_dir th ph)) (vscale gp (north_dir th ph)) in
    let F := vadd aero (vadd gravity (vadd (coriolis (OMEGA p) (W t)) (centrifugal (OMEGA p) (X t)))) in
    let lateral_error := 1e-2 / (cos g + 1e-2) * (dot F (left_dir ps th ph) + 2 * OMEGA p * v * cos g * sin ph) in
    velocity_is X t (W t) /\ velocity_is W t (vsub F (vscale lateral_error (left_dir ps th ph))).
Proof.
  intros name mass beta LD A alpha RN p atm V delta y t HP HV Hf z r th ph v ps g X W k dl.
  destruct (ref_facts _ _ HP) as (HVr & HV2 & Htau & HtV & HRP & HGM & Hr0).
  destruct (Vehicle_inv _ _ _ _ _ _ _ _ _ _ HV) as (Hm & HbA & _). assert (Hb : beta <> 0) by (intros ->; apply HbA; ring).
  split. { unfold dimensionalize. cbn [fst]. field. lra. }
  set (T := tau p) in *. set (c := Vref p) in *.
  assert (R0 : s_r (y (t / T)) <> 0). { destruct Hf as (d & HE & _). apply EOM_inv in HE. tauto. }
  destruct (C40_rotating_newton _ _ _ _ _ _ _ _ _ _ _ _ _ HP HV Hf) as (gr & gp & Dgr & Dgp & KX & KW & _). cbv zeta in KX, KW.
  set (rb := s_r (y (t / T))) in *. set (vb := s_v (y (t / T))) in *.
  assert (Eth : s_theta (y (t / T)) = th) by reflexivity. assert (Eph : s_phi (y (t / T)) = ph) by reflexivity.
  assert (Eps : s_psi (y (t / T)) = ps) by reflexivity. assert (Eg : s_gamma (y (t / T)) = g) by reflexivity.
  rewrite Eth, Eph, Eps, Eg in *.
  assert (Er : r = rb * RP p) by reflexivity. assert (Ev : v = vb * c) by reflexivity.
  assert (Hc2 : GM p = c * c * RP p) by (rewrite HV2; field; lra).
  assert (HcT : c / T = GM p / (RP p * RP p)). { rewrite Hc2. replace T with (RP p / c) by (apply Rmult_eq_reg_r with c; [|lra]; rewrite HtV; field; lra). field. split; lra. }
  exists (GM p / (RP p * RP p) * gr), (GM p / (RP p * RP p) * gp).
  split. { assert (D1 : derivable_pt_lim (fun x => zonal_potential (J2 p) (J3 p) (x / RP p) ph) r (gr * (1 / RP p))).
    { apply (derivable_pt_lim_comp (fun x => x / RP p) (fun x => zonal_potential (J2 p) (J3 p) x ph) r (1 / RP p) gr).
      - dlim; [lra|]. unfold Rsqr. field. lra.
      - replace (r / RP p) with rb by (rewrite Er; field; lra). auto. }
    assert (D2 : derivable_pt_lim (fun x => GM p / RP p * zonal_potential (J2 p) (J3 p) (x / RP p) ph) r (GM p / (RP p * RP p) * gr)).
    { dlim. field. lra. }
    intros e He. destruct (D2 e He) as (del & Hd). assert (Hr : r <> 0) by (rewrite Er; apply Rmult_integral_contrapositive_currified; lra).
    assert (Hm1 : 0 < Rmin del (Rabs r)) by (apply Rmin_pos; [apply cond_pos|apply Rabs_pos_lt; auto]). exists (mkposreal _ Hm1). intros h Hh0 Hh1. cbn [pos] in Hh1.
    assert (E : forall x, x <> 0 -> zonal_potential_si (GM p) (RP p) (J2 p) (J3 p) x ph = GM p / RP p * zonal_potential (J2 p) (J3 p) (x / RP p) ph).
    { intros x Hx. unfold zonal_potential_si, zonal_potential. field; repeat split; auto; lra. }
    assert (r + h <> 0). { intros Z. assert (h = - r) by lra. subst h. rewrite Rabs_Ropp in Hh1. pose proof (Rmin_r del (Rabs r)). lra. }
    rewrite !E by auto. apply Hd; auto. pose proof (Rmin_l del (Rabs r)). lra. }
  split. { assert (D2 : derivable_pt_lim (fun x => GM p / (RP p * RP p) * (zonal_potential (J2 p) (J3 p) rb x / rb)) ph (GM p / (RP p * RP p) * gp)) by (eapply dl_eq; [apply (dl_mult (fun _ => GM p / (RP p * RP p)) (fun x => zonal_potential (J2 p) (J3 p) rb x / rb)); [apply dl_const|exact Dgp]|ring]).
    refine (dl_ext _ _ _ _ _ D2). intros x. unfold zonal_potential_si, zonal_potential. rewrite Er. field; repeat split; auto; lra. }
  intros aero gravity F lat.
  assert (Ek : k = GM p / (RP p * RP p) * (drag_coeff p atm beta rb * vb ^ 2)).
  { unfold k, drag_coeff. rewrite Er, Ev, Hc2. set (w := density _ _ _). field; repeat split; auto; lra. }
  set (X0 := fun u => sph_pos (s_r (y u)) (s_theta (y u)) (s_phi (y u))) in *.
  set (W0 := fun u => rel_vel (s_v (y u)) (s_gamma (y u)) (s_psi (y u)) (s_theta (y u)) (s_phi (y u))) in *.
  change (sph_pos rb th ph) with (X0 (t / T)) in *. change (rel_vel vb g ps th ph) with (W0 (t / T)) in *.
  assert (EX : forall u, X u = vscale (RP p) (X0 (u / T))). { intros u. unfold X, X0, z, dimensionalize. cbn [snd s_r s_theta s_phi]. unfold sph_pos. generalize (up_dir (s_theta (y (u / T))) (s_phi (y (u / T)))). intros []. apply vec_eq; vsimpl; ring. }
  assert (EW : forall u, W u = vscale c (W0 (u / T))). { intros u. unfold W, W0, z, dimensionalize. fold c. cbn [snd s_v s_psi s_gamma s_theta s_phi]. unfold rel_vel. generalize (up_dir (s_theta (y (u / T))) (s_phi (y (u / T)))) (east_dir (s_theta (y (u / T)))) (north_dir (s_theta (y (u / T))) (s_phi (y (u / T)))). intros [] [] []. apply vec_eq; vsimpl; ring. }
  assert (HVe : forall f f' t d, (forall u, f' u = f u) -> velocity_is f t d -> velocity_is f' t d).
  { intros f f' t0 d E (A1 & A2 & A3). split; [|split]; [refine (dl_ext _ _ _ _ _ A1)|refine (dl_ext _ _ _ _ _ A2)|refine (dl_ext _ _ _ _ _ A3)]; intros u; rewrite E; reflexivity. }
  set (s := along_dir g ps th ph) in *. set (n := normal_dir g ps th ph) in *. set (w := left_dir ps th ph) in *. set (up := up_dir th ph) in *. set (no := north_dir th ph) in *.
  assert (ET : RP p / T = c) by (replace T with (RP p / c) by (apply Rmult_eq_reg_r with c; [|lra]; rewrite HtV; field; lra); field; lra).
  assert (EO : OMEGAbar p = OMEGA p * (RP p / c)) by reflexivity.
  split. { apply (HVe _ _ _ _ EX). rewrite EW. rewrite <- ET. apply velocity_scaled; [lra|]. exact KX. }
  apply (HVe _ _ _ _ EW).
  pose proof (velocity_scaled W0 c T t _ ltac:(lra) KW) as Q.
  match type of Q with velocity_is _ _ ?d => replace (vsub F (vscale lat w)) with d; [exact Q|] end.
  unfold lat. rewrite HcT. clear KX KW Q.
  match goal with |- vscale _ (vsub ?f _) = _ => set (F0 := f) in * end.
  assert (EF : F = vscale (GM p / (RP p * RP p)) F0).
  { unfold F, F0, aero, gravity. rewrite (EX t), (EW t), Ek. rewrite EO.
    fold dl. rewrite Hc2. unfold coriolis, centrifugal. set (q := drag_coeff p atm beta rb * vb ^ 2). clearbody s n w up no q c. generalize (X0 (t / T)) (W0 (t / T)). intros [] []. destruct s, n, w, up, no.
    apply vec_eq; vsimpl; field; split; lra. }
  rewrite EF, dot_vscale, Ev. rewrite EO. rewrite Hc2.
  assert (Hg : cos g + 1e-2 <> 0). { destruct Hf as (d & HE & _). apply EOM_inv in HE. cbv zeta in HE. rewrite Eg in HE. tauto. }
  set (eps := 1e-2) in *. clearbody F0 w eps c. set (fw := dot F0 w). destruct F0, w. clearbody fw. apply vec_eq; vsimpl; field; repeat split; auto; lra.
Qed.

(** The right-hand side is a number exactly away from the polar, zero-radius, zero-speed singularities
    and the spurious one the regularisation creates (a flight-path angle just beyond the vertical). *)
Theorem C40_defined_iff : forall mass beta LD A alpha RN p atm V y delta, Vehicle mass beta LD A alpha RN p atm false = Ok V ->
  (exists d, EOM V y delta = Ok (Some d)) <-> s_r y <> 0 /\ s_v y <> 0 /\ cos (s_phi y) <> 0 /\ cos (s_gamma y) <> -1e-2.
Proof.
  intros mass beta LD A alpha RN p atm V y delta HV. destruct (Vehicle_inv _ _ _ _ _ _ _ _ _ _ HV) as (_ & _ & _ & _ & _ & _ & _ & _ & _ & E8 & _).
  split.
  - intros (d & H). apply EOM_inv in H. destruct H as (H1 & H2 & H3 & H4 & _). repeat split; auto. intros Z. apply H4. rewrite Z. lra.
  - intros (H1 & H2 & H3 & H4). assert (exists asb, a_sbar V (s_r y) (s_theta y) (s_phi y) (s_v y) delta = Ok asb) as (asb & Ha).
    { unfold a_sbar, Dbar, CD_scalar. rewrite E8. cbn [rbind]. eexists. reflexivity. }
    apply (EOM_some _ _ _ asb); auto. intros Z. apply H4. lra.
Qed.

(** C72 *)
Theorem C72_user_drag_law_raises : forall mass beta LD A alpha RN p atm V y delta f, Vehicle mass beta LD A alpha RN p atm true = Ok V ->
  EOM V y delta = Err AttributeError /\ EOM (setCDMachFunction V f) y delta = Err AttributeError /\
  Drag (setCDMachFunction V f) (s_r y) (s_theta y) (s_phi y) (s_v y) = Err AttributeError.
Proof.
  intros mass beta LD A alpha RN p atm V y delta f H. unfold Vehicle in H. rcases; try discriminate. injection H as <-.
  repeat split.
Qed.

(** Witnesses: a vehicle, a state at which it flies, and an exact solution of the equations of motion
    (a circular equatorial orbit above the atmosphere of VENUS). *)
Definition wit_atm : atmosphere := mkAtm (fun h => exp (- h / 15000)) (fun _ => 200) (fun h => exp (- h / 15000)) (fun _ => 300).
Example C37_witness : exists V, Vehicle 1000 100 0.25 10 0 1 VENUS wit_atm false = Ok V /\ 0 <= (6051.8e3 + 50e3) - RP VENUS <= h_thres VENUS.
Proof. unfold Vehicle. rcases; try lra. eexists. split; [reflexivity|cbn [RP VENUS h_thres]; lra]. Qed.
Lemma wit_vehicle : exists V, Vehicle 1000 100 0.25 10 0 1 VENUS wit_atm false = Ok V.
Proof. destruct C37_witness as (V & H & _). eauto. Qed.
Lemma venus_spin : OMEGAbar VENUS < 0.
Proof.
  destruct (ref_facts "VENUS"%string VENUS eq_refl) as (_ & _ & Ht & _). unfold OMEGAbar.
  assert (OMEGA VENUS < 0) by (cbn [OMEGA VENUS]; lra). nra.
Qed.
Definition circ_v : R := sqrt (1 / 2 + 3 / 16 * J2 VENUS) - 2 * OMEGAbar VENUS.
Definition circ (t : R) : state := mkState 2 (circ_v / 2 * t) 0 circ_v 0 0 (circ_v * t).
Example C39_witness : exists V, Vehicle 1000 100 0.25 10 0 1 VENUS wit_atm false = Ok V /\
  (forall h, 0 <= h <= h_thres VENUS -> 0 <= density_int wit_atm h) /\
  forall t, flies V (fun _ => 0) circ t /\ 0 <= s_v (circ t) /\ 1 + h_thres VENUS / RP VENUS < s_r (circ t).
Proof.
  destruct wit_vehicle as (V & HV). exists V. split; auto. split. { intros h _. cbn [density_int wit_atm]. left. apply exp_pos. }
  assert (HJ : J2 VENUS = 4.458e-6) by reflexivity. pose proof venus_spin as HO.
  assert (Hs : 0 < sqrt (1 / 2 + 3 / 16 * J2 VENUS)) by (apply sqrt_lt_R0; rewrite HJ; lra).
  assert (Hv : 0 < circ_v) by (unfold circ_v; lra).
  assert (Hh : 1 + h_thres VENUS / RP VENUS < 2) by (cbn [h_thres RP VENUS]; lra).
  intros t. split; [|split; [cbn [circ s_v]; lra|cbn [circ s_r]; exact Hh]].
  destruct (ref_facts "VENUS"%string VENUS eq_refl) as (_ & _ & _ & _ & HRP & _ & Hr0).
  destruct (bar_accels _ _ _ _ _ _ _ _ _ 2 (circ_v / 2 * t) 0 circ_v 0 HV HRP Hr0) as (As & An & Aw). cbv zeta in As, An, Aw.
  assert (K0 : drag_coeff VENUS wit_atm 100 2 = 0).
  { unfold drag_coeff. replace (density VENUS (density_int wit_atm) (2 * RP VENUS - RP VENUS)) with 0; [unfold Rdiv; ring|]. unfold density.
    assert (h_thres VENUS < 2 * RP VENUS - RP VENUS) by (cbn [h_thres RP VENUS]; lra). rcases; cbn [andb]; lra. }
  rewrite K0 in *.
  destruct (EOM_some V (circ t) 0 _ As) as (d & Hd); cbn [circ s_r s_phi s_v s_gamma]; rewrite ?cos_0; try lra.
  exists d. split; auto. apply EOM_inv in Hd. destruct Hd as (_ & _ & _ & _ & asb & Ea & ->).
  destruct (Vehicle_inv _ _ _ _ _ _ _ _ _ _ HV) as (_ & _ & _ & _ & _ & _ & _ & E6 & _). rewrite E6 in *. cbn [circ s_r s_theta s_phi s_v s_psi s_gamma s_drange] in *.
  rewrite As in Ea. injection Ea as <-. rewrite An, Aw, sin_0, cos_0. unfold gp_of, gr_of. replace (J3 VENUS) with 0 by reflexivity.
  split; [eapply dl_eq; [apply dl_const|ring]|]. split; [dlim; field|]. split; [eapply dl_eq; [apply dl_const|field]|].
  split. { eapply dl_eq; [apply dl_const|]. half. field. }
  split. { eapply dl_eq; [apply dl_const|]. field. lra. }
  split; [|dlim; ring]. eapply dl_eq; [apply dl_const|].
  assert (Hsq : sqrt (1 / 2 + 3 / 16 * J2 VENUS) * sqrt (1 / 2 + 3 / 16 * J2 VENUS) = 1 / 2 + 3 / 16 * J2 VENUS) by (apply sqrt_sqrt; rewrite HJ; lra).
  assert (E : (circ_v + 2 * OMEGAbar VENUS) * (circ_v + 2 * OMEGAbar VENUS) = 1 / 2 + 3 / 16 * J2 VENUS). { rewrite <- Hsq. unfold circ_v. ring. }
  half. set (q := OMEGAbar VENUS) in *. set (j := J2 VENUS) in *. clearbody q j. clear As An Aw K0 Hs Hsq Hh. generalize dependent circ_v. intros v Hv E.
  apply Rmult_eq_reg_r with (2 * v); [|lra]. rewrite Rmult_0_l. symmetry.
  transitivity ((v + 2 * q) * (v + 2 * q) - (1 / 2 + 3 / 16 * j)); [field; lra|]. rewrite E. ring.
Qed.
Example C40_witness : exists V y, Vehicle 1000 100 0.25 10 0 1 VENUS wit_atm false = Ok V /\ flies V (fun _ => 0) y 0 /\ y 0 = mkState 3 0 0 1 (PI / 2) (PI / 6) 0.
Proof.
  destruct wit_vehicle as (V & HV). set (s := mkState 3 0 0 1 (PI / 2) (PI / 6) 0).
  assert (0 < cos (PI / 6)) by (pose proof PI_RGT_0; apply cos_gt_0; lra).
  destruct (proj2 (C40_defined_iff _ _ _ _ _ _ _ _ _ s 0 HV)) as (d & Hd). { cbn [s s_r s_v s_phi s_gamma]. rewrite cos_0. repeat split; lra. }
  exists V, (fun t => mkState (3 + s_r d * t) (s_theta d * t) (s_phi d * t) (1 + s_v d * t) (PI / 2 + s_psi d * t) (PI / 6 + s_gamma d * t) (s_drange d * t)).
  assert (E0 : mkState (3 + s_r d * 0) (s_theta d * 0) (s_phi d * 0) (1 + s_v d * 0) (PI / 2 + s_psi d * 0) (PI / 6 + s_gamma d * 0) (s_drange d * 0) = s) by (unfold s; f_equal; ring).
  split; auto. split; [|exact E0]. exists d. split; [cbv beta; rewrite E0; exact Hd|]. cbn [s_r s_theta s_phi s_v s_psi s_gamma s_drange].
  repeat split; dlim; ring.
Qed.
