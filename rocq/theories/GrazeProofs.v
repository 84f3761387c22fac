(** Flights that start level, or nearly so, at the top of the atmosphere: the path bends up, or down. *)
From Coq Require Import List Reals Lra Lia Ranalysis5.
Require Import Verif.Base Verif.Numpy Verif.PlanetModel Verif.PlanetProofs Verif.AeroModel Verif.TrajectoryModel Verif.TrajectorySpec Verif.TrajectoryProofs Verif.FlightProofs
  Verif.ExactSpec Verif.ExactProofs Verif.DetSpec Verif.DetProofs Verif.NearSpec Verif.NearProofs Verif.ExistSpec Verif.ExistProofs Verif.PropExist Verif.ExitSpec Verif.ExitProofs Verif.EnterProofs.
Import ListNotations.
Local Open Scope R_scope.

(** Around a state the rates are bounded, and the flight-path angle grows at no less than half the rate it grows there, or falls at no less than half of it. *)
Lemma rates_near : forall W delta x, 0 < RP (vh_planet W) -> lipschitz_air (vh_planet W) (vh_atm W) -> regular (vh_planet W) x ->
  exists e B, 0 < e /\ 0 < B /\ forall a, dist x a < e -> (forall i, Rabs (comp (field W delta a) i) <= B) /\
    (0 < f6 W delta x -> f6 W delta x / 2 <= f6 W delta a) /\ (f6 W delta x < 0 -> f6 W delta a <= f6 W delta x / 2).
Proof.
  intros W delta x HR HL (I & R1 & R2 & R3 & R4). destruct (field_near W delta x HR HL I R1 R2 R3 R4) as (e & L & He & HL' & AW).
  set (k := Rabs (f6 W delta x) / 2). assert (Hk : 0 <= k) by (unfold k; pose proof (Rabs_pos (f6 W delta x)); lra). set (q := k / (L + 1)). 
  assert (Hq : 0 <= q /\ L * q <= k). { assert (E : (L + 1) * q = k) by (unfold q; field; lra). assert (0 <= q) by (unfold q; apply Rmult_le_pos; [auto|left; apply Rinv_0_lt_compat; lra]). split; auto. nra. }
  set (e' := if Req_EM_T k 0 then e else Rmin e q).
  assert (He' : 0 < e' <= e /\ (k <> 0 -> e' <= q)).
  { unfold e'. destruct (Req_EM_T k 0) as [Z|N]; [split; [lra|intros; contradiction]|]. assert (0 < q) by (unfold q; apply Rdiv_lt_0_compat; lra). split; [split; [apply Rmin_glb_lt; auto|apply Rmin_l]|intros _; apply Rmin_r]. }
  clearbody e'. exists e', (dist (field W delta x) (mkState 0 0 0 0 0 0 0) + L * e + 1). pose proof (dist_pos (field W delta x) (mkState 0 0 0 0 0 0 0)). split; [lra|]. split; [nra|]. intros a Ha.
  specialize (AW a x ltac:(lra) ltac:(rewrite dist_self; auto)). assert (D : dist (field W delta a) (field W delta x) <= L * dist a x) by (unfold dist at 1, field; cbn [s_r s_theta s_phi s_v s_psi s_gamma s_drange]; lra). rewrite (dist_sym a x) in D.
  assert (La : L * dist x a <= L * e) by (apply Rmult_le_compat_l; lra). pose proof (comp_dist (field W delta a) (field W delta x) 5) as C6. cbn [comp field s_gamma] in C6.
  assert (Q : k <> 0 -> Rabs (f6 W delta a - f6 W delta x) <= k). { intros N. assert (L * dist x a <= L * q) by (apply Rmult_le_compat_l; [auto|]; destruct He' as (_ & K); specialize (K N); lra). lra. }
  split; [|split; intros S6].
  - intros i. replace (comp (field W delta a) i) with (comp (field W delta a) i - comp (mkState 0 0 0 0 0 0 0) i) by (destruct i as [|[|[|[|[|[|i]]]]]]; cbn [comp s_r s_theta s_phi s_v s_psi s_gamma s_drange]; ring).
    eapply Rle_trans; [apply comp_dist|]. eapply Rle_trans; [apply (dist_tri _ (field W delta x))|]. lra.
  - assert (Ek : k = f6 W delta x / 2) by (unfold k; rewrite Rabs_right; lra). specialize (Q ltac:(lra)). apply Rabs_le_inv in Q. lra.
  - assert (Ek : k = - f6 W delta x / 2) by (unfold k; rewrite Rabs_left; lra). specialize (Q ltac:(lra)). apply Rabs_le_inv in Q. lra.
Qed.
(** Around a state every flight exists for a while and stays near, and its path bends the way it bends there. *)
Lemma bending_flow : forall W dl x, vh_user W = false -> 0 < RP (vh_planet W) -> lipschitz_air (vh_planet W) (vh_atm W) -> regular (vh_planet W) x ->
  forall e, 0 < e -> exists w rho, 0 < w <= e /\ 0 < rho /\ forall x0, dist x x0 < rho -> exists z, z 0 = x0 /\
    (forall t, 0 <= t <= w -> moving_by z t (field W dl (z t)) /\ regular (vh_planet W) (z t) /\ dist x (z t) < e) /\
    (0 < f6 W dl x -> forall s t, 0 <= s <= t -> t <= w -> f6 W dl x / 2 * (t - s) <= s_gamma (z t) - s_gamma (z s)) /\
    (f6 W dl x < 0 -> forall s t, 0 <= s <= t -> t <= w -> s_gamma (z t) - s_gamma (z s) <= f6 W dl x / 2 * (t - s)).
Proof.
  intros W dl x Hu HR HL RG eps Heps.
  destruct (exist_near W dl x Hu HR HL RG) as (rho & h & Hrho & Hh & EX). destruct (rates_near W dl x HR HL RG) as (e1 & B & He1 & HB & FB).
  set (e := Rmin eps e1). assert (He : 0 < e) by (apply Rmin_glb_lt; auto). pose proof (Rmin_l eps e1 : e <= _) as M1. pose proof (Rmin_r eps e1 : e <= _) as M2.
  set (w := Rmin (h / 2) (Rmin eps (e / (16 * B)))). assert (Hq : 0 < e / (16 * B)) by (apply Rdiv_lt_0_compat; lra). assert (Hw : 0 < w) by (repeat apply Rmin_glb_lt; lra).
  pose proof (Rmin_l (h / 2) (Rmin eps (e / (16 * B))) : w <= _) as N1. pose proof (Rmin_r (h / 2) (Rmin eps (e / (16 * B))) : w <= _) as N2. pose proof (Rmin_l eps (e / (16 * B))) as N3. pose proof (Rmin_r eps (e / (16 * B))) as N4.
  assert (BW : 8 * (B * w) <= e / 2). { assert (B * w <= B * (e / (16 * B))) by (apply Rmult_le_compat_l; lra). replace (B * (e / (16 * B))) with (e / 16) in H by (field; lra). lra. }
  pose proof (Rmin_l rho (e / 4)) as D1. pose proof (Rmin_r rho (e / 4)) as D2.
  exists w, (Rmin rho (e / 4)). split; [lra|]. split; [apply Rmin_glb_lt; lra|]. intros x0 Di. destruct (EX x0 ltac:(lra)) as (z & Ez & Hz). exists z. split; auto.
  assert (Cz : forall t, 0 <= t <= w -> continuous_at z t) by (intros t Htt; apply (moving_continuous z t _ (proj1 (Hz t ltac:(rewrite Rabs_right; lra))))).
  assert (Near : forall u, 0 <= u <= w -> dist x (z u) < e).
  { apply (no_escape (fun u => dist x (z u)) 0 w e); [lra|intros u Hu'; apply dist_continuous; auto|]. intros u Hu' Hb.
    assert (D : forall j, (j < 7)%nat -> Rabs (comp x0 j - comp (z u) j) <= B * (u - 0)).
    { intros j Hj. assert (DD : forall c, 0 < c < u -> exists r, derivable_pt_lim (fun s => comp (z s) j) c r /\ - B <= r <= B).
      { intros c Hcc. destruct (Hz c ltac:(rewrite Rabs_right; lra)) as (M & _). eexists. split; [apply comp_moving; exact M|]. apply Rabs_le_inv. apply FB. specialize (Hb c ltac:(lra)). lra. }
      assert (CC : forall c, 0 <= c <= u -> continuity_pt (fun s => comp (z s) j) c) by (intros c Hcc; apply comp_continuous; apply Cz; lra).
      pose proof (rate_bound (fun s => comp (z s) j) nil 0 u B ltac:(lra) CC) as R1. pose proof (rate_bound_low (fun s => comp (z s) j) nil 0 u (- B) ltac:(lra) CC) as R2. cbv beta in R1, R2. rewrite Ez in R1, R2. apply Rabs_le.
      assert (comp (z u) j - comp x0 j <= B * (u - 0)) by (apply R1; intros c Hcc _; destruct (DD c Hcc) as (r & Dr & Lr); exists r; split; auto; lra).
      assert (- B * (u - 0) <= comp (z u) j - comp x0 j) by (apply R2; intros c Hcc _; destruct (DD c Hcc) as (r & Dr & Lr); exists r; split; auto; lra). lra. }
    pose proof (dist_comp _ _ _ D) as DC. pose proof (dist_tri x x0 (z u)). assert (B * (u - 0) <= B * w) by (apply Rmult_le_compat_l; lra). lra. }
  assert (Dg : forall c, 0 <= c <= w -> derivable_pt_lim (fun u => s_gamma (z u)) c (f6 W dl (z c))) by (intros c Hcc; destruct (Hz c ltac:(rewrite Rabs_right; lra)) as (M & _); exact (comp_moving _ _ _ 5 M)).
  assert (Cg : forall c, 0 <= c <= w -> continuity_pt (fun u => s_gamma (z u)) c) by (intros c Hcc; exact (comp_continuous _ _ 5 (Cz c Hcc))).
  split; [|split].
  - intros t Htt. destruct (Hz t ltac:(rewrite Rabs_right; lra)) as (M & Rg). specialize (Near t Htt). split; auto. split; auto. lra.
  - intros S6 s t Hs Htw. apply (rate_bound_low (fun u => s_gamma (z u)) nil s t _ ltac:(lra)); [intros c Hcc; apply Cg; lra|]. intros c Hcc _. exists (f6 W dl (z c)). split; [apply Dg; lra|]. apply FB; auto. specialize (Near c ltac:(lra)). lra.
  - intros S6 s t Hs Htw. apply (rate_bound (fun u => s_gamma (z u)) nil s t _ ltac:(lra)); [intros c Hcc; apply Cg; lra|]. intros c Hcc _. exists (f6 W dl (z c)). split; [apply Dg; lra|]. apply FB; auto. specialize (Near c ltac:(lra)). lra.
Qed.
Lemma sin_low : forall a, 0 <= a <= 1 -> a / 2 <= sin a.
Proof.
  intros a Ha. destruct (Req_dec a 0) as [->|N]; [rewrite sin_0; lra|]. destruct (MVT_cor2 sin cos 0 a ltac:(lra) (fun c _ => derivable_pt_lim_sin c)) as (c & Ec & Hc). rewrite sin_0, !Rminus_0_r in Ec. rewrite Ec.
  pose proof PI2_3_2. assert (1 / 2 <= cos c); [|nra]. rewrite <- cos_PI3. apply cos_decr_1; lra.
Qed.
Lemma sin_high : forall a, 0 <= a -> sin a <= a.
Proof. intros a Ha. destruct (Req_dec a 0) as [->|N]; [rewrite sin_0; lra|]. left. apply sin_lt_x. lra. Qed.
(** [x] with another flight-path angle. *)
Definition tilted (x : state) (g : R) : state := mkState (s_r x) (s_theta x) (s_phi x) (s_v x) (s_psi x) g (s_drange x).
Lemma tilted_dist : forall x g, s_gamma x = 0 -> dist x (tilted x g) = Rabs g.
Proof. intros x g E. unfold dist, tilted. cbn [s_r s_theta s_phi s_v s_psi s_gamma s_drange]. rewrite E, Rminus_0_l, Rabs_Ropp, !Rminus_diag_eq, Rabs_R0 by reflexivity. ring. Qed.
(** Where the path of a level flight at the top bends up, every flight that enters there at a small enough angle leaves again, soon and without sinking much. *)
Lemma skips : forall V d x, vh_user V = false -> 0 < RP (vh_planet V) -> 0 < h_thres (vh_planet V) -> lipschitz_air (vh_planet V) (vh_atm V) ->
  at_top (vh_planet V) x -> s_gamma x = 0 -> 0 < s_v x -> 0 < f6 V (d * PI / 180) x ->
  forall eps, 0 < eps -> exists g0, 0 < g0 /\ forall g i, 0 < g < g0 -> entry_state (vh_planet V) i = tilted x (- g) ->
    exists T y, 0 < T < eps /\ leaves V i d T y /\ forall t, 0 <= t <= T -> dist x (y t) < eps.
Proof.
  intros V d x Hu HR H0 HL AT G0 Hv F6 eps0 Heps0. set (p := vh_planet V) in *. set (dl := d * PI / 180) in *. pose proof AT as (Etop & _).
  assert (F6' : f6 (capped V) dl x = f6 V dl x). { pose proof (f_equal s_gamma (capped_field V dl x ltac:(fold p; lra))) as Q. exact Q. }
  destruct (ll_pos (height p) x ltac:(unfold height; ll) ltac:(rewrite Etop; auto)) as (e3 & He3 & P3). set (v := s_v x) in *.
  set (e := Rmin (Rmin (eps0 / 2) e3) (Rmin 1 (v / 2))). assert (He : 0 < e) by (repeat apply Rmin_glb_lt; lra).
  pose proof (Rmin_l (Rmin (eps0 / 2) e3) (Rmin 1 (v / 2)) : e <= _) as L1. pose proof (Rmin_r (Rmin (eps0 / 2) e3) (Rmin 1 (v / 2)) : e <= _) as L2. pose proof (Rmin_l (eps0 / 2) e3) as L3. pose proof (Rmin_r (eps0 / 2) e3) as L4. pose proof (Rmin_l 1 (v / 2)) as L5. pose proof (Rmin_r 1 (v / 2)) as L6.
  destruct (bending_flow (capped V) dl x Hu HR (capped_lip V HL ltac:(fold p; lra)) (top_regular V _ x H0 AT) e He) as (w & rho & Hw & Hrho & FL). rewrite F6' in FL. set (k := f6 V dl x / 2) in *. assert (Hk : 0 < k) by (unfold k; lra).
  assert (Hkw : 0 < k * w) by (apply Rmult_lt_0_compat; lra). exists (Rmin rho (k * w / 16)). split; [apply Rmin_glb_lt; lra|]. pose proof (Rmin_l rho (k * w / 16)) as M1. pose proof (Rmin_r rho (k * w / 16)) as M2.
  intros g i Hg Ei. destruct (FL (tilted x (- g)) ltac:(rewrite tilted_dist, Rabs_Ropp, Rabs_right by lra; lra)) as (z & Ez & Hz & Up & _). specialize (Up F6). cbn [capped rigged vh_planet] in Hz. fold p in Hz.
  assert (Cz : forall t, 0 <= t <= w -> continuous_at z t) by (intros t Htt; apply (moving_continuous z t _ (proj1 (Hz t Htt)))).
  assert (Eg : s_gamma (z 0) = - g) by (rewrite Ez; reflexivity). assert (Er : s_r (z 0) = s_r x) by (rewrite Ez; reflexivity).
  assert (Vb : forall t, 0 <= t <= w -> v / 2 <= s_v (z t) <= 2 * v /\ -1 <= s_gamma (z t) <= 1).
  { intros t Htt. destruct (Hz t Htt) as (_ & _ & N). pose proof (comp_dist x (z t) 3) as C3. pose proof (comp_dist x (z t) 5) as C5. cbn [comp] in C3, C5. apply Rabs_le_inv in C3. apply Rabs_le_inv in C5. rewrite G0 in C5. fold v in C3. lra. }
  assert (Dr : forall c, 0 <= c <= w -> derivable_pt_lim (fun u => s_r (z u)) c (f1 (z c))) by (intros c Hcc; exact (comp_moving _ _ _ 0 (proj1 (Hz c Hcc)))).
  assert (Cr : forall c, 0 <= c <= w -> continuity_pt (fun u => s_r (z u)) c) by (intros c Hcc; exact (comp_continuous _ _ 0 (Cz c Hcc))).
  pose proof (Up 0 w ltac:(lra) ltac:(lra)) as Upw. rewrite Eg, Rminus_0_r in Upw.
  assert (Lev : exists t0, 0 <= t0 <= w /\ s_gamma (z t0) = 0).
  { destruct (IVT_interv (fun u => s_gamma (z u)) 0 w) as (t0 & A & B); [intros a Ha; exact (comp_continuous _ _ 5 (Cz a Ha))|lra|rewrite Eg; lra|lra|exists t0; auto]. }
  destruct Lev as (t0 & Ht0 & E0). pose proof (Up 0 t0 ltac:(lra) ltac:(lra)) as Up0. rewrite Eg, E0, Rminus_0_r in Up0. assert (Ht1 : t0 < w / 16) by nra. assert (Ht2 : 0 < t0) by (destruct (Req_dec t0 0) as [Q|]; [rewrite Q, Eg in E0; lra|lra]).
  assert (Neg : forall c, 0 <= c < t0 -> - g <= s_gamma (z c) < 0). { intros c Hc. pose proof (Up 0 c ltac:(lra) ltac:(lra)) as A. pose proof (Up c t0 ltac:(lra) ltac:(lra)) as B. rewrite Eg in A. rewrite E0 in B. assert (0 < k * (t0 - c)) by (apply Rmult_lt_0_compat; lra). assert (0 <= k * (c - 0)) by (apply Rmult_le_pos; lra). lra. }
  assert (Pos : forall c, t0 <= c <= w -> k * (c - t0) <= s_gamma (z c)) by (intros c Hc; pose proof (Up t0 c ltac:(lra) ltac:(lra)); lra).
  assert (Fall : forall t, 0 < t <= t0 -> s_r (z t) < s_r x).
  { intros t Htt. destruct (MVT_cor2 (fun u => s_r (z u)) (fun u => f1 (z u)) 0 t ltac:(lra)) as (c & Ec & Hc); [intros c Hcc; apply Dr; lra|]. rewrite Er in Ec. destruct (Neg c ltac:(lra)) as (A & B). destruct (Vb c ltac:(lra)) as (C & D). pose proof PI2_3_2. assert (sin (s_gamma (z c)) < 0) by (apply sin_lt_0_var; lra). unfold f1 in Ec. assert (s_v (z c) * sin (s_gamma (z c)) < 0) by nra. nra. }
  assert (Rise : forall s t, t0 <= s < t -> t <= w -> s_r (z s) < s_r (z t)).
  { intros s t Hs Htw. destruct (MVT_cor2 (fun u => s_r (z u)) (fun u => f1 (z u)) s t ltac:(lra)) as (c & Ec & Hc); [intros c Hcc; apply Dr; lra|]. pose proof (Pos c ltac:(lra)) as A. assert (0 < k * (c - t0)) by (apply Rmult_lt_0_compat; lra). destruct (Vb c ltac:(lra)) as (C & D). pose proof PI2_3_2. assert (0 < sin (s_gamma (z c))) by (apply sin_gt_0; lra). unfold f1 in Ec. assert (0 < s_v (z c) * sin (s_gamma (z c))) by (apply Rmult_lt_0_compat; lra). nra. }
  assert (Low : - (2 * v * g) * (t0 - 0) <= s_r (z t0) - s_r (z 0)).
  { apply (rate_bound_low (fun u => s_r (z u)) nil 0 t0 _ ltac:(lra)); [intros c Hcc; apply Cr; lra|]. intros c Hcc _. exists (f1 (z c)). split; [apply Dr; lra|]. destruct (Neg c ltac:(lra)) as (A & B). destruct (Vb c ltac:(lra)) as (C & D).
    pose proof (sin_high (- s_gamma (z c)) ltac:(lra)) as Q. rewrite sin_neg in Q. unfold f1. set (sg := sin (s_gamma (z c))) in *. destruct (Rle_or_lt 0 sg); nra. }
  assert (High : v * (k * w) / 8 * (w - 3 * w / 4) <= s_r (z w) - s_r (z (3 * w / 4))).
  { apply (rate_bound_low (fun u => s_r (z u)) nil (3 * w / 4) w _ ltac:(lra)); [intros c Hcc; apply Cr; lra|]. intros c Hcc _. exists (f1 (z c)). split; [apply Dr; lra|]. pose proof (Pos c ltac:(lra)) as A. destruct (Vb c ltac:(lra)) as (C & D).
    assert (B : k * (w / 2) <= k * (c - t0)) by (apply Rmult_le_compat_l; lra). pose proof (sin_low (s_gamma (z c)) ltac:(nra)) as Q. unfold f1. set (sg := sin (s_gamma (z c))) in *. assert (S1 : k * w / 4 <= sg) by lra. assert (v / 2 * (k * w / 4) <= s_v (z c) * sg) by (apply Rmult_le_compat; lra). lra. }
  assert (Back : s_r x < s_r (z w)).
  { pose proof (Rise t0 (3 * w / 4) ltac:(lra) ltac:(lra)) as A. rewrite Er in Low. assert (X1 : g * t0 <= k * w / 16 * (w / 16)) by (apply Rmult_le_compat; lra). assert (X2 : v * (g * t0) <= v * (k * w / 16 * (w / 16))) by (apply Rmult_le_compat_l; lra). assert (X3 : 0 < v * (k * w * w)) by (repeat apply Rmult_lt_0_compat; lra). nra. }
  assert (Top : exists T, t0 < T <= w /\ s_r (z T) = s_r x).
  { destruct (IVT_interv (fun u => s_r (z u) - s_r x) t0 w) as (T & A & B).
    - intros a Ha. apply (continuity_pt_minus (fun u => s_r (z u)) (fun _ => s_r x)); [apply Cr; lra|apply continuity_pt_const; intros a' b'; reflexivity].
    - lra.
    - specialize (Fall t0 ltac:(lra)). lra.
    - lra.
    - exists T. assert (T <> t0) by (intros Q; specialize (Fall t0 ltac:(lra)); rewrite Q in B; lra). split; lra. }
  destruct Top as (T & HT & ET).
  assert (Below : forall t, 0 < t < T -> s_r (z t) < s_r x). { intros t Htt. destruct (Rle_or_lt t t0); [apply Fall; lra|]. rewrite <- ET. apply Rise; lra. }
  assert (Hp : forall t, 0 <= t <= w -> 0 < height p (z t)) by (intros t Htt; apply P3; destruct (Hz t Htt) as (_ & _ & N); lra).
  assert (Hgt : forall t, 0 <= t <= T -> 0 <= height p (z t) <= h_thres p).
  { intros t Htt. split; [left; apply Hp; lra|]. rewrite <- Etop. assert (s_r (z t) <= s_r x) by (destruct (Req_dec t 0) as [->|]; [lra|destruct (Req_dec t T) as [->|]; [lra|left; apply Below; lra]]). unfold height. nra. }
  exists T, z. split; [lra|]. split; [|intros t Htt; destruct (Hz t ltac:(lra)) as (_ & _ & N); lra].
  split; [lra|]. split; [rewrite Ez; symmetry; exact Ei|]. split; [|split; [|split]].
  - exists nil. intros t Htt. destruct (Hz t ltac:(lra)) as (M & (_ & R1 & R2 & R3 & R4) & _). split; [apply (moving_continuous _ _ _ M)|]. exists (field V dl (z t)). split; [apply EOM_field; auto|]. intros _ _. rewrite <- capped_field; [exact M|apply Hgt; lra].
  - intros t Htt. fold p. destruct (Req_dec t 0) as [->|N].
    + right. split; auto. split; [unfold height; rewrite Er; exact Etop|]. rewrite Eg, sin_neg. pose proof PI2_3_2. destruct (Vb 0 ltac:(lra)) as (C & D). assert (0 < sin g) by (apply sin_gt_0; lra). nra.
    + left. pose proof (Below t ltac:(lra)) as B. pose proof (Hp t ltac:(lra)) as P. unfold in_air. unfold height in P, Etop. nra.
  - fold p. unfold height. rewrite ET. exact Etop.
  - pose proof (Pos T ltac:(lra)) as A. assert (0 < k * (T - t0)) by (apply Rmult_lt_0_compat; lra). destruct (Vb T ltac:(lra)) as (C & D). pose proof PI2_3_2. apply Rmult_lt_0_compat; [lra|]. apply sin_gt_0; lra.
Qed.
(** Where it bends down, every flight that enters there at a small enough angle, or level, goes on descending for a time that does not depend on the angle. *)
Lemma digs : forall V d x, vh_user V = false -> 0 < RP (vh_planet V) -> 0 < h_thres (vh_planet V) -> lipschitz_air (vh_planet V) (vh_atm V) ->
  at_top (vh_planet V) x -> s_gamma x = 0 -> 0 < s_v x -> f6 V (d * PI / 180) x < 0 ->
  exists m g0, 0 < m /\ 0 < g0 /\ forall g i, 0 < g < g0 -> entry_state (vh_planet V) i = tilted x (- g) ->
    exists y, passage V i d m y /\ (forall t, 0 <= t <= m -> s_v (y t) * sin (s_gamma (y t)) < 0) /\ forall s t, 0 <= s < t -> t <= m -> height (vh_planet V) (y t) < height (vh_planet V) (y s) /\ s_gamma (y t) < s_gamma (y s).
Proof.
  intros V d x Hu HR H0 HL AT G0 Hv F6. set (p := vh_planet V) in *. set (dl := d * PI / 180) in *. pose proof AT as (Etop & _).
  assert (F6' : f6 (capped V) dl x = f6 V dl x). { pose proof (f_equal s_gamma (capped_field V dl x ltac:(fold p; lra))) as Q. exact Q. }
  destruct (ll_pos (height p) x ltac:(unfold height; ll) ltac:(rewrite Etop; auto)) as (e3 & He3 & P3). set (v := s_v x) in *.
  set (e := Rmin e3 (Rmin 1 (v / 2))). assert (He : 0 < e) by (repeat apply Rmin_glb_lt; lra).
  pose proof (Rmin_l e3 (Rmin 1 (v / 2)) : e <= _) as L1. pose proof (Rmin_r e3 (Rmin 1 (v / 2)) : e <= _) as L2. pose proof (Rmin_l 1 (v / 2)) as L5. pose proof (Rmin_r 1 (v / 2)) as L6.
  destruct (bending_flow (capped V) dl x Hu HR (capped_lip V HL ltac:(fold p; lra)) (top_regular V _ x H0 AT) e He) as (w & rho & Hw & Hrho & FL). rewrite F6' in FL. set (k := f6 V dl x / 2) in *. assert (Hk : k < 0) by (unfold k; lra).
  exists w, rho. split; [lra|]. split; [auto|]. intros g i Hg Ei. destruct (FL (tilted x (- g)) ltac:(rewrite tilted_dist, Rabs_Ropp, Rabs_right by lra; lra)) as (z & Ez & Hz & _ & Dn). specialize (Dn F6). cbn [capped rigged vh_planet] in Hz. fold p in Hz.
  assert (Eg : s_gamma (z 0) = - g) by (rewrite Ez; reflexivity). assert (Er : s_r (z 0) = s_r x) by (rewrite Ez; reflexivity).
  assert (Sg : forall s t, 0 <= s < t -> t <= w -> s_gamma (z t) < s_gamma (z s)) by (intros s t Hs Htw; pose proof (Dn s t ltac:(lra) ltac:(lra)); assert (k * (t - s) < 0) by nra; lra).
  assert (Vb : forall t, 0 <= t <= w -> v / 2 <= s_v (z t) /\ -1 <= s_gamma (z t) <= - g).
  { intros t Htt. destruct (Hz t Htt) as (_ & _ & N). pose proof (comp_dist x (z t) 3) as C3. pose proof (comp_dist x (z t) 5) as C5. cbn [comp] in C3, C5. apply Rabs_le_inv in C3. apply Rabs_le_inv in C5. rewrite G0 in C5. fold v in C3. assert (s_gamma (z t) <= - g) by (destruct (Req_dec t 0) as [->|]; [lra|specialize (Sg 0 t ltac:(lra) ltac:(lra)); lra]). lra. }
  assert (Neg : forall t, 0 <= t <= w -> s_v (z t) * sin (s_gamma (z t)) < 0). { intros t Htt. destruct (Vb t Htt) as (C & D). pose proof PI2_3_2. assert (sin (s_gamma (z t)) < 0) by (apply sin_lt_0_var; lra). nra. }
  assert (Fall : forall s t, 0 <= s < t -> t <= w -> s_r (z t) < s_r (z s)).
  { intros s t Hs Htw. destruct (MVT_cor2 (fun u => s_r (z u)) (fun u => f1 (z u)) s t ltac:(lra)) as (c & Ec & Hc); [intros c Hcc; exact (comp_moving _ _ _ 0 (proj1 (Hz c ltac:(lra))))|]. specialize (Neg c ltac:(lra)). unfold f1 in Ec. nra. }
  assert (Hp : forall t, 0 <= t <= w -> 0 < height p (z t)) by (intros t Htt; apply P3; destruct (Hz t Htt) as (_ & _ & N); lra).
  assert (Below : forall t, 0 < t <= w -> height p (z t) < h_thres p) by (intros t Htt; rewrite <- Etop; specialize (Fall 0 t ltac:(lra) ltac:(lra)); rewrite Er in Fall; unfold height; nra).
  exists z. split; [|split; [auto|intros s t Hs Htw; split; [specialize (Fall s t Hs Htw); unfold height; nra|auto]]]. split; [rewrite Ez; symmetry; exact Ei|]. split.
  - exists nil. intros t Htt. destruct (Hz t Htt) as (M & (_ & R1 & R2 & R3 & R4) & _). split; [apply (moving_continuous _ _ _ M)|]. exists (field V dl (z t)). split; [apply EOM_field; auto|]. intros _ _. rewrite <- capped_field; auto. fold p. pose proof (Hp t Htt).
    destruct (Req_dec t 0) as [->|N]; [unfold height; rewrite Er; unfold height in Etop; lra|specialize (Below t ltac:(lra)); lra].
  - intros t Htt. fold p. destruct (Req_dec t 0) as [->|N]; [right; split; auto; split; [unfold height; rewrite Er; exact Etop|apply Neg; lra]|left]. specialize (Below t ltac:(lra)). pose proof (Hp t Htt) as P. unfold in_air. unfold height in P, Below. exact (conj P Below).
Qed.
