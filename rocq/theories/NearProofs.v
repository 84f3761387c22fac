(** Continuous dependence of the solutions of the equations of motion inside the atmosphere. *)
From Coq Require Import String List Classical_Prop.
Require Import Verif.Base Verif.Numpy Verif.PlanetModel Verif.AeroModel Verif.TrajectoryModel Verif.PlanetProofs Verif.FlightProofs Verif.TrajectorySpec Verif.TrajectoryProofs Verif.ExactSpec Verif.ExactProofs
  Verif.DetSpec Verif.DetProofs Verif.NearSpec.
Import ListNotations.
Local Open Scope R_scope.

Lemma dist_sym : forall a b, dist a b = dist b a.
Proof. intros. unfold dist. rewrite (Rabs_minus_sym (s_r a)), (Rabs_minus_sym (s_theta a)), (Rabs_minus_sym (s_phi a)), (Rabs_minus_sym (s_v a)), (Rabs_minus_sym (s_psi a)), (Rabs_minus_sym (s_gamma a)), (Rabs_minus_sym (s_drange a)). reflexivity. Qed.
Lemma dist_tri : forall a b c, dist a c <= dist a b + dist b c.
Proof.
  intros. unfold dist. assert (T : forall u v w, Rabs (u - w) <= Rabs (u - v) + Rabs (v - w)) by (intros; replace (u - w) with ((u - v) + (v - w)) by ring; apply Rabs_triang).
  pose proof (T (s_r a) (s_r b) (s_r c)). pose proof (T (s_theta a) (s_theta b) (s_theta c)). pose proof (T (s_phi a) (s_phi b) (s_phi c)). pose proof (T (s_v a) (s_v b) (s_v c)).
  pose proof (T (s_psi a) (s_psi b) (s_psi c)). pose proof (T (s_gamma a) (s_gamma b) (s_gamma c)). pose proof (T (s_drange a) (s_drange b) (s_drange c)). lra.
Qed.
Lemma within_dist : forall eta a b, within eta a b -> dist a b <= 7 * eta.
Proof. intros eta a b H. unfold within in H. unfold dist. lra. Qed.
Lemma dist_within : forall eta a b, dist a b <= eta -> within eta a b.
Proof. intros eta a b. unfold dist, within. absall. intros. repeat split; lra. Qed.
(** A bounded coefficient near a state. *)
Lemma ll_bound1 : forall F x, loclip F x -> exists e M, 0 < e /\ 0 <= M /\ forall a, dist x a < e -> Rabs (F a) <= M.
Proof. exact ll_bound. Qed.
(** In the air around a state in the air. *)
Lemma air_open : forall p x, 0 < RP p -> in_air p x -> exists e, 0 < e /\ forall a, dist x a < e -> 0 <= s_r a * RP p - RP p <= h_thres p.
Proof.
  intros p x HR (I1 & I2). set (e := Rmin ((RP p * s_r x - RP p) / RP p) ((h_thres p - (RP p * s_r x - RP p)) / RP p)).
  assert (0 < e) by (apply Rmin_glb_lt; apply Rdiv_lt_0_compat; lra). exists e. split; auto.
  intros a Ha. assert (D : Rabs (s_r x - s_r a) < e) by (revert Ha; unfold dist; absall; lra). apply Rabs_def2 in D.
  pose proof (Rmin_l ((RP p * s_r x - RP p) / RP p) ((h_thres p - (RP p * s_r x - RP p)) / RP p)) as M1. pose proof (Rmin_r ((RP p * s_r x - RP p) / RP p) ((h_thres p - (RP p * s_r x - RP p)) / RP p)) as M2. fold e in M1, M2.
  assert (e * RP p <= RP p * s_r x - RP p) by (apply (Rmult_le_compat_r (RP p)) in M1; [|lra]; unfold Rdiv in M1; rewrite Rmult_assoc, Rinv_l, Rmult_1_r in M1 by lra; exact M1).
  assert (e * RP p <= h_thres p - (RP p * s_r x - RP p)) by (apply (Rmult_le_compat_r (RP p)) in M2; [|lra]; unfold Rdiv in M2; rewrite Rmult_assoc, Rinv_l, Rmult_1_r in M2 by lra; exact M2).
  nra.
Qed.
Definition aD (V : vehicle) : R := vh_Abar V * vh_CD V / vh_mbar V.
Definition aL (V : vehicle) : R := vh_Abar V * vh_CL V / vh_mbar V.
Lemma fas_is : forall V y, fas V y = - (0.5 * s_v y ^ 2) * (air_at V y * aD V).
Proof. intros. unfold fas, aD, Rdiv. ring. Qed.
Lemma fan_is : forall V d y, fan V d y = 0.5 * s_v y ^ 2 * (air_at V y * aL V * cos d).
Proof. intros. unfold fan, aL, Rdiv. ring. Qed.
Lemma faw_is : forall V d y, faw V d y = 0.5 * s_v y ^ 2 * (air_at V y * aL V * sin d).
Proof. intros. unfold faw, aL, Rdiv. ring. Qed.
Lemma prod_near : forall a b a' b' A B eta, Rabs a <= A -> Rabs b <= B -> Rabs (a - a') <= eta * A -> Rabs (b - b') <= eta * B -> 0 <= eta <= 1 -> Rabs (a * b - a' * b') <= eta * (3 * A * B).
Proof.
  intros a b a' b' A B eta Ha Hb Da Db He. replace (a * b - a' * b') with (a * (b - b') + (a - a') * b - (a - a') * (b - b')) by ring.
  eapply Rle_trans; [apply Rabs_triang|]. rewrite Rabs_Ropp. pose proof (Rabs_triang (a * (b - b')) ((a - a') * b)) as T. rewrite !Rabs_mult in *.
  pose proof (Rabs_pos a). pose proof (Rabs_pos b). pose proof (Rabs_pos (a - a')). pose proof (Rabs_pos (b - b')).
  assert (Rabs a * Rabs (b - b') <= A * (eta * B)) by (apply Rmult_le_compat; auto).
  assert (Rabs (a - a') * Rabs b <= (eta * A) * B) by (apply Rmult_le_compat; auto).
  assert (Rabs (a - a') * Rabs (b - b') <= (eta * A) * (eta * B)) by (apply Rmult_le_compat; auto).
  assert (0 <= A * B) by (apply Rmult_le_pos; lra). assert (eta * eta * (A * B) <= eta * (A * B)) by (apply Rmult_le_compat_r; nra). lra.
Qed.
(** The right hand sides of nearby vehicles at nearby bank angles are near each other. *)
Lemma field_change : forall V delta x, 0 < RP (vh_planet V) -> 0 < rho0 (vh_planet V) -> lipschitz_air (vh_planet V) (vh_atm V) -> in_air (vh_planet V) x ->
  s_r x <> 0 -> s_v x <> 0 -> cos (s_phi x) <> 0 -> cos (s_gamma x) + 1e-2 <> 0 ->
  exists e M, 0 < e /\ 0 <= M /\ forall V' delta' eta a, vehicle_within eta V V' -> Rabs (delta - delta') <= eta -> 0 <= eta <= 1 -> dist x a < e ->
    Rabs (f4 V a - f4 V' a) + Rabs (f5 V delta a - f5 V' delta' a) + Rabs (f6 V delta a - f6 V' delta' a) <= M * eta.
Proof.
  intros V delta x HR Hr0 HL HI Hr Hv Hc Hg.
  assert (La : loclip (air_at V) x) by (unfold air_at; apply (ll_mult _ (fun _ => / rho0 (vh_planet V))); [apply ll_density; auto|apply ll_const]).
  destruct (ll_bound _ _ La) as (e1 & A & He1 & HA & B1). destruct (air_open _ _ HR HI) as (e2 & He2 & B2).
  assert (L4 : loclip (fun a => 0.5 * s_v a ^ 2) x) by ll. destruct (ll_bound _ _ L4) as (e3 & M4 & He3 & HM4 & B4).
  assert (L5 : loclip (fun a => 0.5 * s_v a ^ 2 / (s_v a * (cos (s_gamma a) + 1e-2))) x) by ll. destruct (ll_bound _ _ L5) as (e4 & M5 & He4 & HM5 & B5).
  assert (L6 : loclip (fun a => 0.5 * s_v a ^ 2 / s_v a) x) by ll. destruct (ll_bound _ _ L6) as (e5 & M6 & He5 & HM6 & B6).
  set (A1 := A + 1 + / rho0 (vh_planet V)). set (D := Rabs (aD V) + 1). set (L := Rabs (aL V) + 1).
  exists (Rmin e1 (Rmin e2 (Rmin e3 (Rmin e4 e5)))), (M4 * (3 * A1 * D) + M5 * (3 * (3 * A1 * L) * 1) + M6 * (3 * (3 * A1 * L) * 1)).
  assert (Hi : 0 < / rho0 (vh_planet V)) by (apply Rinv_0_lt_compat; auto). pose proof (Rabs_pos (aD V)). pose proof (Rabs_pos (aL V)).
  assert (HA1 : 0 <= A1) by (unfold A1; lra). assert (HD : 0 <= D) by (unfold D; lra). assert (HLL : 0 <= L) by (unfold L; lra).
  split; [repeat apply Rmin_glb_lt; auto|]. split; [repeat apply Rplus_le_le_0_compat; repeat apply Rmult_le_pos; lra|].
  intros V' delta' eta a (EP & EU & ED & EL & EA) Ed He Ha.
  assert (dist x a < e1 /\ dist x a < e2 /\ dist x a < e3 /\ dist x a < e4 /\ dist x a < e5) as (U1 & U2 & U3 & U4 & U5).
  { revert Ha. pose proof (Rmin_l e4 e5). pose proof (Rmin_r e4 e5). set (m4 := Rmin e4 e5) in *. pose proof (Rmin_l e3 m4). pose proof (Rmin_r e3 m4). set (m3 := Rmin e3 m4) in *.
    pose proof (Rmin_l e2 m3). pose proof (Rmin_r e2 m3). set (m2 := Rmin e2 m3) in *. pose proof (Rmin_l e1 m2). pose proof (Rmin_r e1 m2). intros. lra. }
  specialize (B1 a U1). specialize (B2 a U2). specialize (B4 a U3). specialize (B5 a U4). specialize (B6 a U5). cbv beta in B4, B5, B6.
  assert (Da : Rabs (air_at V a - air_at V' a) <= eta * A1).
  { unfold air_at. rewrite EP. unfold density. destruct (Rleb_spec 0 (s_r a * RP (vh_planet V) - RP (vh_planet V))); [|lra]. destruct (Rleb_spec (s_r a * RP (vh_planet V) - RP (vh_planet V)) (h_thres (vh_planet V))); [|lra].
    unfold Rdiv. rewrite <- Rmult_minus_distr_r, Rabs_mult, (Rabs_right (/ _)) by lra. specialize (EA _ B2).
    eapply Rle_trans; [apply Rmult_le_compat_r; [lra|exact EA]|]. apply Rmult_le_compat_l; [lra|]. unfold A1. lra. }
  assert (HaA : Rabs (air_at V a) <= A1) by (unfold A1; lra).
  assert (P1 : Rabs (air_at V a * aD V - air_at V' a * aD V') <= eta * (3 * A1 * D)).
  { apply prod_near; auto; [unfold D; lra|]. unfold aD at 1 2. eapply Rle_trans; [exact ED|]. unfold D. nra. }
  assert (P2 : Rabs (air_at V a * aL V - air_at V' a * aL V') <= eta * (3 * A1 * L)).
  { apply prod_near; auto; [unfold L; lra|]. unfold aL at 1 2. eapply Rle_trans; [exact EL|]. unfold L. nra. }
  assert (Bp : Rabs (air_at V a * aL V) <= 3 * A1 * L).
  { rewrite Rabs_mult. assert (Rabs (air_at V a) * Rabs (aL V) <= A1 * L) by (apply Rmult_le_compat; auto using Rabs_pos; unfold L; lra). assert (0 <= A1 * L) by (apply Rmult_le_pos; auto). lra. }
  assert (SC : forall g, (forall u v, Rabs (g u - g v) <= Rabs (u - v)) -> (forall u, Rabs (g u) <= 1) -> Rabs (air_at V a * aL V * g delta - air_at V' a * aL V' * g delta') <= eta * (3 * (3 * A1 * L) * 1)).
  { intros g G1 G2. apply prod_near; auto. eapply Rle_trans; [apply G1|]. lra. }
  assert (SS : forall u, Rabs (sin u) <= 1) by (intros u; apply Rabs_le; pose proof (SIN_bound u); lra).
  assert (CC : forall u, Rabs (cos u) <= 1) by (intros u; apply Rabs_le; pose proof (COS_bound u); lra).
  pose proof (SC sin sin_lip SS) as P3. pose proof (SC cos cos_lip CC) as P4. clear SC.
  assert (G4 : f4 V a - f4 V' a = (0.5 * s_v a ^ 2) * - (air_at V a * aD V - air_at V' a * aD V')).
  { unfold f4, fgr, fgp. rewrite EP, !fas_is. ring. }
  assert (G5 : f5 V delta a - f5 V' delta' a = (0.5 * s_v a ^ 2 / (s_v a * (cos (s_gamma a) + 1e-2))) * (air_at V a * aL V * sin delta - air_at V' a * aL V' * sin delta')).
  { unfold f5, fgp. rewrite EP, !faw_is. unfold Rdiv. ring. }
  assert (G6 : f6 V delta a - f6 V' delta' a = (0.5 * s_v a ^ 2 / s_v a) * (air_at V a * aL V * cos delta - air_at V' a * aL V' * cos delta')).
  { unfold f6, fgr, fgp. rewrite EP, !fan_is. unfold Rdiv. ring. }
  rewrite G4, G5, G6. rewrite (Rabs_mult (0.5 * s_v a ^ 2)), Rabs_Ropp, (Rabs_mult (0.5 * s_v a ^ 2 / (s_v a * _))), (Rabs_mult (0.5 * s_v a ^ 2 / s_v a)).
  assert (Rabs (0.5 * s_v a ^ 2) * Rabs (air_at V a * aD V - air_at V' a * aD V') <= M4 * (eta * (3 * A1 * D))) by (apply Rmult_le_compat; auto using Rabs_pos).
  assert (Rabs (0.5 * s_v a ^ 2 / (s_v a * (cos (s_gamma a) + 1e-2))) * Rabs (air_at V a * aL V * sin delta - air_at V' a * aL V' * sin delta') <= M5 * (eta * (3 * (3 * A1 * L) * 1))) by (apply Rmult_le_compat; auto using Rabs_pos).
  assert (Rabs (0.5 * s_v a ^ 2 / s_v a) * Rabs (air_at V a * aL V * cos delta - air_at V' a * aL V' * cos delta') <= M6 * (eta * (3 * (3 * A1 * L) * 1))) by (apply Rmult_le_compat; auto using Rabs_pos).
  nra.
Qed.
(** A continuous quantity that cannot reach its bound while it stays below, never reaches it. *)
Lemma no_escape : forall h s t c, s <= t -> (forall u, s <= u <= t -> continuity_pt h u) -> (forall u, s <= u <= t -> (forall w, s <= w < u -> h w < c) -> h u < c) ->
  forall u, s <= u <= t -> h u < c.
Proof.
  intros h s t c Hst HC HS. set (E := fun u => s <= u <= t /\ forall w, s <= w <= u -> h w < c).
  assert (E_s : E s). { split; [lra|]. intros w Hw. replace w with s by lra. apply HS; [lra|]. intros; lra. }
  destruct (completeness E) as (m & Um & Lm). { exists t. intros u (Hu & _). lra. } { exists s. auto. }
  assert (Hm : s <= m <= t). { split; [apply Um; auto|]. apply Lm. intros u (Hu & _). lra. }
  assert (Below : forall u, s <= u < m -> h u < c).
  { intros u Hu. destruct (classic (exists w, E w /\ u < w)) as [(w & (Hw & Q) & L)|N]; [apply Q; lra|]. exfalso. assert (m <= u); [|lra]. apply Lm. intros w Ew. apply Rnot_lt_le. intros L. apply N. exists w. auto. }
  pose proof (HS m Hm Below) as Em.
  destruct (HC m Hm (c - h m) ltac:(lra)) as (a & Ha & Hd).
  assert (Near : forall u, Rabs (u - m) < a -> h u < c).
  { intros u Hu. destruct (Req_dec u m) as [->|N]; auto. assert (Q : Rabs (h u - h m) < c - h m) by (apply (Hd u); split; [split; [exact I|auto]|exact Hu]). apply Rabs_def2 in Q. lra. }
  set (u1 := Rmin t (m + a / 2)). assert (U1 : u1 <= t) by apply Rmin_l. assert (U2 : u1 <= m + a / 2) by apply Rmin_r. assert (U3 : m <= u1) by (apply Rmin_glb; lra).
  assert (E u1). { split; [lra|]. intros w Hw. destruct (Rlt_or_le w m) as [L|L]; [apply Below; lra|apply Near; apply Rabs_def1; lra]. }
  specialize (Um u1 H). assert (m = t). { assert (u1 = m) by lra. unfold u1, Rmin in H0. destruct (Rle_dec t (m + a / 2)); lra. } subst m.
  intros u Hu. destruct (Req_dec u t) as [->|N]; auto. apply Below. lra.
Qed.
(** Curves stay near for a while. *)
Lemma curve_near : forall u m e, 0 < e -> continuous_at u m -> exists a, 0 < a /\ forall t, Rabs (t - m) < a -> dist (u m) (u t) < e.
Proof.
  intros u m e He (C1 & C2 & C3 & C4 & C5 & C6 & C7).
  assert (P : forall g, continuity_pt g m -> exists a, 0 < a /\ forall t, Rabs (t - m) < a -> Rabs (g m - g t) < e / 7).
  { intros g C. destruct (C (e / 7) ltac:(lra)) as (a & Ha & Hd). exists a. split; auto. intros t Ht. destruct (Req_dec t m) as [->|N]; [rewrite Rminus_diag_eq, Rabs_R0 by auto; lra|].
    rewrite Rabs_minus_sym. apply (Hd t). split; [split; [exact I|auto]|exact Ht]. }
  destruct (P _ C1) as (a1 & H1 & G1). destruct (P _ C2) as (a2 & H2 & G2). destruct (P _ C3) as (a3 & H3 & G3). destruct (P _ C4) as (a4 & H4 & G4).
  destruct (P _ C5) as (a5 & H5 & G5). destruct (P _ C6) as (a6 & H6 & G6). destruct (P _ C7) as (a7 & H7 & G7).
  exists (Rmin a1 (Rmin a2 (Rmin a3 (Rmin a4 (Rmin a5 (Rmin a6 a7)))))). split; [repeat apply Rmin_glb_lt; auto|]. intros t Ht.
  assert (Rabs (t - m) < a1 /\ Rabs (t - m) < a2 /\ Rabs (t - m) < a3 /\ Rabs (t - m) < a4 /\ Rabs (t - m) < a5 /\ Rabs (t - m) < a6 /\ Rabs (t - m) < a7) as (U1 & U2 & U3 & U4 & U5 & U6 & U7).
  { revert Ht. pose proof (Rmin_l a6 a7). pose proof (Rmin_r a6 a7). set (m6 := Rmin a6 a7) in *. pose proof (Rmin_l a5 m6). pose proof (Rmin_r a5 m6). set (m5 := Rmin a5 m6) in *.
    pose proof (Rmin_l a4 m5). pose proof (Rmin_r a4 m5). set (m4 := Rmin a4 m5) in *. pose proof (Rmin_l a3 m4). pose proof (Rmin_r a3 m4). set (m3 := Rmin a3 m4) in *.
    pose proof (Rmin_l a2 m3). pose proof (Rmin_r a2 m3). set (m2 := Rmin a2 m3) in *. pose proof (Rmin_l a1 m2). pose proof (Rmin_r a1 m2). intros. lra. }
  specialize (G1 t U1). specialize (G2 t U2). specialize (G3 t U3). specialize (G4 t U4). specialize (G5 t U5). specialize (G6 t U6). specialize (G7 t U7). unfold dist. lra.
Qed.
Lemma Dsq_dist : forall y z t, Dsq y z t <= dist (y t) (z t) * dist (y t) (z t).
Proof.
  intros. unfold dist, Dsq. assert (A : forall u, u * u = Rabs u * Rabs u) by (intros; rewrite <- Rabs_mult; symmetry; apply Rabs_right; nra).
  rewrite (A (s_r (y t) - _)), (A (s_theta (y t) - _)), (A (s_phi (y t) - _)), (A (s_v (y t) - _)), (A (s_psi (y t) - _)), (A (s_gamma (y t) - _)), (A (s_drange (y t) - _)).
  absall. nra.
Qed.
Definition field (V : vehicle) (delta : R) (x : state) : state := mkState (f1 x) (f2 x) (f3 x) (f4 V x) (f5 V delta x) (f6 V delta x) (f7 x).
(** The rate of the squared distance, when both rates are bounded. *)
Lemma Dsq'_le : forall y z d e c q, dist d e <= q -> Dsq' y z d e c <= 2 * (dist (y c) (z c) * q).
Proof.
  intros y z d e c q Hq. pose proof (dist_pos (y c) (z c)) as Pd. unfold Dsq'.
  assert (B : forall u u', Rabs u <= dist (y c) (z c) -> u * u' <= dist (y c) (z c) * Rabs u').
  { intros u u' Hx. eapply Rle_trans; [apply le_abs_mult|]. apply Rmult_le_compat_r; [apply Rabs_pos|auto]. }
  assert (U : forall s, (s = s_r \/ s = s_theta \/ s = s_phi \/ s = s_v \/ s = s_psi \/ s = s_gamma \/ s = s_drange) -> Rabs (s (y c) - s (z c)) <= dist (y c) (z c)).
  { intros s Hs. unfold dist. repeat destruct Hs as [->|Hs]; try subst s; absall; lra. }
  pose proof (B _ (s_r d - s_r e) (U s_r ltac:(tauto))). pose proof (B _ (s_theta d - s_theta e) (U s_theta ltac:(tauto))). pose proof (B _ (s_phi d - s_phi e) (U s_phi ltac:(tauto))).
  pose proof (B _ (s_v d - s_v e) (U s_v ltac:(tauto))). pose proof (B _ (s_psi d - s_psi e) (U s_psi ltac:(tauto))).
  pose proof (B _ (s_gamma d - s_gamma e) (U s_gamma ltac:(tauto))). pose proof (B _ (s_drange d - s_drange e) (U s_drange ltac:(tauto))).
  apply (Rmult_le_compat_l _ _ _ Pd) in Hq. unfold dist at 2 in Hq. set (dd := dist (y c) (z c)) in *. lra.
Qed.
(** The derivative of a function as a function, wherever it has one. *)
Lemma rate_exists : forall f : R -> R, exists f', forall c d, derivable_pt_lim f c d -> f' c = d.
Proof.
  intros f. set (E := fun c v => (exists d, derivable_pt_lim f c d /\ v <= d) \/ ((forall d, ~ derivable_pt_lim f c d) /\ v <= 0)).
  assert (BD : forall c, bound (E c)).
  { intros c. destruct (classic (exists d, derivable_pt_lim f c d)) as [(d & H)|N].
    - exists d. intros v [(d' & H' & L)|(N & _)]; [rewrite (uniqueness_limite f c d d' H H'); auto|exfalso; eapply N; eauto].
    - exists 0. intros v [(d' & H' & _)|(_ & L)]; auto. exfalso. eauto. }
  assert (NE : forall c, exists v, E c v).
  { intros c. destruct (classic (exists d, derivable_pt_lim f c d)) as [(d & H)|N]; [exists d; left; exists d; split; auto; lra|exists 0; right; split; [|lra]]. intros d H. eauto. }
  exists (fun c => proj1_sig (completeness (E c) (BD c) (NE c))). intros c d H. destruct (completeness _ _ _) as (m & Um & Lm). cbn [proj1_sig]. apply Rle_antisym.
  - apply Lm. intros v [(d' & H' & L)|(N & _)]; [rewrite (uniqueness_limite f c d d' H H'); auto|exfalso; eapply N; eauto].
  - apply Um. left. exists d. split; auto. lra.
Qed.
Lemma nonincreasing_anyrate : forall f l a b, a <= b -> (forall c, a <= c <= b -> continuity_pt f c) ->
  (forall c, a < c < b -> ~ In c l -> exists d, derivable_pt_lim f c d /\ d <= 0) -> f b <= f a.
Proof.
  intros f l a b Hab Hc Hd. destruct (rate_exists f) as (f' & Hf). apply (nonincreasing_corners f f' l a b); auto.
  intros c Hcc Hn. destruct (Hd c Hcc Hn) as (d & D & L). rewrite (Hf c d D). auto.
Qed.
(** Gronwall's inequality for a solution and a nearby curve, while both stay where the right hand side is Lipschitz. *)
Lemma gronwall : forall V V' delta delta' y z l l' x e L M kap s t, vh_user V = false -> vh_user V' = false -> all_lip V delta e L x ->
  (forall a, dist x a < e -> Rabs (f4 V a - f4 V' a) + Rabs (f5 V delta a - f5 V' delta' a) + Rabs (f6 V delta a - f6 V' delta' a) <= M * kap) ->
  0 <= L -> 0 <= M -> 0 <= kap -> s <= t ->
  (forall c, s <= c <= t -> continuous_at y c /\ continuous_at z c) ->
  (forall c, s < c < t -> ~ In c l -> exists d, EOM V (y c) delta = Ok (Some d) /\ moving_by y c d) ->
  (forall c, s < c < t -> ~ In c l' -> exists d d', EOM V' (z c) delta' = Ok (Some d) /\ moving_by z c d' /\ within kap d' d) ->
  (forall c, s < c < t -> dist x (y c) < e /\ dist x (z c) < e) ->
  let K := 14 * L + 7 in let B := ((M + 7) * kap) * ((M + 7) * kap) in
  Dsq y z t + B <= (Dsq y z s + B) * exp (K * (t - s)).
Proof.
  intros V V' delta delta' y z l l' x e L M kap s t Hu Hu' HN HF HL0 HM Hk Hst HC HY HZ HB K B.
  assert (HB0 : 0 <= B) by (unfold B; apply sq_pos). assert (HK : 7 <= K) by (unfold K; lra).
  set (g := fun u => (Dsq y z u + B) * exp (- K * (u - s))).
  assert (G : g t <= g s).
  { apply (nonincreasing_anyrate g (l ++ l')); auto.
    - intros c Hcc. apply (ct_mult (fun u => Dsq y z u + B) (fun u => exp (- K * (u - s)))); [apply (ct_plus (Dsq y z) (fun _ => B)); [apply Dsq_continuous; apply (HC c Hcc)|apply ct_const]|].
      apply (ct_comp (fun u => - K * (u - s)) exp); [|apply derivable_continuous, derivable_exp].
      apply (ct_mult (fun _ => - K) (fun u => u - s)); [apply ct_const|]. apply (ct_minus (fun u => u) (fun _ => s)); [apply derivable_continuous_pt, derivable_pt_id|apply ct_const].
    - intros c Hcc Hn. destruct (HY c Hcc (fun Z => Hn (in_or_app _ _ _ (or_introl Z)))) as (d & D1 & M1). destruct (HZ c Hcc (fun Z => Hn (in_or_app _ _ _ (or_intror Z)))) as (d2 & d' & D2 & M2 & W).
      destruct (field_is _ _ _ _ Hu D1) as (Ed & _). destruct (field_is _ _ _ _ Hu' D2) as (Ed2 & _).
      exists ((Dsq' y z d d' c + 0) * exp (- K * (c - s)) + (Dsq y z c + B) * (exp (- K * (c - s)) * (- K))). split.
      + apply (derivable_pt_lim_mult (fun u => Dsq y z u + B) (fun u => exp (- K * (u - s)))); [apply (derivable_pt_lim_plus (Dsq y z) (fun _ => B)); [apply Dsq_rate; auto|apply derivable_pt_lim_const]|].
        apply (derivable_pt_lim_comp (fun u => - K * (u - s)) exp); [|apply derivable_pt_lim_exp].
        assert (EK : - K = 0 * (c - s) + - K * (1 - 0)) by ring. eapply eq_ind_r with (P := fun q => derivable_pt_lim (fun u => - K * (u - s)) c q); [|exact EK].
        apply (derivable_pt_lim_mult (fun _ => - K) (fun u => u - s)); [apply derivable_pt_lim_const|].
        apply (derivable_pt_lim_minus (fun u => u) (fun _ => s)); [apply derivable_pt_lim_id|apply derivable_pt_lim_const].
      + pose proof (exp_pos (- K * (c - s))) as Pe. set (ex := exp (- K * (c - s))) in *.
        destruct (HB c Hcc) as (B1 & B2). pose proof (HN (y c) (z c) B1 B2) as HN1. pose proof (HF (z c) B2) as HF1. pose proof (dist_Dsq y z c) as Q. pose proof (dist_pos (y c) (z c)) as Pd.
        assert (DD : dist d d' <= L * dist (y c) (z c) + (M + 7) * kap).
        { eapply Rle_trans; [apply (dist_tri d (field V delta (z c)) d')|]. pose proof (dist_tri (field V delta (z c)) d2 d') as T2. pose proof (within_dist _ _ _ W) as T3. rewrite dist_sym in T3.
          assert (T4 : dist (field V delta (z c)) d2 <= M * kap).
          { rewrite Ed2. unfold dist, field. cbn [s_r s_theta s_phi s_v s_psi s_gamma s_drange]. rewrite (Rminus_diag_eq (f1 (z c)) _ eq_refl), (Rminus_diag_eq (f2 (z c)) _ eq_refl), (Rminus_diag_eq (f3 (z c)) _ eq_refl), (Rminus_diag_eq (f7 (z c)) _ eq_refl), Rabs_R0. lra. }
          assert (T5 : dist d (field V delta (z c)) <= L * dist (y c) (z c)).
          { rewrite Ed. unfold dist at 1. unfold field. cbn [s_r s_theta s_phi s_v s_psi s_gamma s_drange]. lra. }
          lra. }
        assert (Bd : Dsq' y z d d' c <= K * Dsq y z c + B).
        { pose proof (Dsq'_le y z d d' c _ DD) as U. set (dd := dist (y c) (z c)) in *. set (rk := (M + 7) * kap) in *. unfold K, B. fold rk.
          assert (L * (dd * dd) <= L * (7 * Dsq y z c)) by (apply Rmult_le_compat_l; auto). pose proof (Rle_0_sqr (dd - rk)) as SQ. unfold Rsqr in SQ. lra. }
        pose proof (Dsq_pos y z c). assert (B <= K * B) by nra. nra. }
  unfold g in G. replace (- K * (s - s)) with 0 in G by ring. rewrite exp_0, Rmult_1_r in G.
  pose proof (exp_pos (K * (t - s))) as Pe. apply (Rmult_le_compat_r (exp (K * (t - s)))) in G; [|lra].
  rewrite Rmult_assoc, <- exp_plus in G. replace (- K * (t - s) + K * (t - s)) with 0 in G by ring. rewrite exp_0, Rmult_1_r in G. exact G.
Qed.
(** Around any time of the way, curves near at one time stay near. *)
Lemma near_local : forall V delta y T m, vh_user V = false -> 0 < RP (vh_planet V) -> 0 < rho0 (vh_planet V) -> lipschitz_air (vh_planet V) (vh_atm V) ->
  solves (fun x => EOM V x delta) y T -> 0 <= m <= T -> in_air (vh_planet V) (y m) ->
  exists a, 0 < a /\ forall eps, 0 < eps -> exists kap, 0 < kap <= 1 /\
    forall eta V' delta' z T' s s', 0 <= eta <= kap -> vehicle_within eta V V' -> Rabs (delta - delta') <= eta -> nearly_solves eta (fun x => EOM V' x delta') z T' ->
    0 <= s -> m - a < s -> s <= s' -> s' < m + a -> s' <= T -> s' <= T' -> dist (y s) (z s) <= kap -> forall t, s <= t <= s' -> dist (y t) (z t) < eps.
Proof.
  intros V delta y T m Hu HR Hr0 HL (l & S1) Hm HI. destruct (S1 m Hm) as (Cm & dm & Dm & _).
  destruct (field_is _ _ _ _ Hu Dm) as (_ & Hr & Hv & Hc & Hg).
  destruct (field_near V delta (y m) HR HL HI Hr Hv Hc Hg) as (e1 & L & He1 & HL0 & HN).
  destruct (field_change V delta (y m) HR Hr0 HL HI Hr Hv Hc Hg) as (e2 & M & He2 & HM & HF).
  set (e := Rmin e1 e2). assert (He : 0 < e) by (apply Rmin_glb_lt; auto). pose proof (Rmin_l e1 e2 : e <= e1) as Le1. pose proof (Rmin_r e1 e2 : e <= e2) as Le2.
  destruct (curve_near y m (e / 2) ltac:(lra) Cm) as (a & Ha & Na). exists a. split; auto. intros eps Heps.
  set (mu := Rmin eps (e / 2)). assert (Hmu : 0 < mu) by (apply Rmin_glb_lt; lra). pose proof (Rmin_l eps (e / 2) : mu <= eps) as Lm1. pose proof (Rmin_r eps (e / 2) : mu <= e / 2) as Lm2.
  set (K := 14 * L + 7). set (W := 7 * ((1 + (M + 7) * (M + 7)) * exp (K * (2 * a)))).
  assert (HW : 1 <= W). { assert (1 <= exp (K * (2 * a))). { pose proof (exp_ineq1_le (K * (2 * a))). assert (0 <= K * (2 * a)) by (apply Rmult_le_pos; unfold K; lra). lra. }
    assert (1 <= 1 + (M + 7) * (M + 7)) by nra. unfold W. nra. }
  set (kap := Rmin 1 (mu / (2 * W))). assert (Hq : 0 < mu / (2 * W)) by (apply Rdiv_lt_0_compat; lra). assert (Hk : 0 < kap) by (apply Rmin_glb_lt; lra).
  pose proof (Rmin_l 1 (mu / (2 * W)) : kap <= 1) as Lk1. pose proof (Rmin_r 1 (mu / (2 * W)) : kap <= mu / (2 * W)) as Lk2.
  assert (KW : kap * kap * W < mu * mu).
  { assert (kap * (2 * W) <= mu). { apply (Rmult_le_compat_r (2 * W)) in Lk2; [|lra]. unfold Rdiv in Lk2. rewrite Rmult_assoc, Rinv_l, Rmult_1_r in Lk2 by lra. exact Lk2. }
    assert (kap < mu) by nra. nra. }
  exists kap. split; [lra|]. intros eta V' delta' z T' s s' Heta HV Hd (l' & S2) Hs0 Hsa Hss Hsb HsT HsT' HD.
  assert (Hu' : vh_user V' = false) by apply HV.
  assert (Y : forall u, s <= u <= s' -> dist (y m) (y u) < e / 2) by (intros u Hu1; apply Na; apply Rabs_def1; lra).
  assert (HQ : forall u, s <= u <= s' -> 7 * Dsq y z u < mu * mu).
  { apply (no_escape (fun u => 7 * Dsq y z u)); auto.
    - intros u Hu1. apply (ct_mult (fun _ => 7) (Dsq y z)); [apply ct_const|]. apply Dsq_continuous; [apply (S1 u)|apply (S2 u)]; lra.
    - intros u Hu1 Hb.
      assert (Zn : forall c, s < c < u -> dist (y m) (y c) < e1 /\ dist (y m) (z c) < e1 /\ dist (y m) (z c) < e2).
      { intros c Hc1. specialize (Y c ltac:(lra)). specialize (Hb c ltac:(lra)). pose proof (dist_Dsq y z c) as Q. pose proof (dist_pos (y c) (z c)) as Pd.
        assert (dist (y c) (z c) < mu) by nra. pose proof (dist_tri (y m) (y c) (z c)). lra. }
      pose proof (gronwall V V' delta delta' y z l l' (y m) e L M eta s u Hu Hu') as GR. cbv zeta in GR. fold K in GR.
      assert (G : Dsq y z u + (M + 7) * eta * ((M + 7) * eta) <= (Dsq y z s + (M + 7) * eta * ((M + 7) * eta)) * exp (K * (u - s))).
      { apply GR; auto; try lra.
        - intros b c Hb1 Hc1. apply HN; lra.
        - intros b Hb1. apply HF; auto; lra.
        - intros c Hc1. split; [apply (S1 c)|apply (S2 c)]; lra.
        - intros c Hc1 Hn. destruct (S1 c ltac:(lra)) as (_ & d & D1 & M1). exists d. split; auto. apply M1; auto; lra.
        - intros c Hc1 Hn. destruct (S2 c ltac:(lra)) as (_ & d & D1 & M1). destruct (M1 ltac:(lra) Hn) as (d' & M2 & W2). exists d, d'. auto.
        - intros c Hc1. specialize (Zn c Hc1). specialize (Y c ltac:(lra)). specialize (Hb c ltac:(lra)). pose proof (dist_Dsq y z c) as Q. pose proof (dist_pos (y c) (z c)) as Pd.
          assert (dist (y c) (z c) < mu) by nra. pose proof (dist_tri (y m) (y c) (z c)). lra. }
      pose proof (Dsq_dist y z s) as QD. pose proof (dist_pos (y s) (z s)) as Pd. pose proof (Dsq_pos y z s).
      assert (Ex : exp (K * (u - s)) <= exp (K * (2 * a))).
      { destruct (Req_dec (u - s) (2 * a)) as [->|N]; [lra|]. left. apply exp_increasing. apply Rmult_lt_compat_l; [unfold K; lra|lra]. }
      pose proof (exp_pos (K * (u - s))). pose proof (exp_pos (K * (2 * a))).
      assert (Bq : (M + 7) * eta * ((M + 7) * eta) <= (M + 7) * (M + 7) * (kap * kap)). { replace ((M + 7) * eta * ((M + 7) * eta)) with ((M + 7) * (M + 7) * (eta * eta)) by ring. apply Rmult_le_compat_l; nra. }
      assert (Dq : Dsq y z s <= kap * kap) by nra.
      assert (Sum : (Dsq y z s + (M + 7) * eta * ((M + 7) * eta)) * exp (K * (u - s)) <= (kap * kap * (1 + (M + 7) * (M + 7))) * exp (K * (2 * a))).
      { apply Rmult_le_compat; try lra. apply Rplus_le_le_0_compat; auto. apply sq_pos. }
      assert (0 <= (M + 7) * eta * ((M + 7) * eta)) by apply sq_pos. unfold W in KW. lra. }
  intros t Ht. specialize (HQ t Ht). pose proof (dist_Dsq y z t). pose proof (dist_pos (y t) (z t)). nra.
Qed.
(** Along the whole way. *)
Lemma near_all : forall V delta y T, vh_user V = false -> 0 < RP (vh_planet V) -> 0 < rho0 (vh_planet V) -> lipschitz_air (vh_planet V) (vh_atm V) ->
  solves (fun x => EOM V x delta) y T -> (forall t, 0 <= t <= T -> in_air (vh_planet V) (y t)) ->
  forall eps, 0 < eps -> exists kap, 0 < kap <= 1 /\
    forall eta V' delta' z T', 0 <= eta <= kap -> vehicle_within eta V V' -> Rabs (delta - delta') <= eta -> nearly_solves eta (fun x => EOM V' x delta') z T' ->
    dist (y 0) (z 0) <= kap -> forall t, 0 <= t -> t <= T -> t <= T' -> dist (y t) (z t) < eps.
Proof.
  intros V delta y T Hu HR Hr0 HL HS HI.
  destruct (Rlt_or_le T 0) as [LT|HT]; [intros eps Heps; exists 1; split; [lra|]; intros; lra|].
  set (P := fun s => forall eps, 0 < eps -> exists kap, 0 < kap <= 1 /\
    forall eta V' delta' z T', 0 <= eta <= kap -> vehicle_within eta V V' -> Rabs (delta - delta') <= eta -> nearly_solves eta (fun x => EOM V' x delta') z T' ->
    dist (y 0) (z 0) <= kap -> forall t, 0 <= t -> t <= s -> t <= T' -> dist (y t) (z t) < eps).
  change (P T).
  assert (P0 : P 0).
  { intros eps Heps. exists (Rmin 1 (eps / 2)). pose proof (Rmin_l 1 (eps / 2)). pose proof (Rmin_r 1 (eps / 2)). split; [split; [apply Rmin_glb_lt; lra|auto]|].
    intros. replace t with 0 by lra. lra. }
  set (E := fun s => 0 <= s <= T /\ P s). assert (E0 : E 0) by (split; [lra|auto]).
  destruct (completeness E) as (m & Um & Lm). { exists T. intros s (Hs & _). lra. } { exists 0. auto. }
  assert (Hm : 0 <= m <= T). { split; [apply Um; auto|]. apply Lm. intros s (Hs & _). lra. }
  destruct (near_local V delta y T m Hu HR Hr0 HL HS Hm (HI m Hm)) as (a & Ha & HA).
  assert (exists s0, E s0 /\ m - a < s0) as (s0 & (Hs0 & Ps0) & Ls0).
  { apply NNPP. intros N. assert (m <= m - a); [|lra]. apply Lm. intros s Es. apply Rnot_lt_le. intros Q. apply N. exists s. auto. }
  assert (Hs0m : s0 <= m) by (apply Um; split; auto).
  set (s1 := Rmin T (m + a / 2)). pose proof (Rmin_l T (m + a / 2) : s1 <= T) as U1. pose proof (Rmin_r T (m + a / 2) : s1 <= m + a / 2) as U2. assert (U3 : m <= s1) by (apply Rmin_glb; lra).
  assert (P1 : P s1).
  { intros eps Heps. destruct (HA eps Heps) as (kl & Hkl & HAl). destruct (Ps0 (Rmin eps kl) ltac:(apply Rmin_glb_lt; lra)) as (k0 & Hk0 & HP0).
    pose proof (Rmin_l eps kl) as M1. pose proof (Rmin_r eps kl) as M2. exists (Rmin kl k0). pose proof (Rmin_l kl k0). pose proof (Rmin_r kl k0).
    split; [split; [apply Rmin_glb_lt; lra|lra]|]. intros eta V' delta' z T' Heta HV Hd HZ HD t Ht0 Ht1 HtT.
    pose proof (HP0 eta V' delta' z T' ltac:(lra) HV Hd HZ ltac:(lra)) as Q. destruct (Rle_or_lt t s0) as [L|L]; [specialize (Q t Ht0 L HtT); lra|].
    specialize (Q s0 ltac:(lra) ltac:(lra) ltac:(lra)). apply (HAl eta V' delta' z T' s0 t); auto; lra. }
  assert (s1 <= m) by (apply Um; split; [lra|auto]). assert (s1 = T). { unfold s1, Rmin in *. destruct (Rle_dec T (m + a / 2)); lra. } match goal with H : s1 = T |- _ => rewrite <- H end. exact P1.
Qed.
