(** Flights through the top of the atmosphere, where the density jumps. *)
From Coq Require Import String List Classical.
Require Import Verif.Base Verif.Numpy Verif.PlanetModel Verif.AeroModel Verif.TrajectoryModel Verif.PlanetProofs Verif.FlightSpec Verif.FlightProofs Verif.PropFlight Verif.TrajectorySpec Verif.TrajectoryProofs Verif.ExactSpec Verif.ExactProofs
  Verif.DetSpec Verif.DetProofs Verif.NearSpec Verif.NearProofs Verif.ExistSpec Verif.ExistProofs Verif.ExitSpec.
Import ListNotations.
Local Open Scope R_scope.

(** The vehicle in an atmosphere that reaches a metre higher, with density profile [g]. *)
Definition higher (p : planet) : planet :=
  mkPlanet (ID p) (RP p) (OMEGA p) (GM p) (rho0 p) (CPCV p) (J2 p) (J3 p) (a0 p) (d0 p) (h_thres p + 1) (h_skip p) (h_trap p) (h_low p).
Definition rigged (V : vehicle) (g : R -> R) : vehicle :=
  mkVehicle (vh_mass V) (vh_beta V) (vh_LD V) (vh_A V) (vh_alpha V) (vh_RN V) (higher (vh_planet V))
    (mkAtm g (temp_int (vh_atm V)) (pressure_int (vh_atm V)) (sonic_int (vh_atm V))) (vh_user V) (vh_CDMach V) (vh_Abar V) (vh_mbar V) (vh_CD V) (vh_CL V).
(** The profile continued by its value at the top; and no air. *)
Definition capped (V : vehicle) : vehicle := rigged V (fun h => density_int (vh_atm V) (Rmin h (h_thres (vh_planet V)))).
Definition airless (V : vehicle) : vehicle := rigged V (fun _ => 0).
Lemma field_rigged : forall V g delta x, air_at (rigged V g) x = air_at V x -> field (rigged V g) delta x = field V delta x.
Proof. intros V g delta x E. unfold field, f4, f5, f6, fas, fan, faw. rewrite E. reflexivity. Qed.
Lemma capped_field : forall V delta x, 0 <= height (vh_planet V) x <= h_thres (vh_planet V) -> field (capped V) delta x = field V delta x.
Proof.
  intros V delta x H. apply field_rigged. unfold air_at. cbn [rigged vh_planet vh_atm density_int higher RP rho0]. unfold height in H. rewrite (Rmult_comm (RP _)) in H. set (h := s_r x * RP (vh_planet V) - RP (vh_planet V)) in *.
  unfold density. cbn [higher h_thres rho0]. destruct (Rleb_spec 0 h); [|lra]. destruct (Rleb_spec h (h_thres (vh_planet V) + 1)); [|lra]. destruct (Rleb_spec h (h_thres (vh_planet V))); [|lra]. cbn [andb]. rewrite Rmin_left by lra. reflexivity.
Qed.
Lemma airless_field : forall V delta x, 0 < h_thres (vh_planet V) -> h_thres (vh_planet V) < height (vh_planet V) x -> field (airless V) delta x = field V delta x.
Proof.
  intros V delta x H0 H. apply field_rigged. unfold air_at. cbn [rigged vh_planet vh_atm density_int higher RP rho0]. unfold height in H. rewrite (Rmult_comm (RP _)) in H. set (h := s_r x * RP (vh_planet V) - RP (vh_planet V)) in *.
  unfold density. cbn [higher h_thres rho0]. destruct (Rleb_spec 0 h); [|lra]. destruct (Rleb_spec h (h_thres (vh_planet V) + 1)); destruct (Rleb_spec h (h_thres (vh_planet V))); try lra; cbn [andb]; destruct (Rltb_spec (h_thres (vh_planet V)) h); try lra.
  destruct (Rltb_spec (h_thres (vh_planet V) + 1) h); lra.
Qed.
Lemma capped_lip : forall V, lipschitz_air (vh_planet V) (vh_atm V) -> 0 <= h_thres (vh_planet V) -> lipschitz_air (vh_planet (capped V)) (vh_atm (capped V)).
Proof.
  intros V (L & HL) H0. exists (Rabs L). intros h h' Hh Hh'. cbn [capped rigged vh_planet vh_atm density_int higher h_thres] in *. set (H := h_thres (vh_planet V)) in *.
  assert (B : forall u, 0 <= u -> 0 <= Rmin u H <= H) by (intros u Hu; split; [apply Rmin_glb; lra|apply Rmin_r]).
  eapply Rle_trans; [apply HL; apply B; lra|]. pose proof (Rle_abs L). pose proof (Rabs_pos L).
  assert (M : Rabs (Rmin h H - Rmin h' H) <= Rabs (h - h')). { unfold Rmin. destruct (Rle_dec h H); destruct (Rle_dec h' H); unfold Rabs; repeat destruct (Rcase_abs _); lra. }
  pose proof (Rabs_pos (Rmin h H - Rmin h' H)). nra.
Qed.
Lemma airless_lip : forall V, lipschitz_air (vh_planet (airless V)) (vh_atm (airless V)).
Proof. intros V. exists 0. intros h h' _ _. cbn. rewrite Rminus_0_r, Rabs_R0. lra. Qed.
(** States at the top where the right hand side is defined. *)
Definition at_top (p : planet) (x : state) : Prop := height p x = h_thres p /\ s_r x <> 0 /\ s_v x <> 0 /\ cos (s_phi x) <> 0 /\ cos (s_gamma x) + 1e-2 <> 0.
Lemma top_regular : forall V g x, 0 < h_thres (vh_planet V) -> at_top (vh_planet V) x -> regular (vh_planet (rigged V g)) x.
Proof. intros V g x H0 (E & A). unfold height in E. split; auto. unfold in_air. cbn [rigged vh_planet higher RP h_thres]. lra. Qed.
(** Around such a state the rates of change are bounded, and around one where the vehicle climbs, it climbs at no less than some rate. *)
Lemma top_bounded : forall V delta x, 0 < RP (vh_planet V) -> 0 < h_thres (vh_planet V) -> lipschitz_air (vh_planet V) (vh_atm V) -> at_top (vh_planet V) x ->
  exists e B, 0 < e /\ 0 < B /\ forall a, dist x a < e -> 0 < height (vh_planet V) a /\ forall i, Rabs (comp (field V delta a) i) <= B.
Proof.
  intros V delta x HR H0 HL A. set (p := vh_planet V) in *. pose proof A as (E & Ar & Av & Ac & Ag).
  assert (Q : forall W, W = capped V \/ W = airless V -> exists e L, 0 < e /\ 0 <= L /\ all_lip W delta e L x).
  { intros W HW. assert (I : in_air (vh_planet W) x) by (unfold height in E; destruct HW as [-> | ->]; unfold in_air; cbn [capped airless rigged vh_planet higher RP h_thres]; fold p; lra).
    apply field_near; auto; destruct HW as [-> | ->]; auto; [apply capped_lip; auto; fold p; lra|apply airless_lip]. }
  destruct (Q _ (or_introl eq_refl)) as (e1 & L1 & E1 & HL1 & A1). destruct (Q _ (or_intror eq_refl)) as (e2 & L2 & E2 & HL2 & A2). clear Q.
  destruct (ll_pos (height p) x ltac:(unfold height; ll) ltac:(rewrite E; auto)) as (e3 & E3 & P3).
  assert (BW : forall W e L, 0 < e -> 0 <= L -> all_lip W delta e L x -> forall a, dist x a < e -> forall i, Rabs (comp (field W delta a) i) <= dist (field W delta x) (mkState 0 0 0 0 0 0 0) + L * e).
  { intros W e L He HL' AW a Ha i. specialize (AW a x Ha ltac:(rewrite dist_self; auto)). assert (D : dist (field W delta a) (field W delta x) <= L * dist a x) by (unfold dist at 1, field; cbn [s_r s_theta s_phi s_v s_psi s_gamma s_drange]; lra).
    replace (comp (field W delta a) i) with (comp (field W delta a) i - comp (mkState 0 0 0 0 0 0 0) i) by (destruct i as [|[|[|[|[|[|i]]]]]]; cbn [comp s_r s_theta s_phi s_v s_psi s_gamma s_drange]; ring).
    eapply Rle_trans; [apply comp_dist|]. eapply Rle_trans; [apply (dist_tri _ (field W delta x))|]. rewrite (dist_sym a x) in D. assert (L * dist x a <= L * e) by (apply Rmult_le_compat_l; lra). lra. }
  set (B1 := dist (field (capped V) delta x) (mkState 0 0 0 0 0 0 0) + L1 * e1). set (B2 := dist (field (airless V) delta x) (mkState 0 0 0 0 0 0 0) + L2 * e2).
  assert (0 <= B1) by (unfold B1; pose proof (dist_pos (field (capped V) delta x) (mkState 0 0 0 0 0 0 0)); nra). assert (0 <= B2) by (unfold B2; pose proof (dist_pos (field (airless V) delta x) (mkState 0 0 0 0 0 0 0)); nra).
  exists (Rmin e1 (Rmin e2 e3)), (B1 + B2 + 1). split; [repeat apply Rmin_glb_lt; auto|]. split; [lra|]. intros a Ha. pose proof (Rmin_l e1 (Rmin e2 e3)). pose proof (Rmin_r e1 (Rmin e2 e3)). pose proof (Rmin_l e2 e3). pose proof (Rmin_r e2 e3).
  specialize (P3 a ltac:(lra)). split; auto. intros i. destruct (Rle_or_lt (height p a) (h_thres p)) as [L|L].
  - rewrite <- capped_field by (fold p; lra). pose proof (BW _ _ _ E1 HL1 A1 a ltac:(lra) i) as Q. fold B1 in Q. lra.
  - rewrite <- airless_field by (fold p; auto). pose proof (BW _ _ _ E2 HL2 A2 a ltac:(lra) i) as Q. fold B2 in Q. lra.
Qed.
(** A quantity whose rate of change is at most [B] changes at most that much. *)
Lemma rate_bound : forall f l a b B, a <= b -> (forall c, a <= c <= b -> continuity_pt f c) -> (forall c, a < c < b -> ~ In c l -> exists d, derivable_pt_lim f c d /\ d <= B) -> f b - f a <= B * (b - a).
Proof.
  intros f l a b B Hab C D. assert (f b - B * b <= f a - B * a); [|lra].
  apply (nonincreasing_anyrate (fun u => f u - B * u) l a b Hab).
  - intros c Hc. apply (continuity_pt_minus f (fun u => B * u)); auto. apply (continuity_pt_scal id B). apply derivable_continuous_pt, derivable_pt_id.
  - intros c Hc Hn. destruct (D c Hc Hn) as (d & Dd & Ld). exists (d - B * 1). split; [|lra]. apply (derivable_pt_lim_minus f (fun u => B * u)); auto. apply (derivable_pt_lim_scal id B c 1). apply derivable_pt_lim_id.
Qed.
Lemma rate_bound_low : forall f l a b B, a <= b -> (forall c, a <= c <= b -> continuity_pt f c) -> (forall c, a < c < b -> ~ In c l -> exists d, derivable_pt_lim f c d /\ B <= d) -> B * (b - a) <= f b - f a.
Proof.
  intros f l a b B Hab C D. pose proof (rate_bound (fun u => - f u) l a b (- B) Hab) as Q. cbv beta in Q. assert (- f b - - f a <= - B * (b - a)); [|lra]. apply Q.
  - intros c Hc. apply (continuity_pt_opp f). auto.
  - intros c Hc Hn. destruct (D c Hc Hn) as (d & Dd & Ld). exists (- d). split; [|lra]. apply (derivable_pt_lim_opp f). auto.
Qed.
(** A quantity whose rate of change is positive off the corners increases. *)
Lemma strictly_up : forall f l a b, a < b -> (forall c, a <= c <= b -> continuity_pt f c) -> (forall c, a < c < b -> ~ In c l -> exists d, derivable_pt_lim f c d /\ 0 < d) -> f a < f b.
Proof.
  intros f l a b Hab CC DD.
  assert (WK : forall a' b', a <= a' <= b' -> b' <= b -> f a' <= f b').
  { intros a' b' Ha' Hb'. pose proof (rate_bound_low f l a' b' 0 ltac:(lra)) as Q. assert (0 * (b' - a') <= f b' - f a'); [|lra]. apply Q; [intros c Hcc; apply CC; lra|].
    intros c Hcc Hn. destruct (DD c ltac:(lra) Hn) as (d & Dd & Ld). exists d. split; auto. lra. }
  destruct (Rle_lt_or_eq_dec _ _ (WK a b ltac:(lra) ltac:(lra))) as [L|L]; auto. exfalso.
  assert (Fr : forall l' : list R, forall u v, u < v -> exists c, u < c < v /\ ~ In c l').
  { intros l'. induction l' as [|k l' IH]; intros u v Huv; [exists ((u + v) / 2); split; [lra|auto]|]. destruct (Rlt_or_le u k) as [Q|Q].
    - destruct (IH u (Rmin k v)) as (c & Hcc & Nc); [apply Rmin_glb_lt; auto|]. pose proof (Rmin_l k v). pose proof (Rmin_r k v). exists c. split; [lra|]. intros [->|J]; [lra|auto].
    - destruct (IH u v Huv) as (c & Hcc & Nc). exists c. split; auto. intros [->|J]; [lra|auto]. }
  destruct (Fr l a b ltac:(lra)) as (c & Hcc & Nc). destruct (DD c Hcc Nc) as (d & Dd & Ld).
  assert (Const : forall w, a < w < b -> f w = f a) by (intros w Hw; pose proof (WK a w ltac:(lra) ltac:(lra)); pose proof (WK w b ltac:(lra) ltac:(lra)); lra).
  assert (D0 : derivable_pt_lim f c 0).
  { intros ee Hee. assert (Hm : 0 < Rmin (c - a) (b - c)) by (apply Rmin_glb_lt; lra). exists (mkposreal _ Hm). intros h Nh Hh. cbn in Hh. pose proof (Rmin_l (c - a) (b - c)). pose proof (Rmin_r (c - a) (b - c)). assert (Hh' : Rabs h < Rmin (c - a) (b - c)) by auto. apply Rabs_def2 in Hh'.
    rewrite (Const (c + h)), (Const c) by lra. replace ((f a - f a) / h - 0) with 0 by (field; auto). rewrite Rabs_R0. auto. }
  pose proof (uniqueness_limite _ _ _ _ Dd D0). lra.
Qed.
Lemma comp_continuous : forall y t i, continuous_at y t -> continuity_pt (fun u => comp (y u) i) t.
Proof. intros y t i (C1 & C2 & C3 & C4 & C5 & C6 & C7). destruct i as [|[|[|[|[|[|i]]]]]]; assumption. Qed.
Lemma comp_moving : forall y t d i, moving_by y t d -> derivable_pt_lim (fun u => comp (y u) i) t (comp d i).
Proof. intros y t d i (C1 & C2 & C3 & C4 & C5 & C6 & C7). destruct i as [|[|[|[|[|[|i]]]]]]; assumption. Qed.
Lemma dist_continuous : forall x y t, continuous_at y t -> continuity_pt (fun u => dist x (y u)) t.
Proof.
  intros x y t (C1 & C2 & C3 & C4 & C5 & C6 & C7). unfold dist.
  assert (A : forall c f, continuity_pt f t -> continuity_pt (fun u => Rabs (c - f u)) t).
  { intros c f Cf. apply (continuity_pt_comp (fun u => c - f u) Rabs); [|apply Rcontinuity_abs]. apply (continuity_pt_minus (fun _ => c) f); auto. apply continuity_pt_const. intros a b. reflexivity. }
  repeat (apply continuity_pt_plus; [|apply A; assumption]). apply A. assumption.
Qed.
(** For a common time after passing a state at the top where it climbs, a solution stays close to that state, and above the top. *)
Lemma climbs_out : forall V delta x, vh_user V = false -> 0 < RP (vh_planet V) -> 0 < h_thres (vh_planet V) -> lipschitz_air (vh_planet V) (vh_atm V) -> at_top (vh_planet V) x -> 0 < s_v x * sin (s_gamma x) ->
  forall eps, 0 < eps -> exists eta, 0 < eta /\ forall z T Tz, solves (fun u => EOM V u delta) z Tz -> 0 <= T -> z T = x ->
    forall t, T < t <= Tz -> t <= T + eta -> h_thres (vh_planet V) < height (vh_planet V) (z t) /\ dist x (z t) < eps.
Proof.
  intros V delta x Hu HR H0 HL A Hc eps Heps. set (p := vh_planet V) in *. destruct (top_bounded V delta x HR H0 HL A) as (e1 & B & E1 & HB & TB). fold p in TB.
  destruct (ll_pos f1 x ltac:(unfold f1; ll) Hc) as (e2 & E2 & P2).
  set (e := Rmin eps (Rmin e1 e2)). assert (He : 0 < e) by (repeat apply Rmin_glb_lt; auto). pose proof (Rmin_l eps (Rmin e1 e2) : e <= _). pose proof (Rmin_r eps (Rmin e1 e2) : e <= _). pose proof (Rmin_l e1 e2). pose proof (Rmin_r e1 e2).
  exists (e / (8 * B)). split; [apply Rdiv_lt_0_compat; lra|]. intros z T Tz (l & S) HT Ez t Ht Hte.
  assert (EB : 8 * B * (e / (8 * B)) = e) by (field; lra).
  assert (Near : forall u, T <= u <= t -> dist x (z u) < e).
  { apply (no_escape (fun u => dist x (z u)) T t e); [lra|intros u Hu'; apply dist_continuous; apply (S u); lra|]. intros u Hu' Hb.
    assert (D : forall i, (i < 7)%nat -> Rabs (comp x i - comp (z u) i) <= B * (u - T)).
    { intros i Hi. assert (DD : forall c, T < c < u -> ~ In c l -> exists d, derivable_pt_lim (fun w => comp (z w) i) c d /\ - B <= d <= B).
      { intros c Hcc Hn. destruct (S c ltac:(lra)) as (_ & d & Ed & M). specialize (M ltac:(lra) Hn). destruct (field_is _ _ _ _ Hu Ed) as (Ed' & _). exists (comp d i). split; [apply comp_moving; auto|].
        destruct (TB (z c)) as (_ & Q); [specialize (Hb c ltac:(lra)); lra|]. specialize (Q i). unfold field in Q. rewrite <- Ed' in Q. apply Rabs_le_inv in Q. lra. }
      assert (CC : forall c, T <= c <= u -> continuity_pt (fun w => comp (z w) i) c) by (intros c Hcc; apply comp_continuous; apply (S c); lra).
      pose proof (rate_bound (fun w => comp (z w) i) l T u B ltac:(lra) CC) as R1. pose proof (rate_bound_low (fun w => comp (z w) i) l T u (- B) ltac:(lra) CC) as R2. cbv beta in R1, R2. rewrite Ez in R1, R2. apply Rabs_le.
      assert (comp (z u) i - comp x i <= B * (u - T)) by (apply R1; intros c Hcc Hn; destruct (DD c Hcc Hn) as (d & Dd & Ld); exists d; split; auto; lra).
      assert (- B * (u - T) <= comp (z u) i - comp x i) by (apply R2; intros c Hcc Hn; destruct (DD c Hcc Hn) as (d & Dd & Ld); exists d; split; auto; lra). lra. }
    eapply Rle_lt_trans; [apply (dist_comp _ _ (B * (u - T))); auto|]. assert (B * (u - T) <= B * (e / (8 * B))) by (apply Rmult_le_compat_l; lra). nra. }
  split; [|specialize (Near t ltac:(lra)); lra].
  assert (Up : s_r (z T) < s_r (z t)).
  { apply (strictly_up (fun w => s_r (z w)) l T t); [lra|intros c Hcc; apply (S c); lra|]. intros c Hcc Hn. destruct (S c ltac:(lra)) as (_ & d & Ed & M). specialize (M ltac:(lra) Hn). destruct (field_is _ _ _ _ Hu Ed) as (Ed' & _).
    exists (s_r d). split; [apply M|]. rewrite Ed'. cbn [s_r]. apply P2. specialize (Near c ltac:(lra)). lra. }
  rewrite Ez in Up. destruct A as (E & _). unfold height in *. nra.
Qed.
