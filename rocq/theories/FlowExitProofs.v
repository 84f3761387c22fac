(** Flights from starts near a flight: they sink, or leave the atmosphere and stay out, as it does. *)
From Coq Require Import List Reals Lra Lia Ranalysis5 Classical.
Require Import Verif.Base Verif.Numpy Verif.PlanetModel Verif.PlanetProofs Verif.AeroModel Verif.TrajectoryModel Verif.TrajectorySpec Verif.TrajectoryProofs Verif.FlightProofs
  Verif.ExactSpec Verif.ExactProofs Verif.DetSpec Verif.DetProofs Verif.NearSpec Verif.NearProofs Verif.ExistSpec Verif.ExistProofs Verif.PropExist Verif.ExitSpec Verif.ExitProofs Verif.PropExitRun Verif.PropNear Verif.PropDet Verif.EnterProofs
  Verif.PropFlight Verif.PropExit Verif.VerdictSpec Verif.VerdictProofs Verif.PropVerdict Verif.NearExitSpec Verif.NearExitProofs Verif.PropNearExitEx Verif.FlowProofs.
Import ListNotations.
Local Open Scope R_scope.

(** The altitude falls steadily, or rises steadily, near a state where it does. *)
Lemma falling_near : forall x, f1 x < 0 -> exists c e, 0 < c /\ 0 < e /\ forall a, dist x a < e -> 0 < - f1 a - c.
Proof.
  intros x H. set (c := - f1 x / 2). destruct (ll_pos (fun a => 0 - f1 a - c) x ltac:(unfold f1; ll) ltac:(unfold c; lra)) as (e & He & P). exists c, e. split; [unfold c; lra|]. split; auto. intros a Ha. specialize (P a Ha). cbv beta in P. lra.
Qed.
Lemma rising_near : forall x, 0 < f1 x -> exists c e, 0 < c /\ 0 < e /\ forall a, dist x a < e -> 0 < f1 a - c.
Proof.
  intros x H. set (c := f1 x / 2). destruct (ll_pos (fun a => f1 a - c) x ltac:(unfold f1; ll) ltac:(unfold c; lra)) as (e & He & P). exists c, e. split; [unfold c; lra|]. split; [exact He|exact P].
Qed.
Lemma climbs : forall V dl z T s t c, vh_user V = false -> solves (fun x => EOM V x dl) z T -> 0 <= s -> s <= t -> t <= T -> (forall u, s <= u <= t -> 0 < f1 (z u) - c) -> s_r (z s) + c * (t - s) <= s_r (z t).
Proof.
  intros V dl z T s t c Hu (l & S) Hs Hst HtT Hc.
  assert (Q : c * t - s_r (z t) <= c * s - s_r (z s)); [|lra].
  apply (nonincreasing_anyrate (fun u => c * u - s_r (z u)) l s t Hst).
  - intros u Hu'. apply continuity_pt_minus; [apply derivable_continuous_pt; reg|apply (S u ltac:(lra))].
  - intros u Hu' N. destruct (S u ltac:(lra)) as (_ & x & Ex & M). destruct (M ltac:(lra) N) as (M1 & _). destruct (field_is _ _ _ _ Hu Ex) as (-> & _). cbn [s_r] in M1.
    exists (c - f1 (z u)). split; [|specialize (Hc u ltac:(lra)); lra]. apply derivable_pt_lim_minus; [|exact M1]. replace c with (c * 1) at 2 by ring. apply derivable_pt_lim_scal, derivable_pt_lim_id.
Qed.
(** From every start close to that of a flight that sinks below the trap altitude, the flight does too, at nearly the same time. *)
Lemma flow_sinks : forall V i d T2 y T, vh_user V = false -> 0 < RP (vh_planet V) -> 0 < rho0 (vh_planet V) -> 0 < h_thres (vh_planet V) -> lipschitz_air (vh_planet V) (vh_atm V) -> passage V i d T2 y -> 0 < T < T2 -> sinks V T y ->
  forall e, 0 < e -> exists kap, 0 < kap /\ forall i', dist (entry_state (vh_planet V) i) (entry_state (vh_planet V) i') <= kap -> height (vh_planet V) (entry_state (vh_planet V) i') <= h_thres (vh_planet V) ->
    exists z T', passage V i' d T2 z /\ 0 <= T' < T2 /\ sinks V T' z /\ Rabs (T' - T) < e.
Proof.
  intros V i d T2 y T Hu HR Hr0 H0 HL PA HT SK e He. pose proof PA as (Y0 & Sy & I). pose proof SK as (Bef & Etr & Hdn). set (p := vh_planet V) in *.
  destruct (falling_near (y T) Hdn) as (c & e1 & Hc & He1 & FN). assert (Cy : continuous_at y T) by (destruct Sy as (l & Sy'); apply (Sy' T); lra). destruct (curve_near y T (e1 / 2) ltac:(lra) Cy) as (a & Ha & CN).
  set (q := Rmin (e / 2) (Rmin (a / 2) (e1 / 2))). assert (Hq : 0 < q) by (repeat apply Rmin_glb_lt; lra). pose proof (Rmin_l (e / 2) (Rmin (a / 2) (e1 / 2)) : q <= _) as Q1. pose proof (Rmin_r (e / 2) (Rmin (a / 2) (e1 / 2)) : q <= _) as Q2. pose proof (Rmin_l (a / 2) (e1 / 2)) as Q3. pose proof (Rmin_r (a / 2) (e1 / 2)) as Q4.
  destruct (near_sink V i d T2 y T Hu HR Hr0 H0 HL PA HT SK q Hq) as (k1 & w & Hk1 & Hw & HwT & HwT2 & NS). fold p in NS.
  destruct (flow_passage V (d * PI / 180) y T2 Hu HR Hr0 H0 HL ltac:(lra) Sy I 1 ltac:(lra)) as (k2 & Hk2 & F). fold p in F. exists (Rmin k1 k2). pose proof (Rmin_l k1 k2) as K1. pose proof (Rmin_r k1 k2) as K2. split; [apply Rmin_glb_lt; lra|].
  intros i' Hd Htop. rewrite Y0 in *. destruct (F (entry_state p i') ltac:(lra) Htop) as (z & Ez & Sz & Iz & _).
  destruct (NS 0 V (d * PI / 180) z T2 ltac:(lra) (within_self 0 V ltac:(lra) Hu) ltac:(rewrite Rminus_diag_eq, Rabs_R0 by reflexivity; lra) (solves_nearly 0 _ z T2 ltac:(lra) Sz) ltac:(rewrite Ez; lra) ltac:(rewrite Ez; auto)) as (N1 & N2 & N3).
  assert (Cz : forall t, 0 <= t <= T2 -> continuous_at z t) by (intros t Ht; destruct Sz as (l & Sz'); apply (Sz' t); lra).
  assert (Cl : forall t, T - w <= t <= T + w -> dist (y T) (z t) < e1). { intros t Ht. destruct (N1 t ltac:(lra) ltac:(lra)) as (D & _). specialize (CN t ltac:(apply Rabs_def1; lra)). pose proof (dist_tri (y T) (y t) (z t)). lra. }
  destruct (IVT_interv (fun t => h_trap p - height p (z t)) (T - w) (T + w / 2)) as (T' & HT' & ET).
  - intros t Ht. apply continuity_pt_minus; [apply continuity_pt_const; intros u v; reflexivity|apply height_continuous, Cz; lra].
  - lra.
  - specialize (N2 (T - w) ltac:(lra) ltac:(lra)). lra.
  - specialize (N3 (T + w / 2) ltac:(lra) ltac:(lra)). lra.
  - exists z, T'. split; [split; auto|]. split; [lra|]. split; [|apply Rabs_def1; lra]. split; [|split; [fold p; lra|specialize (FN (z T') (Cl T' ltac:(lra))); unfold f1 in FN; lra]].
    intros t Ht. fold p. destruct (Rle_or_lt t (T - w)) as [L|L]; [apply N2; lra|].
    assert (FL := falls V (d * PI / 180) z T2 t T' c Hu Sz ltac:(lra) ltac:(lra) ltac:(lra) ltac:(intros u Hu'; apply FN, Cl; lra)). assert (0 < c * (T' - t)) by (apply Rmult_lt_0_compat; lra).
    assert (RP p * s_r (z T') < RP p * s_r (z t)) by (apply Rmult_lt_compat_l; lra). unfold height in *. lra.
Qed.
(** From every state at the top close to where a flight leaves, the flight stays out as long. *)
Lemma flow_above : forall V i d T T2 y, vh_user V = false -> 0 < RP (vh_planet V) -> 0 < rho0 (vh_planet V) -> 0 < h_thres (vh_planet V) -> stays_out V i d T T2 y ->
  let p := vh_planet V in exists kap, 0 < kap /\ forall x, dist (y T) x <= kap -> height p x = h_thres p ->
    exists v, v 0 = x /\ solves (fun x => EOM V x (d * PI / 180)) v (T2 - T) /\ (forall t, 0 < t <= T2 - T -> h_thres p < height p (v t)).
Proof.
  intros V i d T T2 y Hu HR Hr0 H0 (LV & HT2 & Sy & Up) p. fold p in Up, HR, Hr0, H0. pose proof LV as (HT & _ & _ & _ & Etop & Hcl). fold p in Etop.
  assert (Cy : forall t, 0 <= t <= T2 -> continuous_at y t) by (intros t Ht; destruct Sy as (l & S); apply (S t); lra).
  destruct (rising_near (y T) Hcl) as (c & e1 & Hc & He1 & RN). destruct (curve_near y T (e1 / 2) ltac:(lra) (Cy T ltac:(lra))) as (a0 & Ha0 & CN). set (a := Rmin (a0 / 2) (T2 - T)). assert (Ha : 0 < a) by (apply Rmin_glb_lt; lra). pose proof (Rmin_l (a0 / 2) (T2 - T) : a <= _) as A1. pose proof (Rmin_r (a0 / 2) (T2 - T) : a <= _) as A2.
  destruct (continuity_ab_min (fun w => height p (y w)) (T + a) T2 ltac:(lra) ltac:(intros c' Hc'; apply height_continuous, Cy; lra)) as (mi & Hmi & Imi). cbv beta in Hmi. set (m := height p (y mi) - h_thres p). assert (Hm : 0 < m) by (unfold m; specialize (Up mi ltac:(lra)); lra).
  destruct (continuity_ab_maj (fun w => height p (y w)) T T2 ltac:(lra) ltac:(intros c' Hc'; apply height_continuous, Cy; lra)) as (ma & Hma & Ima). cbv beta in Hma. set (H := height p (y ma) + 1).
  assert (SV : solves (fun x => EOM (vacuum V H) x (d * PI / 180)) (fun t => y (T + t)) (T2 - T)).
  { apply solves_vacuum; auto; [apply (solves_shift _ y T2 T); auto; lra|intros t Ht; apply Up; lra]. }
  assert (IV : forall t, 0 <= t <= T2 - T -> in_air (vh_planet (vacuum V H)) (y (T + t))).
  { intros t Ht. unfold in_air. cbn [vacuum vh_planet topped RP h_thres]. fold p. specialize (Hma (T + t) ltac:(lra)). unfold H, height in *. split; [|lra]. destruct (Req_dec t 0) as [->|N]; [rewrite Rplus_0_r; lra|]. specialize (Up (T + t) ltac:(lra)). lra. }
  set (q := Rmin (e1 / 2) (m / RP p)). assert (Hmr : 0 < m / RP p) by (apply Rdiv_lt_0_compat; auto). assert (Hq : 0 < q) by (apply Rmin_glb_lt; lra). pose proof (Rmin_l (e1 / 2) (m / RP p) : q <= _) as Q1. pose proof (Rmin_r (e1 / 2) (m / RP p) : q <= _) as Q2.
  destruct (near_flow (vacuum V H) (d * PI / 180) (fun t => y (T + t)) (T2 - T) Hu HR Hr0 (vacuum_lip V H) ltac:(lra) SV IV q Hq) as (kap & Hk & F). cbv beta in F. rewrite Rplus_0_r in F.
  exists kap. split; auto. intros x Hx Ex. destruct (F x Hx) as (v & Ev & Sv & D). exists v. split; auto.
  assert (Ab : forall t, 0 < t <= T2 - T -> h_thres p < height p (v t)).
  { intros t Ht. destruct (Rle_or_lt t a) as [L|L].
    - assert (CL := climbs (vacuum V H) (d * PI / 180) v (T2 - T) 0 t c Hu Sv ltac:(lra) ltac:(lra) ltac:(lra)). specialize (CL ltac:(intros u Hu'; specialize (D u ltac:(lra)); specialize (CN (T + u) ltac:(apply Rabs_def1; lra)); pose proof (dist_tri (y T) (y (T + u)) (v u)); specialize (RN (v u) ltac:(lra)); lra)).
      assert (0 < c * (t - 0)) by (apply Rmult_lt_0_compat; lra). rewrite Ev in CL. assert (RP p * s_r x < RP p * s_r (v t)) by (apply Rmult_lt_compat_l; lra). unfold height in *. lra.
    - specialize (D t ltac:(lra)). specialize (Hmi (T + t) ltac:(lra)). assert (HN : Rabs (height p (v t) - height p (y (T + t))) <= RP p * dist (y (T + t)) (v t)).
      { replace (height p (v t) - height p (y (T + t))) with (RP p * (s_r (v t) - s_r (y (T + t)))) by (unfold height; ring). rewrite Rabs_mult, (Rabs_right (RP p)) by lra. apply Rmult_le_compat_l; [lra|]. rewrite Rabs_minus_sym. unfold dist. absall. lra. }
      assert (RP p * dist (y (T + t)) (v t) < RP p * (m / RP p)) by (apply Rmult_lt_compat_l; lra). replace (RP p * (m / RP p)) with m in * by (field; lra). apply Rabs_le_inv in HN. unfold m in *. lra. }
  split; auto. destruct Sv as (l & Sv). exists l. intros t Ht. destruct (Sv t Ht) as (C & x' & Ex' & M). split; auto. destruct (field_is (vacuum V H) _ _ _ Hu Ex') as (E & R1 & R2 & R3 & R4).
  exists (field V (d * PI / 180) (v t)). split; [apply field_defined; auto|]. intros Hi Hn. rewrite <- (vacuum_field V H) by (auto; apply Ab; lra). change (field (vacuum V H) (d * PI / 180) (v t)) with (mkState (f1 (v t)) (f2 (v t)) (f3 (v t)) (f4 (vacuum V H) (v t)) (f5 (vacuum V H) (d * PI / 180) (v t)) (f6 (vacuum V H) (d * PI / 180) (v t)) (f7 (v t))). rewrite <- E. auto.
Qed.
(** From every start close to that of a flight that leaves and stays out, the flight leaves at nearly the same time, in nearly the same state, and stays out as long. *)
Lemma flow_out : forall name V i d T T2 y, Planet name = Ok (vh_planet V) -> vh_user V = false -> lipschitz_air (vh_planet V) (vh_atm V) -> stays_out V i d T T2 y -> 0 < T ->
  forall e, 0 < e -> exists kap, 0 < kap /\ forall i', dist (entry_state (vh_planet V) i) (entry_state (vh_planet V) i') <= kap -> height (vh_planet V) (entry_state (vh_planet V) i') <= h_thres (vh_planet V) ->
    exists z T', stays_out V i' d T' (T' + (T2 - T)) z /\ 0 < T' /\ Rabs (T' - T) < e /\ dist (y T) (z T') < e.
Proof.
  intros name V i d T T2 y HP Hu HL SO HT e He. destruct (ref_facts _ _ HP) as (_ & _ & _ & _ & HR & _ & Hr0). destruct (Planet_facts _ _ HP) as (_ & _ & _ & _ & (Ht0 & Hts) & Hthr & _). set (p := vh_planet V) in *. assert (H0 : 0 < h_thres p) by lra.
  pose proof SO as (LV & HT2 & Sy & Up). pose proof LV as (_ & Y0 & SyT & I & Etop & Hcl). fold p in Etop, I, Y0. destruct (flow_above V i d T T2 y Hu HR Hr0 H0 SO) as (kc & Hkc & FA). fold p in FA.
  assert (Cy : continuous_at y T) by (destruct Sy as (l & S); apply (S T); lra).
  assert (R0 : s_r (y T) <> 0 /\ s_v (y T) <> 0 /\ cos (s_phi (y T)) <> 0 /\ cos (s_gamma (y T)) + 1e-2 <> 0). { destruct Sy as (l & Sy'). destruct (Sy' T ltac:(lra)) as (_ & x & Ex & _). apply (field_is _ _ _ _ Hu Ex). } destruct R0 as (_ & _ & Rc & Rg).
  destruct (soon_out name V (y T) d HP Hu HL Etop Hcl Rc ltac:(lra)) as (m & Hm & SN). fold p in SN. set (e0 := Rmin (e / 2) kc). assert (He0 : 0 < e0) by (apply Rmin_glb_lt; lra). pose proof (Rmin_l (e / 2) kc : e0 <= _) as E1. pose proof (Rmin_r (e / 2) kc : e0 <= _) as E2.
  destruct (SN e0 He0) as (dlt & Hdlt & SN'). destruct (curve_near y T (dlt / 2) ltac:(lra) Cy) as (a & Ha & CN). set (w := Rmin (a / 2) (Rmin (T / 2) e0)). assert (Hw : 0 < w) by (repeat apply Rmin_glb_lt; lra). pose proof (Rmin_l (a / 2) (Rmin (T / 2) e0) : w <= _) as W1. pose proof (Rmin_r (a / 2) (Rmin (T / 2) e0) : w <= _) as W2. pose proof (Rmin_l (T / 2) e0) as W3. pose proof (Rmin_r (T / 2) e0) as W4.
  set (T1 := T - w). assert (HT1 : 0 < T1 < T) by (unfold T1; lra).
  destruct (flow_passage V (d * PI / 180) y T1 Hu HR Hr0 H0 HL ltac:(lra) (solves_upto _ _ _ T1 SyT ltac:(lra)) ltac:(intros t Ht; apply I; lra) (dlt / 2) ltac:(lra)) as (kap & Hk & F). fold p in F. exists kap. split; auto.
  intros i' Hd Htop. rewrite Y0 in F. destruct (F (entry_state p i') Hd Htop) as (z & Ez & Sz & Iz & D).
  assert (A1 : in_air p (z T1)) by (apply (inside_after p z); [apply Iz; lra|lra]). assert (Ej := start_of_state name p (z T1) HP). set (j := start_of p (z T1)) in *.
  destruct (SN' j) as (S & u & HS & (LU & _) & Du). { rewrite Ej. specialize (D T1 ltac:(lra)). specialize (CN T1 ltac:(apply Rabs_def1; unfold T1; lra)). pose proof (dist_tri (y T) (y T1) (z T1)). lra. } { rewrite Ej. auto. }
  destruct LU as (_ & U0 & Su & Iu & Eu & Cu). fold p in U0, Iu, Eu. destruct (FA (u S)) as (v & Ev & Sv & Abv). { left. specialize (Du S ltac:(lra)). lra. } { auto. }
  assert (S1 : solves (fun x => EOM V x (d * PI / 180)) (joined z u T1) (T1 + S)) by (apply solves_joined; auto; [lra|congruence]). set (g := joined z u T1) in *. set (T' := T1 + S) in *.
  assert (G0 : forall t, t <= T1 -> g t = z t) by (intros t Ht; unfold g, joined; destruct (Rle_dec t T1); [auto|lra]). assert (G1 : forall t, T1 < t -> g t = u (t - T1)) by (intros t Ht; unfold g, joined; destruct (Rle_dec t T1); [lra|auto]).
  assert (GT : g T' = u S) by (rewrite G1 by (unfold T'; lra); f_equal; unfold T'; ring).
  assert (S2 : solves (fun x => EOM V x (d * PI / 180)) (joined g v T') (T' + (T2 - T))) by (apply solves_joined; auto; [unfold T'; lra|congruence]). set (h := joined g v T') in *.
  assert (J0 : forall t, t <= T' -> h t = g t) by (intros t Ht; unfold h, joined; destruct (Rle_dec t T'); [auto|lra]). assert (J1 : forall t, T' < t -> h t = v (t - T')) by (intros t Ht; unfold h, joined; destruct (Rle_dec t T'); [lra|auto]).
  assert (HT' : T1 < T') by (unfold T'; lra).
  exists h, T'. split; [|split; [lra|split; [apply Rabs_def1; unfold T', T1; lra|rewrite J0, GT by lra; specialize (Du S ltac:(lra)); lra]]].
  split; [|split; [lra|split; [exact S2|intros t Ht; fold p; rewrite J1 by lra; apply Abv; lra]]].
  split; [lra|]. split; [rewrite J0, G0 by lra; fold p; auto|]. split; [apply (solves_upto _ _ _ T' S2); lra|]. fold p. rewrite !J0, GT by lra. split; [|split; auto].
  intros t Ht. destruct (Rle_or_lt t T1) as [L|L].
  - destruct (Iz t ltac:(lra)) as [Q|(-> & Q)]; [left; rewrite J0, G0 by lra; auto|right; rewrite J0, G0 by lra; auto].
  - left. rewrite J0, G1 by lra. destruct (Iu (t - T1) ltac:(unfold T' in *; lra)) as [Q|(Q & _)]; [auto|lra].
Qed.
