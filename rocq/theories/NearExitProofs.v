(** Nearly exact solutions through the top of the atmosphere. *)
From Coq Require Import String List Reals Lra Lia Classical.
Require Import Verif.Base Verif.Numpy Verif.NumpyProofs Verif.PlanetModel Verif.PlanetProofs Verif.AeroModel Verif.TrajectoryModel Verif.TrajectorySpec Verif.TrajectoryProofs Verif.FlightProofs Verif.PropFlight
  Verif.ExactSpec Verif.ExactProofs Verif.PropExact Verif.DetSpec Verif.DetProofs Verif.PropDet Verif.NearSpec Verif.NearProofs Verif.ExistSpec Verif.ExistProofs Verif.PropExist Verif.ExitSpec Verif.ExitProofs Verif.EnterProofs Verif.PropExit Verif.PropTrap Verif.PropExitRun
  Verif.ConicSpec Verif.OrbitSpec Verif.VerdictSpec Verif.VerdictProofs.
Import ListNotations.
Local Open Scope R_scope.

Lemma within_capped : forall eta V V', 0 <= h_thres (vh_planet V) -> vehicle_within eta V V' -> vehicle_within eta (capped V) (capped V').
Proof.
  intros eta V V' H0 (EP & EU & ED & EL & EA). unfold vehicle_within, capped, rigged. cbn [vh_planet vh_user vh_Abar vh_CD vh_CL vh_mbar vh_atm density_int]. rewrite EP. do 4 (split; auto).
  intros h Hh. cbn [higher h_thres] in Hh. apply EA. split; [apply Rmin_glb; lra|apply Rmin_r].
Qed.
Lemma within_airless : forall eta V V', 0 <= eta -> vehicle_within eta V V' -> vehicle_within eta (airless V) (airless V').
Proof.
  intros eta V V' H0 (EP & EU & ED & EL & EA). unfold vehicle_within, airless, rigged. cbn [vh_planet vh_user vh_Abar vh_CD vh_CL vh_mbar vh_atm density_int]. rewrite EP. do 4 (split; auto).
  intros h Hh. rewrite Rminus_0_r, Rabs_R0. lra.
Qed.
Lemma within_vacuum : forall eta V V' H, 0 <= eta -> vehicle_within eta V V' -> vehicle_within eta (vacuum V H) (vacuum V' H).
Proof.
  intros eta V V' H H0 (EP & EU & ED & EL & EA). unfold vehicle_within, vacuum. cbn [vh_planet vh_user vh_Abar vh_CD vh_CL vh_mbar vh_atm density_int]. rewrite EP. do 4 (split; auto).
  intros h Hh. rewrite Rminus_0_r, Rabs_R0. lra.
Qed.
(** Around a state at the top the rates of change of all nearby vehicles are bounded. *)
Lemma top_near : forall V delta x, 0 < RP (vh_planet V) -> 0 < rho0 (vh_planet V) -> 0 < h_thres (vh_planet V) -> lipschitz_air (vh_planet V) (vh_atm V) -> at_top (vh_planet V) x ->
  exists e B, 0 < e /\ 0 < B /\ forall V' delta' eta a, vehicle_within eta V V' -> Rabs (delta - delta') <= eta -> 0 <= eta <= 1 -> dist x a < e ->
    0 < height (vh_planet V) a /\ forall i, Rabs (comp (field V' delta' a) i) <= B.
Proof.
  intros V delta x HR Hr0 H0 HL A. destruct (top_bounded V delta x HR H0 HL A) as (e0 & B0 & He0 & HB0 & TB). set (p := vh_planet V) in *. pose proof A as (E & Ar & Av & Ac & Ag).
  assert (I : in_air (higher p) x) by (unfold height in E; unfold in_air; cbn [higher RP h_thres]; lra).
  destruct (field_change (capped V) delta x HR Hr0 (capped_lip V HL ltac:(fold p; lra)) I Ar Av Ac Ag) as (e1 & M1 & He1 & HM1 & F1).
  destruct (field_change (airless V) delta x HR Hr0 (airless_lip V) I Ar Av Ac Ag) as (e2 & M2 & He2 & HM2 & F2).
  exists (Rmin e0 (Rmin e1 e2)), (B0 + M1 + M2). split; [repeat apply Rmin_glb_lt; auto|]. split; [lra|]. intros V' delta' eta a HV Hd He Ha.
  pose proof (Rmin_l e0 (Rmin e1 e2)). pose proof (Rmin_r e0 (Rmin e1 e2)). pose proof (Rmin_l e1 e2). pose proof (Rmin_r e1 e2). destruct (TB a ltac:(lra)) as (Pa & Ba). split; auto.
  assert (EP : vh_planet V' = p) by apply HV.
  assert (W : exists W W' M, field V delta a = field W delta a /\ field V' delta' a = field W' delta' a /\ 0 <= M <= M1 + M2 /\ Rabs (f4 W a - f4 W' a) + Rabs (f5 W delta a - f5 W' delta' a) + Rabs (f6 W delta a - f6 W' delta' a) <= M).
  { destruct (Rle_or_lt (height p a) (h_thres p)) as [L|L].
    - exists (capped V), (capped V'), M1. split; [symmetry; apply capped_field; fold p; lra|]. split; [symmetry; apply capped_field; rewrite EP; lra|]. split; [lra|].
      assert (Q := F1 _ _ eta a (within_capped eta V V' ltac:(fold p; lra) HV) Hd He ltac:(lra)). assert (M1 * eta <= M1) by nra. lra.
    - exists (airless V), (airless V'), M2. split; [symmetry; apply airless_field; auto|]. split; [symmetry; apply airless_field; rewrite EP; auto|]. split; [lra|].
      assert (Q := F2 _ _ eta a (within_airless eta V V' ltac:(lra) HV) Hd He ltac:(lra)). assert (M2 * eta <= M2) by nra. lra. }
  destruct W as (W & W' & M & EW & EW' & HM & Q). rewrite EW'. rewrite EW in Ba. intros i.
  pose proof (Rabs_pos (f4 W a - f4 W' a)). pose proof (Rabs_pos (f5 W delta a - f5 W' delta' a)). pose proof (Rabs_pos (f6 W delta a - f6 W' delta' a)).
  assert (C : Rabs (comp (field W delta a) i - comp (field W' delta' a) i) <= M).
  { unfold field. destruct i as [|[|[|[|[|[|i]]]]]]; cbn [comp s_r s_theta s_phi s_v s_psi s_gamma s_drange]; rewrite ?Rminus_diag_eq, ?Rabs_R0 by reflexivity; lra. }
  specialize (Ba i). rewrite Rabs_minus_sym in C. replace (comp (field W' delta' a) i) with (comp (field W delta a) i + (comp (field W' delta' a) i - comp (field W delta a) i)) by ring. eapply Rle_trans; [apply Rabs_triang|]. lra.
Qed.
Lemma within_comp : forall eta a b i, within eta a b -> Rabs (comp a i - comp b i) <= eta.
Proof. intros eta a b i (A1 & A2 & A3 & A4 & A5 & A6 & A7). destruct i as [|[|[|[|[|[|i]]]]]]; cbn [comp]; auto. Qed.
(** Around a state at the top in which it climbs, a nearby vehicle climbs, for a while, at no less than some rate. *)
Lemma climbs_near : forall V delta x, 0 < RP (vh_planet V) -> 0 < rho0 (vh_planet V) -> 0 < h_thres (vh_planet V) -> lipschitz_air (vh_planet V) (vh_atm V) -> at_top (vh_planet V) x -> 0 < s_v x * sin (s_gamma x) ->
  exists c B e, 0 < c /\ 0 < B /\ 0 < e /\ forall V' delta' eta z Tz s t, vehicle_within eta V V' -> Rabs (delta - delta') <= eta -> 0 <= eta <= 1 -> eta <= c -> nearly_solves eta (fun u => EOM V' u delta') z Tz ->
    0 <= s <= t -> t <= Tz -> dist x (z s) + 8 * B * (t - s) < e -> dist x (z t) <= dist x (z s) + 8 * B * (t - s) /\ c * (t - s) <= s_r (z t) - s_r (z s) /\ 0 < height (vh_planet V) (z t).
Proof.
  intros V delta x HR Hr0 H0 HL A Hc. destruct (top_near V delta x HR Hr0 H0 HL A) as (e1 & B0 & He1 & HB0 & TN). set (p := vh_planet V) in *.
  set (k := s_v x * sin (s_gamma x)) in *. destruct (ll_pos (fun a => f1 a - k / 2) x) as (e2 & He2 & P2); [unfold f1; ll|unfold f1; fold k; lra|]. cbv beta in P2.
  exists (k / 4), (B0 + 1), (Rmin e1 e2). split; [lra|]. split; [lra|]. split; [apply Rmin_glb_lt; auto|]. pose proof (Rmin_l e1 e2) as M1. pose proof (Rmin_r e1 e2) as M2. set (e := Rmin e1 e2) in *. set (B := B0 + 1).
  intros V' delta' eta z Tz s t HV Hd He Hec (l & Sz) Hs Ht Hn. assert (Hu : vh_user V' = false) by apply HV. assert (HB : 0 < B) by (unfold B; lra).
  assert (Rate : forall c, s < c < t -> ~ In c l -> dist x (z c) < e -> forall i, exists r, derivable_pt_lim (fun w => comp (z w) i) c r /\ - B <= r <= B /\ (i = 0%nat -> k / 4 <= r)).
  { intros c Hcc Hnl Hx i. destruct (Sz c ltac:(lra)) as (_ & dd & Ed & M). destruct (M ltac:(lra) Hnl) as (d' & Md & Wd). destruct (field_is _ _ _ _ Hu Ed) as (Ed' & _).
    exists (comp d' i). split; [apply comp_moving; auto|]. pose proof (within_comp _ _ _ i Wd) as Wi. destruct (TN V' delta' eta (z c) HV Hd He ltac:(lra)) as (_ & Q). specialize (Q i). unfold field in Q. rewrite <- Ed' in Q. apply Rabs_le_inv in Wi, Q. split; [unfold B; lra|].
    intros ->. specialize (P2 (z c) ltac:(lra)). rewrite Ed' in Wi. cbn [comp s_r] in Wi |- *. lra. }
  assert (CC : forall c i, s <= c <= t -> continuity_pt (fun w => comp (z w) i) c) by (intros c i Hcc; apply comp_continuous; apply (Sz c); lra).
  assert (Near : forall u, s <= u <= t -> (forall w, s <= w < u -> dist x (z w) < e) -> dist x (z u) <= dist x (z s) + 7 * (B * (u - s))).
  { intros u Hu' Hb. eapply Rle_trans; [apply (dist_tri x (z s))|]. apply Rplus_le_compat_l. apply dist_comp. intros i Hi.
    pose proof (rate_bound (fun w => comp (z w) i) l s u B ltac:(lra) ltac:(intros; apply CC; lra)) as R1. pose proof (rate_bound_low (fun w => comp (z w) i) l s u (- B) ltac:(lra) ltac:(intros; apply CC; lra)) as R2. cbv beta in R1, R2. apply Rabs_le.
    assert (comp (z u) i - comp (z s) i <= B * (u - s)) by (apply R1; intros c Hcc Hnl; destruct (Rate c ltac:(lra) Hnl ltac:(apply Hb; lra) i) as (r & Dr & Lr & _); exists r; split; auto; lra).
    assert (- B * (u - s) <= comp (z u) i - comp (z s) i) by (apply R2; intros c Hcc Hnl; destruct (Rate c ltac:(lra) Hnl ltac:(apply Hb; lra) i) as (r & Dr & Lr & _); exists r; split; auto; lra). lra. }
  assert (Lt : forall u, s <= u <= t -> 7 * (B * (u - s)) <= 8 * B * (t - s)). { intros u Hu'. assert (B * (u - s) <= B * (t - s)) by (apply Rmult_le_compat_l; lra). assert (0 <= B * (t - s)) by (apply Rmult_le_pos; lra). lra. }
  assert (All : forall u, s <= u <= t -> dist x (z u) < e).
  { apply (no_escape (fun u => dist x (z u)) s t e); [lra|intros u Hu'; apply dist_continuous; apply (Sz u); lra|]. intros u Hu' Hb. specialize (Near u Hu' Hb). specialize (Lt u Hu'). lra. }
  split; [|split].
  - assert (N := Near t ltac:(lra) ltac:(intros; apply All; lra)). specialize (Lt t ltac:(lra)). lra.
  - apply (rate_bound_low (fun w => comp (z w) 0) l s t (k / 4) ltac:(lra) ltac:(intros; apply CC; lra)). intros c Hcc Hnl. destruct (Rate c ltac:(lra) Hnl ltac:(apply All; lra) 0%nat) as (r & Dr & _ & Lr). exists r. split; auto.
  - apply (TN V' delta' eta (z t) HV Hd He). specialize (All t ltac:(lra)). lra.
Qed.
(** States near those of a flight in the air are in the air. *)
Lemma air_margin : forall p y T, 0 < RP p -> 0 <= T -> (forall t, 0 <= t <= T -> continuous_at y t) -> (forall t, 0 <= t <= T -> in_air p (y t)) ->
  exists m, 0 < m /\ forall t a, 0 <= t <= T -> dist (y t) a < m -> in_air p a.
Proof.
  intros p y T HR HT C I. destruct (continuity_ab_maj (fun w => s_r (y w)) 0 T HT ltac:(intros c Hc; apply (C c Hc))) as (a & Ha & Ia). destruct (continuity_ab_min (fun w => s_r (y w)) 0 T HT ltac:(intros c Hc; apply (C c Hc))) as (b & Hb & Ib).
  pose proof (I a Ia) as (_ & A2). pose proof (I b Ib) as (B1 & _). set (m := Rmin (s_r (y b) - 1) ((h_thres p - (RP p * s_r (y a) - RP p)) / RP p)).
  assert (P2 : 0 < (h_thres p - (RP p * s_r (y a) - RP p)) / RP p) by (apply Rdiv_lt_0_compat; lra). exists m. split; [apply Rmin_glb_lt; [nra|auto]|]. intros t x Ht D.
  pose proof (Rmin_l (s_r (y b) - 1) ((h_thres p - (RP p * s_r (y a) - RP p)) / RP p) : m <= _) as M1. pose proof (Rmin_r (s_r (y b) - 1) ((h_thres p - (RP p * s_r (y a) - RP p)) / RP p) : m <= _) as M2.
  assert (EM : (h_thres p - (RP p * s_r (y a) - RP p)) / RP p * RP p = h_thres p - (RP p * s_r (y a) - RP p)) by (field; lra). set (q := (h_thres p - (RP p * s_r (y a) - RP p)) / RP p) in *.
  pose proof (comp_dist (y t) x 0) as CD. cbn [comp] in CD. assert (Q : Rabs (s_r (y t) - s_r x) < m) by lra. apply Rabs_def2 in Q. specialize (Ha t Ht). specialize (Hb t Ht). cbv beta in Ha, Hb. unfold in_air. split; nra.
Qed.
Lemma nearly_upto : forall eta f y T T', nearly_solves eta f y T -> T' <= T -> nearly_solves eta f y T'.
Proof. intros eta f y T T' (l & H) HT. exists l. intros t Ht. destruct (H t ltac:(lra)) as (C & d & E & D). split; auto. exists d. split; auto. intros Ht'. apply D. lra. Qed.
Lemma nearly_shift : forall eta f y T s, nearly_solves eta f y T -> 0 <= s <= T -> nearly_solves eta f (fun t => y (s + t)) (T - s).
Proof.
  intros eta f y T s (l & H) Hs. exists (map (fun c => c - s) l). intros t Ht. destruct (H (s + t) ltac:(lra)) as (C & d & E & D). split.
  - destruct C as (C1 & C2 & C3 & C4 & C5 & C6 & C7). repeat split; match goal with |- continuity_pt (fun u => ?P (y (s + u))) t => apply (ct_shift (fun u => P (y u))); auto end.
  - exists d. split; auto. intros Htt Hn. destruct D as (d' & (D1 & D2 & D3 & D4 & D5 & D6 & D7) & W); [lra| |].
    { intros I. apply Hn. apply in_map_iff. exists (s + t). split; auto. ring. }
    exists d'. split; auto. repeat split; match goal with |- derivable_pt_lim (fun u => ?P (y (s + u))) t _ => apply (dl_shift (fun u => P (y u))); auto end.
Qed.
(** Around a state at the top in which it descends, a nearby vehicle descends, for a while, at no less than some rate. *)
Lemma descends_near : forall V delta x, 0 < RP (vh_planet V) -> 0 < rho0 (vh_planet V) -> 0 < h_thres (vh_planet V) -> lipschitz_air (vh_planet V) (vh_atm V) -> at_top (vh_planet V) x -> s_v x * sin (s_gamma x) < 0 ->
  exists c B e, 0 < c /\ 0 < B /\ 0 < e /\ forall V' delta' eta z Tz s t, vehicle_within eta V V' -> Rabs (delta - delta') <= eta -> 0 <= eta <= 1 -> eta <= c -> nearly_solves eta (fun u => EOM V' u delta') z Tz ->
    0 <= s <= t -> t <= Tz -> dist x (z s) + 8 * B * (t - s) < e -> dist x (z t) <= dist x (z s) + 8 * B * (t - s) /\ s_r (z t) - s_r (z s) <= - c * (t - s) /\ 0 < height (vh_planet V) (z t).
Proof.
  intros V delta x HR Hr0 H0 HL A Hc. destruct (top_near V delta x HR Hr0 H0 HL A) as (e1 & B0 & He1 & HB0 & TN). set (p := vh_planet V) in *.
  set (k := - (s_v x * sin (s_gamma x))) in *. assert (Hk : 0 < k) by (unfold k; lra). destruct (ll_pos (fun a => 0 - f1 a - k / 2) x) as (e2 & He2 & P2); [unfold f1; ll|unfold f1; unfold k; lra|]. cbv beta in P2.
  exists (k / 4), (B0 + 1), (Rmin e1 e2). split; [lra|]. split; [lra|]. split; [apply Rmin_glb_lt; auto|]. pose proof (Rmin_l e1 e2) as M1. pose proof (Rmin_r e1 e2) as M2. set (e := Rmin e1 e2) in *. set (B := B0 + 1).
  intros V' delta' eta z Tz s t HV Hd He Hec (l & Sz) Hs Ht Hn. assert (Hu : vh_user V' = false) by apply HV. assert (HB : 0 < B) by (unfold B; lra).
  assert (Rate : forall c, s < c < t -> ~ In c l -> dist x (z c) < e -> forall i, exists r, derivable_pt_lim (fun w => comp (z w) i) c r /\ - B <= r <= B /\ (i = 0%nat -> r <= - (k / 4))).
  { intros c Hcc Hnl Hx i. destruct (Sz c ltac:(lra)) as (_ & dd & Ed & M). destruct (M ltac:(lra) Hnl) as (d' & Md & Wd). destruct (field_is _ _ _ _ Hu Ed) as (Ed' & _).
    exists (comp d' i). split; [apply comp_moving; auto|]. pose proof (within_comp _ _ _ i Wd) as Wi. destruct (TN V' delta' eta (z c) HV Hd He ltac:(lra)) as (_ & Q). specialize (Q i). unfold field in Q. rewrite <- Ed' in Q. apply Rabs_le_inv in Wi, Q. split; [unfold B; lra|].
    intros ->. specialize (P2 (z c) ltac:(lra)). rewrite Ed' in Wi. cbn [comp s_r] in Wi |- *. lra. }
  assert (CC : forall c i, s <= c <= t -> continuity_pt (fun w => comp (z w) i) c) by (intros c i Hcc; apply comp_continuous; apply (Sz c); lra).
  assert (Near : forall u, s <= u <= t -> (forall w, s <= w < u -> dist x (z w) < e) -> dist x (z u) <= dist x (z s) + 7 * (B * (u - s))).
  { intros u Hu' Hb. eapply Rle_trans; [apply (dist_tri x (z s))|]. apply Rplus_le_compat_l. apply dist_comp. intros i Hi.
    pose proof (rate_bound (fun w => comp (z w) i) l s u B ltac:(lra) ltac:(intros; apply CC; lra)) as R1. pose proof (rate_bound_low (fun w => comp (z w) i) l s u (- B) ltac:(lra) ltac:(intros; apply CC; lra)) as R2. cbv beta in R1, R2. apply Rabs_le.
    assert (comp (z u) i - comp (z s) i <= B * (u - s)) by (apply R1; intros c Hcc Hnl; destruct (Rate c ltac:(lra) Hnl ltac:(apply Hb; lra) i) as (r & Dr & Lr & _); exists r; split; auto; lra).
    assert (- B * (u - s) <= comp (z u) i - comp (z s) i) by (apply R2; intros c Hcc Hnl; destruct (Rate c ltac:(lra) Hnl ltac:(apply Hb; lra) i) as (r & Dr & Lr & _); exists r; split; auto; lra). lra. }
  assert (Lt : forall u, s <= u <= t -> 7 * (B * (u - s)) <= 8 * B * (t - s)). { intros u Hu'. assert (B * (u - s) <= B * (t - s)) by (apply Rmult_le_compat_l; lra). assert (0 <= B * (t - s)) by (apply Rmult_le_pos; lra). lra. }
  assert (All : forall u, s <= u <= t -> dist x (z u) < e).
  { apply (no_escape (fun u => dist x (z u)) s t e); [lra|intros u Hu'; apply dist_continuous; apply (Sz u); lra|]. intros u Hu' Hb. specialize (Near u Hu' Hb). specialize (Lt u Hu'). lra. }
  split; [|split].
  - assert (N := Near t ltac:(lra) ltac:(intros; apply All; lra)). specialize (Lt t ltac:(lra)). lra.
  - apply (rate_bound (fun w => comp (z w) 0) l s t (- (k / 4)) ltac:(lra) ltac:(intros; apply CC; lra)). intros c Hcc Hnl. destruct (Rate c ltac:(lra) Hnl ltac:(apply All; lra) 0%nat) as (r & Dr & _ & Lr). exists r. split; auto.
  - apply (TN V' delta' eta (z t) HV Hd He). specialize (All t ltac:(lra)). lra.
Qed.
(** A nearly exact solution below the top is one for the profile continued upwards. *)
Lemma nearly_capped : forall eta V delta u T, vh_user V = false -> (forall t, 0 <= t <= T -> 0 <= height (vh_planet V) (u t) <= h_thres (vh_planet V)) -> nearly_solves eta (fun x => EOM V x delta) u T -> nearly_solves eta (fun x => EOM (capped V) x delta) u T.
Proof.
  intros eta V delta u T Hu B (l & Sy). exists l. intros t Ht. destruct (Sy t Ht) as (C & x & Ex & M). split; auto. destruct (field_is _ _ _ _ Hu Ex) as (Ex' & R1 & R2 & R3 & R4).
  exists (field (capped V) delta (u t)). split; [apply EOM_field; auto|]. intros Ht1 Hn. rewrite capped_field by auto. unfold field. rewrite <- Ex'. auto.
Qed.
(** Near a passage through the atmosphere, nearly exact solutions of nearby equations that do not start above the top stay near, and below the top. *)
Lemma near_passage : forall V delta y T, vh_user V = false -> 0 < RP (vh_planet V) -> 0 < rho0 (vh_planet V) -> 0 < h_thres (vh_planet V) -> lipschitz_air (vh_planet V) (vh_atm V) ->
  solves (fun x => EOM V x delta) y T -> 0 <= T -> (forall t, 0 <= t <= T -> inside (vh_planet V) y t) ->
  forall eps, 0 < eps -> exists kap, 0 < kap <= 1 /\
    forall eta V' delta' z T', 0 <= eta <= kap -> vehicle_within eta V V' -> Rabs (delta - delta') <= eta -> nearly_solves eta (fun x => EOM V' x delta') z T' ->
    dist (y 0) (z 0) <= kap -> height (vh_planet V) (z 0) <= h_thres (vh_planet V) -> forall t, 0 <= t <= T -> t <= T' -> dist (y t) (z t) < eps /\ 0 < height (vh_planet V) (z t) <= h_thres (vh_planet V).
Proof.
  intros V delta y T Hu HR Hr0 H0 HL Sy HT I eps Heps. set (p := vh_planet V) in *. assert (Cy : forall t, 0 <= t <= T -> continuous_at y t) by (intros t Ht; destruct Sy as (l & Sy'); apply (Sy' t); lra).
  destruct (classic (in_air p (y 0))) as [A0|A0].
  - assert (IA : forall t, 0 <= t <= T -> in_air p (y t)) by (intros t Ht; destruct (Req_dec t 0) as [->|N]; [auto|apply (inside_after p y); [apply I; auto|lra]]).
    destruct (air_margin p y T HR HT Cy IA) as (m & Hm & AM). set (e2 := Rmin eps m). assert (He2 : 0 < e2) by (apply Rmin_glb_lt; auto). pose proof (Rmin_l eps m : e2 <= _) as M1. pose proof (Rmin_r eps m : e2 <= _) as M2.
    destruct (near_all V delta y T Hu HR Hr0 HL Sy IA e2 He2) as (kap & Hk & NA). exists kap. split; auto. intros eta V' delta' z T' He HV Hd Sz Hst _ t Ht Htz.
    pose proof (NA eta V' delta' z T' He HV Hd Sz Hst t ltac:(lra) ltac:(lra) Htz) as D. split; [lra|]. assert (Q := AM t (z t) Ht ltac:(lra)). unfold in_air in Q. unfold height. lra.
  - destruct (I 0 ltac:(lra)) as [C|(_ & Etop & Hdn)]; [contradiction|]. fold p in Etop.
    assert (AT : at_top p (y 0)). { destruct Sy as (l & Sy'). destruct (Sy' 0 ltac:(lra)) as (_ & x & Ex & _). destruct (field_is _ _ _ _ Hu Ex) as (_ & A). split; auto. }
    destruct (descends_near V delta (y 0) HR Hr0 H0 HL AT Hdn) as (c & B & e0 & Hc & HB & He0 & DN). fold p in DN.
    assert (Sc : solves (fun x => EOM (capped V) x delta) y T) by (apply solves_capped; auto; intros t Ht; pose proof (inside_height p y t H0 (I t Ht)); fold p; lra).
    assert (Ic : in_air (vh_planet (capped V)) (y 0)) by (unfold in_air; cbn [capped rigged vh_planet higher RP h_thres]; fold p; unfold height in Etop; lra).
    destruct (near_local (capped V) delta y T 0 Hu HR Hr0 (capped_lip V HL ltac:(fold p; lra)) Sc ltac:(lra) Ic) as (a1 & Ha1 & NL).
    set (a := Rmin (a1 / 2) (e0 / (32 * B))). assert (Hq : 0 < e0 / (32 * B)) by (apply Rdiv_lt_0_compat; lra). assert (Ha : 0 < a) by (apply Rmin_glb_lt; lra). pose proof (Rmin_l (a1 / 2) (e0 / (32 * B)) : a <= _) as Ma1. pose proof (Rmin_r (a1 / 2) (e0 / (32 * B)) : a <= _) as Ma2.
    assert (Eb : 32 * B * (e0 / (32 * B)) = e0) by (field; lra). assert (Ba : 8 * B * a <= e0 / 4) by (assert (32 * B * a <= 32 * B * (e0 / (32 * B))) by (apply Rmult_le_compat_l; lra); lra).
    (* what happens up to [a] *)
    assert (First : forall e, 0 < e -> exists kap, 0 < kap <= 1 /\ forall eta V' delta' z T', 0 <= eta <= kap -> vehicle_within eta V V' -> Rabs (delta - delta') <= eta -> nearly_solves eta (fun x => EOM V' x delta') z T' ->
      dist (y 0) (z 0) <= kap -> height p (z 0) <= h_thres p -> forall t, 0 <= t <= T -> t <= a -> t <= T' -> dist (y t) (z t) < e /\ 0 < height p (z t) <= h_thres p).
    { intros e He. destruct (NL e He) as (k1 & Hk1 & NL'). set (kap := Rmin k1 (Rmin c (e0 / 4))). exists kap. pose proof (Rmin_l k1 (Rmin c (e0 / 4)) : kap <= _) as K1. pose proof (Rmin_r k1 (Rmin c (e0 / 4)) : kap <= _) as K2. pose proof (Rmin_l c (e0 / 4)) as K3. pose proof (Rmin_r c (e0 / 4)) as K4.
      split; [split; [repeat apply Rmin_glb_lt; lra|lra]|]. intros eta V' delta' z T' Het HV Hd Sz Hst Hz0 t Ht Hta Htz. assert (Hu' : vh_user V' = false) by apply HV. assert (EP : vh_planet V' = p) by apply HV.
      assert (Down : forall u, 0 <= u <= t -> 0 < height p (z u) <= h_thres p).
      { intros u Hu''. assert (8 * B * (u - 0) <= 8 * B * a) by (apply Rmult_le_compat_l; lra). destruct (DN V' delta' eta z T' 0 u HV Hd ltac:(lra) ltac:(lra) Sz ltac:(lra) ltac:(lra) ltac:(lra)) as (_ & D2 & D3). split; auto.
        assert (s_r (z u) <= s_r (z 0)) by (assert (0 <= c * (u - 0)) by (apply Rmult_le_pos; lra); lra). unfold height in *. assert (RP p * s_r (z u) <= RP p * s_r (z 0)) by (apply Rmult_le_compat_l; lra). lra. }
      split; [|apply Down; lra]. assert (Sz' : nearly_solves eta (fun x => EOM (capped V') x delta') z t).
      { apply nearly_capped; auto; [rewrite EP; intros u Hu''; specialize (Down u Hu''); lra|]. destruct Sz as (l & Sz'). exists l. intros u Hu''. destruct (Sz' u ltac:(lra)) as (C & d & Ed & M). split; auto. exists d. split; auto. intros. apply M; auto; lra. }
      apply (NL' eta (capped V') delta' z t 0 t ltac:(lra) (within_capped eta V V' ltac:(fold p; lra) HV) Hd Sz'); lra. }
    destruct (Rle_or_lt T a) as [L|L].
    { destruct (First eps Heps) as (kap & Hk & F). exists kap. split; auto. intros eta V' delta' z T' He HV Hd Sz Hst Hz0 t Ht Htz. apply (F eta V' delta' z T'); auto; lra. }
    assert (IA : forall t, 0 <= t <= T - a -> in_air p (y (a + t))) by (intros t Ht; apply (inside_after p y); [apply I; lra|lra]).
    assert (Ss : solves (fun x => EOM V x delta) (fun t => y (a + t)) (T - a)) by (apply solves_shift; auto; lra).
    assert (Cs : forall t, 0 <= t <= T - a -> continuous_at (fun t => y (a + t)) t) by (intros t Ht; destruct Ss as (l & Ss'); apply (Ss' t); lra).
    destruct (air_margin p (fun t => y (a + t)) (T - a) HR ltac:(lra) Cs IA) as (m & Hm & AM). cbv beta in AM. set (e2 := Rmin eps m). assert (He2 : 0 < e2) by (apply Rmin_glb_lt; auto). pose proof (Rmin_l eps m : e2 <= _) as M1. pose proof (Rmin_r eps m : e2 <= _) as M2.
    destruct (near_all V delta (fun t => y (a + t)) (T - a) Hu HR Hr0 HL Ss IA e2 He2) as (k2 & Hk2 & NA). cbv beta in NA.
    set (e1 := Rmin eps k2). assert (He1 : 0 < e1) by (apply Rmin_glb_lt; lra). pose proof (Rmin_l eps k2 : e1 <= _) as M3. pose proof (Rmin_r eps k2 : e1 <= _) as M4. destruct (First e1 He1) as (k1 & Hk1 & F).
    exists (Rmin k1 k2). pose proof (Rmin_l k1 k2) as K1. pose proof (Rmin_r k1 k2) as K2. split; [split; [apply Rmin_glb_lt; lra|lra]|]. intros eta V' delta' z T' He HV Hd Sz Hst Hz0 t Ht Htz.
    destruct (Rle_or_lt t a) as [La|La]; [destruct (F eta V' delta' z T' ltac:(lra) HV Hd Sz ltac:(lra) Hz0 t Ht La Htz); split; auto; lra|].
    destruct (F eta V' delta' z T' ltac:(lra) HV Hd Sz ltac:(lra) Hz0 a ltac:(lra) ltac:(lra) ltac:(lra)) as (D1 & _).
    pose proof (NA eta V' delta' (fun t => z (a + t)) (T' - a) ltac:(lra) HV Hd (nearly_shift _ _ z T' a Sz ltac:(lra)) ltac:(rewrite !Rplus_0_r; lra) (t - a) ltac:(lra) ltac:(lra) ltac:(lra)) as D2. cbv beta in D2. replace (a + (t - a)) with t in D2 by ring.
    split; [lra|]. assert (Q := AM (t - a) (z t) ltac:(lra)). replace (a + (t - a)) with t in Q by ring. specialize (Q ltac:(lra)). unfold in_air in Q. unfold height. lra.
Qed.
(** Nearby solutions of nearby equations leave the atmosphere at nearby times, in nearby states. *)
Lemma near_exit : forall V i d T y, vh_user V = false -> 0 < RP (vh_planet V) -> 0 < rho0 (vh_planet V) -> 0 < h_thres (vh_planet V) -> lipschitz_air (vh_planet V) (vh_atm V) -> leaves V i d T y -> 0 < T ->
  let p := vh_planet V in exists w0, 0 < w0 /\ forall e, 0 < e -> exists kap w T1, 0 < kap <= 1 /\ 0 < w <= e /\ w <= w0 / 2 /\ 0 <= T1 < T /\ T - w <= T1 /\
    forall eta V' delta' z Tz, 0 <= eta <= kap -> vehicle_within eta V V' -> Rabs (d * PI / 180 - delta') <= eta -> nearly_solves eta (fun u => EOM V' u delta') z Tz -> dist (y 0) (z 0) <= kap -> height p (z 0) <= h_thres p ->
      (forall t, 0 <= t <= T1 -> t <= Tz -> dist (y t) (z t) < e /\ 0 < height p (z t) <= h_thres p) /\
      (forall t, T1 <= t <= T + w -> t <= Tz -> dist (y T) (z t) < e /\ 0 < height p (z t)) /\
      (forall t, T + w / 2 <= t <= T + w0 -> t <= Tz -> h_thres p < height p (z t)).
Proof.
  intros V i d T y Hu HR Hr0 H0 HL LV HT0 p. pose proof (leaves_top _ _ _ _ _ Hu LV) as AT. pose proof LV as (HT & Y0 & Sy & I & Etop & Hc). fold p in AT, I, Etop.
  destruct (climbs_near V (d * PI / 180) (y T) HR Hr0 H0 HL AT Hc) as (c & B & e0 & Hcc & HB & He0 & CN). fold p in CN.
  assert (Cy : forall t, 0 <= t <= T -> continuous_at y t) by (intros t Ht; destruct Sy as (l & S); apply (S t); lra).
  set (w0 := e0 / (64 * B)). assert (Hw0 : 0 < w0) by (apply Rdiv_lt_0_compat; lra). assert (Ew0 : 64 * B * w0 = e0) by (unfold w0; field; lra). exists w0. split; auto. intros e He.
  set (e1 := Rmin e e0). assert (He1 : 0 < e1) by (apply Rmin_glb_lt; auto). pose proof (Rmin_l e e0 : e1 <= _) as Me1. pose proof (Rmin_r e e0 : e1 <= _) as Me2.
  set (w := Rmin e (e1 / (128 * B))). assert (Hq : 0 < e1 / (128 * B)) by (apply Rdiv_lt_0_compat; lra). assert (Hw : 0 < w) by (apply Rmin_glb_lt; auto). pose proof (Rmin_l e (e1 / (128 * B)) : w <= _) as Mw1. pose proof (Rmin_r e (e1 / (128 * B)) : w <= _) as Mw2.
  assert (Ew : 128 * B * w <= e1). { assert (128 * B * (e1 / (128 * B)) = e1) by (field; lra). assert (128 * B * w <= 128 * B * (e1 / (128 * B))) by (apply Rmult_le_compat_l; lra). lra. }
  assert (Hww : w <= w0 / 2) by (apply (Rmult_le_reg_l (128 * B)); lra).
  set (g := Rmin (c * w / 4) (e1 / 8)). assert (Hcw : 0 < c * w) by (apply Rmult_lt_0_compat; auto). assert (Hg : 0 < g) by (apply Rmin_glb_lt; lra). pose proof (Rmin_l (c * w / 4) (e1 / 8) : g <= _) as Mg1. pose proof (Rmin_r (c * w / 4) (e1 / 8) : g <= _) as Mg2.
  destruct (curve_near y T g Hg (Cy T ltac:(lra))) as (a & Ha & YN). set (w1 := Rmin (T / 2) (Rmin (a / 2) w)).
  pose proof (Rmin_l (T / 2) (Rmin (a / 2) w) : w1 <= _) as Mv1. pose proof (Rmin_r (T / 2) (Rmin (a / 2) w) : w1 <= _) as Mv2. pose proof (Rmin_l (a / 2) w) as Mv3. pose proof (Rmin_r (a / 2) w) as Mv4. assert (Hw1 : 0 < w1) by (repeat apply Rmin_glb_lt; lra).
  set (T1 := T - w1). assert (HT1 : 0 <= T1 < T) by (unfold T1; lra).
  assert (IA : forall t, 0 <= t <= T1 -> inside p y t) by (intros t Ht; apply I; lra).
  assert (Sy1 : solves (fun x => EOM V x (d * PI / 180)) y T1) by (eapply solves_upto; [exact Sy|lra]).
  destruct (near_passage V (d * PI / 180) y T1 Hu HR Hr0 H0 HL Sy1 ltac:(lra) IA g Hg) as (kap & Hk & NA). fold p in NA.
  exists (Rmin kap c), w, T1. pose proof (Rmin_l kap c) as Mk1. pose proof (Rmin_r kap c) as Mk2. split; [split; [apply Rmin_glb_lt; lra|lra]|]. split; [split; auto|]. split; auto. split; auto. split; [unfold T1; lra|].
  intros eta V' delta' z Tz He' HV Hd Sz Hst Hz0.
  assert (N1 : forall t, 0 <= t <= T1 -> t <= Tz -> dist (y t) (z t) < g /\ 0 < height p (z t) <= h_thres p) by (intros t Ht Htz; apply (NA eta V' delta' z Tz); auto; lra).
  assert (ZT : T1 <= Tz -> dist (y T) (z T1) < 2 * g).
  { intros L. pose proof (proj1 (N1 T1 ltac:(lra) L)) as N. assert (Y := YN T1 ltac:(unfold T1; rewrite Rabs_left; lra)). pose proof (dist_tri (y T) (y T1) (z T1)). lra. }
  assert (Loc : forall t, T1 <= t <= T + w0 -> t <= Tz -> dist (y T) (z t) <= 2 * g + 8 * B * (t - T1) /\ c * (t - T1) <= s_r (z t) - s_r (z T1) /\ 0 < height p (z t)).
  { intros t Ht Htz. specialize (ZT ltac:(lra)). assert (Q1 : B * (t - T1) <= B * (w0 + w)) by (apply Rmult_le_compat_l; unfold T1; lra). assert (Q2 : B * w <= B * (w0 / 2)) by (apply Rmult_le_compat_l; lra).
    destruct (CN V' delta' eta z Tz T1 t HV Hd ltac:(lra) ltac:(lra) Sz ltac:(lra) Htz ltac:(lra)) as (D1 & D2 & D3). split; [lra|auto]. }
  split; [|split].
  - intros t Ht Htz. specialize (N1 t Ht Htz). split; [lra|apply N1].
  - intros t Ht Htz. destruct (Loc t ltac:(lra) Htz) as (D1 & _ & D3). split; auto. assert (B * (t - T1) <= B * (2 * w)) by (apply Rmult_le_compat_l; unfold T1; lra). lra.
  - intros t Ht Htz. destruct (Loc t ltac:(lra) Htz) as (_ & D2 & _). specialize (ZT ltac:(lra)). pose proof (comp_dist (y T) (z T1) 0) as CD. cbn [comp] in CD. assert (Q : Rabs (s_r (y T) - s_r (z T1)) < 2 * g) by lra. apply Rabs_def2 in Q.
    assert (c * (w / 2) <= c * (t - T1)) by (apply Rmult_le_compat_l; unfold T1; lra). assert (s_r (y T) < s_r (z t)) by lra. rewrite <- Etop. unfold height. fold p in HR. assert (RP p * s_r (y T) < RP p * s_r (z t)) by (apply Rmult_lt_compat_l; auto). lra.
Qed.
Lemma nearly_vacuum : forall eta V H delta y T, vh_user V = false -> 0 < h_thres (vh_planet V) -> nearly_solves eta (fun x => EOM V x delta) y T -> (forall t, 0 < t < T -> h_thres (vh_planet V) < height (vh_planet V) (y t)) ->
  nearly_solves eta (fun x => EOM (vacuum V H) x delta) y T.
Proof.
  intros eta V H delta y T Hu H0 (l & Sy) Up. exists l. intros t Ht. destruct (Sy t Ht) as (C & d & E & M). split; auto. destruct (field_is _ _ _ _ Hu E) as (Ed & A1 & A2 & A3 & A4).
  exists (field (vacuum V H) delta (y t)). split; [apply field_defined; auto|]. intros Hi Hn. rewrite vacuum_field by (auto; apply Up; lra). change (field V delta (y t)) with (mkState (f1 (y t)) (f2 (y t)) (f3 (y t)) (f4 V (y t)) (f5 V delta (y t)) (f6 V delta (y t)) (f7 (y t))). rewrite <- Ed. auto.
Qed.
Lemma height_dist : forall p x a, 0 < RP p -> Rabs (height p a - height p x) <= RP p * dist x a.
Proof.
  intros p x a HR. pose proof (comp_dist x a 0) as C. cbn [comp] in C. unfold height. replace (RP p * s_r a - RP p - (RP p * s_r x - RP p)) with (- (RP p * (s_r x - s_r a))) by ring. rewrite Rabs_Ropp, Rabs_mult, (Rabs_right (RP p)) by lra. apply Rmult_le_compat_l; lra.
Qed.
Lemma height_continuous : forall p y t, continuous_at y t -> continuity_pt (fun w => height p (y w)) t.
Proof.
  intros p y t C. unfold height. apply (continuity_pt_minus (fun w => RP p * s_r (y w)) (fun _ => RP p)); [apply (continuity_pt_scal (fun w => s_r (y w)) (RP p)); apply C|apply continuity_pt_const; intros a b; reflexivity].
Qed.
(** Solutions near one that stays out of the atmosphere stay out. *)
Lemma near_out : forall V i d T T2 y, vh_user V = false -> 0 < RP (vh_planet V) -> 0 < rho0 (vh_planet V) -> 0 < h_thres (vh_planet V) -> lipschitz_air (vh_planet V) (vh_atm V) -> stays_out V i d T T2 y -> 0 < T ->
  let p := vh_planet V in forall e, 0 < e -> exists kap w T1, 0 < kap <= 1 /\ 0 < w <= e /\ 0 <= T1 < T /\ T - w <= T1 /\
    forall eta V' delta' z Tz, 0 <= eta <= kap -> vehicle_within eta V V' -> Rabs (d * PI / 180 - delta') <= eta -> nearly_solves eta (fun u => EOM V' u delta') z Tz -> dist (y 0) (z 0) <= kap -> height p (z 0) <= h_thres p ->
      (forall t, 0 <= t <= T1 -> t <= Tz -> dist (y t) (z t) < e /\ 0 < height p (z t) <= h_thres p) /\
      (forall t, T1 <= t <= T + w -> t <= Tz -> dist (y T) (z t) < e /\ 0 < height p (z t)) /\
      (forall t, T + w / 2 <= t <= T2 -> t <= Tz -> h_thres p < height p (z t)).
Proof.
  intros V i d T T2 y Hu HR Hr0 H0 HL (LV & HT2 & Sy & Up) HT0 p e He. destruct (near_exit V i d T y Hu HR Hr0 H0 HL LV HT0) as (w0 & Hw0 & NE). fold p in NE, Up, HR, Hr0, H0. pose proof LV as (_ & _ & _ & _ & Etop & _). fold p in Etop.
  assert (Cy : forall t, 0 <= t <= T2 -> continuous_at y t) by (intros t Ht; destruct Sy as (l & S); apply (S t); lra).
  destruct (Rle_or_lt T2 (T + w0)) as [L|L].
  { destruct (NE e He) as (kap & w & T1 & Hk & Hw & _ & HT1 & HTw & G). exists kap, w, T1. do 4 (split; auto). intros eta V' delta' z Tz He' HV Hd Sz Hst Hz0. destruct (G eta V' delta' z Tz He' HV Hd Sz Hst Hz0) as (G1 & G2 & G3). do 2 (split; auto). intros t Ht. apply G3. lra. }
  (* above, the margin is positive *)
  destruct (continuity_ab_min (fun w => height p (y w)) (T + w0 / 2) T2 ltac:(lra) ltac:(intros c Hc; apply height_continuous, Cy; lra)) as (mi & Hmi & Imi). cbv beta in Hmi. set (m := height p (y mi) - h_thres p). assert (Hm : 0 < m) by (unfold m; specialize (Up mi ltac:(lra)); lra).
  destruct (continuity_ab_maj (fun w => height p (y w)) T T2 ltac:(lra) ltac:(intros c Hc; apply height_continuous, Cy; lra)) as (ma & Hma & Ima). cbv beta in Hma. set (H := height p (y ma) + 1).
  assert (SV : solves (fun x => EOM (vacuum V H) x (d * PI / 180)) (fun t => y (T + t)) (T2 - T)).
  { apply solves_vacuum; auto; [apply (solves_shift _ y T2 T); auto; lra|intros t Ht; apply Up; lra]. }
  assert (IV : forall t, 0 <= t <= T2 - T -> in_air (vh_planet (vacuum V H)) (y (T + t))).
  { intros t Ht. unfold in_air. cbn [vacuum vh_planet topped RP h_thres]. fold p. specialize (Hma (T + t) ltac:(lra)). unfold H, height in *. split; [|lra]. destruct (Req_dec t 0) as [->|N]; [rewrite Rplus_0_r; lra|]. specialize (Up (T + t) ltac:(lra)). lra. }
  destruct (near_all (vacuum V H) (d * PI / 180) (fun t => y (T + t)) (T2 - T) Hu HR Hr0 (vacuum_lip V H) SV IV (m / RP p) ltac:(apply Rdiv_lt_0_compat; auto)) as (k3 & Hk3 & NA). cbv beta in NA.
  set (e' := Rmin e k3). assert (He' : 0 < e') by (apply Rmin_glb_lt; lra). pose proof (Rmin_l e k3 : e' <= _) as Ml. pose proof (Rmin_r e k3 : e' <= _) as Mr.
  destruct (NE e' He') as (kap & w & T1 & Hk & Hw & Hww & HT1 & HTw & G). exists (Rmin kap k3), w, T1. pose proof (Rmin_l kap k3) as Kl. pose proof (Rmin_r kap k3) as Kr.
  split; [split; [apply Rmin_glb_lt; lra|lra]|]. split; [lra|]. do 2 (split; auto). intros eta V' delta' z Tz Het HV Hd Sz Hst Hz0. destruct (G eta V' delta' z Tz ltac:(lra) HV Hd Sz ltac:(lra) Hz0) as (G1 & G2 & G3).
  split; [intros t Ht Htz; destruct (G1 t Ht Htz); split; auto; lra|]. split; [intros t Ht Htz; destruct (G2 t Ht Htz); split; auto; lra|].
  intros t Ht Htz. destruct (Rle_or_lt t (T + w0)) as [Lt|Lt]; [apply G3; auto; lra|].
  assert (Hu' : vh_user V' = false) by apply HV. assert (EP : vh_planet V' = p) by apply HV.
  assert (Ss : nearly_solves eta (fun u => EOM V' u delta') (fun s => z (T + w + s)) (Tz - (T + w))) by (apply nearly_shift; auto; lra).
  assert (Ez : dist (y (T + 0)) (z (T + w + 0)) <= k3) by (rewrite !Rplus_0_r; destruct (G2 (T + w) ltac:(lra) ltac:(lra)) as (Q & _); lra).
  assert (Ab : forall s, - height p (z (T + w + s)) < - h_thres p <-> h_thres p < height p (z (T + w + s))) by (intros s; split; lra).
  assert (All : forall s, 0 <= s <= t - (T + w) -> - height p (z (T + w + s)) < - h_thres p).
  { apply (no_escape (fun s => - height p (z (T + w + s))) 0 (t - (T + w))); [lra| |].
    - intros s Hs. apply (continuity_pt_opp (fun s => height p (z (T + w + s)))). apply (height_continuous p (fun s => z (T + w + s))). destruct Ss as (l & Ss). apply (Ss s). lra.
    - intros s Hs Hb. apply Ab. destruct (Rle_or_lt (T + w + s) (T + w0)) as [Ls|Ls]; [apply G3; lra|].
      assert (NV : nearly_solves eta (fun u => EOM (vacuum V' H) u delta') (fun s => z (T + w + s)) s).
      { apply nearly_vacuum; [auto|rewrite EP; auto|eapply nearly_upto; [exact Ss|lra]|]. rewrite EP. intros s' Hs'. apply Ab, Hb. lra. }
      pose proof (NA eta (vacuum V' H) delta' (fun s => z (T + w + s)) s ltac:(lra) (within_vacuum eta V V' H ltac:(lra) HV) Hd NV Ez s ltac:(lra) ltac:(lra) ltac:(lra)) as D.
      specialize (Hmi (T + s) ltac:(lra)). pose proof (height_dist p (y (T + s)) (z (T + w + s)) HR) as HD. assert (RP p * dist (y (T + s)) (z (T + w + s)) < RP p * (m / RP p)) by (apply Rmult_lt_compat_l; auto).
      assert (RP p * (m / RP p) = m) by (field; lra). assert (Q : Rabs (height p (z (T + w + s)) - height p (y (T + s))) < m) by lra. apply Rabs_def2 in Q. unfold m in Q. lra. }
  specialize (All (t - (T + w)) ltac:(lra)). replace (T + w + (t - (T + w))) with t in All by ring. lra.
Qed.
(** Solutions near one that sinks below the trap altitude sink below it at nearby times. *)
Lemma near_sink : forall V i d T2 y T, vh_user V = false -> 0 < RP (vh_planet V) -> 0 < rho0 (vh_planet V) -> 0 < h_thres (vh_planet V) -> lipschitz_air (vh_planet V) (vh_atm V) -> passage V i d T2 y -> 0 < T < T2 -> sinks V T y ->
  let p := vh_planet V in forall e, 0 < e -> exists kap w, 0 < kap <= 1 /\ 0 < w <= e /\ w < T /\ T + w <= T2 /\
    forall eta V' delta' z Tz, 0 <= eta <= kap -> vehicle_within eta V V' -> Rabs (d * PI / 180 - delta') <= eta -> nearly_solves eta (fun u => EOM V' u delta') z Tz -> dist (y 0) (z 0) <= kap -> height p (z 0) <= h_thres p ->
      (forall t, 0 <= t <= T2 -> t <= Tz -> dist (y t) (z t) < e /\ 0 < height p (z t) <= h_thres p) /\
      (forall t, 0 <= t <= T - w -> t <= Tz -> h_trap p < height p (z t)) /\
      (forall t, T + w / 2 <= t <= T + w -> t <= Tz -> height p (z t) < h_trap p).
Proof.
  intros V i d T2 y T Hu HR Hr0 H0 HL W HT SK p e He. destruct (sinks_below V i d T2 y T Hu HR W ltac:(lra) SK) as (eta0 & Heta0 & HT2 & BT). pose proof SK as (AB & ET & _). pose proof W as (Y0 & Sy & I). fold p in HR, Hr0, BT, AB, ET, I.
  assert (Cy : forall t, 0 <= t <= T2 -> continuous_at y t) by (intros t Ht; destruct Sy as (l & S); apply (S t); lra).
  set (w := Rmin e (Rmin eta0 (T / 2))). assert (Hw : 0 < w) by (repeat apply Rmin_glb_lt; lra). pose proof (Rmin_l e (Rmin eta0 (T / 2)) : w <= _) as M1. pose proof (Rmin_r e (Rmin eta0 (T / 2)) : w <= _) as M2. pose proof (Rmin_l eta0 (T / 2)) as M3. pose proof (Rmin_r eta0 (T / 2)) as M4.
  destruct (continuity_ab_min (fun w => height p (y w)) 0 (T - w) ltac:(lra) ltac:(intros c Hc; apply height_continuous, Cy; lra)) as (mi & Hmi & Imi). cbv beta in Hmi. set (m1 := height p (y mi) - h_trap p). assert (Hm1 : 0 < m1) by (unfold m1; specialize (AB mi ltac:(lra)); lra).
  destruct (continuity_ab_maj (fun w => height p (y w)) (T + w / 2) (T + w) ltac:(lra) ltac:(intros c Hc; apply height_continuous, Cy; lra)) as (ma & Hma & Ima). cbv beta in Hma. set (m2 := h_trap p - height p (y ma)). assert (Hm2 : 0 < m2) by (unfold m2; specialize (BT ma ltac:(lra)); lra).
  set (e2 := Rmin e (Rmin (m1 / RP p) (m2 / RP p))). assert (0 < m1 / RP p) by (apply Rdiv_lt_0_compat; auto). assert (0 < m2 / RP p) by (apply Rdiv_lt_0_compat; auto). assert (He2 : 0 < e2) by (repeat apply Rmin_glb_lt; lra).
  pose proof (Rmin_l e (Rmin (m1 / RP p) (m2 / RP p)) : e2 <= _) as N1. pose proof (Rmin_r e (Rmin (m1 / RP p) (m2 / RP p)) : e2 <= _) as N2. pose proof (Rmin_l (m1 / RP p) (m2 / RP p)) as N5. pose proof (Rmin_r (m1 / RP p) (m2 / RP p)) as N6.
  assert (E1 : RP p * (m1 / RP p) = m1) by (field; lra). assert (E2 : RP p * (m2 / RP p) = m2) by (field; lra).
  destruct (near_passage V (d * PI / 180) y T2 Hu HR Hr0 H0 HL Sy ltac:(lra) I e2 He2) as (kap & Hk & NA). fold p in NA. exists kap, w. split; auto. split; [lra|]. split; [lra|]. split; [lra|].
  intros eta V' delta' z Tz He' HV Hd Sz Hst Hz0.
  assert (D : forall t, 0 <= t <= T2 -> t <= Tz -> dist (y t) (z t) < e2 /\ 0 < height p (z t) <= h_thres p) by (intros t Ht Htz; apply (NA eta V' delta' z Tz); auto; lra).
  assert (HD : forall t, 0 <= t <= T2 -> t <= Tz -> Rabs (height p (z t) - height p (y t)) < m1 /\ Rabs (height p (z t) - height p (y t)) < m2).
  { intros t Ht Htz. destruct (D t Ht Htz) as (D' & _). pose proof (height_dist p (y t) (z t) HR) as Q. assert (RP p * dist (y t) (z t) < RP p * e2) by (apply Rmult_lt_compat_l; auto). assert (RP p * e2 <= RP p * (m1 / RP p)) by (apply Rmult_le_compat_l; lra). assert (RP p * e2 <= RP p * (m2 / RP p)) by (apply Rmult_le_compat_l; lra). split; lra. }
  split; [|split].
  - intros t Ht Htz. specialize (D t Ht Htz). split; [lra|apply D].
  - intros t Ht Htz. destruct (HD t ltac:(lra) Htz) as (Q & _). apply Rabs_def2 in Q. specialize (Hmi t ltac:(lra)). unfold m1 in Q. lra.
  - intros t Ht Htz. destruct (HD t ltac:(lra) Htz) as (_ & Q). apply Rabs_def2 in Q. specialize (Hma t ltac:(lra)). unfold m2 in Q. lra.
Qed.
