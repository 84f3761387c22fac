(** Proofs about flights that leave the atmosphere for good. *)
From Coq Require Import String List Reals Lra Lia Classical.
Require Import Verif.Base Verif.Numpy Verif.NumpyProofs Verif.PlanetModel Verif.PlanetProofs Verif.AeroModel Verif.HeatModel Verif.PropHeat Verif.TrajectoryModel Verif.TrajectorySpec Verif.TrajectoryProofs Verif.PropTrajectory Verif.FlightProofs Verif.PropFlight
  Verif.ExactSpec Verif.ExactProofs Verif.PropExact Verif.DetSpec Verif.DetProofs Verif.PropDet Verif.NearSpec Verif.NearProofs Verif.ExistSpec Verif.ExistProofs Verif.PropExist Verif.ExitSpec Verif.ExitProofs Verif.EnterProofs Verif.PropExit Verif.PropTrap Verif.PropExitRun
  Verif.ConicSpec Verif.OrbitSpec Verif.VerdictSpec.
Require Verif.PropRoundGrid Verif.PropGuidance.
Import ListNotations.
Local Open Scope R_scope.

(** The vehicle without air, its atmosphere ending at [H]. *)
Definition topped (p : planet) (H : R) : planet :=
  mkPlanet (ID p) (RP p) (OMEGA p) (GM p) (rho0 p) (CPCV p) (J2 p) (J3 p) (a0 p) (d0 p) H (h_skip p) (h_trap p) (h_low p).
Definition vacuum (V : vehicle) (H : R) : vehicle :=
  mkVehicle (vh_mass V) (vh_beta V) (vh_LD V) (vh_A V) (vh_alpha V) (vh_RN V) (topped (vh_planet V) H)
    (mkAtm (fun _ => 0) (temp_int (vh_atm V)) (pressure_int (vh_atm V)) (sonic_int (vh_atm V))) (vh_user V) (vh_CDMach V) (vh_Abar V) (vh_mbar V) (vh_CD V) (vh_CL V).
Lemma vacuum_field : forall V H delta x, 0 < h_thres (vh_planet V) -> h_thres (vh_planet V) < height (vh_planet V) x -> field (vacuum V H) delta x = field V delta x.
Proof.
  intros V H delta x H0 Hx. assert (E : air_at (vacuum V H) x = air_at V x).
  { unfold air_at. cbn [vacuum vh_planet vh_atm density_int topped RP rho0]. unfold height in Hx. rewrite (Rmult_comm (RP _)) in Hx. set (h := s_r x * RP (vh_planet V) - RP (vh_planet V)) in *.
    unfold density. cbn [topped h_thres rho0]. destruct (Rleb_spec 0 h); [|lra]. destruct (Rleb_spec h H); destruct (Rleb_spec h (h_thres (vh_planet V))); try lra; cbn [andb]; destruct (Rltb_spec (h_thres (vh_planet V)) h); try lra.
    destruct (Rltb_spec H h); lra. }
  unfold field, f4, f5, f6, fas, fan, faw. rewrite E. reflexivity.
Qed.
Lemma vacuum_lip : forall V H, lipschitz_air (vh_planet (vacuum V H)) (vh_atm (vacuum V H)).
Proof. intros V H. exists 0. intros h h' _ _. cbn. rewrite Rminus_0_r, Rabs_R0. lra. Qed.
(** Solutions above the atmosphere are solutions without it. *)
Lemma solves_vacuum : forall V H delta y T, vh_user V = false -> 0 < h_thres (vh_planet V) -> solves (fun x => EOM V x delta) y T -> (forall t, 0 < t <= T -> h_thres (vh_planet V) < height (vh_planet V) (y t)) ->
  solves (fun x => EOM (vacuum V H) x delta) y T.
Proof.
  intros V H delta y T Hu H0 (l & Sy) Up. exists l. intros t Ht. destruct (Sy t Ht) as (C & d & E & M). split; auto. destruct (field_is _ _ _ _ Hu E) as (Ed & A1 & A2 & A3 & A4).
  exists (field (vacuum V H) delta (y t)). split; [apply field_defined; auto|]. intros Hi Hn. rewrite vacuum_field by (auto; apply Up; lra). change (field V delta (y t)) with (mkState (f1 (y t)) (f2 (y t)) (f3 (y t)) (f4 V (y t)) (f5 V delta (y t)) (f6 V delta (y t)) (f7 (y t))). rewrite <- Ed. auto.
Qed.
(** Also past the top of the atmosphere a flight that stays out is the only one. *)
Lemma out_same : forall V i d T T2 y z Tz, vh_user V = false -> 0 < RP (vh_planet V) -> 0 < h_thres (vh_planet V) -> lipschitz_air (vh_planet V) (vh_atm V) -> stays_out V i d T T2 y ->
  z 0 = entry_state (vh_planet V) i -> solves (fun x => EOM V x (d * PI / 180)) z Tz -> forall t, 0 <= t <= T2 -> t <= Tz -> z t = y t.
Proof.
  intros V i d T T2 y z Tz Hu HR H0 HL (LV & HT2 & Sy & Up) Z0 Sz t1 Ht1 Htz. set (p := vh_planet V) in *. pose proof (leaves_same V i d T y z Tz Hu HR H0 HL LV Z0 Sz) as SM. pose proof LV as (HT & _ & _ & _ & Etop & Hc). fold p in Etop.
  destruct (Rle_or_lt t1 T) as [L1|L1]; [apply SM; lra|]. pose proof (leaves_top _ _ _ _ _ Hu LV) as AT. fold p in AT.
  destruct (climbs_out V (d * PI / 180) (y T) Hu HR H0 HL AT Hc 1 ltac:(lra)) as (eta & Heta & CO). fold p in CO.
  assert (ZT : z T = y T) by (apply SM; lra).
  assert (Cy : forall u, 0 <= u <= t1 -> continuous_at y u) by (intros u Hu'; destruct Sy as (l & S); apply (S u); lra).
  assert (Cz : forall u, 0 <= u <= t1 -> continuous_at z u) by (intros u Hu'; destruct Sz as (l & S); apply (S u); lra).
  (* a bound of the altitude *)
  assert (Ch : forall u, 0 <= u <= t1 -> continuity_pt (fun w => height p (y w)) u).
  { intros u Hu'. unfold height. apply (continuity_pt_minus (fun w => RP p * s_r (y w)) (fun _ => RP p)); [apply (continuity_pt_scal (fun w => s_r (y w)) (RP p)); apply (Cy u Hu')|apply continuity_pt_const; intros a b; reflexivity]. }
  destruct (continuity_ab_maj (fun w => height p (y w)) T t1 ltac:(lra) ltac:(intros c Hcc; apply Ch; lra)) as (M & HM & _). set (H := height p (y M) + 1).
  assert (HH : forall u, T <= u <= t1 -> height p (y u) < H) by (intros u Hu'; specialize (HM u Hu'); unfold H; lra).
  set (E := fun s => T <= s <= t1 /\ forall u, T <= u <= s -> z u = y u).
  assert (E_0 : E T) by (split; [lra|]; intros u Hu'; replace u with T by lra; auto).
  destruct (completeness E) as (m & Um & Lm). { exists t1. intros s (Hs & _). lra. } { exists T. auto. }
  assert (Hm : T <= m <= t1). { split; [apply Um; auto|]. apply Lm. intros s (Hs & _). lra. }
  assert (Below : forall u, T <= u < m -> z u = y u).
  { intros u Hu'. destruct (classic (exists s, E s /\ u < s)) as [(s & (Hs & Q) & L)|N]; [apply Q; lra|]. exfalso. assert (m <= u); [|lra]. apply Lm. intros s Es. apply Rnot_lt_le. intros L. apply N. exists s. auto. }
  assert (Em : z m = y m).
  { destruct (Req_dec m T) as [->|Nm]; auto. apply Dsq_zero. apply Rnot_lt_le. intros P. assert (C : continuity_pt (Dsq z y) m) by (apply Dsq_continuous; [apply Cz|apply Cy]; lra).
    destruct (C (Dsq z y m) P) as (a & Ha & Hd). set (u := Rmax T (m - a / 2)). assert (Hu1 : T <= u < m) by (unfold u; split; [apply Rmax_l|apply Rmax_lub_lt; lra]). assert (Hu2 : m - a / 2 <= u) by apply Rmax_r.
    specialize (Hd u). cbn in Hd. unfold R_dist in Hd. assert (Q : Rabs (Dsq z y u - Dsq z y m) < Dsq z y m). { apply Hd. split; [split; [exact Logic.I|lra]|]. apply Rabs_def1; lra. }
    rewrite (Dsq_same z y u (Below u Hu1)), Rminus_0_l, Rabs_Ropp, Rabs_right in Q by lra. lra. }
  assert (Upto : forall u, T <= u <= m -> z u = y u). { intros u Hu'. destruct (Req_dec u m) as [->|N]; auto. apply Below. lra. }
  destruct (Req_dec m t1) as [->|Nm]; [apply Upto; lra|]. exfalso.
  (* a little further the other one is above the atmosphere as well *)
  assert (X : exists w, 0 < w /\ forall u, m < u <= m + w -> u <= t1 -> h_thres p < height p (z u)).
  { destruct (Req_dec m T) as [->|NT]; [exists eta; split; auto; intros u Hu1 Hu2; apply (CO z T Tz Sz HT ZT u); lra|].
    assert (Hz : 0 < height p (z m) - h_thres p) by (rewrite Em; specialize (Up m ltac:(lra)); fold p in Up; lra).
    destruct (curve_near z m ((height p (z m) - h_thres p) / (2 * RP p)) ltac:(apply Rdiv_lt_0_compat; lra) (Cz m ltac:(lra))) as (w & Hw & CN). exists (w / 2). split; [lra|]. intros u Hu1 _.
    specialize (CN u ltac:(rewrite Rabs_right; lra)). pose proof (comp_dist (z m) (z u) 0) as CD. cbn [comp] in CD. assert (Q : Rabs (s_r (z m) - s_r (z u)) < (height p (z m) - h_thres p) / (2 * RP p)) by lra. apply Rabs_def2 in Q.
    assert (EQ : (height p (z m) - h_thres p) / (2 * RP p) * RP p = (height p (z m) - h_thres p) / 2) by (field; lra). unfold height in *. nra. }
  destruct X as (w & Hw & Xw). set (s := Rmin (m + w) t1). assert (Hs : m < s <= t1 /\ s <= m + w) by (unfold s; pose proof (Rmin_l (m + w) t1); pose proof (Rmin_r (m + w) t1); split; auto; split; auto; apply Rmin_glb_lt; lra).
  assert (UZ : forall u, T < u <= s -> h_thres p < height p (z u)). { intros u Hu'. destruct (Rle_or_lt u m) as [L|L]; [rewrite Upto by lra; apply Up; lra|apply Xw; lra]. }
  assert (UY : forall u, T < u <= s -> h_thres p < height p (y u)) by (intros u Hu'; apply Up; lra).
  assert (SY : solves (fun x => EOM (vacuum V H) x (d * PI / 180)) (fun t => y (T + t)) (s - T)).
  { apply solves_vacuum; auto; [apply (solves_shift _ y s T); [eapply solves_upto; [exact Sy|lra]|lra]|intros t Ht; apply UY; lra]. }
  assert (SZ : solves (fun x => EOM (vacuum V H) x (d * PI / 180)) (fun t => z (T + t)) (s - T)).
  { apply solves_vacuum; auto; [apply (solves_shift _ z s T); [eapply solves_upto; [exact Sz|lra]|lra]|intros t Ht; apply UZ; lra]. }
  assert (E s).
  { split; [lra|]. intros u Hu'. pose proof (unique (vacuum V H) (d * PI / 180) (fun t => y (T + t)) (fun t => z (T + t)) (s - T) Hu HR (vacuum_lip V H) SY SZ) as Q. cbv beta in Q. rewrite Rplus_0_r in Q. specialize (Q (eq_sym ZT)).
    specialize (Q ltac:(intros t Ht; unfold in_air; cbn [vacuum vh_planet topped RP h_thres]; fold p; specialize (HH (T + t) ltac:(lra)); unfold height in HH; split; [|lra]; destruct (Req_dec t 0) as [->|Nt]; [rewrite Rplus_0_r; unfold height in Etop; lra|specialize (UY (T + t) ltac:(lra)); unfold height in UY; lra]) (u - T) ltac:(lra)).
    replace (T + (u - T)) with u in Q by ring. auto. }
  specialize (Um s H1). lra.
Qed.
(** Its propagation says that it left, however long it is. *)
Lemma long_flag : forall E name V i tol d T T2 y secs dt o f, engine_ok E -> exact E -> Planet name = Ok (vh_planet V) -> vh_user V = false -> lipschitz_air (vh_planet V) (vh_atm V) ->
  stays_out V i d T T2 y -> 0 < dt -> tau (vh_planet V) * T < secs -> secs + dt <= tau (vh_planet V) * T2 ->
  propogateEntry E (mkObj V i tol None None) secs dt d = (o, Ok tt) -> ob_flight o = Some f -> f_exitflag f = 1.
Proof.
  intros E name V i tol d T T2 y secs dt o f HE HX HP Hu HL SO Hdt Hs1 Hs2 H Hf. destruct (ref_facts _ _ HP) as (_ & _ & Ht & _ & HR & _). destruct (Planet_facts _ _ HP) as (_ & _ & _ & _ & (Ht0 & Hts) & Hthr & _).
  set (p := vh_planet V) in *. assert (H0 : 0 < h_thres p) by lra. pose proof SO as (LV & HT2 & _ & Up). pose proof (leaves_below _ _ _ _ _ H0 LV) as BL. fold p in BL, Up. pose proof LV as (HT & _).
  destruct (behind false E name V i tol secs dt d o f HE HX HP Hdt H Hf) as (z & Tz & ts & idx & Z0 & Sz & G & Nk & Ln & Ec & _). fold p in Z0, Nk, Ec, Ln. specialize (Ln eq_refl).
  destruct (C42_classification name p _ _ _ HP Ec) as (_ & F & _). cbv zeta in F. clear Ec. rewrite map_map in F. apply F. clear F.
  set (st := dt / tau p) in *. assert (Hst : 0 < st) by (apply Rdiv_lt_0_compat; lra). assert (Est : st * tau p = dt) by (unfold st; field; lra).
  pose proof (out_same V i d T T2 y z Tz Hu HR H0 HL SO Z0 Sz) as SM. pose proof (proj1 (Forall_forall _ _) G) as GT. cbv beta in GT.
  assert (HTs : 0 <= tau p * T) by (apply Rmult_le_pos; lra).
  assert (Hq : 0 < (secs + dt) / tau p / st) by (apply Rdiv_lt_0_compat; [apply Rdiv_lt_0_compat; lra|auto]). pose proof (PropRoundGrid.ceil_between _ ltac:(exact (Rlt_le _ _ Hq))) as (C1 & C2). rewrite <- Ln in C1, C2.
  assert (Eq : (secs + dt) / tau p / st * dt = secs + dt) by (unfold st; field; lra).
  assert (L1 : (1 <= length ts)%nat) by (destruct ts; [cbn in C1; lra|cbn; lia]). assert (E1 : INR (length ts) = INR (length ts - 1) + 1) by (rewrite <- S_INR; f_equal; lia).
  assert (LB : secs <= INR (length ts - 1) * dt < secs + dt) by nra.
  assert (Alt : forall k, (k < length ts)%nat -> 0 <= height p (z (nth k ts 0)) /\ (T < nth k ts 0 -> h_thres p < height p (z (nth k ts 0)))).
  { intros k Hk. pose proof (GT _ (nth_In ts 0 Hk)) as B.
    assert (nth k ts 0 * tau p <= INR (length ts - 1) * dt). { rewrite Nk by auto. rewrite Rmult_assoc, Est. apply Rmult_le_compat_r; [lra|]. apply le_INR. lia. }
    assert (nth k ts 0 <= T2) by (apply (Rmult_le_reg_r (tau p)); auto; lra). rewrite SM by lra. destruct (Rle_or_lt (nth k ts 0) T) as [L|L].
    - specialize (BL (nth k ts 0) ltac:(lra)). split; [apply BL|intros; lra].
    - specialize (Up (nth k ts 0) ltac:(lra)). split; [lra|auto]. }
  assert (Hgt : forall k, (k < length ts)%nat -> nth k (map (fun t => s_r (z t) * RP p - RP p) ts) 0 = height p (z (nth k ts 0))) by (intros k Hk; rewrite (nth_map_lt _ _ _ 0) by auto; unfold height; ring).
  split.
  - intros k Hk. rewrite map_length in Hk. rewrite Hgt by auto. apply Alt; auto.
  - exists (length ts - 1)%nat. rewrite map_length. split; [lia|]. rewrite Hgt by lia. rewrite <- Hthr. apply Alt; [lia|]. rewrite Nk by lia. apply (Rmult_lt_reg_r (tau p)); auto. rewrite Rmult_assoc, Est. lra.
Qed.
(** The same for a flight that sinks. *)
Lemma long_trap : forall name V i d T2 y T, Planet name = Ok (vh_planet V) -> vh_user V = false -> lipschitz_air (vh_planet V) (vh_atm V) -> passage V i d T2 y -> 0 <= T < T2 -> sinks V T y ->
  exists delta, 0 < delta /\ forall E tol secs dt o f, engine_ok E -> exact E -> 0 < dt < delta -> tau (vh_planet V) * T < secs -> secs + dt <= tau (vh_planet V) * T2 ->
    propogateEntry E (mkObj V i tol None None) secs dt d = (o, Ok tt) -> ob_flight o = Some f -> f_exitflag f = -1.
Proof.
  intros name V i d T2 y T HP Hu HL W HT SK. destruct (ref_facts _ _ HP) as (_ & _ & Ht & _ & HR & _). destruct (Planet_facts _ _ HP) as (_ & _ & _ & _ & (Ht0 & Hts) & Hthr & _).
  destruct (sinks_below V i d T2 y T Hu HR W HT SK) as (eta & Heta & HT2 & BT). set (p := vh_planet V) in *. pose proof W as (Y0 & Sy & I).
  exists (eta * tau p). split; [apply Rmult_lt_0_compat; auto|]. intros E tol secs dt o f HE HX Hdt Hs1 Hs2 H Hf.
  destruct (behind false E name V i tol secs dt d o f HE HX HP ltac:(lra) H Hf) as (z & Tz & ts & idx & Z0 & Sz & G & Nk & Ln & Ec & _). fold p in Z0, Nk, Ec, Ln. specialize (Ln eq_refl).
  destruct (C42_classification name p _ _ _ HP Ec) as (_ & _ & F & _). cbv zeta in F. clear Ec. rewrite map_map in F. apply F. clear F.
  set (st := dt / tau p) in *. assert (Hst : 0 < st) by (apply Rdiv_lt_0_compat; lra). assert (Est : st * tau p = dt) by (unfold st; field; lra).
  assert (SM : forall t, 0 <= t <= T2 -> t <= Tz -> z t = y t).
  { intros t Htt Htz. symmetry. apply (unique_inside V (d * PI / 180) y z t); auto; [fold p; lra|eapply solves_upto; [exact Sy|lra]|eapply solves_upto; [exact Sz|lra]|rewrite Y0, Z0; reflexivity|intros u Hu'; apply I; lra|lra]. }
  pose proof (proj1 (Forall_forall _ _) G) as GT. cbv beta in GT. assert (HTs : 0 <= tau p * T) by (apply Rmult_le_pos; lra).
  assert (Hq : 0 < (secs + dt) / tau p / st) by (apply Rdiv_lt_0_compat; [apply Rdiv_lt_0_compat; lra|auto]). pose proof (PropRoundGrid.ceil_between _ ltac:(exact (Rlt_le _ _ Hq))) as (C1 & C2). rewrite <- Ln in C1, C2.
  assert (Eq : (secs + dt) / tau p / st * dt = secs + dt) by (unfold st; field; lra).
  assert (L1 : (1 <= length ts)%nat) by (destruct ts; [cbn in C1; lra|cbn; lia]). assert (E1 : INR (length ts) = INR (length ts - 1) + 1) by (rewrite <- S_INR; f_equal; lia).
  assert (LB : secs <= INR (length ts - 1) * dt < secs + dt) by nra.
  assert (Bnd : forall k, (k < length ts)%nat -> nth k ts 0 <= T2).
  { intros k Hk. apply (Rmult_le_reg_r (tau p)); auto. rewrite Nk by auto. rewrite Rmult_assoc, Est. assert (INR k * dt <= INR (length ts - 1) * dt) by (apply Rmult_le_compat_r; [lra|]; apply le_INR; lia). lra. }
  assert (Hgt : forall k, (k < length ts)%nat -> nth k (map (fun t => s_r (z t) * RP p - RP p) ts) 0 = height p (z (nth k ts 0))) by (intros k Hk; rewrite (nth_map_lt _ _ _ 0) by auto; unfold height; ring).
  assert (X : forall n, (n < length ts)%nat -> T < nth n ts 0 -> exists j, (j <= n)%nat /\ T < nth j ts 0 <= T + st).
  { induction n as [|n IH]; intros Hn Hl; [exists 0%nat; split; [lia|]; rewrite Nk in * by lia; cbn in *; lra|].
    destruct (Rlt_or_le T (nth n ts 0)) as [Q|Q]; [destruct (IH ltac:(lia) Q) as (j & Hj & B); exists j; split; [lia|auto]|]. exists (S n). split; auto. split; auto. rewrite !Nk in * by lia. rewrite S_INR. lra. }
  split.
  - intros (_ & k & Hk & U). rewrite map_length in Hk. rewrite Hgt in U by auto. specialize (Bnd k Hk). pose proof (GT _ (nth_In ts 0 Hk)) as Bk. rewrite SM in U by lra. pose proof (inside_height p y (nth k ts 0) ltac:(lra) (I (nth k ts 0) ltac:(lra))). lra.
  - left. destruct (X (length ts - 1)%nat ltac:(lia)) as (j & Hj & Bj). { rewrite Nk by lia. apply (Rmult_lt_reg_r (tau p)); auto. rewrite Rmult_assoc, Est. lra. }
    assert (Lj : (j < length ts)%nat) by lia. exists j. rewrite map_length. split; auto. rewrite Hgt by auto. specialize (Bnd j Lj). pose proof (GT _ (nth_In ts 0 Lj)) as B. rewrite SM by lra. apply BT. assert (st <= eta) by nra. lra.
Qed.
