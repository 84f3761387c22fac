(** Theorems about trajectory units, classification, truncation and loads: C05, C42-C44, C73. *)
From Coq Require Import String List.
Require Import Verif.Base Verif.Numpy Verif.NumpyProofs Verif.PlanetModel Verif.PlanetProofs Verif.AeroModel Verif.FlightProofs Verif.HeatModel Verif.TrajectoryModel Verif.TrajectorySpec Verif.TrajectoryProofs.
Local Open Scope R_scope.

(** * C05: plot units *)
Lemma map_inj : forall (f : R -> R) (g : R -> R) l l', (forall x, g (f x) = x) -> map f l = map f l' -> l = l'.
Proof.
  intros f g l. induction l as [|a l IH]; intros [|b l'] H E; cbn [map] in E; try discriminate; auto. injection E as E1 E2.
  f_equal; [rewrite <- (H a), <- (H b), E1; auto|auto].
Qed.
Theorem C05_plot_units_injective : forall p t r v phi psi theta gamma drange t' r' v' phi' psi' theta' gamma' drange',
  convertToPlotUnits p t r v phi psi theta gamma drange = convertToPlotUnits p t' r' v' phi' psi' theta' gamma' drange' ->
  t = t' /\ r = r' /\ v = v' /\ phi = phi' /\ psi = psi' /\ theta = theta' /\ gamma = gamma' /\ drange = drange'.
Proof.
  intros p t r v phi psi theta gamma drange t' r' v' phi' psi' theta' gamma' drange' H. unfold convertToPlotUnits in H.
  injection H as H1 H2 H3 H4 H5 H6 H7 H8. assert (HPI : PI <> 0) by apply PI_neq0.
  assert (G : forall l l' : list R, map (fun x => x * 180 / PI) l = map (fun x => x * 180 / PI) l' -> l = l')
    by (intros l l'; apply (map_inj _ (fun y => y * PI / 180)); intros; field; auto).
  assert (K : forall l l' : list R, map (fun x => x * 1e-3) l = map (fun x => x * 1e-3) l' -> l = l')
    by (intros l l'; apply (map_inj _ (fun y => y * 1e3)); intros; lra).
  repeat split; auto.
  - apply (map_inj _ (fun y => y * 60)) in H1; auto. intros; lra.
  - apply (map_inj _ (fun y => y * 1e3 + RP p)) in H2; auto. intros; lra.
Qed.
(** Each channel in its unit. *)
Theorem C05_plot_units : forall p t r v phi psi theta gamma drange k, (k < length t)%nat -> length r = length t -> length v = length t ->
  length phi = length t -> length psi = length t -> length theta = length t -> length gamma = length t -> length drange = length t ->
  let q := convertToPlotUnits p t r v phi psi theta gamma drange in
  nth k (p_t q) 0 * 60 = nth k t 0 /\ computeR p (nth k (p_h q) 0 * 1000) = nth k r 0 /\ nth k (p_v q) 0 * 1000 = nth k v 0 /\
  deg (nth k (p_phi q) 0) = nth k phi 0 /\ deg (nth k (p_psi q) 0) = nth k psi 0 /\ deg (nth k (p_theta q) 0) = nth k theta 0 /\
  deg (nth k (p_gamma q) 0) = nth k gamma 0 /\ nth k (p_drange q) 0 * 1000 = nth k drange 0.
Proof.
  intros p t r v phi psi theta gamma drange k Hk L1 L2 L3 L4 L5 L6 L7 q. assert (HPI : PI <> 0) by apply PI_neq0.
  unfold q, convertToPlotUnits, deg, computeR. cbn [p_t p_h p_v p_phi p_psi p_theta p_gamma p_drange].
  rewrite (nth_map_lt (fun x => x / 60) _ _ 0), (nth_map_lt (fun x => (x - RP p) * 1e-3) _ _ 0), !(nth_map_lt (fun x => x * 1e-3) _ _ 0), !(nth_map_lt (fun x => x * 180 / PI) _ _ 0) by lia.
  repeat split; try lra; field; auto.
Qed.

(** * C42 *)
Theorem C42_total : forall p r, classifyTrajectory p r = Err ValueError /\ r = [] \/ exists idx flag, classifyTrajectory p r = Ok (idx, flag) /\ r <> [].
Proof.
  intros p [|a r]; [left; split; reflexivity|right]. unfold classifyTrajectory. cbn [map].
  match goal with |- context [Ok ?x] => destruct x as [i fl] eqn:E end. exists i, fl. split; [rewrite <- E; reflexivity|discriminate].
Qed.
(** The altitude history is [h].  Flag 1: never below the surface and somewhere above the skip altitude;
    the index is the first point above it.  Flag -1: no skip, and some point below the trap altitude, whose
    first is the index; or the exact tie (lowest point at the trap altitude and highest at the skip
    altitude), where the index is 0.  Flag 0: anything else, nothing cut. *)
Theorem C42_classification : forall name p r idx flag, Planet name = Ok p -> classifyTrajectory p r = Ok (idx, flag) ->
  let h := map (fun x => x - RP p) r in
  let skip := every_entry (fun x => 0 <= x) h /\ some_entry (fun x => h_skip p < x) h in
  let trap := some_entry (fun x => x < h_trap p) h in
  let tie := every_entry (fun x => h_trap p <= x <= h_skip p) h /\ some_entry (fun x => x = h_trap p) h /\ some_entry (fun x => x = h_skip p) h in
  (flag = 1 \/ flag = 0 \/ flag = -1) /\
  (flag = 1 <-> skip) /\ (flag = -1 <-> ~ skip /\ (trap \/ tie)) /\
  (flag = 1 -> first_at (fun x => h_skip p < x) h idx) /\
  (flag = -1 -> trap -> first_at (fun x => x < h_trap p) h idx) /\
  (flag = -1 -> tie -> idx = 0%nat) /\
  (flag = 0 -> idx = length r).
Proof.
  intros name p r idx flag HP H h skip trap tie. destruct (Planet_facts _ _ HP) as (_ & _ & _ & _ & (Ht & Hts) & _).
  destruct (classify_cases p r idx flag Hts Ht H) as (Hr & C). fold h in C. change (skips p h) with skip in C.
  assert (Hh : h <> []) by (unfold h; destruct r; [congruence|discriminate]).
  assert (T : tie -> ~ trap). { intros (T1 & _) (k & Hk & T2). destruct (T1 k Hk). lra. }
  assert (T' : tie <-> every_entry (fun x => h_trap p <= x <= h_skip p) h /\ list_min h = h_trap p /\ list_max h = h_skip p).
  { unfold tie. split; intros (A & B & D).
    - split; auto. destruct B as (i & Hi & B), D as (j & Hj & D). split.
      + apply Rle_antisym; [rewrite <- B; apply list_min_le, in_nth_lt; auto|apply (min_every h); auto; intros k Hk; apply A; auto].
      + apply Rle_antisym; [apply (max_le_every h); auto; intros k Hk; apply A; auto|rewrite <- D; apply list_max_ge, in_nth_lt; auto].
    - split; auto. destruct (In_nth _ _ 0 (list_min_in h Hh)) as (i & Hi & Ei), (In_nth _ _ 0 (list_max_in h Hh)) as (j & Hj & Ej).
      split; [exists i|exists j]; split; auto; congruence. }
  destruct C as [(S & -> & F)|[(NS & Tr & -> & F)|[(NS & Ev & Mi & Ma & -> & Ix)|(NS & Ev & Ne & -> & Ix)]]].
  - split; [left; auto|]. split; [tauto|]. split; [split; [lra|tauto]|]. split; auto. repeat split; intros; lra.
  - split; [auto|]. split; [split; [lra|tauto]|]. split; [tauto|]. split; [lra|]. split; auto. split; [intros _ T1; exfalso; apply (T T1 Tr)|lra].
  - split; [auto|]. split; [split; [lra|tauto]|]. split; [split; [intros _; split; auto; right; apply T'; auto|auto]|]. split; [lra|].
    split; [intros _ T1; exfalso; apply (T (proj2 T' (conj Ev (conj Mi Ma))) T1)|]. split; auto. lra.
  - split; [auto|]. split; [split; [lra|tauto]|]. split. { split; [lra|]. intros (_ & [(k & Hk & T1)|T1]); [specialize (Ev k Hk); lra|]. apply T' in T1. destruct T1 as (_ & M1 & M2). exfalso. apply Ne; auto. }
    split; [lra|]. split; [lra|]. split; [lra|auto].
Qed.
(** What is kept. *)
Theorem C42_retained : forall name p r idx flag, Planet name = Ok p -> classifyTrajectory p r = Ok (idx, flag) ->
  (idx <= length r)%nat /\
  (flag = 1 -> forall k, (k < idx)%nat -> 0 <= nth k r 0 - RP p <= h_skip p) /\
  (flag = -1 -> forall k, (k < idx)%nat -> h_trap p <= nth k r 0 - RP p) /\
  (flag = 0 -> forall k, (k < length r)%nat -> h_trap p <= nth k r 0 - RP p /\ (nth k r 0 - RP p <= h_skip p)) /\
  (idx = 0%nat <-> flag = 1 /\ h_skip p < nth 0 r 0 - RP p \/
     flag = -1 /\ (nth 0 r 0 - RP p < h_trap p \/
       (forall k, (k < length r)%nat -> h_trap p <= nth k r 0 - RP p <= h_skip p) /\
       (exists k, (k < length r)%nat /\ nth k r 0 - RP p = h_trap p) /\ exists k, (k < length r)%nat /\ nth k r 0 - RP p = h_skip p)).
Proof.
  intros name p r idx flag HP H. destruct (C42_classification _ _ _ _ _ HP H) as (Fl & F1 & F2 & F3 & F4 & F5 & F6). cbv zeta in *.
  assert (Hr : r <> []) by (destruct (C42_total p r) as [(E & _)|(i & fl & E & Hr)]; [congruence|auto]).
  destruct (Planet_facts _ _ HP) as (_ & _ & _ & _ & (Ht & Hts) & _).
  set (h := map (fun x => x - RP p) r) in *. assert (Lh : length h = length r) by apply map_length.
  assert (N : forall k, (k < length r)%nat -> nth k h 0 = nth k r 0 - RP p) by (intros; unfold h; rewrite (nth_map_lt _ _ _ 0) by auto; auto).
  assert (L0 : (0 < length r)%nat) by (destruct r; [congruence|cbn; lia]).
  assert (Dtrap : some_entry (fun x => x < h_trap p) h \/ every_entry (fun x => h_trap p <= x) h).
  { assert (Hh : h <> []) by (unfold h; destruct r; [congruence|discriminate]). destruct (Rlt_le_dec (list_min h) (h_trap p)); [left; apply min_some|right; apply min_every]; auto. }
  assert (Dskip : some_entry (fun x => h_skip p < x) h \/ every_entry (fun x => x <= h_skip p) h).
  { assert (Hh : h <> []) by (unfold h; destruct r; [congruence|discriminate]). destruct (Rlt_le_dec (h_skip p) (list_max h)); [left; apply max_some|right; apply max_le_every]; auto. }
  assert (TieE : (every_entry (fun x => h_trap p <= x <= h_skip p) h /\ some_entry (fun x => x = h_trap p) h /\ some_entry (fun x => x = h_skip p) h) <->
    ((forall k, (k < length r)%nat -> h_trap p <= nth k r 0 - RP p <= h_skip p) /\ (exists k, (k < length r)%nat /\ nth k r 0 - RP p = h_trap p) /\ exists k, (k < length r)%nat /\ nth k r 0 - RP p = h_skip p)).
  { unfold every_entry, some_entry. rewrite Lh. split; intros (A & (i & Hi & B) & (j & Hj & C)).
    - split; [intros k Hk; rewrite <- N by auto; apply A; auto|]. split; [exists i|exists j]; split; auto; rewrite <- N by auto; auto.
    - split; [intros k Hk; rewrite N by auto; apply A; auto|]. split; [exists i|exists j]; split; auto; rewrite N by auto; auto. }
  split.
  { destruct Fl as [E|[E|E]]. - destruct (F3 E) as (A & _). lia. - rewrite (F6 E). lia.
    - destruct (proj1 F2 E) as (_ & [T|T]); [destruct (F4 E T) as (A & _); lia|rewrite (F5 E T); lia]. }
  split.
  { intros E k Hk. destruct (F3 E) as (A & _ & C). destruct (proj1 F1 E) as (B & _). rewrite <- N by lia. split; [apply B; lia|].
    specialize (C k Hk). lra. }
  split.
  { intros E k Hk. destruct (proj1 F2 E) as (_ & [T|T]); [|rewrite (F5 E T) in Hk; lia]. destruct (F4 E T) as (A & _ & C). rewrite <- N by lia. specialize (C k Hk). lra. }
  split.
  { intros E k Hk. assert (NT : every_entry (fun x => h_trap p <= x) h). { destruct Dtrap as [T|T]; auto. exfalso. assert (flag = -1); [|lra]. apply F2. split; auto. intros S. apply F1 in S. lra. }
    assert (NK : every_entry (fun x => x <= h_skip p) h). { destruct Dskip as [T|T]; auto. exfalso. assert (flag = 1); [|lra]. apply F1. split; auto. intros j Hj. specialize (NT j Hj). cbv beta in *. lra. }
    rewrite <- N by auto. split; [apply NT|apply NK]; lia. }
  rewrite <- TieE. split.
  - intros I. destruct Fl as [E|[E|E]].
    + left. split; auto. destruct (F3 E) as (_ & B & _). rewrite I, N in B by auto. auto.
    + rewrite (F6 E) in I. lia.
    + right. split; auto. destruct (proj1 F2 E) as (_ & [T|T]); [|right; auto]. left. destruct (F4 E T) as (_ & B & _). rewrite I, N in B by auto. auto.
  - intros [(E & B)|(E & [B|B])].
    + destruct (F3 E) as (_ & _ & C). destruct idx; auto. exfalso. apply (C 0%nat); [lia|]. rewrite N; auto.
    + assert (T : some_entry (fun x => x < h_trap p) h) by (exists 0%nat; rewrite Lh, N; auto). destruct (F4 E T) as (_ & _ & C). destruct idx; auto. exfalso. apply (C 0%nat); [lia|]. rewrite N; auto.
    + auto.
Qed.
(** A flag says nothing final: a history that skips out can change to a trapped one when the same flight
    is simulated for longer. *)
Theorem C42_horizon_matters : forall name p, Planet name = Ok p ->
  exists r r', classifyTrajectory p r = Ok (1%nat, 1) /\ classifyTrajectory p (r ++ r') = Ok (2%nat, -1).
Proof.
  intros name p HP. destruct (Planet_facts _ _ HP) as (_ & _ & _ & _ & (Ht & Hts) & _).
  exists [RP p + h_skip p; RP p + h_skip p + 1], [RP p - 1]. unfold classifyTrajectory, computeH.
  cbn [map app Numpy.list_max list_min argmax_bool first_true option_map length]. unfold argmax_bool. cbn [first_true].
  replace (RP p + h_skip p - RP p) with (h_skip p) by ring. replace (RP p + h_skip p + 1 - RP p) with (h_skip p + 1) by ring. replace (RP p - 1 - RP p) with (-1) by ring.
  split.
  - rewrite Rmax_right, Rmin_left by lra. rcases; cbn [andb first_true option_map]; try lra. reflexivity.
  - rewrite (Rmax_left (h_skip p + 1) (-1)), (Rmin_right (h_skip p + 1) (-1)) by lra. rewrite Rmax_right, Rmin_right by lra. rcases; cbn [andb first_true option_map]; try lra. reflexivity.
Qed.

(** * C43 *)
Theorem C43_truncation : forall a1 a2 a3 a4 a5 a6 a7 a8 n idx, length a1 = n -> length a2 = n -> length a3 = n -> length a4 = n ->
  length a5 = n -> length a6 = n -> length a7 = n -> length a8 = n ->
  let '(b1, b2, b3, b4, b5, b6, b7, b8) := truncateTrajectory a1 a2 a3 a4 a5 a6 a7 a8 idx in
  Forall (fun b => length b = Nat.min idx n) [b1; b2; b3; b4; b5; b6; b7; b8] /\
  Forall (fun ab => exists rest, fst ab = snd ab ++ rest) [(a1, b1); (a2, b2); (a3, b3); (a4, b4); (a5, b5); (a6, b6); (a7, b7); (a8, b8)] /\
  truncateTrajectory b1 b2 b3 b4 b5 b6 b7 b8 idx = (b1, b2, b3, b4, b5, b6, b7, b8).
Proof.
  intros a1 a2 a3 a4 a5 a6 a7 a8 n idx L1 L2 L3 L4 L5 L6 L7 L8. unfold truncateTrajectory.
  split; [repeat constructor; rewrite firstn_length; congruence|]. split.
  - repeat constructor; cbn [fst snd]; [exists (skipn idx a1)|exists (skipn idx a2)|exists (skipn idx a3)|exists (skipn idx a4)|exists (skipn idx a5)|exists (skipn idx a6)|exists (skipn idx a7)|exists (skipn idx a8)]; symmetry; apply firstn_skipn.
  - rewrite !firstn_firstn, Nat.min_id. reflexivity.
Qed.

(** After a propagation that returns: at least one point is kept, every stored history has exactly
    [f_index] entries, and the plotted point k is the SI point k in plot units. *)
Definition flight_aligned (p : planet) (f : flight) (h : list (option R)) : Prop :=
  let n := f_index f in (1 <= n)%nat /\ traj_len (f_si f) n /\ plot_len (f_plot f) n /\
  length (f_acc_net f) = n /\ length (f_acc_drag f) = n /\ length (f_dyn f) = n /\ length (f_stag f) = n /\
  length (f_qcon f) = n /\ length (f_qrad f) = n /\ length (f_qtot f) = n /\ length h = n /\
  forall k, (k < n)%nat -> let '(t, s) := point (f_si f) k in let q := f_plot f in
    nth k (p_t q) 0 * 60 = t /\ computeR p (nth k (p_h q) 0 * 1000) = s_r s /\ nth k (p_v q) 0 * 1000 = s_v s /\
    deg (nth k (p_phi q) 0) = s_phi s /\ deg (nth k (p_psi q) 0) = s_psi s /\ deg (nth k (p_theta q) 0) = s_theta s /\
    deg (nth k (p_gamma q) 0) = s_gamma s /\ nth k (p_drange q) 0 * 1000 = s_drange s.
(** The first plotted point is the initial state the user set, at time 0. *)
Definition starts_at (i : init) (f : flight) : Prop :=
  let q := f_plot f in nth 0 (p_t q) 0 = 0 /\ nth 0 (p_h q) 0 = h0_km i /\ nth 0 (p_v q) 0 = v0_kms i /\ nth 0 (p_phi q) 0 = phi0_deg i /\
  nth 0 (p_psi q) 0 = psi0_deg i /\ nth 0 (p_theta q) 0 = theta0_deg i /\ nth 0 (p_gamma q) 0 = gamma0_deg i /\ nth 0 (p_drange q) 0 = drange0_km i.
Lemma firstn_min_len : forall (l : list R) n i, length l = n -> (i <= n)%nat -> length (firstn i l) = i.
Proof. intros. rewrite firstn_length. lia. Qed.
Lemma store_aligned : forall solve name o t_sec dt delta_deg h0 o', solver_ok solve -> Planet name = Ok (vh_planet (ob_veh o)) ->
  store o (fly solve (ob_veh o) (ob_tol o) (ob_init o) t_sec dt delta_deg) h0 = (o', Ok tt) ->
  h0 = 0 /\ ob_veh o' = ob_veh o /\ ob_init o' = ob_init o /\ ob_tol o' = ob_tol o /\
  exists f h, ob_flight o' = Some f /\ ob_heat o' = Some h /\ flight_aligned (vh_planet (ob_veh o)) f h /\ starts_at (ob_init o) f /\
    forall k, (k < f_index f)%nat -> nth k (c_t (f_si f)) 0 = INR k * dt.
Proof.
  intros solve name o t_sec dt delta_deg h0 o' HS HP H. destruct (Planet_facts _ _ HP) as (HRP & HGM & _ & _ & (Htr & Hts) & _).
  set (V := ob_veh o) in *. set (p := vh_planet V) in *. unfold fly, store in H. fold p in H.
  destruct (solve V (ob_tol o) (entry_state p (ob_init o)) t_sec dt (deg delta_deg)) as [c0|] eqn:Es; cbn [rbind] in H; [|discriminate H]. cbn [rbind] in H.
  destruct (post V (deg delta_deg) c0) as [f|] eqn:Ep; [|discriminate].
  destruct (ocumtrapz _ _ _) as [h|] eqn:Eh; [|discriminate]. assert (Ho : set_heat (set_flight o f) h = o') by (apply (f_equal fst) in H; exact H). subst o'. clear H.
  destruct (ocumtrapz_inv _ _ _ _ Eh) as (Hne & Hl & Hi & Hlh).
  split; auto. do 3 (split; [reflexivity|]). exists f, h. do 2 (split; [reflexivity|]).
  destruct (HS _ _ _ _ _ _ _ Es) as (n & Len & _ & Tm & X0). fold p in Tm.
  destruct (post_inv _ _ _ _ Ep) as (cls & qc & qr & Ec & Ei & Efl & Esi & Epl & An & Ad & Dy & St & Qc & Qr & E1 & E2 & E3). cbv zeta in *. change (vh_planet V) with p in Ec, Esi, Epl.
  pose proof (dim_len p _ _ Len) as Len'. set (c := dimensionalize_traj p c0) in *.
  destruct Len' as (N1 & N2 & N3 & N4 & N5 & N6 & N7 & N8).
  assert (Hidx : (fst cls <= n)%nat) by (rewrite <- N2; apply (classify_index p); auto).
  assert (LR : length (c_r (f_si f)) = fst cls) by (rewrite Esi; cbn [c_r]; apply (firstn_min_len _ n); auto).
  assert (LV : length (c_v (f_si f)) = fst cls) by (rewrite Esi; cbn [c_v]; apply (firstn_min_len _ n); auto).
  assert (LT : length (c_t (f_si f)) = fst cls) by (rewrite Esi; cbn [c_t]; apply (firstn_min_len _ n); auto).
  assert (Lq : length (f_qtot f) = fst cls) by congruence.
  assert (H1 : (1 <= fst cls)%nat). { destruct (f_qtot f); [congruence|]. cbn [length] in Lq. lia. }
  assert (LVR : length (c_v (f_si f)) = length (c_r (f_si f))) by congruence.
  destruct (aero_len V _ _ (deg delta_deg) LVR) as (La1 & La2 & La3).
  assert (Pt : forall k, (k < fst cls)%nat -> let '(t, s) := point (f_si f) k in let q := f_plot f in
    nth k (p_t q) 0 * 60 = t /\ computeR p (nth k (p_h q) 0 * 1000) = s_r s /\ nth k (p_v q) 0 * 1000 = s_v s /\
    deg (nth k (p_phi q) 0) = s_phi s /\ deg (nth k (p_psi q) 0) = s_psi s /\ deg (nth k (p_theta q) 0) = s_theta s /\
    deg (nth k (p_gamma q) 0) = s_gamma s /\ nth k (p_drange q) 0 * 1000 = s_drange s).
  { intros k Hk. destruct (C05_plot_units p (c_t c) (c_r c) (c_v c) (c_phi c) (c_psi c) (c_theta c) (c_gamma c) (c_drange c) k) as (U1 & U2 & U3 & U4 & U5 & U6 & U7 & U8); try congruence; try lia.
    unfold point. rewrite Epl, Esi. cbn [p_t p_h p_v p_phi p_psi p_theta p_gamma p_drange c_t c_r c_theta c_phi c_v c_psi c_gamma c_drange s_r s_theta s_phi s_v s_psi s_gamma s_drange].
    rewrite !nth_firstn by auto. auto 10. }
  assert (HV : 0 < Vref p) by (apply sqrt_lt_R0, Rdiv_lt_0_compat; auto). assert (HT : 0 < tau p) by (apply Rdiv_lt_0_compat; auto).
  assert (Tk : forall k, (k < fst cls)%nat -> nth k (c_t (f_si f)) 0 = INR k * dt).
  { intros k Hk. rewrite Esi. cbn [c_t]. rewrite nth_firstn by auto. unfold c, dimensionalize_traj. cbn [c_t]. rewrite (nth_map_lt _ _ _ 0) by (destruct Len; lia). rewrite Tm by lia. field. lra. }
  split.
  { unfold flight_aligned. rewrite Ei. split; auto. rewrite Esi, Epl. split.
    { unfold traj_len. cbn [c_t c_r c_theta c_phi c_v c_psi c_gamma c_drange]. repeat split; apply (firstn_min_len _ n); auto. }
    split. { unfold plot_len, convertToPlotUnits. cbn [p_t p_h p_v p_phi p_psi p_theta p_gamma p_drange]. repeat split; apply (firstn_min_len _ n); auto; rewrite map_length; auto. }
    rewrite <- Esi, <- Epl.
    split. { rewrite An. unfold computeAccelerationLoad. rewrite zip3_len; congruence. }
    split. { rewrite Ad. unfold computeAccelerationDrag. rewrite zip3_len; congruence. }
    split. { rewrite Dy, map_length, dyn_len; congruence. }
    split. { rewrite St, map_length. unfold computeStagPres. rewrite map_length, combine_length, dyn_len by auto. unfold pressurevectorized. rewrite map_length. lia. }
    split. { rewrite E1, (heat_len _ _ _ _ _ LVR Qc); auto. } split. { rewrite E2, (heat_len _ _ _ _ _ LVR Qr); auto. } split; auto. split; [congruence|]. exact Pt. }
  split; [|rewrite Ei; exact Tk].
  specialize (Pt 0%nat ltac:(lia)). unfold point in Pt.
  assert (X : snd (point c0 0) = entry_state p (ob_init o)) by (apply X0; lia). unfold point in X. cbn [snd] in X. unfold entry_state, nonDimState in X. cbn [s_r s_theta s_phi s_v s_psi s_gamma s_drange] in X.
  injection X as X1 X2 X3 X4 X5 X6 X7. cbn [s_r s_theta s_phi s_v s_psi s_gamma s_drange] in Pt. rewrite (Tk 0%nat) in Pt by lia. cbn [INR] in Pt.
  assert (Y : nth 0 (c_r (f_si f)) 0 = computeR p (h0_km (ob_init o) * 1e3) /\ nth 0 (c_theta (f_si f)) 0 = deg (theta0_deg (ob_init o)) /\
    nth 0 (c_phi (f_si f)) 0 = deg (phi0_deg (ob_init o)) /\ nth 0 (c_v (f_si f)) 0 = v0_kms (ob_init o) * 1e3 /\ nth 0 (c_psi (f_si f)) 0 = deg (psi0_deg (ob_init o)) /\
    nth 0 (c_gamma (f_si f)) 0 = deg (gamma0_deg (ob_init o)) /\ nth 0 (c_drange (f_si f)) 0 = drange0_km (ob_init o) * 1e3).
  { rewrite Esi. cbn [c_r c_theta c_phi c_v c_psi c_gamma c_drange]. rewrite !nth_firstn by lia. destruct Len as (M1 & M2 & M3 & M4 & M5 & M6 & M7 & M8). unfold c, dimensionalize_traj. cbn [c_r c_theta c_phi c_v c_psi c_gamma c_drange].
    rewrite !(nth_map_lt _ _ _ 0) by lia. rewrite X1, X2, X3, X4, X5, X6, X7. repeat split; field; lra. }
  destruct Y as (Y1 & Y2 & Y3 & Y4 & Y5 & Y6 & Y7). rewrite Y1, Y2, Y3, Y4, Y5, Y6, Y7 in Pt. destruct Pt as (Q1 & Q2 & Q3 & Q4 & Q5 & Q6 & Q7 & Q8).
  assert (DI : forall x y, deg x = deg y -> x = y). { intros x y E. unfold deg in E. pose proof PI_RGT_0. apply (Rmult_eq_reg_r (PI / 180)); [lra|]. apply Rgt_not_eq. lra. }
  unfold computeR in Q2. unfold starts_at. repeat split; try lra; apply DI; auto.
Qed.
Theorem C43_flight_aligned : forall E name o t_sec dt delta_deg o', engine_ok E -> Planet name = Ok (vh_planet (ob_veh o)) ->
  propogateEntry E o t_sec dt delta_deg = (o', Ok tt) \/ propogateEntry2 E o t_sec dt delta_deg = (o', Ok tt) ->
  ob_veh o' = ob_veh o /\ ob_init o' = ob_init o /\ ob_tol o' = ob_tol o /\
  exists f h, ob_flight o' = Some f /\ ob_heat o' = Some h /\ flight_aligned (vh_planet (ob_veh o)) f h /\ starts_at (ob_init o) f /\
    forall k, (k < f_index f)%nat -> nth k (c_t (f_si f)) 0 = INR k * dt.
Proof.
  intros E name o t_sec dt delta_deg o' HE HP [H|H].
  - apply (store_aligned _ _ _ _ _ _ _ _ (solver1_ok E HE) HP H).
  - apply (store_aligned _ _ _ _ _ _ _ _ (solver2_ok E HE) HP H).
Qed.
(** Nothing kept: the propagation raises, and the object is left with the empty flight. *)
Theorem C43_empty_flight_raises : forall E o t_sec dt delta_deg f,
  fly (solveTrajectory E) (ob_veh o) (ob_tol o) (ob_init o) t_sec dt delta_deg = Ok f -> f_index f = 0%nat ->
  exists o', propogateEntry E o t_sec dt delta_deg = (o', Err ValueError) /\ ob_flight o' = Some f /\ ob_heat o' = ob_heat o.
Proof.
  intros E o t_sec dt delta_deg f H Hi. unfold propogateEntry. rewrite H. unfold store.
  unfold fly in H. destruct (solveTrajectory _ _ _ _ _ _ _) as [c0|]; [|discriminate]. cbn [rbind] in H.
  destruct (post_inv _ _ _ _ H) as (cls & qc & qr & _ & Ei & _ & Esi & _ & _ & _ & _ & _ & Qc & _ & _ & _ & E3). cbv zeta in *.
  assert (f_qtot f = []). { rewrite E3. unfold qStagConvective, heat_history in Qc. destruct (con_law _); [|discriminate]. injection Qc as <-. rewrite Esi, <- Ei, Hi. cbn [c_r c_v firstn]. unfold rho_vec, rhovectorized. reflexivity. }
  rewrite H0. cbn [ocumtrapz]. exists (set_flight o f). repeat split.
Qed.

(** * C44 *)
(** True load: magnitude of the aerodynamic acceleration in Earth g. *)
Definition true_g (s n w : R) : R := sqrt (s ^ 2 + n ^ 2 + w ^ 2) / EARTHG.
Lemma earthg_pos : 0 < EARTHG. Proof. unfold EARTHG. lra. Qed.
Theorem C44_load_formula : forall s n w,
  (net_g s n w = Some (true_g s n w) <-> w = 0 \/ w = 2) /\ (net_g s n w = None <-> s ^ 2 + n ^ 2 + 2 * w < 0) /\
  drag_g s n w = Some (Rabs s / EARTHG).
Proof.
  intros s n w. pose proof earthg_pos as HG. unfold net_g, true_g. split; [|split].
  - unfold np_sqrt. rcases; cbn [obind].
    + split; [discriminate|]. intros [-> | ->]; nra.
    + split.
      * intros H. injection H as H. apply (Rmult_eq_compat_r EARTHG) in H. unfold Rdiv in H. rewrite !Rmult_assoc, Rinv_l, !Rmult_1_r in H by lra.
        apply sqrt_inj in H; [|lra|nra]. assert (w * (w - 2) = 0) by nra. destruct (Rmult_integral _ _ H0); [left|right]; lra.
      * intros [-> | ->]; do 3 f_equal; ring.
  - unfold np_sqrt. rcases; cbn [obind]; split; auto; try discriminate; lra.
  - unfold drag_g. rewrite np_sqrt_some by nra. cbn [obind]. do 2 f_equal. rewrite <- sqrt_Rsqr_abs. f_equal. unfold Rsqr. ring.
Qed.
(** On a vehicle: with zero bank the reported load is the magnitude of lift and drag over weight at
    Earth's surface; at 90 degrees left bank it is undefined at every point whose drag deceleration is
    positive and less than 2 LD metres per second squared. *)
Theorem C44_vehicle_load : forall mass beta LD A alpha RN p atm V r v, Vehicle mass beta LD A alpha RN p atm false = Ok V ->
  0 <= r - RP p <= h_thres p -> 0 < mass ->
  exists D, Drag V r 0 0 v = Ok D /\
    computeAccelerationLoad V [r] [v] 0 = [Some (sqrt (D ^ 2 + Lift V r 0 0 v ^ 2) / (mass * EARTHG))] /\
    (0 < D / mass < 2 * LD -> computeAccelerationLoad V [r] [v] (- (PI / 2)) = [None]).
Proof.
  intros mass beta LD A alpha RN p atm V r v HV Hh Hm.
  destruct (Vehicle_inv _ _ _ _ _ _ _ _ _ _ HV) as (_ & HbA & E1 & E2 & E3 & E4 & E5 & E6 & E7 & E8 & E9 & E10 & E11 & E12).
  assert (ED : Drag V r 0 0 v = Ok (0.5 * rho_at V r 0 0 * v ^ 2 * vh_A V * vh_CD V)) by (unfold Drag, CD_scalar; rewrite E8; reflexivity).
  assert (ER : rho_vec V [r] = [rho_at V r 0 0]).
  { unfold rho_vec, rhovectorized, rho_at, rho, density. cbn [map]. rewrite E6. rcases; cbn [andb]; auto; lra. }
  eexists. split; [exact ED|]. set (D := 0.5 * rho_at V r 0 0 * v ^ 2 * vh_A V * vh_CD V).
  assert (EL : Lift V r 0 0 v = LD * D) by (unfold Lift, D; rewrite E11, E10; ring).
  unfold computeAccelerationLoad, a_svectorized, a_nvectorized, a_wvectorized, Dvectorized, Lvectorized. rewrite ER. cbn [combine map fst snd zip3].
  unfold zip3. cbn [combine map fst snd]. fold D. fold (Lift V r 0 0 v). rewrite EL, E1. pose proof earthg_pos as HG.
  split.
  - rewrite cos_0, sin_0. unfold net_g. rewrite np_sqrt_some by (match goal with |- 0 <= ?x ^ 2 + ?y ^ 2 + ?z * 2 => replace z with 0 by (field; lra); nra end).
    cbn [obind]. do 2 f_equal.
    replace ((0 * cos (vh_alpha V) - D / mass) ^ 2 + ((LD * D + 0 * sin (vh_alpha V)) * 1 / mass) ^ 2 + (LD * D + 0 * sin (vh_alpha V)) * 0 / mass * 2)
      with ((D ^ 2 + (LD * D) ^ 2) / (mass ^ 2)) by (field; lra).
    rewrite sqrt_div_alt by nra. replace (sqrt (mass ^ 2)) with mass by (rewrite <- (sqrt_Rsqr mass) at 1 by lra; f_equal; unfold Rsqr; ring). field. split; lra.
  - intros HD. rewrite cos_neg, sin_neg, cos_PI2, sin_PI2. f_equal. apply (C44_load_formula _ _ _).
    replace ((0 * cos (vh_alpha V) - D / mass) ^ 2 + ((LD * D + 0 * sin (vh_alpha V)) * 0 / mass) ^ 2 + 2 * ((LD * D + 0 * sin (vh_alpha V)) * -(1) / mass)) with ((D / mass) * (D / mass - 2 * LD)) by (field; lra).
    nra.
Qed.

(** * C73: the time grid *)
Theorem C73_time_grid : forall name p ts t_sec dt, Planet name = Ok p -> 0 < dt -> 0 <= t_sec ->
  arange ((t_sec + dt) / tau p) (dt / tau p) = Ok ts ->
  (forall k, (k < length ts)%nat -> tau p * nth k ts 0 = INR k * dt) /\ ts <> [] /\
  t_sec <= tau p * last ts 0 < t_sec + dt.
Proof.
  intros name p ts t_sec dt HP Hdt Ht H. destruct (Planet_facts _ _ HP) as (HRP & HGM & _).
  assert (HV : 0 < Vref p) by (apply sqrt_lt_R0, Rdiv_lt_0_compat; auto). assert (HT : 0 < tau p) by (apply Rdiv_lt_0_compat; auto).
  destruct (arange_inv _ _ _ H) as (L & N). assert (N' : forall k, (k < length ts)%nat -> tau p * nth k ts 0 = INR k * dt) by (intros; rewrite N by auto; field; lra).
  split; auto.
  assert (E : (t_sec + dt) / tau p / (dt / tau p) = t_sec / dt + 1) by (field; lra). rewrite E in L.
  set (x := t_sec / dt) in *. assert (Hx : 0 <= x) by (unfold x; apply Rmult_le_pos; auto; left; apply Rinv_0_lt_compat; auto).
  assert (Ex : x * dt = t_sec) by (unfold x; field; lra).
  unfold ceil_nat in L. set (z := Int_part (- (x + 1))) in *. destruct (base_Int_part (- (x + 1))) as (B1 & B2). fold z in B1, B2.
  assert (Hz : (z <= -1)%Z). { apply le_IZR. apply Rle_trans with (- (x + 1)); auto. lra. }
  assert (LI : INR (length ts) = - IZR z). { rewrite L, INR_IZR_INZ, Z2Nat.id by lia. rewrite opp_IZR. auto. }
  assert (L1 : (1 <= length ts)%nat) by (rewrite L; lia).
  assert (Hne : ts <> []) by (intros Z; rewrite Z in L1; cbn in L1; lia). split; auto.
  assert (EL : last ts 0 = nth (length ts - 1) ts 0).
  { clear -Hne. induction ts as [|a [|b ts] IH]; [congruence|reflexivity|]. transitivity (last (b :: ts) 0); [reflexivity|]. rewrite IH by discriminate. cbn [length]. replace (S (S (length ts)) - 1)%nat with (S (S (length ts) - 1)) by lia. reflexivity. }
  rewrite EL, N' by lia. rewrite minus_INR by lia. rewrite LI. cbn [INR]. nra.
Qed.

(** * Witnesses *)
(** An engine that meets [engine_ok]: the vehicle hovers. *)
Definition hover : engine := mkEngine (fun _ x0 ts _ => Ok (map (fun _ => x0) ts)) (fun _ _ x0 ts _ _ => Ok (ts, map (fun _ => x0) ts)).
Lemma hover_ok : engine_ok hover.
Proof.
  split.
  - intros f x0 ts tol xs H. cbn in H. injection H as <-. split; [apply map_length|]. destruct ts; [congruence|reflexivity].
  - intros f te x0 ts ev tol us xs H. cbn in H. injection H as <- <-. split; [apply map_length|]. split; [exists (length ts); symmetry; apply firstn_all|].
    intros Hn. split; auto. destruct ts; [congruence|reflexivity].
Qed.
Lemma map_const_repeat : forall {A} (x : A) (l : list R), map (fun _ => x) l = repeat x (length l).
Proof. intros A x l. induction l; cbn; congruence. Qed.
Lemma hover_classify : forall p n r, 0 < h_trap p < h_skip p -> h_trap p <= r - RP p < h_skip p -> classifyTrajectory p (repeat r (S n)) = Ok (S n, 0).
Proof.
  intros p n r Hp Hr. destruct (C42_total p (repeat r (S n))) as [(_ & E)|(i & fl & E & _)]; [discriminate|].
  destruct (classify_cases p _ i fl (proj2 Hp) (proj1 Hp) E) as (_ & C).
  assert (N : forall k, nth k (map (fun x => x - RP p) (repeat r (S n))) 0 = r - RP p \/ (length (repeat r (S n)) <= k)%nat).
  { intros k. destruct (le_lt_dec (length (repeat r (S n))) k) as [L|L]; auto. left. rewrite (nth_map_lt _ _ _ r) by auto. f_equal. clear -L. rewrite repeat_length in L. revert k L. generalize (S n). clear n.
    intros n. induction n; intros [|k] L; cbn; try lia; auto. apply IHn. lia. }
  assert (Z : forall P, some_entry P (map (fun x => x - RP p) (repeat r (S n))) -> P (r - RP p)).
  { intros P (k & Hk & H). rewrite map_length in Hk. destruct (N k) as [En|En]; [rewrite <- En; auto|lia]. }
  destruct C as [((_ & S) & _)|[(_ & S & _)|[(_ & _ & _ & M & _)|(_ & _ & _ & -> & ->)]]].
  - apply Z in S. cbv beta in S. lra.
  - apply Z in S. cbv beta in S. lra.
  - exfalso. assert (Hne : map (fun x => x - RP p) (repeat r (S n)) <> []) by discriminate. pose proof (list_max_in _ Hne) as I. rewrite M in I. apply (In_nth _ _ 0) in I. destruct I as (k & Hk & I).
    rewrite map_length in Hk. destruct (N k) as [En|En]; [lra|lia].
  - rewrite E, repeat_length. reflexivity.
Qed.
Lemma vsum_length : forall a b n, length a = n -> length b = n -> length (vsum a b) = n.
Proof. intros. unfold vsum. rewrite map_length, combine_length. lia. Qed.
Lemma ocumtrapz_ok : forall y x, y <> [] -> length y = length x -> exists h, ocumtrapz y x 0 = Ok h.
Proof.
  intros [|y0 ys] [|x0 xs] Hn L; try congruence; try discriminate L. cbn [ocumtrapz]. injection L as L. rewrite L, Nat.eqb_refl. cbn [negb]. unfold Reqb. destruct (Req_EM_T 0 0); [cbn [negb]; eauto|congruence].
Qed.
(** Every propagation of the hovering vehicle between the trap and skip altitudes returns. *)
Example C43_witness : forall V i tol t_sec dt delta_deg, vh_planet V = VENUS -> h_trap VENUS <= h0_km i * 1e3 < h_skip VENUS -> 0 < dt -> 0 <= t_sec ->
  engine_ok hover /\ exists o', propogateEntry hover (mkObj V i tol None None) t_sec dt delta_deg = (o', Ok tt).
Proof.
  intros V i tol t_sec dt delta_deg HV Hh Hdt Ht. split; [apply hover_ok|].
  destruct (Planet_facts "VENUS"%string VENUS eq_refl) as (HRP & HGM & _ & _ & Htr & _).
  assert (HVr : 0 < Vref VENUS) by (apply sqrt_lt_R0, Rdiv_lt_0_compat; auto). assert (HT : 0 < tau VENUS) by (apply Rdiv_lt_0_compat; auto).
  unfold propogateEntry, fly, solveTrajectory. cbn [ob_veh ob_tol ob_init]. rewrite HV.
  assert (Ea : exists ts, arange ((t_sec + dt) / tau VENUS) (dt / tau VENUS) = Ok ts).
  { unfold arange. destruct (Reqb_spec (dt / tau VENUS) 0) as [E|E]; [|eauto]. exfalso. assert (0 < dt / tau VENUS) by (apply Rdiv_lt_0_compat; auto). lra. }
  destruct Ea as (ts & Ea). rewrite Ea. cbn [rbind odeint hover].
  destruct (C73_time_grid "VENUS"%string VENUS ts t_sec dt eq_refl Hdt Ht Ea) as (_ & Hne & _).
  set (x0 := entry_state VENUS i). set (c0 := channels ts (map (fun _ => x0) ts)). set (n := length ts) in *.
  assert (Hn : (1 <= n)%nat) by (unfold n; destruct ts; [congruence|cbn [length]; lia]).
  assert (Len : traj_len (dimensionalize_traj VENUS c0) n) by (apply dim_len, channels_len, map_length).
  assert (Er : c_r (dimensionalize_traj VENUS c0) = repeat (computeR VENUS (h0_km i * 1e3)) n).
  { unfold dimensionalize_traj, c0, channels. cbn [c_r]. rewrite !map_map. unfold n. rewrite <- map_const_repeat. apply map_ext. intros _. unfold x0, entry_state, nonDimState. cbn [s_r]. field. lra. }
  assert (Ec : classifyTrajectory VENUS (c_r (dimensionalize_traj VENUS c0)) = Ok (n, 0)).
  { rewrite Er. destruct n as [|m]; [lia|]. apply hover_classify; auto. unfold computeR. lra. }
  assert (Ef : exists f, post V (deg delta_deg) c0 = Ok f).
  { unfold post. rewrite HV, Ec. cbn [rbind fst snd truncateTrajectory]. unfold qStagConvective, qStagRadiative, heat_history. rewrite HV. cbn [con_law rad_law ID VENUS string_dec rbind]. eexists. reflexivity. }
  destruct Ef as (f & Ef). rewrite Ef. unfold store.
  destruct (post_inv _ _ _ _ Ef) as (cls & qc & qr & Ec' & Ei & _ & Esi & _ & _ & _ & _ & _ & Qc & Qr & E1 & E2 & E3). cbv zeta in *. rewrite HV in *.
  rewrite Ec in Ec'. injection Ec' as <-. cbn [fst snd] in *. destruct Len as (N1 & N2 & N3 & N4 & N5 & N6 & N7 & N8).
  assert (LT : length (c_t (f_si f)) = n) by (rewrite Esi; cbn [c_t]; apply (firstn_min_len _ n); auto).
  assert (LR : length (c_r (f_si f)) = n) by (rewrite Esi; cbn [c_r]; apply (firstn_min_len _ n); auto).
  assert (LV : length (c_v (f_si f)) = length (c_r (f_si f))) by (rewrite LR, Esi; cbn [c_v]; apply (firstn_min_len _ n); auto).
  assert (Lq : length (f_qtot f) = n). { rewrite E3. apply vsum_length; [rewrite (heat_len _ _ _ _ _ LV Qc)|rewrite (heat_len _ _ _ _ _ LV Qr)]; auto. }
  destruct (ocumtrapz_ok (f_qtot f) (c_t (f_si f))) as (h & Eh); [intros Z; rewrite Z in Lq; cbn in Lq; lia|congruence|]. rewrite Eh. eauto.
Qed.
(** A flight with nothing kept: it starts below the trap altitude. *)
Example C43_empty_witness : forall p r, 0 < h_trap p < h_skip p -> r - RP p < h_trap p -> exists cls, classifyTrajectory p [r] = Ok cls /\ cls = (0%nat, -1).
Proof. intros p r Hp Hr. exists (0%nat, -1). split; auto. unfold classifyTrajectory, computeH. cbn. unfold argmax_bool. rcases; cbn; try lra; reflexivity. Qed.
Example C44_witness : exists V, Vehicle 1000 100 0.25 10 0 1 VENUS (mkAtm (fun _ => 1e-5) (fun _ => 200) (fun _ => 1) (fun _ => 300)) false = Ok V /\
  exists D, Drag V (RP VENUS + 100e3) 0 0 1000 = Ok D /\ 0 < D / 1000 < 2 * 0.25.
Proof.
  unfold Vehicle. rcases; try lra. eexists. split; [reflexivity|]. unfold Drag, CD_scalar. cbn [vh_user]. eexists. split; [reflexivity|].
  unfold rho_at, rho, density. cbn [vh_planet vh_atm density_int vh_CD vh_A h_thres RP VENUS]. rcases; cbn [andb]; lra.
Qed.
