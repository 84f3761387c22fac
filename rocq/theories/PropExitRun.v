(** C129, continued: every climbing state at the top of the atmosphere is the exit of some flight, every descending one at the trap altitude is passed by one, and with an exact integrator such flights are flown and reported. *)
From Coq Require Import String List Reals Lra Lia Classical.
Require Import Verif.Base Verif.Numpy Verif.NumpyProofs Verif.PlanetModel Verif.PlanetProofs Verif.AeroModel Verif.HeatModel Verif.PropHeat Verif.TrajectoryModel Verif.TrajectorySpec Verif.TrajectoryProofs Verif.PropTrajectory Verif.FlightProofs Verif.PropFlight
  Verif.ExactSpec Verif.ExactProofs Verif.PropExact Verif.DetSpec Verif.DetProofs Verif.PropDet Verif.NearSpec Verif.NearProofs Verif.ExistSpec Verif.ExistProofs Verif.PropExist Verif.ExitSpec Verif.ExitProofs Verif.EnterProofs Verif.PropEnter Verif.PropExit Verif.PropTrap.
Require Verif.PropRoundGrid Verif.PropGuidance.
Import ListNotations.
Local Open Scope R_scope.

Lemma field_defined : forall V delta x, vh_user V = false -> s_r x <> 0 -> s_v x <> 0 -> cos (s_phi x) <> 0 -> cos (s_gamma x) + 1e-2 <> 0 -> EOM V x delta = Ok (Some (field V delta x)).
Proof.
  intros V delta x Hu Hr Hv Hc Hg. assert (A : a_sbar V (s_r x) (s_theta x) (s_phi x) (s_v x) delta = Ok (fas V x)) by (unfold a_sbar, Dbar, CD_scalar; rewrite Hu; reflexivity).
  destruct (EOM_some V x delta _ A Hr Hv Hc Hg) as (d & Ed). destruct (field_is _ _ _ _ Hu Ed) as (-> & _). exact Ed.
Qed.
(** Initial conditions for a given state. *)
Definition start_of (p : planet) (x : state) : init :=
  mkInit ((RP p * s_r x - RP p) / 1000) (s_theta x * 180 / PI) (s_phi x * 180 / PI) (Vref p * s_v x / 1000) (s_psi x * 180 / PI) (s_gamma x * 180 / PI) (RP p * s_drange x / 1000) 0.
Lemma start_of_state : forall name p x, Planet name = Ok p -> entry_state p (start_of p x) = x.
Proof.
  intros name p x HP. destruct (ref_facts _ _ HP) as (HV & _ & _ & _ & HR & _). pose proof PI_RGT_0. destruct x as [r th ph v ps ga dr].
  unfold entry_state, nonDimState, start_of, computeR, deg. cbn [h0_km theta0_deg phi0_deg v0_kms psi0_deg gamma0_deg drange0_km s_r s_theta s_phi s_v s_psi s_gamma s_drange]. f_equal; field; lra.
Qed.
(** Along a solution of smooth equations through a climbing state, the altitude rises for a while on either side. *)
Lemma rises : forall W delta z h x, 0 < h -> z 0 = x -> 0 < f1 x -> (forall t, Rabs t < h -> moving_by z t (field W delta (z t))) ->
  forall e, 0 < e -> exists a, 0 < a < h /\ (forall t, Rabs t < a -> dist x (z t) < e) /\ forall s t, - a < s < t -> t < a -> s_r (z s) < s_r (z t).
Proof.
  intros W delta z h x Hh Ez Hc M e He. destruct (ll_pos f1 x ltac:(unfold f1; ll) Hc) as (e1 & He1 & P1). 
  destruct (curve_near z 0 (Rmin e e1) ltac:(apply Rmin_glb_lt; auto) (moving_continuous _ _ _ (M 0 ltac:(rewrite Rabs_R0; auto)))) as (a0 & Ha0 & CN). rewrite Ez in CN. pose proof (Rmin_l e e1). pose proof (Rmin_r e e1).
  exists (Rmin a0 (h / 2)). assert (0 < Rmin a0 (h / 2)) by (apply Rmin_glb_lt; lra). pose proof (Rmin_l a0 (h / 2)). pose proof (Rmin_r a0 (h / 2)). set (a := Rmin a0 (h / 2)) in *. split; [lra|].
  assert (CN' : forall t, Rabs t < a -> dist x (z t) < Rmin e e1) by (intros t Ht; apply CN; rewrite Rminus_0_r; lra).
  split; [intros t Ht; specialize (CN' t Ht); lra|]. intros s t Hst Hta. destruct (MVT_cor2 (fun u => s_r (z u)) (fun u => f1 (z u)) s t ltac:(lra)) as (c & Ec & Hc').
  - intros c Hcc. apply (M c). apply Rabs_def1; lra.
  - assert (0 < f1 (z c)) by (apply P1; specialize (CN' c ltac:(apply Rabs_def1; lra)); lra). cbv beta in Ec. nra.
Qed.
(** Every climbing state at the top is the exit of a flight that spends some time in the atmosphere, above any given lower altitude. *)
Theorem C129_reached : forall name V x d b, Planet name = Ok (vh_planet V) -> vh_user V = false -> lipschitz_air (vh_planet V) (vh_atm V) ->
  height (vh_planet V) x = h_thres (vh_planet V) -> 0 < s_v x * sin (s_gamma x) -> cos (s_phi x) <> 0 -> cos (s_gamma x) <> - 0.01 -> 0 <= b < h_thres (vh_planet V) ->
  exists i T y, 0 < T /\ leaves V i d T y /\ y T = x /\ (forall t, 0 <= t <= T -> b < height (vh_planet V) (y t)) /\ forall t, 0 <= t < T -> in_air (vh_planet V) (y t).
Proof.
  intros name V x d b HP Hu HL Etop Hc Hph Hga Hb. destruct (ref_facts _ _ HP) as (_ & _ & Ht & _ & HR & _). destruct (Planet_facts _ _ HP) as (_ & _ & _ & _ & (Ht0 & Hts) & Hthr & _).
  set (p := vh_planet V) in *. assert (H0 : 0 < h_thres p) by lra.
  assert (AT : at_top p x). { split; auto. unfold height in Etop. split; [intros Z; rewrite Z in Etop; lra|]. split; [intros Z; rewrite Z in Hc; lra|]. split; auto. intros Z. apply Hga. lra. }
  destruct (exist_near (capped V) (d * PI / 180) x Hu HR (capped_lip V HL ltac:(fold p; lra)) (top_regular V _ x H0 AT)) as (rho & h & Hrho & Hh & EX). destruct (EX x ltac:(rewrite dist_self; lra)) as (z & Ez & Hz).
  destruct (ll_pos (fun a => height p a - b) x ltac:(unfold height; ll) ltac:(cbv beta; rewrite Etop; lra)) as (e & He & PH). cbv beta in PH.
  destruct (rises (capped V) (d * PI / 180) z h x Hh Ez Hc (fun t Htt => proj1 (Hz t Htt)) e He) as (a & Ha & NR & UP). set (T := a / 2).
  assert (Hgt : forall t, 0 <= t <= T -> b < height p (z (t - T)) <= h_thres p /\ (t < T -> height p (z (t - T)) < h_thres p)).
  { intros t Htt. unfold T in *. assert (b < height p (z (t - a / 2))) by (assert (0 < height p (z (t - a / 2)) - b) by (apply PH, NR; apply Rabs_def1; lra); lra). destruct (Req_dec t (a / 2)) as [->|N]; [rewrite Rminus_diag_eq in * by auto; rewrite Ez, Etop; split; lra|].
    assert (s_r (z (t - a / 2)) < s_r (z 0)) by (apply UP; lra). rewrite Ez in H1. assert (height p (z (t - a / 2)) < h_thres p) by (rewrite <- Etop; unfold height; nra). split; [lra|auto]. }
  exists (start_of p (z (0 - T))), T, (fun t => z (t - T)). split; [unfold T; lra|]. split; [|split; [rewrite Rminus_diag_eq by auto; exact Ez|split; [intros t Htt; apply Hgt; auto|]]].
  2:{ intros t Htt. specialize (Hgt t ltac:(lra)). unfold in_air. fold p. unfold height in Hgt. destruct Hgt as (G1 & G2). specialize (G2 ltac:(lra)). lra. }
  split; [unfold T; lra|]. split; [fold p; rewrite (start_of_state name) by auto; reflexivity|]. split; [|split; [|split]].
  - exists nil. intros t Htt. destruct (Hz (t - T) ltac:(unfold T in *; apply Rabs_def1; lra)) as (M & (_ & R1 & R2 & R3 & R4)).
    assert (MS : moving_by (fun u => z (u - T)) t (field (capped V) (d * PI / 180) (z (t - T)))).
    { assert (DS : forall (F : R -> R) l, derivable_pt_lim F (t - T) l -> derivable_pt_lim (fun u => F (u - T)) t l).
      { intros F l DF. replace l with (l * 1) by ring. apply (derivable_pt_lim_comp (fun u => u - T) F t 1 l); auto. replace 1 with (1 - 0) by ring. apply (derivable_pt_lim_minus id (fun _ => T)); [apply derivable_pt_lim_id|apply derivable_pt_lim_const]. }
      destruct M as (M1 & M2 & M3 & M4 & M5 & M6 & M7). repeat split; match goal with |- derivable_pt_lim (fun u => ?P (z (u - T))) t _ => apply (DS (fun u => P (z u))); assumption end. }
    split; [apply (moving_continuous _ _ _ MS)|]. exists (field V (d * PI / 180) (z (t - T))). split; [apply field_defined; auto|]. intros _ _. rewrite <- capped_field; auto. fold p. specialize (Hgt t Htt). lra.
  - intros t Htt. left. specialize (Hgt t ltac:(lra)). unfold in_air. fold p. unfold height in Hgt. destruct Hgt as (G1 & G2). specialize (G2 ltac:(lra)). lra.
  - fold p. rewrite Rminus_diag_eq by auto. rewrite Ez. exact Etop.
  - rewrite Rminus_diag_eq by auto. rewrite Ez. exact Hc.
Qed.
(** Gluing continuous curves. *)
Lemma joined_cont : forall f g s t, f s = g 0 -> (t <= s -> continuity_pt f t) -> (s <= t -> continuity_pt g (t - s)) -> continuity_pt (joined f g s) t.
Proof.
  intros f g s t E Cf Cg e He.
  assert (LIM : forall F u, continuity_pt F u -> exists a, 0 < a /\ forall w, Rabs (w - u) < a -> Rabs (F w - F u) < e).
  { intros F u C. destruct (C e He) as (a & Ha & Q). exists a. split; auto. intros w Hw. destruct (Req_dec w u) as [->|N]; [rewrite Rminus_diag_eq, Rabs_R0 by auto; auto|]. apply Q. split; [split; [exact I|auto]|exact Hw]. }
  destruct (Rtotal_order t s) as [L|[->|L]].
  - destruct (LIM f t (Cf ltac:(lra))) as (a & Ha & Q). exists (Rmin a (s - t)). split; [apply Rmin_glb_lt; lra|]. intros w (_ & Hw). cbn in *. unfold R_dist in *. pose proof (Rmin_l a (s - t)). pose proof (Rmin_r a (s - t)).
    assert (Hw' : Rabs (w - t) < s - t) by lra. apply Rabs_def2 in Hw'. unfold joined. destruct (Rle_dec w s); [|lra]. destruct (Rle_dec t s); [|lra]. apply Q. lra.
  - destruct (LIM f s (Cf ltac:(lra))) as (a & Ha & Q). destruct (LIM g (s - s) (Cg ltac:(lra))) as (b & Hb & Q'). rewrite Rminus_diag_eq in Q' by auto. exists (Rmin a b). split; [apply Rmin_glb_lt; lra|]. intros w (_ & Hw). cbn in *. unfold R_dist in *.
    pose proof (Rmin_l a b). pose proof (Rmin_r a b). unfold joined. destruct (Rle_dec s s); [|lra]. destruct (Rle_dec w s); [apply Q; lra|]. rewrite E. apply Q'. rewrite Rminus_0_r. lra.
  - destruct (LIM g (t - s) (Cg ltac:(lra))) as (a & Ha & Q). exists (Rmin a (t - s)). split; [apply Rmin_glb_lt; lra|]. intros w (_ & Hw). cbn in *. unfold R_dist in *. pose proof (Rmin_l a (t - s)). pose proof (Rmin_r a (t - s)).
    assert (Hw' : Rabs (w - t) < t - s) by lra. apply Rabs_def2 in Hw'. unfold joined. destruct (Rle_dec w s); [lra|]. destruct (Rle_dec t s); [lra|]. apply Q. replace (w - s - (t - s)) with (w - t) by ring. lra.
Qed.
Lemma joined_continuous : forall y z s t, y s = z 0 -> (t <= s -> continuous_at y t) -> (s <= t -> continuous_at z (t - s)) -> continuous_at (joined y z s) t.
Proof.
  intros y z s t E Cy Cz.
  assert (X : forall P : state -> R, (t <= s -> continuity_pt (fun u => P (y u)) t) -> (s <= t -> continuity_pt (fun u => P (z u)) (t - s)) -> continuity_pt (fun u => P (joined y z s u)) t).
  { intros P A B. assert (Q : continuity_pt (joined (fun u => P (y u)) (fun u => P (z u)) s) t) by (apply joined_cont; auto; rewrite E; reflexivity).
    intros e He. destruct (Q e He) as (a & Ha & D). exists a. split; auto. intros w Hw. specialize (D w Hw). cbn in *. rewrite <- !joined_proj. exact D. }
  repeat split; apply X; intros L; first [apply (Cy L)|apply (Cz L)].
Qed.
(** Away from the joint only one of the two curves matters. *)
Lemma joined_left : forall y z s t d, t < s -> moving_by y t d -> moving_by (joined y z s) t d.
Proof.
  intros y z s t d L M.
  assert (X : forall (P : state -> R) l, derivable_pt_lim (fun u => P (y u)) t l -> derivable_pt_lim (fun u => P (joined y z s u)) t l).
  { intros P l D e He. destruct (D e He) as ((a & Ha) & Q). cbn in Q. assert (Hm : 0 < Rmin a (s - t)) by (apply Rmin_glb_lt; lra). exists (mkposreal _ Hm). intros h Nh Hh. cbn in Hh. pose proof (Rmin_l a (s - t)). pose proof (Rmin_r a (s - t)). pose proof (Rle_abs h).
    unfold joined. destruct (Rle_dec (t + h) s); [|lra]. destruct (Rle_dec t s); [|lra]. apply Q; auto. lra. }
  destruct M as (M1 & M2 & M3 & M4 & M5 & M6 & M7). repeat split; apply X; assumption.
Qed.
Lemma joined_right : forall y z s t d, s < t -> moving_by z (t - s) d -> moving_by (joined y z s) t d.
Proof.
  intros y z s t d L M.
  assert (X : forall (P : state -> R) l, derivable_pt_lim (fun u => P (z u)) (t - s) l -> derivable_pt_lim (fun u => P (joined y z s u)) t l).
  { intros P l D e He. destruct (D e He) as ((a & Ha) & Q). cbn in Q. assert (Hm : 0 < Rmin a (t - s)) by (apply Rmin_glb_lt; lra). exists (mkposreal _ Hm). intros h Nh Hh. cbn in Hh. pose proof (Rmin_l a (t - s)). pose proof (Rmin_r a (t - s)).
    assert (Hh' : Rabs h < t - s) by lra. apply Rabs_def2 in Hh'. unfold joined. destruct (Rle_dec (t + h) s); [lra|]. destruct (Rle_dec t s); [lra|]. replace (t + h - s) with (t - s + h) by ring. apply Q; auto. lra. }
  destruct M as (M1 & M2 & M3 & M4 & M5 & M6 & M7). repeat split; apply X; assumption.
Qed.
(** A flight that leaves the atmosphere goes on for a while, in exactly one way. *)
Lemma goes_on : forall V i d T y, vh_user V = false -> 0 < RP (vh_planet V) -> 0 < h_thres (vh_planet V) -> lipschitz_air (vh_planet V) (vh_atm V) -> leaves V i d T y ->
  exists a Z, 0 < a /\ solution (fun x => EOM V x (d * PI / 180)) (entry_state (vh_planet V) i) (T + a) Z /\ (forall t, 0 <= t <= T -> Z t = y t) /\
    forall T' z, T' <= T + a -> solution (fun x => EOM V x (d * PI / 180)) (entry_state (vh_planet V) i) T' z -> forall t, 0 <= t <= T' -> z t = Z t.
Proof.
  intros V i d T y Hu HR H0 HL LV. set (p := vh_planet V) in *. set (dl := d * PI / 180) in *. pose proof (leaves_top _ _ _ _ _ Hu LV) as AT. fold p in AT. pose proof LV as (HT & Y0 & Sy & I & Etop & Hc). fold p in Etop. set (x := y T) in *.
  destruct (exist_near (airless V) dl x Hu HR (airless_lip V) (top_regular V _ x H0 AT)) as (rho & h & Hrho & Hh & EX). destruct (EX x ltac:(rewrite dist_self; lra)) as (w & Ew & Hw).
  assert (Near : exists e, 0 < e /\ forall b, dist x b < e -> 0 < height p b < h_thres p + 1).
  { destruct (ll_pos (height p) x ltac:(unfold height; ll) ltac:(rewrite Etop; auto)) as (e1 & E1 & P1). destruct (ll_pos (fun b => h_thres p + 1 - height p b) x ltac:(unfold height; ll) ltac:(cbv beta; rewrite Etop; lra)) as (e2 & E2 & P2).
    exists (Rmin e1 e2). split; [apply Rmin_glb_lt; auto|]. intros b Hb. pose proof (Rmin_l e1 e2). pose proof (Rmin_r e1 e2). specialize (P1 b ltac:(lra)). specialize (P2 b ltac:(lra)). cbv beta in P2. lra. }
  destruct Near as (e & He & NE).
  destruct (rises (airless V) dl w h x Hh Ew Hc (fun t Htt => proj1 (Hw t Htt)) e He) as (a1 & Ha1 & NR & UP).
  destruct (climbs_out V dl x Hu HR H0 HL AT Hc e He) as (eta & Heta & CO). fold p in CO.
  set (a := Rmin (a1 / 2) eta). assert (Ha : 0 < a) by (apply Rmin_glb_lt; lra). pose proof (Rmin_l (a1 / 2) eta : a <= _) as La1. pose proof (Rmin_r (a1 / 2) eta : a <= _) as La2.
  assert (Above : forall t, 0 < t <= a -> h_thres p < height p (w t)). { intros t Htt. rewrite <- Etop. unfold height. assert (s_r (w 0) < s_r (w t)) by (apply UP; lra). rewrite Ew in H. fold x. nra. }
  exists a, (joined y w T). split; auto.
  assert (J0 : forall t, t <= T -> joined y w T t = y t) by (intros t Htt; unfold joined; destruct (Rle_dec t T); [auto|lra]).
  assert (J1 : forall t, T <= t -> joined y w T t = w (t - T)). { intros t Htt. unfold joined. destruct (Rle_dec t T); [|auto]. replace t with T by lra. rewrite Rminus_diag_eq by auto. rewrite Ew. reflexivity. }
  split; [|split].
  - split; [rewrite J0 by lra; exact Y0|]. destruct Sy as (l & Sy). exists (T :: l). intros t Htt. split.
    + apply joined_continuous; [rewrite Ew; reflexivity|intros L; apply (Sy t); lra|intros L; apply (moving_continuous _ _ (field (airless V) dl (w (t - T)))); apply Hw; apply Rabs_def1; lra].
    + destruct (Rle_or_lt t T) as [L|L].
      * destruct (Sy t ltac:(lra)) as (_ & x' & Ex & M). exists x'. rewrite J0 by auto. split; auto. intros Ht1 Hn. assert (t <> T) by (intros ->; apply Hn; left; reflexivity). apply joined_left; [lra|]. apply M; [lra|]. intros J. apply Hn. right. exact J.
      * destruct (Hw (t - T) ltac:(apply Rabs_def1; lra)) as (M & (_ & R1 & R2 & R3 & R4)). exists (field V dl (w (t - T))). rewrite J1 by lra. split; [apply field_defined; auto|]. intros _ _. apply joined_right; auto. rewrite <- airless_field; auto. apply Above. lra.
  - intros t Htt. apply J0. lra.
  - intros T' z HT' (Z0 & Sz) t Htt. destruct (Rle_or_lt t T) as [L|L]; [rewrite J0 by auto; apply (leaves_same V i d T y z T' Hu HR H0 HL LV Z0 Sz); lra|].
    rewrite J1 by lra. assert (ZT : z T = x) by (apply (leaves_same V i d T y z T' Hu HR H0 HL LV Z0 Sz); lra).
    assert (Q : forall u, 0 <= u <= T' - T -> w u = z (T + u)).
    { apply (unique (airless V) dl w (fun u => z (T + u)) (T' - T)); auto.
      - apply airless_lip.
      - exists nil. intros u Hu'. destruct (Hw u ltac:(apply Rabs_def1; lra)) as (M & (_ & R1 & R2 & R3 & R4)). split; [apply (moving_continuous _ _ _ M)|]. exists (field (airless V) dl (w u)). split; [apply field_defined; auto|auto].
      - destruct (solves_shift _ z T' T Sz ltac:(lra)) as (l & Q). exists l. intros u Hu'. destruct (Q u Hu') as (C & x' & Ex & M). split; auto. destruct (field_is _ _ _ _ Hu Ex) as (Ex' & R1 & R2 & R3 & R4).
        exists (field (airless V) dl (z (T + u))). split; [apply field_defined; auto|]. intros Ht1 Hn. specialize (M Ht1 Hn). rewrite airless_field; auto; [unfold field; rewrite <- Ex'; exact M|]. apply (CO z T T' Sz HT ZT); lra.
      - rewrite Ew, Rplus_0_r. auto.
      - intros u Hu'. specialize (NE (w u) (NR u ltac:(apply Rabs_def1; lra))). unfold in_air. cbn [airless rigged vh_planet higher RP h_thres]. unfold height in NE. exact NE. }
    rewrite Q by lra. f_equal. ring.
Qed.
(** Whenever the integrator returns the samples of a solution that starts below the skip altitude, the propagation returns. *)
Lemma sampled_run_gen : forall solve name V i tol d ts xs t_sec dt fl ht, Planet name = Ok (vh_planet V) -> ts <> [] -> length xs = length ts ->
  let p := vh_planet V in
  (h_trap p < height p (nth 0 xs (entry_state p i)) <= h_skip p) ->
  (forall x, In x xs -> h_trap p < height p x) \/ (forall x, In x xs -> height p x < h_skip p) \/ (exists x, In x xs /\ height p x < h_trap p) ->
  solve V tol (entry_state p i) t_sec dt (deg d) = Ok (channels ts xs) ->
  exists f h, store (mkObj V i tol fl ht) (fly solve V tol i t_sec dt d) 0 = (mkObj V i tol (Some f) (Some h), Ok tt).
Proof.
  intros solve name V i tol d ts xs t_sec dt fl ht HP Hne Lx p H1 Hr Hs. fold p in HP. destruct (Planet_facts _ _ HP) as (HRP & HGM & _ & _ & Htr & _).
  set (c0 := channels ts xs) in *. set (n := length ts) in *. assert (Hn : (1 <= n)%nat) by (unfold n; destruct ts; [congruence|cbn [length]; lia]).
  assert (Len : traj_len (dimensionalize_traj p c0) n) by (apply dim_len, channels_len; auto).
  assert (Er : c_r (dimensionalize_traj p c0) = map (fun x => s_r x * RP p) xs) by (unfold dimensionalize_traj, c0, channels; cbn [c_r]; rewrite map_map; reflexivity).
  assert (Ec : exists idx fl, classifyTrajectory p (c_r (dimensionalize_traj p c0)) = Ok (idx, fl) /\ (1 <= idx <= n)%nat).
  { rewrite Er. destruct (C42_total p (map (fun x => s_r x * RP p) xs)) as [(_ & Z)|(idx & fl' & E & _)]; [exfalso; destruct xs; [cbn in Lx; lia|discriminate]|]. exists idx, fl'. split; auto.
    destruct (C42_classification _ _ _ _ _ HP E) as (Fl & F1 & F2 & F3 & F4 & F5 & F6). cbv zeta in *. rewrite map_map in *. rewrite map_length in F6.
    assert (Hgt : forall k, (k < length xs)%nat -> nth k (map (fun x => s_r x * RP p - RP p) xs) 0 = height p (nth k xs (entry_state p i))) by (intros k Hk; rewrite (nth_map_lt _ _ _ (entry_state p i)) by auto; unfold height; ring).
    destruct Fl as [->|[->| ->]].
    - destruct (F3 eq_refl) as (Li & A & B). rewrite map_length in Li. split; [|lia]. destruct idx; [|lia]. exfalso. rewrite Hgt in A by lia. lra.
    - rewrite (F6 eq_refl). lia.
    - destruct (proj1 F2 eq_refl) as (_ & [Q|(Ev & (j & Hj & Ej) & (k & Hk & Ek))]).
      + destruct (F4 eq_refl Q) as (Li & A & B). rewrite map_length in Li. split; [|lia]. destruct idx; [|lia]. exfalso. rewrite Hgt in A by lia. lra.
      + exfalso. rewrite map_length in Hj, Hk. rewrite Hgt in Ej, Ek by auto. destruct Hr as [Hr|[Hr|(x & Hx & Lx')]]; [specialize (Hr _ (nth_In xs (entry_state p i) Hj)); lra|specialize (Hr _ (nth_In xs (entry_state p i) Hk)); lra|].
        apply (In_nth _ _ (entry_state p i)) in Hx. destruct Hx as (m & Hm & <-). specialize (Ev m ltac:(rewrite map_length; auto)). rewrite Hgt in Ev by auto. lra. }
  destruct Ec as (idx & fl' & Ec & Hidx).
  assert (Ef : exists f, post V (deg d) c0 = Ok f).
  { unfold post. fold p. rewrite Ec. cbn [rbind fst snd truncateTrajectory]. unfold qStagConvective, qStagRadiative, heat_history. fold p.
    destruct (proj1 (proj1 (law_known _)) (planet_known _ _ HP)) as (c & ->). destruct (proj1 (proj2 (law_known _)) (planet_known _ _ HP)) as (r & ->). cbn [rbind]. eexists. reflexivity. }
  destruct Ef as (f & Ef).
  destruct (post_inv _ _ _ _ Ef) as (cls & qc & qr & Ec' & Ei & _ & Esi & Epl & _ & _ & _ & _ & Qc & Qr & E1 & E2 & E3). cbv zeta in *. change (vh_planet V) with p in Ec', Esi, Epl.
  rewrite Ec in Ec'. injection Ec' as <-. cbn [fst snd] in *. destruct Len as (N1 & N2 & N3 & N4 & N5 & N6 & N7 & N8).
  assert (LT : length (c_t (f_si f)) = idx) by (rewrite Esi; cbn [c_t]; rewrite firstn_length; lia).
  assert (LR : length (c_r (f_si f)) = idx) by (rewrite Esi; cbn [c_r]; rewrite firstn_length; lia).
  assert (LV : length (c_v (f_si f)) = length (c_r (f_si f))) by (rewrite LR, Esi; cbn [c_v]; rewrite firstn_length; lia).
  assert (Lq : length (f_qtot f) = idx). { rewrite E3. apply vsum_length; [rewrite (heat_len _ _ _ _ _ LV Qc)|rewrite (heat_len _ _ _ _ _ LV Qr)]; auto. }
  destruct (ocumtrapz_ok (f_qtot f) (c_t (f_si f))) as (h & Eh); [intros Z; rewrite Z in Lq; cbn in Lq; lia|congruence|].
  exists f, h. unfold fly. fold p. rewrite Hs. cbn [rbind]. rewrite Ef. unfold store. rewrite Eh. reflexivity.
Qed.
Lemma sampled_run : forall solve name V i tol d ts xs t_sec dt fl ht, Planet name = Ok (vh_planet V) -> ts <> [] -> length xs = length ts ->
  let p := vh_planet V in
  (h_trap p < height p (nth 0 xs (entry_state p i)) <= h_skip p) ->
  (forall x, In x xs -> h_trap p < height p x) \/ (forall x, In x xs -> height p x < h_skip p) ->
  solve V tol (entry_state p i) t_sec dt (deg d) = Ok (channels ts xs) ->
  exists f h, store (mkObj V i tol fl ht) (fly solve V tol i t_sec dt d) 0 = (mkObj V i tol (Some f) (Some h), Ok tt).
Proof.
  intros solve name V i tol d ts xs t_sec dt fl ht HP Hne Lx p H1 Hr Hs. apply (sampled_run_gen solve name V i tol d ts xs t_sec dt fl ht HP Hne Lx H1); auto. fold p. tauto.
Qed.
(** There is an exact integrator with which every flight that leaves the atmosphere from above the trap altitude is flown, stored, and flagged as having left. *)
Theorem C129_flown : exists E, engine_ok E /\ exact E /\
  forall name V i d T y, Planet name = Ok (vh_planet V) -> vh_user V = false -> lipschitz_air (vh_planet V) (vh_atm V) -> leaves V i d T y ->
    (forall t, 0 <= t <= T -> h_trap (vh_planet V) < height (vh_planet V) (y t)) ->
    exists delta, 0 < delta /\ forall tol secs dt, 0 < dt < delta -> tau (vh_planet V) * T < secs < tau (vh_planet V) * T + delta ->
      exists o f h, propogateEntry E (mkObj V i tol None None) secs dt d = (o, Ok tt) /\ ob_flight o = Some f /\ ob_heat o = Some h /\ f_exitflag f = 1.
Proof.
  exists ideal. split; [apply ideal_ok|]. split; [apply ideal_exact|]. intros name V i d T y HP Hu HL LV Hup.
  destruct (C129_flagged name V i d T y HP Hu HL LV) as (d1 & Hd1 & FL). destruct (ref_facts _ _ HP) as (_ & _ & Ht & _ & HR & _). destruct (Planet_facts _ _ HP) as (_ & _ & _ & _ & (Ht0 & Hts) & Hthr & _).
  set (p := vh_planet V) in *. assert (H0 : 0 < h_thres p) by lra. pose proof (leaves_top _ _ _ _ _ Hu LV) as AT. fold p in AT. pose proof LV as (HT & Y0 & Sy & I & Etop & Hc). fold p in Etop.
  destruct (goes_on V i d T y Hu HR H0 HL LV) as (a & Z & Ha & (Z0 & SZ) & ZY & ZU). fold p in Z0, ZU.
  destruct (climbs_out V (d * PI / 180) (y T) Hu HR H0 HL AT Hc 1 ltac:(lra)) as (eta & Heta & CO). fold p in CO.
  exists (Rmin d1 (Rmin (a * tau p / 2) (eta * tau p / 2))).
  assert (0 < a * tau p) by (apply Rmult_lt_0_compat; auto). assert (0 < eta * tau p) by (apply Rmult_lt_0_compat; auto). split; [repeat apply Rmin_glb_lt; lra|]. intros tol secs dt Hdt Hsec.
  pose proof (Rmin_l d1 (Rmin (a * tau p / 2) (eta * tau p / 2))). pose proof (Rmin_r d1 (Rmin (a * tau p / 2) (eta * tau p / 2))). pose proof (Rmin_l (a * tau p / 2) (eta * tau p / 2)). pose proof (Rmin_r (a * tau p / 2) (eta * tau p / 2)).
  set (stop := (secs + dt) / tau p). set (step := dt / tau p). assert (HTs : 0 <= tau p * T) by (apply Rmult_le_pos; lra).
  assert (Hst : 0 < step) by (apply Rdiv_lt_0_compat; lra). assert (Hstop : 0 < stop) by (apply Rdiv_lt_0_compat; lra).
  destruct (arange stop step) as [ts|e] eqn:Ea.
  2:{ exfalso. unfold arange in Ea. destruct (Reqb step 0) eqn:Eq; [apply Reqb_true in Eq; lra|discriminate]. }
  destruct (arange_inv _ _ _ Ea) as (La & Na). assert (Hlen : 0 < stop / step) by (apply Rdiv_lt_0_compat; auto). pose proof (PropRoundGrid.ceil_between (stop / step) ltac:(lra)) as (C1 & C2). rewrite <- La in C1, C2.
  assert (Hne : ts <> []). { intros Q. rewrite Q in C1. cbn in C1. lra. }
  assert (Hz : nth_error ts 0 = Some 0). { destruct ts as [|t ts]; [congruence|]. pose proof (Na 0%nat ltac:(cbn; lia)) as N. cbn in *. rewrite N. f_equal. ring. }
  destruct (grid_regular ts step (Rlt_le _ _ Hst) Na) as (G & _).
  assert (HL' : last ts 0 * tau p < secs + dt).
  { assert (Hl : last ts 0 = INR (length ts - 1) * step) by (rewrite PropGuidance.last_nth; apply Na; destruct ts; [congruence|cbn; lia]).
    assert (E1 : INR (length ts) = INR (length ts - 1) + 1) by (rewrite <- S_INR; f_equal; destruct ts; [congruence|cbn; lia]).
    assert (E2 : stop / step * dt = secs + dt) by (unfold stop, step; field; lra). rewrite Hl. replace (INR (length ts - 1) * step * tau p) with (INR (length ts - 1) * dt) by (unfold step; field; lra). nra. }
  assert (HTa : last ts 0 <= T + a) by (apply (Rmult_le_reg_r (tau p)); auto; lra). assert (HTe : last ts 0 <= T + eta) by (apply (Rmult_le_reg_r (tau p)); auto; lra).
  assert (SZ' : solution (fun x => EOM V x (d * PI / 180)) (entry_state p i) (last ts 0) Z) by (split; auto; eapply solves_upto; eauto).
  assert (A : asked (fun x => EOM V x (d * PI / 180)) (entry_state p i) ts) by (split; [|auto]; exists Z; split; auto; intros z Sz; apply (ZU (last ts 0) z HTa Sz)).
  assert (M : map (the_state (fun x => EOM V x (d * PI / 180)) (entry_state p i) (last ts 0)) ts = map Z ts).
  { apply map_ext_in. intros t Htt. pose proof (proj1 (Forall_forall _ _) G t Htt) as B. apply the_state_is; auto. intros z Sz. apply (ZU (last ts 0) z HTa Sz). }
  assert (SV : solveTrajectory ideal V tol (entry_state p i) secs dt (deg d) = Ok (channels ts (map Z ts))).
  { unfold solveTrajectory. fold p stop step. rewrite Ea. cbn [rbind odeint ideal]. unfold deg. destruct (decide _) as [_|N]; [|contradiction]. cbn [rbind]. rewrite M. reflexivity. }
  destruct (sampled_run (solveTrajectory ideal) name V i tol d ts (map Z ts) secs dt None None HP Hne (map_length _ _)) as (f & h & ST).
  - fold p. destruct ts as [|t0 ts']; [congruence|]. cbn in Hz. injection Hz as ->. cbn [map nth]. rewrite (ZY 0) by lra. pose proof (Hup 0 ltac:(lra)) as Q1. pose proof (leaves_below V i d T y H0 LV 0 ltac:(lra)) as Q2. fold p in Q2. lra.
  - left. fold p. intros x Hx. apply in_map_iff in Hx. destruct Hx as (t & <- & Hin). pose proof (proj1 (Forall_forall _ _) G t Hin) as B. cbv beta in B. destruct (Rle_or_lt t T) as [L|L]; [rewrite ZY by lra; apply Hup; lra|].
    destruct (CO Z T (last ts 0) (proj2 SZ') HT (ZY T ltac:(lra)) t ltac:(lra) ltac:(lra)) as (U & _). lra.
  - exact SV.
  - exists (mkObj V i tol (Some f) (Some h)), f, h. assert (P : propogateEntry ideal (mkObj V i tol None None) secs dt d = (mkObj V i tol (Some f) (Some h), Ok tt)) by exact ST. do 3 (split; [first [exact P|reflexivity]|]).
    apply (FL ideal tol secs dt (mkObj V i tol (Some f) (Some h)) f); auto using ideal_ok, ideal_exact; lra.
Qed.
(** Likewise every state at the trap altitude in which the vehicle descends is passed by some flight through the atmosphere that was above before, *)
Theorem C129_trap_reached : forall name V x d, Planet name = Ok (vh_planet V) -> vh_user V = false -> lipschitz_air (vh_planet V) (vh_atm V) ->
  height (vh_planet V) x = h_trap (vh_planet V) -> s_v x * sin (s_gamma x) < 0 -> cos (s_phi x) <> 0 -> cos (s_gamma x) <> - 0.01 ->
  exists i T2 y T, 0 < T < T2 /\ way V i d T2 y /\ sinks V T y /\ y T = x.
Proof.
  intros name V x d HP Hu HL Etop Hc Hph Hga. destruct (ref_facts _ _ HP) as (_ & _ & Ht & _ & HR & _). destruct (Planet_facts _ _ HP) as (_ & _ & _ & _ & (Ht0 & Hts) & Hthr & _).
  set (p := vh_planet V) in *.
  assert (RG : regular p x). { unfold height in Etop. split; [unfold in_air; lra|]. split; [intros Z; rewrite Z in Etop; lra|]. split; [intros Z; rewrite Z in Hc; lra|]. split; auto. intros Z. apply Hga. lra. }
  destruct (exist_near V (d * PI / 180) x Hu HR HL RG) as (rho & h & Hrho & Hh & EX). destruct (EX x ltac:(rewrite dist_self; lra)) as (z & Ez & Hz).
  destruct (ll_pos (fun a => 0 - f1 a) x ltac:(unfold f1; ll) ltac:(unfold f1; lra)) as (e & He & P1). cbv beta in P1.
  destruct (curve_near z 0 e He (moving_continuous _ _ _ (proj1 (Hz 0 ltac:(rewrite Rabs_R0; auto))))) as (a0 & Ha0 & CN). rewrite Ez in CN.
  set (a := Rmin a0 (h / 2)). assert (Ha : 0 < a) by (apply Rmin_glb_lt; lra). pose proof (Rmin_l a0 (h / 2) : a <= _). pose proof (Rmin_r a0 (h / 2) : a <= _). set (T := a / 2).
  assert (MS : forall t, 0 <= t <= a -> moving_by (fun u => z (u - T)) t (field V (d * PI / 180) (z (t - T))) /\ regular p (z (t - T))).
  { intros t Htt. destruct (Hz (t - T) ltac:(unfold T; apply Rabs_def1; lra)) as (M & Rg). split; auto.
    assert (DS : forall (F : R -> R) l, derivable_pt_lim F (t - T) l -> derivable_pt_lim (fun u => F (u - T)) t l).
    { intros F l DF. replace l with (l * 1) by ring. apply (derivable_pt_lim_comp (fun u => u - T) F t 1 l); auto. replace 1 with (1 - 0) by ring. apply (derivable_pt_lim_minus id (fun _ => T)); [apply derivable_pt_lim_id|apply derivable_pt_lim_const]. }
    destruct M as (M1 & M2 & M3 & M4 & M5 & M6 & M7). repeat split; match goal with |- derivable_pt_lim (fun u => ?P (z (u - T))) t _ => apply (DS (fun u => P (z u))); assumption end. }
  exists (start_of p (z (0 - T))), a, (fun t => z (t - T)), T. split; [unfold T; lra|]. split; [|split].
  - split; [fold p; rewrite (start_of_state name) by auto; reflexivity|]. split; [|intros t Htt; apply (MS t Htt)]. exists nil. intros t Htt. destruct (MS t Htt) as (M & Rg). split; [apply (moving_continuous _ _ _ M)|]. exists (field V (d * PI / 180) (z (t - T))). split; [apply field_there; auto|auto].
  - split; [|rewrite Rminus_diag_eq by auto; rewrite Ez; auto]. intros t Htt. fold p. rewrite <- Etop. destruct (MVT_cor2 (fun u => s_r (z u)) (fun u => f1 (z u)) (t - T) 0 ltac:(lra)) as (c & Ec & Hc').
    + intros c Hcc. apply (Hz c). unfold T in *. apply Rabs_def1; lra.
    + assert (0 < 0 - f1 (z c)) by (apply P1, CN; unfold T in *; rewrite Rminus_0_r; apply Rabs_def1; lra). cbv beta in Ec. rewrite Ez in Ec. unfold height. assert (s_r x < s_r (z (t - T))) by nra. nra.
  - rewrite Rminus_diag_eq by auto. exact Ez.
Qed.
(** and with an exact integrator it is flown, stored, and flagged as trapped. *)
Theorem C129_trap_flown : exists E, engine_ok E /\ exact E /\
  forall name V i d T2 y T, Planet name = Ok (vh_planet V) -> vh_user V = false -> lipschitz_air (vh_planet V) (vh_atm V) -> passage V i d T2 y -> 0 < T < T2 -> sinks V T y ->
    exists delta, 0 < delta /\ forall tol secs dt, 0 < dt < delta -> tau (vh_planet V) * T < secs < tau (vh_planet V) * T + delta ->
      exists o f h, propogateEntry E (mkObj V i tol None None) secs dt d = (o, Ok tt) /\ ob_flight o = Some f /\ ob_heat o = Some h /\ f_exitflag f = -1.
Proof.
  destruct C132_ideal as (E & HE & HX & ID). exists E. split; auto. split; auto. intros name V i d T2 y T HP Hu HL W HT SK.
  destruct (C129_trap_flagged name V i d T2 y T HP Hu HL W ltac:(lra) SK) as (d1 & Hd1 & FL). destruct (ref_facts _ _ HP) as (_ & _ & Ht & _ & HR & _). destruct (Planet_facts _ _ HP) as (_ & _ & _ & _ & (Ht0 & Hts) & Hthr & _).
  set (p := vh_planet V) in *. set (m := (T2 - T) * tau p). assert (Hm : 0 < m) by (apply Rmult_lt_0_compat; lra). destruct (sinks_below V i d T2 y T Hu HR W ltac:(lra) SK) as (eta & Heta & HTe & BT). fold p in BT. assert (Hme : 0 < eta * tau p) by (apply Rmult_lt_0_compat; lra). exists (Rmin d1 (Rmin (m / 2) (eta * tau p / 2))). split; [repeat apply Rmin_glb_lt; lra|]. intros tol secs dt Hdt Hsec. pose proof (Rmin_l d1 (Rmin (m / 2) (eta * tau p / 2))). pose proof (Rmin_r d1 (Rmin (m / 2) (eta * tau p / 2))). pose proof (Rmin_l (m / 2) (eta * tau p / 2)). pose proof (Rmin_r (m / 2) (eta * tau p / 2)).
  assert (HTs : 0 <= tau p * T) by (apply Rmult_le_pos; lra).
  destruct (ID name V i d T2 y tol secs dt HP Hu HL ltac:(lra) ltac:(lra) W) as (ts & Ea & Hne & S1 & _); [fold p; unfold m in *; lra|]. fold p in Ea, S1.
  destruct (arange_inv _ _ _ Ea) as (La & Na). assert (Hst : 0 < dt / tau p) by (apply Rdiv_lt_0_compat; lra). destruct (grid_regular ts (dt / tau p) (Rlt_le _ _ Hst) Na) as (G & _).
  assert (Lt : forall t, In t ts -> 0 <= t <= T2).
  { intros t Hin. apply (In_nth _ _ 0) in Hin. destruct Hin as (k & Hk & <-). rewrite Na by auto. pose proof (pos_INR k). split; [apply Rmult_le_pos; lra|].
    assert (Hq : 0 < (secs + dt) / tau p / (dt / tau p)) by (apply Rdiv_lt_0_compat; [apply Rdiv_lt_0_compat; lra|auto]). pose proof (PropRoundGrid.ceil_between _ ltac:(exact (Rlt_le _ _ Hq))) as (C1 & C2). rewrite <- La in C1, C2.
    assert (Eq : (secs + dt) / tau p / (dt / tau p) * dt = secs + dt) by (field; lra). assert (INR k + 1 <= INR (length ts)) by (rewrite <- S_INR; apply le_INR; lia).
    apply (Rmult_le_reg_l (tau p)); auto. replace (tau p * (INR k * (dt / tau p))) with (INR k * dt) by (field; lra). unfold m in *. nra. }
  destruct (sampled_run_gen (solveTrajectory E) name V i tol d ts (map y ts) secs dt None None HP Hne (map_length _ _)) as (f & h & ST).
  - fold p. destruct ts as [|t0 ts']; [congruence|]. cbn [map nth]. pose proof (Na 0%nat ltac:(cbn; lia)) as N0. cbn in N0. replace t0 with 0 by lra. destruct SK as (AB & _). specialize (AB 0 ltac:(lra)). fold p in AB. destruct W as (_ & _ & I). pose proof (inside_height p y 0 ltac:(lra) (I 0 ltac:(lra))). lra.
  - right. right. fold p. assert (Hq : 0 < (secs + dt) / tau p / (dt / tau p)) by (apply Rdiv_lt_0_compat; [apply Rdiv_lt_0_compat; lra|auto]). pose proof (PropRoundGrid.ceil_between _ ltac:(exact (Rlt_le _ _ Hq))) as (C1 & C2). rewrite <- La in C1, C2.
    assert (Eq : (secs + dt) / tau p / (dt / tau p) * dt = secs + dt) by (field; lra). assert (L1 : (1 <= length ts)%nat) by (destruct ts; [congruence|cbn; lia]). assert (E1 : INR (length ts) = INR (length ts - 1) + 1) by (rewrite <- S_INR; f_equal; lia).
    assert (LB : secs <= INR (length ts - 1) * dt < secs + dt) by nra. exists (y (nth (length ts - 1) ts 0)). split; [apply in_map, nth_In; lia|]. apply BT. rewrite Na by lia.
    assert (Q : INR (length ts - 1) * (dt / tau p) * tau p = INR (length ts - 1) * dt) by (field; lra). split; [apply (Rmult_lt_reg_r (tau p)); lra|apply (Rmult_le_reg_r (tau p)); lra].
  - exact S1.
  - exists (mkObj V i tol (Some f) (Some h)), f, h. assert (P : propogateEntry E (mkObj V i tol None None) secs dt d = (mkObj V i tol (Some f) (Some h), Ok tt)) by exact ST. do 3 (split; [first [exact P|reflexivity]|]).
    apply (FL E tol secs dt (mkObj V i tol (Some f) (Some h)) f); auto; lra.
Qed.
