(** C128: the peaks read off a report never exceed the true peaks and approach them as the time step shrinks. *)
From Coq Require Import String List Reals Lra Lia Classical.
Require Import Verif.Base Verif.Numpy Verif.PlanetModel Verif.PlanetProofs Verif.AeroModel Verif.HeatModel Verif.PropHeat Verif.TrajectoryModel Verif.TrajectorySpec Verif.TrajectoryProofs Verif.PropTrajectory Verif.FlightProofs Verif.PropFlight
  Verif.ReportSpec Verif.PropReport Verif.ExactSpec Verif.ExactProofs Verif.PropExact Verif.DetSpec Verif.DetProofs Verif.PropDet Verif.ExistSpec Verif.PropExist Verif.HeatIntSpec Verif.HeatIntProofs Verif.PropHeatInt Verif.PeakSpec.
Import ListNotations.
Local Open Scope R_scope.

Lemma cont_const : forall c t, continuity_pt (fun _ => c) t.
Proof. intros c t. apply continuity_pt_const. intros a b. reflexivity. Qed.
Lemma along_continuous : forall name V i d T y, Planet name = Ok (vh_planet V) -> lipschitz_air (vh_planet V) (vh_atm V) -> way V i d T y -> forall t, 0 <= t <= T ->
  continuity_pt (fun u => RP (vh_planet V) * s_r (y u) - RP (vh_planet V)) t /\ continuity_pt (fun u => density_int (vh_atm V) (RP (vh_planet V) * s_r (y u) - RP (vh_planet V))) t /\
  continuity_pt (fun u => Vref (vh_planet V) * s_v (y u)) t.
Proof.
  intros name V i d T y HP (K & HL) (Y0 & (cs & S) & I) t Ht. set (p := vh_planet V) in *.
  assert (Ch : continuity_pt (fun u => RP p * s_r (y u) - RP p) t).
  { apply (continuity_pt_minus (fun u => RP p * s_r (y u)) (fun _ => RP p)); [|apply cont_const]. apply (continuity_pt_scal (fun u => s_r (y u)) (RP p)). apply (S _ Ht). }
  split; auto. split; [|apply (continuity_pt_scal (fun u => s_v (y u)) (Vref p)); apply (S _ Ht)].
  set (h := fun u => RP p * s_r (y u) - RP p) in *. apply (continuity_pt_comp h (density_int (vh_atm V))); auto. pose proof (I _ Ht) as In. unfold in_air in In. fold p in In. fold (h t) in In.
  intros e He. pose proof (Rabs_pos K). assert (0 < e / (Rabs K + 1)) by (apply Rdiv_lt_0_compat; lra). set (m := Rmin (h t) (h_thres p - h t)). assert (0 < m) by (apply Rmin_glb_lt; lra).
  pose proof (Rmin_l (h t) (h_thres p - h t)) as M1. pose proof (Rmin_r (h t) (h_thres p - h t)) as M2. fold m in M1, M2.
  exists (Rmin m (e / (Rabs K + 1))). split; [apply Rmin_glb_lt; auto|]. intros x (_ & Hx). cbn in *. unfold R_dist in *. pose proof (Rmin_l m (e / (Rabs K + 1))). pose proof (Rmin_r m (e / (Rabs K + 1))).
  assert (Hx' : Rabs (x - h t) < m) by lra. apply Rabs_def2 in Hx'.
  eapply Rle_lt_trans; [apply HL; fold p; lra|]. pose proof (Rle_abs K). assert (e / (Rabs K + 1) * (Rabs K + 1) = e) by (field; lra). pose proof (Rabs_pos (x - h t)). nra.
Qed.
Lemma cont_eps : forall f t e, continuity_pt f t -> 0 < e -> exists a, 0 < a /\ forall s, Rabs (s - t) < a -> Rabs (f s - f t) < e.
Proof.
  intros f t e C He. destruct (C e He) as (a & Ha & H). exists a. split; auto. intros s Hs. destruct (Req_dec s t) as [->|N]; [rewrite Rminus_diag_eq, Rabs_R0; auto|].
  apply H. split; [split; [exact I|auto]|exact Hs].
Qed.
Lemma away : forall (l : list R) v, ~ In v l -> exists e, 0 < e /\ forall b, In b l -> e <= Rabs (b - v).
Proof.
  induction l as [|x l IH]; intros v H; [exists 1; split; [lra|intros b []]|]. destruct (IH v) as (e & He & E); [intros Z; apply H; right; auto|].
  assert (0 < Rabs (x - v)) by (apply Rabs_pos_lt; intros Z; apply H; left; lra). exists (Rmin e (Rabs (x - v))). split; [apply Rmin_glb_lt; auto|].
  intros b [<-|Hb]; [apply Rmin_r|]. eapply Rle_trans; [apply Rmin_l|auto].
Qed.
(** Around a plain peak the quantity is a number near the peak. *)
Lemma truth_near : forall name V i d T y g t0 M, Planet name = Ok (vh_planet V) -> lipschitz_air (vh_planet V) (vh_atm V) -> some_air (vh_planet V) (vh_atm V) -> 0 < vh_RN V -> good_start steepest i -> way V i d T y ->
  0 <= t0 <= T -> truth V (d * PI / 180) g (y t0) = Some M -> plain_peak V g (y t0) M ->
  forall e, 0 < e -> exists a, 0 < a /\ forall t, 0 <= t <= T -> Rabs (t - t0) < a -> exists m, truth V (d * PI / 180) g (y t) = Some m /\ Rabs (m - M) < e.
Proof.
  intros name V i d T y g t0 M HP HL HA HR HG W Ht0 HM PP e He. destruct (along_continuous name V i d T y HP HL W t0 Ht0) as (Ch & Cr & Cv). pose proof (fast_enough name V i d T y HP HG W) as FE.
  destruct (ref_facts _ _ HP) as (HV & _). set (p := vh_planet V) in *. set (delta := d * PI / 180) in *.
  set (h := fun u => RP p * s_r (y u) - RP p) in *. set (rho := fun u => density_int (vh_atm V) (RP p * s_r (y u) - RP p)) in *. set (v := fun u => Vref p * s_v (y u)) in *.
  set (q := fun u => rho u * v u * v u / 2).
  assert (Cq : continuity_pt q t0). { unfold q, Rdiv. apply (continuity_pt_mult (fun u => rho u * v u * v u) (fun _ => / 2)); [|apply cont_const]. apply (continuity_pt_mult (fun u => rho u * v u) v); auto. apply (continuity_pt_mult rho v); auto. }
  assert (Csc : forall c1 c2 c3, continuity_pt (fun u => q u * c1 * c2 / c3) t0).
  { intros c1 c2 c3. unfold Rdiv. apply (continuity_pt_mult (fun u => q u * c1 * c2) (fun _ => / c3)); [|apply cont_const]. apply (continuity_pt_mult (fun u => q u * c1) (fun _ => c2)); [|apply cont_const]. apply (continuity_pt_mult q (fun _ => c1)); [auto|apply cont_const]. }
  set (drag := fun u => q u * vh_A V * vh_CD V / vh_mass V). set (lift := fun u => q u * vh_A V * vh_CL V / vh_mass V).
  assert (SIMPLE : forall F : R -> R, continuity_pt F t0 -> (forall t, truth V delta g (y t) = Some (F t)) -> exists a, 0 < a /\ forall t, 0 <= t <= T -> Rabs (t - t0) < a -> exists m, truth V delta g (y t) = Some m /\ Rabs (m - M) < e).
  { intros F CF EF. destruct (cont_eps F t0 e CF He) as (a & Ha & H). exists a. split; auto. intros t _ Ht. exists (F t). split; auto. rewrite EF in HM. injection HM as <-. auto. }
  destruct g.
  - (* Heat *)
    destruct (law_pieces (ID p) (vh_RN V) (planet_known _ _ HP) HR) as (P & ix & P1 & P2 & P3 & P4).
    assert (Pos : forall t, 0 <= t <= T -> 0 < rho t /\ 0 < v t).
    { intros t Ht. destruct W as (_ & _ & I). specialize (I t Ht). unfold in_air in I. fold p in I. split; [apply HA; fold p; lra|apply Rmult_lt_0_compat; auto]. }
    assert (HQ : forall t, 0 <= t <= T -> truth V delta Heat (y t) = Some (P (ix (v t)) (rho t) (v t))) by (intros t Ht; destruct (Pos t Ht); apply (P2 (rho t) (v t)); auto).
    cbn [plain_peak] in PP. fold p in PP. destruct (away _ _ PP) as (w & Hw & Aw). destruct (cont_eps v t0 w Cv Hw) as (a1 & Ha1 & H1).
    destruct (Pos t0 Ht0) as (R0 & V0). destruct (cont_eps _ t0 e (P3 (ix (v t0)) (P1 _) rho v t0 Cr Cv R0 V0) He) as (a2 & Ha2 & H2).
    exists (Rmin a1 a2). split; [apply Rmin_glb_lt; auto|]. intros t Ht Hd. pose proof (Rmin_l a1 a2). pose proof (Rmin_r a1 a2). specialize (H1 t ltac:(lra)). specialize (H2 t ltac:(lra)).
    assert (EI : ix (v t) = ix (v t0)).
    { destruct (Nat.eq_dec (ix (v t)) (ix (v t0))) as [|N]; auto. exfalso. destruct (P4 _ _ N) as (b & Hb & B). specialize (Aw b Hb). fold (v t0) in Aw.
      assert (Rabs (b - v t0) <= Rabs (v t - v t0)) by (destruct B; [rewrite !Rabs_left1|rewrite !Rabs_right]; lra). lra. }
    rewrite HQ in HM by auto. injection HM as <-. eexists. split; [apply HQ; auto|]. rewrite EI. exact H2.
  - (* Load *)
    set (rad := fun u => drag u * drag u + (lift u * cos delta) * (lift u * cos delta) + 2 * (lift u * sin delta)).
    assert (ET : forall t, truth V delta Load (y t) = if Rle_dec 0 (rad t) then Some (sqrt (rad t) / 9.80665) else None) by reflexivity.
    assert (Clift : forall c, continuity_pt (fun u => lift u * c) t0) by (intros c; apply (continuity_pt_mult lift (fun _ => c)); [apply Csc|apply cont_const]).
    assert (Cr' : continuity_pt rad t0).
    { apply (continuity_pt_plus (fun u => drag u * drag u + (lift u * cos delta) * (lift u * cos delta)) (fun u => 2 * (lift u * sin delta))).
      - apply (continuity_pt_plus (fun u => drag u * drag u) (fun u => (lift u * cos delta) * (lift u * cos delta))).
        + apply (continuity_pt_mult drag drag); apply Csc.
        + apply (continuity_pt_mult (fun u => lift u * cos delta) (fun u => lift u * cos delta)); apply Clift.
      - apply (continuity_pt_scal (fun u => lift u * sin delta) 2). apply Clift. }
    rewrite ET in HM. destruct (Rle_dec 0 (rad t0)) as [L|L]; [|discriminate]. injection HM as <-. cbn [plain_peak] in PP.
    assert (RP0 : 0 < rad t0). { destruct L as [L|L]; auto. exfalso. rewrite <- L, sqrt_0 in PP. lra. }
    assert (Cs : continuity_pt (fun u => sqrt (rad u) / 9.80665) t0).
    { unfold Rdiv. apply (continuity_pt_mult (fun u => sqrt (rad u)) (fun _ => / 9.80665)); [|apply cont_const]. apply (continuity_pt_comp rad sqrt); auto. apply continuity_pt_sqrt. lra. }
    destruct (cont_eps _ t0 e Cs He) as (a1 & Ha1 & H1). destruct (cont_eps rad t0 (rad t0) Cr' RP0) as (a2 & Ha2 & H2).
    exists (Rmin a1 a2). split; [apply Rmin_glb_lt; auto|]. intros t Ht Hd. pose proof (Rmin_l a1 a2). pose proof (Rmin_r a1 a2). specialize (H1 t ltac:(lra)). specialize (H2 t ltac:(lra)). apply Rabs_def2 in H2.
    rewrite ET. destruct (Rle_dec 0 (rad t)); [|lra]. eexists. split; [reflexivity|exact H1].
  - apply (SIMPLE (fun u => Rabs (drag u) / 9.80665)); [|reflexivity]. unfold Rdiv. apply (continuity_pt_mult (fun u => Rabs (drag u)) (fun _ => / 9.80665)); [|apply cont_const].
    apply (continuity_pt_comp drag Rabs); [apply Csc|apply Rcontinuity_abs].
  - apply (SIMPLE (fun u => q u / 101325)); [|reflexivity]. unfold Rdiv. apply (continuity_pt_mult q (fun _ => / 101325)); [auto|apply cont_const].
  - apply (SIMPLE (fun u => - (h u / 1000))); [|reflexivity]. apply (continuity_pt_opp (fun u => h u / 1000)). unfold Rdiv. apply (continuity_pt_mult h (fun _ => / 1000)); [auto|apply cont_const].
Qed.
(** Every reported point tells the truth about the way. *)
Theorem C128_points : forall (two : bool) E name V i tol secs dt d o f y T g, engine_ok E -> exact E -> Planet name = Ok (vh_planet V) -> 0 < dt ->
  vh_user V = false -> lipschitz_air (vh_planet V) (vh_atm V) -> way V i d T y ->
  (if two then propogateEntry2 else propogateEntry) E (mkObj V i tol None None) secs dt d = (o, Ok tt) -> ob_flight o = Some f ->
  forall k, (k < length (p_t (f_plot f)))%nat -> time_of (vh_planet V) (f_plot f) k <= T ->
  reads f g k = truth V (d * PI / 180) g (y (time_of (vh_planet V) (f_plot f) k)).
Proof.
  intros two E name V i tol secs dt d o f y T g HE HX HP Hdt Hu HL W H Hf k Hk HT.
  pose proof (C106_on_the_way two E name V i tol secs dt d o f y T HE HX HP Hdt Hu HL W H Hf k Hk HT) as (S1 & S2 & _).
  destruct (flight_laws two E name V i tol secs dt d o f HE HP Hu H Hf) as ((con & Hcon) & (rad & Hrad) & RP'). destruct (RP' k Hk) as (R1 & _ & R3 & R4 & RC & RR & RT).
  set (p := vh_planet V) in *. set (x := y (time_of p (f_plot f) k)) in *. unfold altitude_at, speed_at in *. rewrite S2 in *.
  assert (EH : - nth k (p_h (f_plot f)) 0 = - ((RP p * s_r x - RP p) / 1000)) by lra.
  replace (nth k (p_h (f_plot f)) 0 * 1000) with (RP p * s_r x - RP p) in * by lra.
  destruct g; cbn [reads]; unfold truth; cbv zeta; fold p.
  - rewrite (RC con Hcon), (RR rad Hrad) in RT. rewrite RT. unfold heat_rate. fold p. rewrite Hcon, Hrad. reflexivity.
  - destruct R4 as (A & B). destruct (Rle_dec 0 _) as [L|L]; [apply A; exact L|apply B; lra].
  - exact R3.
  - f_equal. lra.
  - f_equal. exact EH.
Qed.
(** No reported value up to [T] is above the peak, and once the step is small enough every report that reaches the time of the peak has a value within [eps] of it. *)
Theorem C128_peaks : forall name V i d T y g t0 M, Planet name = Ok (vh_planet V) -> vh_user V = false -> lipschitz_air (vh_planet V) (vh_atm V) -> some_air (vh_planet V) (vh_atm V) -> 0 < vh_RN V ->
  good_start steepest i -> way V i d T y -> peak V (d * PI / 180) g y T t0 M -> plain_peak V g (y t0) M ->
  forall eps, 0 < eps -> exists delta, 0 < delta /\ forall (two : bool) E tol secs dt o f, engine_ok E -> exact E -> 0 < dt < delta ->
    (if two then propogateEntry2 else propogateEntry) E (mkObj V i tol None None) secs dt d = (o, Ok tt) -> ob_flight o = Some f ->
    (forall k m, (k < length (p_t (f_plot f)))%nat -> time_of (vh_planet V) (f_plot f) k <= T -> reads f g k = Some m -> m <= M) /\
    ((exists j, (j < length (p_t (f_plot f)))%nat /\ t0 <= time_of (vh_planet V) (f_plot f) j) ->
     exists k m, (k < length (p_t (f_plot f)))%nat /\ time_of (vh_planet V) (f_plot f) k <= t0 /\ reads f g k = Some m /\ M - eps < m).
Proof.
  intros name V i d T y g t0 M HP Hu HL HA HR HG W (Ht0 & HM & Hmax) PP eps Heps. destruct (truth_near name V i d T y g t0 M HP HL HA HR HG W Ht0 HM PP eps Heps) as (a & Ha & NEAR).
  destruct (ref_facts _ _ HP) as (_ & _ & Ht & _). exists (a * tau (vh_planet V)). split; [apply Rmult_lt_0_compat; auto|]. intros two E tol secs dt o f HE HX Hdt H Hf. set (p := vh_planet V) in *.
  assert (H' : propogateEntry E (mkObj V i tol None None) secs dt d = (o, Ok tt) \/ propogateEntry2 E (mkObj V i tol None None) secs dt d = (o, Ok tt)) by (destruct two; auto).
  destruct (C43_flight_aligned E name (mkObj V i tol None None) secs dt d o HE HP H') as (_ & _ & _ & f2 & h2 & F2 & _ & FA & _ & Tk). assert (f2 = f) by congruence. subst f2.
  destruct FA as (I1 & _ & (Lp & _) & _ & _ & _ & _ & _ & _ & _ & _ & PT).
  assert (TT : forall k, (k < length (p_t (f_plot f)))%nat -> time_of p (f_plot f) k = INR k * dt / tau p).
  { intros k Hk. rewrite Lp in Hk. unfold time_of. f_equal. specialize (PT k Hk). unfold point in PT. rewrite <- (Tk k Hk). apply PT. }
  assert (TP : forall k, (k < length (p_t (f_plot f)))%nat -> 0 <= time_of p (f_plot f) k) by (intros k Hk; rewrite TT by auto; apply Rmult_le_pos; [apply Rmult_le_pos; [apply pos_INR|lra]|left; apply Rinv_0_lt_compat; auto]).
  pose proof (fun k Hk HkT => C128_points two E name V i tol secs dt d o f y T g HE HX HP ltac:(lra) Hu HL W H Hf k Hk HkT) as PTS. fold p in PTS. split.
  - intros k m Hk HkT Hm. rewrite PTS in Hm by auto. apply (Hmax _ _ (conj (TP k Hk) HkT) Hm).
  - intros (j & Hj & Hjt).
    assert (X : exists k, (k <= j)%nat /\ INR k * dt / tau p <= t0 < INR (S k) * dt / tau p \/ (k = j /\ INR k * dt / tau p = t0)).
    { rewrite TT in Hjt by auto. assert (G : forall n, t0 < INR n * dt / tau p -> exists k, (S k <= n)%nat /\ INR k * dt / tau p <= t0 < INR (S k) * dt / tau p).
      { induction n as [|n IH]; intros Hn; [cbn [INR] in Hn; unfold Rdiv in Hn; rewrite !Rmult_0_l in Hn; lra|]. destruct (Rlt_dec t0 (INR n * dt / tau p)) as [L|L]; [destruct (IH L) as (k & A & B); exists k; split; auto|exists n; split; auto; lra]. }
      destruct Hjt as [L|L]; [destruct (G j L) as (k & A & B); exists k; left; split; [lia|auto]|exists j; right; auto]. }
    destruct X as (k & X). assert (Hk : (k <= j)%nat) by (destruct X as [(A & _)|(A & _)]; lia). assert (Hk' : (k < length (p_t (f_plot f)))%nat) by lia.
    assert (B : time_of p (f_plot f) k <= t0 /\ Rabs (time_of p (f_plot f) k - t0) < a).
    { rewrite TT by auto. destruct X as [(_ & A1 & A2)|(_ & ->)]; [|rewrite Rminus_diag_eq, Rabs_R0 by auto; split; lra]. split; auto. rewrite Rabs_left1 by lra.
      rewrite S_INR in A2. assert (dt / tau p < a) by (apply (Rmult_lt_reg_r (tau p)); auto; unfold Rdiv; rewrite Rmult_assoc, Rinv_l, Rmult_1_r by lra; lra). unfold Rdiv in *. lra. }
    destruct B as (B1 & B2). assert (B3 : time_of p (f_plot f) k <= T) by lra. destruct (NEAR _ (conj (TP k Hk') B3) B2) as (m & Hm & Dm). exists k, m. split; auto. split; auto. split; [rewrite PTS by (auto; lra); exact Hm|]. apply Rabs_def2 in Dm. lra.
Qed.
Lemma attains : forall (F : R -> R) T, 0 <= T -> (forall t e, 0 <= t <= T -> 0 < e -> exists a, 0 < a /\ forall s, 0 <= s <= T -> Rabs (s - t) < a -> Rabs (F s - F t) < e) ->
  exists t0, 0 <= t0 <= T /\ forall t, 0 <= t <= T -> F t <= F t0.
Proof.
  intros F T HT C. set (cl := fun t => Rmax 0 (Rmin T t)).
  assert (CL : forall t, 0 <= cl t <= T) by (intros t; unfold cl; split; [apply Rmax_l|apply Rmax_lub; [lra|apply Rmin_l]]).
  assert (CI : forall t, 0 <= t <= T -> cl t = t) by (intros t Ht; unfold cl; rewrite Rmin_right, Rmax_right; lra).
  assert (CD : forall s t, 0 <= t <= T -> Rabs (cl s - t) <= Rabs (s - t)).
  { intros s t Ht. pose proof (Rle_abs (s - t)) as A. pose proof (Rle_abs (- (s - t))) as B. rewrite Rabs_Ropp in B. apply Rabs_le.
    unfold cl, Rmin. destruct (Rle_dec T s); unfold Rmax; match goal with |- context [Rle_dec ?a ?b] => destruct (Rle_dec a b) end; lra. }
  destruct (continuity_ab_maj (fun t => F (cl t)) 0 T HT) as (t0 & M & Ht0).
  - intros t Ht e He. destruct (C t e Ht He) as (a & Ha & H). exists a. split; auto. intros s (_ & Hs). cbn in *. unfold R_dist in *. rewrite (CI t Ht). apply H; [apply CL|]. eapply Rle_lt_trans; [apply CD; auto|auto].
  - exists t0. split; auto. intros t Ht. specialize (M t Ht). cbv beta in M. rewrite !CI in M; auto.
Qed.
(** Every quantity has a peak: heating if the flight is never at a jump of its law, the net load if it is never zero or undefined. *)
Theorem C128_peak_exists : forall name V i d T y g, Planet name = Ok (vh_planet V) -> lipschitz_air (vh_planet V) (vh_atm V) -> some_air (vh_planet V) (vh_atm V) -> 0 < vh_RN V ->
  good_start steepest i -> way V i d T y -> 0 <= T ->
  (g = Heat -> forall t, 0 <= t <= T -> ~ In (Vref (vh_planet V) * s_v (y t)) (heat_breaks (ID (vh_planet V)))) ->
  (g = Load -> forall t, 0 <= t <= T -> exists m, truth V (d * PI / 180) Load (y t) = Some m /\ 0 < m) ->
  exists t0 M, peak V (d * PI / 180) g y T t0 M /\ plain_peak V g (y t0) M.
Proof.
  intros name V i d T y g HP HL HA HR HG W HT NB PL.
  assert (D : forall t, 0 <= t <= T -> exists m, truth V (d * PI / 180) g (y t) = Some m /\ plain_peak V g (y t) m).
  { intros t Ht. destruct g; [|destruct (PL eq_refl t Ht) as (m & Em & Pm); exists m; auto|eexists; split; [reflexivity|exact I]..].
    destruct (law_pieces (ID (vh_planet V)) (vh_RN V) (planet_known _ _ HP) HR) as (P & ix & P1 & P2 & _). pose proof (fast_enough name V i d T y HP HG W t Ht). destruct (ref_facts _ _ HP) as (HV & _).
    destruct W as (_ & _ & I). specialize (I t Ht). unfold in_air in I. eexists. split; [apply P2; [apply HA; lra|apply Rmult_lt_0_compat; auto]|]. apply NB; auto. }
  set (F := fun t => match truth V (d * PI / 180) g (y t) with Some m => m | None => 0 end).
  destruct (attains F T HT) as (t0 & Ht0 & Max).
  - intros t e Ht He. destruct (D t Ht) as (m & Em & Pm). destruct (truth_near name V i d T y g t m HP HL HA HR HG W Ht Em Pm e He) as (a & Ha & H). exists a. split; auto. intros s Hs Hd.
    destruct (H s Hs Hd) as (m' & Em' & Dm). unfold F. rewrite Em, Em'. exact Dm.
  - destruct (D t0 Ht0) as (M & EM & PM). exists t0, M. split; auto. split; auto. split; auto. intros t m Ht Em. specialize (Max t Ht). unfold F in Max. rewrite EM, Em in Max. exact Max.
Qed.
