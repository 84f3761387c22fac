(** C132, continued: with an exact integrator a flight from the top of the atmosphere is flown and stored. *)
From Coq Require Import String List Reals Lra Lia.
Require Import Verif.Base Verif.Numpy Verif.NumpyProofs Verif.PlanetModel Verif.PlanetProofs Verif.AeroModel Verif.HeatModel Verif.TrajectoryModel Verif.TrajectorySpec Verif.TrajectoryProofs Verif.FlightProofs Verif.PropFlight
  Verif.ExactSpec Verif.ExactProofs Verif.PropExact Verif.DetSpec Verif.DetProofs Verif.NearSpec Verif.NearProofs Verif.ExistSpec Verif.ExistProofs Verif.PropExist Verif.ExitSpec Verif.ExitProofs Verif.EnterProofs Verif.PropEnter Verif.PropExit Verif.PropTrap Verif.PropExitRun.
Require Verif.PropRoundGrid.
Import ListNotations.
Local Open Scope R_scope.

(** Both versions of the call succeed on every passage above the trap altitude, and every point they store is the state of the passage at its time.
    (The second version raises ValueError when the initial heat load is not zero: C43.) *)
Theorem C132_flown : exists E, engine_ok E /\ exact E /\
  forall (two : bool) name V i d T y, Planet name = Ok (vh_planet V) -> vh_user V = false -> lipschitz_air (vh_planet V) (vh_atm V) -> (two = true -> heatLoad0 i = 0) -> passage V i d T y -> (forall t, 0 <= t <= T -> h_trap (vh_planet V) < height (vh_planet V) (y t)) ->
  forall tol secs dt, 0 < dt -> 0 <= secs -> secs + dt <= tau (vh_planet V) * T ->
    exists o f h, (if two then propogateEntry2 else propogateEntry) E (mkObj V i tol None None) secs dt d = (o, Ok tt) /\ ob_flight o = Some f /\ ob_heat o = Some h /\
      forall k, (k < length (p_t (f_plot f)))%nat -> time_of (vh_planet V) (f_plot f) k <= T -> shows (vh_planet V) (f_plot f) k (y (time_of (vh_planet V) (f_plot f) k)).
Proof.
  destruct C132_ideal as (E & HE & HX & ID). exists E. split; auto. split; auto. intros two name V i d T y HP Hu HL H2 W UP tol secs dt Hdt Hsec Hend.
  destruct (ref_facts _ _ HP) as (_ & _ & Ht & _ & HR & _). destruct (Planet_facts _ _ HP) as (_ & _ & _ & _ & (Ht0 & Hts) & Hthr & _). set (p := vh_planet V) in *.
  destruct (ID name V i d T y tol secs dt HP Hu HL Hdt Hsec W Hend) as (ts & Ea & Hne & S1 & S2). fold p in Ea, S1, S2.
  destruct (arange_inv _ _ _ Ea) as (La & Na). assert (Hst : 0 < dt / tau p) by (apply Rdiv_lt_0_compat; lra).
  assert (Lt : forall t, In t ts -> 0 <= t <= T).
  { intros t Hin. apply (In_nth _ _ 0) in Hin. destruct Hin as (k & Hk & <-). rewrite Na by auto. pose proof (pos_INR k). split; [apply Rmult_le_pos; lra|].
    assert (Hq : 0 < (secs + dt) / tau p / (dt / tau p)) by (apply Rdiv_lt_0_compat; [apply Rdiv_lt_0_compat; lra|auto]). pose proof (PropRoundGrid.ceil_between _ ltac:(exact (Rlt_le _ _ Hq))) as (C1 & C2). rewrite <- La in C1, C2.
    assert (Eq : (secs + dt) / tau p / (dt / tau p) * dt = secs + dt) by (field; lra). assert (INR k + 1 <= INR (length ts)) by (rewrite <- S_INR; apply le_INR; lia).
    apply (Rmult_le_reg_l (tau p)); auto. replace (tau p * (INR k * (dt / tau p))) with (INR k * dt) by (field; lra). nra. }
  assert (HT : 0 <= T) by (destruct ts as [|t0 l]; [congruence|specialize (Lt t0 (or_introl eq_refl)); lra]).
  assert (SR : exists f h, store (mkObj V i tol None None) (fly ((if two then solveTrajectory2 else solveTrajectory) E) V tol i secs dt d) 0 = (mkObj V i tol (Some f) (Some h), Ok tt)).
  { apply (sampled_run_gen _ name V i tol d ts (map y ts) secs dt None None HP Hne (map_length _ _)).
    - fold p. destruct ts as [|t0 ts']; [congruence|]. cbn [map nth]. pose proof (Na 0%nat ltac:(cbn; lia)) as N0. cbn in N0. replace t0 with 0 by lra. specialize (UP 0 ltac:(lra)). destruct W as (_ & _ & I). pose proof (inside_height p y 0 ltac:(lra) (I 0 ltac:(lra))). lra.
    - left. fold p. intros x Hx. apply in_map_iff in Hx. destruct Hx as (t & <- & Hin). apply UP. auto.
    - destruct two; [exact S2|exact S1]. }
  destruct SR as (f & h & ST). exists (mkObj V i tol (Some f) (Some h)), f, h.
  assert (P : (if two then propogateEntry2 else propogateEntry) E (mkObj V i tol None None) secs dt d = (mkObj V i tol (Some f) (Some h), Ok tt)) by (destruct two; [unfold propogateEntry2; cbn [ob_veh ob_tol ob_init]; rewrite (H2 eq_refl)|]; exact ST). do 3 (split; [first [exact P|reflexivity]|]).
  exact (C132_on_the_way two E name V i tol secs dt d _ f y T HE HX HP Hdt Hu HL W P eq_refl).
Qed.
