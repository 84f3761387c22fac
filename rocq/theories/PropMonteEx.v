(** A concrete Monte Carlo campaign (witness of C63, C64, C65, C78, C79). *)
From Coq Require Import String List ZArith.
Require Import Verif.Base Verif.Numpy Verif.NumpyProofs Verif.PlanetModel Verif.PlanetProofs Verif.AeroModel Verif.FlightProofs Verif.HeatModel Verif.TrajectoryModel Verif.TrajectorySpec
  Verif.TrajectoryProofs Verif.PropTrajectory Verif.OrbitScalarModel Verif.OrbiterModel Verif.OrbitModel Verif.CorridorModel Verif.PropCorridor
  Verif.GuidanceModel Verif.GuidanceSpec Verif.GuidanceProofs Verif.PropControl Verif.PropGuidance Verif.PropGuidanceEx Verif.DragModel Verif.PropDrag
  Verif.MonteModel Verif.MonteSpec Verif.MonteProofs Verif.PropMonte.
Local Open Scope R_scope.
Local Open Scope list_scope.

Definition no_nan : gext := mkGext (fun o _ _ => (o, Err ValueError)) (fun _ _ _ => 0).
(** The guided entry of C59_witness, in any atmosphere with a density at the start. *)
Lemma short_flight : forall f, f (179 * 1e3) <> 0 -> exists o' s s' rep,
  propogateGuidedEntry false (brake 1) no_nan (glide_params 5) 1 1 600 5 (mkObj (with_density glider f) (mkInit 179 0 0 11 0 0 0 0) 1 None None) [] = Some (o', Ok (s, s', rep)).
Proof.
  intros f Hf. set (X := no_nan). set (P := glide_params 5). set (i := mkInit 179 0 0 11 0 0 0 0). set (V := with_density glider f).
  assert (EV : vh_planet V = VENUS) by reflexivity.
  assert (HL : lifting "VENUS" V 179).
  { split; [reflexivity|]. split; [cbn; lra|]. split; [lra|]. split; [|rewrite EV; cbn [VENUS h_trap h_skip]; lra].
    rewrite EV. change (density_int (vh_atm V)) with f. unfold density. cbn [VENUS h_thres]. rcases; auto; lra. }
  pose proof HL as (HP & _ & _ & _ & Hh).
  destruct (brake_start 1 X "VENUS"%string V 179 11 i 1 [] ltac:(lra) HP Hh eq_refl eq_refl eq_refl) as (o1 & s0 & H0 & L0 & V0 & A0).
  destruct (brake_cycle 1 X P "VENUS"%string V 179 600 (1 * 11) s0 ltac:(lra) HL ltac:(lra) L0) as (s1 & b & B1 & L1 & Hb1); [cbn; lra|cbn [glide_params P g_apotol g_apo]; rewrite Rabs_right; lra|].
  assert (b = true) by (apply Hb1; rewrite EV; cbn [VENUS h_skip]; lra). subst b.
  destruct (eg_step_inv _ _ _ _ _ _ _ _ _ _ B1) as (qref & f1 & heat & apo & _ & _ & _ & _ & _ & EA & _).
  destruct L1 as (L11 & L12 & L13 & L14 & L15). destruct (s_delta s1) as [d1|] eqn:E1; [|congruence].
  assert (Ed : last (a_delta (s_arr s1)) None = Some d1) by (rewrite EA; cbn [steps_app a_delta]; apply last_last).
  set (o := set_init (s_obj s1) (last_init (y_plot (s_hist s1)) (last (y_heat (s_hist s1)) None))).
  destruct (brake_second 1 X "VENUS"%string o (psuedoController (g_rate P) 0 d1 1)) as (f2 & ht2 & Ep & F1 & F2 & F3 & _).
  { unfold o. cbn [set_init ob_veh]. rewrite L11. auto. }
  { unfold o. cbn [set_init ob_veh ob_init last_init h0_km]. rewrite L11, L12. exact Hh. }
  assert (EX : exists s2, exit_step false (brake 1) X P 1 1 (last (a_hdot (s_arr s1)) 0) (last (y_heat (s_hist s1)) None) (exit_start s1) = (s2, Ok true)).
  { unfold exit_step, exit_start. cbn [s_obj s_arr s_hist s_dens s_delta s_vcur s_hcur]. rewrite Ed. unfold controller. cbn [obind]. fold o. rewrite Ep. unfold results. cbn [ob_flight ob_heat].
    rewrite L11, L12, EV. cbn [VENUS h_skip]. destruct (Rltb_spec (180000 - 10e3) (179 * 1e3)) as [Hx|Hx]; [|exfalso; lra]. eexists. reflexivity. }
  destruct EX as (s2 & EX).
  assert (W1 : while_loop (eg_guard P) (eg_step false (brake 1) X P 1 1 600) 5 s0 = Some (s1, Ok tt)).
  { cbn [while_loop]. unfold eg_guard at 1. rewrite V0. cbn [P glide_params g_vswitch]. fold P. destruct (Rltb_spec 5 (1 * 11)) as [Hx|Hx]; [|exfalso; lra]. rewrite B1. reflexivity. }
  assert (W2 : while_loop exit_guard (exit_step false (brake 1) X P 1 1 (last (a_hdot (s_arr s1)) 0) (last (y_heat (s_hist s1)) None)) 5 (exit_start s1) = Some (s2, Ok tt)).
  { cbn [while_loop]. unfold exit_guard at 1. cbn [exit_start s_hcur s_obj]. fold (exit_start s1). rewrite L11, L12, EV. cbn [VENUS h_skip]. destruct (Rltb_spec 179 (180000 / 1e3)) as [Hx|Hx]; [|exfalso; lra]. rewrite EX. reflexivity. }
  do 4 eexists. unfold propogateGuidedEntry, propogateEquilibriumGlide. fold i P. rewrite H0, W1. unfold propogateExitPhase. rewrite W2. reflexivity.
Qed.

(** Two rows, heights in km, of a constant atmosphere. *)
Definition some_table : list (list R) := [[0; 0.001; 0.001; 0.001; 0.001]; [200; 0.001; 0.001; 0.001; 0.001]].
Definition some_world : world := mkWorld (brake 1) no_nan (glide_params 5) None (fun _ => Ok some_table) 5.
Definition some_setup (LD : R * R) : mc_setup :=
  setupMonteCarloSimulation (mkObj glider (mkInit 179 0 0 11 0 0 0 0) 1 None None) 2 1 ["atm.txt"%string] 0 1 2 3 4 true (0, 0) LD 1 1 600 1.
Definition some_random (z : R) : random := mkRandom (fun _ => 0%nat) (fun j => if Nat.eqb (j mod 3) 2 then z else 0).
Lemma some_runs : forall LD z i, 0 <= snd LD -> exists x, flown_alone MC some_world (some_setup LD) (some_random z) glider 1 i = Some (Ok x).
Proof.
  intros LD z i HL. unfold flown_alone, mc_run.
  assert (N0 : nz (some_random z) (3 * i) = 0).
  { cbn [some_random nz]. replace (3 * i)%nat with (0 + i * 3)%nat by lia. rewrite Nat.mod_add by lia. reflexivity. }
  assert (N1 : nz (some_random z) (3 * i + 1) = 0).
  { cbn [some_random nz]. replace (3 * i + 1)%nat with (1 + i * 3)%nat by lia. rewrite Nat.mod_add by lia. reflexivity. }
  assert (D : exists l, draws MC (some_setup LD) (some_random z) i = Ok (mkDraw "atm.txt" 1 0 0 l)).
  { unfold draws. change (is_drag MC) with false. cbv iota. cbn [some_setup setupMonteCarloSimulation mc_files mc_nmonte mc_efpa mc_LD mc_sigma]. rewrite N0, N1.
    change (choice ["atm.txt"%string] (py (some_random z) (2 * i))) with (Ok "atm.txt"%string). change (randint1 1 (py (some_random z) (2 * i + 1))) with (Ok 1%nat). cbn [rbind].
    unfold normal. cbn [fst snd]. destruct (Rltb_spec 0 0); [exfalso; lra|]. destruct (Rltb_spec 1 0); [exfalso; lra|]. destruct (Rltb_spec (snd LD) 0); [exfalso; lra|]. cbn [rbind]. replace (0 + 0 * 0) with 0 by ring. replace (0 + 1 * 0) with 0 by ring. eauto. }
  destruct D as (l & ->).
  assert (LA : exists f, load_density false (some_setup LD) (w_load some_world) (mkDraw "atm.txt" 1 0 0 l) = Ok f /\ f (179 * 1e3) <> 0).
  { unfold load_density, load_rows. cbn [some_world w_load rbind some_table length Nat.leb forallb andb collect entry nth_error some_setup setupMonteCarloSimulation mc_npos mc_km col_height col_low col_avg col_high col_total d_file d_sigma d_profile].
    unfold loadAtmosphereModel5, mc_block. cbn [Nat.sub Nat.mul skipn firstn map mc_row_file2 mc_h mc_density5 mc_avg mc_low mc_high mc_pert].
    assert (ER : forall h, interp1d [(0 * 1e3, mc_density5 0 (mc_row_file2 true 0 0.001 0.001 0.001 0.001)); (200 * 1e3, mc_density5 0 (mc_row_file2 true 200 0.001 0.001 0.001 0.001))] 0 0 h = Ok (if Rltb h 0 then 0 else if Rltb 200000 h then 0 else 0.001)).
    { intros h. unfold mc_density5, pSigmaFunc, nSigmaFunc. cbn [mc_row_file2 mc_avg mc_low mc_high mc_pert]. unfold interp1d. cbn [sort_rows insert_row fst]. destruct (Rleb_spec (0 * 1e3) (200 * 1e3)); [|exfalso; lra]. unfold last_x. cbn [last fst interp_sorted].
      f_equal. rcases; try lra; try (exfalso; lra). }
    unfold mc_density5 in *. cbn [mc_row_file2 mc_avg mc_low mc_high mc_pert] in *. rewrite ER. cbn [rbind]. eexists. split; [reflexivity|]. cbn beta. rewrite ER. rcases; lra. }
  destruct LA as (f & -> & Hf). change (is_drag MC) with false. cbv iota. cbn [some_world w_E w_X w_P w_fuel some_setup setupMonteCarloSimulation mc_copy mc_stepEntry mc_dt mc_maxTime v_obj v_href ob_veh ob_tol ob_init ob_flight ob_heat d_efpa h0_km theta0_deg phi0_deg v0_kms psi0_deg drange0_km heatLoad0 is_two].
  destruct (short_flight f Hf) as (o' & s & s' & rep & EP). rewrite EP. cbn [snd].
  assert (NO : nan_ok no_nan) by (intros ? ? ? ? Hx; discriminate).
  pose proof (fun H => C59_times false (brake 1) no_nan (glide_params 5) "VENUS"%string 1 1 600 5 _ _ _ _ _ _ (brake_ok 1) NO Rlt_0_1 H EP) as CT. cbn [ob_veh] in CT. destruct (CT eq_refl) as (_ & _ & n & n' & (PL & _) & HL' & Hnn).
  assert (NZ : (0 < n')%nat).
  { enough ((0 < n)%nat) by lia. destruct PL as (PT & _). rewrite <- PT. clear -EP.
    unfold propogateGuidedEntry in EP. destruct (propogateEquilibriumGlide false (brake 1) no_nan (glide_params 5) 1 1 600 5 _ []) as [[o1 [s1|]]|] eqn:E; try discriminate. destruct (propogateExitPhase _ _ _ _ _ _ _ _) as [[s2 [r|]]|]; try discriminate. injection EP as _ <- _ _.
    assert (timed "VENUS" s1) as (_ & T) by (eapply (timed_glide false (brake 1) no_nan (glide_params 5) "VENUS"%string); [apply brake_ok|intros ? ? ? ? Hx; discriminate|exact Rlt_0_1| |exact E]; reflexivity).
    destruct T as ((nn & nd & ((PTT & _) & _) & Hn) & _). lia. }
  destruct HL' as (_ & LN & _ & _ & _ & LQ & LH).
  unfold mc_read, pymax. destruct (y_net (s_hist s')) as [|a1 l1]; [cbn in LN; lia|]. destruct (y_qtot (s_hist s')) as [|a2 l2]; [cbn in LQ; lia|]. destruct (y_heat (s_hist s')) as [|a3 l3]; [cbn in LH; lia|]. cbn [rbind]. eauto.
Qed.
Definition only_root : fs := fun p => match p with [] => Some Dir | _ => None end.
Lemma root_sane : sane only_root. Proof. intros [|x p] r H; [discriminate|reflexivity]. Qed.
(** Two runs, ending normally; and the same with other draws for LD, where LD.txt differs. *)
Example C63_witness : exists s st st', nan_keeps (w_X some_world) /\ sane only_root /\ only_root ["out"%string] = None /\
  same_but_third (some_random 0) (some_random 1) /\
  runMonteCarlo MC some_world (some_setup (0.3, 0.1)) (some_random 0) 2 ["out"%string] s only_root = (st, Some (Ok tt)) /\
  runMonteCarlo MC some_world (some_setup (0.3, 0.1)) (some_random 1) 2 ["out"%string] s only_root = (st', Some (Ok tt)) /\
  k_fs st (["out"; "#2"; "LD.txt"]%string) = Some (File (Nums [Some 0.3])) /\ k_fs st' (["out"; "#2"; "LD.txt"]%string) = Some (File (Nums [Some 0.4])) /\
  k_fs st (["out"; "#2"; "efpa.txt"]%string) = Some (File (Nums [Some 0])) /\ k_fs st (["out"; "#3"]%string) = None.
Proof.
  set (s := mkMem (mkObj glider (mkInit 0 0 0 0 0 0 0 0) 1 None None) []). exists s.
  assert (NK : nan_keeps (w_X some_world)) by (intros ? ? ? ? Hx; discriminate).
  assert (G : forall z, exists st xs, runMonteCarlo MC some_world (some_setup (0.3, 0.1)) (some_random z) 2 ["out"%string] s only_root = (st, Some (Ok tt)) /\ length xs = 2%nat /\
    (forall j x, nth_error xs j = Some x -> flown_alone MC some_world (some_setup (0.3, 0.1)) (some_random z) glider 1 j = Some (Ok x) /\ stored (k_fs st) ["out"%string] j x) /\
    (forall j r, (2 <= j)%nat -> k_fs st (folder ["out"%string] j ++ r) = None)).
  { intros z. destruct (runMonteCarlo MC some_world (some_setup (0.3, 0.1)) (some_random z) 2 ["out"%string] s only_root) as [st out] eqn:ER.
    destruct (C63_runs_as_if_alone MC some_world (some_setup (0.3, 0.1)) (some_random z) 2 ["out"%string] s only_root st out) as (xs & L & A & B & D & C); auto; [discriminate|apply root_sane| |].
    { intros [|x t1] t2 E; [right; reflexivity|left; reflexivity]. }
    destruct out as [[[]|e]|].
    - exists st, xs. rewrite C in B. auto.
    - destruct C as (_ & C). destruct (some_runs (0.3, 0.1) z (length xs) ltac:(cbn; lra)) as (x & Hx). cbn [s v_obj ob_veh ob_tol] in C. congruence.
    - destruct C as (_ & C). destruct (some_runs (0.3, 0.1) z (length xs) ltac:(cbn; lra)) as (x & Hx). cbn [s v_obj ob_veh ob_tol] in C. congruence. }
  destruct (G 0) as (st & xs & R & L & A & B). destruct (G 1) as (st' & xs' & R' & L' & A' & B'). exists st, st'.
  split; auto. split; [apply root_sane|]. split; auto. split.
  { split; [reflexivity|]. intros i k Hk. cbn [some_random nz]. replace (3 * i + k)%nat with (k + i * 3)%nat by lia. rewrite Nat.mod_add by lia. destruct k as [|[|k]]; [reflexivity|reflexivity|lia]. }
  split; auto. split; auto.
  destruct xs as [|x1 [|[d q] [|]]]; try discriminate. destruct xs' as [|x1' [|[d' q'] [|]]]; try discriminate.
  destruct (A 1%nat (d, q) eq_refl) as (F1 & S1 & S2). destruct (A' 1%nat (d', q') eq_refl) as (F1' & S1' & S2').
  pose proof (C64_LD_recorded _ _ _ _ _ _ _ _ _ F1) as E1. pose proof (C64_LD_recorded _ _ _ _ _ _ _ _ _ F1') as E1'. cbn [is_drag] in E1, E1'.
  destruct (C78_draws_in_range _ _ _ _ _ _ _ _ _ F1) as (_ & _ & E2 & _).
  cbn [some_setup setupMonteCarloSimulation mc_LD fst snd some_random nz Nat.eqb Nat.mul Nat.add Nat.modulo] in E1, E1'. cbn in E1, E1', E2. 
  split; [|split; [|split]].
  - transitivity (Some (File (Nums [Some (d_LD d)]))); [apply (S2 "LD.txt"%string); cbn; tauto|]. replace (d_LD d) with 0.3 by (rewrite E1; lra). reflexivity.
  - transitivity (Some (File (Nums [Some (d_LD d')]))); [apply (S2' "LD.txt"%string); cbn; tauto|]. replace (d_LD d') with 0.4 by (rewrite E1'; lra). reflexivity.
  - transitivity (Some (File (Nums [Some (d_efpa d)]))); [apply (S2 "efpa.txt"%string); cbn; tauto|]. replace (d_efpa d) with 0 by (rewrite E2; lra). reflexivity.
  - apply (B 2%nat []). lia.
Qed.
