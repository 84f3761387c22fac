(** A complete drag-modulated guided flight (witness of C58, C59, C74, C75, C76, C77). *)
From Coq Require Import String List ZArith.
Require Import Verif.Base Verif.Numpy Verif.NumpyProofs Verif.PlanetModel Verif.PlanetProofs Verif.AeroModel Verif.FlightProofs Verif.HeatModel Verif.TrajectoryModel Verif.TrajectorySpec
  Verif.TrajectoryProofs Verif.PropTrajectory Verif.OrbitScalarModel Verif.OrbiterModel Verif.OrbitModel Verif.CorridorModel Verif.PropCorridor
  Verif.GuidanceModel Verif.GuidanceSpec Verif.GuidanceProofs Verif.PropControl Verif.PropGuidance Verif.PropGuidanceEx Verif.DragModel Verif.PropDrag.
Local Open Scope R_scope.

Lemma two_list : forall l : list R, length l = 2%nat -> l <> []. Proof. intros l E Z. rewrite Z in E. discriminate. Qed.
Example C76_witness : exists X o' s s' rep, engine_ok (brake 1) /\
  propogateGuidedEntryD false (brake 1) X (Some (50, 4)) (glide_params 5) 1 1 1 600 5 (mkObj glider (mkInit 179.4 0 0 11 0 0 0 0) 1 None None) [] = Some (o', Ok (s, s', rep)) /\
  length (a_t (s_arr s')) = 3%nat /\ vh_CD (ob_veh (s_obj s)) = 4 * vh_CD (ob_veh o') /\ vh_CD (ob_veh o') = 1 / 3.
Proof.
  set (X := mkGext (fun o _ _ => (o, Err ValueError)) (fun _ _ _ => 0)). set (P := glide_params 5). set (i := mkInit 179.4 0 0 11 0 0 0 0).
  set (W := ballistic glider 50).
  assert (HP : Planet "VENUS"%string = Ok (vh_planet W)) by reflexivity.
  assert (Hh : h_trap (vh_planet W) <= 179.4 * 1e3 < h_skip (vh_planet W)) by (cbn; lra).
  assert (SB : set_ballistic (mkObj glider i 1 None None) 50 = (mkObj W i 1 None None, Ok tt)).
  { unfold set_ballistic, W. cbn [ob_veh set_veh]. destruct (Reqb_spec (50 * vh_A (with_beta glider 50)) 0) as [Hx|Hx]; [exfalso; cbn in Hx; lra|]. reflexivity. }
  destruct (brake_start 1 X "VENUS"%string W 179.4 11 i 1 [] ltac:(lra) HP Hh eq_refl eq_refl eq_refl) as (o1 & s0 & H0 & L0 & V0 & A0).
  destruct L0 as (L1 & L2 & L3 & L4 & _).
  set (oa := restarted s0 (cur_heat s0)).
  destruct (brake_second 1 X "VENUS"%string oa 0) as (f & ht & Ep & F1 & F2 & F3 & F4 & F5 & F6).
  { unfold oa. cbn [restarted set_init ob_veh]. rewrite L1. auto. }
  { unfold oa. cbn [restarted set_init ob_veh ob_init last_init h0_km]. rewrite L1, L2. exact Hh. }
  assert (B : exists s1, d_step false (brake 1) X (50, 4) P 1 1 600 s0 = (s1, Ok true) /\ ob_veh (s_obj s1) = W /\ last (p_h (y_plot (s_hist s1))) 0 = 179.4).
  { assert (Z : 1 * 11 * 1e3 * sin (deg 0) = 0) by (unfold deg; replace (0 * (PI / 180)) with 0 by ring; replace (0 * PI / 180) with 0 by (field; apply PI_neq0); rewrite ?sin_0; lra).
    unfold d_step. cbv zeta. change (set_init (s_obj s0) (last_init (y_plot (s_hist s0)) match ob_heat (s_obj s0) with Some l => last l None | None => None end)) with oa.
    rewrite Ep. unfold results. cbn [ob_flight ob_heat]. rewrite L3, L4, Z. cbn [P glide_params g_hdotthr]. fold P. destruct (Rltb_spec 0 0) as [Hx|Hx]; [exfalso; lra|].
    assert (El : last (p_h (y_plot (hist_app (s_hist s0) f ht))) 0 = 179.4).
    { cbn [hist_app y_plot p_h]. rewrite last_app2 by (apply two_list; auto). rewrite F1. unfold oa. cbn. exact L2. }
    eexists. split; [|split].
    - rewrite El, L1. unfold d_break. cbn [W ballistic vh_planet with_CD with_beta glider VENUS h_skip]. destruct (Rltb_spec (180000 / 1000 - 1) 179.4) as [Hy|Hy]; [|exfalso; lra]. rewrite Bool.orb_true_r. reflexivity.
    - cbn [s_obj ob_veh]. unfold oa. cbn [restarted set_init ob_veh]. auto.
    - exact El. }
  destruct B as (s1 & B1 & B2 & B3).
  assert (W1 : while_loop (eg_guard P) (d_step false (brake 1) X (50, 4) P 1 1 600) 5 s0 = Some (s1, Ok tt)).
  { cbn [while_loop]. unfold eg_guard at 1. rewrite V0. cbn [P glide_params g_vswitch]. fold P. destruct (Rltb_spec 5 (1 * 11)) as [Hx|Hx]; [|exfalso; lra]. rewrite B1. reflexivity. }
  set (V2 := ballistic W (50 * 4)).
  assert (SB2 : set_ballistic (s_obj s1) (50 * 4) = (set_veh (s_obj s1) V2, Ok tt)).
  { unfold set_ballistic. rewrite B2. destruct (Reqb_spec (50 * 4 * vh_A (with_beta W (50 * 4))) 0) as [Hx|Hx]; [exfalso; cbn in Hx; lra|]. unfold V2. unfold ballistic. cbn [set_veh ob_veh]. reflexivity. }
  set (ob := set_init (set_veh (s_obj s1) V2) (last_init (y_plot (s_hist s1)) (last (y_heat (s_hist s1)) None))).
  destruct (brake_second 1 X "VENUS"%string ob 0) as (f2 & ht2 & Ep2 & G1 & _).
  { reflexivity. }
  { unfold ob. cbn [set_init set_veh ob_veh ob_init last_init h0_km]. rewrite B3. exact Hh. }
  assert (EX : exists s2, dexit_step false (brake 1) X 1 1 (last (a_hdot (s_arr s1)) 0) (last (y_heat (s_hist s1)) None) (exit_start (set_obj s1 (set_veh (s_obj s1) V2))) = (s2, Ok true) /\ ob_veh (s_obj s2) = V2).
  { unfold dexit_step, exit_start, set_obj. cbn [s_obj s_arr s_hist s_dens s_delta s_vcur s_hcur]. fold ob. rewrite Ep2. unfold results. cbn [ob_flight ob_heat set_veh ob_veh].
    rewrite B3. cbn [V2 W ballistic vh_planet with_CD with_beta glider VENUS h_skip]. destruct (Rltb_spec (180000 - 1e3) (179.4 * 1e3)) as [Hx|Hx]; [|exfalso; lra]. eexists. split; reflexivity. }
  destruct EX as (s2 & EX & EV).
  assert (W2 : while_loop exit_guard (dexit_step false (brake 1) X 1 1 (last (a_hdot (s_arr s1)) 0) (last (y_heat (s_hist s1)) None)) 5 (exit_start (set_obj s1 (set_veh (s_obj s1) V2))) = Some (s2, Ok tt)).
  { cbn [while_loop]. rewrite EX. unfold exit_guard. cbn [exit_start set_obj s_hcur s_obj s_hist ob_veh set_veh]. rewrite B3. cbn [V2 W ballistic vh_planet with_CD with_beta glider VENUS h_skip].
    destruct (Rltb_spec 179.4 (180000 / 1e3)) as [Hx|Hx]; [reflexivity|exfalso; lra]. }
  exists X. do 4 eexists. split; [apply brake_ok|]. split; [|split; [|split]].
  - unfold propogateGuidedEntryD, propogateEntryPhaseD. cbn [fst]. fold i P. rewrite SB, H0, W1. unfold propogateExitPhaseD. rewrite SB2, W2. reflexivity.
  - destruct (dexit_step_any _ _ _ _ _ _ _ _ _ _ EX) as (_ & [(_ & _ & e & He)|(t & hd & EA2)]); [discriminate|]. rewrite EA2. cbn [steps_app_exit a_t exit_start set_obj s_arr].
    destruct (d_step_inv _ _ _ _ _ _ _ _ _ _ _ B1) as (f' & heat & apo & _ & _ & _ & _ & EA & _). rewrite EA. cbn [steps_app_d a_t]. rewrite A0. cbn [steps0 a_t]. rewrite !app_length. reflexivity.
  - rewrite B2, EV. cbn. lra.
  - rewrite EV. cbn. lra.
Qed.
