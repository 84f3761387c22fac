(** C116, continued: concrete sessions with campaigns. *)
From Coq Require Import String List ZArith.
Require Import Verif.Base Verif.Numpy Verif.PlanetModel Verif.AeroModel Verif.HeatModel Verif.TrajectoryModel Verif.TrajectoryProofs Verif.OrbitScalarModel Verif.OrbiterModel Verif.OrbitModel Verif.CorridorModel Verif.PropCorridor
  Verif.GuidanceModel Verif.GuidanceProofs Verif.PropControl Verif.PropGuidance Verif.PropGuidanceEx Verif.DragModel Verif.PropDrag
  Verif.MonteModel Verif.MonteSpec Verif.MonteProofs Verif.PropMonte Verif.PropMonteEx
  Verif.SessionModel Verif.SessionSpec Verif.GuidedModel Verif.GuidedSpec Verif.CampaignModel Verif.CampaignSpec Verif.PropCampaign.
Local Open Scope R_scope.
Local Open Scope list_scope.

Definition some_lift_setup : creq := SetupMonteCarloSimulation 2 1 ["atm.txt"%string] 0 1 2 3 4 true (0, 0) (0.3, 0.1) 1 1 600 1.
(** A session that flies two samples; and a new vehicle with a lift setup only, for which a drag run is not prepared. *)
Example C116_witness : forall i0 fl ht hr, nan_keeps no_nan /\
  (let s := mkCS (mkGS (mkSess (mkObj glider i0 1 fl ht) None) (glide_params 5) hr) no_attrs only_root in
   let k := mkCK (mkKnown glider (Some i0) 1 None (glide_params 5)) true in
   cholds k s /\
   exists s', crun (brake 1) no_nan (fun _ => Ok some_table) 5
      [Guided (Plain (SetInitialState (mkInit 179 0 0 11 0 0 0 0))); some_lift_setup; RunMonteCarlo MC 2 ["out"%string] (some_random 0)] s =
      Some (s', [Ok (GAnswer (Answer Nothing)); Ok Done; Ok Done]) /\
    cs_fs s' ["out"; "#2"]%string = Some Dir /\ exists s1 answers, crun (brake 1) no_nan (fun _ => Ok some_table) 5 [some_lift_setup] s = Some (s1, answers)) /\
  ~ prepared MCD [some_lift_setup] /\ prepared MC [some_lift_setup] /\ exists l, makedirs only_root ["out"%string] = Ok l.
Proof.
  intros i0 fl ht hr. assert (NK : nan_keeps no_nan) by (intros ? ? ? ? Hx; discriminate). split; [exact NK|]. split; [|split; [|split]].
  - cbv zeta. split; [unfold cholds, holds; cbn; auto|].
    set (i := mkInit 179 0 0 11 0 0 0 0). set (s := mkMem (mkObj glider i 1 fl ht) hr).
    assert (R : exists st, runMonteCarlo MC some_world (some_setup (0.3, 0.1)) (some_random 0) 2 ["out"%string] s only_root = (st, Some (Ok tt)) /\ k_fs st ["out"; "#2"]%string = Some Dir).
    { destruct (runMonteCarlo MC some_world (some_setup (0.3, 0.1)) (some_random 0) 2 ["out"%string] s only_root) as [st out] eqn:ER.
      destruct (C63_runs_as_if_alone MC some_world (some_setup (0.3, 0.1)) (some_random 0) 2 ["out"%string] s only_root st out) as (xs & L & A & B & D & C); auto; [discriminate|apply root_sane| |].
      { intros [|x t1] t2 E; [right; reflexivity|left; reflexivity]. }
      destruct out as [[[]|e]|].
      - exists st. split; [reflexivity|]. destruct xs as [|x1 [|x2 [|]]]; try discriminate. destruct (A 1%nat x2 eq_refl) as (_ & S1 & _). exact S1.
      - destruct C as (_ & C). destruct (some_runs (0.3, 0.1) 0 (length xs) ltac:(cbn; lra)) as (x & Hx). cbn [s v_obj ob_veh ob_tol] in C. congruence.
      - destruct C as (_ & C). destruct (some_runs (0.3, 0.1) 0 (length xs) ltac:(cbn; lra)) as (x & Hx). cbn [s v_obj ob_veh ob_tol] in C. congruence. }
    destruct R as (st & R & D). eexists. split; [|split].
    + cbn [crun cserve gserve serve some_lift_setup rmap cs_g cs_at cs_fs gs_sess gs_P gs_href se_obj se_dm ob_veh ob_init ob_tol ob_flight ob_heat no_attrs at_shared at_lowhigh at_sd at_lift at_drag]. fold i. fold s.
      unfold run_campaign. cbn [setup_for at_shared at_lowhigh at_lift sh_npos sh_nmonte sh_files sh_height sh_avg sh_total sh_km sh_efpa sh_copy sh_dt sh_maxTime fst snd].
      match goal with |- context [runMonteCarlo MC ?w ?u ?r ?n ?p s only_root] => change (runMonteCarlo MC w u r n p s only_root) with (runMonteCarlo MC some_world (some_setup (0.3, 0.1)) r n p s only_root) end.
      rewrite R. cbn [rmap]. reflexivity.
    + cbn [cs_fs]. exact D.
    + do 2 eexists. reflexivity.
  - intros [(c & [<-|[]] & H)|(_ & c & [<-|[]] & H)]; discriminate.
  - exists some_lift_setup. split; [left; reflexivity|reflexivity].
  - eexists. reflexivity.
Qed.
(** A drag run after a lift setup: it draws and loads its sample, moves the entry point, and raises. *)
Example C116_wrong_setup_witness : forall i0 fl ht hr,
  let s := mkCS (mkGS (mkSess (mkObj glider i0 1 fl ht) None) (glide_params 5) hr) no_attrs only_root in
  exists s1 U l d g,
    crun (brake 1) no_nan (fun _ => Ok some_table) 5 [some_lift_setup; Guided (Plain (SetInitialState (mkInit 179 0 0 11 0 0 0 0)))] s = Some (s1, [Ok Done; Ok (GAnswer (Answer Nothing))]) /\
    settings_of some_lift_setup (se_obj (gs_sess (cs_g s))) = Some U /\ Lift <> own MCD /\ makedirs (cs_fs s1) ["out"%string] = Ok l /\
    draws MCD U (some_random 0) 0 = Ok d /\ load_density false U (fun _ => Ok some_table) d = Ok g.
Proof.
  intros i0 fl ht hr s. assert (D : exists U, settings_of some_lift_setup (se_obj (gs_sess (cs_g s))) = Some U) by (eexists; reflexivity). destruct D as (U & HU).
  assert (DR : draws MCD U (some_random 0) 0 = Ok (mkDraw "atm.txt" 1 0 0 0)).
  { injection HU as <-. unfold draws. cbn [is_drag setupMonteCarloSimulation mc_files mc_nmonte mc_efpa]. 
    change (choice ["atm.txt"%string] (py (some_random 0) (2 * 0))) with (Ok "atm.txt"%string). change (randint1 1 (py (some_random 0) (2 * 0 + 1))) with (Ok 1%nat). cbn [rbind].
    unfold normal. cbn [fst snd]. replace (Rltb 0 0) with false by (symmetry; apply Rltb_false; lra). replace (Rltb 1 0) with false by (symmetry; apply Rltb_false; lra). cbn [rbind].
    change (nz (some_random 0) (2 * 0)) with 0. change (nz (some_random 0) (2 * 0 + 1)) with 0. replace (0 + 0 * 0) with 0 by ring. replace (0 + 1 * 0) with 0 by ring. reflexivity. }
  assert (LD : exists g, load_density false U (fun _ => Ok some_table) (mkDraw "atm.txt" 1 0 0 0) = Ok g).
  { injection HU as <-. unfold load_density, load_rows. cbn [rbind some_table length Nat.leb forallb andb collect entry nth_error setupMonteCarloSimulation mc_npos mc_km col_height col_low col_avg col_high col_total d_file d_sigma d_profile].
    unfold loadAtmosphereModel5, mc_block. cbn [Nat.sub Nat.mul skipn firstn map mc_row_file2 mc_h].
    match goal with |- context [interp1d ?a 0 0 0] => assert (ER : exists y, interp1d a 0 0 0 = Ok y) end.
    { unfold interp1d. cbn [sort_rows insert_row fst]. destruct (Rleb_spec (0 * 1e3) (200 * 1e3)); [|exfalso; lra]. eexists. reflexivity. }
    destruct ER as (y & ->). cbn [rbind]. eexists. reflexivity. }
  destruct LD as (g & LD). do 5 eexists. split; [reflexivity|]. split; [exact HU|]. split; [discriminate|]. split; [reflexivity|]. split; [exact DR|exact LD].
Qed.
