(** C124, continued: two concrete vehicles of one planet object. *)
From Coq Require Import String List ZArith Lia.
Require Import Verif.Base Verif.Numpy Verif.PlanetModel Verif.AeroModel Verif.HeatModel Verif.TrajectoryModel Verif.TrajectoryProofs Verif.OrbitScalarModel Verif.OrbiterModel Verif.OrbitModel Verif.CorridorModel Verif.PropCorridor
  Verif.GuidanceModel Verif.GuidanceProofs Verif.PropControl Verif.PropGuidance Verif.PropGuidanceEx Verif.DragModel Verif.PropDrag
  Verif.MonteModel Verif.MonteSpec Verif.MonteProofs Verif.PropMonte Verif.PropMonteEx
  Verif.SessionModel Verif.SessionSpec Verif.GuidedModel Verif.GuidedSpec Verif.CampaignModel Verif.CampaignSpec Verif.PropCampaign Verif.PropCampaignEx Verif.FleetModel Verif.FleetSpec Verif.PropFleet.
Import ListNotations.
Local Open Scope R_scope.
Local Open Scope list_scope.

Lemma some_density : forall LD l f, load_density false (some_setup LD) (fun _ => Ok some_table) (mkDraw "atm.txt" 1 0 0 l) = Ok f -> f 100000 = 0.001.
Proof.
  intros LD l f H. unfold load_density, load_rows in H. cbn [rbind some_table length Nat.leb forallb andb collect entry nth_error some_setup setupMonteCarloSimulation mc_npos mc_km col_height col_low col_avg col_high col_total d_file d_sigma d_profile] in H.
  unfold loadAtmosphereModel5, mc_block in H. cbn [Nat.sub Nat.mul skipn firstn map mc_row_file2 mc_h mc_density5 mc_avg mc_low mc_high mc_pert] in H.
  assert (ER : forall h, interp1d [(0 * 1e3, mc_density5 0 (mc_row_file2 true 0 0.001 0.001 0.001 0.001)); (200 * 1e3, mc_density5 0 (mc_row_file2 true 200 0.001 0.001 0.001 0.001))] 0 0 h = Ok (if Rltb h 0 then 0 else if Rltb 200000 h then 0 else 0.001)).
  { intros h. unfold mc_density5, pSigmaFunc, nSigmaFunc. cbn [mc_row_file2 mc_avg mc_low mc_high mc_pert]. unfold interp1d. cbn [sort_rows insert_row fst]. destruct (Rleb_spec (0 * 1e3) (200 * 1e3)); [|exfalso; lra]. unfold last_x. cbn [last fst interp_sorted].
    f_equal. rcases; try lra; try (exfalso; lra). }
  unfold mc_density5 in *. cbn [mc_row_file2 mc_avg mc_low mc_high mc_pert] in *. rewrite ER in H. cbn [rbind] in H. injection H as <-. cbn beta. rewrite ER. rcases; lra.
Qed.
Lemma some_draw : forall LD z i, 0 <= snd LD -> exists l, draws MC (some_setup LD) (some_random z) i = Ok (mkDraw "atm.txt" 1 0 0 l).
Proof.
  intros LD z i HL.
  assert (N0 : nz (some_random z) (3 * i) = 0).
  { cbn [some_random nz]. replace (3 * i)%nat with (0 + i * 3)%nat by lia. rewrite Nat.mod_add by lia. reflexivity. }
  assert (N1 : nz (some_random z) (3 * i + 1) = 0).
  { cbn [some_random nz]. replace (3 * i + 1)%nat with (1 + i * 3)%nat by lia. rewrite Nat.mod_add by lia. reflexivity. }
  unfold draws. change (is_drag MC) with false. cbv iota. cbn [some_setup setupMonteCarloSimulation mc_files mc_nmonte mc_efpa mc_LD mc_sigma]. rewrite N0, N1.
  change (choice ["atm.txt"%string] (py (some_random z) (2 * i))) with (Ok "atm.txt"%string). change (randint1 1 (py (some_random z) (2 * i + 1))) with (Ok 1%nat). cbn [rbind].
  unfold normal. cbn [fst snd]. destruct (Rltb_spec 0 0); [exfalso; lra|]. destruct (Rltb_spec 1 0); [exfalso; lra|]. destruct (Rltb_spec (snd LD) 0); [exfalso; lra|]. cbn [rbind]. replace (0 + 0 * 0) with 0 by ring. replace (0 + 1 * 0) with 0 by ring. eauto.
Qed.

Lemma frun_snoc : forall E X load fuel l c F F1 a, frun E X load fuel l F = Some (F1, a) ->
  frun E X load fuel (l ++ [c]) F = match fserve E X load fuel c F1 with None => None | Some (F2, b) => Some (F2, a ++ [b]) end.
Proof.
  intros E X load fuel l c. induction l as [|d l IH]; intros F F1 a H; cbn [frun app] in *; [injection H as <- <-; destruct (fserve E X load fuel c F) as [[? ?]|]; reflexivity|].
  destruct (fserve E X load fuel d F) as [[F2 b]|]; [|discriminate]. destruct (frun E X load fuel l F2) as [[F3 as_]|] eqn:O; [|discriminate]. injection H as <- <-. rewrite (IH _ _ _ O).
  destruct (fserve E X load fuel c F3) as [[? ?]|]; reflexivity.
Qed.

(** Two vehicles made with one planet object whose atmosphere has density 5 everywhere. *)
Definition thick : atmosphere := mkAtm (fun _ => 5) (temp_int thin_air) (pressure_int thin_air) (sonic_int thin_air).
Definition sibling : member := mkMember 0 (mkCS (mkGS (mkSess (mkObj glider (mkInit 0 0 0 0 0 0 0 0) 1 None None) None) (glide_params 5) []) no_attrs only_root).
Definition pair_ : fleet := mkFleet [(VENUS, thick)] [sibling; sibling] only_root.
Definition begin : init := mkInit 179 0 0 11 0 0 0 0.
Definition campaign_of_the_first : list freq := [On 0 (Guided (Plain (SetInitialState begin))); On 0 some_lift_setup; On 0 (RunMonteCarlo MC 2 ["out"%string] (some_random 0))].
(** The first vehicle's campaign of two samples returns, and the second vehicle, on which nothing was called, then flies
    through the campaign's last sample; before, calls on the two do not meet. *)
Example C124_witness : nan_keeps no_nan /\ (exists s0, view 0 pair_ = Some s0) /\ share 0 1 pair_ /\
  (exists F' s1 s1', frun (brake 1) no_nan (fun _ => Ok some_table) 5 campaign_of_the_first pair_ = Some (F', [Ok (GAnswer (Answer Nothing)); Ok Done; Ok Done]) /\
    view 1 pair_ = Some s1 /\ view 1 F' = Some s1' /\ density_int (vh_atm (veh_of s1)) 100000 = 5 /\ density_int (vh_atm (veh_of s1')) 100000 = 0.001) /\
  (let apart := [On 0 (Guided (Plain (SetInitialState begin))); On 1 (Guided (Plain (SetSolverParams 2))); On 0 (Guided (Plain (PropogateEntry false 1 1 0)))] in
   Forall (spares 0 pair_) apart /\ Forall (elsewhere_no_campaign 0) apart /\ exists F' answers, frun (brake 1) no_nan (fun _ => Ok some_table) 5 apart pair_ = Some (F', answers)).
Proof.
  assert (NK : nan_keeps no_nan) by (intros ? ? ? ? Hx; discriminate). split; [exact NK|]. split; [eexists; reflexivity|]. split; [reflexivity|]. split.
  - set (V5 := mount_veh (VENUS, thick) glider). set (s := mkMem (mkObj V5 begin 1 None None) []).
    assert (AL : forall i, flown_alone MC some_world (some_setup (0.3, 0.1)) (some_random 0) V5 1 i = flown_alone MC some_world (some_setup (0.3, 0.1)) (some_random 0) glider 1 i).
    { intros i. unfold flown_alone, mc_run. cbn [v_obj ob_veh ob_tol v_href ob_flight ob_heat]. destruct (draws _ _ _ _); [|reflexivity]. destruct (load_density _ _ _ _) as [f|]; [|reflexivity]. change (with_density V5 f) with (with_density glider f). reflexivity. }
    assert (R : exists st, runMonteCarlo MC some_world (some_setup (0.3, 0.1)) (some_random 0) 2 ["out"%string] s only_root = (st, Some (Ok tt))).
    { destruct (runMonteCarlo MC some_world (some_setup (0.3, 0.1)) (some_random 0) 2 ["out"%string] s only_root) as [st out] eqn:ER.
      destruct (C63_runs_as_if_alone MC some_world (some_setup (0.3, 0.1)) (some_random 0) 2 ["out"%string] s only_root st out) as (xs & L & A & B & D & C); auto; [discriminate|apply root_sane| |].
      { intros [|x t1] t2 E; [right; reflexivity|left; reflexivity]. }
      destruct out as [[[]|e]|].
      - exists st. reflexivity.
      - destruct C as (_ & C). destruct (some_runs (0.3, 0.1) 0 (length xs) ltac:(cbn; lra)) as (x & Hx). cbn [s v_obj ob_veh ob_tol] in C. rewrite AL in C. congruence.
      - destruct C as (_ & C). destruct (some_runs (0.3, 0.1) 0 (length xs) ltac:(cbn; lra)) as (x & Hx). cbn [s v_obj ob_veh ob_tol] in C. rewrite AL in C. congruence. }
    destruct R as (st & R).
    set (two := mkFleet [(VENUS, thick)] [mkMember 0 (mkCS (mkGS (mkSess (mkObj V5 begin 1 None None) None) (glide_params 5) [])
       (mkAttrs (Some (mkShared 2 1 ["atm.txt"%string] 0 2 4 true (0, 0) begin 1 600)) (Some (1, 3)%nat) None (Some ((0.3, 0.1), 1, 1)) None) only_root); sibling] only_root).
    assert (S1 : frun (brake 1) no_nan (fun _ => Ok some_table) 5 [On 0 (Guided (Plain (SetInitialState begin))); On 0 some_lift_setup] pair_ = Some (two, [Ok (GAnswer (Answer Nothing)); Ok Done])) by reflexivity.
    assert (S2 : exists F', fserve (brake 1) no_nan (fun _ => Ok some_table) 5 (On 0 (RunMonteCarlo MC 2 ["out"%string] (some_random 0))) two = Some (F', Ok Done)).
    { cbn [fserve two fl_members fl_planets fl_disk nth_error mb_planet mb_self cserve mount cs_g cs_at cs_fs gs_sess gs_P gs_href se_obj se_dm ob_init ob_tol ob_flight ob_heat ob_veh]. unfold run_campaign.
      cbn [setup_for at_shared at_lowhigh at_lift sh_npos sh_nmonte sh_files sh_height sh_avg sh_total sh_km sh_efpa sh_copy sh_dt sh_maxTime fst snd].
      match goal with |- context [runMonteCarlo MC ?w ?u ?r ?n ?p ?m only_root] => change (runMonteCarlo MC w u r n p m only_root) with (runMonteCarlo MC some_world (some_setup (0.3, 0.1)) r n p s only_root) end.
      rewrite R. cbn [rmap]. eexists. reflexivity. }
    destruct S2 as (F' & S2). destruct (C124_campaign_reaches_the_others _ _ _ _ _ _ _ _ _ _ _ _ 1 _ _ NK S2 ltac:(discriminate) eq_refl eq_refl eq_refl) as (U & d & f & SU & D & LD & V').
    injection SU as <-. destruct (some_draw (0.3, 0.1) 0 1 ltac:(cbn; lra)) as (l & D2).
    match type of D with draws ?m ?u ?r ?i = _ => change (draws m u r i) with (draws MC (some_setup (0.3, 0.1)) (some_random 0) 1) in D end. rewrite D2 in D. injection D as <-.
    exists F'. do 2 eexists. split; [|split; [reflexivity|split; [exact V'|split; [reflexivity|]]]].
    + unfold campaign_of_the_first. change [On 0 (Guided (Plain (SetInitialState begin))); On 0 some_lift_setup; On 0 (RunMonteCarlo MC 2 ["out"%string] (some_random 0))]
        with ([On 0 (Guided (Plain (SetInitialState begin))); On 0 some_lift_setup] ++ [On 0 (RunMonteCarlo MC 2 ["out"%string] (some_random 0))]).
      rewrite (frun_snoc _ _ _ _ _ _ _ _ _ S1), S2. reflexivity.
    + cbn [on_disk in_air veh_of cs_g gs_sess se_obj ob_veh vh_atm density_int]. apply (some_density (0.3, 0.1) l). exact LD.
  - cbv zeta. split; [constructor; [left; reflexivity|constructor; [right; right; exact I|constructor; [left; reflexivity|constructor]]]|].
    split; [constructor; [left; reflexivity|constructor; [right; intros []|constructor; [left; reflexivity|constructor]]]|]. do 2 eexists. reflexivity.
Qed.
