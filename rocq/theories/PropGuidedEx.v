(** A session with two guided flights (witness of C100). *)
From Coq Require Import String List.
Require Import Verif.Base Verif.Numpy Verif.PlanetModel Verif.AeroModel Verif.HeatModel Verif.TrajectoryModel
  Verif.OrbitScalarModel Verif.OrbiterModel Verif.CorridorModel Verif.SessionModel Verif.SessionSpec
  Verif.GuidanceModel Verif.PropGuidanceEx Verif.DragModel Verif.MonteProofs Verif.PropMonteEx Verif.GuidedModel Verif.GuidedSpec Verif.PropGuided.
Local Open Scope R_scope.

(** Two guided flights with the initial state set before each: every call returns, and the two flights are the same
    flight, whatever initial state and stored results the object had. *)
Example C100_witness : forall i0 fl ht, nan_keeps no_nan /\ exists s' f w r,
  grun (brake 1) no_nan 5 [SetMaxRollRate 30; Plain (SetInitialState (mkInit 179 0 0 11 0 0 0 0)); PropogateGuidedEntry false 1 1 600;
      Plain (SetInitialState (mkInit 179 0 0 11 0 0 0 0)); PropogateGuidedEntry false 1 1 600]
    (mkGS (mkSess (mkObj glider i0 1 fl ht) None) (glide_params 5) []) =
  Some (s', [Ok (Answer Nothing); Ok (Answer Nothing); Ok (Flown f w r); Ok (Answer Nothing); Ok (Flown f w r)]).
Proof.
  intros i0 fl ht. assert (NK : nan_keeps no_nan) by (intros ? ? ? ? Hx; discriminate). split; [exact NK|].
  set (i := mkInit 179 0 0 11 0 0 0 0). set (P := glide_params 5). set (fr := mkGS (mkSess (mkObj glider i 1 None None) None) P []).
  destruct (short_flight (fun _ => 0.001) ltac:(lra)) as (o' & s & s' & rep & F). change (with_density glider (fun _ => 0.001)) with glider in F. fold i P in F.
  assert (G0 : gserve (brake 1) no_nan 5 (PropogateGuidedEntry false 1 1 600) fr = Some (mkGS (mkSess o' None) P (a_hdotref (s_arr s')), Ok (Flown (see s) (see s') rep))).
  { unfold gserve, fr. cbn [gs_sess se_obj gs_P gs_href se_dm]. rewrite F. reflexivity. }
  assert (G : forall x, gconfig_of x = gconfig_of fr -> exists x', gserve (brake 1) no_nan 5 (PropogateGuidedEntry false 1 1 600) x = Some (x', Ok (Flown (see s) (see s') rep)) /\
    holds (mkKnown glider None 1 None P) x').
  { intros x Hx. pose proof (gserve_agree (brake 1) no_nan 5 (PropogateGuidedEntry false 1 1 600) fr x Hx) as A. rewrite G0 in A. cbn [gagree] in A.
    destruct (gserve (brake 1) no_nan 5 (PropogateGuidedEntry false 1 1 600) x) as [[x' a]|] eqn:Ex; [|contradiction]. destruct A as (_ & ->). exists x'. split; [reflexivity|].
    apply (gserve_after _ _ _ _ _ _ _ (mkKnown glider None 1 None P) NK Ex). unfold gconfig_of in Hx. injection Hx as H1 H2 H3 H4 H5. repeat split; assumption. }
  set (x0 := mkGS (mkSess (mkObj glider i 1 fl ht) None) P []).
  destruct (G x0 eq_refl) as (x1 & E1 & V1 & T1 & D1 & P1 & _). cbn [kn_veh kn_tol kn_dm kn_P] in V1, T1, D1, P1.
  set (x2 := mkGS (mkSess (mkObj (ob_veh (se_obj (gs_sess x1))) i (ob_tol (se_obj (gs_sess x1))) (ob_flight (se_obj (gs_sess x1))) (ob_heat (se_obj (gs_sess x1)))) (se_dm (gs_sess x1))) (gs_P x1) (gs_href x1)).
  destruct (G x2) as (x3 & E3 & _).
  { unfold gconfig_of, config_of, x2. cbn [gs_sess gs_P se_obj se_dm ob_veh ob_init ob_tol]. rewrite V1, T1, D1, P1. reflexivity. }
  exists x3, (see s), (see s'), rep. unfold grun.
  change (gserve (brake 1) no_nan 5 (SetMaxRollRate 30) (mkGS (mkSess (mkObj glider i0 1 fl ht) None) P [])) with (Some (mkGS (mkSess (mkObj glider i0 1 fl ht) None) P [], Ok (Answer Nothing))). cbv iota beta.
  change (gserve (brake 1) no_nan 5 (Plain (SetInitialState i)) (mkGS (mkSess (mkObj glider i0 1 fl ht) None) P [])) with (Some (x0, Ok (Answer Nothing))). cbv iota beta.
  rewrite E1. change (gserve (brake 1) no_nan 5 (Plain (SetInitialState i)) x1) with (Some (x2, Ok (Answer Nothing))). cbv iota beta. rewrite E3. reflexivity.
Qed.
