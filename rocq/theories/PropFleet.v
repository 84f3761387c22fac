(** Property C124: several vehicles in one session, and the planet objects they share. *)
From Coq Require Import String List Lia.
Require Import Verif.Base Verif.Numpy Verif.NumpyProofs Verif.PlanetModel Verif.PlanetProofs Verif.AeroModel Verif.FlightProofs Verif.HeatModel Verif.TrajectoryModel Verif.TrajectorySpec Verif.TrajectoryProofs Verif.PropTrajectory Verif.PropHeat
  Verif.OrbitScalarModel Verif.OrbiterModel Verif.OrbitModel Verif.CorridorModel Verif.CorridorSpec Verif.CorridorProofs Verif.PropCorridor
  Verif.GuidanceModel Verif.GuidanceSpec Verif.GuidanceProofs Verif.PropControl Verif.PropGuidance Verif.DragModel Verif.PropDrag Verif.MonteModel Verif.MonteSpec Verif.MonteProofs
  Verif.SessionModel Verif.SessionSpec Verif.PropSession Verif.GuidedModel Verif.GuidedSpec Verif.PropGuided Verif.CampaignModel Verif.CampaignSpec Verif.PropCampaign Verif.FleetModel Verif.FleetSpec.
Import ListNotations.
Local Open Scope R_scope.
Local Open Scope list_scope.

(** ** Calls that leave the planet object alone *)
Definition around (o : vobj) : planet * atmosphere := (vh_planet (ob_veh o), vh_atm (ob_veh o)).
Lemma where_propagate : forall two E X o t dt d, nan_spares_planet X -> around (fst (propagate two E X o t dt d)) = around o.
Proof.
  intros two E X o t dt [d|] HX; unfold around.
  - destruct (propagate_keeps two E X o t dt d) as (-> & _). reflexivity.
  - cbn [propagate]. destruct (HX o t dt) as (-> & ->). reflexivity.
Qed.
Lemma where_while : forall w guard body, (forall s, around (s_obj s) = w -> around (s_obj (fst (body s))) = w) ->
  forall n s s' r, while_loop guard body n s = Some (s', r) -> around (s_obj s) = w -> around (s_obj s') = w.
Proof.
  intros w guard body St n. induction n as [|n IH]; intros s s' r H I; cbn [while_loop] in H; [discriminate|]. destruct (guard s); [|injection H as <- _; auto].
  specialize (St s I). destruct (body s) as [s1 [[|]|]] eqn:B; cbn [fst] in St; [injection H as <- _; auto|eauto|injection H as <- _; auto].
Qed.
Lemma where_ballistic : forall o b, around (fst (set_ballistic o b)) = around o.
Proof. intros o b. unfold set_ballistic. cbv zeta. destruct (Reqb _ _); reflexivity. Qed.
Lemma where_start : forall two E X o hr dt, nan_spares_planet X ->
  around (fst (eg_start two E X o hr dt)) = around o /\ forall o1 s, eg_start two E X o hr dt = (o1, Ok s) -> around (s_obj s) = around o.
Proof.
  intros two E X o hr dt HX. unfold eg_start. pose proof (where_propagate two E X o 1 dt (Some 0) HX) as K. destruct (propagate two E X o 1 dt (Some 0)) as [o1 [u|e]]; cbn [fst] in *; [|split; [auto|discriminate]].
  split; [auto|]. intros o2 s H. injection H as <- H. destruct (results o1) as [fh|]; [|discriminate]. cbn [rbind] in H. injection H as <-. exact K.
Qed.
Ltac where_step :=
  repeat match goal with
  | |- context [match propagate ?a ?b ?c ?d ?e ?f ?g with _ => _ end] =>
      let K := fresh "K" in pose proof (where_propagate a b c d e f g ltac:(assumption)) as K; destruct (propagate a b c d e f g) as [? [?|?]]; cbn [fst] in K
  | |- context [match ?x with Ok _ => _ | Err _ => _ end] => destruct x as [?|?]
  | |- context [match ?x with (_, _) => _ end] => destruct x as [? ?]
  | |- context [if ?b then _ else _] => destruct b
  end; cbn [fst snd s_obj set_obj around set_init ob_veh] in *.
Lemma where_eg : forall two E X P ts dt mt s, nan_spares_planet X -> around (s_obj (fst (eg_step two E X P ts dt mt s))) = around (s_obj s).
Proof. intros two E X P ts dt mt s HX. unfold eg_step. cbv zeta. where_step; try reflexivity; assumption. Qed.
Lemma where_exit : forall two E X P ts dt h J s, nan_spares_planet X -> around (s_obj (fst (exit_step two E X P ts dt h J s))) = around (s_obj s).
Proof. intros two E X P ts dt h J s HX. unfold exit_step. cbv zeta. where_step; try reflexivity; assumption. Qed.
Lemma where_d : forall two E X dm P ts dt mt s, nan_spares_planet X -> around (s_obj (fst (d_step two E X dm P ts dt mt s))) = around (s_obj s).
Proof. intros two E X dm P ts dt mt s HX. unfold d_step. cbv zeta. where_step; try reflexivity; assumption. Qed.
Lemma where_dexit : forall two E X ts dt h J s, nan_spares_planet X -> around (s_obj (fst (dexit_step two E X ts dt h J s))) = around (s_obj s).
Proof. intros two E X ts dt h J s HX. unfold dexit_step. cbv zeta. where_step; try reflexivity; assumption. Qed.
Lemma around_lift : forall two E X P ts dt mt n o hr o' r, nan_spares_planet X -> propogateGuidedEntry two E X P ts dt mt n o hr = Some (o', r) -> around o' = around o.
Proof.
  intros two E X P ts dt mt n o hr o' r HX H. unfold propogateGuidedEntry, propogateEquilibriumGlide in H. destruct (where_start two E X o hr dt HX) as (A & B).
  destruct (eg_start two E X o hr dt) as [o1 [s0|e]]; [|injection H as <- _; exact A]. specialize (B _ _ eq_refl).
  destruct (while_loop (eg_guard P) _ n s0) as [[s1 [[]|e]]|] eqn:W1; try discriminate.
  2: { injection H as <- _. refine (where_while _ _ _ _ _ _ _ _ W1 B). intros s Hs. rewrite where_eg; auto. }
  assert (I1 : around (s_obj s1) = around o) by (refine (where_while _ _ _ _ _ _ _ _ W1 B); intros s Hs; rewrite where_eg; auto).
  unfold propogateExitPhase in H. cbv zeta in H. destruct (while_loop exit_guard _ n (exit_start s1)) as [[s2 [[]|e]]|] eqn:W2; try discriminate; injection H as <- _;
    refine (where_while _ _ _ _ _ _ _ _ W2 I1); intros s Hs; rewrite where_exit; auto.
Qed.
Lemma around_drag : forall two E X dm P te tx dt mt n o hr o' r, nan_spares_planet X -> propogateGuidedEntryD two E X dm P te tx dt mt n o hr = Some (o', r) -> around o' = around o.
Proof.
  intros two E X dm P te tx dt mt n o hr o' r HX H. unfold propogateGuidedEntryD, propogateEntryPhaseD in H. destruct dm as [[b1 ratio]|]; [|injection H as <- _; reflexivity].
  cbn [fst] in H. pose proof (where_ballistic o b1) as KB. destruct (set_ballistic o b1) as [o0 [u|e]]; cbn [fst] in KB; [|injection H as <- _; exact KB].
  destruct (where_start two E X o0 hr dt HX) as (A & B). rewrite KB in A, B.
  destruct (eg_start two E X o0 hr dt) as [o1 [s0|e]]; [|injection H as <- _; exact A]. specialize (B _ _ eq_refl).
  destruct (while_loop (eg_guard P) _ n s0) as [[s1 [[]|e]]|] eqn:W1; try discriminate.
  2: { injection H as <- _. refine (where_while _ _ _ _ _ _ _ _ W1 B). intros s Hs. rewrite where_d; auto. }
  assert (I1 : around (s_obj s1) = around o) by (refine (where_while _ _ _ _ _ _ _ _ W1 B); intros s Hs; rewrite where_d; auto).
  unfold propogateExitPhaseD in H. pose proof (where_ballistic (s_obj s1) (b1 * ratio)) as K2. destruct (set_ballistic (s_obj s1) (b1 * ratio)) as [o2 [u2|e]]; cbn [fst] in K2; [|injection H as <- _; cbn [set_obj s_obj]; congruence].
  cbv zeta in H. assert (I2 : around (s_obj (exit_start (set_obj s1 o2))) = around o) by (cbn; congruence).
  destruct (while_loop exit_guard _ n _) as [[s2 [[]|e]]|] eqn:W2; try discriminate; injection H as <- _;
    refine (where_while _ _ _ _ _ _ _ _ W2 I2); intros s Hs; rewrite where_dexit; auto.
Qed.
Lemma around_gserve : forall E X fuel c s s' a, nan_spares_planet X -> gserve E X fuel c s = Some (s', a) -> around (se_obj (gs_sess s')) = around (se_obj (gs_sess s)).
Proof.
  intros E X fuel c s s' a HX H. destruct c; cbn [gserve] in H; try (injection H as <- _; reflexivity).
  - destruct (serve E fuel c (gs_sess s)) as [[q r]|] eqn:V; [|discriminate]. injection H as <- _. cbn [gs_sess].
    pose proof (serve_keeps _ _ _ _ _ _ V) as (_ & _ & _ & _ & _ & _ & A & B & _). unfold around. cbn [config_of cf_veh] in A, B. rewrite A, B. destruct c; reflexivity.
  - destruct (propogateGuidedEntry _ _ _ _ _ _ _ _ _ _) as [[o r]|] eqn:G; [|discriminate]. pose proof (around_lift _ _ _ _ _ _ _ _ _ _ _ _ HX G) as A. cbn [gflight] in H. destruct r as [[[x y] z]|e]; injection H as <- _; exact A.
  - destruct (propogateGuidedEntryD _ _ _ _ _ _ _ _ _ _ _ _) as [[o r]|] eqn:G; [|discriminate]. pose proof (around_drag _ _ _ _ _ _ _ _ _ _ _ _ _ _ HX G) as A. cbn [gflight] in H. destruct r as [[[x y] z]|e]; injection H as <- _; exact A.
Qed.
Lemma cserve_planet : forall E X load fuel c s s' a, nan_spares_planet X -> keeps_planet c -> cserve E X load fuel c s = Some (s', a) ->
  (vh_planet (veh_of s'), vh_atm (veh_of s')) = (vh_planet (veh_of s), vh_atm (veh_of s)).
Proof.
  intros E X load fuel c s s' a HX K H. destruct c; try contradiction; cbn [cserve] in H; try (injection H as <- _; reflexivity).
  destruct (gserve E X fuel c (cs_g s)) as [[g x]|] eqn:G; [|discriminate]. injection H as <- _. exact (around_gserve _ _ _ _ _ _ _ HX G).
Qed.
Lemma cserve_disk : forall E X load fuel c s s' a, ~ is_campaign c -> cserve E X load fuel c s = Some (s', a) -> cs_fs s' = cs_fs s.
Proof.
  intros E X load fuel c s s' a K H. destruct c; cbn [is_campaign] in K; try tauto; cbn [cserve] in H; try (injection H as <- _; reflexivity).
  destruct (gserve E X fuel c (cs_g s)) as [[g x]|]; [|discriminate]. injection H as <- _. reflexivity.
Qed.
Lemma cserve_on_disk : forall E X load fuel c s F, ~ is_campaign c ->
  cserve E X load fuel c (on_disk F s) = match cserve E X load fuel c s with None => None | Some (s', a) => Some (on_disk F s', a) end.
Proof.
  intros E X load fuel c s F K. destruct c; cbn [is_campaign] in K; try tauto; cbn [cserve on_disk cs_g cs_at cs_fs]; try reflexivity.
  destruct (gserve E X fuel c (cs_g s)) as [[g x]|]; reflexivity.
Qed.

(** ** The fleet as a store *)
Lemma put_same : forall {A} (l : list A) n x y, nth_error l n = Some y -> nth_error (put n x l) n = Some x.
Proof. induction l as [|z l IH]; intros [|n] x y H; cbn in *; try discriminate; eauto. Qed.
Lemma put_other : forall {A} (l : list A) n m x, n <> m -> nth_error (put n x l) m = nth_error l m.
Proof. induction l as [|z l IH]; intros [|n] [|m] x H; cbn; auto; try congruence. Qed.
Lemma put_id : forall {A} (l : list A) n x, nth_error l n = Some x -> put n x l = l.
Proof. induction l as [|z l IH]; intros [|n] x H; cbn in *; try discriminate; [congruence|]. f_equal. auto. Qed.
Lemma mount_self : forall s, mount (vh_planet (veh_of s), vh_atm (veh_of s)) (cs_fs s) s = s.
Proof. intros [[[[[] ? ? ? ?] ?] ? ?] ? ?]. reflexivity. Qed.
Lemma mount_mount : forall w F w' F' s, mount w F (mount w' F' s) = mount w F s. Proof. reflexivity. Qed.
Lemma planet_const : forall E X load fuel c F F' a k, fserve E X load fuel c F = Some (F', a) -> planet_of k F' = planet_of k F.
Proof.
  intros E X load fuel c F F' a k H. destruct c as [j c|j p]; cbn [fserve] in H.
  - destruct (nth_error (fl_members F) j) as [m|] eqn:M; [|discriminate]. destruct (nth_error (fl_planets F) (mb_planet m)) as [w|]; [|discriminate].
    destruct (cserve _ _ _ _ _ _) as [[s' b]|]; [|discriminate]. injection H as <- _. unfold planet_of. cbn [fl_members]. destruct (Nat.eq_dec j k) as [->|N]; [rewrite (put_same _ _ _ _ M), M; reflexivity|].
    rewrite put_other by auto. reflexivity.
  - destruct (nth_error (fl_planets F) j); [|discriminate]. injection H as <- _. reflexivity.
Qed.
(** A call of vehicle [k] itself is the call on its view. *)
Lemma own_call : forall E X load fuel c F F' a k s, fserve E X load fuel (On k c) F = Some (F', a) -> view k F = Some s ->
  exists s', cserve E X load fuel c s = Some (s', a) /\ view k F' = Some s'.
Proof.
  intros E X load fuel c F F' a k s H V. unfold view in V. cbn [fserve] in H. destruct (nth_error (fl_members F) k) as [m|] eqn:M; [|discriminate].
  destruct (nth_error (fl_planets F) (mb_planet m)) as [w|] eqn:P; [|discriminate]. injection V as <-. destruct (cserve _ _ _ _ _ _) as [[s' b]|]; [|discriminate]. injection H as <- <-.
  exists s'. split; [reflexivity|]. unfold view. cbn [fl_members fl_planets fl_disk]. rewrite (put_same _ _ _ _ M). cbn [mb_planet mb_self]. rewrite (put_same _ _ _ _ P), mount_self. reflexivity.
Qed.
(** A call of another vehicle changes the view of [k] at most in the disk, unless it reaches the planet object they share. *)
Lemma other_call : forall E X load fuel c F F' a k s, nan_spares_planet X -> fserve E X load fuel c F = Some (F', a) -> view k F = Some s -> spares k F c ->
  (forall d, c <> On k d) -> view k F' = Some (on_disk (fl_disk F') s).
Proof.
  intros E X load fuel c F F' a k s HX H V Sp Nk. unfold view in *. destruct c as [j c|j p]; cbn [fserve] in H.
  - destruct (nth_error (fl_members F) k) as [m|] eqn:M; [|discriminate]. destruct (nth_error (fl_planets F) (mb_planet m)) as [w|] eqn:P; [|discriminate]. injection V as <-.
    destruct (nth_error (fl_members F) j) as [m'|] eqn:M'; [|discriminate]. destruct (nth_error (fl_planets F) (mb_planet m')) as [w'|] eqn:P'; [|discriminate].
    destruct (cserve _ _ _ _ _ _) as [[s' b]|] eqn:C; [|discriminate]. injection H as <- _. cbn [fl_members fl_planets fl_disk].
    assert (N : j <> k) by (intros ->; exact (Nk c eq_refl)). rewrite put_other by auto. rewrite M.
    cbn [spares] in Sp. destruct Sp as [->|[Sh|K]]; [contradiction| |].
    + assert (mb_planet m' <> mb_planet m) by (intros Eq; apply Sh; unfold share, planet_of; rewrite M, M', Eq; reflexivity). rewrite put_other by auto. rewrite P. reflexivity.
    + rewrite (cserve_planet _ _ _ _ _ _ _ _ HX K C). cbn [veh_of mount cs_g gs_sess se_obj ob_veh mount_veh vh_planet vh_atm]. replace (fst w', snd w') with w' by (destruct w'; reflexivity).
      rewrite (put_id _ _ _ P'), P. reflexivity.
  - destruct (nth_error (fl_planets F) j) as [w'|] eqn:P'; [|discriminate]. injection H as <- _. cbn [fl_members fl_planets fl_disk].
    destruct (nth_error (fl_members F) k) as [m|] eqn:M; [|discriminate]. destruct (nth_error (fl_planets F) (mb_planet m)) as [w|] eqn:P; [|discriminate]. injection V as <-.
    cbn [spares] in Sp. unfold planet_of in Sp. rewrite M in Sp. rewrite put_other by congruence. rewrite P. reflexivity.
Qed.
Lemma view_disk : forall k F s, view k F = Some s -> cs_fs s = fl_disk F.
Proof. intros k F s V. unfold view in V. destruct (nth_error _ k); [|discriminate]. destruct (nth_error _ _); [|discriminate]. injection V as <-. reflexivity. Qed.
Lemma on_disk_id : forall s, on_disk (cs_fs s) s = s. Proof. intros []. reflexivity. Qed.
Lemma disk_kept : forall E X load fuel c F F' a, fserve E X load fuel c F = Some (F', a) -> (forall k d, c = On k d -> ~ is_campaign d) -> fl_disk F' = fl_disk F.
Proof.
  intros E X load fuel c F F' a H K. destruct c as [j c|j p]; cbn [fserve] in H.
  - destruct (nth_error (fl_members F) j) as [m|]; [|discriminate]. destruct (nth_error (fl_planets F) (mb_planet m)) as [w|]; [|discriminate].
    destruct (cserve _ _ _ _ _ _) as [[s' b]|] eqn:C; [|discriminate]. injection H as <- _. cbn [fl_disk]. rewrite (cserve_disk _ _ _ _ _ _ _ _ (K _ _ eq_refl) C). reflexivity.
  - destruct (nth_error (fl_planets F) j); [|discriminate]. injection H as <- _. reflexivity.
Qed.
Lemma spares_const : forall E X load fuel c F F' a k d, fserve E X load fuel c F = Some (F', a) -> spares k F d -> spares k F' d.
Proof.
  intros E X load fuel c F F' a k d H S. pose proof (planet_const _ _ _ _ _ _ _ _ k H) as K. destruct d as [j d|j p]; cbn [spares] in *; unfold share in *; rewrite K; [|auto].
  rewrite (planet_const _ _ _ _ _ _ _ _ j H). auto.
Qed.

(** * C124 *)
(** Vehicles, also of one planet object, answer as if each were alone with a planet object of its own, however their
    calls are interleaved, as long as nobody else loads an atmosphere into that object, assigns its attributes or runs a campaign. *)
Theorem C124_as_if_alone : forall E X load fuel calls F F' answers k s, nan_spares_planet X -> frun E X load fuel calls F = Some (F', answers) ->
  Forall (spares k F) calls -> Forall (elsewhere_no_campaign k) calls -> view k F = Some s ->
  exists s', crun E X load fuel (calls_of k calls) s = Some (s', answers_of k calls answers) /\ view k F' = Some s'.
Proof.
  intros E X load fuel calls. induction calls as [|c l IH]; intros F F' answers k s HX H Sp Nc V; cbn [frun] in H; [injection H as <- <-; exists s; auto|].
  destruct (fserve E X load fuel c F) as [[F1 a1]|] eqn:C; [|discriminate]. destruct (frun E X load fuel l F1) as [[F2 as_]|] eqn:R; [|discriminate]. injection H as <- <-.
  apply Forall_cons_iff in Sp. apply Forall_cons_iff in Nc. destruct Sp as (Sp1 & Sp2), Nc as (Nc1 & Nc2).
  assert (Sp3 : Forall (spares k F1) l) by (eapply Forall_impl; [|exact Sp2]; intros d; apply (spares_const _ _ _ _ _ _ _ _ _ _ C)).
  assert (OT : (forall d, c <> On k d) -> view k F1 = Some s).
  { intros Nk. rewrite (other_call _ _ _ _ _ _ _ _ _ _ HX C V Sp1 Nk).
    rewrite (disk_kept _ _ _ _ _ _ _ _ C), <- (view_disk _ _ _ V), on_disk_id; [reflexivity|]. intros j d -> IC. cbn [elsewhere_no_campaign] in Nc1. destruct Nc1 as [->|Nc1]; [exact (Nk d eq_refl)|tauto]. }
  destruct c as [j c|j p]; cbn [calls_of answers_of].
  - destruct (Nat.eqb_spec j k) as [->|N].
    + destruct (own_call _ _ _ _ _ _ _ _ _ _ C V) as (s1 & C1 & V1). destruct (IH _ _ _ _ _ HX R Sp3 Nc2 V1) as (s' & R' & V'). exists s'. cbn [crun]. rewrite C1, R'. auto.
    + apply (IH _ _ _ _ _ HX R Sp3 Nc2). apply OT. congruence.
  - apply (IH _ _ _ _ _ HX R Sp3 Nc2). apply OT. discriminate.
Qed.
(** Campaigns of vehicles with other planet objects reach a vehicle that runs none only through the disk. *)
Lemma elsewhere_gen : forall E X load fuel k, nan_spares_planet X -> forall l F F' answers s D, frun E X load fuel l F = Some (F', answers) ->
  Forall (spares k F) l -> Forall (fun c => ~ is_campaign c) (calls_of k l) -> view k F = Some (on_disk D s) ->
  exists s', crun E X load fuel (calls_of k l) s = Some (s', answers_of k l answers) /\ view k F' = Some (on_disk (fl_disk F') s').
Proof.
  intros E X load fuel k HX. induction l as [|c l IH]; intros F F' answers s D H Sp Nc V; cbn [frun] in H.
  { injection H as <- <-. exists s. split; [reflexivity|]. rewrite V, <- (view_disk _ _ _ V). reflexivity. }
  destruct (fserve E X load fuel c F) as [[F1 a1]|] eqn:C; [|discriminate]. destruct (frun E X load fuel l F1) as [[F2 as_]|] eqn:R; [|discriminate]. injection H as <- <-.
  apply Forall_cons_iff in Sp. destruct Sp as (Sp1 & Sp2).
  assert (Sp3 : Forall (spares k F1) l) by (eapply Forall_impl; [|exact Sp2]; intros d; apply (spares_const _ _ _ _ _ _ _ _ _ _ C)).
  destruct c as [j c|j p]; cbn [calls_of answers_of] in *.
  - destruct (Nat.eqb_spec j k) as [->|N].
    + apply Forall_cons_iff in Nc. destruct Nc as (Nc1 & Nc2). destruct (own_call _ _ _ _ _ _ _ _ _ _ C V) as (s1 & C1 & V1). rewrite (cserve_on_disk _ _ _ _ _ _ _ Nc1) in C1.
      destruct (cserve E X load fuel c s) as [[s2 b]|] eqn:C2; [|discriminate]. injection C1 as <- <-. destruct (IH _ _ _ _ _ R Sp3 Nc2 V1) as (s' & R' & V'). exists s'. cbn [crun]. rewrite C2, R'. auto.
    + assert (Nk : forall d, On j c <> On k d) by congruence. exact (IH _ _ _ s _ R Sp3 Nc (other_call _ _ _ _ _ _ _ _ _ _ HX C V Sp1 Nk)).
  - assert (Nk : forall d, AssignPlanet j p <> On k d) by discriminate. exact (IH _ _ _ s _ R Sp3 Nc (other_call _ _ _ _ _ _ _ _ _ _ HX C V Sp1 Nk)).
Qed.
Theorem C124_campaigns_elsewhere : forall E X load fuel calls F F' answers k s, nan_spares_planet X -> frun E X load fuel calls F = Some (F', answers) ->
  Forall (spares k F) calls -> Forall (fun c => ~ is_campaign c) (calls_of k calls) -> view k F = Some s ->
  exists s', crun E X load fuel (calls_of k calls) s = Some (s', answers_of k calls answers) /\ view k F' = Some (on_disk (fl_disk F') s').
Proof.
  intros E X load fuel calls F F' answers k s HX H Sp Nc V. apply (elsewhere_gen _ _ _ _ _ HX _ _ _ _ s (cs_fs s) H Sp Nc). rewrite on_disk_id. exact V.
Qed.

(** Loading an atmosphere through one vehicle loads it for every vehicle of the same planet object, and for no other;
    assigning an attribute of a planet object changes it for all of its vehicles. *)
Theorem C124_atmosphere_is_shared : forall E X load fuel j a F F' r k s, fserve E X load fuel (On j (LoadAtmosphere a)) F = Some (F', r) -> view k F = Some s ->
  (share j k F -> view k F' = Some (in_air a s)) /\ (~ share j k F -> view k F' = Some s).
Proof.
  intros E X load fuel j a F F' r k s H V. unfold view in *. cbn [fserve cserve] in H.
  destruct (nth_error (fl_members F) k) as [m|] eqn:M; [|discriminate]. destruct (nth_error (fl_planets F) (mb_planet m)) as [w|] eqn:P; [|discriminate]. injection V as <-.
  destruct (nth_error (fl_members F) j) as [m'|] eqn:M'; [|discriminate]. destruct (nth_error (fl_planets F) (mb_planet m')) as [w'|] eqn:P'; [|discriminate]. injection H as <- _.
  cbn [fl_members fl_planets fl_disk cs_fs mount]. destruct (Nat.eq_dec j k) as [->|N].
  - assert (m' = m) by congruence. subst m'. assert (w' = w) by congruence. subst w'. rewrite (put_same _ _ _ _ M). cbn [mb_planet mb_self]. rewrite (put_same _ _ _ _ P). split; [reflexivity|intros Sh; destruct Sh; reflexivity].
  - rewrite put_other by auto. rewrite M. split; intros Sh.
    + assert (Eq : mb_planet m' = mb_planet m) by (unfold share, planet_of in Sh; rewrite M, M' in Sh; congruence). rewrite Eq in *. assert (w' = w) by congruence. subst w'. rewrite (put_same _ _ _ _ P). reflexivity.
    + assert (mb_planet m' <> mb_planet m) by (intros Eq; apply Sh; unfold share, planet_of; rewrite M, M', Eq; reflexivity). rewrite put_other by auto. rewrite P. reflexivity.
Qed.
Theorem C124_constants_are_shared : forall E X load fuel j p F F' r k s, fserve E X load fuel (AssignPlanet j p) F = Some (F', r) -> view k F = Some s -> planet_of k F = Some j ->
  exists s', view k F' = Some s' /\ veh_of s' = mount_veh (p, vh_atm (veh_of s)) (veh_of s) /\ cs_at s' = cs_at s /\ cs_fs s' = cs_fs s.
Proof.
  intros E X load fuel j p F F' r k s H V O. unfold view, planet_of in *. cbn [fserve] in H. destruct (nth_error (fl_members F) k) as [m|] eqn:M; [|discriminate]. injection O as <-.
  destruct (nth_error (fl_planets F) (mb_planet m)) as [w|] eqn:P; [|discriminate]. injection V as <-. injection H as <- _. cbn [fl_members fl_planets fl_disk]. rewrite M, (put_same _ _ _ _ P).
  eexists. split; [reflexivity|]. repeat split.
Qed.

(** ** Campaigns *)
(** A campaign that returned leaves, for every other vehicle of the same planet object, the density of its last sample
    with the temperature, pressure and sonic speed that were loaded, and changes nothing else of theirs but the disk. *)
Lemma mc_run_density : forall m W U rnd i s mm x, nan_keeps (w_X W) -> mc_run m W U rnd i s = (mm, Some (Ok x)) ->
  exists d f, draws m U rnd i = Ok d /\ load_density (match m with MCD_Earth => true | _ => false end) U (w_load W) d = Ok f /\
    ob_veh (v_obj mm) = in_density (left_by m W (ob_veh (v_obj s))) f.
Proof.
  intros m W U rnd i s mm x HX H. pose proof (mc_run_left _ _ _ _ _ _ _ _ HX H) as ((g & A) & _). unfold mc_run in H. destruct (draws m U rnd i) as [d|]; [|discriminate].
  destruct (load_density _ U (w_load W) d) as [f|] eqn:LD; [|discriminate]. cbv zeta in H. exists d, f. split; [reflexivity|]. split; [exact LD|]. rewrite A. f_equal.
  assert (Q : density_int (vh_atm (ob_veh (v_obj mm))) = f); [|rewrite A in Q; exact Q].
  destruct (is_drag m).
  - destruct (propogateGuidedEntryD _ _ _ _ _ _ _ _ _ _ _ _) as [[o2 [[[a b] r]|]]|] eqn:Fl; try discriminate. injection H as <- _. cbn [v_obj].
    destruct (C76_left_behind _ _ _ _ _ _ _ _ _ _ _ _ _ _ _ _ Fl) as (b1 & ratio & _ & _ & _ & _ & B & _). rewrite B. reflexivity.
  - destruct (propogateGuidedEntry _ _ _ _ _ _ _ _ _ _) as [[o2 [[[a b] r]|]]|] eqn:Fl; try discriminate. injection H as <- _. cbn [v_obj].
    destruct (lift_base _ _ _ _ _ _ _ _ _ _ _ _ _ _ HX Fl) as (B & _). rewrite B. reflexivity.
Qed.
Lemma mc_loop_density : forall m W U rnd main n i s st, nan_keeps (w_X W) -> mc_loop m W U rnd main (Datatypes.S n) i s = (st, Some (Ok tt)) ->
  exists d f, draws m U rnd (i + n) = Ok d /\ load_density (match m with MCD_Earth => true | _ => false end) U (w_load W) d = Ok f /\
    ob_veh (v_obj (k_mem st)) = in_density (left_by m W (ob_veh (v_obj (k_mem s)))) f.
Proof.
  intros m W U rnd main. induction n as [|n IH]; intros i s st HX H; cbn [mc_loop] in H;
    (destruct (mc_run m W U rnd i (k_mem s)) as [mm [[[d q]|e]|]] eqn:ER; try discriminate);
    destruct (perform_all_mem (write_run main i d q (record i q (k_arr s))) (record i q (k_arr s)) (k_fs s) (k_ops s)) as (F' & ops' & r & EP); rewrite EP in H; (destruct r as [u|e]; [|discriminate]).
  - injection H as <-. cbn [k_mem]. rewrite Nat.add_0_r. apply (mc_run_density _ _ _ _ _ _ _ _ HX ER).
  - fold (mc_loop m W U rnd main) in H. destruct (IH _ _ _ HX H) as (d' & f & A & B & C). cbn [k_mem] in C. exists d', f. replace (i + Datatypes.S n)%nat with (i + 1 + n)%nat by lia. split; [exact A|]. split; [exact B|].
    destruct (mc_run_left _ _ _ _ _ _ _ _ HX ER) as ((g & D) & _). rewrite C, D, left_twice. reflexivity.
Qed.
Theorem C124_campaign_reaches_the_others : forall E X load fuel j m N main rnd F F' r k s sj, nan_keeps X ->
  fserve E X load fuel (On j (RunMonteCarlo m (Datatypes.S N) main rnd)) F = Some (F', Ok r) -> j <> k -> share j k F -> view k F = Some s -> view j F = Some sj ->
  exists U d f, setup_for m (cs_at sj) = Some U /\ draws m U rnd N = Ok d /\ load_density (match m with MCD_Earth => true | _ => false end) U load d = Ok f /\
    let a := vh_atm (veh_of s) in
    view k F' = Some (on_disk (fl_disk F') (in_air (mkAtm f (temp_int a) (pressure_int a) (sonic_int a)) s)).
Proof.
  intros E X load fuel j m N main rnd F F' r k s sj HX H N0 Sh V Vj. unfold view in *. cbn [fserve] in H.
  destruct (nth_error (fl_members F) k) as [mk|] eqn:M; [|discriminate]. destruct (nth_error (fl_planets F) (mb_planet mk)) as [w|] eqn:P; [|discriminate]. injection V as <-.
  destruct (nth_error (fl_members F) j) as [m'|] eqn:M'; [|discriminate]. assert (Eq : mb_planet m' = mb_planet mk) by (unfold share, planet_of in Sh; rewrite M, M' in Sh; congruence).
  rewrite Eq, P in *. injection Vj as <-. destruct (cserve _ _ _ _ _ _) as [[s' b]|] eqn:C; [|discriminate]. injection H as <- ->.
  cbn [cserve] in C. set (sj := mount w (fl_disk F) (mb_self m')) in *. unfold run_campaign in C.
  destruct (setup_for m (cs_at sj)) as [U|] eqn:SU.
  2: { exfalso. destruct (perform _ _) as [c1 [u|e]]; [|discriminate]. destruct (broken_run _ _ _ _ _) as [mm e]. discriminate. }
  destruct (runMonteCarlo _ _ _ _ _ _ _ _) as [st [r0|]] eqn:R; [|discriminate]. injection C as <- Ca. destruct r0 as [[]|e]; [|discriminate].
  unfold runMonteCarlo in R. cbv zeta in R. unfold perform in R. cbn [k_fs k_mem k_arr k_ops] in R. destruct (makedirs _ main) as [l|e]; [|discriminate].
  pose proof R as R2. apply mc_loop_density in R2; [|exact HX]. destruct R2 as (d & f & A & B & D). cbn [k_mem v_obj Nat.add w_load] in A, B, D. exists U, d, f. split; [reflexivity|]. split; [exact A|]. split; [exact B|]. cbv zeta.
  cbn [fl_members fl_planets fl_disk cs_fs]. rewrite put_other by auto. rewrite M, (put_same _ _ _ _ P). unfold veh_of at 1 2. cbn [cs_g gs_sess se_obj]. rewrite D. f_equal.
  unfold left_by. destruct (is_drag m); [|reflexivity]. cbn [w_dm]. destruct (se_dm (gs_sess (cs_g sj))) as [[b1 ratio]|]; reflexivity.
Qed.
(** A campaign, in turn, is not affected by the density others have left in the planet object: same exceptions, same files. *)
Lemma mc_loop_any_density : forall m W U rnd main V n i s s', nan_keeps (w_X W) -> same_base (is_drag m) V (ob_veh (v_obj (k_mem s))) -> same_base (is_drag m) V (ob_veh (v_obj (k_mem s'))) ->
  ob_tol (v_obj (k_mem s')) = ob_tol (v_obj (k_mem s)) -> k_arr s' = k_arr s -> k_fs s' = k_fs s -> k_ops s' = k_ops s ->
  snd (mc_loop m W U rnd main n i s') = snd (mc_loop m W U rnd main n i s) /\ k_fs (fst (mc_loop m W U rnd main n i s')) = k_fs (fst (mc_loop m W U rnd main n i s)).
Proof.
  intros m W U rnd main V. induction n as [|n IH]; intros i s s' HX B B' Et Ea Ef Eo; cbn [mc_loop]; [auto|].
  destruct (mc_run_alone m W U rnd V _ i (k_mem s) HX B eq_refl) as (A1 & A2). destruct (mc_run_alone m W U rnd V _ i (k_mem s') HX B' Et) as (A1' & A2').
  destruct (mc_run m W U rnd i (k_mem s)) as [mm x], (mc_run m W U rnd i (k_mem s')) as [mm' x']. cbn [fst snd] in *. rewrite <- A1 in A1'. subst x'.
  destruct x as [[[d q]|e]|]; [|cbn [fst snd k_fs]; auto|cbn [fst snd k_fs]; auto]. destruct (A2 _ eq_refl) as (C1 & C2), (A2' _ eq_refl) as (C1' & C2'). cbv zeta. rewrite Ea, Ef, Eo.
  destruct (perform_all_mem (write_run main i d q (record i q (k_arr s))) (record i q (k_arr s)) (k_fs s) (k_ops s)) as (F' & ops' & r & EP). rewrite !EP.
  destruct r as [u|e]; [|auto]. apply (IH _ _ _ HX); auto. cbn [k_mem]. congruence.
Qed.
Lemma broken_exn : forall m load a rnd s s', snd (broken_run m load a rnd s') = snd (broken_run m load a rnd s).
Proof.
  intros m load a rnd s s'. unfold broken_run. destruct (at_shared a) as [c|]; [|reflexivity]. cbv zeta.
  repeat match goal with |- context [match ?x with _ => _ end] => match type of x with mem => fail 1 | _ => destruct x end end; reflexivity.
Qed.
Theorem C124_campaign_unaffected : forall E X load fuel m N main rnd s f, nan_keeps X ->
  let a := vh_atm (veh_of s) in
  match cserve E X load fuel (RunMonteCarlo m N main rnd) s, cserve E X load fuel (RunMonteCarlo m N main rnd) (in_air (mkAtm f (temp_int a) (pressure_int a) (sonic_int a)) s) with
  | Some (s1, answer1), Some (s2, answer2) => answer2 = answer1 /\ cs_fs s2 = cs_fs s1
  | None, None => True
  | _, _ => False
  end.
Proof.
  intros E X load fuel m N main rnd s f HX a. cbn [cserve in_air cs_g cs_at cs_fs gs_sess gs_P gs_href se_obj se_dm]. unfold run_campaign.
  set (W := mkWorld E X (gs_P (cs_g s)) (se_dm (gs_sess (cs_g s))) load fuel). set (o := se_obj (gs_sess (cs_g s))).
  match goal with |- context [mkMem (mkObj ?x (ob_init o) (ob_tol o) (ob_flight o) (ob_heat o)) _] => set (V2 := x) end.
  destruct (setup_for m (cs_at s)) as [U|].
  - unfold runMonteCarlo. cbv zeta. unfold perform. cbn [k_fs k_mem k_arr k_ops]. destruct (makedirs (cs_fs s) main) as [l|e]; [|cbn; auto].
    match goal with |- context [mc_loop m W U rnd main N 0 (mkCamp (mkMem o ?h) ?x ?y ?z)] => set (c1 := mkCamp (mkMem o h) x y z) end.
    match goal with |- context [mc_loop m W U rnd main N 0 (mkCamp (mkMem (mkObj V2 ?i ?t ?g ?w) ?h) ?x ?y ?z)] => set (c2 := mkCamp (mkMem (mkObj V2 i t g w) h) x y z) end.
    assert (B : same_base (is_drag m) (ob_veh o) V2).
    { exists f, (vh_beta (ob_veh o)), (vh_CD (ob_veh o)). destruct (is_drag m); reflexivity. }
    destruct (mc_loop_any_density m W U rnd main (ob_veh o) N 0 c1 c2 HX (same_base_refl _ _) B eq_refl eq_refl eq_refl eq_refl) as (A1 & A2).
    destruct (mc_loop m W U rnd main N 0 c1) as [st r], (mc_loop m W U rnd main N 0 c2) as [st' r']. cbn [fst snd] in *. subst r'. destruct r; cbn [cs_fs]; auto.
  - unfold perform. cbn [k_fs k_mem k_arr k_ops]. destruct (makedirs (cs_fs s) main) as [l|e]; [|cbn; auto]. destruct N as [|N]; [cbn; auto|].
    pose proof (broken_exn m (w_load W) (cs_at s) rnd (mkMem o (gs_href (cs_g s))) (mkMem (mkObj V2 (ob_init o) (ob_tol o) (ob_flight o) (ob_heat o)) (gs_href (cs_g s)))) as Q.
    destruct (broken_run _ _ _ _ (mkMem o _)) as [m1 e1], (broken_run _ _ _ _ (mkMem (mkObj V2 _ _ _ _) _)) as [m2 e2]. cbn [snd] in Q. subst e2. cbn. auto.
Qed.
