(** Property C116: sessions with Monte Carlo campaigns. *)
From Coq Require Import String List.
Require Import Verif.Base Verif.Numpy Verif.NumpyProofs Verif.PlanetModel Verif.PlanetProofs Verif.AeroModel Verif.FlightProofs Verif.HeatModel Verif.TrajectoryModel Verif.TrajectorySpec Verif.TrajectoryProofs Verif.PropTrajectory Verif.PropHeat
  Verif.OrbitScalarModel Verif.OrbiterModel Verif.OrbitModel Verif.CorridorModel Verif.CorridorSpec Verif.CorridorProofs Verif.PropCorridor
  Verif.GuidanceModel Verif.GuidanceSpec Verif.GuidanceProofs Verif.PropControl Verif.PropGuidance Verif.DragModel Verif.PropDrag Verif.MonteModel Verif.MonteSpec Verif.MonteProofs
  Verif.SessionModel Verif.SessionSpec Verif.PropSession Verif.GuidedModel Verif.GuidedSpec Verif.PropGuided Verif.CampaignModel Verif.CampaignSpec.
Local Open Scope R_scope.
Local Open Scope list_scope.

(** ** Campaigns of objects with the same configuration *)
Lemma mc_run_agree : forall m W U rnd i s s', same (v_obj s) (v_obj s') ->
  snd (mc_run m W U rnd i s') = snd (mc_run m W U rnd i s) /\ same (v_obj (fst (mc_run m W U rnd i s))) (v_obj (fst (mc_run m W U rnd i s'))).
Proof.
  intros m W U rnd i [o hr] [o' hr'] Sm. cbn [v_obj] in Sm. unfold mc_run. cbn [v_obj v_href]. destruct (draws m U rnd i) as [d|e]; [|auto].
  destruct (load_density _ U (w_load W) d) as [f|e]; [|auto]. cbv zeta. destruct Sm as (-> & _ & ->).
  set (V := with_density (ob_veh o) f). set (st := mkInit _ _ _ _ _ _ _ _).
  match goal with |- context [match ?x with None => (mkMem (mkObj V st (ob_tol o) (ob_flight o) (ob_heat o)) hr, None) | _ => _ end] => set (q := x) end.
  match goal with |- context [match ?x with None => (mkMem (mkObj V st (ob_tol o) (ob_flight o') (ob_heat o')) hr', None) | _ => _ end] => set (q' := x) end.
  assert (T : twin q q') by (unfold q, q'; destruct (is_drag m); [apply twin_drag|apply twin_lift]). clearbody q q'.
  destruct q as [[o2 [[[a b] r]|e]]|], q' as [[o2' [[[a' b'] r']|e']]|]; cbn [twin] in T; try contradiction.
  - destruct T as (-> & S1 & S2 & ->). cbn [fst snd v_obj]. split; [|apply same_refl]. assert (E : s_hist b' = s_hist b) by (destruct S2 as (x & _ & ->); reflexivity). rewrite E. reflexivity.
  - destruct T as (S & ->). auto.
  - cbn [fst snd v_obj]. split; [reflexivity|repeat split].
Qed.
Lemma perform_mem : forall arr F ops a, exists F' ops' r, forall mm, perform (mkCamp mm arr F ops) a = (mkCamp mm arr F' ops', r).
Proof. intros. unfold perform. cbn [k_fs k_mem k_arr k_ops]. destruct (a F); do 3 eexists; intros; reflexivity. Qed.
Lemma perform_all_mem : forall l arr F ops, exists F' ops' r, forall mm, perform_all (mkCamp mm arr F ops) l = (mkCamp mm arr F' ops', r).
Proof.
  induction l as [|a l IH]; intros arr F ops; cbn [perform_all]; [do 3 eexists; intros; reflexivity|].
  destruct (perform_mem arr F ops a) as (F1 & o1 & r1 & E1). destruct r1 as [u|e].
  - destruct (IH arr F1 o1) as (F2 & o2 & r2 & E2). exists F2, o2, r2. intros mm. rewrite E1. apply E2.
  - exists F1, o1, (Err e). intros mm. rewrite E1. reflexivity.
Qed.
Definition camp_agree (x y : camp * option (res unit)) : Prop :=
  snd y = snd x /\ same (v_obj (k_mem (fst x))) (v_obj (k_mem (fst y))) /\ k_fs (fst y) = k_fs (fst x) /\ k_ops (fst y) = k_ops (fst x).
Lemma mc_loop_agree : forall m W U rnd main n i mm mm' arr F ops, same (v_obj mm) (v_obj mm') ->
  camp_agree (mc_loop m W U rnd main n i (mkCamp mm arr F ops)) (mc_loop m W U rnd main n i (mkCamp mm' arr F ops)).
Proof.
  intros m W U rnd main. induction n as [|n IH]; intros i mm mm' arr F ops Sm; cbn [mc_loop]; [repeat split; try apply Sm|]. cbn [k_mem k_arr k_fs k_ops].
  destruct (mc_run_agree m W U rnd i mm mm' Sm) as (E & S2). destruct (mc_run m W U rnd i mm) as [m1 r1], (mc_run m W U rnd i mm') as [m1' r1']. cbn [fst snd] in *. subst r1'.
  destruct r1 as [[[d q]|e]|]; [|repeat split; apply S2|repeat split; apply S2].
  destruct (perform_all_mem (write_run main i d q (record i q arr)) (record i q arr) F ops) as (F' & ops' & r & EP). rewrite !EP. destruct r as [u|e]; [apply IH; exact S2|repeat split; apply S2].
Qed.
Lemma runMonteCarlo_agree : forall m W U rnd N main s s' F, same (v_obj s) (v_obj s') -> camp_agree (runMonteCarlo m W U rnd N main s F) (runMonteCarlo m W U rnd N main s' F).
Proof.
  intros m W U rnd N main s s' F Sm. unfold runMonteCarlo.
  destruct (perform_mem (map (fun _ => repeat (Some 0) N) summary_names) F [] (fun F => makedirs F main)) as (F' & ops' & r & EP). rewrite !EP.
  destruct r as [u|e]; [apply mc_loop_agree; exact Sm|repeat split; apply Sm].
Qed.
Lemma broken_run_agree : forall m load a rnd s s', same (v_obj s) (v_obj s') ->
  snd (broken_run m load a rnd s') = snd (broken_run m load a rnd s) /\ same (v_obj (fst (broken_run m load a rnd s))) (v_obj (fst (broken_run m load a rnd s'))).
Proof.
  intros m load a rnd s s' Sm. unfold broken_run. destruct (at_shared a) as [c|]; [|auto]. cbv zeta.
  destruct m; repeat match goal with
  | |- context [match ?x with Ok _ => _ | Err _ => _ end] => destruct x
  | |- context [match at_lowhigh a with _ => _ end] => destruct (at_lowhigh a)
  end; cbn [fst snd v_obj]; auto; (split; [reflexivity|]; destruct Sm as (E1 & E2 & E3); repeat split; cbn [ob_veh ob_init ob_tol]; congruence).
Qed.
Lemma run_campaign_agree : forall m W a rnd N main s s' F, same (v_obj s) (v_obj s') -> camp_agree (run_campaign m W a rnd N main s F) (run_campaign m W a rnd N main s' F).
Proof.
  intros m W a rnd N main s s' F Sm. unfold run_campaign. destruct (setup_for m a) as [U|]; [apply runMonteCarlo_agree; auto|].
  destruct (perform_mem (map (fun _ => repeat (Some 0) N) summary_names) F [] (fun F => makedirs F main)) as (F' & ops' & r & EP). rewrite !EP.
  destruct r as [u|e]; [|repeat split; apply Sm]. destruct N as [|N]; [repeat split; apply Sm|].
  destruct (broken_run_agree m (w_load W) a rnd s s' Sm) as (E & S2). destruct (broken_run m (w_load W) a rnd s) as [m1 e1], (broken_run m (w_load W) a rnd s') as [m2 e2].
  cbn [fst snd] in *. subst e2. repeat split; apply S2.
Qed.

Definition cagree (q q' : option (csess * res cans)) : Prop :=
  match q, q' with
  | None, None => True
  | Some (s, a), Some (s', a') => cconfig_of s' = cconfig_of s /\ a' = a
  | _, _ => False
  end.
Lemma cserve_agree : forall E X load fuel c s s', cconfig_of s' = cconfig_of s -> cagree (cserve E X load fuel c s) (cserve E X load fuel c s').
Proof.
  intros E X load fuel c s s' H. unfold cconfig_of in H. assert (HG : gconfig_of (cs_g s') = gconfig_of (cs_g s)) by congruence.
  assert (HA : cs_at s' = cs_at s) by congruence. assert (HF : cs_fs s' = cs_fs s) by congruence. clear H.
  pose proof HG as HG0. unfold gconfig_of, config_of in HG0. injection HG0 as HV HI HT HD HP.
  destruct c; cbn [cserve].
  - pose proof (gserve_agree E X fuel c _ _ HG) as A. destruct (gserve E X fuel c (cs_g s)) as [[g1 a1]|], (gserve E X fuel c (cs_g s')) as [[g2 a2]|]; cbn [gagree] in A; try contradiction; [|exact I].
    destruct A as (A & ->). split; [unfold cconfig_of; cbn [cs_g cs_at cs_fs]; congruence|reflexivity].
  - split; [|reflexivity]. unfold cconfig_of, gconfig_of, config_of. cbn [cs_g cs_at cs_fs gs_sess gs_P se_obj se_dm ob_veh ob_init ob_tol]. congruence.
  - split; [|reflexivity]. unfold cconfig_of. cbn [cs_g cs_at cs_fs]. congruence.
  - split; [|reflexivity]. unfold cconfig_of. cbn [cs_g cs_at cs_fs]. congruence.
  - split; [|reflexivity]. unfold cconfig_of. cbn [cs_g cs_at cs_fs]. congruence.
  - rewrite HA, HF, HP, HD.
    assert (Sm : same (v_obj (mkMem (se_obj (gs_sess (cs_g s))) (gs_href (cs_g s)))) (v_obj (mkMem (se_obj (gs_sess (cs_g s'))) (gs_href (cs_g s'))))) by (repeat split; auto).
    pose proof (run_campaign_agree m (mkWorld E X (gs_P (cs_g s)) (se_dm (gs_sess (cs_g s))) load fuel) (cs_at s) rnd N main _ _ (cs_fs s) Sm) as (A1 & A2 & A3 & _).
    destruct (run_campaign _ _ _ _ _ _ (mkMem (se_obj (gs_sess (cs_g s))) _) _) as [st r], (run_campaign _ _ _ _ _ _ (mkMem (se_obj (gs_sess (cs_g s'))) _) _) as [st' r'].
    cbn [fst snd] in *. subst r'. destruct r as [r|]; [|exact I]. split; [|reflexivity]. unfold cconfig_of, gconfig_of, config_of. cbn [cs_g cs_at cs_fs gs_sess gs_P se_obj se_dm].
    destruct A2 as (B1 & B2 & B3). congruence.
Qed.

(** * C116 *)
(** Two objects with the same configuration, the same campaign settings and the same disk answer every sequence of
    calls alike and leave the same disk, campaigns and exceptions included, whatever each of them has flown before. *)
Theorem C116_no_memory : forall E X load fuel calls s1 s2, cconfig_of s2 = cconfig_of s1 ->
  match crun E X load fuel calls s1, crun E X load fuel calls s2 with
  | Some (s1', answers1), Some (s2', answers2) => answers2 = answers1 /\ cconfig_of s2' = cconfig_of s1'
  | None, None => True
  | _, _ => False
  end.
Proof.
  intros E X load fuel calls. induction calls as [|c l IH]; intros s1 s2 H; cbn [crun]; [auto|].
  pose proof (cserve_agree E X load fuel c s1 s2 H) as A. destruct (cserve E X load fuel c s1) as [[s1' a1]|], (cserve E X load fuel c s2) as [[s2' a2]|]; cbn [cagree] in A; try contradiction; auto. destruct A as (A & ->).
  specialize (IH s1' s2' A). destruct (crun E X load fuel l s1') as [[s1'' l1]|], (crun E X load fuel l s2') as [[s2'' l2]|]; try contradiction; auto. destruct IH as (-> & IH). auto.
Qed.

(** ** What a campaign leaves *)
Definition left_by (m : mode) (W : world) (V : vehicle) : vehicle :=
  if is_drag m then match w_dm W with Some (b, r) => flying_with V (b * r) | None => V end else V.
Lemma mc_run_left : forall m W U rnd i s mm x, nan_keeps (w_X W) -> mc_run m W U rnd i s = (mm, Some (Ok x)) ->
  (exists f, ob_veh (v_obj mm) = in_density (left_by m W (ob_veh (v_obj s))) f) /\ ob_tol (v_obj mm) = ob_tol (v_obj s).
Proof.
  intros m W U rnd i [o hr] mm x HX H. unfold mc_run in H. cbn [v_obj v_href] in *. destruct (draws m U rnd i) as [d|]; [|discriminate].
  destruct (load_density _ U (w_load W) d) as [f|]; [|discriminate]. cbv zeta in H. unfold left_by.
  destruct (is_drag m).
  - destruct (propogateGuidedEntryD _ _ _ _ _ _ _ _ _ _ _ _) as [[o2 [[[a b] r]|]]|] eqn:F; try discriminate. injection H as <- _. cbn [v_obj].
    destruct (C76_left_behind _ _ _ _ _ _ _ _ _ _ _ _ _ _ _ _ F) as (b1 & ratio & E1 & _ & _ & _ & A & B & _). cbn [ob_veh ob_tol] in A, B. rewrite A, B, E1. split; [exists f; reflexivity|reflexivity].
  - destruct (propogateGuidedEntry _ _ _ _ _ _ _ _ _ _) as [[o2 [[[a b] r]|]]|] eqn:F; try discriminate. injection H as <- _. cbn [v_obj].
    destruct (lift_base _ _ _ _ _ _ _ _ _ _ _ _ _ _ HX F) as (A & B). cbn [ob_veh ob_tol] in A, B. rewrite A, B. split; [exists f; reflexivity|reflexivity].
Qed.
Lemma left_twice : forall m W V f, left_by m W (in_density (left_by m W V) f) = in_density (left_by m W V) f.
Proof. intros m W V f. unfold left_by. destruct (is_drag m); [|reflexivity]. destruct (w_dm W) as [[b r]|]; reflexivity. Qed.
Lemma mc_loop_left : forall m W U rnd main n i s st, nan_keeps (w_X W) -> mc_loop m W U rnd main n i s = (st, Some (Ok tt)) ->
  (match n with O => ob_veh (v_obj (k_mem st)) = ob_veh (v_obj (k_mem s)) | _ => exists f, ob_veh (v_obj (k_mem st)) = in_density (left_by m W (ob_veh (v_obj (k_mem s)))) f end) /\
  ob_tol (v_obj (k_mem st)) = ob_tol (v_obj (k_mem s)).
Proof.
  intros m W U rnd main. induction n as [|n IH]; intros i s st HX H; cbn [mc_loop] in H; [injection H as <-; auto|].
  destruct (mc_run m W U rnd i (k_mem s)) as [mm [[[d q]|e]|]] eqn:ER; try discriminate.
  destruct (perform_all_mem (write_run main i d q (record i q (k_arr s))) (record i q (k_arr s)) (k_fs s) (k_ops s)) as (F' & ops' & r & EP). rewrite EP in H. destruct r as [u|e]; [|discriminate].
  destruct (mc_run_left _ _ _ _ _ _ _ _ HX ER) as ((f & A) & B). destruct (IH _ _ _ HX H) as (C & D). cbn [k_mem] in C, D. rewrite D, B. split; [|reflexivity].
  destruct n; [exists f; rewrite C; exact A|]. destruct C as (g & C). exists g. rewrite C, A, left_twice. reflexivity.
Qed.
Lemma run_campaign_left : forall m W a rnd N main s F st, nan_keeps (w_X W) -> run_campaign m W a rnd N main s F = (st, Some (Ok tt)) ->
  (match N with O => v_obj (k_mem st) = v_obj s | _ => exists f, ob_veh (v_obj (k_mem st)) = in_density (left_by m W (ob_veh (v_obj s))) f end) /\
  ob_tol (v_obj (k_mem st)) = ob_tol (v_obj s).
Proof.
  intros m W a rnd N main s F st HX H. unfold run_campaign in H.
  destruct (perform_mem (map (fun _ => repeat (Some 0) N) summary_names) F [] (fun F => makedirs F main)) as (F' & ops' & r & EP).
  destruct (setup_for m a) as [U|].
  - unfold runMonteCarlo in H. rewrite EP in H. destruct r; [|discriminate]. destruct N as [|N]; [cbn [mc_loop] in H; injection H as <-; auto|].
    apply (mc_loop_left _ _ _ _ _ _ _ _ _ HX H).
  - rewrite EP in H. destruct r; [|discriminate]. destruct N; [injection H as <-; auto|]. destruct (broken_run _ _ _ _ _). discriminate.
Qed.
Lemma gafter_density : forall c k f, gafter c (with_veh k (in_density (kn_veh k) f)) = with_veh (gafter c k) (in_density (kn_veh (gafter c k)) f).
Proof.
  intros c [kv ki kt kd kp] f. unfold with_veh. destruct c as [c| | | | | |]; try reflexivity; [destruct c; try reflexivity|]; cbn [gafter kn_veh kn_init kn_tol kn_dm kn_P]; destruct kd as [[b r]|]; reflexivity.
Qed.
Lemma rmap_ok : forall {A B} (f : A -> B) r b, rmap f r = Ok b -> exists a, r = Ok a.
Proof. intros A B f [a|e] b H; [eauto|discriminate]. Qed.
Lemma cserve_after : forall E X load fuel c s s' a k, nan_keeps X -> cserve E X load fuel c s = Some (s', Ok a) -> cholds k s -> cholds (cafter c k) s'.
Proof.
  intros E X load fuel c s s' a k HX H K. destruct c; cbn [cserve] in H.
  - destruct (gserve E X fuel c (cs_g s)) as [[g x]|] eqn:G; [|discriminate]. injection H as <- HA. apply rmap_ok in HA. destruct HA as (x' & ->). unfold cholds in *. cbn [cafter ck_density ck_k cs_g].
    destruct (ck_density k); [eapply gserve_after; eauto|]. destruct K as (f & K). exists f. rewrite <- gafter_density. eapply gserve_after; eauto.
  - injection H as <- _. unfold cholds in *. cbn [cafter ck_density ck_k cs_g]. unfold holds in *. cbn [gs_sess gs_P se_obj se_dm ob_veh ob_tol ob_init with_veh kn_veh kn_init kn_tol kn_dm kn_P].
    destruct (ck_density k); [destruct K as (A & B)|destruct K as (f & A & B)]; rewrite A; split; auto.
  - injection H as <- _. exact K.
  - injection H as <- _. exact K.
  - injection H as <- _. exact K.
  - destruct (run_campaign _ _ _ _ _ _ _ _) as [st [r|]] eqn:RC; [|discriminate]. injection H as <- HA. apply rmap_ok in HA. destruct HA as ([] & ->).
    apply run_campaign_left in RC; [|exact HX]. cbn [v_obj] in RC. destruct RC as (A & B). destruct N as [|N]; cbn [cafter].
    + unfold cholds, holds in *. cbn [cs_g gs_sess gs_P se_obj se_dm]. rewrite A. exact K.
    + destruct A as (f & A). unfold cholds in *. cbn [ck_density ck_k cs_g]. exists f. unfold holds in *. cbn [gs_sess gs_P se_obj se_dm with_veh kn_veh kn_init kn_tol kn_dm kn_P].
      rewrite A, B. unfold left_by. cbn [w_dm]. destruct (ck_density k); [destruct K as (K1 & K2 & K3 & K4 & _)|destruct K as (g & K1 & K2 & K3 & K4 & _); cbn [with_veh kn_veh kn_tol kn_dm kn_P] in *]; rewrite K1, K2, K3, K4; (split; [|auto]); destruct (is_drag m); try reflexivity; destruct (kn_dm (ck_k k)) as [[b r]|]; reflexivity.
Qed.
(** After any history of calls that all returned: campaigns spoil the initial state and the density of the atmosphere, and
    with drag modulation leave the ballistic coefficient after jettison; everything else is what the setters put there. *)
Theorem C116_configuration : forall E X load fuel history s s' answers k, nan_keeps X -> crun E X load fuel history s = Some (s', answers) -> Forall returned answers ->
  cholds k s -> cholds (cafter_all history k) s'.
Proof.
  intros E X load fuel history. induction history as [|c l IH]; intros s s' answers k HX H R K; cbn [crun] in H; [injection H as <- _; exact K|].
  destruct (cserve E X load fuel c s) as [[s1 a]|] eqn:E1; [|discriminate]. destruct (crun E X load fuel l s1) as [[s2 as_]|] eqn:E2; [|discriminate]. injection H as <- <-.
  inversion R as [|? ? (x & ->) R']; subst. unfold cafter_all. cbn [fold_left]. apply (IH s1 s2 as_ (cafter c k) HX E2 R'). eapply cserve_after; eauto.
Qed.
(** So after campaigns, loading the atmosphere and setting the initial state again makes the object as good as a fresh one
    with the settings in force. *)
Theorem C116_reset : forall E X load fuel history s s' answers k a i fresh calls, nan_keeps X -> crun E X load fuel history s = Some (s', answers) -> Forall returned answers ->
  cholds k s -> cholds (cafter_all (history ++ [LoadAtmosphere a; Guided (Plain (SetInitialState i))]) k) fresh -> cs_at fresh = cs_at s' -> cs_fs fresh = cs_fs s' ->
  match crun E X load fuel calls fresh, crun E X load fuel (LoadAtmosphere a :: Guided (Plain (SetInitialState i)) :: calls) s' with
  | Some (f, answers1), Some (s'', answers2) => answers2 = Ok Done :: Ok (GAnswer (Answer Nothing)) :: answers1 /\ cconfig_of s'' = cconfig_of f
  | None, None => True
  | _, _ => False
  end.
Proof.
  intros E X load fuel history s s' answers k a i fresh calls HX H R K F HA HF. pose proof (C116_configuration _ _ _ _ _ _ _ _ _ HX H R K) as K'.
  unfold cafter_all in F. rewrite fold_left_app in F. cbn [fold_left] in F. fold (cafter_all history k) in F. set (k' := cafter_all history k) in *.
  cbn [cafter gafter cholds ck_density ck_k with_veh kn_veh kn_init kn_tol kn_dm kn_P] in F. unfold cholds, holds in F. cbn [ck_density ck_k with_veh kn_veh kn_init kn_tol kn_dm kn_P] in F. destruct F as (B1 & B2 & B3 & B4 & B5).
  cbn [crun cserve gserve serve rmap cs_g gs_sess gs_P gs_href se_obj se_dm ob_veh ob_init ob_tol ob_flight ob_heat cs_at cs_fs].
  match goal with |- context [crun E X load fuel calls (mkCS ?x ?y ?z)] => set (t := mkCS x y z) end.
  assert (G : cconfig_of t = cconfig_of fresh).
  { unfold cconfig_of, gconfig_of, config_of, t. cbn [cs_g cs_at cs_fs gs_sess gs_P se_obj se_dm ob_veh ob_init ob_tol]. rewrite B1, B2, B3, B4, B5, HA, HF.
    unfold cholds, holds in K'. destruct (ck_density k'); [destruct K' as (A1 & A2 & A3 & A4 & _)|destruct K' as (g & A1 & A2 & A3 & A4 & _); cbn [with_veh kn_veh kn_tol kn_dm kn_P] in *]; rewrite A1, A2, A3, A4; reflexivity. }
  pose proof (C116_no_memory E X load fuel calls fresh t G) as M. destruct (crun E X load fuel calls fresh) as [[f l1]|], (crun E X load fuel calls t) as [[f' l2]|]; try contradiction; auto. destruct M as (-> & M). auto.
Qed.

(** ** Runs that were not set up *)
Lemma mk_parents_made : forall F todo done l, mk_parents F done todo = Ok l -> forall x, In x l -> exists p r, x = Mkdir p /\ F p = None /\ done ++ todo = p ++ r.
Proof.
  intros F. induction todo as [|y todo IH]; intros done l H x Hx; cbn [mk_parents] in H.
  - destruct (F done) as [[| |]|] eqn:EF; try discriminate; cbn [rbind] in H; injection H as <-; [destruct Hx|]. destruct Hx as [<-|[]]. exists done, []. auto.
  - assert (G : forall l', mk_parents F (done ++ [y]) todo = Ok l' -> In x l' -> exists p r, x = Mkdir p /\ F p = None /\ done ++ y :: todo = p ++ r).
    { intros l' H' Hx'. destruct (IH _ _ H' _ Hx') as (p & r & A & B & C). exists p, r. rewrite <- app_assoc in C. auto. }
    destruct (F done) as [[| |]|] eqn:EF; try discriminate; [eapply G; eauto|].
    destruct (mk_parents F (done ++ [y]) todo) as [l'|] eqn:E; cbn [rbind] in H; [|discriminate]. injection H as <-. destruct Hx as [<-|Hx]; [|eapply G; eauto]. exists done, (y :: todo). auto.
Qed.
Lemma applies_mkdirs : forall l F p, (forall x, In x l -> exists q, x = Mkdir q) -> applies F l p = F p \/ (applies F l p = Some Dir /\ In (Mkdir p) l).
Proof.
  unfold applies. induction l as [|x l IH] using rev_ind; intros F p H; [left; reflexivity|]. rewrite fold_left_app. cbn [fold_left].
  destruct (H x) as (q & ->); [apply in_or_app; right; left; reflexivity|]. cbn [apply]. unfold put at 1 2. destruct (path_dec q p) as [->|N]; [right; split; [reflexivity|apply in_or_app; right; left; reflexivity]|].
  destruct (IH F p) as [A|(A & B)]; [intros; apply H; apply in_or_app; auto|left; exact A|right; split; [exact A|apply in_or_app; auto]].
Qed.
Lemma makedirs_only : forall F main l, main <> [] -> makedirs F main = Ok l -> only_made main F (applies F l).
Proof.
  intros F main l N H. unfold makedirs in H. destruct (F main) eqn:EM; [discriminate|]. destruct (mk_parents F [] (removelast main)) as [l'|] eqn:E; cbn [rbind] in H; [|discriminate]. injection H as <-.
  assert (M : main = removelast main ++ [last main ""%string]) by (apply app_removelast_last; exact N).
  assert (P : forall x, In x (l' ++ [Mkdir main]) -> exists p r, x = Mkdir p /\ F p = None /\ main = p ++ r).
  { intros x Hx. apply in_app_or in Hx. destruct Hx as [Hx|[<-|[]]]; [|exists main, []; rewrite app_nil_r; auto].
    destruct (mk_parents_made _ _ _ _ E _ Hx) as (p & r & A & B & C). exists p, (r ++ [last main ""%string]). rewrite app_assoc, <- C. auto. }
  split.
  - unfold applies. rewrite fold_left_app. cbn [fold_left apply]. unfold put. destruct (path_dec main main); congruence.
  - intros p Hp. destruct (applies_mkdirs (l' ++ [Mkdir main]) F p) as [A|(A & B)]; [intros x Hx; destruct (P x Hx) as (q & _ & -> & _); eauto|contradiction|].
    destruct (P _ B) as (q & r & C1 & C2 & C3). injection C1 as <-. eauto.
Qed.
Definition some {A} (x : option A) : bool := match x with Some _ => true | None => false end.
Definition family_eqb (f g : family) : bool := match f, g with Lift, Lift | Drag, Drag | Earth, Earth => true | _, _ => false end.
Definition onb (f : family) (l : list creq) : bool := existsb (fun c => match sets_up c with Some g => family_eqb f g | None => false end) l.
Lemma onb_iff : forall f l, onb f l = true <-> was_set_up f l.
Proof.
  intros f l. unfold onb, was_set_up. rewrite existsb_exists. split; intros (c & Hc & H); exists c; (split; [exact Hc|]).
  - destruct (sets_up c) as [g|]; [|discriminate]. destruct f, g; cbn in H; congruence.
  - rewrite H. destruct f; reflexivity.
Qed.
Lemma attrs_history : forall E X load fuel l s s' answers, crun E X load fuel l s = Some (s', answers) ->
  let a0 := cs_at s in let a := cs_at s' in
  some (at_shared a) = (some (at_shared a0) || onb Lift l || onb Drag l || onb Earth l)%bool /\ some (at_lowhigh a) = (some (at_lowhigh a0) || onb Lift l || onb Drag l)%bool /\
  some (at_sd a) = (some (at_sd a0) || onb Earth l)%bool /\ some (at_lift a) = (some (at_lift a0) || onb Lift l)%bool /\ some (at_drag a) = (some (at_drag a0) || onb Drag l || onb Earth l)%bool.
Proof.
  induction l as [|c l IH]; intros s s' answers H; cbn [crun] in H.
  - injection H as <- _. cbv zeta. unfold onb. cbn [existsb]. rewrite !Bool.orb_false_r. auto.
  - destruct (cserve E X load fuel c s) as [[s1 a1]|] eqn:E1; [|discriminate]. destruct (crun E X load fuel l s1) as [[s2 as_]|] eqn:E2; [|discriminate]. injection H as <- <-.
    specialize (IH _ _ _ E2). cbv zeta in IH |- *. destruct IH as (-> & -> & -> & -> & ->).
    assert (O : forall f, onb f (c :: l) = (match sets_up c with Some g => family_eqb f g | None => false end || onb f l)%bool) by reflexivity. rewrite !O.
    assert (A : match sets_up c with
      | None => cs_at s1 = cs_at s
      | Some g => some (at_shared (cs_at s1)) = true /\ some (at_lowhigh (cs_at s1)) = (some (at_lowhigh (cs_at s)) || family_eqb Lift g || family_eqb Drag g)%bool /\
          some (at_sd (cs_at s1)) = (some (at_sd (cs_at s)) || family_eqb Earth g)%bool /\ some (at_lift (cs_at s1)) = (some (at_lift (cs_at s)) || family_eqb Lift g)%bool /\
          some (at_drag (cs_at s1)) = (some (at_drag (cs_at s)) || family_eqb Drag g || family_eqb Earth g)%bool
      end).
    { destruct c; cbn [sets_up cserve] in *.
      - destruct (gserve E X fuel c (cs_g s)) as [[g x]|]; [|discriminate]. injection E1 as <- _. reflexivity.
      - injection E1 as <- _. reflexivity.
      - injection E1 as <- _. cbn. rewrite ?Bool.orb_true_r, ?Bool.orb_false_r. auto.
      - injection E1 as <- _. cbn. rewrite ?Bool.orb_true_r, ?Bool.orb_false_r. auto.
      - injection E1 as <- _. cbn. rewrite ?Bool.orb_true_r, ?Bool.orb_false_r. auto.
      - destruct (run_campaign _ _ _ _ _ _ _ _) as [st [r|]]; [|discriminate]. injection E1 as <- _. reflexivity. }
    destruct (sets_up c) as [g|]; [|rewrite A; auto]. destruct A as (-> & -> & -> & -> & ->).
    destruct g; cbn [family_eqb Datatypes.orb]; rewrite ?Bool.orb_true_r, ?Bool.orb_false_r; cbn [Datatypes.orb]; rewrite ?Bool.orb_true_r; auto.
Qed.

(** A run whose setup has never been called raises at its first sample, after it has made its folder, which stays
    there empty.  The vehicle is as it was unless a drag run meets the settings of a lift setup: then it stays with the
    drawn initial state and density. *)
Theorem C116_needs_setup : forall E X load fuel history s s1 answers m N main rnd l, cs_at s = no_attrs -> crun E X load fuel history s = Some (s1, answers) ->
  ~ prepared m history -> main <> [] -> makedirs (cs_fs s1) main = Ok l ->
  exists s2 e, cserve E X load fuel (RunMonteCarlo m (Datatypes.S N) main rnd) s1 = Some (s2, Err e) /\ only_made main (cs_fs s1) (cs_fs s2) /\ cs_at s2 = cs_at s1 /\
    ((forall f, ~ was_set_up f history) -> e = TypeError) /\
    (cs_g s2 = cs_g s1 \/
     (m = MCD \/ m = MCD2) /\ was_set_up Lift history /\ e = AttributeError /\
     exists f i, let o := se_obj (gs_sess (cs_g s1)) in se_obj (gs_sess (cs_g s2)) = mkObj (in_density (ob_veh o) f) i (ob_tol o) (ob_flight o) (ob_heat o)).
Proof.
  intros E X load fuel history s s1 answers m N main rnd l H0 H NP NM HL. destruct (attrs_history _ _ _ _ _ _ _ _ H) as (A1 & A2 & A3 & A4 & A5).
  rewrite H0 in A1, A2, A3, A4, A5. cbn [no_attrs at_shared at_lowhigh at_sd at_lift at_drag some Datatypes.orb] in A1, A2, A3, A4, A5.
  assert (U : setup_for m (cs_at s1) = None).
  { unfold setup_for. destruct (at_shared (cs_at s1)) as [c|]; [|reflexivity]. destruct m; cbn [prepared] in NP; rewrite <- !onb_iff in NP.
    - destruct (at_lowhigh (cs_at s1)); [|reflexivity]. destruct (at_lift (cs_at s1)); [|reflexivity]. exfalso. apply NP. symmetry. exact A4.
    - destruct (at_lowhigh (cs_at s1)); [|reflexivity]. destruct (at_lift (cs_at s1)); [|reflexivity]. exfalso. apply NP. symmetry. exact A4.
    - destruct (at_lowhigh (cs_at s1)); [|reflexivity]. destruct (at_drag (cs_at s1)); [|reflexivity]. cbn in A2, A5. exfalso. apply NP. destruct (onb Drag history); [auto|]. right. rewrite !Bool.orb_false_r in *. auto.
    - destruct (at_lowhigh (cs_at s1)); [|reflexivity]. destruct (at_drag (cs_at s1)); [|reflexivity]. cbn in A2, A5. exfalso. apply NP. destruct (onb Drag history); [auto|]. right. rewrite !Bool.orb_false_r in *. auto.
    - destruct (at_sd (cs_at s1)); [|reflexivity]. cbn in A3. exfalso. apply NP. auto. }
  cbn [cserve]. unfold run_campaign. rewrite U. unfold perform. cbn [k_fs k_mem k_arr k_ops]. rewrite HL.
  destruct (broken_run m load (cs_at s1) rnd (mkMem (se_obj (gs_sess (cs_g s1))) (gs_href (cs_g s1)))) as [mm e] eqn:B. cbn [w_load]. rewrite B.
  eexists. exists e. split; [reflexivity|]. cbn [cs_fs cs_at cs_g gs_sess se_obj k_fs k_mem]. split; [apply makedirs_only; auto|]. split; [reflexivity|].
  assert (K : forall g, mkGS (mkSess (v_obj (mkMem (se_obj (gs_sess g)) (gs_href g))) (se_dm (gs_sess g))) (gs_P g) (v_href (mkMem (se_obj (gs_sess g)) (gs_href g))) = g) by (intros [[o d] P h]; reflexivity).
  unfold broken_run in B. destruct (at_shared (cs_at s1)) as [c|].
  2:{ injection B as <- <-. split; [auto|]. left. apply K. }
  split.
  { intros NF. exfalso. cbn in A1. assert (Q : forall f, onb f history = false) by (intros f; destruct (onb f history) eqn:Ef; auto; apply onb_iff in Ef; exfalso; eapply NF; eauto). rewrite !Q in A1. discriminate. }
  cbv zeta in B. destruct m; try (left; match type of B with context [match ?x with Ok _ => _ | Err _ => _ end] => destruct x end; injection B as <- <-; apply K).
  all: destruct (draws _ _ _ _) as [d|e0] in B; [|left; injection B as <- <-; apply K].
  all: destruct (at_lowhigh (cs_at s1)) as [lh|]; [|left; destruct (load_rows _ _ _ _) in B; injection B as <- <-; apply K].
  all: destruct (load_density _ _ _ _) as [f|e0] in B; [|left; injection B as <- <-; apply K].
  all: injection B as <- <-; right; split; [auto|]; split; [|split; [reflexivity|cbv zeta; cbn [v_obj]; eexists; eexists; reflexivity]].
  all: cbn in A2; apply onb_iff; destruct (onb Lift history); [reflexivity|]; exfalso; apply NP; left; apply onb_iff; symmetry; exact A2.
Qed.

(** The setups share their settings: after a lift setup and then a drag setup, a lift run takes everything but LD, its time
    step and the atmosphere factor from the drag setup. *)
Theorem C116_setups_mix : forall E X load fuel s m N main rnd np nm fs_ hc lc ac hic tc km efpa LD ts dt mt sg np' nm' fs' hc' lc' ac' hic' tc' km' efpa' b1' te' tx' dt' mt',
  is_drag m = false ->
  let both := crun E X load fuel [SetupMonteCarloSimulation np nm fs_ hc lc ac hic tc km efpa LD ts dt mt sg;
      SetupMonteCarloSimulationD np' nm' fs' hc' lc' ac' hic' tc' km' efpa' b1' te' tx' dt' mt'; RunMonteCarlo m N main rnd] s in
  let one := crun E X load fuel [SetupMonteCarloSimulation np' nm' fs' hc' lc' ac' hic' tc' km' efpa' LD ts dt' mt' sg; RunMonteCarlo m N main rnd] s in
  match both, one with
  | Some (s1, answers1), Some (s2, answers2) => answers1 = Ok Done :: answers2 /\ cs_fs s1 = cs_fs s2 /\ cs_g s1 = cs_g s2
  | None, None => True
  | _, _ => False
  end.
Proof.
  intros. unfold both, one. cbn [crun cserve cs_g cs_at cs_fs at_shared at_lowhigh at_sd at_lift at_drag]. unfold run_campaign, setup_for.
  cbn [at_shared at_lowhigh at_sd at_lift at_drag sh_npos sh_nmonte sh_files sh_height sh_avg sh_total sh_km sh_efpa sh_copy sh_dt sh_maxTime].
  destruct m; try discriminate; destruct (runMonteCarlo _ _ _ _ _ _ _ _) as [st [r|]]; auto.
Qed.

(** A run after its own setup, with any other calls but setups in between, is the campaign of C78-C80 with exactly the
    settings of that setup - the initial state is the one of the moment of the setup, everything else that of the run. *)
Lemma no_setup_attrs : forall E X load fuel c s s' a, cserve E X load fuel c s = Some (s', a) -> sets_up c = None -> cs_at s' = cs_at s.
Proof.
  intros E X load fuel c s s' a H N. destruct c; try discriminate N; cbn [cserve] in H.
  - destruct (gserve _ _ _ _ _) as [[g' x]|]; [injection H as <- _; reflexivity|discriminate].
  - injection H as <- _. reflexivity.
  - destruct (run_campaign _ _ _ _ _ _ _ _) as [st [r|]]; [injection H as <- _; reflexivity|discriminate].
Qed.
Lemma between_attrs : forall E X load fuel l s s' a, crun E X load fuel l s = Some (s', a) -> Forall (fun c => sets_up c = None) l -> cs_at s' = cs_at s.
Proof.
  intros E X load fuel l. induction l as [|c l IH]; intros s s' a H N; cbn [crun] in H; [injection H as <- _; auto|]. apply Forall_cons_iff in N. destruct N as (N1 & N2).
  destruct (cserve _ _ _ _ _ _) as [[s1 a1]|] eqn:C; [|discriminate]. destruct (crun _ _ _ _ l s1) as [[s2 a2]|] eqn:R; [|discriminate]. injection H as <- _.
  rewrite (IH _ _ _ R N2). apply (no_setup_attrs _ _ _ _ _ _ _ _ C N1).
Qed.
Lemma loop_same : forall m W U U' rnd main, (forall i mm, mc_run m W U rnd i mm = mc_run m W U' rnd i mm) ->
  forall n i s, mc_loop m W U rnd main n i s = mc_loop m W U' rnd main n i s.
Proof.
  intros m W U U' rnd main H. induction n as [|n IH]; intros i s; cbn [mc_loop]; [reflexivity|]. rewrite H.
  destruct (mc_run _ _ _ _ _ _) as [mm [[[d q]|e]|]]; auto. cbv zeta. destruct (perform_all _ _) as [s' [u|e]]; auto.
Qed.
Theorem C116_own_setup : forall E X load fuel setup between s s1 answers m N main rnd U,
  sets_up setup = Some (own m) -> settings_of setup (se_obj (gs_sess (cs_g s))) = Some U -> Forall (fun c => sets_up c = None) between ->
  crun E X load fuel (setup :: between) s = Some (s1, answers) ->
  cserve E X load fuel (RunMonteCarlo m N main rnd) s1 = campaign_call E X load fuel m U rnd N main s1.
Proof.
  intros E X load fuel setup between s s1 answers m N main rnd U O HU B H. cbn [crun] in H.
  destruct (cserve _ _ _ _ setup s) as [[s0 a0]|] eqn:C; [|discriminate]. destruct (crun _ _ _ _ between s0) as [[s2 a2]|] eqn:R; [|discriminate]. injection H as <- _.
  pose proof (between_attrs _ _ _ _ _ _ _ _ R B) as A. clear R B. cbn [cserve]. unfold run_campaign, campaign_call. rewrite A.
  destruct setup; try discriminate O; cbn [cserve] in C; injection C as <- _; cbn [settings_of] in HU; injection HU as <-; cbn [cs_at];
    unfold setup_for; cbn [at_shared at_lowhigh at_sd at_lift at_drag sh_npos sh_nmonte sh_files sh_height sh_avg sh_total sh_km sh_efpa sh_copy sh_dt sh_maxTime fst snd];
    destruct m; try discriminate O; unfold setupMonteCarloSimulation, setupMonteCarloSimulationD, setupMonteCarloSimulationD_Earth, runMonteCarlo; cbv zeta.
  1,2: destruct (perform _ _) as [c1 [u|e]]; [|reflexivity]; destruct (mc_loop _ _ _ _ _ _ _ _) as [st [[u'|e]|]]; reflexivity.
  all: destruct (perform _ _) as [c1 [u|e]]; [|reflexivity];
    match goal with |- match ?x with _ => _ end = match ?y with _ => _ end => assert (Q : x = y) by (apply loop_same; intros; reflexivity); rewrite Q; destruct y as [st [[u'|e]|]]; reflexivity end.
Qed.

(** What a run raises after only the setup of another family, when the sample it draws with those settings is a good one:
    AttributeError, but ValueError when a drag run meets the settings of an Earth setup.  A drag run after a lift setup
    gets as far as the entry point of its sample. *)
Lemma rows_without_bounds : forall U U' load file rows, col_height U' = col_height U -> col_avg U' = col_avg U -> col_total U' = col_total U -> mc_km U' = mc_km U ->
  col_low U' = col_avg U -> col_high U' = col_avg U -> load_rows true U load file = Ok rows -> exists rows', load_rows false U' load file = Ok rows'.
Proof.
  intros U U' load file rows H1 H2 H3 H4 H5 H6 H. unfold load_rows in *. rewrite H1, H2, H3, H4, H5, H6. destruct (load file) as [t|e]; [|discriminate]. cbn [rbind] in *.
  destruct (Nat.leb (length t) 1); [discriminate|]. destruct (forallb _ t); [discriminate|]. revert rows H.
  induction t as [|r t IH]; intros rows H; cbn [collect] in *; [eexists; reflexivity|].
  destruct (entry r (col_height U)) as [h|e]; [|discriminate]. cbn [rbind] in *. destruct (entry r (col_avg U)) as [a|e]; [|discriminate]. cbn [rbind] in *.
  destruct (entry r (col_total U)) as [b|e]; [|discriminate]. cbn [rbind] in *. destruct (entry r (col_sd U)) as [c|e]; [|discriminate]. cbn [rbind] in *.
  match type of H with context [collect ?g t] => destruct (collect g t) as [rs|e] eqn:C; [|discriminate] end. destruct (IH _ eq_refl) as (rs' & ->). cbn [rbind]. eexists. reflexivity.
Qed.
Theorem C116_wrong_setup : forall E X load fuel setup between s s1 answers m N main rnd U l d g f,
  cs_at s = no_attrs -> crun E X load fuel (setup :: between) s = Some (s1, answers) -> Forall (fun c => sets_up c = None) between ->
  settings_of setup (se_obj (gs_sess (cs_g s))) = Some U -> sets_up setup = Some f -> f <> own m -> makedirs (cs_fs s1) main = Ok l ->
  draws m U rnd 0 = Ok d -> load_density (match f with Earth => true | _ => false end) U load d = Ok g ->
  exists s2, cserve E X load fuel (RunMonteCarlo m (Datatypes.S N) main rnd) s1 =
      Some (s2, Err (match f, m with Earth, (MCD | MCD2) => ValueError | _, _ => AttributeError end)) /\
    match f, m with
    | Lift, (MCD | MCD2) =>
        let o := se_obj (gs_sess (cs_g s1)) in let i := ob_init (se_obj (gs_sess (cs_g s))) in
        se_obj (gs_sess (cs_g s2)) = mkObj (in_density (ob_veh o) g)
          (mkInit (h0_km i) (theta0_deg i) (phi0_deg i) (v0_kms i) (psi0_deg i) (d_efpa d) (drange0_km i) (heatLoad0 i)) (ob_tol o) (ob_flight o) (ob_heat o)
    | _, _ => cs_g s2 = cs_g s1
    end.
Proof.
  intros E X load fuel setup between s s1 answers m N main rnd U l d g f H0 H B HU O Nf HL HD HG. cbn [crun] in H.
  destruct (cserve _ _ _ _ setup s) as [[s0 a0]|] eqn:C; [|discriminate]. destruct (crun _ _ _ _ between s0) as [[s2 a2]|] eqn:R; [|discriminate]. injection H as <- _.
  pose proof (between_attrs _ _ _ _ _ _ _ _ R B) as A. clear R B. cbn [cserve]. unfold run_campaign. rewrite A.
  assert (K : forall g, mkGS (mkSess (v_obj (mkMem (se_obj (gs_sess g)) (gs_href g))) (se_dm (gs_sess g))) (gs_P g) (v_href (mkMem (se_obj (gs_sess g)) (gs_href g))) = g) by (intros [[o0 d0] P h]; reflexivity).
  destruct setup; try discriminate O; cbn [cserve] in C; injection C as <- _; cbn [settings_of] in HU; injection HU as <-; cbn [sets_up] in O; injection O as <-; cbn [cs_at];
    rewrite H0; cbn [no_attrs at_shared at_lowhigh at_sd at_lift at_drag];
    unfold setup_for, broken_run; cbn [at_shared at_lowhigh at_sd at_lift at_drag sh_npos sh_nmonte sh_files sh_height sh_avg sh_total sh_km sh_efpa sh_copy sh_dt sh_maxTime fst snd];
    unfold perform; cbn [k_fs k_mem k_arr k_ops]; rewrite HL; destruct m; try (destruct Nf; reflexivity); cbv zeta; cbn [w_load].
  all: unfold setupMonteCarloSimulation, setupMonteCarloSimulationD, setupMonteCarloSimulationD_Earth in *.
  (* lift setup, drag runs *)
  1,2: match goal with |- context [draws ?m ?u ?r 0] => replace (draws m u r 0) with (Ok d : res draw) by (symmetry; exact HD) end;
    match goal with |- context [load_density false ?u ?ld ?dd] => replace (load_density false u ld dd) with (Ok g : res (R -> R)) by (symmetry; exact HG) end;
    eexists; split; [reflexivity|]; cbv zeta; reflexivity.
  (* lift setup, Earth run *)
  1: match goal with |- context [draws ?m ?u ?r 0] => replace (draws m u r 0) with (Ok d : res draw) by (symmetry; exact HD) end; eexists; split; [reflexivity|apply K].
  (* lift runs *)
  1,2,4,5: unfold draws in HD; cbn [is_drag mc_files mc_nmonte mc_efpa mc_sigma mc_LD] in HD; change (2 * 0)%nat with 0%nat in HD; change (0 + 1)%nat with 1%nat in HD; change (3 * 0)%nat with 0%nat in HD;
    destruct (choice _ _); [|discriminate]; cbn [rbind] in *; destruct (randint1 _ _); [|discriminate]; cbn [rbind] in *; destruct (normal efpa _); [|discriminate];
    eexists; split; [reflexivity|apply K].
  (* drag setup, Earth run *)
  1: match goal with |- context [draws ?m ?u ?r 0] => replace (draws m u r 0) with (Ok d : res draw) by (symmetry; exact HD) end; eexists; split; [reflexivity|apply K].
  (* Earth setup, drag runs *)
  all: match goal with |- context [draws ?m ?u ?r 0] => replace (draws m u r 0) with (Ok d : res draw) by (symmetry; exact HD) end;
    unfold load_density in HG; destruct (load_rows true _ _ _) as [rows|e] eqn:L; [|discriminate];
    match goal with |- context [load_rows false ?u ?ld _] => destruct ((fun a1 a2 a3 a4 a5 a6 => rows_without_bounds _ u ld _ _ a1 a2 a3 a4 a5 a6 L) eq_refl eq_refl eq_refl eq_refl eq_refl eq_refl) as (rows' & ->) end;
    eexists; split; [reflexivity|apply K].
Qed.
