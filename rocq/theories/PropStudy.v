(** C112 and C113: several Monte Carlo campaigns on one file system. *)
From Coq Require Import String List Arith Lia.
Require Import Verif.Base Verif.TrajectoryModel Verif.GuidanceModel Verif.MonteModel Verif.MonteSpec Verif.MonteProofs Verif.PropMonte
  Verif.StudyModel Verif.StudySpec.
Local Open Scope list_scope.

(** * Operations whose parent folder exists *)
Fixpoint legal (F : fs) (l : list op) : Prop :=
  match l with [] => True | x :: l' => (target x = [] \/ F (removelast (target x)) <> None) /\ legal (apply F x) l' end.
Lemma apply_at : forall F x p, apply F x p = F p \/ p = target x.
Proof. intros F [] q; cbn [apply target]; unfold put; destruct (path_dec p q); auto. Qed.
Lemma apply_keeps : forall F x p, F p <> None -> apply F x p <> None.
Proof. intros F [] q H; cbn [apply]; unfold put; destruct (path_dec p q); auto; discriminate. Qed.
Lemma apply_target : forall F x, apply F x (target x) <> None.
Proof. intros F []; cbn [apply target]; unfold put; destruct (path_dec p p); try discriminate; congruence. Qed.
Lemma applies_keeps : forall l F p, F p <> None -> applies F l p <> None.
Proof. induction l as [|x l IH]; intros F p H; auto. rewrite applies_cons. apply IH. now apply apply_keeps. Qed.
Lemma legal_app : forall a b F, legal F (a ++ b) <-> legal F a /\ legal (applies F a) b.
Proof.
  induction a as [|x a IH]; intros b F; cbn [legal app]; [tauto|]. rewrite IH, applies_cons. tauto.
Qed.
Lemma removelast_snoc : forall {A} (l : list A) x, removelast (l ++ [x]) = l.
Proof. intros. apply removelast_last. Qed.
Lemma legal_sane : forall l F, sane F -> legal F l -> sane (applies F l).
Proof.
  induction l as [|x l IH]; intros F HS HL; auto. cbn [legal] in HL. destruct HL as [H1 H2]. rewrite applies_cons. apply IH; auto.
  intros p r Hp. destruct (apply_at F x p) as [E|E]; [|exfalso; revert Hp; rewrite E; apply apply_target].
  rewrite E in Hp. destruct (apply_at F x (p ++ r)) as [E'|E']; [rewrite E'; auto|]. exfalso.
  destruct r as [|a r] using rev_ind; [rewrite app_nil_r in E'; apply (apply_target F x); rewrite <- E', E; exact Hp|].
  rewrite <- E' in H1. destruct H1 as [H1|H1]; [apply app_eq_nil in H1; destruct H1 as [_ H1]; now apply app_eq_nil in H1 as [_ ?]|].
  rewrite app_assoc, removelast_snoc in H1. apply H1. apply HS; auto.
Qed.
Lemma legal_parents : forall F todo done l G, mk_parents F done todo = Ok l -> (forall p, F p <> None -> G p <> None) ->
  (done = [] \/ G (removelast done) <> None) -> legal G l /\ applies G l (done ++ todo) <> None.
Proof.
  intros F. induction todo as [|x todo IH]; intros done l G H HG HD; cbn [mk_parents] in H.
  - rewrite app_nil_r. destruct (F done) as [[]|] eqn:E; cbn [rbind] in H; try discriminate; injection H as <-.
    + cbn. split; auto. apply HG. congruence.
    + cbn [legal applies fold_left target]. split; auto. apply (apply_target G (Mkdir done)).
  - assert (X : forall l0 G0, mk_parents F (done ++ [x]) todo = Ok l0 -> (forall p, F p <> None -> G0 p <> None) -> G0 done <> None -> legal G0 l0 /\ applies G0 l0 (done ++ x :: todo) <> None).
    { intros l0 G0 H0 HG0 HD0. replace (done ++ x :: todo) with ((done ++ [x]) ++ todo) by (rewrite <- app_assoc; reflexivity).
      apply IH; auto. right. rewrite removelast_snoc. auto. }
    destruct (F done) as [[]|] eqn:E; try discriminate.
    + apply X; auto. apply HG. congruence.
    + destruct (mk_parents F (done ++ [x]) todo) as [l0|] eqn:E0; cbn [rbind] in H; [|discriminate]. injection H as <-.
      destruct (X l0 (apply G (Mkdir done)) eq_refl) as [A B].
      * intros p Hp. apply apply_keeps. auto.
      * apply (apply_target G (Mkdir done)).
      * split; [cbn [legal target]; auto|exact B].
Qed.
Lemma legal_makedirs : forall F p l, makedirs F p = Ok l -> legal F l.
Proof.
  intros F p l H. unfold makedirs in H. destruct (F p); [discriminate|]. destruct (mk_parents F [] (removelast p)) as [l0|] eqn:E; cbn [rbind] in H; [|discriminate].
  injection H as <-. destruct (legal_parents F _ _ _ F E) as [A B]; auto. apply legal_app. split; auto. cbn [legal target]. auto.
Qed.
Lemma legal_savetxt : forall F p c l, savetxt F p c = Ok l -> legal F l.
Proof.
  intros F p c l H. unfold savetxt in H. destruct (F (removelast p)) as [[]|] eqn:E; try discriminate.
  assert (l = [Open p c; Close p c]) as -> by (destruct (F p) as [[]|]; congruence).
  cbn [legal target]. repeat split; right; try apply apply_keeps; congruence.
Qed.
Definition lawful (a : request) : Prop := forall F l, a F = Ok l -> legal F l.
Lemma write_run_lawful : forall main i d q arr, Forall lawful (write_run main i d q arr).
Proof.
  intros. unfold write_run. constructor; [intros F l H; eapply legal_makedirs; eauto|]. apply Forall_app. split; apply Forall_map; apply Forall_forall; intros x _ F l H; eapply legal_savetxt; eauto.
Qed.
Lemma perform_all_lawful : forall l s s' r F0, Forall lawful l -> perform_all s l = (s', r) -> k_fs s = applies F0 (k_ops s) -> legal F0 (k_ops s) ->
  k_fs s' = applies F0 (k_ops s') /\ legal F0 (k_ops s').
Proof.
  induction l as [|a l IH]; intros s s' r F0 HL H E L; cbn [perform_all] in H; [injection H as <- _; auto|].
  inversion HL as [|? ? La Ll]; subst. unfold perform in H. destruct (a (k_fs s)) as [o|] eqn:Ea; [|injection H as <- _; auto].
  eapply IH; [exact Ll|exact H| |]; cbn [k_fs k_ops].
  - rewrite applies_app, <- E. auto.
  - apply legal_app. split; auto. rewrite <- E. apply La. auto.
Qed.
Lemma loop_lawful : forall m W S rnd main n i s s' out F0, mc_loop m W S rnd main n i s = (s', out) -> k_fs s = applies F0 (k_ops s) -> legal F0 (k_ops s) ->
  k_fs s' = applies F0 (k_ops s') /\ legal F0 (k_ops s').
Proof.
  intros m W S rnd main. induction n as [|n IH]; intros i s s' out F0 H E L; cbn [mc_loop] in H; [injection H as <- _; auto|].
  destruct (mc_run m W S rnd i (k_mem s)) as [mm [[[d q]|e]|]]; [|injection H as <- _; auto|injection H as <- _; auto].
  destruct (perform_all _ _) as [s1 [[]|e]] eqn:EP.
  - destruct (perform_all_lawful _ _ _ _ F0 (write_run_lawful _ _ _ _ _) EP) as [A B]; auto. eapply IH; eauto.
  - injection H as <- _. eapply (perform_all_lawful _ _ _ _ F0 (write_run_lawful _ _ _ _ _) EP); auto.
Qed.
Lemma own_lawful : forall c F, k_fs (fst (on_its_own c F)) = applies F (k_ops (fst (on_its_own c F))) /\ legal F (k_ops (fst (on_its_own c F))).
Proof.
  intros c F. unfold on_its_own, runMonteCarlo, perform. cbn [k_fs]. destruct (makedirs F (cp_main c)) as [l|] eqn:E; [|cbn; auto].
  cbn [k_mem k_arr k_ops]. destruct (mc_loop _ _ _ _ _ _ _ _) as [s' out] eqn:EL. cbn [fst]. eapply loop_lawful; [exact EL|reflexivity|].
  cbn [k_ops]. eapply legal_makedirs; eauto.
Qed.

(** * C112 *)
Lemma event_ops : forall F v, exists pre post, k_ops (fst (on_its_own (fst v) F)) = pre ++ post /\ after_event F v = applies F pre.
Proof.
  intros F [c [n|]]; unfold after_event; cbn [fst snd].
  - exists (firstn n (k_ops (fst (on_its_own c F)))), (skipn n (k_ops (fst (on_its_own c F)))). rewrite firstn_skipn. auto.
  - exists (k_ops (fst (on_its_own c F))), []. rewrite app_nil_r. split; auto. apply own_lawful.
Qed.
Lemma event_sane : forall F v, sane F -> sane (after_event F v).
Proof.
  intros F v H. destruct (event_ops F v) as (pre & post & E & ->). apply legal_sane; auto. destruct (own_lawful (fst v) F) as [_ L]. rewrite E in L. apply legal_app in L. tauto.
Qed.
Lemma event_keeps : forall F v, sane F -> callable (fst v) -> forall p n, F p = Some n -> after_event F v p = Some n.
Proof.
  intros F v HS [Hm HX] p n Hp. destruct (event_ops F v) as (pre & post & E & ->). destruct v as [c k]. cbn [fst] in *.
  destruct (on_its_own c F) as [st out] eqn:EO. cbn [fst] in E. unfold on_its_own in EO.
  destruct (F (cp_main c)) as [nd|] eqn:EM.
  - rewrite C65_existing_folder in EO by congruence. injection EO as <- _. cbn [k_ops] in E. symmetry in E. apply app_eq_nil in E as [-> _]. exact Hp.
  - destruct (C65_any_crash_point _ _ _ _ _ _ _ _ _ _ _ _ Hm HS HX EO E EM) as (xs & _ & _ & _ & _ & _ & _ & FO).
    destruct (FO p) as [->|(N & _)]; auto; [|congruence]. intros r ->. rewrite HS in Hp; auto; discriminate.
Qed.
Lemma study_sane : forall l F, sane F -> sane (after_study F l).
Proof. induction l as [|v l IH]; intros F H; auto. apply (IH (after_event F v)). now apply event_sane. Qed.

(** Nothing that is on disk when a study begins is ever changed by it, whatever campaigns it consists of and
    wherever they are cut short. *)
Theorem C112_nothing_overwritten : forall study F, sane F -> Forall (fun v => callable (fst v)) study ->
  forall p n, F p = Some n -> after_study F study p = Some n.
Proof.
  induction study as [|v l IH]; intros F HS HC p n Hp; auto. inversion HC; subst. apply (IH (after_event F v)); auto; [now apply event_sane|]. now apply event_keeps.
Qed.

(** The results of every campaign of a study survive all campaigns after it: whatever it had left when it ended
    or was killed is there at the end, in particular the complete files of every run it had finished; and a
    campaign whose folder was there already has changed nothing. *)
Theorem C112_results_survive : forall before c cut after F0, sane F0 ->
  Forall (fun v => callable (fst v)) (before ++ (c, cut) :: after) ->
  let F1 := after_study F0 before in
  let G := after_event F1 (c, cut) in
  let F := after_study F0 (before ++ (c, cut) :: after) in
  (forall p n, G p = Some n -> F p = Some n) /\
  (F1 (cp_main c) <> None -> G = F1 /\ snd (on_its_own c F1) = Some (Err FileExistsError)) /\
  (F1 (cp_main c) = None -> exists xs, (length xs <= cp_N c)%nat /\
     (forall j x, nth_error xs j = Some x -> outcome c j = Some (Ok x) /\ stored F (cp_main c) j x) /\
     (forall j, (length xs < j)%nat -> G (folder (cp_main c) j) = None) /\
     (forall n f, In (n, f) summary_table -> xs <> [] -> exists ys, (ys = xs \/ exists x, ys = xs ++ [x] /\ outcome c (length xs) = Some (Ok x)) /\
        (F (cp_main c ++ [n]) = Some (File (column (cp_N c) f ys)) \/ F (cp_main c ++ [n]) = Some (Torn (column (cp_N c) f ys))))) /\
  (F1 (cp_main c) = None -> cut = None -> snd (on_its_own c F1) = Some (Ok tt) ->
     (forall j, (j < cp_N c)%nat -> exists x, outcome c j = Some (Ok x) /\ stored F (cp_main c) j x)).
Proof.
  intros before c cut after F0 HS HC F1 G F. apply Forall_app in HC as [HB HC]. inversion HC as [|? ? Hc HA]; subst. destruct Hc as [Hm HX]. cbn [fst] in Hm, HX.
  assert (S1 : sane F1) by (apply study_sane; auto).
  assert (SG : sane G) by (apply event_sane; auto).
  assert (EF : F = after_study G after) by (unfold F, G, F1, after_study; rewrite fold_left_app; reflexivity).
  assert (K : forall p n, G p = Some n -> F p = Some n) by (intros p n H; rewrite EF; apply C112_nothing_overwritten; auto).
  assert (KS : forall main j x, stored G main j x -> stored F main j x) by (intros main j x [A B]; split; [|intros n0 c0 H0]; apply K; auto).
  split; [exact K|]. split; [|split].
  - intros Hn. unfold G. destruct (event_ops F1 (c, cut)) as (pre & post & E & ->). cbn [fst] in E. unfold on_its_own in E |- *.
    rewrite C65_existing_folder in E |- * by auto. cbn [fst k_ops snd] in *. symmetry in E. apply app_eq_nil in E as [-> _]. auto.
  - intros Hn. destruct (event_ops F1 (c, cut)) as (pre & post & E & EG). cbn [fst] in E. fold G in EG.
    destruct (on_its_own c F1) as [st out] eqn:EO. cbn [fst] in E. unfold on_its_own in EO.
    destruct (C65_any_crash_point _ _ _ _ _ _ _ _ _ _ _ _ Hm S1 HX EO E Hn) as (xs & A1 & A2 & _ & A4 & A5 & _). rewrite <- EG in *.
    exists xs. split; auto. split; [intros j x Hj; destruct (A2 j x Hj); split; auto|]. split; [intros j Hj; specialize (A4 j [] Hj); rewrite app_nil_r in A4; auto|].
    intros n f Hf Hx. destruct (A5 n f Hf) as [[? _]|[[_ B]|(x & B1 & _ & B2)]]; [contradiction| |].
    + exists xs. split; auto.
    + exists (xs ++ [x]). split; [right; exists x; auto|]. destruct B2 as [B2|B2]; apply K in B2; auto.
  - intros Hn -> Hok j Hj. destruct (on_its_own c F1) as [st out] eqn:EO. cbn [snd] in Hok. subst out.
    assert (EG : G = k_fs st) by (unfold G, after_event; cbn [fst snd]; rewrite EO; reflexivity). unfold on_its_own in EO.
    destruct (campaign_spec _ _ _ _ _ _ _ _ _ _ Hm S1 HX EO) as [(e & _ & _ & X)|(l & xs & EM & L & A & EOp & EFs & Len & _)]; [discriminate|].
    destruct (nth_error xs j) as [x|] eqn:Ex; [|apply nth_error_None in Ex; lia].
    exists x. split; [apply A; auto|]. apply KS. rewrite EG, EFs, EOp, applies_app.
    destruct (complete_all (cp_N c) (cp_main c) (applies F1 l) xs) as (K1 & _). apply stored_saved; auto.
Qed.
