(** Concrete campaigns that meet the hypotheses of C112 and C113. *)
From Coq Require Import String List Arith Lia Lra.
Require Import Verif.Base Verif.Numpy Verif.PlanetModel Verif.AeroModel Verif.HeatModel Verif.TrajectoryModel
  Verif.OrbitScalarModel Verif.OrbiterModel Verif.OrbitModel Verif.CorridorModel Verif.GuidanceModel Verif.PropGuidanceEx Verif.DragModel Verif.MonteModel Verif.MonteSpec Verif.MonteProofs Verif.PropMonte Verif.PropMonteEx
  Verif.StudyModel Verif.StudySpec Verif.PropStudy Verif.PropConcurrent.
Local Open Scope list_scope.
Local Open Scope R_scope.

(** Two runs into the folder [x]. *)
Definition into (x : string) : campaign := mkCpn MC some_world (some_setup (0.3, 0.1)) (some_random 0) 2 [x]
  (mkMem (mkObj glider (mkInit 0 0 0 0 0 0 0 0) 1 None None) []).
Lemma into_callable : forall x, callable (into x).
Proof. intros x. split; [discriminate|intros ? ? ? ? H; discriminate]. Qed.
Lemma into_starts : forall x, can_start only_root (into x).
Proof. intros x. split; [reflexivity|]. intros [|y t] z r H; [reflexivity|]. injection H as _ H. destruct t; discriminate. Qed.
Lemma into_runs : forall x F, sane F -> F [] = Some Dir -> F [x] = None -> snd (on_its_own (into x) F) = Some (Ok tt).
Proof.
  intros x F HS HR HN. unfold on_its_own. cbn [into cp_mode cp_world cp_setup cp_rnd cp_N cp_main cp_mem].
  destruct (runMonteCarlo _ _ _ _ _ _ _ _) as [st out] eqn:ER.
  assert (HP : forall t1 t2, [x] = t1 ++ t2 -> F t1 = None \/ F t1 = Some Dir).
  { intros [|y t1] t2 E; [auto|]. injection E as <- E. symmetry in E. apply app_eq_nil in E as [-> _]. auto. }
  destruct (C63_runs_as_if_alone _ _ _ _ _ _ _ _ _ _ (proj1 (into_callable x)) HS HN HP (proj2 (into_callable x)) ER) as (xs & L & A & B & D & C).
  cbn [snd]. destruct out as [[[]|e]|]; auto; destruct C as (_ & C); destruct (some_runs (0.3, 0.1) 0 (length xs) ltac:(cbn; lra)) as (y & Hy); cbn [into cp_world cp_mode v_obj ob_veh ob_tol] in C; congruence.
Qed.

(** A campaign killed after five file operations, one into another folder that completes, and a third that
    finds the folder of the first. *)
Example C112_witness : let study := [(into "a", Some 5%nat); (into "b", None); (into "a", None)]%string in
  sane only_root /\ Forall (fun v => callable (fst v)) study /\
  snd (on_its_own (into "b") (after_study only_root [(into "a", Some 5%nat)]))%string = Some (Ok tt) /\
  snd (on_its_own (into "a") (after_study only_root [(into "a", Some 5%nat); (into "b", None)]))%string = Some (Err FileExistsError) /\
  after_study only_root study ["b"; "#2"]%string = Some Dir /\
  after_study only_root study ["b"; "#2"; "efpa.txt"]%string = Some (File (Nums [Some 0])).
Proof.
  intros study. assert (C : Forall (fun v => callable (fst v)) study) by (repeat (apply Forall_cons; [apply into_callable|]); apply Forall_nil).
  set (F1 := after_study only_root [(into "a"%string, Some 5%nat)]).
  assert (S1 : sane F1) by (apply study_sane, root_sane).
  assert (A : F1 ["a"%string] <> None /\ F1 ["b"%string] = None /\ F1 [] = Some Dir).
  { unfold F1, after_study. cbn [fold_left]. unfold after_event. cbn [fst snd].
    destruct (on_its_own (into "a"%string) only_root) as [st out] eqn:EO. pose proof EO as EO'. unfold on_its_own, runMonteCarlo, perform in EO. cbn [k_fs k_ops into cp_main] in EO.
    assert (EM : makedirs only_root ["a"%string] = Ok [Mkdir ["a"%string]]) by (apply (first_step only_root (into "a"%string)); [discriminate|apply into_starts]). rewrite EM in EO.
    destruct (loop_serve _ _ _ _ _ _ _ _ _ _ EO) as (os & _ & B). cbn [k_ops app] in B. cbn [fst]. 
    assert (Cr : k_ops st = firstn 5 (k_ops st) ++ skipn 5 (k_ops st)) by (symmetry; apply firstn_skipn).
    destruct (C65_any_crash_point _ _ _ _ _ _ _ _ _ _ _ _ (proj1 (into_callable "a"%string)) root_sane (proj2 (into_callable "a"%string)) EO' Cr) as (xs & _ & _ & _ & _ & _ & _ & FO); [reflexivity|].
    split; [rewrite B; cbn [firstn]; rewrite applies_cons; apply applies_keeps; apply (apply_target only_root (Mkdir ["a"%string]))|].
    split; [destruct (FO ["b"%string]) as [->|(_ & _ & r & Er)]; [intros r Er; discriminate|reflexivity|discriminate]|].
    destruct (FO []) as [->|(X & _)]; [intros r Er; discriminate|reflexivity|discriminate]. }
  destruct A as (A1 & A2 & A3). pose proof (into_runs "b"%string F1 S1 A3 A2) as Rb.
  split; [apply root_sane|]. split; auto. split; [exact Rb|].
  destruct (C112_results_survive [(into "a"%string, Some 5%nat)] (into "b"%string) None [(into "a"%string, None)] only_root root_sane C) as (_ & _ & _ & K).
  specialize (K A2 eq_refl Rb 1%nat ltac:(cbn; lia)). destruct K as ((d & q) & Hx & [K1 K2]). split; [|split].
  - set (F2 := after_study only_root _). assert (X : F2 ["a"%string] <> None).
    { unfold F2. change (after_study only_root [(into "a"%string, Some 5%nat); (into "b"%string, None)]) with (after_study F1 [(into "b"%string, None)]).
      destruct (F1 ["a"%string]) as [n|] eqn:En; [|congruence]. rewrite (C112_nothing_overwritten _ F1 S1) with (n := n); try discriminate; auto; apply Forall_cons; [apply into_callable|constructor]. }
    unfold on_its_own. change (cp_main (into "a"%string)) with ["a"%string]. rewrite C65_existing_folder by exact X. reflexivity.
  - exact K1.
  - transitivity (Some (File (Nums [Some (d_efpa d)]))); [apply (K2 "efpa.txt"%string); cbn; tauto|].
    destruct (C78_draws_in_range _ _ _ _ _ _ _ _ _ Hx) as (_ & _ & E2 & _). cbn in E2. replace (d_efpa d) with 0 by (rewrite E2; lra). reflexivity.
Qed.

Lemma count_self : forall n x, count_occ Nat.eq_dec (repeat x n) x = n.
Proof. induction n as [|n IH]; intros x; cbn; auto. destruct (Nat.eq_dec x x); [rewrite IH; auto|congruence]. Qed.
(** Two processes that complete, whatever the order of their steps; and two for one folder. *)
Example C113_witness : let cs := [into "a"; into "b"]%string in
  Forall callable cs /\ Forall (can_start only_root) cs /\ all_apart cs /\
  (exists l, forall x, In x ["a"; "b"]%string -> fst (sched only_root (map start cs) l) [x; "#2"; "efpa.txt"]%string = Some (File (Nums [Some 0]))) /\
  Forall (fun c => cp_main c = ["a"]%string /\ can_start only_root c) [into "a"; into "a"]%string.
Proof.
  intros cs. assert (C : Forall callable cs) by (repeat (apply Forall_cons; [apply into_callable|]); apply Forall_nil).
  assert (S : Forall (can_start only_root) cs) by (constructor; [apply into_starts|constructor; [apply into_starts|constructor]]).
  assert (A : all_apart cs).
  { intros [|[|i]] [|[|j]] c d Hn Hi Hj; try lia; cbn in Hi, Hj; try (destruct i; discriminate); try (destruct j; discriminate); injection Hi as <-; injection Hj as <-; split; intros r Er; discriminate. }
  split; auto. split; auto. split; auto. split; [|constructor; [split; [reflexivity|apply into_starts]|constructor; [split; [reflexivity|apply into_starts]|constructor]]].
  destruct (C113_all_end cs only_root C S A) as (K & HK). exists (repeat 0%nat K ++ repeat 1%nat K). intros x Hx.
  assert (X : exists i, nth_error cs i = Some (into x)) by (destruct Hx as [<-|[<-|[]]]; [exists 0%nat|exists 1%nat]; reflexivity). destruct X as (i & Hi).
  destruct (HK (repeat 0%nat K ++ repeat 1%nat K)) with (i := i) (c := into x) as (P & _ & _ & _ & EF); auto.
  { intros j Hj. rewrite count_occ_app. destruct j as [|[|j]]; [|..]; [rewrite (count_self K 0); lia|rewrite (count_self K 1); lia|cbn in Hj; lia]. }
  specialize (EF ["#2"; "efpa.txt"]%string). cbn [into cp_main app] in EF. rewrite EF.
  pose proof (into_runs x only_root root_sane eq_refl eq_refl) as R. destruct (on_its_own (into x) only_root) as [st out] eqn:EO. cbn [fst snd] in *. subst out. unfold on_its_own in EO.
  assert (HP : forall t1 t2, cp_main (into x) = t1 ++ t2 -> only_root t1 = None \/ only_root t1 = Some Dir) by (intros [|y t1] t2 E; [right; reflexivity|left; reflexivity]).
  destruct (C63_runs_as_if_alone _ _ _ _ _ _ _ _ _ _ (proj1 (into_callable x)) root_sane eq_refl HP (proj2 (into_callable x)) EO) as (xs & L & B & _ & _ & D).
  cbn [into cp_N] in D. destruct (nth_error xs 1) as [[d q]|] eqn:E1; [|apply nth_error_None in E1; lia]. destruct (B _ _ E1) as (B1 & _ & B3).
  transitivity (Some (File (Nums [Some (d_efpa d)]))); [apply (B3 "efpa.txt"%string); cbn; tauto|].
  destruct (C78_draws_in_range _ _ _ _ _ _ _ _ _ B1) as (_ & _ & E2 & _). cbn in E2. replace (d_efpa d) with 0 by (rewrite E2; lra). reflexivity.
Qed.
