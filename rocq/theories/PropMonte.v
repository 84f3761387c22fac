(** C63, C64, C65: Monte Carlo campaigns. *)
From Coq Require Import String List.
Require Import Verif.Base Verif.Numpy Verif.PlanetModel Verif.AeroModel Verif.HeatModel Verif.TrajectoryModel
  Verif.OrbitScalarModel Verif.OrbiterModel Verif.OrbitModel Verif.CorridorModel Verif.GuidanceModel Verif.DragModel Verif.PropDrag Verif.MonteModel Verif.MonteSpec Verif.MonteProofs.
Local Open Scope R_scope.
Local Open Scope list_scope.

(** * From the lemmas to the specification *)
Lemma stored_saved : forall F main j x, stored F main j x <-> run_saved F main j x.
Proof. intros F main j x. split; intros H; exact H. Qed.
Lemma column_col : forall N c n f, nth_error summary_table c = Some (n, f) -> nth_error summary_names c = Some n /\ forall xs, column N f xs = Nums (summary_col N (map snd xs) c).
Proof.
  intros N c n f H. assert (G : forall xs : list (draw * mc_result), column N f xs = Nums (map f (map snd xs) ++ repeat (Some 0) (N - length (map snd xs)))) by (intros xs; unfold column; rewrite map_map, map_length; auto).
  do 7 (destruct c as [|c]; [cbn in H; injection H as <- <-; split; [reflexivity|]; intros xs; rewrite G; reflexivity|]). cbn in H. destruct c; discriminate.
Qed.
Lemma makedirs_err : forall F main e, main <> [] -> makedirs F main = Err e -> F main <> None \/ exists t1 t2, main = t1 ++ t2 /\ F t1 <> None /\ F t1 <> Some Dir.
Proof.
  intros F main e Hne H. unfold makedirs in H. destruct (F main) eqn:E; [left; discriminate|]. right. destruct (last_split main Hne) as (x & Ex).
  destruct (mk_parents F [] (removelast main)) as [l|e'] eqn:EP; [discriminate|]. clear H.
  assert (G : forall todo done e, mk_parents F done todo = Err e -> exists t1 t2, todo = t1 ++ t2 /\ F (done ++ t1) <> None /\ F (done ++ t1) <> Some Dir).
  { clear. induction todo as [|x todo IH]; intros done e H; cbn [mk_parents] in H.
    - destruct (F done) as [[| |]|] eqn:E; try discriminate; exists [], []; rewrite !(app_nil_r done), E; repeat split; discriminate.
    - destruct (F done) as [[| |]|] eqn:E; try (exists [], (x :: todo); rewrite !(app_nil_r done), E; repeat split; discriminate).
      + destruct (IH _ _ H) as (t1 & t2 & -> & A & B). exists (x :: t1), t2. rewrite consapp in A, B. auto.
      + destruct (mk_parents F (done ++ [x]) todo) as [l|e'] eqn:E2; [discriminate|]. destruct (IH _ _ E2) as (t1 & t2 & -> & A & B). exists (x :: t1), t2. rewrite consapp in A, B. auto. }
  destruct (G _ _ _ EP) as (t1 & t2 & Et & A & B). exists t1, (t2 ++ [x]). cbn [app] in A, B. rewrite app_assoc, <- Et. auto.
Qed.

Lemma nth_error_ext : forall {A} (l l' : list A), (forall j, nth_error l j = nth_error l' j) -> l = l'.
Proof.
  intros A l. induction l as [|x l IH]; intros [|y l'] H; auto; [specialize (H 0%nat); discriminate|specialize (H 0%nat); discriminate|].
  pose proof (H 0%nat) as H0. cbn in H0. injection H0 as <-. f_equal. apply IH. intros j. apply (H (S j)).
Qed.

(** * C63 *)
(** The campaign is a function of the runs flown alone: it ends with the first one that raises or does not
    end, and if there is none it stores them all.  Nothing else that the process did before matters: [s] is
    any memory. *)
Theorem C63_runs_as_if_alone : forall m W S rnd N main s F st out, main <> [] -> sane F -> F main = None -> (forall t1 t2, main = t1 ++ t2 -> F t1 = None \/ F t1 = Some Dir) -> nan_keeps (w_X W) ->
  runMonteCarlo m W S rnd N main s F = (st, out) ->
  let run := flown_alone m W S rnd (ob_veh (v_obj s)) (ob_tol (v_obj s)) in
  exists xs, (length xs <= N)%nat /\
    (forall j x, nth_error xs j = Some x -> run j = Some (Ok x) /\ stored (k_fs st) main j x) /\
    (forall j r, (length xs <= j)%nat -> k_fs st (folder main j ++ r) = None) /\
    (forall n f, In (n, f) summary_table -> k_fs st (main ++ [n]) = if Nat.eqb (length xs) 0 then None else Some (File (column N f xs))) /\
    match out with
    | Some (Ok _) => length xs = N
    | Some (Err e) => (length xs < N)%nat /\ run (length xs) = Some (Err e)
    | None => (length xs < N)%nat /\ run (length xs) = None
    end.
Proof.
  intros m W S rnd N main s F st out Hne HS HF HP HX H run.
  destruct (campaign_spec _ _ _ _ _ _ _ _ _ _ Hne HS HX H) as [(e & EM & _)|(l & xs & EM & L & A & EO & EF & C)].
  - exfalso. destruct (makedirs_err _ _ _ Hne EM) as [B|(t1 & t2 & Et & B1 & B2)]; [congruence|]. destruct (HP t1 t2 Et); congruence.
  - exists xs. destruct (ready_start _ _ _ Hne HS EM) as (_ & NB). rewrite EO, applies_app in EF.
    destruct (complete_all N main (applies F l) xs) as (K1 & K2 & K3). rewrite <- EF in K1, K2, K3.
    split; auto. split; [intros j x Hj; split; [apply A; auto|apply stored_saved; auto]|]. split.
    + intros j r Hj. change (folder main j) with (run_folder main j). rewrite K2 by auto. unfold run_folder. rewrite <- app_assoc. apply NB. discriminate.
    + split.
      * intros n f HI. apply In_nth_error in HI. destruct HI as (c & HI). destruct (column_col N c n f HI) as (Hn & Hc). rewrite (K3 c n Hn). destruct xs as [|x xs]; [apply NB; discriminate|]. rewrite Hc. reflexivity.
      * destruct out as [[u|e]|]; [apply C| |]; exact C.
Qed.

(** A longer campaign with the same random stream repeats the shorter one; the history of the vehicle does not
    matter either. *)
Theorem C63_prefix_of_longer : forall m W S rnd N N' main main' s s' F F' st st', main <> [] -> main' <> [] -> sane F -> sane F' -> nan_keeps (w_X W) -> (N <= N')%nat ->
  ob_veh (v_obj s) = ob_veh (v_obj s') -> ob_tol (v_obj s) = ob_tol (v_obj s') ->
  runMonteCarlo m W S rnd N main s F = (st, Some (Ok tt)) -> runMonteCarlo m W S rnd N' main' s' F' = (st', Some (Ok tt)) ->
  exists xs ys, length xs = N /\ length (xs ++ ys) = N' /\
    (forall j x, nth_error xs j = Some x -> stored (k_fs st) main j x) /\ (forall j x, nth_error (xs ++ ys) j = Some x -> stored (k_fs st') main' j x) /\
    ((0 < N)%nat -> forall n f, In (n, f) summary_table -> k_fs st (main ++ [n]) = Some (File (column N f xs)) /\ k_fs st' (main' ++ [n]) = Some (File (column N' f (xs ++ ys)))).
Proof.
  intros m W S rnd N N' main main' s s' F F' st st' Hm Hm' HS HS' HX HN Ev Et H H'.
  assert (G : forall N main s F st, main <> [] -> sane F -> runMonteCarlo m W S rnd N main s F = (st, Some (Ok tt)) ->
    exists xs, length xs = N /\ (forall j x, nth_error xs j = Some x -> flown_alone m W S rnd (ob_veh (v_obj s)) (ob_tol (v_obj s)) j = Some (Ok x)) /\ (forall j x, nth_error xs j = Some x -> stored (k_fs st) main j x) /\
      forall n f, In (n, f) summary_table -> (0 < N)%nat -> k_fs st (main ++ [n]) = Some (File (column N f xs))).
  { clear -HX. intros N main s F st Hm HS H. destruct (campaign_spec _ _ _ _ _ _ _ _ _ _ Hm HS HX H) as [(e & _ & _ & E)|(l & xs & EM & L & A & EO & EF & C & _)]; [discriminate|].
    exists xs. rewrite EO, applies_app in EF. destruct (complete_all N main (applies F l) xs) as (K1 & K2 & K3). rewrite <- EF in K1, K2, K3.
    split; auto. split; auto. split; [exact K1|]. intros n f HI HN. apply In_nth_error in HI. destruct HI as (c & HI). destruct (column_col N c n f HI) as (Hn & Hc). rewrite (K3 c n Hn). destruct xs as [|x xs]; [cbn in C; lia|]. rewrite Hc. reflexivity. }
  destruct (G _ _ _ _ _ Hm HS H) as (xs & L & A & B & D). destruct (G _ _ _ _ _ Hm' HS' H') as (zs & L' & A' & B' & D').
  assert (E : exists ys, zs = xs ++ ys).
  { exists (skipn N zs). rewrite <- (firstn_skipn N zs) at 1. f_equal. apply nth_error_ext. intros j. destruct (Nat.lt_ge_cases j N) as [Hj|Hj].
    - assert (X1 : exists x, nth_error xs j = Some x) by (destruct (nth_error xs j) eqn:E; [eauto|apply nth_error_None in E; lia]). destruct X1 as (x & X1). rewrite X1.
      assert (X2 : exists z, nth_error (firstn N zs) j = Some z) by (destruct (nth_error (firstn N zs) j) eqn:E; [eauto|apply nth_error_None in E; rewrite firstn_length in E; lia]). destruct X2 as (z & X2). rewrite X2.
      apply A in X1. assert (X3 : nth_error zs j = Some z) by (rewrite <- (firstn_skipn N zs), nth_error_app1; auto; rewrite firstn_length; lia). apply A' in X3. rewrite Ev, Et in X1. congruence.
    - transitivity (@None (draw * mc_result)); [apply nth_error_None; rewrite firstn_length; lia|symmetry; apply nth_error_None; lia]. }
  destruct E as (ys & ->). exists xs, ys. split; auto. split; auto. split; auto. split; auto. intros H0 n f HI. split; [apply D; auto|apply D'; auto; lia].
Qed.

(** * C65 *)
Lemma foreign_ops : forall F main l, (forall x, In x l -> (exists r, target x = main ++ r) \/ (exists r, main = target x ++ r) /\ x = Mkdir (target x) /\ F (target x) = None) ->
  forall p, (forall r, p <> main ++ r) -> applies F l p = F p \/ F p = None /\ applies F l p = Some Dir /\ exists r, main = p ++ r.
Proof.
  intros F main l. induction l as [|x l IH] using rev_ind; intros H p Hp; [auto|]. rewrite applies_app. cbn [applies fold_left]. fold (applies F l).
  assert (H' : forall y, In y l -> (exists r, target y = main ++ r) \/ (exists r, main = target y ++ r) /\ y = Mkdir (target y) /\ F (target y) = None) by (intros y Hy; apply H; apply in_or_app; auto).
  specialize (IH H' p Hp). destruct (path_dec (target x) p) as [<-|Hn].
  - destruct (H x) as [(r & Hr)|(Hr & Ex & HN)]; [apply in_or_app; right; cbn; auto|exfalso; apply (Hp r); auto|]. right. split; auto. split; auto. rewrite Ex. cbn [apply target]. unfold put. destruct (path_dec (target x) (target x)); congruence.
  - replace (apply (applies F l) x p) with (applies F l p); auto. destruct x; cbn [apply target] in *; unfold put; destruct (path_dec p0 p); congruence.
Qed.
Lemma camp_targets : forall main N xs before x, In x (camp_ops main N before xs) -> exists r, target x = main ++ r.
Proof.
  intros main N xs. induction xs as [|y xs IH]; intros before x H; [contradiction|]. cbn [camp_ops] in H. apply in_app_or in H. destruct H as [H|H]; [|eapply IH; eauto].
  apply run_ops_targets in H. unfold run_folder in H. destruct H as [T|[(n & T)|(n & _ & T)]]; rewrite T; rewrite <- ?app_assoc; eauto.
Qed.
(** Whatever the moment [pre] at which the process stops (between or within writes, in a run that later
    raises or never ends, or after the last): [xs] are the finished runs, stored completely; of the run being
    stored each file is absent, half written or right; nothing of later runs exists; each summary file shows
    the finished runs followed by zeros, or is being replaced by, or has become, the one that includes the
    run just stored; at most one file is half written; and outside the folder only missing parents of it have
    been created. *)
Theorem C65_any_crash_point : forall m W S rnd N main s F0 st out pre post, main <> [] -> sane F0 -> nan_keeps (w_X W) ->
  runMonteCarlo m W S rnd N main s F0 = (st, out) -> k_ops st = pre ++ post -> F0 main = None ->
  let F := applies F0 pre in let run := flown_alone m W S rnd (ob_veh (v_obj s)) (ob_tol (v_obj s)) in
  exists xs, let k := length xs in (k <= N)%nat /\
    (forall j x, nth_error xs j = Some x -> run j = Some (Ok x) /\ stored F main j x) /\
    (forall n, F (folder main k ++ [n]) = None \/
       exists d q c, run k = Some (Ok (d, q)) /\ In (n, c) (run_table d q) /\ (F (folder main k ++ [n]) = Some (File c) \/ F (folder main k ++ [n]) = Some (Torn c))) /\
    (forall j r, (k < j)%nat -> F (folder main j ++ r) = None) /\
    (forall n f, In (n, f) summary_table ->
       (xs = [] /\ F (main ++ [n]) = None) \/ (xs <> [] /\ F (main ++ [n]) = Some (File (column N f xs))) \/
       exists x, run k = Some (Ok x) /\ stored F main k x /\ (F (main ++ [n]) = Some (Torn (column N f (xs ++ [x]))) \/ F (main ++ [n]) = Some (File (column N f (xs ++ [x]))))) /\
    (forall p p', half_written F p -> half_written F p' -> p <> p' -> half_written F0 p \/ half_written F0 p') /\
    (forall p, (forall r, p <> main ++ r) -> F p = F0 p \/ F0 p = None /\ F p = Some Dir /\ exists r, main = p ++ r).
Proof.
  intros m W S rnd N main s F0 st out pre post Hne HS HX H EP HF F run.
  destruct (campaign_spec _ _ _ _ _ _ _ _ _ _ Hne HS HX H) as [(e & EM & -> & _)|(l & xs & EM & L & A & EO & EF & C)].
  - (* makedirs fails: nothing is done *)
    cbn [k_ops] in EP. symmetry in EP. apply app_eq_nil in EP. destruct EP as (-> & _). unfold F. cbn [applies fold_left].
    assert (NB : forall r, F0 (main ++ r) = None) by (intros r; apply HS; auto).
    exists []. cbn [length]. split; [lia|]. split; [intros [|j] x; discriminate|]. split; [intros n; left; unfold folder; rewrite <- app_assoc; apply NB|].
    split; [intros j r _; unfold folder; rewrite <- app_assoc; apply NB|]. split; [intros n f _; left; auto|]. split; auto.
  - destruct (makedirs_spec _ _ _ Hne EM) as (_ & T & _). destruct (ready_start _ _ _ Hne HS EM) as (_ & NB).
    assert (TI : tidy (l ++ camp_ops main N [] xs)) by (apply tidy_app; [apply tidy_mkdirs; intros x Hx; destruct (T x Hx) as (t1 & _ & _ & -> & _); eauto|apply tidy_camp]).
    assert (TP : forall p p', half_written F p -> half_written F p' -> p <> p' -> half_written F0 p \/ half_written F0 p').
    { intros p p' H1 H2 Hn. eapply torn_prefix; [exact TI|rewrite <- EO; exact EP| | |]; eauto. }
    assert (FO : forall p, (forall r, p <> main ++ r) -> F p = F0 p \/ F0 p = None /\ F p = Some Dir /\ exists r, main = p ++ r).
    { apply foreign_ops. intros x Hx. assert (HI : In x (l ++ camp_ops main N [] xs)) by (rewrite <- EO, EP; apply in_or_app; auto).
      apply in_app_or in HI. destruct HI as [HI|HI]; [right|left; eapply camp_targets; eauto]. destruct (T x HI) as (t1 & t2 & Et & -> & Hn). cbn [target]. eauto. }
    rewrite EO in EP. destruct (split_app _ _ _ _ EP) as [(r & El & _)|(r & El & Er)].
    + (* while the main folder and its parents are being created *)
      assert (NF : forall t, t <> [] -> F (main ++ t) = None).
      { intros t Ht. unfold F. rewrite applies_other; [apply HS; auto|]. intros HI. apply in_map_iff in HI. destruct HI as (x & Ex & HI). destruct (T x) as (t1 & t2 & Et & -> & _); [rewrite El; apply in_or_app; auto|]. cbn [target] in Ex. subst t1. rewrite <- app_assoc in Et. symmetry in Et. apply app_self in Et. apply app_eq_nil in Et. tauto. }
      exists []. cbn [length]. split; [lia|]. split; [intros [|j] x; discriminate|]. split; [intros n; left; unfold folder; rewrite <- app_assoc; apply NF; discriminate|].
      split; [intros j t _; unfold folder; rewrite <- app_assoc; apply NF; discriminate|]. split; [intros n f _; left; split; auto; apply NF; discriminate|]. auto.
    + destruct (camp_prefix _ _ _ _ _ _ Er) as (xs1 & xs2 & pre' & -> & Ep & D). cbn [app] in D.
      destruct (complete_all N main (applies F0 l) xs1) as (K1 & K2 & K3). set (F1 := applies (applies F0 l) (camp_ops main N [] xs1)) in *.
      assert (EF1 : F = applies F1 pre') by (unfold F, F1; rewrite El, Ep, !applies_app; auto).
      rewrite app_length in L.
      assert (AX : forall j x, nth_error xs1 j = Some x -> run j = Some (Ok x)) by (intros j x Hj; apply A; rewrite nth_error_app1; auto; apply nth_error_Some; congruence).
      assert (LX : forall j x, nth_error xs1 j = Some x -> (j < length xs1)%nat) by (intros j x Hj; apply nth_error_Some; congruence).
      assert (N1 : forall j t, (length xs1 <= j)%nat -> F1 (folder main j ++ t) = None) by (intros j t Hj; change (folder main j) with (run_folder main j); rewrite K2 by auto; unfold run_folder; rewrite <- app_assoc; apply NB; discriminate).
      assert (S1 : forall n f, In (n, f) summary_table -> xs1 = [] /\ F1 (main ++ [n]) = None \/ xs1 <> [] /\ F1 (main ++ [n]) = Some (File (column N f xs1))).
      { intros n f HI. apply In_nth_error in HI. destruct HI as (c & HI). destruct (column_col N c n f HI) as (Hn & Hc). rewrite (K3 c n Hn). destruct xs1 as [|x xs1]; [left; split; auto; apply NB; discriminate|]. right. rewrite Hc. split; [discriminate|reflexivity]. }
      exists xs1. split; [lia|]. destruct D as [->|(x & xs3 & post' & -> & ER)].
      * (* between two runs *)
        cbn [applies fold_left] in EF1. rewrite EF1 in *. split; [intros j x Hj; split; auto; apply stored_saved; auto|]. split; [intros n; left; apply N1; lia|]. split; [intros j t Hj; apply N1; lia|].
        split; [intros n f HI; destruct (S1 n f HI); auto|]. auto.
      * (* while a run is being stored *)
        destruct (in_progress N main F1 xs1 x pre' post' ER) as (P1 & P2 & P3). rewrite <- EF1 in P1, P2, P3.
        assert (AK : run (length xs1) = Some (Ok x)) by (apply A; rewrite nth_error_app2, Nat.sub_diag by lia; reflexivity).
        split; [|split; [|split; [|split; [|auto]]]].
        -- intros j y Hj. split; auto. pose proof (LX j y Hj) as Lj. destruct (K1 j y Hj) as (R1 & R2). split.
           ++ specialize (P1 j [] ltac:(lia)). rewrite app_nil_r in P1. change (folder main j) with (run_folder main j). rewrite P1. auto.
           ++ intros n c HI. change (folder main j) with (run_folder main j). rewrite P1 by lia. apply R2. exact HI.
        -- intros n. destruct (P2 n) as [B|(c & B1 & B2)].
           ++ left. change (folder main (length xs1)) with (run_folder main (length xs1)). rewrite B. apply (N1 (length xs1) [n]). lia.
           ++ right. destruct x as [d q]. exists d, q, c. auto.
        -- intros j t Hj. change (folder main j) with (run_folder main j). rewrite P1 by lia. apply (N1 j t). lia.
        -- intros n f HI. destruct (In_nth_error _ _ HI) as (c & HI'). destruct (column_col N c n f HI') as (Hn & Hc). destruct (P3 c n Hn) as [B|(B1 & B2)].
           ++ rewrite B. destruct (S1 n f HI); auto.
           ++ right; right. exists x. split; auto. split; [apply stored_saved; auto|]. rewrite Hc. tauto.
Qed.

(** After an exception in run number k+1: the files of the k runs before it, summaries with their results and
    zeros, and nothing half written. *)
Theorem C65_after_exception : forall m W S rnd N main s F st e, main <> [] -> sane F -> F main = None -> nan_keeps (w_X W) ->
  (forall t1 t2, main = t1 ++ t2 -> F t1 = None \/ F t1 = Some Dir) ->
  runMonteCarlo m W S rnd N main s F = (st, Some (Err e)) ->
  let run := flown_alone m W S rnd (ob_veh (v_obj s)) (ob_tol (v_obj s)) in
  exists xs, (length xs < N)%nat /\ run (length xs) = Some (Err e) /\
    (forall j x, nth_error xs j = Some x -> run j = Some (Ok x) /\ stored (k_fs st) main j x) /\
    (forall j r, (length xs <= j)%nat -> k_fs st (folder main j ++ r) = None) /\
    (forall n f, In (n, f) summary_table -> k_fs st (main ++ [n]) = if Nat.eqb (length xs) 0 then None else Some (File (column N f xs))) /\
    (forall p, half_written (k_fs st) p -> half_written F p).
Proof.
  intros m W S rnd N main s F st e Hne HS HF HX HP H run.
  destruct (C63_runs_as_if_alone _ _ _ _ _ _ _ _ _ _ Hne HS HF HP HX H) as (xs & _ & A & B & D & C1 & C2). exists xs. split; auto. split; auto. split; auto. split; auto. split; auto.
  destruct (campaign_spec _ _ _ _ _ _ _ _ _ _ Hne HS HX H) as [(e' & EM & -> & _)|(l & ys & EM & _ & _ & EO & EF & _)]; [auto|].
  destruct (makedirs_spec _ _ _ Hne EM) as (_ & T & _). intros p Hp. rewrite EF, EO in Hp. eapply tidy_torn; [|exact Hp]. apply tidy_app; [apply tidy_mkdirs; intros x Hx; destruct (T x Hx) as (t1 & _ & _ & -> & _); eauto|apply tidy_camp].
Qed.

(** Starting in a folder that exists, finished or not, raises before anything is drawn, flown or written. *)
Theorem C65_existing_folder : forall m W S rnd N main s F, F main <> None ->
  runMonteCarlo m W S rnd N main s F = (mkCamp s (map (fun _ => repeat (Some 0) N) summary_names) F [], Some (Err FileExistsError)).
Proof. intros m W S rnd N main s F H. unfold runMonteCarlo, perform, makedirs. cbn [k_fs]. destruct (F main); [reflexivity|congruence]. Qed.
(** So a campaign that was interrupted cannot be taken up again: a second call with the same folder raises,
    and leaves the files as they are. *)
Theorem C65_no_restart : forall m W S rnd N main s F0 st out pre post m' W' S' rnd' N' s',
  runMonteCarlo m W S rnd N main s F0 = (st, out) -> k_ops st = pre ++ post -> In (Mkdir main) pre ->
  exists st', runMonteCarlo m' W' S' rnd' N' main s' (applies F0 pre) = (st', Some (Err FileExistsError)) /\ k_fs st' = applies F0 pre /\ k_ops st' = [] /\ k_mem st' = s'.
Proof.
  intros m W S rnd N main s F0 st out pre post m' W' S' rnd' N' s' _ _ H. eexists. rewrite C65_existing_folder; [split; [reflexivity|auto]|].
  revert F0 H. induction pre as [|x pre IH] using rev_ind; intros F0 H; [contradiction|]. rewrite applies_app. cbn [applies fold_left]. fold (applies F0 pre).
  apply in_app_or in H. destruct H as [H|[->|[]]].
  - specialize (IH F0 H). destruct x; cbn [apply]; unfold put; destruct (path_dec p main); auto; discriminate.
  - cbn [apply]. unfold put. destruct (path_dec main main); [discriminate|congruence].
Qed.

(** * C64 *)
Lemma draws_LD : forall m S rnd rnd' LD b i, is_drag m = false -> same_but_third rnd rnd' -> 0 <= snd (mc_LD S) -> 0 <= snd LD ->
  match draws m S rnd i, draws m (with_LD S LD b) rnd' i with
  | Err e, Err e' => e = e'
  | Ok d, Ok d' => d_file d = d_file d' /\ d_profile d = d_profile d' /\ d_efpa d = d_efpa d' /\ d_sigma d = d_sigma d'
  | _, _ => False
  end.
Proof.
  intros m S rnd rnd' LD b i Hm (Hp & Hn) H1 H2. unfold draws. rewrite Hm. cbn [with_LD mc_files mc_nmonte mc_efpa mc_sigma mc_LD]. rewrite !Hp.
  pose proof (Hn i 0%nat ltac:(lia)) as N0. rewrite Nat.add_0_r in N0. rewrite N0, (Hn i 1%nat) by lia.
  assert (G : forall ms z, 0 <= snd ms -> exists x, normal ms z = Ok x) by (intros ms z H; unfold normal; destruct (Rltb_spec (snd ms) 0); [lra|eauto]).
  destruct (G (mc_LD S) (nz rnd (3 * i + 2)) H1) as (x & ->). destruct (G LD (nz rnd' (3 * i + 2)) H2) as (x' & ->).
  destruct (choice (mc_files S) (py rnd' (2 * i))); cbn [rbind]; auto. destruct (randint1 (mc_nmonte S) (py rnd' (2 * i + 1))); cbn [rbind]; auto.
  destruct (normal (mc_efpa S) (nz rnd' (3 * i))); cbn [rbind]; auto. destruct (normal (0, mc_sigma S) (nz rnd' (3 * i + 1))); cbn; auto.
Qed.
Lemma mc_run_LD : forall m W S rnd rnd' LD b i s, is_drag m = false -> same_but_third rnd rnd' -> 0 <= snd (mc_LD S) -> 0 <= snd LD ->
  fst (mc_run m W S rnd i s) = fst (mc_run m W (with_LD S LD b) rnd' i s) /\ same_but_LD (snd (mc_run m W S rnd i s)) (snd (mc_run m W (with_LD S LD b) rnd' i s)).
Proof.
  intros m W S rnd rnd' LD b i s Hm HR H1 H2. unfold mc_run. pose proof (draws_LD m S rnd rnd' LD b i Hm HR H1 H2) as D.
  destruct (draws m S rnd i) as [d|e], (draws m (with_LD S LD b) rnd' i) as [d'|e']; cbn [fst snd]; try contradiction; [|subst; split; reflexivity].
  destruct D as (D1 & D2 & D3 & D4). set (ea := match m with MCD_Earth => true | _ => false end).
  assert (EL : load_density ea (with_LD S LD b) (w_load W) d' = load_density ea S (w_load W) d) by (unfold load_density; rewrite D1, D2, D4; reflexivity).
  rewrite EL. destruct (load_density ea S (w_load W) d) as [f|e]; cbn [fst snd]; [|split; reflexivity]. rewrite Hm. cbn [with_LD mc_copy mc_stepEntry mc_dt mc_maxTime]. rewrite <- D3.
  match goal with |- context [propogateGuidedEntry ?a ?b ?c ?d ?e ?f ?g ?h ?i ?j] => destruct (propogateGuidedEntry a b c d e f g h i j) as [[o2 [[[s1 s2] rep]|e2]]|] end; cbn [fst snd]; [|split; reflexivity|split; [reflexivity|exact I]].
  split; [reflexivity|]. destruct (mc_read (is_two m) rep (s_hist s2)); cbn [rbind same_but_LD]; [auto 8|reflexivity].
Qed.
Lemma alike_dir : forall main F F' p, same_files_but_LD main F F' -> (match F p with Some Dir => 0 | None => 1 | _ => 2 end = match F' p with Some Dir => 0 | None => 1 | _ => 2 end)%nat.
Proof. intros main F F' p H. destruct (H p) as [-> |(_ & K)]; auto. destruct (F p) as [[| |]|], (F' p) as [[| |]|]; cbn in *; tauto. Qed.
Lemma alike_parents : forall main F F', same_files_but_LD main F F' -> forall todo done, mk_parents F done todo = mk_parents F' done todo.
Proof.
  intros main F F' H. induction todo as [|x todo IH]; intros done; cbn [mk_parents]; pose proof (alike_dir main F F' done H) as D; destruct (F done) as [[| |]|], (F' done) as [[| |]|]; try discriminate; auto. rewrite IH. auto.
Qed.
Lemma alike_makedirs : forall main F F' p, same_files_but_LD main F F' -> makedirs F p = makedirs F' p.
Proof. intros main F F' p H. unfold makedirs. pose proof (alike_dir main F F' p H) as D. rewrite (alike_parents main F F' H). destruct (F p) as [[| |]|], (F' p) as [[| |]|]; try discriminate; auto. Qed.
Lemma alike_put : forall main F F' p n, same_files_but_LD main F F' -> same_files_but_LD main (put F p n) (put F' p n).
Proof. intros main F F' p n H q. unfold put. destruct (path_dec p q); auto. Qed.
Lemma alike_applies : forall main l F F', same_files_but_LD main F F' -> same_files_but_LD main (applies F l) (applies F' l).
Proof. intros main l. induction l as [|x l IH]; intros F F' H; [auto|]. rewrite !applies_cons. apply IH. destruct x; cbn [apply]; apply alike_put; auto. Qed.
Definition alike (main : path) (s s' : camp) : Prop := k_mem s = k_mem s' /\ k_arr s = k_arr s' /\ same_files_but_LD main (k_fs s) (k_fs s').
Definition alike_act (main : path) (a a' : fs -> res (list op)) : Prop := forall F F', same_files_but_LD main F F' ->
  match a F, a' F' with Ok l, Ok l' => same_files_but_LD main (applies F l) (applies F' l') | Err e, Err e' => e = e' | _, _ => False end.
Lemma alike_all : forall main l l', Forall2 (alike_act main) l l' -> forall s s', alike main s s' ->
  alike main (fst (perform_all s l)) (fst (perform_all s' l')) /\ snd (perform_all s l) = snd (perform_all s' l').
Proof.
  intros main l l' H. induction H as [|a a' l l' Ha H IH]; intros s s' HS; cbn [perform_all]; [auto|]. destruct HS as (E1 & E2 & E3). unfold perform. pose proof (Ha _ _ E3) as HA.
  destruct (a (k_fs s)) as [o|e], (a' (k_fs s')) as [o'|e']; try contradiction; [|cbn [fst snd]; subst; split; [split; auto|auto]]. apply IH. split; [auto|split; auto].
Qed.
Lemma act_makedirs : forall main p, alike_act main (fun F => makedirs F p) (fun F => makedirs F p).
Proof. intros main p F F' H. rewrite (alike_makedirs main F F' p H). destruct (makedirs F' p); auto. apply alike_applies; auto. Qed.
Lemma act_savetxt : forall main p c c', (c = c' \/ exists j, p = folder main j ++ ["LD.txt"%string]) -> alike_act main (fun F => savetxt F p c) (fun F => savetxt F p c').
Proof.
  intros main p c c' Hc F F' H. unfold savetxt. pose proof (alike_dir main F F' (removelast p) H) as D1. pose proof (alike_dir main F F' p H) as D2.
  assert (G : same_files_but_LD main (applies F [Open p c; Close p c]) (applies F' [Open p c'; Close p c'])).
  { cbn [applies fold_left apply]. intros q. unfold put. destruct (path_dec p q) as [<-|]; [|auto]. destruct Hc as [-> |Hc]; [auto|]. right. split; auto. exact I. }
  destruct (F (removelast p)) as [[| |]|], (F' (removelast p)) as [[| |]|]; try discriminate; auto. destruct (F p) as [[| |]|], (F' p) as [[| |]|]; try discriminate; auto.
Qed.
Lemma write_run_LD : forall main i d d' q arr, d_file d = d_file d' -> d_profile d = d_profile d' -> d_efpa d = d_efpa d' -> d_sigma d = d_sigma d' ->
  Forall2 (alike_act main) (write_run main i d q arr) (write_run main i d' q arr).
Proof.
  intros main i d d' q arr H1 H2 H3 H4. unfold write_run. constructor; [apply act_makedirs|]. apply Forall2_app.
  - cbn [run_files map fst snd]. rewrite H1, H2, H3, H4. repeat (constructor; [apply act_savetxt; first [left; reflexivity|right; exists i; reflexivity]|]). constructor.
  - induction (combine summary_names arr) as [|x l IH]; cbn [map]; constructor; auto. apply act_savetxt. auto.
Qed.
Lemma loop_LD : forall m W S rnd rnd' LD b main, is_drag m = false -> same_but_third rnd rnd' -> 0 <= snd (mc_LD S) -> 0 <= snd LD ->
  forall n i s s', alike main s s' ->
  alike main (fst (mc_loop m W S rnd main n i s)) (fst (mc_loop m W (with_LD S LD b) rnd' main n i s')) /\
  snd (mc_loop m W S rnd main n i s) = snd (mc_loop m W (with_LD S LD b) rnd' main n i s').
Proof.
  intros m W S rnd rnd' LD b main Hm HR H1 H2 n. induction n as [|n IH]; intros i s s' HS; cbn [mc_loop]; [auto|].
  pose proof HS as (E1 & E2 & E3). rewrite <- E1. destruct (mc_run_LD m W S rnd rnd' LD b i (k_mem s) Hm HR H1 H2) as (R1 & R2).
  destruct (mc_run m W S rnd i (k_mem s)) as [mm r], (mc_run m W (with_LD S LD b) rnd' i (k_mem s)) as [mm' r']. cbn [fst snd] in R1, R2. subst mm'.
  destruct r as [[[d q]|e]|], r' as [[[d' q']|e']|]; cbn [same_but_LD] in R2; try contradiction; [| |]; cycle 1.
  { subst e'. cbn [fst snd]. split; [split; auto|auto]. }
  { cbn [fst snd]. split; [split; auto|auto]. }
  destruct R2 as (<- & D1 & D2 & D3 & D4). rewrite <- E2.
  destruct (alike_all main _ _ (write_run_LD main i d d' q (record i q (k_arr s)) D1 D2 D3 D4) (mkCamp mm (record i q (k_arr s)) (k_fs s) (k_ops s)) (mkCamp mm (record i q (k_arr s)) (k_fs s') (k_ops s'))) as (A1 & A2); [split; auto|].
  destruct (perform_all (mkCamp mm (record i q (k_arr s)) (k_fs s) (k_ops s)) (write_run main i d q (record i q (k_arr s)))) as [s1 [u|e]],
    (perform_all (mkCamp mm (record i q (k_arr s)) (k_fs s') (k_ops s')) (write_run main i d' q (record i q (k_arr s)))) as [s1' [u'|e']]; cbn [fst snd] in A1, A2; try discriminate; [apply IH; auto|]. injection A2 as <-. auto.
Qed.
(** Lift-modulated campaigns: whatever is drawn for the lift-to-drag ratio, and whatever its nominal value and
    standard deviation (not negative), the outcome, the vehicle and every file but LD.txt are the same. *)
Theorem C64_drawn_LD_not_flown : forall m W S rnd rnd' LD b N main s F st out st' out', (m = MC \/ m = MC2) -> same_but_third rnd rnd' -> 0 <= snd (mc_LD S) -> 0 <= snd LD ->
  runMonteCarlo m W S rnd N main s F = (st, out) -> runMonteCarlo m W (with_LD S LD b) rnd' N main s F = (st', out') ->
  out = out' /\ k_mem st = k_mem st' /\ k_arr st = k_arr st' /\ same_files_but_LD main (k_fs st) (k_fs st').
Proof.
  intros m W S rnd rnd' LD b N main s F st out st' out' Hm HR H1 H2 E E'. assert (Hd : is_drag m = false) by (destruct Hm; subst; auto). unfold runMonteCarlo in E, E'.
  destruct (perform _ _) as [s1 [u|e]] eqn:EP.
  - assert (A : alike main s1 s1) by (split; auto; split; auto; intros p; auto). destruct (loop_LD m W S rnd rnd' LD b main Hd HR H1 H2 N 0%nat s1 s1 A) as ((A1 & A2 & A3) & A4). rewrite E, E' in *. cbn [fst snd] in *. auto.
  - injection E as <- <-. injection E' as <- <-. split; auto. split; auto. split; auto. intros p; auto.
Qed.
(** What LD.txt holds is the draw: nominal value plus the third normal number times the standard deviation. *)
Theorem C64_LD_recorded : forall m W S rnd V tol i d q, flown_alone m W S rnd V tol i = Some (Ok (d, q)) ->
  d_LD d = match m with MC | MC2 => fst (mc_LD S) + snd (mc_LD S) * nz rnd (3 * i + 2) | MCD | MCD2 | MCD_Earth => 0 end.
Proof.
  intros m W S rnd V tol i d q H. enough (d_LD d = if is_drag m then 0 else fst (mc_LD S) + snd (mc_LD S) * nz rnd (3 * i + 2)) as -> by (destruct m; reflexivity). unfold flown_alone, mc_run in H. destruct (draws m S rnd i) as [d0|e] eqn:ED; [|discriminate].
  assert (d0 = d) as ->.
  { destruct (load_density _ _ _ _); [|discriminate]. destruct (if is_drag m then _ else _) as [[o2 [[[s1 s2] rep]|e2]]|]; cbn [snd] in H; try discriminate. destruct (mc_read (is_two m) rep (s_hist s2)); cbn [rbind] in H; [|discriminate]. congruence. }
  clear H. unfold draws in ED. destruct (choice _ _); [|discriminate]. destruct (randint1 _ _); [|discriminate]. cbn [rbind] in ED. destruct (normal (mc_efpa S) _); [|discriminate]. cbn [rbind] in ED. destruct (normal (0, _) _); [|discriminate]. cbn [rbind] in ED.
  destruct (is_drag m); [cbn [rbind] in ED; injection ED as <-; reflexivity|]. unfold normal in ED. destruct (Rltb (snd (mc_LD S)) 0); cbn [rbind] in ED; [discriminate|]. injection ED as <-. reflexivity.
Qed.
(** Drag-modulated campaigns: LD is recorded as zero, and the nominal ballistic coefficient and its standard
    deviation are stored by the setup and then never used. *)
Theorem C64_drag_beta1_unused : forall m W o npos nmonte files hc lc ac hic tc km efpa b b' ts tx dt mt rnd N main s F, (m = MCD \/ m = MCD2) ->
  runMonteCarlo m W (setupMonteCarloSimulationD o npos nmonte files hc lc ac hic tc km efpa b ts tx dt mt) rnd N main s F =
  runMonteCarlo m W (setupMonteCarloSimulationD o npos nmonte files hc lc ac hic tc km efpa b' ts tx dt mt) rnd N main s F.
Proof.
  intros m W o npos nmonte files hc lc ac hic tc km efpa b b' ts tx dt mt rnd N main s F Hm. unfold runMonteCarlo. destruct (perform _ _) as [s1 [u|e]]; auto.
  assert (G : forall n i s, mc_loop m W (setupMonteCarloSimulationD o npos nmonte files hc lc ac hic tc km efpa b ts tx dt mt) rnd main n i s = mc_loop m W (setupMonteCarloSimulationD o npos nmonte files hc lc ac hic tc km efpa b' ts tx dt mt) rnd main n i s).
  { induction n as [|n IH]; intros i s0; cbn [mc_loop]; auto.
    replace (mc_run m W (setupMonteCarloSimulationD o npos nmonte files hc lc ac hic tc km efpa b' ts tx dt mt) rnd i (k_mem s0)) with (mc_run m W (setupMonteCarloSimulationD o npos nmonte files hc lc ac hic tc km efpa b ts tx dt mt) rnd i (k_mem s0)) by (destruct Hm; subst; reflexivity).
    destruct (mc_run m W _ rnd i (k_mem s0)) as [mm [[[d q]|e]|]]; auto. destruct (perform_all _ _) as [s2 [v|e]]; auto. }
  apply G.
Qed.
Theorem C64_drag_earth_beta1_unused : forall W o npos nmonte files hc ac sc tc km efpa b b' ts tx dt mt rnd N main s F,
  runMonteCarlo MCD_Earth W (setupMonteCarloSimulationD_Earth o npos nmonte files hc ac sc tc km efpa b ts tx dt mt) rnd N main s F =
  runMonteCarlo MCD_Earth W (setupMonteCarloSimulationD_Earth o npos nmonte files hc ac sc tc km efpa b' ts tx dt mt) rnd N main s F.
Proof.
  intros W o npos nmonte files hc ac sc tc km efpa b b' ts tx dt mt rnd N main s F. unfold runMonteCarlo. destruct (perform _ _) as [s1 [u|e]]; auto.
  assert (G : forall n i s, mc_loop MCD_Earth W (setupMonteCarloSimulationD_Earth o npos nmonte files hc ac sc tc km efpa b ts tx dt mt) rnd main n i s = mc_loop MCD_Earth W (setupMonteCarloSimulationD_Earth o npos nmonte files hc ac sc tc km efpa b' ts tx dt mt) rnd main n i s).
  { induction n as [|n IH]; intros i s0; cbn [mc_loop]; auto.
    change (mc_run MCD_Earth W (setupMonteCarloSimulationD_Earth o npos nmonte files hc ac sc tc km efpa b' ts tx dt mt) rnd i (k_mem s0)) with (mc_run MCD_Earth W (setupMonteCarloSimulationD_Earth o npos nmonte files hc ac sc tc km efpa b ts tx dt mt) rnd i (k_mem s0)).
    destruct (mc_run MCD_Earth W _ rnd i (k_mem s0)) as [mm [[[d q]|e]|]]; auto. destruct (perform_all _ _) as [s2 [v|e]]; auto. }
  apply G.
Qed.

(** * C78: what is drawn *)
Lemma alone_draws : forall m W S rnd V tol i d q, flown_alone m W S rnd V tol i = Some (Ok (d, q)) -> draws m S rnd i = Ok d.
Proof.
  intros m W S rnd V tol i d q H. unfold flown_alone, mc_run in H. destruct (draws m S rnd i) as [d0|e] eqn:ED; [|discriminate].
  destruct (load_density _ _ _ _); [|discriminate]. destruct (if is_drag m then _ else _) as [[o2 [[[s1 s2] rep]|e2]]|]; cbn [snd] in H; try discriminate. destruct (mc_read (is_two m) rep (s_hist s2)); cbn [rbind] in H; [|discriminate]. congruence.
Qed.
Lemma draws_in_range : forall m W S rnd V tol i d q, flown_alone m W S rnd V tol i = Some (Ok (d, q)) ->
  In (d_file d) (mc_files S) /\ (1 <= d_profile d <= mc_nmonte S)%nat /\
  let k := (if is_drag m then 2 * i else 3 * i)%nat in
  d_efpa d = fst (mc_efpa S) + snd (mc_efpa S) * nz rnd k /\ d_sigma d = (if is_drag m then 1 else mc_sigma S) * nz rnd (k + 1) /\
  0 <= snd (mc_efpa S) /\ (is_drag m = false -> 0 <= mc_sigma S /\ 0 <= snd (mc_LD S)).
Proof.
  intros m W S rnd V tol i d q H. apply alone_draws in H. unfold draws in H.
  assert (NE : forall ms z x, normal ms z = Ok x -> x = fst ms + snd ms * z /\ 0 <= snd ms) by (intros ms z x; unfold normal; destruct (Rltb_spec (snd ms) 0); intros E; [discriminate|injection E as <-; split; [auto|lra]]).
  destruct (choice (mc_files S) (py rnd (2 * i))) as [f|] eqn:E1; [|discriminate]. cbn [rbind] in H. destruct (randint1 _ _) as [pr|] eqn:E2; [|discriminate]. cbn [rbind] in H.
  destruct (normal (mc_efpa S) _) as [e|] eqn:E3; [|discriminate]. cbn [rbind] in H. destruct (normal (0, _) _) as [sg|] eqn:E4; [|discriminate]. cbn [rbind] in H.
  destruct (NE _ _ _ E3) as (-> & P3). destruct (NE _ _ _ E4) as (-> & P4). cbn [fst snd] in *. clear E3 E4.
  unfold choice in E1. destruct (nth_error (mc_files S) _) eqn:EN; [|discriminate]. injection E1 as <-. apply nth_error_In in EN.
  unfold randint1 in E2. destruct (Nat.eqb_spec (mc_nmonte S) 0); [discriminate|]. assert (pr = 1 + py rnd (2 * i + 1) mod mc_nmonte S)%nat as -> by congruence. clear E2. pose proof (Nat.mod_upper_bound (py rnd (2 * i + 1)) (mc_nmonte S) ltac:(auto)) as MU.
  remember (py rnd (2 * i + 1) mod mc_nmonte S)%nat as u eqn:Eu. clear Eu. destruct (is_drag m); cbn [rbind] in H.
  - injection H as <-. cbn [d_file d_profile d_efpa d_sigma]. split; auto. split; [lia|]. split; auto. split; [rewrite Rplus_0_l; auto|]. split; auto. discriminate.
  - destruct (normal (mc_LD S) _) as [l|] eqn:E5; [|discriminate]. destruct (NE _ _ _ E5) as (_ & P5). cbn [rbind] in H. injection H as <-. cbn [d_file d_profile d_efpa d_sigma]. split; auto. split; [lia|]. split; auto. split; [rewrite Rplus_0_l; auto|]. auto.
Qed.
(** The atmosphere file is one of those given, the profile number is between 1 and NMONTE, the entry angle is
    the nominal one plus its standard deviation times a normal number, and the atmosphere parameter is a normal
    number times the factor set (one with drag modulation).  Runs use different numbers of the stream. *)
Theorem C78_draws_in_range : forall m W S rnd V tol i d q, flown_alone m W S rnd V tol i = Some (Ok (d, q)) ->
  In (d_file d) (mc_files S) /\ (1 <= d_profile d <= mc_nmonte S)%nat /\
  let k := (match m with MC | MC2 => 3 * i | MCD | MCD2 | MCD_Earth => 2 * i end)%nat in
  d_efpa d = fst (mc_efpa S) + snd (mc_efpa S) * nz rnd k /\ d_sigma d = match m with MC | MC2 => mc_sigma S | MCD | MCD2 | MCD_Earth => 1 end * nz rnd (k + 1) /\
  0 <= snd (mc_efpa S) /\ (m = MC \/ m = MC2 -> 0 <= mc_sigma S /\ 0 <= snd (mc_LD S)).
Proof.
  intros m W S rnd V tol i d q H. destruct (draws_in_range _ _ _ _ _ _ _ _ _ H) as (A & B & C & D & E & F). split; [exact A|]. split; [exact B|].
  destruct m; cbn [is_drag] in *; (split; [exact C|]); (split; [exact D|]); (split; [exact E|]); intros Hm; try (apply F; reflexivity); destruct Hm; discriminate.
Qed.
(** With no files, no profiles or a negative standard deviation the first run raises before anything is flown;
    the campaign folder stays behind, empty, and the vehicle is as it was. *)
Theorem C78_bad_setup : forall m W S rnd N main s F l, makedirs F main = Ok l -> (0 < N)%nat ->
  mc_files S = [] \/ mc_nmonte S = 0%nat \/ snd (mc_efpa S) < 0 \/ ((m = MC \/ m = MC2) /\ (mc_sigma S < 0 \/ snd (mc_LD S) < 0)) ->
  exists st e, runMonteCarlo m W S rnd N main s F = (st, Some (Err e)) /\ (e = IndexError \/ e = ValueError) /\ (mc_files S = [] <-> e = IndexError) /\ k_mem st = s /\ k_fs st = applies F l.
Proof.
  intros m W S rnd N main s F l EM HN HB. unfold runMonteCarlo, perform. cbn [k_fs]. rewrite EM. cbn [k_mem k_arr k_ops]. destruct N as [|N]; [lia|]. cbn [mc_loop k_mem].
  assert (G : exists e, draws m S rnd 0 = Err e /\ (e = IndexError \/ e = ValueError) /\ (mc_files S = [] <-> e = IndexError)).
  { unfold draws. destruct (mc_files S) as [|f fs] eqn:EF.
    - unfold choice. cbn [length]. replace (nth_error (@nil string) (py rnd (2 * 0) mod 0)) with (@None string) by (destruct (py rnd (2 * 0) mod 0)%nat; reflexivity). cbn [rbind]. exists IndexError. tauto.
    - assert (C : exists x, choice (f :: fs) (py rnd (2 * 0)) = Ok x).
      { unfold choice. destruct (nth_error (f :: fs) (py rnd (2 * 0) mod length (f :: fs))) eqn:E; [eauto|]. apply nth_error_None in E. exfalso. exact (Nat.lt_irrefl _ (Nat.lt_le_trans _ _ _ (Nat.mod_upper_bound (py rnd (2 * 0)) (length (f :: fs)) ltac:(discriminate)) E)). }
      destruct C as (x & ->). cbn [rbind]. exists ValueError. split; [|split; [auto|split; discriminate]].
      unfold randint1. destruct (Nat.eqb_spec (mc_nmonte S) 0); [reflexivity|]. cbn [rbind]. unfold normal at 1. destruct (Rltb_spec (snd (mc_efpa S)) 0); [reflexivity|]. cbn [rbind].
      destruct HB as [HB|[HB|[HB|(Hm & HB)]]]; [discriminate|contradiction|lra|]. replace (is_drag m) with false by (destruct Hm; subst m; reflexivity). unfold normal at 1. cbn [fst snd]. destruct (Rltb_spec (mc_sigma S) 0); [reflexivity|]. cbn [rbind]. unfold normal. destruct (Rltb_spec (snd (mc_LD S)) 0); [reflexivity|]. lra. }
  destruct G as (e & G1 & G2 & G3). unfold mc_run. rewrite G1. do 2 eexists. split; [reflexivity|]. cbn. auto.
Qed.

(** * C79: what a campaign starts from and leaves behind *)
(** Runs start from the initial state that the vehicle had when the campaign was set up.  Setting another one
    afterwards, or flying the vehicle, changes nothing in the outcome or on disk. *)
Theorem C79_later_state_ignored : forall m W S rnd N main s s' F st out st' out', main <> [] -> sane F -> nan_keeps (w_X W) ->
  ob_veh (v_obj s) = ob_veh (v_obj s') -> ob_tol (v_obj s) = ob_tol (v_obj s') ->
  runMonteCarlo m W S rnd N main s F = (st, out) -> runMonteCarlo m W S rnd N main s' F = (st', out') ->
  out = out' /\ k_fs st = k_fs st' /\ k_ops st = k_ops st'.
Proof.
  intros m W S rnd N main s s' F st out st' out' Hne HS HX EV ET H H'.
  destruct (campaign_spec _ _ _ _ _ _ _ _ _ _ Hne HS HX H) as [(e & EM & -> & ->)|(l & xs & EM & L & A & EO & EF & C)].
  - unfold runMonteCarlo, perform in H'. cbn [k_fs] in H'. rewrite EM in H'. injection H' as <- <-. auto.
  - destruct (campaign_spec _ _ _ _ _ _ _ _ _ _ Hne HS HX H') as [(e & EM' & _)|(l' & xs' & EM' & L' & A' & EO' & EF' & C')]; [congruence|].
    rewrite EM in EM'. injection EM' as <-. rewrite <- EV, <- ET in A', C'. set (run := flown_alone m W S rnd (ob_veh (v_obj s)) (ob_tol (v_obj s))) in *.
    assert (EL : length xs = length xs').
    { destruct (Nat.lt_total (length xs) (length xs')) as [Lt|[Lt|Lt]]; auto; exfalso.
      - destruct (nth_error xs' (length xs)) as [x|] eqn:E; [|apply nth_error_None in E; lia]. apply A' in E. destruct out as [[u|e]|]; destruct C as (C1 & C2); [lia|congruence|congruence].
      - destruct (nth_error xs (length xs')) as [x|] eqn:E; [|apply nth_error_None in E; lia]. apply A in E. destruct out' as [[u|e]|]; destruct C' as (C1 & C2); [lia|congruence|congruence]. }
    assert (xs = xs') as <-.
    { apply nth_error_ext. intros j. destruct (nth_error xs j) as [x|] eqn:E; [|symmetry; apply nth_error_None; rewrite <- EL; apply nth_error_None; auto].
      destruct (nth_error xs' j) as [x'|] eqn:E'; [|exfalso; apply nth_error_None in E'; assert (j < length xs)%nat by (apply nth_error_Some; congruence); lia]. apply A in E. apply A' in E'. congruence. }
    split; [|rewrite EF, EF', EO, EO'; auto]. destruct out as [[[]|e]|], out' as [[[]|e']|]; destruct C as (C1 & C2), C' as (C1' & C2'); try lia; try congruence.
Qed.
(** The planet object keeps the density of the last run flown, and every later computation with it uses that. *)
Theorem C79_last_atmosphere_left : forall m W S rnd N main s F st, main <> [] -> sane F -> nan_keeps (w_X W) -> runMonteCarlo m W S rnd (Datatypes.S N) main s F = (st, Some (Ok tt)) ->
  exists d q f, flown_alone m W S rnd (ob_veh (v_obj s)) (ob_tol (v_obj s)) N = Some (Ok (d, q)) /\
    load_density (match m with MCD_Earth => true | _ => false end) S (w_load W) d = Ok f /\ density_int (vh_atm (ob_veh (v_obj (k_mem st)))) = f.
Proof.
  intros m W S rnd N main s F st Hne HS HX H.
  assert (R : forall i mm mm' x, mc_run m W S rnd i mm = (mm', Some (Ok x)) -> exists f, load_density (match m with MCD_Earth => true | _ => false end) S (w_load W) (fst x) = Ok f /\ density_int (vh_atm (ob_veh (v_obj mm'))) = f).
  { clear -HX. intros i mm mm' [d q] H. unfold mc_run in H. destruct (draws m S rnd i) as [d0|]; [|discriminate]. destruct (load_density _ S (w_load W) d0) as [f|] eqn:EL; [|discriminate].
    destruct (is_drag m).
    - destruct (propogateGuidedEntryD _ _ _ _ _ _ _ _ _ _ _ _) as [[o2 [[[s1 s2] rep]|e2]]|] eqn:EP; try discriminate. destruct (mc_read (is_two m) rep (s_hist s2)); [|discriminate]. cbn [rbind] in H. injection H as <- <- <-. cbn [fst v_obj]. exists f. split; auto.
      destruct (C76_left_behind _ _ _ _ _ _ _ _ _ _ _ _ _ _ _ _ EP) as (b1 & ratio & _ & _ & _ & _ & -> & _). reflexivity.
    - destruct (propogateGuidedEntry _ _ _ _ _ _ _ _ _ _) as [[o2 [[[s1 s2] rep]|e2]]|] eqn:EP; try discriminate. destruct (mc_read (is_two m) rep (s_hist s2)); [|discriminate]. cbn [rbind] in H. injection H as <- <- <-. cbn [fst v_obj]. exists f. split; auto.
      destruct (lift_base _ _ _ _ _ _ _ _ _ _ _ _ _ _ HX EP) as (-> & _). reflexivity. }
  assert (PA : forall l c, k_mem (fst (perform_all c l)) = k_mem c).
  { clear. induction l as [|a l IH]; intros c; cbn [perform_all]; auto. unfold perform. destruct (a (k_fs c)); cbn [fst]; [rewrite IH|]; auto. }
  assert (G : forall n i c c', mc_loop m W S rnd main (Datatypes.S n) i c = (c', Some (Ok tt)) -> exists mm x, mc_run m W S rnd (i + n) mm = (k_mem c', Some (Ok x))).
  { clear -PA. induction n as [|n IH]; intros i c c' H.
    - cbn [mc_loop] in H. destruct (mc_run m W S rnd i (k_mem c)) as [mm [[[d q]|e]|]] eqn:ER; try discriminate.
      pose proof (PA (write_run main i d q (record i q (k_arr c))) (mkCamp mm (record i q (k_arr c)) (k_fs c) (k_ops c))) as PM. destruct (perform_all _ _) as [s2 [v|e]]; [|discriminate]. injection H as <-. cbn [fst k_mem] in PM. rewrite PM, Nat.add_0_r. eauto.
    - remember (Datatypes.S n) as n'. cbn [mc_loop] in H. destruct (mc_run m W S rnd i (k_mem c)) as [mm [[[d q]|e]|]] eqn:ER; try discriminate. destruct (perform_all _ _) as [s2 [v|e]]; [|discriminate]. apply IH in H. subst n'. replace (i + Datatypes.S n)%nat with (i + 1 + n)%nat by lia. auto. }
  pose proof H as H'. unfold runMonteCarlo in H'. destruct (perform _ _) as [s1 [u|e]]; [|discriminate]. destruct (G _ _ _ _ H') as (mm & [d q] & ER). destruct (R _ _ _ _ ER) as (f & E1 & E2). cbn [fst] in E1.
  destruct (campaign_spec _ _ _ _ _ _ _ _ _ _ Hne HS HX H) as [(e & _ & _ & E)|(l & xs & _ & _ & A & _ & _ & C & _)]; [discriminate|].
  destruct (nth_error xs N) as [[d' q']|] eqn:EN; [|apply nth_error_None in EN; lia]. apply A in EN. exists d', q', f. split; auto. split; auto.
  assert (draws m S rnd N = Ok d') as D' by (eapply alone_draws; eauto).
  assert (draws m S rnd N = Ok d) as D.
  { clear -ER. cbn [Nat.add] in ER. unfold mc_run in ER. destruct (draws m S rnd N) as [d0|]; [|discriminate]. destruct (load_density _ _ _ _); [|discriminate]. destruct (if is_drag m then _ else _) as [[o2 [[[s1 s2] rep]|e2]]|]; try discriminate. destruct (mc_read (is_two m) rep (s_hist s2)); [|discriminate]. cbn [rbind] in ER. congruence. }
  congruence.
Qed.
