(** C113: Monte Carlo campaigns running at the same time in several processes. *)
From Coq Require Import String List Arith Lia.
Require Import Verif.Base Verif.TrajectoryModel Verif.GuidanceModel Verif.MonteModel Verif.MonteSpec Verif.MonteProofs Verif.PropMonte
  Verif.StudyModel Verif.StudySpec Verif.PropStudy.
Local Open Scope list_scope.

(** * A process on its own *)
(** Serving requests one after another without a pause. *)
Fixpoint serve (F : fs) (l : list request) : fs * list op * res unit :=
  match l with
  | [] => (F, [], Ok tt)
  | a :: l' => match a F with
               | Err e => (F, [], Err e)
               | Ok o => let '(F', os, r) := serve (applies F o) l' in (F', o ++ os, r)
               end
  end.
Lemma perform_all_serve : forall l s s' r, perform_all s l = (s', r) -> exists os, serve (k_fs s) l = (k_fs s', os, r) /\ k_ops s' = k_ops s ++ os.
Proof.
  induction l as [|a l IH]; intros s s' r H; cbn [perform_all serve] in *; [injection H as <- <-; exists []; rewrite app_nil_r; auto|].
  unfold perform in H. destruct (a (k_fs s)) as [o|e]; [|injection H as <- <-; exists []; rewrite app_nil_r; auto].
  destruct (IH _ _ _ H) as (os & A & B). cbn [k_fs k_ops] in A, B. rewrite A. exists (o ++ os). rewrite B, app_assoc. auto.
Qed.
Lemma serve_app : forall a b F, serve F (a ++ b) =
  match serve F a with (F', os, Err e) => (F', os, Err e) | (F', os, Ok _) => let '(F2, os2, r) := serve F' b in (F2, os ++ os2, r) end.
Proof.
  induction a as [|x a IH]; intros b F; cbn [serve app]; [destruct (serve F b) as [[? ?] ?]; reflexivity|].
  destruct (x F) as [o|e]; [|reflexivity]. rewrite IH. destruct (serve (applies F o) a) as [[F' os] [[]|e]]; [|reflexivity].
  destruct (serve F' b) as [[F2 os2] r]. rewrite app_assoc. reflexivity.
Qed.
Lemma perform_all_mem : forall l s s' r, perform_all s l = (s', r) -> k_mem s' = k_mem s /\ k_arr s' = k_arr s.
Proof.
  induction l as [|a l IH]; intros s s' r H; cbn [perform_all] in H; [injection H as <- _; auto|]. unfold perform in H. destruct (a (k_fs s)); [|injection H as <- _; auto].
  apply IH in H. exact H.
Qed.
Definition settled (out : option (res unit)) : res unit := match out with Some r => r | None => Ok tt end.
Lemma loop_serve : forall m W S rnd main n i s s' out, mc_loop m W S rnd main n i s = (s', out) ->
  exists os, serve (k_fs s) (loop_requests m W S rnd main n i (k_mem s) (k_arr s)) = (k_fs s', os, settled out) /\ k_ops s' = k_ops s ++ os.
Proof.
  intros m W S rnd main. induction n as [|n IH]; intros i s s' out H; cbn [mc_loop loop_requests] in *.
  { injection H as <- <-. exists []. rewrite app_nil_r. auto. }
  destruct (mc_run m W S rnd i (k_mem s)) as [mm [[[d q]|e]|]].
  - destruct (perform_all _ _) as [s1 r1] eqn:EP. pose proof (perform_all_serve _ _ _ _ EP) as (o1 & A1 & B1). cbn [k_fs k_ops] in A1, B1.
    rewrite serve_app, A1. assert (M : k_mem s1 = mm /\ k_arr s1 = record i q (k_arr s)).
    { apply perform_all_mem in EP. exact EP. }
    destruct r1 as [[]|e].
    + destruct (IH _ _ _ _ H) as (o2 & A2 & B2). destruct M as [M1 M2]. rewrite M1, M2 in A2. rewrite A2. exists (o1 ++ o2). rewrite B2, B1, app_assoc. auto.
    + injection H as <- <-. exists o1. auto.
  - injection H as <- <-. exists []. cbn. rewrite app_nil_r. auto.
  - injection H as <- <-. exists []. cbn. rewrite app_nil_r. auto.
Qed.
Lemma own_serve : forall c F, serve F (requests c) = (k_fs (fst (on_its_own c F)), k_ops (fst (on_its_own c F)), settled (snd (on_its_own c F))).
Proof.
  intros c F. unfold requests, on_its_own, runMonteCarlo, perform. cbn [serve k_fs]. destruct (makedirs F (cp_main c)) as [l|e]; [|reflexivity].
  cbn [k_mem k_arr k_ops app]. destruct (mc_loop _ _ _ _ _ _ _ _) as [s' out] eqn:EL. cbn [fst snd].
  destruct (loop_serve _ _ _ _ _ _ _ _ _ _ EL) as (os & A & B). cbn [k_fs k_ops k_mem k_arr] in A, B. rewrite A, B. reflexivity.
Qed.

(** Where a process ends when left alone. *)
Definition leads_to (F : fs) (P : proc) : fs * list op * res unit :=
  match pr_exn P with
  | Some e => (F, pr_done P, Err e)
  | None => let '(F', os, r) := serve (applies F (pr_pend P)) (pr_todo P) in (F', pr_done P ++ pr_pend P ++ os, r)
  end.
Lemma pstep_leads : forall F P, leads_to (fst (pstep F P)) (snd (pstep F P)) = leads_to F P.
Proof.
  intros F [todo pend dn [e|]]; [reflexivity|]. unfold pstep. cbn [pr_exn pr_pend pr_todo pr_done]. destruct pend as [|x l].
  - destruct todo as [|a t]; [reflexivity|]. destruct (a F) as [[|x l]|e] eqn:E; unfold leads_to; cbn [fst snd pr_exn pr_pend pr_todo pr_done serve applies fold_left]; rewrite ?E; cbn [applies fold_left].
    + destruct (serve F t) as [[? ?] ?]. reflexivity.
    + change (fold_left apply l (apply F x)) with (applies (apply F x) l). destruct (serve _ t) as [[? ?] ?]. rewrite <- app_assoc. reflexivity.
    + cbn. rewrite app_nil_r. reflexivity.
  - unfold leads_to. cbn [fst snd pr_exn pr_pend pr_todo pr_done]. rewrite applies_cons. destruct (serve _ todo) as [[? ?] ?]. rewrite <- app_assoc. reflexivity.
Qed.
Fixpoint alone (k : nat) (s : fs * proc) : fs * proc := match k with O => s | Datatypes.S k' => let t := alone k' s in pstep (fst t) (snd t) end.
Lemma alone_leads : forall k s, leads_to (fst (alone k s)) (snd (alone k s)) = leads_to (fst s) (snd s).
Proof. induction k as [|k IH]; intros s; [reflexivity|]. cbn [alone]. rewrite pstep_leads. auto. Qed.
Lemma pstep_done : forall F P, exists o, pr_done (snd (pstep F P)) = pr_done P ++ o /\ fst (pstep F P) = applies F o.
Proof.
  intros F [todo pend dn [e|]]; [exists []; cbn; rewrite app_nil_r; auto|]. unfold pstep. cbn [pr_exn pr_pend pr_todo pr_done]. destruct pend as [|x l].
  - destruct todo as [|a t]; [exists []; cbn; rewrite app_nil_r; auto|]. destruct (a F) as [[|x l]|e]; [exists []; cbn; rewrite app_nil_r; auto|exists [x]; auto|exists []; cbn; rewrite app_nil_r; auto].
  - exists [x]. auto.
Qed.
Lemma alone_done : forall k F c, fst (alone k (F, start c)) = applies F (pr_done (snd (alone k (F, start c)))).
Proof.
  induction k as [|k IH]; intros F c; [reflexivity|]. cbn [alone]. destruct (pstep_done (fst (alone k (F, start c))) (snd (alone k (F, start c)))) as (o & A & B).
  rewrite A, B, applies_app, <- IH. reflexivity.
Qed.
Lemma alone_prefix : forall k F c, exists post, k_ops (fst (on_its_own c F)) = pr_done (snd (alone k (F, start c))) ++ post /\
  (ended (snd (alone k (F, start c))) -> post = [] /\ settled (snd (on_its_own c F)) = match pr_exn (snd (alone k (F, start c))) with Some e => Err e | None => Ok tt end).
Proof.
  intros k F c. pose proof (alone_leads k (F, start c)) as H. cbn [fst snd] in H.
  assert (E : leads_to F (start c) = (k_fs (fst (on_its_own c F)), k_ops (fst (on_its_own c F)), settled (snd (on_its_own c F)))).
  { unfold leads_to, start. cbn [pr_exn pr_pend pr_todo pr_done applies fold_left]. rewrite own_serve. reflexivity. }
  rewrite E in H. destruct (alone k (F, start c)) as [G [todo pend dn ex]]. unfold leads_to in H. cbn [fst snd pr_exn pr_pend pr_todo pr_done] in *. destruct ex as [e|].
  - exists []. injection H as _ <- <-. rewrite app_nil_r. auto.
  - destruct (serve (applies G pend) todo) as [[F' os] r] eqn:ES. injection H as _ <- <-. exists (pend ++ os). split; [reflexivity|].
    intros Hd. unfold ended in Hd. cbn [pr_exn pr_pend pr_todo] in Hd. destruct Hd as [X|[-> ->]]; [congruence|]. cbn in ES. injection ES as _ <- <-. auto.
Qed.
Lemma ended_stays : forall F P, ended P -> pstep F P = (F, P).
Proof. intros F [todo pend dn ex] H. unfold pstep, ended in *. cbn [pr_exn pr_pend pr_todo pr_done] in *. destruct ex; [reflexivity|]. destruct H as [H|[-> ->]]; [congruence|reflexivity]. Qed.
Lemma alone_add : forall a b s, alone (a + b) s = alone a (alone b s).
Proof. induction a as [|a IH]; intros b s; [reflexivity|]. cbn [alone Nat.add]. rewrite IH. reflexivity. Qed.
Lemma alone_ended : forall k s, ended (snd s) -> alone k s = s.
Proof. induction k as [|k IH]; intros s H; [reflexivity|]. cbn [alone]. rewrite IH by auto. rewrite ended_stays by auto. now destruct s. Qed.
Lemma alone_ends : forall todo pend dn ex F, exists K, ended (snd (alone K (F, mkProc todo pend dn ex))).
Proof.
  assert (P : forall todo ex, (forall dn F, exists K, ended (snd (alone K (F, mkProc todo [] dn ex)))) -> forall pend dn F, exists K, ended (snd (alone K (F, mkProc todo pend dn ex)))).
  { intros todo ex H. induction pend as [|x l IH]; intros dn F; auto. destruct ex as [e|]; [exists 0%nat; left; discriminate|].
    destruct (IH (dn ++ [x]) (apply F x)) as (K & HK). exists (K + 1)%nat. rewrite alone_add. exact HK. }
  induction todo as [|a t IH]; intros pend dn ex F; apply P; clear pend dn F; intros dn F.
  - exists 0%nat. right. auto.
  - destruct ex as [e|]; [exists 0%nat; left; discriminate|].
    assert (X : exists p d x, snd (pstep F (mkProc (a :: t) [] dn None)) = mkProc t p d x) by (unfold pstep; cbn [pr_exn pr_pend pr_todo pr_done]; destruct (a F) as [[|x l]|e]; cbn [snd]; eauto).
    destruct X as (p & d & x & X). destruct (IH p d x (fst (pstep F (mkProc (a :: t) [] dn None)))) as (K & HK). exists (K + 1)%nat. rewrite alone_add. cbn [alone fst snd].
    rewrite <- X in HK. destruct (pstep F (mkProc (a :: t) [] dn None)). exact HK.
Qed.

(** * What a campaign sees of the disk *)
Definition under (main : path) (p : path) : Prop := exists r, p = main ++ r.
(** Two disks a campaign into [main] cannot tell apart. *)
Definition alike_for (main : path) (F G : fs) : Prop :=
  (forall r, F (main ++ r) = G (main ++ r)) /\ forall t x r, main = t ++ x :: r -> F t = Some Dir /\ G t = Some Dir.
Lemma apply_same : forall F G x p, F p = G p -> apply F x p = apply G x p.
Proof. intros F G [] q H; cbn [apply]; unfold put; destruct (path_dec p q); auto. Qed.
Lemma apply_off : forall F x p, p <> target x -> apply F x p = F p.
Proof. intros F x p H. destruct (apply_at F x p); auto; contradiction. Qed.
Lemma not_inside : forall (main t : path) x r r', main = t ++ x :: r -> t <> main ++ r'.
Proof. intros main t x r r' E E'. apply (f_equal (@length _)) in E, E'. rewrite app_length in E, E'. cbn [length] in E. lia. Qed.
Lemma alike_apply : forall main F G x, alike_for main F G -> under main (target x) -> alike_for main (apply F x) (apply G x).
Proof.
  intros main F G x [A B] [r0 E]. split; [intros r; apply apply_same; auto|]. intros t y r Ht. rewrite !apply_off by (rewrite E; eapply not_inside; eauto). eauto.
Qed.
Lemma alike_other : forall main F G x, alike_for main F G -> (forall r, target x <> main ++ r) -> (forall t y r, main = t ++ y :: r -> t <> target x) -> alike_for main (apply F x) G.
Proof. intros main F G x [A B] H1 H2. split; [intros r; rewrite apply_off; auto|]. intros t y r Ht. rewrite apply_off by eauto. eauto. Qed.
Definition local (main : path) (a : request) : Prop := forall F G, alike_for main F G -> a F = a G /\ forall l, a F = Ok l -> Forall (fun x => under main (target x)) l.
Lemma parents_same : forall F G todo done, (forall t1 t2, todo = t1 ++ t2 -> F (done ++ t1) = G (done ++ t1)) -> mk_parents F done todo = mk_parents G done todo.
Proof.
  intros F G. induction todo as [|x todo IH]; intros done H; cbn [mk_parents]; pose proof (H [] _ eq_refl) as H0; rewrite app_nil_r in H0; rewrite H0; auto.
  rewrite IH; auto. intros t1 t2 ->. specialize (H (x :: t1) t2 eq_refl). rewrite <- app_assoc. auto.
Qed.
(** Every prefix of a path under [main] is an ancestor of [main] or under it. *)
Lemma prefix_cases : forall (main r t1 t2 : path), main ++ r = t1 ++ t2 -> under main t1 \/ exists x r', main = t1 ++ x :: r'.
Proof.
  intros main r t1. revert main r. induction t1 as [|y t1 IH]; intros [|x main] r t2 H; [left; exists []; auto|right; exists x, main; auto|left; eexists; reflexivity|].
  injection H as -> H. destruct (IH _ _ _ H) as [[r0 ->]|(x0 & r' & ->)]; [left; exists r0; auto|right; exists x0, r'; auto].
Qed.
Lemma local_makedirs : forall main p, main <> [] -> under main p -> local main (fun F => makedirs F p).
Proof.
  intros main p Hne [r ->] F G [A B]. unfold makedirs. assert (E : mk_parents F [] (removelast (main ++ r)) = mk_parents G [] (removelast (main ++ r))).
  { apply parents_same. intros t1 t2 Ht. cbn [app]. destruct (last_split (main ++ r)) as (x & Ex); [intros X; apply app_eq_nil in X; tauto|].
    rewrite Ht, <- app_assoc in Ex. destruct (prefix_cases _ _ _ _ Ex) as [[r0 ->]|(y & r' & Em)]; auto. destruct (B _ _ _ Em). congruence. }
  rewrite A, E. split; [reflexivity|]. intros l Hl. destruct (G (main ++ r)); [discriminate|]. rewrite <- E in Hl.
  destruct (mk_parents F [] (removelast (main ++ r))) as [l0|] eqn:EP; cbn [rbind] in Hl; [|discriminate]. injection Hl as <-.
  apply Forall_app. split; [|constructor; [exists r; auto|constructor]]. apply Forall_forall. intros y Hy. apply mk_parents_spec in EP. destruct EP as [EP _].
  destruct (EP y Hy) as (t1 & t2 & Ht & -> & Hn). cbn [app target] in *. destruct (last_split (main ++ r)) as (x & Ex); [intros X; apply app_eq_nil in X; tauto|].
  rewrite Ht, <- app_assoc in Ex. destruct (prefix_cases _ _ _ _ Ex) as [U|(z & r' & Em)]; auto. destruct (B _ _ _ Em). congruence.
Qed.
Lemma local_savetxt : forall main p c, (exists x r, p = main ++ x :: r) -> local main (fun F => savetxt F p c).
Proof.
  intros main p c (x & r & ->) F G [A B]. unfold savetxt. rewrite removelast_app by discriminate. rewrite !A. split; [reflexivity|].
  intros l Hl. destruct (G (main ++ removelast (x :: r))) as [[]|]; try discriminate. assert (l = [Open (main ++ x :: r) c; Close (main ++ x :: r) c]) as -> by (destruct (G (main ++ x :: r)) as [[]|]; congruence).
  repeat constructor; eexists; reflexivity.
Qed.
Lemma loop_local : forall m W S rnd main n i s arr, main <> [] -> Forall (local main) (loop_requests m W S rnd main n i s arr).
Proof.
  intros m W S rnd main n i s arr Hne. revert i s arr. induction n as [|n IH]; intros i s arr; cbn [loop_requests]; [constructor|].
  destruct (mc_run m W S rnd i s) as [mm [[[d q]|e]|]]; [|constructor; [|constructor]|constructor].
  - apply Forall_app. split; [|apply IH]. unfold write_run. constructor; [apply local_makedirs; auto; eexists; reflexivity|]. apply Forall_app. split; apply Forall_map, Forall_forall; intros y _; apply local_savetxt.
    + unfold run_folder. rewrite <- app_assoc. do 2 eexists. reflexivity.
    + do 2 eexists. reflexivity.
  - intros F G _. split; [reflexivity|]. intros l Hl. discriminate.
Qed.
Lemma requests_local : forall c, cp_main c <> [] -> Forall (local (cp_main c)) (requests c).
Proof. intros c H. constructor; [apply local_makedirs; auto; exists []; rewrite app_nil_r; auto|apply loop_local; auto]. Qed.
Definition good (main : path) (P : proc) : Prop := Forall (local main) (pr_todo P) /\ Forall (fun x => under main (target x)) (pr_pend P).
Lemma pstep_local : forall main F G P, good main P -> alike_for main F G ->
  snd (pstep F P) = snd (pstep G P) /\ alike_for main (fst (pstep F P)) (fst (pstep G P)) /\ good main (snd (pstep F P)) /\
  (fst (pstep F P) = F \/ exists x, under main (target x) /\ fst (pstep F P) = apply F x).
Proof.
  intros main F G [todo pend dn [e|]] HG HA; [unfold pstep; cbn; auto|]. unfold pstep. cbn [pr_exn pr_pend pr_todo pr_done]. destruct HG as [H1 H2]. cbn [pr_todo pr_pend] in *.
  destruct pend as [|x l].
  - destruct todo as [|a t]; [cbn; unfold good; cbn; auto|]. inversion H1 as [|? ? La Lt]; subst. destruct (La F G HA) as [E U]. rewrite <- E. destruct (a F) as [[|x l]|e]; cbn [fst snd]; unfold good; cbn [pr_todo pr_pend]; auto.
    specialize (U _ eq_refl). inversion U; subst. split; auto. split; [apply alike_apply; auto|]. split; auto. right. eauto.
  - inversion H2; subst. cbn [fst snd]; unfold good; cbn [pr_todo pr_pend]. split; auto. split; [apply alike_apply; auto|]. split; auto. right; eauto.
Qed.

(** * Any schedule *)
Lemma upd_same : forall {A} i (x y : A) l, nth_error l i = Some y -> nth_error (upd i x l) i = Some x.
Proof.
  intros A i x y l H. unfold upd. assert (L : (i < length l)%nat) by (apply nth_error_Some; congruence).
  destruct (skipn i l) as [|z t] eqn:E; [apply (f_equal (@length _)) in E; rewrite skipn_length in E; cbn in E; lia|].
  rewrite nth_error_app2; rewrite firstn_length_le by lia; [|lia]. rewrite Nat.sub_diag. reflexivity.
Qed.
Lemma upd_other : forall {A} i j (x : A) l, i <> j -> nth_error (upd i x l) j = nth_error l j.
Proof.
  intros A i j x l Hn. unfold upd. destruct (skipn i l) as [|z t] eqn:E; [reflexivity|].
  assert (L : (i < length l)%nat) by (apply (f_equal (@length _)) in E; rewrite skipn_length in E; cbn in E; lia).
  rewrite <- (firstn_skipn i l) at 2. rewrite E. destruct (Nat.lt_ge_cases j i).
  - rewrite !nth_error_app1 by (rewrite firstn_length_le; lia). reflexivity.
  - rewrite !nth_error_app2 by (rewrite firstn_length_le; lia). rewrite firstn_length_le by lia. replace (j - i)%nat with (Datatypes.S (j - i - 1)) by lia. reflexivity.
Qed.
Lemma sched_snoc : forall F ps l i, sched F ps (l ++ [i]) = sstep (sched F ps l) i.
Proof. intros. unfold sched. rewrite fold_left_app. reflexivity. Qed.
Notation times l i := (count_occ Nat.eq_dec l i).
Lemma simulation : forall cs F0 l, Forall (fun c => cp_main c <> []) cs -> Forall (can_start F0) cs -> all_apart cs ->
  let s := sched F0 (map start cs) l in
  (forall i c, nth_error cs i = Some c -> let a := alone (times l i) (F0, start c) in
     nth_error (snd s) i = Some (snd a) /\ alike_for (cp_main c) (fst s) (fst a) /\ good (cp_main c) (snd a)) /\
  (forall i, nth_error cs i = None -> nth_error (snd s) i = None) /\
  (forall p, (forall c r, In c cs -> p <> cp_main c ++ r) -> fst s p = F0 p).
Proof.
  intros cs F0 l Hne Hst Hap. induction l as [|k l IH] using rev_ind; cbv zeta in *.
  - split; [|split].
    + intros i c Hc. cbn [count_occ alone sched fold_left fst snd]. rewrite nth_error_map, Hc. split; [reflexivity|].
      apply nth_error_In in Hc. rewrite Forall_forall in Hne, Hst. split; [|split; [apply requests_local; auto|constructor]].
      destruct (Hst _ Hc) as [_ A]. split; [reflexivity|]. intros t x r Ht. pose proof (A t x r Ht). auto.
    + intros i Hc. cbn. rewrite nth_error_map, Hc. reflexivity.
    + reflexivity.
  - rewrite sched_snoc. destruct IH as (A & B & C). destruct (sched F0 (map start cs) l) as [F ps]. cbn [fst snd] in *. unfold sstep. cbn [fst snd].
    destruct (nth_error cs k) as [d|] eqn:Ed.
    + destruct (A k d Ed) as (A1 & A2 & A3). rewrite A1. destruct (pstep_local _ _ _ _ A3 A2) as (S1 & S2 & S3 & S4).
      destruct (pstep F (snd (alone (times l k) (F0, start d)))) as [F' P'] eqn:EP. cbn [fst snd] in *. split; [|split].
      * intros i c Hc. rewrite count_occ_app. cbn [count_occ]. destruct (Nat.eq_dec k i) as [->|Hki].
        { rewrite Hc in Ed. injection Ed as <-. rewrite Nat.add_1_r. cbn [alone]. split; [rewrite <- S1; eapply upd_same; eauto|]. split; [exact S2|]. rewrite <- S1. exact S3. }
        { rewrite Nat.add_0_r. destruct (A i c Hc) as (D1 & D2 & D3). split; [rewrite upd_other; auto|]. split; auto. destruct S4 as [->|(x & [r0 U] & ->)]; auto.
          destruct (Hap k i d c Hki Ed Hc) as [P1 P2]. apply alike_other; auto.
          - intros r E. rewrite U in E. destruct (prefix_cases (cp_main d) r0 (cp_main c) r E) as [[r1 X]|(y & r1 & X)]; [apply (P2 r1 X)|apply (P1 (y :: r1) X)].
          - intros t y r Ht E. subst t. rewrite U, <- app_assoc in Ht. apply (P2 _ Ht). }
      * intros i Hi. rewrite upd_other; auto. congruence.
      * intros p Hp. destruct S4 as [->|(x & [r0 U] & ->)]; auto. rewrite apply_off; auto. rewrite U. apply Hp. eapply nth_error_In; eauto.
    + rewrite (B k Ed). cbn [fst snd]. split; [|auto]. intros i c Hc. rewrite count_occ_app. cbn [count_occ]. destruct (Nat.eq_dec k i) as [->|Hki]; [congruence|]. rewrite Nat.add_0_r. auto.
Qed.

(** Processes running campaigns into folders none of which lies in another one, under any schedule: each has at
    every moment done a beginning of what its campaign does when it has the disk to itself, and finds under its
    folder exactly that; when it has ended, it has done all of it and ended the same way.  The rest of the disk
    is as it was. *)
Theorem C113_as_if_alone : forall cs F0 l, Forall callable cs -> Forall (can_start F0) cs -> all_apart cs ->
  let F := fst (sched F0 (map start cs) l) in let ps := snd (sched F0 (map start cs) l) in
  (forall i c, nth_error cs i = Some c -> exists P post, nth_error ps i = Some P /\
     k_ops (fst (on_its_own c F0)) = pr_done P ++ post /\
     (forall r, F (cp_main c ++ r) = applies F0 (pr_done P) (cp_main c ++ r)) /\
     (ended P -> post = [] /\ (forall r, F (cp_main c ++ r) = k_fs (fst (on_its_own c F0)) (cp_main c ++ r)) /\
        pr_exn P = match snd (on_its_own c F0) with Some (Err e) => Some e | _ => None end)) /\
  (forall p, (forall c r, In c cs -> p <> cp_main c ++ r) -> F p = F0 p).
Proof.
  intros cs F0 l Hc Hs Ha F ps. destruct (simulation cs F0 l) as (A & _ & C); auto; [eapply Forall_impl; [|exact Hc]; intros c [? _]; auto|]. split; auto.
  intros i c Hi. destruct (A i c Hi) as (A1 & [A2 _] & _). destruct (alone_prefix (times l i) F0 c) as (post & E & X).
  exists (snd (alone (times l i) (F0, start c))), post. split; auto. split; auto. rewrite <- alone_done. split; auto.
  intros He. destruct (X He) as [-> Y]. split; auto. split.
  - intros r. destruct (own_lawful c F0) as [-> _]. rewrite E, app_nil_r, <- alone_done. apply A2.
  - destruct (pr_exn _) as [e|], (snd (on_its_own c F0)) as [[[]|e']|]; cbn [settled] in Y; congruence.
Qed.

(** In particular the runs a process has completed are on disk in full, whatever the others do and whenever any
    of them stops. *)
Theorem C113_completed_runs : forall cs F0 l i c, sane F0 -> Forall callable cs -> Forall (can_start F0) cs -> all_apart cs -> nth_error cs i = Some c ->
  let F := fst (sched F0 (map start cs) l) in
  exists xs, (length xs <= cp_N c)%nat /\
    (forall j x, nth_error xs j = Some x -> outcome c j = Some (Ok x) /\ stored F (cp_main c) j x) /\
    (forall j r, (length xs < j)%nat -> F (folder (cp_main c) j ++ r) = None) /\
    (forall n f, In (n, f) summary_table -> xs <> [] -> exists ys, (ys = xs \/ exists x, ys = xs ++ [x] /\ outcome c (length xs) = Some (Ok x)) /\
        (F (cp_main c ++ [n]) = Some (File (column (cp_N c) f ys)) \/ F (cp_main c ++ [n]) = Some (Torn (column (cp_N c) f ys)))).
Proof.
  intros cs F0 l i c HS Hc Hs Ha Hi F. destruct (C113_as_if_alone cs F0 l Hc Hs Ha) as [A _]. fold F in A. destruct (A i c Hi) as (P & post & _ & E & EF & _).
  pose proof (nth_error_In _ _ Hi) as HI. rewrite Forall_forall in Hc, Hs. destruct (Hc _ HI) as [Hm HX]. destruct (Hs _ HI) as [Hn _].
  destruct (on_its_own c F0) as [st out] eqn:EO. cbn [fst] in E. unfold on_its_own in EO.
  destruct (C65_any_crash_point _ _ _ _ _ _ _ _ _ _ _ _ Hm HS HX EO E Hn) as (xs & A1 & A2 & _ & A4 & A5 & _).
  assert (KF : forall j r, F (folder (cp_main c) j ++ r) = applies F0 (pr_done P) (folder (cp_main c) j ++ r)) by (intros j r; unfold folder; rewrite <- app_assoc; apply EF).
  exists xs. split; auto. split; [|split].
  - intros j x Hj. destruct (A2 j x Hj) as [B1 [B2 B3]]. split; auto. split; [specialize (KF j []); rewrite !app_nil_r in KF; rewrite KF; auto|]. intros n k Hk. rewrite KF. auto.
  - intros j r Hj. rewrite KF. auto.
  - intros n f Hf Hx. rewrite EF. destruct (A5 n f Hf) as [[? _]|[[_ B]|(x & B1 & _ & B2)]]; [contradiction| |].
    + exists xs. auto.
    + exists (xs ++ [x]). split; [right; exists x; auto|]. destruct B2; auto.
Qed.

(** A schedule that goes on serving every process brings all of them to their end. *)
Theorem C113_all_end : forall cs F0, Forall callable cs -> Forall (can_start F0) cs -> all_apart cs ->
  exists K, forall l, (forall i, (i < length cs)%nat -> (K <= times l i)%nat) ->
    forall i c, nth_error cs i = Some c -> exists P, nth_error (snd (sched F0 (map start cs) l)) i = Some P /\ ended P /\
      pr_exn P = match snd (on_its_own c F0) with Some (Err e) => Some e | _ => None end /\
      forall r, fst (sched F0 (map start cs) l) (cp_main c ++ r) = k_fs (fst (on_its_own c F0)) (cp_main c ++ r).
Proof.
  intros cs F0 Hc Hs Ha.
  assert (X : exists K, forall c, In c cs -> ended (snd (alone K (F0, start c)))).
  { clear. induction cs as [|c cs (K & IH)]; [exists 0%nat; contradiction|]. destruct (alone_ends (requests c) [] [] None F0) as (K' & HK).
    exists (K + K')%nat. intros d [<-|Hd]; [rewrite alone_add; rewrite alone_ended; exact HK|]. rewrite Nat.add_comm, alone_add, alone_ended; auto. }
  destruct X as (K & HK). exists K. intros l Hl i c Hi. destruct (C113_as_if_alone cs F0 l Hc Hs Ha) as [A _]. destruct (A i c Hi) as (P & post & E1 & _ & _ & E).
  destruct (simulation cs F0 l) as (B & _); auto; [eapply Forall_impl; [|exact Hc]; intros d [? _]; auto|]. destruct (B i c Hi) as (B1 & _). rewrite B1 in E1. injection E1 as <-.
  assert (Hd : ended (snd (alone (times l i) (F0, start c)))).
  { assert (L : (K <= times l i)%nat) by (apply Hl; apply nth_error_Some; congruence). replace (times l i) with ((times l i - K) + K)%nat by lia. rewrite alone_add, alone_ended; apply HK; eapply nth_error_In; eauto. }
  exists (snd (alone (times l i) (F0, start c))). destruct (E Hd) as (_ & E2 & E3). auto.
Qed.

(** * The same folder *)
Lemma first_step : forall F c, cp_main c <> [] -> can_start F c -> makedirs F (cp_main c) = Ok [Mkdir (cp_main c)].
Proof.
  intros F c Hne [Hn Hd]. unfold makedirs. rewrite Hn, mk_parents_nil; [reflexivity|]. intros t1 t2 Ht. cbn [app]. destruct (last_split _ Hne) as (x & Ex). rewrite Ht, <- app_assoc in Ex.
  destruct t2 as [|y t2]; eapply Hd; exact Ex.
Qed.
(** Processes that run campaigns into the same folder: the one that makes the first step goes on as if it were
    alone, every other one ends with FileExistsError at its first step and has written nothing, and the disk is
    the one the first process makes. *)
Theorem C113_same_folder : forall cs F0 main l w c0, main <> [] -> Forall (fun c => cp_main c = main /\ can_start F0 c) cs -> nth_error cs w = Some c0 ->
  let F := fst (sched F0 (map start cs) (w :: l)) in let ps := snd (sched F0 (map start cs) (w :: l)) in
  (exists P post, nth_error ps w = Some P /\ k_ops (fst (on_its_own c0 F0)) = pr_done P ++ post /\ F = applies F0 (pr_done P) /\
     (ended P -> F = k_fs (fst (on_its_own c0 F0)) /\ pr_exn P = match snd (on_its_own c0 F0) with Some (Err e) => Some e | _ => None end)) /\
  (forall i c, nth_error cs i = Some c -> i <> w -> In i l -> exists P, nth_error ps i = Some P /\ pr_exn P = Some FileExistsError /\ pr_done P = []) /\
  (forall i c, nth_error cs i = Some c -> i <> w -> ~ In i l -> nth_error ps i = Some (start c)).
Proof.
  intros cs F0 main l w c0 Hne Hall Hw F ps.
  assert (INV : let s := sched F0 (map start cs) (w :: l) in let a := alone (Datatypes.S (times l w)) (F0, start c0) in
    nth_error (snd s) w = Some (snd a) /\ fst s = fst a /\ fst s main <> None /\
    (forall i, nth_error cs i = None -> nth_error (snd s) i = None) /\
    (forall i c, nth_error cs i = Some c -> i <> w -> In i l -> exists P, nth_error (snd s) i = Some P /\ pr_exn P = Some FileExistsError /\ pr_done P = []) /\
    (forall i c, nth_error cs i = Some c -> i <> w -> ~ In i l -> nth_error (snd s) i = Some (start c))).
  { clear F ps. induction l as [|k l IH] using rev_ind.
    - pose proof (nth_error_In _ _ Hw) as HI. rewrite Forall_forall in Hall. destruct (Hall _ HI) as [Em Hs]. assert (Hn0 : cp_main c0 <> []) by congruence.
      cbn [sched fold_left count_occ alone fst snd]. unfold sstep. cbn [fst snd]. rewrite nth_error_map, Hw. cbn [option_map].
      assert (EP : pstep F0 (start c0) = (apply F0 (Mkdir main), mkProc (tl (requests c0)) [] [Mkdir main] None)).
      { unfold pstep, start, requests. cbn [pr_exn pr_pend pr_todo pr_done]. rewrite first_step by auto. rewrite Em. reflexivity. }
      rewrite EP. cbn [fst snd]. split; [eapply upd_same; rewrite nth_error_map, Hw; reflexivity|]. split; [reflexivity|]. split; [apply (apply_target F0 (Mkdir main))|].
      split; [|split; [contradiction|]]; intros i; [intros Hi|intros c Hi Hiw _]; rewrite upd_other by congruence; rewrite nth_error_map, Hi; reflexivity.
    - cbv zeta in *. change (w :: l ++ [k]) with ((w :: l) ++ [k]). rewrite sched_snoc. destruct IH as (I1 & I2 & I3 & I4 & I5 & I6). destruct (sched F0 (map start cs) (w :: l)) as [F ps]. cbn [fst snd] in *.
      rewrite count_occ_app. cbn [count_occ]. unfold sstep. cbn [fst snd]. destruct (Nat.eq_dec k w) as [->|Hkw].
      + rewrite I1, I2, Nat.add_1_r. change (alone (Datatypes.S (Datatypes.S (times l w))) (F0, start c0)) with (pstep (fst (alone (Datatypes.S (times l w)) (F0, start c0))) (snd (alone (Datatypes.S (times l w)) (F0, start c0)))).
        destruct (pstep_done (fst (alone (Datatypes.S (times l w)) (F0, start c0))) (snd (alone (Datatypes.S (times l w)) (F0, start c0)))) as (o & _ & EF).
        destruct (pstep _ _) as [F' P']. cbn [fst snd] in *. split; [eapply upd_same; eauto|]. split; [reflexivity|]. split; [rewrite EF; apply applies_keeps; rewrite <- I2; auto|].
        split; [|split]; intros i; [intros Hi|intros c Hi Hiw HI|intros c Hi Hiw HI]; rewrite upd_other by congruence; auto.
        * apply (I5 i c); auto. apply in_app_or in HI. destruct HI as [HI|[HI|[]]]; auto; congruence.
        * apply I6; auto. intros X. apply HI. apply in_or_app; auto.
      + rewrite Nat.add_0_r. destruct (nth_error cs k) as [d|] eqn:Ed.
        * assert (EP : exists P P', nth_error ps k = Some P /\ pstep F P = (F, P') /\ pr_exn P' = Some FileExistsError /\ pr_done P' = []).
          { destruct (in_dec Nat.eq_dec k l) as [HI|HI].
            - destruct (I5 k d Ed Hkw HI) as (P & B1 & B2 & B3). exists P, P. split; auto. split; auto. apply ended_stays. left. congruence.
            - exists (start d). eexists. split; [apply I6; auto|]. unfold pstep, start, requests, makedirs. cbn [pr_exn pr_pend pr_todo pr_done]. 
              rewrite Forall_forall in Hall. destruct (Hall _ (nth_error_In _ _ Ed)) as [-> _]. destruct (F main); [|congruence]. split; [reflexivity|]. auto. }
          destruct EP as (P & P' & B1 & B2 & B3 & B4). rewrite B1, B2. cbn [fst snd]. split; [rewrite upd_other; auto|]. split; auto. split; auto.
          split; [|split]; intros i; [intros Hi|intros c Hi Hiw HI|intros c Hi Hiw HI].
          -- rewrite upd_other by congruence. auto.
          -- destruct (Nat.eq_dec k i) as [<-|Hki]; [exists P'; split; auto; eapply upd_same; eauto|]. rewrite upd_other by auto. apply (I5 i c); auto. apply in_app_or in HI. destruct HI as [HI|[HI|[]]]; auto; congruence.
          -- assert (k <> i) by (intros ->; apply HI; apply in_or_app; right; cbn; auto). rewrite upd_other by auto. apply I6; auto. intros X. apply HI. apply in_or_app; auto.
        * rewrite (I4 k Ed). cbn [fst snd]. split; auto. split; auto. split; auto. split; auto. split; intros i c Hi Hiw HI.
          -- apply (I5 i c); auto. apply in_app_or in HI. destruct HI as [HI|[HI|[]]]; auto; congruence.
          -- apply I6; auto. intros X. apply HI. apply in_or_app; auto. }
  cbv zeta in INV. destruct INV as (I1 & I2 & _ & _ & I5 & I6). fold F in I2. fold ps in I1, I5, I6. split; [|split; auto].
  destruct (alone_prefix (Datatypes.S (times l w)) F0 c0) as (post & E & X). eexists. exists post. split; [exact I1|]. split; [exact E|]. split; [rewrite I2; apply alone_done|].
  intros Hd. destruct (X Hd) as [-> Y]. split.
  - rewrite I2, alone_done. destruct (own_lawful c0 F0) as [-> _]. rewrite E, app_nil_r. reflexivity.
  - destruct (pr_exn _) as [e|], (snd (on_its_own c0 F0)) as [[[]|e']|]; cbn [settled] in Y; congruence.
Qed.
