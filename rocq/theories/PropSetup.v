(** C114: what must be set before what, and that nothing unset is ever used silently. *)
From Coq Require Import String List Permutation Lia.
Require Import Verif.Base Verif.Numpy Verif.PlanetModel Verif.AeroModel Verif.HeatModel Verif.TrajectoryModel Verif.OrbitScalarModel Verif.OrbiterModel
  Verif.CorridorModel Verif.GuidanceModel Verif.DragModel Verif.SessionModel Verif.GuidedModel Verif.SetupModel Verif.SetupSpec Verif.PlanetProofs Verif.GuidanceProofs.
Import ListNotations.
Local Open Scope R_scope.

(** ** What each call leaves set *)
Definition has (s : osess) (k : kind) : Prop :=
  match k with
  | KInitialState => os_init s <> None | KTolerance => os_tol s <> None | KDrag => os_dm s <> None
  | KRollRate => at_rate (os_att s) <> None | KGlide => at_glide (os_att s) <> None
  | KPhase => at_phase (os_att s) <> None | KTarget => at_target (os_att s) <> None
  end.
Lemma has_put_obj : forall s o k, os_init s <> None -> has (put_obj s o) k <-> has s k.
Proof. intros s o k H. destruct k; cbn; try tauto; [split; intros; auto; discriminate|]. destruct (os_tol s); split; intros; congruence. Qed.
Lemma has_put_veh : forall s V k, has (put_veh s V) k <-> has s k.
Proof. intros s V k. destruct k; cbn; tauto. Qed.
Lemma has_put_href : forall s h k, has (put_href s h) k <-> has s k.
Proof. intros s h k. destruct k; cbn; tauto. Qed.
Lemma has_no_init_drag : forall s pick f s' r, (forall x k, has (f x) k <-> has x k) -> no_init_drag s pick f = (s', r) -> forall k, has s' k <-> has s k.
Proof.
  intros s pick f s' r Hf H k. unfold no_init_drag in H. destruct (os_dm s); [|injection H as <- <-; tauto].
  unfold ballistic_only in H. destruct (snd (set_ballistic _ _)); injection H as <- <-; rewrite ?Hf; apply has_put_veh.
Qed.
Lemma has_no_init : forall c s s' r, no_init c s = (s', r) -> forall k, has s' k <-> has s k.
Proof.
  intros c s s' r H k. unfold no_init in H.
  destruct c; try (injection H as <- <-; tauto); try (injection H as <- <-; apply has_put_veh); (eapply has_no_init_drag; [|exact H]; intros; apply has_put_veh).
Qed.
Lemma has_put_gst : forall s q s' r, os_init s <> None -> put_gst s q = Some (s', r) -> forall k, has s' k <-> has s k.
Proof.
  intros s q s' r Hi H k. unfold put_gst in H. destruct q as [[o [[[a b] rr]|e]]|]; [| |discriminate]; injection H as <- <-; rewrite ?has_put_href; apply has_put_obj; auto.
Qed.
Lemma oserve_has : forall E X fuel c s s' r, oserve E X fuel c s = Some (s', r) -> forall k, has s' k <-> has s k \/ sets c k.
Proof.
  intros E X fuel c s s' r H k.
  assert (Q : forall P : Prop, (has s' k <-> has s k) -> (P -> False) -> has s' k <-> has s k \/ P) by (intros; tauto).
  destruct c as [c| | | | | |]; cbn [oserve] in H.
  - destruct c; try (injection H as <- <-; destruct k; cbn; split; intros; auto; try tauto; try (left; assumption); try (intros Z; discriminate); right; exact I);
      try (apply Q; [|destruct k; cbn; tauto]);
      try (injection H as <- <-; apply has_put_veh);
      destruct (os_init s) eqn:Ei; try (match type of H with Some ?x = Some ?y => assert (H' : x = y) by congruence end; eapply has_no_init; exact H');
      (destruct (serve _ _ _ _) as [[g a]|]; [|discriminate]; injection H as <- <-; apply has_put_obj; congruence).
  - injection H as <- <-. destruct k; cbn; split; intros; auto; try tauto; try (intros Z; discriminate).
  - injection H as <- <-. destruct k; cbn; split; intros; auto; try tauto; try (intros Z; discriminate).
  - injection H as <- <-. destruct k; cbn; split; intros; auto; try tauto; try (intros Z; discriminate).
  - injection H as <- <-. destruct k; cbn; split; intros; auto; try tauto; try (intros Z; discriminate).
  - apply Q; [|destruct k; cbn; tauto]. destruct (os_init s) eqn:Ei; [eapply has_put_gst; [congruence|exact H]|injection H as <- <-; tauto].
  - apply Q; [|destruct k; cbn; tauto]. destruct (os_init s) eqn:Ei; [eapply has_put_gst; [congruence|exact H]|].
    match type of H with Some ?x = Some ?y => assert (H' : x = y) by congruence end. eapply has_no_init_drag; [|exact H']. tauto.
Qed.
Lemma orun_has : forall E X fuel l s s' a, orun E X fuel l s = Some (s', a) -> forall k, has s' k <-> has s k \/ set_in l k.
Proof.
  induction l as [|c l IH]; intros s s' a H k; cbn [orun] in H.
  - injection H as <- <-. split; auto. intros [P|(c & [] & _)]. exact P.
  - destruct (oserve _ _ _ _ _) as [[s1 a1]|] eqn:E1; [|discriminate]. destruct (orun _ _ _ _ _) as [[s2 a2]|] eqn:E2; [|discriminate]. injection H as <- <-.
    rewrite (IH _ _ _ E2 k), (oserve_has _ _ _ _ _ _ _ E1 k). unfold set_in. split.
    + intros [[P|P]|(c' & I & P)]; [left; auto|right; exists c; split; [left; auto|auto]|right; exists c'; split; [right; auto|auto]].
    + intros [P|(c' & [<-|I] & P)]; [auto|auto|right; exists c'; auto].
Qed.
Lemma fresh_has : forall V h k, ~ has (fresh V h) k.
Proof. intros V h k. destruct k; cbn; tauto. Qed.
Lemma orun_nth : forall E X fuel l s s' a k c r, orun E X fuel l s = Some (s', a) -> nth_error l k = Some c -> nth_error a k = Some r ->
  exists s1 a1 s2, orun E X fuel (firstn k l) s = Some (s1, a1) /\ oserve E X fuel c s1 = Some (s2, r).
Proof.
  induction l as [|x l IH]; intros s s' a k c r H Hc Hr; [destruct k; discriminate|]. cbn [orun] in H.
  destruct (oserve _ _ _ _ _) as [[s1 a1]|] eqn:E1; [|discriminate]. destruct (orun _ _ _ _ _) as [[s2 a2]|] eqn:E2; [|discriminate]. injection H as <- <-.
  destruct k as [|k].
  - cbn in Hc, Hr. injection Hc as <-. injection Hr as <-. exists s, [], s1. split; auto.
  - cbn [nth_error] in Hc, Hr. destruct (IH _ _ _ _ _ _ E2 Hc Hr) as (s3 & a3 & s4 & A & B). exists s3, (a1 :: a3), s4. cbn [firstn orun]. rewrite E1, A. auto.
Qed.

(** ** A missing tolerance always raises *)
Definition bad {A} (r : res A) : Prop := forall a, r <> Ok a.
Lemma bad_err : forall A e, bad (Err e : res A).
Proof. intros A e a H. discriminate. Qed.
Lemma bad_rbind : forall A B (r : res A) (f : A -> res B), bad r -> bad (rbind r f).
Proof. intros A B r f H b Hb. destruct r as [x|]; [exact (H x eq_refl)|discriminate]. Qed.
Lemma bad_rmap : forall A B (f : A -> B) r, bad r -> bad (rmap f r).
Proof. intros A B f r H b Hb. destruct r as [x|]; [exact (H x eq_refl)|discriminate]. Qed.
Lemma no_tol_solve : forall V tol x t dt d, bad (solveTrajectory no_tol V tol x t dt d) /\ bad (solveTrajectory2 no_tol V tol x t dt d).
Proof.
  intros V tol x t dt d. split; intros c H.
  - unfold solveTrajectory in H. destruct (arange _ _); discriminate.
  - unfold solveTrajectory2 in H. destruct (arange _ _) as [[|z l]|]; discriminate.
Qed.
Lemma no_tol_fly : forall solve V tol i t dt d, (forall V tol x t dt d, bad (solve V tol x t dt d)) -> bad (fly solve V tol i t dt d).
Proof. intros solve V tol i t dt d H. unfold fly. apply bad_rbind. apply H. Qed.
Lemma bad_store : forall o f h, bad f -> bad (snd (store o f h)).
Proof. intros o [f|e] h H; [exfalso; exact (H f eq_refl)|]. apply bad_err. Qed.
Lemma no_tol_entry : forall o t dt d, bad (snd (propogateEntry no_tol o t dt d)) /\ bad (snd (propogateEntry2 no_tol o t dt d)).
Proof. intros o t dt d. split; apply bad_store, no_tol_fly; intros; apply no_tol_solve. Qed.
Lemma no_tol_ask : forall A (pr : vobj * res unit) (f : flight -> res A), bad (snd pr) -> bad (snd (ask_flight pr f)).
Proof. intros A [o [u|e]] f H; [exfalso; exact (H u eq_refl)|]. apply bad_err. Qed.
(** Loops: raising, or not ended. *)
Definition badl {A} (q : option (vobj * res A)) : Prop := forall o a, q <> Some (o, Ok a).
Lemma bad_call : forall A B (r : vobj * res A) (k : vobj -> A -> option (vobj * res B)), bad (snd r) -> badl (call r k).
Proof. intros A B [o [a|e]] k H; [exfalso; exact (H a eq_refl)|]. intros o' b Hb. discriminate. Qed.
Lemma bad_then : forall A B (r : option (vobj * res A)) (k : vobj -> A -> option (vobj * res B)), badl r -> badl (then_ r k).
Proof. intros A B [[o [a|e]]|] k H; [exfalso; exact (H o a eq_refl)| |]; intros o' b Hb; discriminate. Qed.
Lemma bad_call_k : forall A B (r : vobj * res A) (k : vobj -> A -> option (vobj * res B)), (forall o a, badl (k o a)) -> badl (call r k).
Proof. intros A B [o [a|e]] k H; [apply H|]. intros o' b Hb. discriminate. Qed.
Lemma no_tol_search : forall ask tol fuel o low high, (forall o, bad (snd (ask o))) -> badl (search ask tol fuel o low high).
Proof. intros ask tol fuel o low high H. apply bad_call, H. Qed.
Lemma no_tol_hits : forall (two : bool) o t dt d x, bad (snd ((if two then hitsTargetApoapsis2 else hitsTargetApoapsis) no_tol o t dt d x)).
Proof. intros two o t dt d x. destruct two; apply no_tol_ask, no_tol_entry. Qed.
Lemma no_tol_limit : forall (two : bool) tol fuel o low high t dt d x,
  badl (limit_search (fun o => (if two then hitsTargetApoapsis2 else hitsTargetApoapsis) no_tol o t dt d x) tol fuel o low high) /\
  badl (efpa_search (fun o => (if two then hitsTargetApoapsis2 else hitsTargetApoapsis) no_tol o t dt d x) tol fuel o low high).
Proof. intros. split; apply bad_then, no_tol_search; intros; apply no_tol_hits. Qed.
Lemma no_tol_D : forall (two : bool) fuel dm o t dt l h tol x,
  badl ((if two then findUnderShootLimitD2 else findUnderShootLimitD) no_tol fuel dm o t dt l h tol x) /\
  badl ((if two then findOverShootLimitD2 else findOverShootLimitD) no_tol fuel dm o t dt l h tol x).
Proof.
  intros. split; destruct two; cbn; unfold findUnderShootLimitD2, findUnderShootLimitD, findOverShootLimitD2, findOverShootLimitD, undershootD, overshootD;
    destruct dm as [[b1 ra]|]; try (intros o' a Hb; discriminate); apply bad_call_k; intros;
    (apply (proj2 (no_tol_limit true _ _ _ _ _ _ _ _ _)) || apply (proj2 (no_tol_limit false _ _ _ _ _ _ _ _ _))).
Qed.
Lemma badl_updo : forall A s (f : A -> ans) q s' a, badl q -> updo s f q = Some (s', Ok a) -> False.
Proof. intros A s f [[o [x|e]]|] s' a H Hb; [exact (H o x eq_refl)| |]; discriminate. Qed.
Lemma bad_upd : forall A s (f : A -> ans) q s' a, bad (snd q) -> upd s f q = Some (s', Ok a) -> False.
Proof. intros A s f [o [x|e]] s' a H Hb; [exact (H x eq_refl)|]. discriminate. Qed.
Lemma no_tol_serve : forall fuel c s s' a, flies (Plain c) -> serve no_tol fuel c s = Some (s', Ok a) -> False.
Proof.
  intros fuel c s s' a (F1 & F2) H. destruct c; cbn [serve] in H; try (destruct F1; eexists; solve [exact I | instantiate (1 := KInitialState); exact I | instantiate (1 := KTolerance); exact I | instantiate (1 := KDrag); exact I]); try contradiction;
    try (eapply badl_updo; [|exact H]); try (eapply bad_upd; [|exact H]).
  - destruct two; apply no_tol_entry.
  - apply no_tol_ask, no_tol_entry.
  - apply no_tol_hits.
  - destruct two; [exact (proj1 (no_tol_limit true _ _ _ _ _ _ _ _ _))|exact (proj1 (no_tol_limit false _ _ _ _ _ _ _ _ _))].
  - destruct two; [exact (proj1 (no_tol_limit true _ _ _ _ _ _ _ _ _))|exact (proj1 (no_tol_limit false _ _ _ _ _ _ _ _ _))].
  - destruct two; apply bad_then; [exact (proj1 (no_tol_limit true _ _ _ _ _ _ _ _ _))|exact (proj1 (no_tol_limit false _ _ _ _ _ _ _ _ _))].
  - destruct two; [exact (proj2 (no_tol_limit true _ _ _ _ _ _ _ _ _))|exact (proj2 (no_tol_limit false _ _ _ _ _ _ _ _ _))].
  - apply no_tol_D.
  - apply no_tol_D.
  - destruct two; apply bad_then; [exact (proj1 (no_tol_D true _ _ _ _ _ _ _ _ _))|exact (proj1 (no_tol_D false _ _ _ _ _ _ _ _ _))].
Qed.
Lemma no_tol_start : forall two X o h dt, bad (snd (eg_start two no_tol X o h dt)).
Proof.
  intros two X o h dt. unfold eg_start, propagate. pose proof (no_tol_entry o 1 dt 0) as (B1 & B2).
  destruct two; [destruct (propogateEntry2 no_tol o 1 dt 0) as [o1 [u|e]]|destruct (propogateEntry no_tol o 1 dt 0) as [o1 [u|e]]]; try (exfalso; (eapply B1; reflexivity) || (eapply B2; reflexivity)); apply bad_err.
Qed.

(** ** A missing guidance parameter always raises, as soon as a cycle needs it *)
Lemma while_first : forall g b n s s' u, while_loop g b n s = Some (s', Ok u) -> s' = s \/ exists s1 x, b s = (s1, Ok x).
Proof.
  intros g b [|n] s s' u H; [discriminate|]. cbn [while_loop] in H. destruct (g s); [|left; congruence].
  destruct (b s) as [s1 [x|e]]; [|discriminate]. right. eauto.
Qed.
Lemma read_ok : forall A B (x : option A) (r : res B) b, read x r = Ok b -> x <> None /\ r = Ok b.
Proof. intros A B [x|] r b H; [split; [discriminate|exact H]|discriminate]. Qed.
Lemma start_t : forall two E X o h dt o1 s, eg_start two E X o h dt = (o1, Ok s) -> a_t (s_arr s) = [0].
Proof.
  intros two E X o h dt o1 s H. unfold eg_start in H. destruct (propagate _ _ _ _ _ _ _) as [o2 [u|e]]; [|discriminate].
  destruct (results o2) as [fh|]; [|discriminate]. cbn [rbind] in H. injection H as <- <-. reflexivity.
Qed.
Lemma glide_step_needs : forall two E X a ts dt mt s s1 x, o_eg_step two E X a ts dt mt s = (s1, Ok x) -> at_glide a <> None /\ at_rate a <> None /\ at_target a <> None.
Proof.
  intros two E X a ts dt mt s s1 x H. unfold o_eg_step in H. destruct (at_glide a) eqn:G, (at_rate a) eqn:Ra.
  - injection H as _ H. destruct (snd _); [|discriminate]. cbn [rbind] in H. apply read_ok in H. split; [discriminate|]. split; [discriminate|tauto].
  - injection H as _ H. destruct (qref_of _ _ _); discriminate.
  - injection H as _ H. destruct (qref_of _ _ _); discriminate.
  - injection H as _ H. destruct (qref_of _ _ _); discriminate.
Qed.
Lemma glide_needs : forall two E X a ts dt mt n o h o' s, o_glide two E X a ts dt mt n o h = Some (o', Ok s) ->
  at_phase a <> None /\ ((1 < length (a_t (s_arr s)))%nat -> at_glide a <> None /\ at_rate a <> None).
Proof.
  intros two E X a ts dt mt n o h o' s H. unfold o_glide in H. destruct (eg_start _ _ _ _ _ _) as [o1 [s0|e]] eqn:S0; [|discriminate].
  destruct (at_phase a); [|discriminate]. split; [discriminate|].
  destruct (while_loop _ _ _ _) as [[s' [u|e]]|] eqn:W; try discriminate. injection H as _ <-. intros L.
  destruct (while_first _ _ _ _ _ _ W) as [->|(s1 & x & B)]; [rewrite (start_t _ _ _ _ _ _ _ _ S0) in L; cbn in L; lia|].
  destruct (glide_step_needs _ _ _ _ _ _ _ _ _ _ B) as (A1 & A2 & _). auto.
Qed.
Lemma exit_needs : forall two E X a ts dt n s s' r, o_exit two E X a ts dt n s = Some (s', Ok r) ->
  at_target a <> None /\ ((length (a_t (s_arr s)) < length (a_t (s_arr s')))%nat -> at_rate a <> None).
Proof.
  intros two E X a ts dt n s s' r H. unfold o_exit in H. cbv zeta in H. destruct (while_loop _ _ _ _) as [[s1 [u|e]]|] eqn:W; try discriminate.
  injection H as -> H. apply read_ok in H. split; [tauto|]. intros L.
  destruct (while_first _ _ _ _ _ _ W) as [->|(s2 & x & B)]; [cbn in L; lia|]. unfold o_exit_step in B. destruct (at_rate a); discriminate.
Qed.
Lemma guidedD_needs : forall two E X dm a te tx dt mt n o h o' q, o_guidedD two E X dm a te tx dt mt n o h = Some (o', Ok q) ->
  dm <> None /\ at_phase a <> None /\ at_target a <> None.
Proof.
  intros two E X dm a te tx dt mt n o h o' q H. unfold o_guidedD in H. destruct (o_entryD _ _ _ _ _ _ _ _ _ _ _) as [[o1 [s|e]]|] eqn:En; try discriminate.
  destruct (o_exitD _ _ _ _ _ _ _ _ _) as [[s' [r|e]]|] eqn:Ex; try discriminate. unfold o_entryD in En. destruct dm as [bb|]; [|discriminate]. split; [discriminate|].
  destruct (set_ballistic _ _) as [o0 [u|e]]; [|discriminate]. destruct (eg_start _ _ _ _ _ _) as [o2 [s0|e]]; [|discriminate]. destruct (at_phase a); [|discriminate]. split; [discriminate|].
  unfold o_exitD in Ex. destruct (propogateExitPhaseD _ _ _ _ _ _ _ _ _) as [[s2 [r2|e]]|]; try discriminate. injection Ex as _ Ex. apply read_ok in Ex. tauto.
Qed.
Lemma no_init_bad : forall c s s' a, no_init c s = (s', Ok a) -> False.
Proof.
  intros c s s' a H. assert (K : forall s pick f, no_init_drag s pick f <> (s', Ok a)).
  { intros x pick f Q. unfold no_init_drag in Q. destruct (os_dm x); [|discriminate]. destruct (ballistic_only _ _) as [s1 [u|e]]; discriminate. }
  destruct c; cbn [no_init] in H; try discriminate; eapply K; exact H.
Qed.
Lemma serve_dm : forall E fuel c s s' a, two_configurations (Plain c) -> serve E fuel c s = Some (s', Ok a) -> se_dm s <> None.
Proof.
  intros E fuel c s s' a H S D. destruct c; try contradiction; cbn [serve] in S; rewrite D in S; destruct two; cbn in S; discriminate.
Qed.
Lemma no_tol_guided : forall two X a ts dt mt n o h o' q, o_guided two no_tol X a ts dt mt n o h = Some (o', Ok q) -> False.
Proof.
  intros two X a ts dt mt n o h o' q H. unfold o_guided, o_glide in H. pose proof (no_tol_start two X o h dt) as B.
  destruct (eg_start _ _ _ _ _ _) as [o1 [s|e]]; [exact (B s eq_refl)|discriminate].
Qed.
Lemma no_tol_guidedD : forall two X dm a te tx dt mt n o h o' q, o_guidedD two no_tol X dm a te tx dt mt n o h = Some (o', Ok q) -> False.
Proof.
  intros two X dm a te tx dt mt n o h o' q H. unfold o_guidedD, o_entryD in H. destruct dm; [|discriminate]. destruct (set_ballistic _ _) as [o0 [u|e]]; [|discriminate].
  pose proof (no_tol_start two X o0 h dt) as B. destruct (eg_start _ _ _ _ _ _) as [o1 [s|e]]; [exact (B s eq_refl)|discriminate].
Qed.
Lemma put_gst_ok : forall s q s' a, put_gst s q = Some (s', Ok a) -> exists o g1 g2 r, q = Some (o, Ok (g1, g2, r)) /\ a = Flown (see g1) (see g2) r.
Proof. intros s [[o [[[g1 g2] r]|e]]|] s' a H; try discriminate. injection H as <- <-. eauto 8. Qed.
(** The configuration a call that returned must have found. *)
Lemma oserve_needs : forall E X fuel c s s' a, oserve E X fuel c s = Some (s', Ok a) ->
  (flies c -> has s KInitialState /\ has s KTolerance) /\ (two_configurations c -> has s KDrag) /\
  match c, a with
  | PropogateGuidedEntry _ _ _ _, Flown first whole _ =>
      has s KPhase /\ has s KTarget /\ ((1 < length (sn_t first))%nat -> has s KGlide /\ has s KRollRate) /\
      ((length (sn_t first) < length (sn_t whole))%nat -> has s KRollRate)
  | PropogateGuidedEntryD _ _ _ _ _, _ => has s KPhase /\ has s KTarget
  | _, _ => True
  end.
Proof.
  intros E X fuel c s s' a H. destruct c as [c| | | | | |].
  - split; [|split; [|exact I]].
    + intros F. assert (H' : match os_init s with None => Some (no_init c s) | Some i => match serve (eng E s) fuel c (mkSess (obj_with s i) (os_dm s)) with None => None | Some (s', r) => Some (put_obj s (se_obj s'), rmap Answer r) end end = Some (s', Ok a)).
      { destruct F as (F1 & F2). destruct c; try exact H; try contradiction; destruct F1; [exists KInitialState|exists KTolerance|exists KDrag]; exact I. }
      cbn [has]. destruct (os_init s); [|exfalso; eapply no_init_bad; injection H' as ?; eassumption]. split; [discriminate|].
      intros T. unfold eng in H'. rewrite T in H'. destruct (serve _ _ _ _) as [[g [r|e]]|] eqn:S; [|discriminate|discriminate].
      eapply no_tol_serve; eauto.
    + intros F. cbn [has]. destruct c; try contradiction; cbn [oserve] in H; (destruct (os_init s); [|exfalso; match type of H with Some (no_init ?c ?s) = _ => eapply (no_init_bad c s) end; injection H as ?; eassumption]);
        (destruct (serve _ _ _ _) as [[g [r|e]]|] eqn:S; [|discriminate|discriminate]); apply serve_dm in S; auto.
  - split; [|split; [|exact I]]; [intros (F & _); destruct F; exists KRollRate; exact I|intros []].
  - split; [|split; [|exact I]]; [intros (F & _); destruct F; exists KTarget; exact I|intros []].
  - split; [|split; [|exact I]]; [intros (F & _); destruct F; exists KGlide; exact I|intros []].
  - split; [|split; [|exact I]]; [intros (F & _); destruct F; exists KPhase; exact I|intros []].
  - cbn [oserve] in H. destruct (os_init s) eqn:Ei; [|discriminate]. destruct (put_gst_ok _ _ _ _ H) as (o & g1 & g2 & r & Q & ->).
    split; [|split; [intros []|]].
    { intros _. cbn [has]. split; [congruence|]. intros T. unfold eng in Q. rewrite T in Q. eapply no_tol_guided; eauto. }
    unfold o_guided in Q. destruct (o_glide _ _ _ _ _ _ _ _ _ _) as [[o1 [s1|e]]|] eqn:G; try discriminate.
    destruct (o_exit _ _ _ _ _ _ _ _) as [[s2 [r2|e]]|] eqn:Ex; try discriminate. injection Q as _ <- <- _.
    destruct (glide_needs _ _ _ _ _ _ _ _ _ _ _ _ G) as (A1 & A2). destruct (exit_needs _ _ _ _ _ _ _ _ _ _ Ex) as (B1 & B2). cbn [has see sn_t]. tauto.
  - cbn [oserve] in H. destruct (os_init s) eqn:Ei; [|exfalso; unfold no_init_drag in H; destruct (os_dm s); [|discriminate]; destruct (ballistic_only _ _) as [? [?|?]]; discriminate].
    destruct (put_gst_ok _ _ _ _ H) as (o & g1 & g2 & r & Q & ->). destruct (guidedD_needs _ _ _ _ _ _ _ _ _ _ _ _ _ _ Q) as (A1 & A2 & A3). cbn [has].
    split; [|split; [auto|auto]]. intros _. split; [congruence|]. intros T. unfold eng in Q. rewrite T in Q. eapply no_tol_guidedD; eauto.
Qed.
(** A call that returned found everything it needed set by earlier calls. *)
Theorem C114_set_before : forall E X fuel V href history s answers n c a, orun E X fuel history (fresh V href) = Some (s, answers) ->
  nth_error history n = Some c -> nth_error answers n = Some (Ok a) ->
  (flies c -> set_before history n KInitialState /\ set_before history n KTolerance) /\
  (two_configurations c -> set_before history n KDrag) /\
  match c, a with
  | PropogateGuidedEntry _ _ _ _, Flown first whole _ =>
      set_before history n KPhase /\ set_before history n KTarget /\
      ((1 < length (sn_t first))%nat -> set_before history n KGlide /\ set_before history n KRollRate) /\
      ((length (sn_t first) < length (sn_t whole))%nat -> set_before history n KRollRate)
  | PropogateGuidedEntryD _ _ _ _ _, _ => set_before history n KPhase /\ set_before history n KTarget
  | _, _ => True
  end.
Proof.
  intros E X fuel V href history s answers n c a H Hc Ha. destruct (orun_nth _ _ _ _ _ _ _ _ _ _ H Hc Ha) as (s1 & a1 & s2 & R & S).
  assert (K : forall k, has s1 k -> set_before history n k) by (intros k P; apply (orun_has _ _ _ _ _ _ _ R) in P; destruct P as [P|P]; [destruct (fresh_has _ _ _ P)|exact P]).
  destruct (oserve_needs _ _ _ _ _ _ _ S) as (N1 & N2 & N3). split; [intros F; destruct (N1 F); auto|]. split; [auto|].
  destruct c; auto; [destruct a; auto; destruct N3 as (M1 & M2 & M3 & M4); repeat split; auto; try (apply K, M3; auto)|destruct N3; auto].
Qed.

(** ** With everything set, the object is the one of the other properties *)
Lemma fills_obj : forall s g i, fills s g -> os_init s = Some i -> has s KTolerance -> se_obj (gs_sess g) = obj_with s i.
Proof.
  intros s [[[V i' tol f h] dm] P hr] i F Hi Ht. unfold fills in F. cbn [gs_sess se_obj gs_P gs_href se_dm ob_veh ob_flight ob_heat ob_init ob_tol] in F.
  destruct F as (-> & -> & -> & -> & -> & Fi & Ft & _). cbn [gs_sess se_obj]. unfold obj_with. rewrite (Fi _ Hi). cbn [has] in Ht.
  destruct (os_tol s) as [t|]; [|congruence]. rewrite (Ft t) by reflexivity. reflexivity.
Qed.
Lemma serve_dm_kept : forall E fuel c s s' r, flies (Plain c) -> serve E fuel c s = Some (s', r) -> se_dm s' = se_dm s.
Proof.
  intros E fuel c s s' r (F1 & F2) H.
  destruct c; cbn [serve] in H; try (destruct F1; first [exists KInitialState; exact I|exists KTolerance; exact I|exists KDrag; exact I]); unfold upd, updo, upd in H;
    try (injection H as <- <-; reflexivity); match type of H with match ?q with _ => _ end = _ => destruct q as [q'|]; [|discriminate] end; injection H as <- <-; reflexivity.
Qed.
Definition agree_og (x : option (osess * res gans)) (y : option (gsess * res gans)) : Prop :=
  match x, y with Some (s', a), Some (g', a') => a' = a /\ fills s' g' | None, None => True | _, _ => False end.
Lemma fills_put : forall s g o, fills s g -> has s KTolerance -> fills (put_obj s o) (mkGS (mkSess o (se_dm (gs_sess g))) (gs_P g) (gs_href g)).
Proof.
  intros s g o F Ht. destruct F as (_ & _ & _ & Fd & Fh & _ & _ & Fr). unfold fills.
  cbn [gs_sess se_obj gs_P gs_href se_dm put_obj os_veh os_flight os_heat os_dm os_href os_init os_tol os_att]. do 5 (split; [auto|]).
  split; [congruence|]. split; [|exact Fr]. intros t Et. destruct (os_tol s); congruence.
Qed.
Lemma fills_href : forall s g h, fills s g -> fills (put_href s h) (mkGS (gs_sess g) (gs_P g) h).
Proof. intros s g h (A1 & A2 & A3 & A4 & _ & A). unfold fills. cbn [gs_sess gs_P gs_href put_href os_veh os_flight os_heat os_dm os_href os_init os_tol os_att]. auto 12. Qed.
Lemma fills_gflight : forall s g q, fills s g -> has s KTolerance -> agree_og (put_gst s q) (gflight g q).
Proof.
  intros s g [[o [[[a b] r]|e]]|] F Ht; cbn [put_gst gflight agree_og]; auto; split; auto.
  - apply (fills_href _ (mkGS (mkSess o (se_dm (gs_sess g))) (gs_P g) (gs_href g))). apply fills_put; auto.
  - apply fills_put; auto.
Qed.
Lemma eng_set : forall E s, has s KTolerance -> eng E s = E.
Proof. intros E s H. cbn in H. unfold eng. destruct (os_tol s); congruence. Qed.
(** Parameters that matter to the loops. *)
Lemma fills_all : forall s g, fills s g -> has s KRollRate -> has s KGlide -> has s KPhase -> has s KTarget -> gs_P g = filled (os_att s).
Proof.
  intros s g (_ & _ & _ & _ & _ & _ & _ & Fr & Fg & Fp & Ft) Hr Hg Hp Ht. cbn [has] in *. unfold filled, fillP.
  destruct (at_rate (os_att s)) as [ra|]; [|congruence]. destruct (at_glide (os_att s)) as [[gh gq]|]; [|congruence].
  destruct (at_phase (os_att s)) as [[[[v l] nl] hh]|]; [|congruence]. destruct (at_target (os_att s)) as [[[pe ap] tl]|]; [|congruence].
  destruct (Fg _ _ eq_refl). destruct (Fp _ _ _ _ eq_refl) as (? & ? & ? & ?). destruct (Ft _ _ _ eq_refl) as (? & ? & ?). specialize (Fr _ eq_refl).
  destruct (gs_P g); cbn in *. subst. reflexivity.
Qed.
Lemma while_ext : forall g b b' n s, (forall s, b' s = b s) -> while_loop g b' n s = while_loop g b n s.
Proof.
  intros g b b' n. induction n as [|n IH]; intros s H; cbn [while_loop]; auto. destruct (g s); auto. rewrite H. destruct (b s) as [s1 [[|]|]]; auto.
Qed.
Lemma read_some : forall A B (x : option A) (r : res B), x <> None -> read x r = r.
Proof. intros A B [x|] r H; [reflexivity|congruence]. Qed.
Lemma o_step_same : forall two E X a ts dt mt s, at_glide a <> None -> at_rate a <> None -> at_target a <> None -> o_eg_step two E X a ts dt mt s = eg_step two E X (filled a) ts dt mt s.
Proof.
  intros two E X a ts dt mt s Hg Hr Ht. unfold o_eg_step. destruct (at_glide a); [|congruence]. destruct (at_rate a); [|congruence].
  destruct (eg_step _ _ _ _ _ _ _ _) as [s1 [b|e]]; cbn [fst snd rbind]; [rewrite read_some by auto|]; reflexivity.
Qed.
Lemma o_guided_same : forall two E X a ts dt mt n o h, at_rate a <> None -> at_glide a <> None -> at_phase a <> None -> at_target a <> None ->
  o_guided two E X a ts dt mt n o h = propogateGuidedEntry two E X (filled a) ts dt mt n o h.
Proof.
  intros two E X a ts dt mt n o h Hr Hg Hp Ht. unfold o_guided, propogateGuidedEntry, o_glide, propogateEquilibriumGlide, o_exit, propogateExitPhase.
  destruct (eg_start _ _ _ _ _ _) as [o1 [s|e]]; auto. destruct (at_phase a); [|congruence].
  rewrite (while_ext _ (eg_step two E X (filled a) ts dt mt)) by (intros; apply o_step_same; auto). destruct (while_loop _ _ _ _) as [[s' [u|e]]|]; auto. cbv zeta.
  rewrite (while_ext _ (exit_step two E X (filled a) ts dt (last (a_hdot (s_arr s')) 0) (last (y_heat (s_hist s')) None))) by (intros; unfold o_exit_step; destruct (at_rate a); [reflexivity|congruence]).
  destruct (while_loop _ _ _ _) as [[s2 [u2|e]]|]; auto. rewrite read_some by auto. reflexivity.
Qed.
(** The drag-modulated flight reads only these. *)
Definition drag_reads (P P' : gparams) : Prop :=
  g_vswitch P' = g_vswitch P /\ g_lowAlt P' = g_lowAlt P /\ g_numLow P' = g_numLow P /\ g_hdotthr P' = g_hdotthr P /\
  g_peri P' = g_peri P /\ g_apo P' = g_apo P /\ g_apotol P' = g_apotol P.
Lemma d_step_reads : forall two E X bb P P' ts dt mt s, drag_reads P P' -> d_step two E X bb P' ts dt mt s = d_step two E X bb P ts dt mt s.
Proof. intros two E X bb P P' ts dt mt s (A1 & A2 & A3 & A4 & A5 & A6 & A7). unfold d_step, d_break. rewrite A2, A3, A4, A6, A7. reflexivity. Qed.
Lemma guidedD_reads : forall two E X dm P P' te tx dt mt n o h, drag_reads P P' -> propogateGuidedEntryD two E X dm P' te tx dt mt n o h = propogateGuidedEntryD two E X dm P te tx dt mt n o h.
Proof.
  intros two E X dm P P' te tx dt mt n o h D. unfold propogateGuidedEntryD, propogateEntryPhaseD, propogateExitPhaseD. destruct dm as [bb|]; auto.
  destruct (set_ballistic _ _) as [o0 [u|e]]; auto. destruct (eg_start _ _ _ _ _ _) as [o1 [s|e]]; auto.
  rewrite (while_ext _ (d_step two E X bb P te dt mt)) by (intros; apply d_step_reads; auto).
  assert (G : forall b s, while_loop (eg_guard P') b n s = while_loop (eg_guard P) b n s).
  { clear - D. intros b s0. destruct D as (A1 & _). unfold eg_guard. rewrite A1. reflexivity. }
  rewrite G. destruct (while_loop _ _ _ _) as [[s' [u1|e]]|]; auto. destruct bb as [b1 ra]. destruct (set_ballistic _ _) as [o2 [u2|e]]; auto. cbv zeta.
  destruct (while_loop _ _ _ _) as [[s2 [u3|e]]|]; auto. unfold exit_report. destruct D as (_ & _ & _ & _ & A5 & A6 & A7). rewrite A5, A6. reflexivity.
Qed.
Lemma fills_drag : forall s g, fills s g -> has s KPhase -> has s KTarget -> drag_reads (filled (os_att s)) (gs_P g).
Proof.
  intros s g (_ & _ & _ & _ & _ & _ & _ & Fr & Fg & Fp & Ft) Hp Ht. cbn [has] in *. unfold drag_reads, filled, fillP.
  destruct (at_phase (os_att s)) as [[[[v l] nl] hh]|]; [|congruence]. destruct (at_target (os_att s)) as [[[pe ap] tl]|]; [|congruence].
  destruct (Fp _ _ _ _ eq_refl) as (? & ? & ? & ?). destruct (Ft _ _ _ eq_refl) as (? & ? & ?). cbn [getd]. destruct (getd _ (at_glide _)). cbn. auto 10.
Qed.
Lemma o_guidedD_same : forall two E X dm a te tx dt mt n o h, at_phase a <> None -> at_target a <> None ->
  o_guidedD two E X dm a te tx dt mt n o h = propogateGuidedEntryD two E X dm (filled a) te tx dt mt n o h.
Proof.
  intros two E X dm a te tx dt mt n o h Hp Ht. unfold o_guidedD, propogateGuidedEntryD, o_entryD, propogateEntryPhaseD, o_exitD. destruct dm as [bb|]; auto.
  destruct (set_ballistic _ _) as [o0 [u|e]]; auto. destruct (eg_start _ _ _ _ _ _) as [o1 [s|e]]; auto. destruct (at_phase a); [|congruence].
  rewrite (while_ext _ (d_step two E X bb (filled a) te dt mt)).
  2: { intros s0. unfold o_d_step. destruct (d_step _ _ _ _ _ _ _ _ _) as [s1 [b|e]]; cbn [fst snd rbind]; [rewrite read_some by auto|]; reflexivity. }
  destruct (while_loop _ _ _ _) as [[s' [u1|e]]|]; auto. destruct (propogateExitPhaseD _ _ _ _ _ _ _ _ _) as [[s2 [r|e]]|]; auto. rewrite read_some by auto. reflexivity.
Qed.
Lemma enough_same : forall E X fuel c s g, fills s g -> enough c (has s) -> agree_og (oserve E X fuel c s) (gserve E X fuel c g).
Proof.
  intros E X fuel c s g F (N1 & N2 & N3). destruct c as [c| | | | | |].
  - assert (FP : flies (Plain c) -> agree_og match os_init s with None => Some (no_init c s) | Some i => match serve (eng E s) fuel c (mkSess (obj_with s i) (os_dm s)) with None => None | Some (s', r) => Some (put_obj s (se_obj s'), rmap Answer r) end end (gserve E X fuel (Plain c) g)).
    { intros Fl. destruct (N1 Fl) as (Hi & Ht). cbn [has] in Hi. destruct (os_init s) as [i|] eqn:Ei; [|congruence]. cbn [gserve].
      rewrite eng_set by auto. pose proof (fills_obj s g i F Ei Ht) as Eo. assert (Es : gs_sess g = mkSess (obj_with s i) (os_dm s)).
      { destruct F as (_ & _ & _ & Fd & _). destruct (gs_sess g); cbn in *; congruence. }
      rewrite <- Es. destruct (serve E fuel c (gs_sess g)) as [[s' r]|] eqn:S; [|exact I]. split; auto.
      pose proof (serve_dm_kept _ _ _ _ _ _ Fl S) as D. replace s' with (mkSess (se_obj s') (se_dm (gs_sess g))) at 2 by (destruct s'; cbn in *; congruence). apply fills_put; auto. }
    destruct c; try (apply FP; split; [intros (k & K); destruct k; exact K|exact I]).
    + destruct F as (A1 & A2 & A3 & A4 & A5 & _ & A7 & A8). split; [reflexivity|]. unfold fills. cbn. do 5 (split; [auto|]). split; [congruence|]. auto.
    + destruct F as (A1 & A2 & A3 & A4 & A5 & A6 & _ & A8). split; [reflexivity|]. unfold fills. cbn. do 6 (split; [auto|]). split; [congruence|]. auto.
    + destruct F as (A1 & A2 & A3 & A4 & A5 & A6 & A7 & A8). split; [reflexivity|]. unfold fills. cbn. auto 12.
    + destruct F as (A1 & A2 & A3 & A4 & A5 & A6 & A7 & A8). cbn [oserve gserve serve upd agree_og]. rewrite A1. split; [destruct (snd _); reflexivity|].
      unfold fills. cbn. auto 12.
  - destruct F as (A1 & A2 & A3 & A4 & A5 & A6 & A7 & A8 & A9 & A10 & A11). split; [reflexivity|]. unfold fills. cbn. do 7 (split; [auto|]). split; [congruence|]. auto.
  - destruct F as (A1 & A2 & A3 & A4 & A5 & A6 & A7 & A8 & A9 & A10 & A11). split; [reflexivity|]. unfold fills. cbn. do 10 (split; [auto|]). intros. repeat split; congruence.
  - destruct F as (A1 & A2 & A3 & A4 & A5 & A6 & A7 & A8 & A9 & A10 & A11). split; [reflexivity|]. unfold fills. cbn. do 8 (split; [auto|]). split; [intros; split; congruence|]. split; [intros; repeat split; congruence|]. auto.
  - destruct F as (A1 & A2 & A3 & A4 & A5 & A6 & A7 & A8 & A9 & A10 & A11). split; [reflexivity|]. unfold fills. cbn. do 9 (split; [auto|]). split; [intros; repeat split; congruence|]. auto.
  - destruct (N1 ltac:(split; [intros (k & K); destruct k; exact K|exact I])) as (Hi & Ht). destruct N3 as (Hr & Hg & Hp & Htg). cbn [oserve gserve].
    pose proof Hi as Hi'. cbn [has] in Hi'. destruct (os_init s) as [i|] eqn:Ei; [|congruence]. rewrite (fills_obj s g i F Ei Ht), (fills_all s g F Hr Hg Hp Htg), eng_set by auto.
    rewrite o_guided_same by assumption. replace (gs_href g) with (os_href s) by (symmetry; apply F). apply fills_gflight; auto.
  - destruct (N1 ltac:(split; [intros (k & K); destruct k; exact K|exact I])) as (Hi & Ht). destruct N3 as (Hp & Htg). cbn [oserve gserve].
    pose proof Hi as Hi'. cbn [has] in Hi'. destruct (os_init s) as [i|] eqn:Ei; [|congruence]. rewrite (fills_obj s g i F Ei Ht), eng_set by auto.
    rewrite o_guidedD_same by assumption. replace (gs_href g) with (os_href s) by (symmetry; apply F). replace (se_dm (gs_sess g)) with (os_dm s) by (symmetry; apply F).
    rewrite (guidedD_reads two E X (os_dm s) (filled (os_att s)) (gs_P g)) by (apply fills_drag; auto). apply fills_gflight; auto.
Qed.
(** Whatever order the setters were called in and whatever else was called: once what a call needs has been set, the call
    does what it does on a fully configured object, for every way of filling in the rest. *)
Theorem C114_enough : forall E X fuel V href history s answers c g, orun E X fuel history (fresh V href) = Some (s, answers) ->
  enough c (set_in history) -> fills s g ->
  match oserve E X fuel c s, gserve E X fuel c g with
  | Some (s', a), Some (g', a') => a' = a /\ fills s' g'
  | None, None => True
  | _, _ => False
  end.
Proof.
  intros E X fuel V href history s answers c g H N F. apply enough_same; auto.
  assert (K : forall k, set_in history k -> has s k) by (intros k P; apply (orun_has _ _ _ _ _ _ _ H); auto).
  destruct N as (N1 & N2 & N3). split; [intros Fl; destruct (N1 Fl); auto|]. split; [auto|]. destruct c; auto; [destruct N3 as (? & ? & ? & ?); auto|destruct N3; auto].
Qed.

(** ** What happens otherwise *)
(** Before setInitialState a call that flies raises TypeError and leaves the object as it was.  The searches of the
    drag-modulated corridor and the drag-modulated guided flight change the vehicle first: they are the exception. *)
Theorem C114_no_initial_state : forall E X fuel V href history s answers c, orun E X fuel history (fresh V href) = Some (s, answers) ->
  ~ set_in history KInitialState -> flies c -> ~ two_configurations c -> (forall two t dt low high tol apo, c <> Plain (FindEFPALimitD two t dt low high tol apo)) ->
  oserve E X fuel c s = Some (s, Err TypeError).
Proof.
  intros E X fuel V href history s answers c H N F T L.
  assert (Hi : os_init s = None).
  { destruct (os_init s) eqn:Ei; auto. destruct N. destruct (proj1 (orun_has _ _ _ _ _ _ _ H KInitialState)) as [A|A]; [cbn; congruence| |exact A]. destruct (fresh_has _ _ _ A). }
  destruct F as (F1 & F2). destruct c as [c| | | | | |]; try (destruct F1; first [exists KRollRate; exact I|exists KTarget; exact I|exists KGlide; exact I|exists KPhase; exact I]).
  - destruct c; cbn [oserve]; try rewrite Hi; cbn [no_init]; try reflexivity; try (destruct F1; first [exists KInitialState; exact I|exists KTolerance; exact I|exists KDrag; exact I]);
      try (destruct T; exact I); try contradiction. destruct (L two t dt low high tol target); reflexivity.
  - cbn [oserve]. rewrite Hi. reflexivity.
  - destruct T. exact I.
Qed.
(** Before setSolverParams a propagation raises AttributeError and leaves the object as it was. *)
Theorem C114_no_tolerance : forall E X fuel V href history s answers name two t dt delta, orun E X fuel history (fresh V href) = Some (s, answers) ->
  set_in history KInitialState -> ~ set_in history KTolerance -> Planet name = Ok (vh_planet (os_veh s)) -> 0 < dt -> 0 <= t ->
  oserve E X fuel (Plain (PropogateEntry two t dt delta)) s = Some (s, Err AttributeError).
Proof.
  intros E X fuel V href history s answers name two t dt delta H Hi Ht Hp Hd H0.
  assert (Hn : os_tol s = None).
  { destruct (os_tol s) eqn:Ei; auto. destruct Ht. destruct (proj1 (orun_has _ _ _ _ _ _ _ H KTolerance)) as [A|A]; [cbn; congruence| |exact A]. destruct (fresh_has _ _ _ A). }
  assert (Hs : has s KInitialState) by (apply (orun_has _ _ _ _ _ _ _ H); auto). cbn [has] in Hs. cbn [oserve]. destruct (os_init s) as [i|] eqn:Ei; [|congruence].
  assert (P : put_obj s (obj_with s i) = s) by (unfold put_obj, obj_with; cbn; rewrite Hn, <- Ei; destruct s; cbn in *; congruence).
  unfold eng. rewrite Hn. cbn [serve se_obj]. pose proof (tau_pos _ _ Hp) as Tp.
  assert (A : exists u us, arange ((t + dt) / tau (vh_planet (os_veh s))) (dt / tau (vh_planet (os_veh s))) = Ok (u :: us)).
  { unfold arange. assert (0 < dt / tau (vh_planet (os_veh s))) by (apply Rdiv_lt_0_compat; auto). rcases; try lra.
    replace ((t + dt) / tau (vh_planet (os_veh s)) / (dt / tau (vh_planet (os_veh s)))) with ((t + dt) / dt) by (field; lra).
    assert (1 <= (t + dt) / dt) by (apply Rmult_le_reg_r with dt; auto; field_simplify; lra).
    destruct (ceil_nat ((t + dt) / dt)) eqn:C; [|eexists; eexists; reflexivity]. exfalso. unfold ceil_nat in C.
    destruct (base_Int_part (- ((t + dt) / dt))) as (B1 & B2). assert (IZR (Int_part (- ((t + dt) / dt))) <= -1) by lra. apply (le_IZR _ (-1)) in H3. lia. }
  destruct A as (u & us & A). destruct two; cbn [upd]; unfold propogateEntry, propogateEntry2, fly, solveTrajectory, solveTrajectory2; cbv zeta; cbn [obj_with ob_veh ob_tol ob_init];
    rewrite A; cbn [rbind no_tol odeint solve_ivp store fst snd se_obj rmap upd]; rewrite P; reflexivity.
Qed.

Lemma eg_loop_grows : forall g two E X P ts dt mt n s s', while_loop g (eg_step two E X P ts dt mt) n s = Some (s', Ok tt) ->
  s' = s /\ g s = false \/ (length (a_t (s_arr s)) < length (a_t (s_arr s')))%nat.
Proof.
  intros g two E X P ts dt mt n. induction n as [|n IH]; intros s s' H; [discriminate|]. cbn [while_loop] in H. destruct (g s) eqn:G; [|injection H as ->; auto]. right.
  destruct (eg_step _ _ _ _ _ _ _ _) as [s1 r] eqn:B. destruct (eg_step_arr _ _ _ _ _ _ _ _ _ _ B) as (_ & [(_ & _ & _ & (e & ->))|(c & t & hd & qr & q & h & n1 & d & n2 & m & EA & _)]); [discriminate|].
  assert (L : length (a_t (s_arr s1)) = Datatypes.S (length (a_t (s_arr s)))) by (rewrite EA; cbn [steps_app a_t]; rewrite app_length; cbn [length]; lia).
  destruct r as [[|]|e]; try discriminate; [injection H as <-; lia|]. destruct (IH _ _ H) as [(-> & _)|K]; lia.
Qed.
(** Before setTargetOrbitParams: a guided flight that never enters its glide loop is flown to the end, and its answer is
    lost in the report.  The object is left in the state after the flight. *)
Theorem C114_target_late : forall E X fuel V href history s answers two ts dt mt g g' first whole rep, orun E X fuel history (fresh V href) = Some (s, answers) ->
  set_in history KInitialState -> set_in history KTolerance -> set_in history KRollRate -> set_in history KPhase -> ~ set_in history KTarget -> fills s g ->
  gserve E X fuel (PropogateGuidedEntry two ts dt mt) g = Some (g', Ok (Flown first whole rep)) -> sn_t first = [0] ->
  exists s', oserve E X fuel (PropogateGuidedEntry two ts dt mt) s = Some (s', Err AttributeError) /\
    os_init s' = Some (ob_init (se_obj (gs_sess g'))) /\ os_flight s' = ob_flight (se_obj (gs_sess g')) /\ os_heat s' = ob_heat (se_obj (gs_sess g')).
Proof.
  intros E X fuel V href history s answers two ts dt mt g g' first whole rep H Si St Sr Sp Nt F G T.
  assert (K : forall k, set_in history k -> has s k) by (intros k Pk; apply (orun_has _ _ _ _ _ _ _ H); auto).
  assert (Hn : at_target (os_att s) = None).
  { destruct (at_target (os_att s)) eqn:Ei; auto. destruct Nt. destruct (proj1 (orun_has _ _ _ _ _ _ _ H KTarget)) as [A|A]; [cbn; congruence| |exact A]. destruct (fresh_has _ _ _ A). }
  apply K in Si, St, Sr, Sp. cbn [oserve]. rewrite eng_set by auto. pose proof Si as Si'. cbn [has] in Si', Sr, Sp. destruct (os_init s) as [i|] eqn:Ei; [|congruence].
  cbn [gserve] in G. rewrite (fills_obj s g i F Ei St) in G. destruct F as (_ & _ & _ & _ & Fh & _ & _ & Fr & _ & Fp & _). rewrite Fh in G.
  assert (Er : g_rate (gs_P g) = g_rate (filled (os_att s))).
  { destruct (at_rate (os_att s)) as [r|] eqn:Er; [|congruence]. unfold filled, fillP. rewrite Er. destruct (getd _ (at_glide _)), (getd _ (at_phase _)) as [[[? ?] ?] ?], (getd _ (at_target _)) as [[? ?] ?]. cbn. auto. }
  assert (Ev : g_vswitch (gs_P g) = g_vswitch (filled (os_att s))).
  { destruct (at_phase (os_att s)) as [[[[v l] nl] hh]|] eqn:Ep; [|congruence]. destruct (Fp _ _ _ _ eq_refl) as (-> & _). unfold filled, fillP. rewrite Ep. cbn [getd]. destruct (getd _ (at_glide _)), (getd _ (at_target _)) as [[? ?] ?]. reflexivity. }
  unfold propogateGuidedEntry, propogateEquilibriumGlide in G. unfold o_guided, o_glide.
  destruct (eg_start two E X (obj_with s i) (os_href s) dt) as [o1 [s0|e]] eqn:S0; [|discriminate]. destruct (at_phase (os_att s)); [|congruence].
  destruct (while_loop (eg_guard (gs_P g)) _ fuel s0) as [[s1 [[]|e]]|] eqn:W; try discriminate.
  unfold propogateExitPhase in G. cbv zeta in G. destruct (while_loop exit_guard _ fuel _) as [[s2 [[]|e]]|] eqn:W2; try discriminate. cbn [gflight] in G. injection G as <- <- <- _.
  cbn [see sn_t] in T. destruct (eg_loop_grows _ _ _ _ _ _ _ _ _ _ _ W) as [(-> & Gd)|L]; [|rewrite (start_t _ _ _ _ _ _ _ _ S0), T in L; cbn in L; lia].
  destruct fuel as [|n]; [discriminate|]. cbn [while_loop]. unfold eg_guard at 1. rewrite <- Ev. fold (eg_guard (gs_P g) s0). rewrite Gd.
  unfold o_exit. cbv zeta. rewrite (while_ext _ (exit_step two E X (gs_P g) ts dt (last (a_hdot (s_arr s0)) 0) (last (y_heat (s_hist s0)) None))).
  2: { intros s3. unfold o_exit_step. destruct (at_rate (os_att s)); [|congruence]. unfold exit_step. rewrite Er. reflexivity. }
  rewrite W2, Hn. cbn [read put_gst]. eexists. split; [reflexivity|]. auto.
Qed.

(** Before setInitialState, the calls that fly with drag modulation (or without lift) have already written to the vehicle
    when they raise: the ballistic coefficient and drag coefficient of the first configuration, and a lift-to-drag ratio of 0. *)
Theorem C114_no_initial_state_drag : forall E X fuel V href history s answers c b1 ratio, orun E X fuel history (fresh V href) = Some (s, answers) ->
  ~ set_in history KInitialState -> flies c -> os_dm s = Some (b1, ratio) -> b1 * vh_A (os_veh s) <> 0 -> b1 * ratio * vh_A (os_veh s) <> 0 ->
  oserve E X fuel c s = Some (mkOS (spoilt c (os_veh s) b1 ratio) None (os_tol s) (os_flight s) (os_heat s) (os_dm s) (os_att s) (os_href s), Err TypeError).
Proof.
  intros E X fuel V href history s answers c b1 ratio H N F Hd A1 A2.
  assert (Hi : os_init s = None).
  { destruct (os_init s) eqn:Ei; auto. destruct N. destruct (proj1 (orun_has _ _ _ _ _ _ _ H KInitialState)) as [A|A]; [cbn; congruence| |exact A]. destruct (fresh_has _ _ _ A). }
  destruct F as (F1 & F2). destruct s as [W i tol fl ht dm att hr]. cbn [os_init os_dm os_veh os_tol os_flight os_heat os_att os_href] in *. subst i dm.
  assert (B : forall b, b * vh_A W <> 0 -> ballistic_only (mkOS W None tol fl ht (Some (b1, ratio)) att hr) b = (mkOS (ballistic W b) None tol fl ht (Some (b1, ratio)) att hr, Ok tt)).
  { intros b Hb. unfold ballistic_only, set_ballistic, obj_with. cbn [ob_veh os_veh with_beta vh_A]. destruct (Reqb_spec (b * vh_A W) 0); [contradiction|]. reflexivity. }
  destruct c as [c| | | | | |]; try (destruct F1; first [exists KRollRate; exact I|exists KTarget; exact I|exists KGlide; exact I|exists KPhase; exact I]).
  - destruct c; cbn [oserve os_init no_init]; try reflexivity; try (destruct F1; first [exists KInitialState; exact I|exists KTolerance; exact I|exists KDrag; exact I]); try contradiction;
      unfold no_init_drag; cbn [os_dm fst snd]; rewrite B by auto; reflexivity.
  - reflexivity.
  - cbn [oserve os_init]. unfold no_init_drag. cbn [os_dm fst]. rewrite B by auto. reflexivity.
Qed.

(** Before setEquilibriumGlideParams and setDragEntryPhaseParams, a guided flight that would otherwise return raises
    AttributeError. *)
Theorem C114_no_switch : forall E X fuel V href history s answers c g g' first whole rep, orun E X fuel history (fresh V href) = Some (s, answers) ->
  set_in history KInitialState -> set_in history KTolerance -> ~ set_in history KPhase -> fills s g ->
  gserve E X fuel c g = Some (g', Ok (Flown first whole rep)) ->
  exists s', oserve E X fuel c s = Some (s', Err AttributeError).
Proof.
  intros E X fuel V href history s answers c g g' first whole rep H Si St Np F G.
  assert (K : forall k, set_in history k -> has s k) by (intros k Pk; apply (orun_has _ _ _ _ _ _ _ H); auto).
  assert (Hn : at_phase (os_att s) = None).
  { destruct (at_phase (os_att s)) eqn:Ei; auto. destruct Np. destruct (proj1 (orun_has _ _ _ _ _ _ _ H KPhase)) as [A|A]; [cbn; congruence| |exact A]. destruct (fresh_has _ _ _ A). }
  apply K in Si, St. pose proof Si as Si'. cbn [has] in Si'. destruct (os_init s) as [i|] eqn:Ei; [|congruence].
  destruct c as [c| | | | |two ts dt mt|two te tx dt mt]; try discriminate G.
  - cbn [gserve] in G. destruct (serve _ _ _ _) as [[q r]|]; [|discriminate]. destruct r; discriminate.
  - cbn [gserve] in G. rewrite (fills_obj s g i F Ei St) in G. cbn [oserve]. rewrite eng_set by auto. rewrite Ei.
    destruct F as (_ & _ & _ & _ & Fh & _). rewrite Fh in G. unfold propogateGuidedEntry, propogateEquilibriumGlide in G. unfold o_guided, o_glide.
    destruct (eg_start two E X (obj_with s i) (os_href s) dt) as [o1 [s0|e]]; [|discriminate]. rewrite Hn. eexists. reflexivity.
  - cbn [gserve] in G. rewrite (fills_obj s g i F Ei St) in G. cbn [oserve]. rewrite eng_set by auto. rewrite Ei.
    destruct F as (_ & _ & _ & Fd & Fh & _). rewrite Fh, Fd in G. unfold propogateGuidedEntryD, propogateEntryPhaseD in G. unfold o_guidedD, o_entryD.
    destruct (os_dm s) as [bb|]; [|discriminate]. destruct (set_ballistic _ _) as [o0 [u|e]]; [|discriminate].
    destruct (eg_start two E X o0 (os_href s) dt) as [o1 [s0|e]]; [|discriminate]. rewrite Hn. eexists. reflexivity.
Qed.

(** Before setMaxRollRate, a guided flight that has no glide cycle but at least one exit cycle raises AttributeError in
    that cycle, before flying it. *)
Theorem C114_no_roll_rate : forall E X fuel V href history s answers two ts dt mt g g' first whole rep, orun E X fuel history (fresh V href) = Some (s, answers) ->
  set_in history KInitialState -> set_in history KTolerance -> set_in history KPhase -> ~ set_in history KRollRate -> fills s g ->
  gserve E X fuel (PropogateGuidedEntry two ts dt mt) g = Some (g', Ok (Flown first whole rep)) -> sn_t first = [0] -> sn_t whole <> [0] ->
  exists s', oserve E X fuel (PropogateGuidedEntry two ts dt mt) s = Some (s', Err AttributeError).
Proof.
  intros E X fuel V href history s answers two ts dt mt g g' first whole rep H Si St Sp Nr F G T TW.
  assert (K : forall k, set_in history k -> has s k) by (intros k Pk; apply (orun_has _ _ _ _ _ _ _ H); auto).
  assert (Hn : at_rate (os_att s) = None).
  { destruct (at_rate (os_att s)) eqn:Ei; auto. destruct Nr. destruct (proj1 (orun_has _ _ _ _ _ _ _ H KRollRate)) as [A|A]; [cbn; congruence| |exact A]. destruct (fresh_has _ _ _ A). }
  apply K in Si, St, Sp. cbn [oserve]. rewrite eng_set by auto. pose proof Si as Si'. cbn [has] in Si', Sp. destruct (os_init s) as [i|] eqn:Ei; [|congruence].
  cbn [gserve] in G. rewrite (fills_obj s g i F Ei St) in G. destruct F as (_ & _ & _ & _ & Fh & _ & _ & _ & _ & Fp & _). rewrite Fh in G.
  assert (Ev : g_vswitch (gs_P g) = g_vswitch (filled (os_att s))).
  { destruct (at_phase (os_att s)) as [[[[v l] nl] hh]|] eqn:Ep; [|congruence]. destruct (Fp _ _ _ _ eq_refl) as (-> & _). unfold filled, fillP. rewrite Ep. cbn [getd]. destruct (getd _ (at_glide _)), (getd _ (at_target _)) as [[? ?] ?]. reflexivity. }
  unfold propogateGuidedEntry, propogateEquilibriumGlide in G. unfold o_guided, o_glide.
  destruct (eg_start two E X (obj_with s i) (os_href s) dt) as [o1 [s0|e]] eqn:S0; [|discriminate]. destruct (at_phase (os_att s)); [|congruence].
  destruct (while_loop (eg_guard (gs_P g)) _ fuel s0) as [[s1 [[]|e]]|] eqn:W; try discriminate.
  unfold propogateExitPhase in G. cbv zeta in G. destruct (while_loop exit_guard _ fuel _) as [[s2 [[]|e]]|] eqn:W2; try discriminate. cbn [gflight] in G. injection G as <- <- <- _.
  cbn [see sn_t] in T, TW. destruct (eg_loop_grows _ _ _ _ _ _ _ _ _ _ _ W) as [(-> & Gd)|L]; [|rewrite (start_t _ _ _ _ _ _ _ _ S0), T in L; cbn in L; lia].
  destruct fuel as [|n]; [discriminate|]. cbn [while_loop]. unfold eg_guard at 1. rewrite <- Ev. fold (eg_guard (gs_P g) s0). rewrite Gd.
  unfold o_exit. cbv zeta. cbn [while_loop] in W2 |- *. destruct (exit_guard (exit_start s0)) eqn:Ge.
  - unfold o_exit_step. rewrite Hn. cbn [put_gst]. eexists. reflexivity.
  - injection W2 as <-. destruct TW. rewrite <- T. reflexivity.
Qed.

(** Before setMaxRollRate or setEquilibriumGlideParams, a guided flight with at least one glide cycle raises AttributeError
    in the first one, before flying it. *)
Theorem C114_no_gains : forall E X fuel V href history s answers two ts dt mt g g' first whole rep, orun E X fuel history (fresh V href) = Some (s, answers) ->
  set_in history KInitialState -> set_in history KTolerance -> set_in history KPhase -> ~ set_in history KGlide \/ ~ set_in history KRollRate -> fills s g ->
  gserve E X fuel (PropogateGuidedEntry two ts dt mt) g = Some (g', Ok (Flown first whole rep)) -> sn_t first <> [0] ->
  exists s', oserve E X fuel (PropogateGuidedEntry two ts dt mt) s = Some (s', Err AttributeError).
Proof.
  intros E X fuel V href history s answers two ts dt mt g g' first whole rep H Si St Sp Nr F G T.
  assert (K : forall k, set_in history k -> has s k) by (intros k Pk; apply (orun_has _ _ _ _ _ _ _ H); auto).
  assert (N : forall k, ~ set_in history k -> ~ has s k) by (intros k Nk A; apply Nk; destruct (proj1 (orun_has _ _ _ _ _ _ _ H k) A) as [B|B]; [destruct (fresh_has _ _ _ B)|exact B]).
  assert (Hn : at_glide (os_att s) = None \/ at_rate (os_att s) = None).
  { destruct Nr as [Nr|Nr]; apply N in Nr; cbn [has] in Nr; [left; destruct (at_glide (os_att s))|right; destruct (at_rate (os_att s))]; auto; destruct Nr; discriminate. }
  apply K in Si, St, Sp. cbn [oserve]. rewrite eng_set by auto. pose proof Si as Si'. cbn [has] in Si', Sp. destruct (os_init s) as [i|] eqn:Ei; [|congruence].
  cbn [gserve] in G. rewrite (fills_obj s g i F Ei St) in G. destruct F as (_ & _ & _ & _ & Fh & _ & _ & _ & _ & Fp & _). rewrite Fh in G.
  assert (Ev : g_vswitch (gs_P g) = g_vswitch (filled (os_att s))).
  { destruct (at_phase (os_att s)) as [[[[v l] nl] hh]|] eqn:Ep; [|congruence]. destruct (Fp _ _ _ _ eq_refl) as (-> & _). unfold filled, fillP. rewrite Ep. cbn [getd]. destruct (getd _ (at_glide _)), (getd _ (at_target _)) as [[? ?] ?]. reflexivity. }
  unfold propogateGuidedEntry, propogateEquilibriumGlide in G. unfold o_guided, o_glide.
  destruct (eg_start two E X (obj_with s i) (os_href s) dt) as [o1 [s0|e]] eqn:S0; [|discriminate]. destruct (at_phase (os_att s)); [|congruence].
  destruct (while_loop (eg_guard (gs_P g)) _ fuel s0) as [[s1 [[]|e]]|] eqn:W; try discriminate.
  destruct (propogateExitPhase _ _ _ _ _ _ _ _) as [[s2 [r|e]]|]; try discriminate. cbn [gflight] in G. injection G as <- <- <- _. cbn [see sn_t] in T.
  destruct fuel as [|n]; [discriminate|]. cbn [while_loop] in W |- *. unfold eg_guard at 1. rewrite <- Ev. fold (eg_guard (gs_P g) s0).
  destruct (eg_guard (gs_P g) s0).
  - assert (Q : exists z, qref_of (ob_veh (s_obj s0)) (last (p_v (y_plot (s_hist s0))) 0 * 1e3) (last (p_h (y_plot (s_hist s0))) 0 * 1e3 + RP (vh_planet (ob_veh (s_obj s0)))) = Ok z).
    { unfold eg_step in W. cbv zeta in W. destruct (qref_of _ _ _) as [z|e]; [eauto|discriminate]. }
    destruct Q as (z & Q). unfold o_eg_step. cbv zeta. rewrite Q. cbn [rbind]. destruct Hn as [->| ->]; [|destruct (at_glide (os_att s))]; eexists; reflexivity.
  - injection W as <-. destruct T. exact (start_t _ _ _ _ _ _ _ _ S0).
Qed.

(** ** The order of the setters *)
(** Two setters of different kinds can be called in either order; of two of the same kind the later one counts. *)
Theorem C114_two_orders : forall E X fuel c1 c2 s, setter c1 -> setter c2 -> (forall k, sets c1 k -> ~ sets c2 k) ->
  orun E X fuel [c1; c2] s = orun E X fuel [c2; c1] s.
Proof.
  intros E X fuel c1 c2 s (k1 & S1) (k2 & S2) D.
  destruct c1 as [c1| | | | | |]; try destruct c1; try (destruct k1; contradiction);
    destruct c2 as [c2| | | | | |]; try destruct c2; try (destruct k2; contradiction); try reflexivity; exfalso;
    first [apply (D KInitialState); exact I|apply (D KTolerance); exact I|apply (D KDrag); exact I|apply (D KRollRate); exact I|apply (D KTarget); exact I|apply (D KPhase); exact I].
Qed.
Theorem C114_later_counts : forall E X fuel c1 c2 s s' a, setter c1 -> setter c2 -> (forall k, sets c1 k -> sets c2 k) ->
  orun E X fuel [c1; c2] s = Some (s', a) -> oserve E X fuel c2 s = Some (s', Ok (Answer Nothing)).
Proof.
  intros E X fuel c1 c2 s s' a (k1 & S1) (k2 & S2) D.
  destruct c1 as [c1| | | | | |]; try destruct c1; try (destruct k1; contradiction);
    destruct c2 as [c2| | | | | |]; try destruct c2; try (destruct k2; contradiction);
    try (exfalso; first [exact (D KInitialState I)|exact (D KTolerance I)|exact (D KDrag I)|exact (D KRollRate I)|exact (D KTarget I)|exact (D KPhase I)|exact (D KGlide I)]);
    intros H; injection H as <- <-; reflexivity.
Qed.
(** A whole configuration: setters of which no two are of the same kind leave the same object in any order. *)
Definition apart (c1 c2 : greq) : Prop := forall k, sets c1 k -> ~ sets c2 k.
Lemma setter_returns : forall E X fuel c s, setter c -> exists s', oserve E X fuel c s = Some (s', Ok (Answer Nothing)).
Proof. intros E X fuel c s (k & S). destruct c as [c| | | | | |]; try destruct c; try (destruct k; contradiction); eexists; reflexivity. Qed.
Lemma FOP_perm : forall l l', Permutation l l' -> ForallOrdPairs apart l -> ForallOrdPairs apart l'.
Proof.
  intros l l' P. assert (Sy : forall x y, apart x y -> apart y x) by (unfold apart; intros x y A k B C; exact (A k C B)).
  induction P as [|x l l' P IH|x y l|]; auto.
  - intros F. inversion F as [|? ? A B]; subst. constructor; auto. eapply Permutation_Forall; eauto.
  - intros F. inversion F as [|? ? A B]; subst. inversion B as [|? ? C D]; subst. inversion A; subst. constructor; [constructor; auto|constructor; auto].
Qed.
Theorem C114_any_order : forall E X fuel l l' s, Permutation l l' -> Forall setter l -> ForallOrdPairs (fun c1 c2 => forall k, sets c1 k -> ~ sets c2 k) l ->
  exists s' a, orun E X fuel l s = Some (s', a) /\ orun E X fuel l' s = Some (s', a).
Proof.
  intros E X fuel l l' s P. revert s. induction P as [|x l l' P IH|x y l|l l1 l2 P1 IH1 P2 IH2]; intros s Fs Fo.
  - exists s, []. auto.
  - inversion Fs; subst. inversion Fo; subst. destruct (setter_returns E X fuel x s) as (s1 & E1); auto. cbn [orun]. rewrite E1.
    destruct (IH s1) as (s' & a & -> & ->); auto. eexists; eexists; split; reflexivity.
  - inversion Fs as [|? ? Sy Fs']; subst. inversion Fs' as [|? ? Sx Fl]; subst. inversion Fo as [|? ? A B]; subst. inversion A as [|? ? D _]; subst.
    pose proof (C114_two_orders E X fuel y x s Sy Sx D) as C.
    destruct (setter_returns E X fuel y s Sy) as (s1 & E1). destruct (setter_returns E X fuel x s1 Sx) as (s2 & E2).
    destruct (setter_returns E X fuel x s Sx) as (s3 & E3). destruct (setter_returns E X fuel y s3 Sy) as (s4 & E4).
    cbn [orun] in C |- *. rewrite E1, E2, E3, E4 in *. injection C as <-.
    assert (R : exists s' a, orun E X fuel l s2 = Some (s', a)).
    { clear -Fl. revert s2. induction Fl as [|c l Hc Fl IH]; intros s2; [exists s2, []; reflexivity|]. destruct (setter_returns E X fuel c s2 Hc) as (s5 & E5). cbn [orun]. rewrite E5.
      destruct (IH s5) as (s' & a & ->). eexists; eexists; reflexivity. }
    destruct R as (s' & a & ->). eexists; eexists; split; reflexivity.
  - destruct (IH1 s Fs Fo) as (s' & a & A1 & A2). destruct (IH2 s) as (s'' & b & B1 & B2); [eapply Permutation_Forall; eauto|eapply FOP_perm; eauto|].
    assert (s'' = s' /\ b = a) as (-> & ->) by (split; congruence). eauto.
Qed.
