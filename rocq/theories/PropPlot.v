(** C111: the files the trade-study plots leave on disk. *)
Require Import Verif.Base Verif.Numpy Verif.LauncherModel Verif.PlotModel Verif.PlotSpec Verif.PropPlanet.
From Coq Require Import String Ascii Lra.
Open Scope string_scope.

(** * Strings as lists *)
Fixpoint chars (s : string) : list ascii :=
  match s with EmptyString => [] | String c s' => c :: chars s' end.
Lemma chars_app : forall a b, chars (a ++ b) = (chars a ++ chars b)%list.
Proof. induction a; cbn; intros; [|rewrite IHa]; auto. Qed.
Lemma chars_inj : forall a b, chars a = chars b -> a = b.
Proof. induction a; destruct b; cbn; intros H; try discriminate; auto. injection H as -> H. f_equal; auto. Qed.
Lemma str_app_assoc : forall a b c : string, (a ++ b) ++ c = a ++ (b ++ c).
Proof. induction a; cbn; intros; [|rewrite IHa]; auto. Qed.
Lemma str_app_inv_tail : forall a b c : string, a ++ c = b ++ c -> a = b.
Proof.
  intros a b c H. apply chars_inj. apply (f_equal chars) in H. rewrite !chars_app in H.
  now apply app_inv_tail in H.
Qed.
Lemma rev_chars_app : forall a b, rev (chars (a ++ b)) = (rev (chars b) ++ rev (chars a))%list.
Proof. intros. now rewrite chars_app, rev_app_distr. Qed.

Lemma file_split : forall q x, file_of q x = "../plots/" ++ plot_name q ++ ext_of x.
Proof. reflexivity. Qed.

(** Two plots saved under one file name have the same format and the same plot name. *)
Lemma file_inj : forall q x q' x', file_of q x = file_of q' x' -> x = x' /\ plot_name q = plot_name q'.
Proof.
  intros q x q' x' H. unfold file_of in H. cbn [append] in H.
  repeat match type of H with String _ _ = String _ _ => injection H as H end.
  assert (x = x').
  { apply (f_equal (fun s => rev (chars s))) in H. rewrite !rev_chars_app in H.
    destruct x, x'; auto; cbn in H; discriminate. }
  split; auto. subst. now apply str_app_inv_tail in H.
Qed.

Ltac peel H := repeat match type of H with
  | (?a :: ?l = ?b :: ?l')%list => injection H as H
  end.

(** The plot name tells the method. *)
Lemma name_method : forall q q', plot_name q = plot_name q' -> same_method q q'.
Proof.
  intros q q' H. apply (f_equal (fun s => rev (chars s))) in H.
  destruct q, q'; cbn [plot_name same_method] in *; auto; exfalso;
    repeat rewrite rev_chars_app in H; cbn -[ds_ID la_ID chars] in H; cbn [chars rev] in H;
    rewrite <- ?app_assoc in H; cbn in H; try discriminate.
Qed.

(** A name without underscore before the first underscore is determined. *)
Lemma split_underscore : forall a a' b b', no_underscore a -> no_underscore a' ->
  a ++ "_" ++ b = a' ++ "_" ++ b' -> a = a' /\ b = b'.
Proof.
  induction a as [|c a IH]; intros a' b b' N N' H; destruct a' as [|c' a'].
  - cbn in H. injection H as ->. auto.
  - cbn in H. injection H as H _. exfalso. apply (N' O). cbn. now rewrite H.
  - cbn in H. injection H as H _. exfalso. apply (N O). cbn. now rewrite H.
  - cbn in H. injection H as -> H.
    destruct (IH a' b b') as [-> ->]; auto.
    + intros n. apply (N (Datatypes.S n)).
    + intros n. apply (N' (Datatypes.S n)).
Qed.

(** * What one call writes *)
Lemma saves_spec : forall q, map fst (saves q) = [file_of q Png; file_of q Pdf; file_of q Eps].
Proof.
  intros []; unfold file_of; cbn [saves plot_name map fst ext_of];
    repeat rewrite str_app_assoc; cbn [append]; reflexivity.
Qed.

Lemma run_saves_true : forall ss, (forall s, In s ss -> snd s = true) -> run_saves ss = (map fst ss, Ok tt).
Proof.
  induction ss as [|[n b] ss IH]; intros H; cbn; auto.
  assert (b = true) as -> by (apply (H (n, b)); cbn; auto).
  rewrite IH; [reflexivity|]. intros; apply H; cbn; auto.
Qed.

(** A call that can draw its figure, other than plot_launch_mass_vs_TOF, saves that figure as PNG, then
    PDF, then EPS, and returns.  A call that cannot draw its figure saves nothing. *)
Theorem C111_saved : forall q,
  (forall f, draw q = Ok f -> ~ is_mass_vs_TOF q ->
     plot q = ([(file_of q Png, f); (file_of q Pdf, f); (file_of q Eps, f)], Ok tt)) /\
  (forall e, draw q = Err e -> plot q = ([], Err e)).
Proof.
  intros q. split; intros.
  - unfold plot. rewrite H. rewrite run_saves_true.
    + rewrite saves_spec. reflexivity.
    + intros s Hs. destruct q; cbn [is_mass_vs_TOF] in *; try tauto; cbn [saves] in Hs;
        destruct Hs as [<-|[<-|[<-|[]]]]; reflexivity.
  - unfold plot. now rewrite H.
Qed.

(** plot_launch_mass_vs_TOF never saves a file and never returns: when it has drawn its figure it
    stops with TypeError. *)
Theorem C111_mass_vs_TOF_never_saved : forall d l,
  fst (plot (MassVsTOF d l)) = [] /\
  (forall f, draw (MassVsTOF d l) = Ok f -> snd (plot (MassVsTOF d l)) = Err TypeError) /\
  (exists e, snd (plot (MassVsTOF d l)) = Err e).
Proof.
  intros. unfold plot. destruct (draw (MassVsTOF d l)) eqn:E; cbn [saves run_saves fst snd map].
  - repeat split; eauto.
  - repeat split; eauto. discriminate.
Qed.

Lemma writes_other : forall ws k n, (forall w, In w ws -> fst w <> n) -> writes k ws n = k n.
Proof.
  unfold writes. induction ws as [|w ws IH]; intros k n H; cbn; auto.
  rewrite IH by (intros; apply H; cbn; auto).
  unfold write. destruct (String.eqb_spec n (fst w)); auto. exfalso. apply (H w); cbn; auto.
Qed.

Lemma writes_files : forall q w, In w (fst (plot q)) ->
  ~ is_mass_vs_TOF q /\ (exists x, fst w = file_of q x) /\ draw q = Ok (snd w).
Proof.
  intros q w H. destruct (draw q) as [f|e] eqn:E.
  - destruct (C111_saved q) as [S _].
    assert (D : is_mass_vs_TOF q \/ ~ is_mass_vs_TOF q) by (destruct q; cbn; tauto).
    destruct D as [D|D].
    + destruct q; try contradiction. rewrite (proj1 (C111_mass_vs_TOF_never_saved d l)) in H. contradiction.
    + rewrite (S f E D) in H. cbn [fst In] in H.
      destruct H as [<-|[<-|[<-|[]]]]; cbn [fst snd]; (split; [exact D|split; [eauto|reflexivity]]).
  - destruct (C111_saved q) as [_ S]. rewrite (S e E) in H. contradiction.
Qed.

Lemma run_other : forall qs k n,
  (forall q x, In q qs -> ~ is_mass_vs_TOF q -> (exists f, draw q = Ok f) -> file_of q x <> n) -> run k qs n = k n.
Proof.
  induction qs as [|q qs IH]; intros k n H; cbn; auto.
  change (run (writes k (fst (plot q))) qs n = k n).
  rewrite IH by (intros; apply H; cbn; auto).
  apply writes_other. intros w Hw Hn. destruct (writes_files q w Hw) as (D & (x & Hx) & E).
  apply (H q x); [left; reflexivity|exact D|eauto|congruence].
Qed.

Lemma run_app : forall a b k, run k (a ++ b) = run (run k a) b.
Proof. intros. unfold run. apply fold_left_app. Qed.

(** After any history of plotting calls, on any datasets and launchers, a file shows the figure of the
    last call that drew one and saves under that name; a file no such call names is as it was. *)
Theorem C111_file_shows_last_call : forall k before q after x f,
  draw q = Ok f -> ~ is_mass_vs_TOF q ->
  (forall q', In q' after -> plot_name q' = plot_name q -> forall f', draw q' <> Ok f') ->
  run k (before ++ q :: after) (file_of q x) = Some f.
Proof.
  intros k before q after x f Hd Hm Ha.
  rewrite run_app. change (q :: after) with ([q] ++ after)%list. rewrite run_app.
  rewrite run_other.
  - cbn [run fold_left]. rewrite (proj1 (C111_saved q) f Hd Hm). cbn [fst writes fold_left].
    unfold write. cbn [fst snd].
    repeat match goal with |- context [String.eqb ?a ?b] => destruct (String.eqb_spec a b) end; auto.
    destruct x; congruence.
  - intros q' x' Hin Hm' [f' Hf'] Heq. apply file_inj in Heq as [-> Hn]. apply (Ha q' Hin Hn f' Hf').
Qed.
Theorem C111_other_files_untouched : forall k qs n,
  (forall q x f, In q qs -> draw q = Ok f -> ~ is_mass_vs_TOF q -> file_of q x <> n) -> run k qs n = k n.
Proof. intros k qs n H. apply run_other. intros q x Hin Hm [f Hf]. eauto. Qed.

(** When two plots share a file: same method, and names that join to the same text.  The launcher enters
    the name of only two of the methods. *)
Theorem C111_shared_names : forall q q' x x', file_of q x = file_of q' x' <->
  x = x' /\ same_method q q' /\
  match named_launcher q, named_launcher q' with
  | Some l, Some l' => ds_ID (dataset_of q) ++ "_" ++ la_ID l = ds_ID (dataset_of q') ++ "_" ++ la_ID l'
  | _, _ => ds_ID (dataset_of q) = ds_ID (dataset_of q')
  end.
Proof.
  intros q q' x x'. split.
  - intros H. apply file_inj in H as [-> H]. split; auto. pose proof (name_method _ _ H) as M. split; auto.
    destruct q, q'; cbn [same_method] in M; try contradiction;
      cbn [plot_name named_launcher dataset_of] in *;
      repeat rewrite <- str_app_assoc in H; apply str_app_inv_tail in H; auto;
      rewrite !str_app_assoc in H; exact H.
  - intros (-> & M & H). unfold file_of. f_equal. f_equal.
    destruct q, q'; cbn [same_method] in M; try contradiction;
      cbn [plot_name named_launcher dataset_of] in *;
      repeat rewrite <- str_app_assoc; try (rewrite H; reflexivity);
      rewrite <- !str_app_assoc in H; rewrite H; reflexivity.
Qed.

(** Dataset names without underscore keep the launch-mass plots of different launchers apart. *)
Theorem C111_names_apart : forall d l d' l' x x',
  no_underscore (ds_ID d) -> no_underscore (ds_ID d') ->
  file_of (MassVsDate d l) x = file_of (MassVsDate d' l') x' ->
  x = x' /\ ds_ID d = ds_ID d' /\ la_ID l = la_ID l'.
Proof.
  intros d l d' l' x x' N N' H. apply C111_shared_names in H as (-> & _ & H).
  cbn [named_launcher dataset_of] in H. apply split_underscore in H as [? ?]; auto.
Qed.
(** With underscores they need not be. *)
Theorem C111_names_apart_refuted : exists d l d' l' x,
  ds_ID d <> ds_ID d' /\ la_ID l <> la_ID l' /\ file_of (MassVsDate d l) x = file_of (MassVsDate d' l') x.
Proof.
  exists (mkDs "uranus_2035" [] [] [] []), (mkLa "atlas" []), (mkDs "uranus" [] [] [] []), (mkLa "2035_atlas" []), Png.
  cbn. repeat split; discriminate.
Qed.

(** Comparing launchers on one dataset with either colour-bar plot loses all but the last comparison:
    every file holds the plot of the last launcher that could be drawn. *)
Theorem C111_colorbar_plots_overwrite : forall k d l l' x f f',
  (draw (AvinfVsDateMass d l) = Ok f -> draw (AvinfVsDateMass d l') = Ok f' ->
     run k [AvinfVsDateMass d l; AvinfVsDateMass d l'] (file_of (AvinfVsDateMass d l) x) = Some f') /\
  (draw (MassVsTOFAvinf d l) = Ok f -> draw (MassVsTOFAvinf d l') = Ok f' ->
     run k [MassVsTOFAvinf d l; MassVsTOFAvinf d l'] (file_of (MassVsTOFAvinf d l) x) = Some f').
Proof.
  intros. split; intros H H'.
  - apply (C111_file_shows_last_call k [AvinfVsDateMass d l] (AvinfVsDateMass d l') [] x f' H'); auto; cbn; tauto.
  - apply (C111_file_shows_last_call k [MassVsTOFAvinf d l] (MassVsTOFAvinf d l') [] x f' H'); auto; cbn; tauto.
Qed.

(** A call cut short at any point: every file is as before or shows the call's figure, only files of that
    call have changed, and a later format is new only if the earlier ones are. *)
Theorem C111_crash : forall k q n,
  let k' := writes k (firstn n (fst (plot q))) in
  (forall p, k' p = k p \/ (exists x f, p = file_of q x /\ draw q = Ok f /\ k' p = Some f)) /\
  (forall f, draw q = Ok f -> k (file_of q Png) <> Some f -> k (file_of q Pdf) <> Some f -> k (file_of q Eps) <> Some f ->
     (k' (file_of q Eps) = Some f -> k' (file_of q Pdf) = Some f) /\
     (k' (file_of q Pdf) = Some f -> k' (file_of q Png) = Some f)).
Proof.
  intros k q n k'.
  assert (Hfn : forall w, In w (firstn n (fst (plot q))) -> In w (fst (plot q))).
  { intros w Hw. rewrite <- (firstn_skipn n). apply in_or_app. auto. }
  assert (Hx : forall x x', file_of q x = file_of q x' -> x = x') by (intros x x' H; now apply file_inj in H).
  destruct (draw q) as [f|e] eqn:E.
  2:{ unfold k'. rewrite (proj2 (C111_saved q) e E). cbn [fst]. rewrite firstn_nil. cbn. split; [auto|discriminate]. }
  assert (D : is_mass_vs_TOF q \/ ~ is_mass_vs_TOF q) by (destruct q; cbn; tauto).
  destruct D as [D|D].
  { unfold k'. destruct q; try contradiction. rewrite (proj1 (C111_mass_vs_TOF_never_saved d l)).
    rewrite firstn_nil. cbn. split; [auto|]. intros f0 _ A B C. split; intros H; contradiction. }
  unfold k'. rewrite (proj1 (C111_saved q) f E D). cbn [fst].
  assert (C : forall a b, String.eqb (file_of q a) (file_of q b) = true <-> a = b).
  { intros a b. rewrite String.eqb_eq. split; [apply Hx|intros ->; auto]. }
  assert (Q : forall a, String.eqb (file_of q a) (file_of q a) = true) by (intros; apply String.eqb_refl).
  assert (Q' : forall a b, a <> b -> String.eqb (file_of q a) (file_of q b) = false).
  { intros a b H. apply Bool.not_true_is_false. rewrite C. exact H. }
  split.
  - intros p. destruct n as [|[|[|[|n]]]]; cbn [firstn writes fold_left]; unfold write; cbn [fst snd]; auto;
      repeat match goal with |- context [String.eqb p ?b] => destruct (String.eqb_spec p b) end; eauto 10.
  - intros f0 Hf0. injection Hf0 as <-. intros A B G.
    destruct n as [|[|[|[|n]]]]; cbn [firstn writes fold_left]; unfold write; cbn [fst snd];
      rewrite ?Q, ?(Q' Eps Png), ?(Q' Eps Pdf), ?(Q' Pdf Png), ?(Q' Pdf Eps), ?(Q' Png Pdf), ?(Q' Png Eps) by discriminate;
      split; intros H; auto; contradiction.
Qed.

(** * What the mass plots show *)
Lemma pymax_spec : forall l m, pymax l = Ok m -> In m l /\ forall z, In z l -> z <= m.
Proof.
  induction l as [|x l IH]; cbn [pymax]; intros m H; [discriminate|].
  destruct l as [|y l].
  - injection H as <-. cbn. split; auto. intros z [<-|[]]; lra.
  - remember (y :: l)%list as l0. destruct (pymax l0) as [m0|] eqn:E; cbn [rbind] in H; [|discriminate].
    injection H as <-. destruct (IH m0 eq_refl) as [I B]. split.
    + unfold Rmax. destruct (Rle_dec x m0); cbn; auto.
    + intros z [<-|Hz]; [apply Rmax_l|]. specialize (B z Hz). pose proof (Rmax_r x m0). lra.
Qed.
Lemma pymax_total : forall l, l <> [] -> exists m, pymax l = Ok m.
Proof.
  induction l as [|x l IH]; intros H; [congruence|]. destruct l as [|y l]; cbn [pymax]; eauto.
  destruct IH as [m Hm]; [discriminate|]. cbn [pymax] in Hm. rewrite Hm. cbn. eauto.
Qed.

(** The vertical axis of a launch-mass plot, for non-negative masses: it ends 100 kg above the largest; every point
    with a mass other than the smallest lies on it; the points with the smallest mass are cut off exactly
    when the next larger mass is more than 100 kg above it. *)
Theorem C111_points_shown : forall masses lo hi, (forall z, In z masses -> 0 <= z) ->
  mass_ylim masses = Ok (lo, hi) ->
  exists x y, In x masses /\ In y masses /\ x < y /\ (forall z, In z masses -> z = x \/ y <= z) /\
    lo = y - 100 /\
    (exists t, In t masses /\ (forall z, In z masses -> z <= t) /\ hi = t + 100) /\
    (forall z, In z masses -> z <> x -> lo < z) /\
    (x < lo <-> x + 100 < y).
Proof.
  intros masses lo hi Hp H. unfold mass_ylim in H.
  destruct (axis_floor masses) as [f|] eqn:Ef; cbn [rbind] in H; [|discriminate].
  destruct (pymax masses) as [t|] eqn:Et; cbn [rbind] in H; [|discriminate].
  injection H as <- <-.
  destruct (C11_axis_floor masses) as (_ & A & _).
  destruct (A f Ef) as (x & y & Ix & Iy & Lt & Hf & Hb).
  destruct (pymax_spec _ _ Et) as [It Ht].
  assert (f = y) as -> by (rewrite Hf; apply Rmax_right; auto).
  assert (Hz : forall z, In z masses -> z = x \/ y <= z).
  { intros z Iz. destruct (Hb z Iz). destruct (Req_dec z x); auto. right.
    destruct (Rle_lt_dec y z); auto. exfalso. apply H0. split; lra. }
  exists x, y. repeat split; auto; try lra.
  - exists t. auto.
  - intros z Iz Nz. destruct (Hz z Iz); [contradiction|lra].
Qed.

(** A plot that uses launch masses can be drawn exactly when the launcher's table can be read at every
    launch of the dataset and at least two different masses come out. *)
Theorem C111_drawn_when : forall d l q,
  In q [MassVsDate d l; AvinfVsDateMass d l; MassVsTOF d l; MassVsTOFAvinf d l] ->
  ((exists f, draw q = Ok f) <->
   (exists m, compute_launch_capability (la_XY l) (ds_C3 d) = Ok m /\ exists a b, In a m /\ In b m /\ a <> b)).
Proof.
  intros d l q Hq.
  destruct (compute_launch_capability (la_XY l) (ds_C3 d)) as [m|e] eqn:Em.
  - assert (X : (exists f, draw q = Ok f) <-> (exists lim, mass_ylim m = Ok lim)).
    { destruct Hq as [<-|[<-|[<-|[<-|[]]]]]; cbn [draw]; rewrite Em; cbn [rbind]; unfold mass_ylim;
        (destruct (axis_floor m) as [f|]; cbn [rbind]; [|split; intros [? ?]; discriminate];
         destruct (pymax m) as [t|]; cbn [rbind]; [|split; intros [? ?]; discriminate]; split; eauto). }
    rewrite X. clear X. unfold mass_ylim.
    destruct (C11_axis_floor m) as (A & B & _). destruct (axis_floor m) as [f|e] eqn:E; cbn [rbind].
    + destruct (B f eq_refl) as (x & y & Ix & Iy & Lt & _).
      destruct (pymax_total m) as [t Ht]; [intros ->; contradiction|]. rewrite Ht. cbn [rbind]. split; intros; eauto.
      exists m. split; auto. exists x, y. repeat split; auto. lra.
    + split; [intros [f H]; discriminate|]. intros (m' & Hm & a & b & Ia & Ib & Ne). injection Hm as <-.
      exfalso. apply Ne. assert (e = IndexError).
      { unfold axis_floor in E. destruct (sorted_set m) as [|? [|? ?]]; congruence. }
      subst. apply A; auto.
  - split; [|intros (m & H & _); discriminate].
    destruct Hq as [<-|[<-|[<-|[<-|[]]]]]; cbn [draw]; rewrite Em; cbn [rbind]; intros [f H]; discriminate.
Qed.

Lemma smin_smax : forall l, l <> [] -> In (smin l) l /\ In (smax l) l /\ forall z, In z l -> smin l <= z <= smax l.
Proof.
  induction l as [|x l IH]; [congruence|]. intros _. destruct l as [|y l]; [cbn; split; [auto|]; split; [auto|]; intros z [->|[]]; lra|].
  destruct IH as (A & B & C); [discriminate|]. change (smin (x :: y :: l)) with (Rmin x (smin (y :: l))). change (smax (x :: y :: l)) with (Rmax x (smax (y :: l))).
  set (a := smin (y :: l)) in *. set (b := smax (y :: l)) in *. split; [unfold Rmin; destruct (Rle_dec x a); [left|right]; auto|].
  split; [unfold Rmax; destruct (Rle_dec x b); [right|left]; auto|]. intros z [->|Hz].
  - split; [apply Rmin_l|apply Rmax_l].
  - destruct (C z Hz). split; [eapply Rle_trans; [apply Rmin_r|auto]|eapply Rle_trans; [eassumption|apply Rmax_r]].
Qed.
(** What a drawn plot contains; for the launch-mass plots one point per launch of the dataset, at that launch's date (or
    time of flight) and at the mass the launcher can send to its C3. *)
Theorem C111_what_is_drawn : forall d l,
  (forall f, draw (MassVsDate d l) = Ok f ->
     fg_title f = ds_ID d ++ " : " ++ la_ID l /\ fg_x f = ds_Lcdate d /\
     Forall2 (fun c m => launchMass (la_XY l) c = Ok m) (ds_C3 d) (fg_y f) /\
     exists lim, fg_ylim f = Some lim /\ mass_ylim (fg_y f) = Ok lim) /\
  (forall f, draw (MassVsTOFAvinf d l) = Ok f ->
     fg_title f = ds_ID d ++ " : " ++ la_ID l /\ fg_x f = ds_TOF d /\
     Forall2 (fun c m => launchMass (la_XY l) c = Ok m) (ds_C3 d) (fg_y f) /\
     (exists lim, fg_ylim f = Some lim /\ mass_ylim (fg_y f) = Ok lim) /\
     exists a b, fg_colour f = Some (ds_Avinf d, a, b) /\
       (ds_Avinf d <> [] -> In a (ds_Avinf d) /\ In b (ds_Avinf d) /\ forall z, In z (ds_Avinf d) -> a <= z <= b)) /\
  (forall f, draw (AvinfVsDateMass d l) = Ok f ->
     fg_title f = ds_ID d /\ fg_x f = ds_Lcdate d /\ fg_y f = ds_Avinf d /\
     exists m lo hi, fg_colour f = Some (m, lo, hi) /\
       Forall2 (fun c m => launchMass (la_XY l) c = Ok m) (ds_C3 d) m /\
       In hi m /\ (forall z, In z m -> z <= hi) /\
       ((forall z, In z m -> 0 <= z) -> In lo m /\ exists x, In x m /\ x < lo /\ forall z, In z m -> z = x \/ lo <= z)) /\
  draw (TOFVsDate d) = Ok (mkFig (ds_ID d) (ds_Lcdate d) (ds_TOF d) None None) /\
  draw (AvinfVsDate d) = Ok (mkFig (ds_ID d) (ds_Lcdate d) (ds_Avinf d) None None) /\
  (forall f, draw (MassVsTOF d l) = Ok f ->
     fg_title f = (ds_ID d ++ " : " ++ la_ID l)%string /\ fg_x f = ds_TOF d /\ fg_colour f = None /\
     Forall2 (fun c m => launchMass (la_XY l) c = Ok m) (ds_C3 d) (fg_y f) /\
     exists lim, fg_ylim f = Some lim /\ mass_ylim (fg_y f) = Ok lim).
Proof.
  assert (M : forall XY cs ms, compute_launch_capability XY cs = Ok ms ->
              Forall2 (fun c m => launchMass XY c = Ok m) cs ms).
  { unfold compute_launch_capability. induction cs as [|c cs IH]; cbn [mapr]; intros ms H.
    - injection H as <-. constructor.
    - destruct (launchMass XY c) eqn:E; cbn [rbind] in H; [|discriminate].
      destruct (mapr (launchMass XY) cs) eqn:E'; cbn [rbind] in H; [|discriminate].
      injection H as <-. constructor; auto. }
  intros d l. split; [|split; [|split; [|split; [reflexivity|split; [reflexivity|]]]]]; intros f H; cbn [draw] in H;
    destruct (compute_launch_capability (la_XY l) (ds_C3 d)) as [m|] eqn:Em; cbn [rbind] in H; try discriminate.
  - destruct (mass_ylim m) eqn:E; cbn [rbind] in H; [|discriminate]. injection H as <-. cbn. repeat split; eauto.
  - destruct (mass_ylim m) eqn:E; cbn [rbind] in H; [|discriminate]. injection H as <-. cbn [fg_title fg_x fg_y fg_ylim fg_colour].
    split; [reflexivity|]. split; [reflexivity|]. split; [auto|]. split; [eauto|]. do 2 eexists. split; [reflexivity|]. apply smin_smax.
  - destruct (axis_floor m) as [fl|] eqn:E; cbn [rbind] in H; [|discriminate].
    destruct (pymax m) as [t|] eqn:Et; cbn [rbind] in H; [|discriminate]. injection H as <-. cbn. repeat split; auto.
    exists m, fl, t. destruct (pymax_spec _ _ Et) as [It Bt]. repeat split; auto.
    + destruct (C11_axis_floor m) as (_ & B & _). destruct (B fl E) as (x & y & Ix & Iy & Lt & Hf & Hb).
      rewrite Hf, Rmax_right; auto.
    + destruct (C11_axis_floor m) as (_ & B & _). destruct (B fl E) as (x & y & Ix & Iy & Lt & Hf & Hb).
      assert (fl = y) as -> by (rewrite Hf; apply Rmax_right; auto).
      exists x. repeat split; auto. intros z Iz. destruct (Hb z Iz). destruct (Req_dec z x); auto. right.
      destruct (Rle_lt_dec y z); auto. exfalso. apply H1. split; lra.
  - destruct (mass_ylim m) eqn:E; cbn [rbind] in H; [|discriminate]. injection H as <-. cbn. repeat split; eauto.
Qed.

(** Two launchers compared on one dataset: all plots can be drawn, the comparison keeps only the second,
    and the launch the launcher cannot make (mass 0) is cut off. *)
Definition ds0 := mkDs "neptune" [1; 2; 3] [0; 40; 90] [11; 12; 13] [9; 10; 11].
Definition la1 := mkLa "atlas" [(0, 6000); (40, 2000)].
Definition la2 := mkLa "falcon" [(0, 9000); (40, 1000)].
Example C111_witness :
  compute_launch_capability (la_XY la1) (ds_C3 ds0) = Ok [6000; 2000; 0] /\
  compute_launch_capability (la_XY la2) (ds_C3 ds0) = Ok [9000; 1000; 0] /\
  (forall q, In q [MassVsDate ds0 la1; AvinfVsDateMass ds0 la1; MassVsTOF ds0 la1; MassVsTOFAvinf ds0 la1] ->
     exists f, draw q = Ok f) /\
  (forall k x, exists f f', draw (MassVsTOFAvinf ds0 la1) = Ok f /\ draw (MassVsTOFAvinf ds0 la2) = Ok f' /\ f <> f' /\
     run k [MassVsTOFAvinf ds0 la1; MassVsTOFAvinf ds0 la2] (file_of (MassVsTOFAvinf ds0 la1) x) = Some f') /\
  (exists lo hi, mass_ylim [6000; 2000; 0] = Ok (lo, hi) /\ 0 < lo) /\
  no_underscore (ds_ID ds0).
Proof.
  assert (T : forall a b, a <> 0 -> compute_launch_capability [(0, a); (40, b)] (ds_C3 ds0) = Ok [a; b; 0]).
  { intros a b Ha. unfold compute_launch_capability, ds_C3, ds0. cbn [mapr].
    assert (N : NoDup (map fst [(0, a); (40, b)])) by (repeat constructor; simpl; intuition lra).
    destruct (C10_launch_mass [(0, a); (40, b)] N) as (P & Q & _); [discriminate|].
    rewrite (P 0 a), (P 40 b), (Q 90); cbn; auto.
    right. intros p [<-|[<-|[]]]; simpl; lra. }
  assert (T1 := T 6000 2000 ltac:(lra)). assert (T2 := T 9000 1000 ltac:(lra)).
  change (compute_launch_capability (la_XY la1) (ds_C3 ds0) = Ok [6000; 2000; 0]) in T1.
  change (compute_launch_capability (la_XY la2) (ds_C3 ds0) = Ok [9000; 1000; 0]) in T2.
  assert (D1 : forall q, In q [MassVsDate ds0 la1; AvinfVsDateMass ds0 la1; MassVsTOF ds0 la1; MassVsTOFAvinf ds0 la1] ->
     exists f, draw q = Ok f).
  { intros q Hq. apply (C111_drawn_when ds0 la1 q Hq). eexists; split; [exact T1|].
    exists 6000, 2000. cbn. repeat split; auto. lra. }
  assert (D2 : exists f, draw (MassVsTOFAvinf ds0 la2) = Ok f).
  { apply (C111_drawn_when ds0 la2); [cbn; auto|]. eexists; split; [exact T2|].
    exists 9000, 1000. cbn. repeat split; auto. lra. }
  repeat split; auto.
  - intros k x. destruct (D1 (MassVsTOFAvinf ds0 la1)) as [f Hf]; [cbn; auto|]. destruct D2 as [f' Hf'].
    exists f, f'. repeat split; auto.
    + intros ->. destruct (C111_what_is_drawn ds0 la1) as (_ & W & _). destruct (W f' Hf) as (W1 & _).
      destruct (C111_what_is_drawn ds0 la2) as (_ & W' & _). destruct (W' f' Hf') as (W2 & _).
      rewrite W1 in W2. discriminate.
    + apply (proj2 (C111_colorbar_plots_overwrite k ds0 la1 la2 x f f')); auto.
  - destruct (D1 (MassVsDate ds0 la1)) as [f Hf]; [cbn; auto|].
    cbn [draw] in Hf. rewrite T1 in Hf. cbn [rbind] in Hf.
    destruct (mass_ylim [6000; 2000; 0]) as [[lo hi]|] eqn:E; [|discriminate].
    exists lo, hi. split; auto.
    destruct (C111_points_shown [6000; 2000; 0] lo hi) as (x & y & Ix & Iy & Lt & Hz & -> & _); auto.
    { intros z [<-|[<-|[<-|[]]]]; lra. }
    destruct Iy as [<-|[<-|[<-|[]]]]; try lra. destruct Ix as [<-|[<-|[<-|[]]]]; lra.
  - intros n. do 8 (destruct n as [|n]; [cbn; discriminate|]). discriminate.
Qed.
