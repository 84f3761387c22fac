(** C99: which inputs are rejected, with which exception, and what is left behind. *)
Require Import Verif.Base Verif.Numpy Verif.NumpyProofs Verif.PlanetModel Verif.PlanetProofs Verif.AeroModel Verif.HeatModel Verif.TrajectoryModel
  Verif.OrbitScalarModel Verif.OrbiterModel Verif.CorridorModel Verif.GuidanceModel Verif.DragModel Verif.MonteModel Verif.PropPlanet.
From Coq Require Import String.
From Coq Require Import List.

(** * Output step and duration *)
Theorem C99_zero_step : forall E o t_sec delta_deg,
  propogateEntry E o t_sec 0 delta_deg = (o, Err ValueError) /\ propogateEntry2 E o t_sec 0 delta_deg = (o, Err ValueError).
Proof.
  intros E o t_sec d. unfold propogateEntry, propogateEntry2, fly, solveTrajectory, solveTrajectory2, arange.
  assert (Z : forall x, Reqb (0 / x) 0 = true) by (intros x; destruct (Reqb_spec (0 / x) 0); auto; exfalso; unfold Rdiv in *; lra).
  rewrite Z. cbn [rbind store]. auto.
Qed.
(** The grid of output times is empty exactly when the duration is not positive by a step or more (or, for a
    negative step, not negative by one). *)
Lemma grid_empty : forall name p t_sec dt, Planet name = Ok p -> dt <> 0 ->
  exists ts, arange ((t_sec + dt) / tau p) (dt / tau p) = Ok ts /\ (ts = [] <-> (t_sec + dt) * dt <= 0).
Proof.
  intros name p t dt Hp Hd. pose proof (tau_pos _ _ Hp) as T. unfold arange.
  assert (N : dt / tau p <> 0). { intros X. apply Hd. replace dt with (dt / tau p * tau p) by (field; lra). rewrite X. ring. }
  destruct (Reqb_spec (dt / tau p) 0); [contradiction|]. eexists. split; [reflexivity|].
  replace ((t + dt) / tau p / (dt / tau p)) with ((t + dt) / dt) by (field; lra). set (x := (t + dt) / dt).
  assert (S : (t + dt) * dt <= 0 <-> x <= 0).
  { assert (D : 0 < dt * dt) by nra. replace ((t + dt) * dt) with (x * (dt * dt)) by (unfold x; field; auto). split; intros; nra. }
  rewrite S. unfold ceil_nat. destruct (base_Int_part (- x)) as (B1 & B2). set (z := Int_part (- x)) in *. split.
  - intros H. apply map_eq_nil in H. destruct (Z.to_nat (- z)) eqn:E; [|discriminate]. assert (Z : (0 <= z)%Z) by lia. apply IZR_le in Z. lra.
  - intros H. assert (Z : (-1 < z)%Z) by (apply lt_IZR; lra). replace (Z.to_nat (- z)) with 0%nat by lia. reflexivity.
Qed.
Theorem C99_no_duration : forall name E o t_sec dt delta_deg, Planet name = Ok (vh_planet (ob_veh o)) -> dt <> 0 -> (t_sec + dt) * dt <= 0 ->
  propogateEntry2 E o t_sec dt delta_deg = (o, Err IndexError).
Proof.
  intros name E o t dt d Hp Hd H. destruct (grid_empty name _ t dt Hp Hd) as (ts & A & B). unfold propogateEntry2, fly, solveTrajectory2. rewrite A. cbn [rbind].
  rewrite (proj2 B H). reflexivity.
Qed.
(** Version 1 hands the empty grid to the integrator; a flight without samples raises all the same. *)
Theorem C99_no_duration_1 : forall name E o t_sec dt delta_deg, Planet name = Ok (vh_planet (ob_veh o)) -> dt <> 0 -> (t_sec + dt) * dt <= 0 ->
  (forall f x tol, odeint E f x [] tol = Ok []) -> propogateEntry E o t_sec dt delta_deg = (o, Err ValueError).
Proof.
  intros name E o t dt d Hp Hd H Ho. destruct (grid_empty name _ t dt Hp Hd) as (ts & A & B). unfold propogateEntry, fly, solveTrajectory. rewrite A. cbn [rbind].
  rewrite (proj2 B H), Ho. reflexivity.
Qed.

(** * The measured density function *)
(** The first entries of the two histories are placeholders.  n is the number of whole kilometres below the skip
    altitude. *)
Theorem C99_measured : forall name p own nd h_step dens low k n e, Planet name = Ok p -> INR n * 1000 <= h_skip p < (INR n + 1) * 1000 ->
  (createDensityMeasuredFunction p own nd h_step dens low k = Err e <->
   e = ValueError /\ ((List.length h_step <= 1)%nat \/ List.length (tl h_step) <> List.length (tl dens) \/
     forall h, In h (tl h_step) -> INR n <= h)).
Proof.
  intros name p own nd hs dens low k n e Hp Hn. unfold createDensityMeasuredFunction. destruct hs as [|h0 [|h1 h]]; cbn [tl].
  - split; [intros H; injection H as <-; split; auto; left; cbn; lia|intros (-> & _); reflexivity].
  - split; [intros H; injection H as <-; split; auto; left; cbn; lia|intros (-> & _); reflexivity].
  - set (l := h1 :: h). assert (Ne : l <> []) by discriminate.
    destruct (Nat.eqb_spec (List.length l) (List.length (tl dens))) as [E|E]; cbn [negb]; [|split; [intros H; injection H as <-; auto|intros (-> & _); reflexivity]].
    destruct (C09_scale_height_value _ _ own (list_min l * 1e3) (fun _ => 0) n Hp Hn) as (S & _).
    assert (M : INR n * 1000 <= list_min l * 1e3 <-> forall x, In x l -> INR n <= x).
    { split.
      - intros H x Hx. pose proof (list_min_le l x Hx). lra.
      - intros H. pose proof (H _ (list_min_in l Ne)). lra. }
    destruct (scaleHeight p own (list_min l * 1e3) (fun _ => 0)) as [q|e'] eqn:Q; cbn [rbind].
    + split; [|intros (_ & [X|[X|X]]); [cbn in X; lia|contradiction|]].
      * intros H. exfalso. destruct (all_some (tl dens)); [|discriminate]. destruct q; [|discriminate]. destruct (Reqb r 0); [discriminate|]. destruct (measured_tables l l0 low k r). discriminate.
      * apply M in X. exfalso. pose proof (proj2 (S ValueError) (conj eq_refl X)). congruence.
    + destruct (proj1 (S e') eq_refl) as (-> & X). pose proof (proj1 M X). split; [intros H1; injection H1 as <-; auto|intros (-> & _); reflexivity].
Qed.

(** * Monte Carlo density files *)
Lemma collect_spec : forall {A B} (f : A -> res B) l,
  (forall bs, collect f l = Ok bs <-> Forall2 (fun a b => f a = Ok b) l bs) /\
  (forall e, collect f l = Err e -> exists a, In a l /\ f a = Err e).
Proof.
  intros A B f l. induction l as [|a l (IH1 & IH2)]; split; cbn [collect].
  - intros bs. split; [intros H; injection H as <-; constructor|intros H; inversion H; reflexivity].
  - discriminate.
  - intros bs. destruct (f a) as [b|e] eqn:E; cbn [rbind].
    + destruct (collect f l) as [r|e] eqn:Er; cbn [rbind].
      * split; [intros H; injection H as <-; constructor; auto; apply IH1; auto|]. intros H. inversion H; subst. rewrite E in H2. injection H2 as <-. apply IH1 in H4. injection H4 as <-. reflexivity.
      * split; [discriminate|]. intros H. inversion H; subst. apply IH1 in H4. discriminate.
    + split; [discriminate|]. intros H. inversion H; subst. congruence.
  - intros e. destruct (f a) as [b|e'] eqn:E; cbn [rbind].
    + destruct (collect f l) as [r|e'] eqn:Er; cbn [rbind]; [discriminate|]. intros H. injection H as <-. destruct (IH2 _ eq_refl) as (x & X & Y). exists x. split; [right; auto|auto].
    + intros H. injection H as <-. exists a. split; [left; auto|auto].
Qed.
(** The columns a campaign reads. *)
Definition columns (earth : bool) (S : mc_setup) : list nat :=
  col_height S :: col_avg S :: col_total S :: (if earth then [col_sd S] else [col_low S; col_high S]).
Lemma entry_spec : forall row c, (entry row c = Err IndexError /\ (List.length row <= c)%nat) \/ (entry row c = Ok (nth c row 0) /\ (c < List.length row)%nat).
Proof.
  intros row c. unfold entry. destruct (nth_error row c) eqn:E.
  - right. split; [f_equal; symmetry; apply nth_error_nth; auto|]. apply nth_error_Some. congruence.
  - left. split; auto. apply nth_error_None. auto.
Qed.
Theorem C99_density_file : forall earth S load file rows, load file = Ok rows ->
  (load_rows earth S load file = Err IndexError <->
     (List.length rows <= 1)%nat \/ (forall row, In row rows -> (List.length row <= 1)%nat) \/
     exists row c, In row rows /\ In c (columns earth S) /\ (List.length row <= c)%nat) /\
  (forall e, load_rows earth S load file = Err e -> e = IndexError) /\
  (forall ms, load_rows earth S load file = Ok ms -> List.length ms = List.length rows /\
     forall i, (i < List.length rows)%nat ->
       let cell c := nth c (nth i rows []) 0 in let km := if mc_km S then 1000 else 1 in
       let m := nth i ms (mkRow 0 0 0 0 0) in
       mc_h m = km * cell (col_height S) /\ mc_avg m = cell (col_avg S) /\ mc_pert m = cell (col_total S) - cell (col_avg S) /\
       (if earth then mc_low m = cell (col_avg S) * (1 - cell (col_sd S) / 100) /\ mc_high m = cell (col_avg S) * (1 + cell (col_sd S) / 100)
        else mc_low m = cell (col_low S) /\ mc_high m = cell (col_high S))).
Proof.
  intros earth S load file rows HL. unfold load_rows. rewrite HL. cbn [rbind].
  destruct (Nat.leb_spec (List.length rows) 1) as [L|L]. { split; [split; auto|]. split; [intros e H; congruence|discriminate]. }
  destruct (forallb (fun r => Nat.leb (List.length r) 1) rows) eqn:F.
  { rewrite forallb_forall in F. split; [split; auto|split; [intros e H; congruence|discriminate]]. intros _. right; left. intros row Hr. apply Nat.leb_le, F, Hr. }
  set (f := fun row => _).
  assert (K : forall row, (f row = Err IndexError /\ exists c, In c (columns earth S) /\ (List.length row <= c)%nat) \/
    ((exists m, f row = Ok m /\ let cell c := nth c row 0 in let km := if mc_km S then 1000 else 1 in
       mc_h m = km * cell (col_height S) /\ mc_avg m = cell (col_avg S) /\ mc_pert m = cell (col_total S) - cell (col_avg S) /\
       (if earth then mc_low m = cell (col_avg S) * (1 - cell (col_sd S) / 100) /\ mc_high m = cell (col_avg S) * (1 + cell (col_sd S) / 100)
        else mc_low m = cell (col_low S) /\ mc_high m = cell (col_high S))) /\ forall c, In c (columns earth S) -> (c < List.length row)%nat)).
  { intros row. unfold f, columns.
    destruct (entry_spec row (col_height S)) as [(-> & B)|(-> & B1)]; cbn [rbind]; [left; split; auto; eexists; split; [left; reflexivity|auto]|].
    destruct (entry_spec row (col_avg S)) as [(-> & B)|(-> & B2)]; cbn [rbind]; [left; split; auto; eexists; split; [right; left; reflexivity|auto]|].
    destruct (entry_spec row (col_total S)) as [(-> & B)|(-> & B3)]; cbn [rbind]; [left; split; auto; eexists; split; [right; right; left; reflexivity|auto]|].
    destruct earth.
    - destruct (entry_spec row (col_sd S)) as [(-> & B)|(-> & B4)]; cbn [rbind]; [left; split; auto; eexists; split; [right; right; right; left; reflexivity|auto]|].
      right. split; [|intros c [<-|[<-|[<-|[<-|[]]]]]; auto]. eexists. split; [reflexivity|]. unfold mc_row_file3. cbn [mc_h mc_low mc_avg mc_high mc_pert]. destruct (mc_km S); repeat split; lra.
    - destruct (entry_spec row (col_low S)) as [(-> & B)|(-> & B4)]; cbn [rbind]; [left; split; auto; eexists; split; [right; right; right; left; reflexivity|auto]|].
      destruct (entry_spec row (col_high S)) as [(-> & B)|(-> & B5)]; cbn [rbind]; [left; split; auto; eexists; split; [right; right; right; right; left; reflexivity|auto]|].
      right. split; [|intros c [<-|[<-|[<-|[<-|[<-|[]]]]]]; auto]. eexists. split; [reflexivity|]. unfold mc_row_file2. cbn [mc_h mc_low mc_avg mc_high mc_pert]. destruct (mc_km S); repeat split; lra. }
  destruct (collect_spec f rows) as (C1 & C2). split; [|split].
  - split.
    + intros H. right; right. destruct (C2 _ H) as (row & I & E). destruct (K row) as [(_ & c & X & Y)|((m & Em & _) & _)]; [exists row, c; auto|congruence].
    + intros [X|[X|(row & c & I & Ic & X)]]; [lia| |].
      * exfalso. enough (T : forallb (fun r => Nat.leb (List.length r) 1) rows = true) by congruence. apply forallb_forall. intros r Hr. apply Nat.leb_le, X, Hr.
      * destruct (collect f rows) as [ms|e] eqn:E.
        { exfalso. assert (G : forall l bs, Forall2 (fun a b => f a = Ok b) l bs -> In row l -> exists b, f row = Ok b).
          { induction 1 as [|a b l bs Hab Hl IH]; intros Hi; [contradiction|]. destruct Hi as [->|Hi]; [exists b; auto|auto]. }
          destruct (G _ _ (proj1 (C1 ms) eq_refl) I) as (b & Hb). destruct (K row) as [(Z & _)|(_ & Z)]; [congruence|]. specialize (Z c Ic). lia. }
        { destruct (C2 _ eq_refl) as (r & _ & Er). destruct (K r) as [(Z & _)|((m & Em & _) & _)]; congruence. }
  - intros e H. destruct (C2 _ H) as (r & _ & Er). destruct (K r) as [(Z & _)|((m & Em & _) & _)]; congruence.
  - intros ms H. apply C1 in H. split; [clear - H; induction H; cbn [List.length]; congruence|].
    assert (G : forall i l bs, Forall2 (fun a b => f a = Ok b) l bs -> (i < List.length l)%nat -> f (nth i l []) = Ok (nth i bs (mkRow 0 0 0 0 0))).
    { induction i; intros l bs Hf Hi; destruct Hf; cbn in Hi; try lia; cbn [nth]; auto. apply IHi; auto. lia. }
    intros i Hi. specialize (G i _ _ H Hi). destruct (K (nth i rows [])) as [(Z & _)|((m & Em & Q) & _)]; [congruence|]. rewrite Em in G. injection G as <-. exact Q.
Qed.

(** A flight asked for with no duration, and an altitude history that never comes below the skip altitude of Venus. *)
Example C99_witness : Planet "VENUS" = Ok VENUS /\ (-1 + 1) * 1 <= 0 /\ INR 180 * 1000 <= h_skip VENUS < (INR 180 + 1) * 1000 /\
  (forall own nd, createDensityMeasuredFunction VENUS own nd [0; 181; 190] [Some 0; Some 1; Some 1] 60 101 = Err ValueError).
Proof.
  split; [reflexivity|]. split; [lra|]. assert (N : INR 180 * 1000 <= h_skip VENUS < (INR 180 + 1) * 1000) by (rewrite INR_IZR_INZ; unfold VENUS; cbn; lra). split; [exact N|].
  intros own nd. apply (C99_measured "VENUS" VENUS own nd _ _ _ _ 180 ValueError eq_refl N). split; auto. right; right. intros h [<-|[<-|[]]]; rewrite INR_IZR_INZ; cbn; lra.
Qed.
