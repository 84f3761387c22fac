(** C89: what a Monte Carlo run records about its flight. *)
From Coq Require Import String List Arith.
Require Import Verif.Base Verif.Numpy Verif.PlanetModel Verif.AeroModel Verif.HeatModel Verif.TrajectoryModel
  Verif.OrbitScalarModel Verif.OrbiterModel Verif.OrbitModel Verif.CorridorModel Verif.GuidanceModel Verif.DragModel Verif.MonteModel Verif.MonteSpec
  Verif.TrajectoryProofs Verif.PropHeat Verif.RecordSpec Verif.PropGuidanceEx Verif.PropMonteEx.

Lemma ocumtrapz_load : forall q t i h, ocumtrapz q t i = Ok h -> forall k, (k < length q)%nat -> nth k h None = load_upto q t k.
Proof.
  intros q t i h H. destruct (ocumtrapz_spec _ _ _ _ H) as (S0 & S1). induction k as [|k IH]; intros Hk; cbn [load_upto]; [exact S0|].
  rewrite S1 by lia. rewrite <- IH by lia. unfold obind. destruct (nth k h None), (nth k q None), (nth (S k) q None); reflexivity.
Qed.

(** The recorded numbers are those of the flight the run flew: the guided flight of the vehicle in the drawn
    atmosphere, from the state captured at setup with the drawn entry flight-path angle. *)
Theorem C89_records : forall m W S rnd V tol i d q, flown_alone m W S rnd V tol i = Some (Ok (d, q)) ->
  exists f s2 rep, load_density (match m with MCD_Earth => true | _ => false end) S (w_load W) d = Ok f /\
    (let c := mc_copy S in
     let o := mkObj (with_density V f) (mkInit (h0_km c) (theta0_deg c) (phi0_deg c) (v0_kms c) (psi0_deg c) (d_efpa d) (drange0_km c) (heatLoad0 c)) tol None None in
     let lift two := propogateGuidedEntry two (w_E W) (w_X W) (w_P W) (mc_stepEntry S) (mc_dt S) (mc_maxTime S) (w_fuel W) o [] in
     let drag two := propogateGuidedEntryD two (w_E W) (w_X W) (w_dm W) (w_P W) (mc_stepEntry S) (mc_stepExit S) (mc_dt S) (mc_maxTime S) (w_fuel W) o [] in
     exists o' s1, match m with MC => lift false | MC2 => lift true | MCD | MCD_Earth => drag false | MCD2 => drag true end = Some (o', Ok (s1, s2, rep))) /\
    q_rep q = rep /\ let H := s_hist s2 in recorded_max (y_net H) (q_acc q) /\ recorded_max (y_qtot H) (q_q q) /\
    match m with
    | MC2 | MCD2 => exists loads x, recorded_max loads x /\ length loads = length (y_qtot H) /\
        (forall k, (k < length loads)%nat -> nth k loads None = load_upto (y_qtot H) (map (fun t => t * 60) (p_t (y_plot H))) k) /\
        q_heat q = match x with Some x => Some (x / 1000) | None => None end
    | _ => recorded_max (y_heat H) (q_heat q)
    end.
Proof.
  intros m W S rnd V tol i d q H. unfold flown_alone, mc_run in H. destruct (draws m S rnd i) as [d0|]; [|discriminate]. cbn [v_obj v_href] in H.
  destruct (load_density _ _ _ _) as [f|] eqn:EL; [|discriminate]. cbn [ob_veh ob_tol ob_flight ob_heat] in H.
  destruct (if is_drag m then _ else _) as [[o2 [[[s1 s2] rep]|e2]]|] eqn:EP; cbn [snd] in H; try discriminate.
  unfold mc_read in H. destruct (pymax (y_net _)) as [a|] eqn:Ea; [|discriminate H]. destruct (pymax (y_qtot _)) as [b|] eqn:Eb; [|discriminate H]. cbn [rbind] in H.
  destruct (if is_two m then _ else _) as [h|] eqn:Eh; [|discriminate H]. cbn [rbind] in H. injection H as <- <-.
  exists f, s2, rep. split; [exact EL|]. split; [cbv zeta; exists o2, s1; destruct m; exact EP|]. cbn [q_rep q_acc q_q q_heat]. split; [reflexivity|]. cbv zeta.
  split; [apply pymax_recorded; exact Ea|]. split; [apply pymax_recorded; exact Eb|].
  assert (Two : is_two m = true -> exists loads x, recorded_max loads x /\ length loads = length (y_qtot (s_hist s2)) /\
        (forall k, (k < length loads)%nat -> nth k loads None = load_upto (y_qtot (s_hist s2)) (map (fun t => t * 60) (p_t (y_plot (s_hist s2)))) k) /\
        h = match x with Some x => Some (x / 1000) | None => None end).
  { intros E. rewrite E in Eh. destruct (ocumtrapz _ _ _) as [l|] eqn:El; [|discriminate Eh]. cbn [rbind] in Eh. destruct (pymax l) as [x|] eqn:Ex; [|discriminate Eh]. cbn [rbind] in Eh. injection Eh as <-.
    destruct (ocumtrapz_inv _ _ _ _ El) as (_ & _ & _ & Ll). exists l, x. split; [apply pymax_recorded; exact Ex|]. split; [exact Ll|]. split; [intros k Hk; apply (ocumtrapz_load _ _ _ _ El); lia|].
    destruct x as [x|]; cbn [obind]; [|reflexivity]. f_equal. lra. }
  destruct m; first [apply Two; reflexivity | cbn [is_two] in Eh; apply pymax_recorded; exact Eh].
Qed.

(** With a finite, non-negative heating history the load recorded by version 2 is the integral over the whole flight. *)
Lemma load_grows : forall q t n, length t = length q -> (n < length q)%nat -> (forall j, (S j < length q)%nat -> nth j t 0 <= nth (S j) t 0) ->
  (forall j, (j < length q)%nat -> exists x, nth j q None = Some x /\ 0 <= x) -> exists a, load_upto q t n = Some a /\ 0 <= a /\ forall k b, (k <= n)%nat -> load_upto q t k = Some b -> b <= a.
Proof.
  intros q t n L Hn Ht Hq. revert Hn. induction n as [|n IH]; intros Hn.
  - exists 0. split; [reflexivity|]. split; [lra|]. intros k b Hk Hb. replace k with 0%nat in Hb by lia. injection Hb as <-. lra.
  - destruct (IH ltac:(lia)) as (a & Ea & Pa & M). destruct (Hq n ltac:(lia)) as (x & Ex & Px). destruct (Hq (S n) Hn) as (y & Ey & Py). specialize (Ht n Hn).
    exists (a + (nth (S n) t 0 - nth n t 0) * (x + y) / 2). cbn [load_upto]. rewrite Ea, Ex, Ey. split; [reflexivity|].
    assert (0 <= (nth (S n) t 0 - nth n t 0) * (x + y) / 2) by nra. split; [lra|]. intros k b Hk Hb.
    destruct (Nat.eq_dec k (S n)) as [->|N]; [cbn [load_upto] in Hb; rewrite Ea, Ex, Ey in Hb; injection Hb as <-; lra|]. specialize (M k b ltac:(lia) Hb). lra.
Qed.
Theorem C89_total_load : forall q t loads x, length t = length q -> length loads = length q -> (forall k, (k < length loads)%nat -> nth k loads None = load_upto q t k) -> recorded_max loads x ->
  (forall j, (S j < length q)%nat -> nth j t 0 <= nth (S j) t 0) -> (forall j, (j < length q)%nat -> exists y, nth j q None = Some y /\ 0 <= y) ->
  x = load_upto q t (length q - 1) /\ x <> None.
Proof.
  intros q t loads x Lt Ll Hl Hm Ht Hq. destruct loads as [|l0 loads]; [contradiction|]. cbn [length] in Ll.
  pose proof (Hl 0%nat ltac:(cbn [length]; lia)) as H0. cbn [nth load_upto] in H0. subst l0. destruct Hm as (z & -> & Hz & Mz).
  destruct (load_grows q t (length q - 1) Lt ltac:(lia) Ht Hq) as (a & Ea & Pa & M). rewrite Ea. split; [|discriminate]. f_equal.
  apply In_nth with (d := None) in Hz. destruct Hz as (k & Hk & Ez). rewrite (Hl k Hk) in Ez. apply Rle_antisym.
  - apply (M k z); [cbn [length] in Hk; lia|exact Ez].
  - apply Mz. rewrite <- Ea, <- Hl by (cbn [length]; lia). apply nth_In. cbn [length]. lia.
Qed.
(** A heating history with NaN after the start: the part up to it is recorded as if it were everything. *)
Theorem C89_nan_hidden : forall q t loads x n, length loads = length q -> (forall k, (k < length loads)%nat -> nth k loads None = load_upto q t k) -> recorded_max loads x ->
  (1 <= n < length q)%nat -> nth n q None = None ->
  exists z, x = Some z /\ exists k, (k < n)%nat /\ load_upto q t k = Some z.
Proof.
  intros q t loads x n Ll Hl Hm Hn Nan. destruct loads as [|l0 loads]; [contradiction|].
  pose proof (Hl 0%nat ltac:(cbn [length]; lia)) as H0. cbn [nth load_upto] in H0. subst l0. destruct Hm as (z & -> & Hz & Mz). exists z. split; [reflexivity|].
  apply In_nth with (d := None) in Hz. destruct Hz as (k & Hk & Ez). rewrite (Hl k Hk) in Ez. exists k. split; [|exact Ez].
  destruct (Nat.lt_ge_cases k n) as [|G]; [assumption|]. exfalso.
  assert (N : forall j, (n <= j)%nat -> load_upto q t j = None).
  { intros j. induction j as [|j IH]; intros Hj; [lia|]. cbn [load_upto]. destruct (Nat.eq_dec n (S j)) as [<-|N].
    - rewrite Nan. destruct (load_upto q t j), (nth j q None); reflexivity.
    - rewrite IH by lia. reflexivity. }
  rewrite N in Ez by lia. discriminate.
Qed.

Example C89_witness : (exists d q, flown_alone MC some_world (some_setup (0.3, 0.1)) (some_random 0) glider 1 4 = Some (Ok (d, q))) /\
  (let q := [Some 1; Some 3; None; Some 2] in let t := [0; 2; 4; 6] in let loads := [Some 0; Some 4; None; None] in
   recorded_max loads (Some 4) /\ (forall k, (k < length loads)%nat -> nth k loads None = load_upto q t k)) /\
  (let q := [Some 1; Some 3; Some 1] in let t := [0; 2; 4] in load_upto q t 2 = Some 8 /\ recorded_max [Some 0; Some 4; Some 8] (Some 8)).
Proof.
  split. { destruct (some_runs (0.3, 0.1) 0 4 ltac:(cbn; lra)) as ((d & q) & H). eauto. }
  split; cbv zeta.
  - split.
    + exists 4. split; [reflexivity|]. split; [cbn [In]; auto|]. intros y Hy. cbn [In] in Hy. repeat (destruct Hy as [Hy|Hy]; [try discriminate; injection Hy as <-; lra|]). contradiction.
    + intros k Hk. cbn [length] in Hk. destruct k as [|[|[|[|k]]]]; [| | | |lia]; cbn [load_upto nth]; try reflexivity. f_equal. lra.
  - split; [cbn [load_upto nth]; f_equal; lra|]. exists 8. split; [reflexivity|]. split; [cbn [In]; auto|]. intros y Hy. cbn [In] in Hy. repeat (destruct Hy as [Hy|Hy]; [injection Hy as <-; lra|]). contradiction.
Qed.
