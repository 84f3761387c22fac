(** C88: the heating laws are the published correlations, and more density or more speed never means less heating. *)
From Coq Require Import String List.
Require Import Verif.Base Verif.Numpy Verif.NumpyProofs Verif.TableSpec Verif.PlanetModel Verif.AeroModel Verif.HeatModel Verif.PropHeat Verif.CorrelationSpec.

Lemma pow_Rpower : forall v n, 0 < v -> v ^ n = Rpower v (INR n). Proof. intros. rewrite Rpower_pow; auto. Qed.
Lemma np_pow_pos : forall x y, 0 < x -> np_pow x y = Some (Rpower x y).
Proof. intros x y H. unfold np_pow. rcases; try lra. reflexivity. Qed.
Lemma rpower_half_inv : forall x, 0 < x -> / sqrt x = Rpower x (-0.5).
Proof. intros x H. replace (-0.5) with (- / 2) by lra. rewrite Rpower_Ropp, Rpower_sqrt by auto. reflexivity. Qed.
Lemma div1 : forall x, x / 1 = x. Proof. intros. lra. Qed.
Ltac dist_in H tac := cbn [In] in H; repeat (destruct H as [<-|H]; [tac|]); [..|contradiction].
Ltac corr := cbn [co_planet co_coeff co_refRN co_RN co_rho co_refv co_v co_from co_upto sutton value applies].

Theorem C88_convective : forall c RN rho v, In c convective -> 0 < RN -> 0 < rho -> 0 < v ->
  exists f, con_law (co_planet c) = Some f /\ f RN rho v = Some (value c RN rho v).
Proof.
  intros c RN rho v HI HR Hr Hv.
  assert (SG : forall k, con_sutton_graves k RN rho v = Some (k * Rpower (RN / 1) (-0.5) * Rpower rho 0.5 * Rpower (v / 1) 3)).
  { intros k. unfold con_sutton_graves. assert (0 < rho / RN) by (apply Rdiv_lt_0_compat; auto). rewrite np_div_some by lra. cbn [obind]. rewrite np_sqrt_some by lra. cbn [obind]. f_equal.
    rewrite !div1. replace (Rpower v 3) with (v ^ 3) by (rewrite pow_Rpower by auto; f_equal; cbn; lra). rewrite <- rpower_half_inv by auto. replace 0.5 with (/ 2) by lra. rewrite Rpower_sqrt by auto.
    rewrite sqrt_div by lra. unfold Rdiv. ring. }
  assert (IG : con_ice_giant RN rho v = Some (2.24008e-7 * Rpower (RN / 0.291) (-0.5) * Rpower rho 0.45213 * Rpower (v / 1) 2.6918)).
  { unfold con_ice_giant. rewrite !np_pow_pos by auto. cbn [obind]. assert (0 < 0.291 / RN) by (apply Rdiv_lt_0_compat; lra). rewrite np_div_some by lra. cbn [obind]. rewrite np_sqrt_some by lra. cbn [obind]. f_equal.
    rewrite !div1. assert (0 < RN / 0.291) by (apply Rdiv_lt_0_compat; lra). rewrite <- rpower_half_inv by auto. rewrite <- sqrt_inv. replace (/ (RN / 0.291)) with (0.291 / RN) by (rewrite Rinv_div; reflexivity).
    replace 0.452130 with 0.45213 by lra. replace 2.691800 with 2.6918 by lra. ring. }
  dist_in HI idtac; eexists; (split; [reflexivity|]); unfold value; corr; first [rewrite SG; f_equal; lra | exact IG].
Qed.
Theorem C88_radiative : forall c RN rho v, In c radiative -> applies c v -> 0 < RN -> 0 < rho -> 0 < v ->
  exists f, rad_law (co_planet c) = Some f /\ f RN rho v = Some (value c RN rho v).
Proof.
  intros c RN rho v HI HA HR Hr Hv.
  assert (GG : rad_gas_giant RN rho v = Some (9.7632379e-41 * Rpower (RN / 0.5) (-0.17905) * Rpower rho 1.763827469 * Rpower (v / 1) 10.993852)).
  { unfold rad_gas_giant. rewrite !np_pow_pos by lra. cbn [obind]. f_equal. rewrite div1. replace (RN / 0.5) with (2 * RN) by lra. lra. }
  assert (IC : rad_ice_giant RN rho v = Some (8.125812e-3 * Rpower (RN / 0.291) 1 * Rpower rho 0.49814 * Rpower (v / 10000) 15.113)).
  { unfold rad_ice_giant. rewrite !np_pow_pos by lra. cbn [obind]. f_equal. rewrite Rpower_1 by (apply Rdiv_lt_0_compat; lra). replace 0.498140 with 0.49814 by lra. ring. }
  assert (V10 : Rpower v 10 = v ^ 10) by (rewrite pow_Rpower by auto; f_equal; cbn; lra).
  dist_in HI idtac; eexists; (split; [reflexivity|]); unfold value, applies in *; cbn [co_planet co_coeff co_refRN co_RN co_rho co_refv co_v co_from co_upto] in *;
    first [exact GG | exact IC | idtac]; unfold rad_venus; rewrite ?np_pow_pos by lra; rcases; try lra; cbn [obind]; rewrite !div1, ?V10; f_equal; ring.
Qed.
Theorem C88_earth : forall RN rho v, 0 < RN -> 0 < rho -> exists f y, rad_law "EARTH" = Some f /\
  f RN rho v = Some (47360 * Rpower RN 0.6 * Rpower rho 1.22 * y) /\
  (v < 9000 -> y = 0) /\ (9000 <= v <= 16000 -> Interpolates tauber_sutton v y) /\ (16000 < v -> y = 2040).
Proof.
  intros RN rho v HR Hr. destruct (earth_fV_cases v) as (y & Ey & _ & L & _ & U). exists rad_earth, y. split; [reflexivity|].
  split. { unfold rad_earth. rewrite !np_pow_pos by auto. cbn [obind]. rewrite Ey. f_equal. lra. }
  split; [exact L|]. split; [|exact U]. intros Hv.
  destruct (interp1d_inside earth_fV 0 2040 v) as (z & Ez & I).
  - cbn. repeat constructor; cbn; intros Hi; repeat (destruct Hi as [Hi|Hi]; [lra|]); contradiction.
  - exists (9000, 1.5), (16000, 2040). cbn. split; [left; auto|]. split; [do 7 right; left; auto|lra].
  - rewrite Ey in Ez. injection Ez as <-. exact I.
Qed.
(** No planet is left out. *)
Theorem C88_complete : forall id v, known id -> 0 < v -> (exists c, In c convective /\ co_planet c = id) /\
  (id = "EARTH" \/ id = "MARS" \/ id = "TITAN" \/ exists c, In c radiative /\ co_planet c = id /\ applies c v)%string.
Proof.
  intros id v Hid Hv. split.
  - assert (G : In id (map co_planet convective)) by (known_cases Hid; cbn; auto 10). apply in_map_iff in G. destruct G as (c & E & HI). eauto.
  - known_cases Hid; auto; do 3 right.
    + destruct (Rlt_le_dec v 8000); [|destruct (Rlt_le_dec v 10000)].
      * exists (mkCorr "VENUS" 3.33e-34 1 0.49 1.2 1 10 0 (Some 8000)). split; [left; reflexivity|]. split; [reflexivity|]. unfold applies. cbn [co_from co_upto]. lra.
      * exists (mkCorr "VENUS" 1.22e-16 1 0.49 1.2 1 5.5 8000 (Some 10000)). split; [right; left; reflexivity|]. split; [reflexivity|]. unfold applies. cbn [co_from co_upto]. lra.
      * exists (mkCorr "VENUS" 3.07e-48 1 0.49 1.2 1 13.4 10000 None). split; [do 2 right; left; reflexivity|]. split; [reflexivity|]. unfold applies. cbn [co_from co_upto]. lra.
    + eexists; split; [do 3 right; left; reflexivity|]. split; [reflexivity|]. unfold applies. cbn [co_from co_upto]. split; [lra|exact I].
    + eexists; split; [do 4 right; left; reflexivity|]. split; [reflexivity|]. unfold applies. cbn [co_from co_upto]. split; [lra|exact I].
    + eexists; split; [do 5 right; left; reflexivity|]. split; [reflexivity|]. unfold applies. cbn [co_from co_upto]. split; [lra|exact I].
    + eexists; split; [do 6 right; left; reflexivity|]. split; [reflexivity|]. unfold applies. cbn [co_from co_upto]. split; [lra|exact I].
Qed.

(** At fixed nose radius, denser or faster never heats less. *)
Lemma value_mono : forall c RN rho rho' v v', 0 <= co_coeff c -> 0 <= co_rho c -> 0 <= co_v c -> 0 < co_refv c -> 0 < rho <= rho' -> 0 < v <= v' -> value c RN rho v <= value c RN rho' v'.
Proof.
  intros c RN rho rho' v v' Hc Hr Hv Hf Lr Lv. unfold value.
  assert (A : 0 < Rpower (RN / co_refRN c) (co_RN c)) by apply exp_pos. set (A0 := Rpower (RN / co_refRN c) (co_RN c)) in *.
  assert (B : Rpower rho (co_rho c) <= Rpower rho' (co_rho c)) by (apply Rle_Rpower_l; lra).
  assert (D : Rpower (v / co_refv c) (co_v c) <= Rpower (v' / co_refv c) (co_v c)).
  { apply Rle_Rpower_l; [lra|]. assert (0 < / co_refv c) by (apply Rinv_0_lt_compat; auto). unfold Rdiv. split; nra. }
  assert (B0 : 0 < Rpower rho (co_rho c)) by apply exp_pos. assert (D0 : 0 < Rpower (v / co_refv c) (co_v c)) by apply exp_pos.
  assert (0 <= co_coeff c * A0) by (apply Rmult_le_pos; lra).
  apply Rmult_le_compat; try lra; [apply Rmult_le_pos; lra|]. apply Rmult_le_compat_l; lra.
Qed.
Lemma earth_sorted : sort_rows earth_fV = earth_fV.
Proof. unfold earth_fV. cbn [sort_rows]. repeat (cbn [insert_row fst]; rcases; try lra). reflexivity. Qed.
Lemma earth_mono : forall v v' y y', v <= v' -> interp1d earth_fV 0 2040 v = Ok y -> interp1d earth_fV 0 2040 v' = Ok y' -> y <= y'.
Proof.
  intros v v' y y' L H H'. unfold interp1d in *. rewrite earth_sorted in *. unfold earth_fV, last_x in *. cbn [last fst interp_sorted] in *. injection H as <-. injection H' as <-.
  rcases; lra.
Qed.
Lemma corr_signs : forall c, In c convective \/ In c radiative -> 0 <= co_coeff c /\ 0 <= co_rho c /\ 0 <= co_v c /\ 0 < co_refv c.
Proof. intros c [H|H]; dist_in H idtac; cbn [co_planet co_coeff co_refRN co_RN co_rho co_refv co_v co_from co_upto sutton]; lra. Qed.
(** Between the bands of the Venus law the value only jumps up. *)
Lemma venus_speed : forall RN rho v v' q q', 0 < RN -> 0 < rho -> 0 < v <= v' -> rad_venus RN rho v = Some q -> rad_venus RN rho v' = Some q' -> q <= q'.
Proof.
  intros RN rho v v' q q' HR Hr Hv Hq Hq'.
  set (g := fun x => match rad_venus RN rho x with Some y => y | None => 0 end).
  assert (R1 : forall c x, In c radiative -> co_planet c = "VENUS"%string -> applies c x -> 0 < x -> g x = value c RN rho x).
  { intros c x HI HC HA Hx. destruct (C88_radiative c RN rho x HI HA HR Hr Hx) as (f & Ef & Ev). rewrite HC in Ef. injection Ef as <-. unfold g. rewrite Ev. reflexivity. }
  assert (G : forall x, 0 < x -> rad_venus RN rho x = Some (g x)).
  { intros x Hx. destruct (C45_heating_defined "VENUS"%string RN rho x) as (_ & h & _ & s & _ & Eh & _ & _ & Es & _); auto; [left; reflexivity|]. injection Eh as <-. unfold g. rewrite Es. reflexivity. }
  assert (E : g v = q) by (unfold g; rewrite Hq; auto). assert (E' : g v' = q') by (unfold g; rewrite Hq'; auto). rewrite <- E, <- E'. clear E E' Hq Hq' q q'.
  destruct (C45_venus_jumps RN rho g HR Hr G) as (k & Hk & J1 & J2 & J3 & J4 & _).
  set (c1 := mkCorr "VENUS" 3.33e-34 1 0.49 1.2 1 10 0 (Some 8000)) in *. set (c2 := mkCorr "VENUS" 1.22e-16 1 0.49 1.2 1 5.5 8000 (Some 10000)). set (c3 := mkCorr "VENUS" 3.07e-48 1 0.49 1.2 1 13.4 10000 None).
  assert (I1 : In c1 radiative) by (left; reflexivity). assert (I2 : In c2 radiative) by (right; left; reflexivity). assert (I3 : In c3 radiative) by (do 2 right; left; reflexivity).
  assert (M : forall c x x', In c radiative -> co_planet c = "VENUS"%string -> applies c x -> applies c x' -> 0 < x <= x' -> g x <= g x').
  { intros c x x' HI HC HA HA' Hx. rewrite (R1 c x), (R1 c x') by (auto; lra). destruct (corr_signs c (or_intror HI)) as (S1 & S2 & S3 & S4). apply value_mono; auto; lra. }
  assert (M1 : forall x x', 0 < x <= x' -> x' < 8000 -> g x <= g x') by (intros x x' Hx Hx'; apply (M c1); auto; unfold applies, c1; cbn [co_from co_upto]; lra).
  assert (M2 : forall x x', 8000 <= x <= x' -> x' < 10000 -> g x <= g x') by (intros x x' Hx Hx'; apply (M c2); auto; try lra; unfold applies, c2; cbn [co_from co_upto]; lra).
  assert (M3 : forall x x', 10000 <= x <= x' -> g x <= g x') by (intros x x' Hx; apply (M c3); auto; try lra; unfold applies, c3; cbn [co_from co_upto]; split; auto; lra).
  destruct (Rlt_le_dec v' 8000) as [A|A]; [apply M1; lra|]. destruct (Rlt_le_dec v' 10000) as [B|B].
  - destruct (Rlt_le_dec v 8000) as [C|C]; [|apply M2; lra]. specialize (J1 v ltac:(lra)). pose proof (M2 8000 v' ltac:(lra) B). lra.
  - pose proof (M3 10000 v' ltac:(lra)) as X. destruct (Rlt_le_dec v 8000) as [C|C]; [specialize (J1 v ltac:(lra)); lra|]. destruct (Rlt_le_dec v 10000) as [D|D]; [specialize (J3 v ltac:(lra)); lra|apply M3; lra].
Qed.
Theorem C88_monotone : forall id law RN rho rho' v v' q q', con_law id = Some law \/ rad_law id = Some law -> 0 < RN -> 0 < rho <= rho' -> 0 < v <= v' ->
  law RN rho v = Some q -> law RN rho' v' = Some q' -> q <= q'.
Proof.
  intros id law RN rho rho' v v' q q' Hl HR Hr Hv Hq Hq'.
  assert (Hid : known id) by (destruct (law_known id) as (L1 & L2); destruct Hl as [Hl|Hl]; [apply L1|apply L2]; eauto).
  destruct Hl as [Hl|Hl].
  - destruct (C88_complete id v Hid (proj1 Hv)) as ((c & HI & HC) & _). destruct (corr_signs c (or_introl HI)) as (S1 & S2 & S3 & S4).
    destruct (C88_convective c RN rho v HI HR) as (f & Ef & Ev); try lra. destruct (C88_convective c RN rho' v' HI HR) as (f' & Ef' & Ev'); try lra.
    rewrite HC, Hl in Ef, Ef'. injection Ef as <-. injection Ef' as <-. rewrite Hq in Ev. rewrite Hq' in Ev'. injection Ev as ->. injection Ev' as ->. apply value_mono; auto.
  - assert (One : forall c, In c radiative -> co_planet c = id -> applies c v -> applies c v' -> q <= q').
    { intros c HI HC HA HA'. destruct (corr_signs c (or_intror HI)) as (S1 & S2 & S3 & S4).
      destruct (C88_radiative c RN rho v HI HA HR) as (f & Ef & Ev); try lra. destruct (C88_radiative c RN rho' v' HI HA' HR) as (f' & Ef' & Ev'); try lra.
      rewrite HC, Hl in Ef, Ef'. injection Ef as <-. injection Ef' as <-. rewrite Hq in Ev. rewrite Hq' in Ev'. injection Ev as ->. injection Ev' as ->. apply value_mono; auto. }
    destruct (C88_complete id v' Hid ltac:(lra)) as (_ & [-> | [-> | [-> | (c & HI & HC & HA)]]]).
    + injection Hl as <-. unfold rad_earth in Hq, Hq'. rewrite !np_pow_pos in Hq, Hq' by lra. cbn [obind] in Hq, Hq'.
      destruct (earth_fV_cases v) as (y & Ey & By & _). destruct (earth_fV_cases v') as (y' & Ey' & By' & _). rewrite Ey in Hq. rewrite Ey' in Hq'. injection Hq as <-. injection Hq' as <-.
      pose proof (earth_mono v v' y y' ltac:(lra) Ey Ey') as My. assert (A : 0 < Rpower RN 0.6) by apply exp_pos. assert (B : 0 < Rpower rho 1.22) by apply exp_pos.
      assert (B' : Rpower rho 1.22 <= Rpower rho' 1.22) by (apply Rle_Rpower_l; lra). apply Rmult_le_compat; try lra; [apply Rmult_le_pos; lra|]. apply Rmult_le_compat_l; lra.
    + injection Hl as <-. injection Hq as <-. injection Hq' as <-. lra.
    + injection Hl as <-. injection Hq as <-. injection Hq' as <-. lra.
    + unfold radiative in HI. cbn [In] in HI. destruct HI as [<-|[<-|[<-|HI]]].
      1-3: cbn [co_planet] in HC; subst id; injection Hl as <-; match type of HA with applies ?c _ => assert (HI : In c radiative) by (unfold radiative; cbn [In]; auto 10);
        destruct (C45_heating_defined "VENUS"%string RN rho v' ltac:(left; reflexivity) HR ltac:(lra) ltac:(lra)) as (_ & h & _ & s & _ & Eh & _ & _ & Es & _); injection Eh as <-;
        destruct (corr_signs c (or_intror HI)) as (S1 & S2 & S3 & S4); pose proof (venus_speed RN rho v v' q s HR ltac:(lra) Hv Hq Es) as L1;
        destruct (C88_radiative c RN rho v' HI HA HR) as (f & Ef & Ev); try lra; destruct (C88_radiative c RN rho' v' HI HA HR) as (f' & Ef' & Ev'); try lra;
        injection Ef as <-; injection Ef' as <-; rewrite Es in Ev; rewrite Hq' in Ev'; injection Ev as ->; injection Ev' as ->;
        apply (Rle_trans _ _ _ L1); apply value_mono; auto; lra end.
      apply (One c); auto; [do 3 right; exact HI|]. cbn [In] in HI. repeat (destruct HI as [<-|HI]; [unfold applies; cbn [co_from co_upto]; split; auto; lra|]). contradiction.
Qed.
Example C88_witness : In (sutton "MARS" 1.898e-8) convective /\ applies (mkCorr "VENUS" 1.22e-16 1 0.49 1.2 1 5.5 8000 (Some 10000)) 9000 /\
  known "EARTH" /\ (exists law q q', con_law "EARTH" = Some law /\ law 1 1e-4 11000 = Some q /\ law 1 2e-4 12000 = Some q' /\ q < q').
Proof.
  split; [unfold convective; cbn [In]; auto|]. split; [unfold applies; cbn [co_from co_upto]; lra|]. split; [unfold known; cbn [In]; auto|].
  destruct (C88_convective (sutton "EARTH" 1.7623e-8) 1 1e-4 11000) as (f & Ef & Ev); try lra; [unfold convective; cbn [In]; auto|].
  destruct (C88_convective (sutton "EARTH" 1.7623e-8) 1 2e-4 12000) as (f' & Ef' & Ev'); try lra; [unfold convective; cbn [In]; auto|].
  cbn [co_planet sutton] in Ef, Ef'. rewrite Ef in Ef'. injection Ef' as <-. exists f. do 2 eexists. split; [exact Ef|]. split; [exact Ev|]. split; [exact Ev'|].
  unfold value. cbn [co_coeff co_refRN co_RN co_rho co_refv co_v sutton]. rewrite !div1.
  assert (A : 0 < Rpower 1 (-0.5)) by apply exp_pos. assert (B : 0 < Rpower 1e-4 0.5) by apply exp_pos. assert (B' : Rpower 1e-4 0.5 < Rpower 2e-4 0.5) by (apply Rlt_Rpower_l; lra).
  assert (C : 0 < Rpower 11000 3) by apply exp_pos. assert (C' : Rpower 11000 3 < Rpower 12000 3) by (apply Rlt_Rpower_l; lra).
  apply Rmult_gt_0_lt_compat; try lra; [apply Rmult_lt_0_compat; lra|]. apply Rmult_lt_compat_l; lra.
Qed.
