(** Theorems about stagnation-point heating, heat load and the nose-radius sweep: C45-C47. *)
From Coq Require Import String List.
Require Import Verif.Base Verif.Numpy Verif.NumpyProofs Verif.PlanetModel Verif.PlanetProofs Verif.AeroModel Verif.FlightProofs Verif.HeatModel Verif.TrajectoryModel Verif.TrajectorySpec Verif.TrajectoryProofs Verif.PropTrajectory Verif.RecordSpec.
Local Open Scope R_scope.

(** * C45 *)
Lemma np_pow_some : forall x y, 0 < x -> exists z, np_pow x y = Some z /\ 0 < z.
Proof. intros x y H. unfold np_pow. rcases; try lra. eexists. split; [reflexivity|apply exp_pos]. Qed.
Lemma np_pow_nonneg : forall x y z, np_pow x y = Some z -> 0 <= z.
Proof. intros x y z H. unfold np_pow in H. rcases; cbn [andb] in H; try discriminate; injection H as <-; try lra; left; apply exp_pos. Qed.
Lemma np_div_inv : forall x y z, np_div x y = Some z -> y <> 0 /\ z = x / y.
Proof. intros x y z H. unfold np_div in H. rcases; try discriminate. injection H as <-. auto. Qed.
Lemma np_sqrt_inv : forall x z, np_sqrt x = Some z -> 0 <= x /\ z = sqrt x.
Proof. intros x z H. unfold np_sqrt in H. rcases; try discriminate. injection H as <-. split; auto; lra. Qed.
Lemma earth_fV_cases : forall v, exists f, interp1d earth_fV 0 2040 v = Ok f /\ 0 <= f <= 2040 /\ (v < 9000 -> f = 0) /\ (9000 <= v -> 1.5 <= f) /\ (16000 < v -> f = 2040).
Proof.
  intros v. assert (Hne : earth_fV <> []) by discriminate.
  destruct (Rlt_le_dec v 9000) as [H|H].
  - exists 0. split; [apply interp1d_left; auto|]. 2: { split; [lra|]. split; [auto|]. split; intros; lra. }
    intros q Hq. cbn in Hq. repeat (destruct Hq as [<-|Hq]; [cbn [fst]; lra|]). contradiction.
  - destruct (Rlt_le_dec 16000 v) as [K|K].
    + exists 2040. split; [apply interp1d_right; auto|]. 2: { split; [lra|]. split; [intros; lra|]. split; intros; lra. }
      intros q Hq. cbn in Hq. repeat (destruct Hq as [<-|Hq]; [cbn [fst]; lra|]). contradiction.
    + destruct (interp1d_inside earth_fV 0 2040 v) as (y & E & I).
      * cbn. repeat constructor; cbn; intros Hi; repeat (destruct Hi as [Hi|Hi]; [lra|]); contradiction.
      * exists (9000, 1.5), (16000, 2040). cbn. split; [left; auto|]. split; [do 7 right; left; auto|lra].
      * exists y. split; auto. assert (1.5 <= y <= 2040).
        { apply (Interpolates_bounds _ _ _ _ _ I). intros q Hq. cbn in Hq. repeat (destruct Hq as [<-|Hq]; [cbn [snd]; lra|]). contradiction. }
        split; [lra|]. repeat split; intros; lra.
Qed.
(** The planets with a heating law. *)
Definition known (id : string) : Prop := In id ["VENUS"; "EARTH"; "MARS"; "JUPITER"; "SATURN"; "TITAN"; "URANUS"; "NEPTUNE"]%string.
Ltac known_cases H := cbn [known In] in H; repeat (destruct H as [<-|H]); [..|contradiction].
Lemma law_known : forall id, (known id <-> exists f, con_law id = Some f) /\ (known id <-> exists f, rad_law id = Some f).
Proof.
  intros id. unfold known. split; split.
  - intros H; known_cases H; cbv; eauto.
  - intros (f & H). unfold con_law in H. repeat (destruct (string_dec _ _) as [->|]; [cbn; auto 10|]). discriminate.
  - intros H; known_cases H; cbv; eauto.
  - intros (f & H). unfold rad_law in H. repeat (destruct (string_dec _ _) as [->|]; [cbn; auto 10|]). discriminate.
Qed.
Lemma planet_known : forall name p, Planet name = Ok p -> known (ID p).
Proof. intros name p H. destruct (Planet_cases _ _ H) as (I & _). cbn in I. decompose [or] I; subst; try contradiction; cbn; auto 10. Qed.

Lemma some_inj : forall (x y : R), Some x = Some y -> x = y.
Proof. intros x y H. injection H as ->. auto. Qed.
Ltac sinj H := apply some_inj in H; rewrite <- H in *; clear H.
Ltac ob H := repeat (match type of H with (obind ?x _) = Some _ => let z := fresh "z" in let E := fresh "E" in destruct x as [z|] eqn:E; cbn [obind] in H; [|discriminate H] end).
Lemma sg_nonneg : forall k RN rho v q, 0 <= k -> 0 <= v -> con_sutton_graves k RN rho v = Some q -> 0 <= q.
Proof.
  intros k RN rho v q Hk Hv H. unfold con_sutton_graves in H. ob H. sinj H. apply np_sqrt_inv in E0. destruct E0 as (_ & ->).
  apply Rmult_le_pos; [apply Rmult_le_pos; [auto|apply sqrt_pos]|apply pow_le; auto].
Qed.
Ltac posi := repeat first [assumption | lra | (apply sqrt_lt_R0; assumption) | apply exp_pos | apply Rmult_lt_0_compat].
Ltac nonneg := repeat first [assumption | lra | apply sqrt_pos | (eapply np_pow_nonneg; eassumption) | apply pow_le | apply Rmult_le_pos].
Theorem C45_heating_nonneg : forall id RN rho v f q, 0 < RN -> 0 <= v -> con_law id = Some f \/ rad_law id = Some f -> f RN rho v = Some q -> 0 <= q.
Proof.
  intros id RN rho v f q HR Hv Hl Hq.
  assert (HI : forall a, con_ice_giant RN rho v = Some a -> 0 <= a).
  { intros a H. unfold con_ice_giant in H. ob H. sinj H. apply np_sqrt_inv in E2. destruct E2 as (_ & ->). nonneg. }
  destruct Hl as [Hl|Hl].
  - unfold con_law in Hl. repeat (destruct (string_dec _ _) as [->|]; [injection Hl as <-; first [apply (HI _ Hq) | (refine (sg_nonneg _ _ _ _ _ _ Hv Hq); lra)]|]). discriminate.
  - assert (HV : forall a, rad_venus RN rho v = Some a -> 0 <= a).
    { intros a H. unfold rad_venus in H. ob H. sinj H. assert (0 <= z). { rcases; ob E; sinj E; nonneg. } nonneg. }
    assert (HE : forall a, rad_earth RN rho v = Some a -> 0 <= a).
    { intros a H. unfold rad_earth in H. ob H. destruct (earth_fV_cases v) as (g & Eg & Hg & _). rewrite Eg in H. sinj H. nonneg. }
    assert (HG : forall a, rad_gas_giant RN rho v = Some a -> 0 <= a).
    { intros a H. unfold rad_gas_giant in H. ob H. sinj H. unfold Rdiv. nonneg. }
    assert (HC : forall a, rad_ice_giant RN rho v = Some a -> 0 <= a).
    { intros a H. unfold rad_ice_giant in H. ob H. sinj H. unfold Rdiv. nonneg. }
    unfold rad_law in Hl. repeat (destruct (string_dec _ _) as [->|]; [injection Hl as <-; first [apply (HV _ Hq) | apply (HE _ Hq) | apply (HG _ Hq) | apply (HC _ Hq) | (unfold rad_zero in Hq; sinj Hq; lra)]|]). discriminate.
Qed.
(** Defined, and convective heating positive, at every point with positive density and speed. *)
Theorem C45_heating_defined : forall id RN rho v, known id -> 0 < RN -> 0 < rho -> 0 < v ->
  exists f g q s, con_law id = Some f /\ rad_law id = Some g /\ f RN rho v = Some q /\ 0 < q /\ g RN rho v = Some s /\ 0 <= s.
Proof.
  intros id RN rho v Hid HR Hr Hv.
  assert (SG : forall k, 0 < k -> exists q, con_sutton_graves k RN rho v = Some q /\ 0 < q).
  { intros k Hk. unfold con_sutton_graves. rewrite np_div_some by lra. cbn [obind]. assert (0 < rho / RN) by (apply Rdiv_lt_0_compat; auto). rewrite np_sqrt_some by lra. cbn [obind].
    eexists. split; [reflexivity|]. apply Rmult_lt_0_compat; [apply Rmult_lt_0_compat; auto; apply sqrt_lt_R0; auto|apply pow_lt; auto]. }
  assert (IG : exists q, con_ice_giant RN rho v = Some q /\ 0 < q).
  { unfold con_ice_giant. destruct (np_pow_some rho 0.452130 Hr) as (a & -> & Ha), (np_pow_some v 2.691800 Hv) as (b & -> & Hb). rewrite np_div_some by lra. cbn [obind].
    assert (0 < 0.291 / RN) by (apply Rdiv_lt_0_compat; lra). rewrite np_sqrt_some by lra. cbn [obind]. eexists. split; [reflexivity|].
    posi. }
  assert (exists f q, con_law id = Some f /\ f RN rho v = Some q /\ 0 < q).
  { known_cases Hid; [destruct (SG 1.8960e-8 ltac:(lra)) as (q & ? & ?)|destruct (SG 1.7623e-8 ltac:(lra)) as (q & ? & ?)|destruct (SG 1.8980e-8 ltac:(lra)) as (q & ? & ?)
      |destruct (SG 0.6556e-8 ltac:(lra)) as (q & ? & ?)|destruct (SG 0.6356e-8 ltac:(lra)) as (q & ? & ?)|destruct (SG 1.7407e-8 ltac:(lra)) as (q & ? & ?)
      |destruct IG as (q & ? & ?)|destruct IG as (q & ? & ?)]; eexists _, q; (split; [reflexivity|]); auto. }
  assert (exists f q, rad_law id = Some f /\ f RN rho v = Some q).
  { assert (VN : exists q, rad_venus RN rho v = Some q).
    { unfold rad_venus. destruct (np_pow_some rho 1.2 Hr) as (a & -> & Ha), (np_pow_some RN 0.49 HR) as (b & -> & Hb), (np_pow_some v 5.5 Hv) as (c & -> & Hc), (np_pow_some v 13.4 Hv) as (d & -> & Hd).
      rcases; cbn [obind]; eauto. }
    assert (EA : exists q, rad_earth RN rho v = Some q).
    { unfold rad_earth. destruct (np_pow_some RN 0.6 HR) as (a & -> & Ha), (np_pow_some rho 1.22 Hr) as (b & -> & Hb), (earth_fV_cases v) as (g & -> & _). cbn [obind]. eauto. }
    assert (GG : exists q, rad_gas_giant RN rho v = Some q).
    { unfold rad_gas_giant. destruct (np_pow_some (2 * RN) (-0.17905) ltac:(lra)) as (a & -> & Ha), (np_pow_some rho 1.763827469 Hr) as (b & -> & Hb), (np_pow_some v 10.993852 Hv) as (c & -> & Hc). cbn [obind]. eauto. }
    assert (IC : exists q, rad_ice_giant RN rho v = Some q).
    { unfold rad_ice_giant. destruct (np_pow_some rho 0.498140 Hr) as (a & -> & Ha), (np_pow_some (v / 10000) 15.113 ltac:(lra)) as (b & -> & Hb). cbn [obind]. eauto. }
    assert (ZZ : exists q, rad_zero RN rho v = Some q) by (unfold rad_zero; eauto).
    known_cases Hid; [destruct VN as (q & ?)|destruct EA as (q & ?)|destruct ZZ as (q & ?)|destruct GG as (q & ?)|destruct GG as (q & ?)|destruct ZZ as (q & ?)|destruct IC as (q & ?)|destruct IC as (q & ?)];
      eexists _, q; (split; [reflexivity|]); auto. }
  destruct H as (f & q & Hf & Hq & Hp), H0 as (g & s & Hg & Hs). exists f, g, q, s. repeat split; auto.
  apply (C45_heating_nonneg id RN rho v g s); auto. lra.
Qed.
(** Outside the domain of the fractional powers the value is NaN: convective heating for a negative
    density on every planet, radiative heating for a negative density on every planet that has a
    radiative law, and both ice-giant rates for a negative speed.  At zero density both are zero. *)
Theorem C45_heating_undefined : forall id f g RN v, con_law id = Some f -> rad_law id = Some g -> 0 < RN ->
  (forall rho, rho < 0 -> f RN rho v = None) /\
  (forall rho, rho < 0 -> id <> "MARS"%string -> id <> "TITAN"%string -> g RN rho v = None) /\
  (forall rho, v < 0 -> In id ["URANUS"; "NEPTUNE"]%string -> f RN rho v = None /\ g RN rho v = None) /\
  (forall rho, v < 0 -> In id ["JUPITER"; "SATURN"]%string -> g RN rho v = None) /\
  (0 <= v -> f RN 0 v = Some 0 /\ g RN 0 v = Some 0).
Proof.
  intros id f g RN v Hf Hg HR.
  assert (N : forall x y, x < 0 -> np_pow x y = None). { intros x y H. unfold np_pow. rcases; try lra; reflexivity. }
  assert (Z : forall y, 0 < y -> np_pow 0 y = Some 0). { intros y H. unfold np_pow. rcases; try lra; reflexivity. }
  assert (OB : forall (o : option R) (k : R -> option R), (forall a, k a = None) -> (leto a := o in k a) = None) by (intros [a|] k H; cbn; auto).
  assert (CI : forall rho, rho < 0 \/ v < 0 -> con_ice_giant RN rho v = None).
  { intros rho [H|H]; unfold con_ice_giant; rewrite (N _ _ H); cbn [obind]; [reflexivity|destruct (np_pow rho 0.452130); reflexivity]. }
  assert (RI : forall rho, rho < 0 \/ v < 0 -> rad_ice_giant RN rho v = None).
  { intros rho [H|H]; unfold rad_ice_giant; [rewrite (N _ _ H); reflexivity|]. rewrite (N (v / 10000)) by lra. destruct (np_pow rho 0.498140); reflexivity. }
  assert (RG : forall rho, rho < 0 \/ v < 0 -> rad_gas_giant RN rho v = None).
  { intros rho H. unfold rad_gas_giant. apply OB. intros a. destruct H as [H|H]; rewrite (N _ _ H); [reflexivity|]. destruct (np_pow rho 1.763827469); reflexivity. }
  assert (CS : forall k rho, rho < 0 -> con_sutton_graves k RN rho v = None).
  { intros k rho H. unfold con_sutton_graves. rewrite np_div_some by lra. cbn [obind].
    assert (rho / RN < 0) by (unfold Rdiv; rewrite <- (Rmult_0_l (/ RN)); apply Rmult_lt_compat_r; auto; apply Rinv_0_lt_compat; auto).
    unfold np_sqrt. rcases; try lra; reflexivity. }
  assert (RV : forall rho, rho < 0 -> rad_venus RN rho v = None). { intros rho H. unfold rad_venus. apply OB. intros a. rewrite (N _ _ H). reflexivity. }
  assert (RE : forall rho, rho < 0 -> rad_earth RN rho v = None). { intros rho H. unfold rad_earth. apply OB. intros a. rewrite (N _ _ H). reflexivity. }
  assert (CS0 : forall k, con_sutton_graves k RN 0 v = Some 0).
  { intros k. unfold con_sutton_graves. rewrite np_div_some by lra. cbn [obind]. replace (0 / RN) with 0 by (unfold Rdiv; ring). rewrite np_sqrt_some by lra. cbn [obind]. f_equal. rewrite sqrt_0. ring. }
  assert (V0 : forall x y, 0 <= x -> 0 < y -> exists z, np_pow x y = Some z).
  { intros x y Hx Hy. unfold np_pow. rcases; try (eexists; reflexivity); lra. }
  assert (CI0 : 0 <= v -> con_ice_giant RN 0 v = Some 0).
  { intros H. unfold con_ice_giant. rewrite Z by lra. cbn [obind]. destruct (V0 v 2.691800 H ltac:(lra)) as (z & ->). cbn [obind]. rewrite np_div_some by lra. cbn [obind].
    rewrite np_sqrt_some by (apply Rle_mult_inv_pos; lra). cbn [obind]. f_equal. ring. }
  assert (RI0 : 0 <= v -> rad_ice_giant RN 0 v = Some 0).
  { intros H. unfold rad_ice_giant. rewrite Z by lra. cbn [obind]. destruct (V0 (v / 10000) 15.113 ltac:(lra) ltac:(lra)) as (z & ->). cbn [obind]. f_equal. lra. }
  assert (P0 : forall y, exists z, np_pow RN y = Some z) by (intros y; destruct (np_pow_some RN y HR) as (z & E & _); eauto).
  assert (RG0 : 0 <= v -> rad_gas_giant RN 0 v = Some 0).
  { intros H. unfold rad_gas_giant. destruct (np_pow_some (2 * RN) (-0.17905) ltac:(lra)) as (x & -> & _). cbn [obind]. rewrite Z by lra. cbn [obind].
    destruct (V0 v 10.993852 H ltac:(lra)) as (z & ->). cbn [obind]. f_equal. lra. }
  assert (RV0 : 0 <= v -> rad_venus RN 0 v = Some 0).
  { intros H. unfold rad_venus.
    assert (Q : exists a, (if Rltb v 8000 then Some (3.33e-34 * v ^ 10) else if Rltb v 10000 then leto b := np_pow v 5.5 in Some (1.22e-16 * b) else leto b := np_pow v 13.4 in Some (3.07e-48 * b)) = Some a).
    { destruct (V0 v 5.5 H ltac:(lra)) as (x & ->). destruct (V0 v 13.4 H ltac:(lra)) as (y & ->). cbn [obind]. destruct (Rltb v 8000), (Rltb v 10000); eexists; reflexivity. }
    destruct Q as (a & ->). cbn [obind]. rewrite Z by lra. cbn [obind]. destruct (P0 0.49) as (c & ->). cbn [obind]. f_equal. lra. }
  assert (RE0 : rad_earth RN 0 v = Some 0).
  { unfold rad_earth. destruct (P0 0.6) as (c & ->). cbn [obind]. rewrite Z by lra. cbn [obind]. destruct (earth_fV_cases v) as (y & -> & _). f_equal. lra. }
  assert (Hk : known id) by (apply (proj1 (law_known id)); eauto).
  known_cases Hk; cbv in Hf, Hg; injection Hf as <-; injection Hg as <-;
    (split; [intros rho H; first [apply CS; auto | apply CI; auto]|]);
    (split; [intros rho H M1 M2; first [congruence | apply RV; auto | apply RE; auto | apply RG; auto | apply RI; auto]|]);
    (split; [intros rho H M; first [split; [apply CI; auto|apply RI; auto] | exfalso; cbn in M; intuition discriminate]|]);
    (split; [intros rho H M; first [apply RG; auto | exfalso; cbn in M; intuition discriminate]|]);
    (intros H; split; [first [apply CS0 | apply CI0; auto] | first [reflexivity | apply RV0; auto | apply RE0 | apply RG0; auto | apply RI0; auto]]).
Qed.
(** Multiplying the nose radius by c divides the convective heating by sqrt c. *)
Theorem C45_nose_radius_scaling : forall id RN rho v c f, con_law id = Some f -> 0 < RN -> 0 < c ->
  f (c * RN) rho v = (leto q := f RN rho v in Some (q / sqrt c)).
Proof.
  intros id RN rho v c f Hl HR Hc. assert (Hs : 0 < sqrt c) by (apply sqrt_lt_R0; auto).
  assert (SQ : forall a, np_sqrt (a / (c * RN)) = (leto s := np_sqrt (a / RN) in Some (s / sqrt c))).
  { intros a. replace (a / (c * RN)) with (a / RN / c) by (field; lra). unfold np_sqrt. set (x := a / RN).
    destruct (Rlt_le_dec x 0) as [H|H].
    - assert (x / c < 0) by (apply Rmult_lt_reg_r with c; auto; unfold Rdiv; rewrite Rmult_assoc, Rinv_l; lra). rcases; cbn [obind]; auto; lra.
    - assert (0 <= x / c) by (apply Rmult_le_pos; auto; left; apply Rinv_0_lt_compat; auto). rcases; cbn [obind]; try lra. rewrite sqrt_div by lra. auto. }
  assert (SG : forall k, con_sutton_graves k (c * RN) rho v = (leto q := con_sutton_graves k RN rho v in Some (q / sqrt c))).
  { intros k. unfold con_sutton_graves. rewrite !np_div_some by nra. cbn [obind]. rewrite SQ. destruct (np_sqrt (rho / RN)); cbn [obind]; auto. f_equal. field. lra. }
  assert (IG : con_ice_giant (c * RN) rho v = (leto q := con_ice_giant RN rho v in Some (q / sqrt c))).
  { unfold con_ice_giant. destruct (np_pow rho _); cbn [obind]; auto. destruct (np_pow v _); cbn [obind]; auto. rewrite !np_div_some by nra. cbn [obind]. rewrite SQ. destruct (np_sqrt (0.291 / RN)) as [w|]; cbn [obind]; auto.
    f_equal. unfold Rdiv. ring. }
  unfold con_law in Hl. repeat (destruct (string_dec _ _) as [->|]; [injection Hl as <-; first [apply IG|apply SG]|]). discriminate.
Qed.
Theorem C45_no_radiation : forall id f RN rho v, id = "MARS"%string \/ id = "TITAN"%string -> rad_law id = Some f -> f RN rho v = Some 0.
Proof. intros id f RN rho v [-> | ->] H; cbv in H; injection H as <-; reflexivity. Qed.
(** Point k of each heating history depends on the density and speed at point k only; the total is the sum. *)
Theorem C45_total_is_sum : forall V r v tot, length v = length r -> qStagTotal V r v = Ok tot ->
  exists f g, con_law (ID (vh_planet V)) = Some f /\ rad_law (ID (vh_planet V)) = Some g /\ length tot = length r /\
  forall k, (k < length r)%nat -> let rho := density_int (vh_atm V) (nth k r 0 - RP (vh_planet V)) in
    nth k tot None = (leto a := f (vh_RN V) rho (nth k v 0) in leto b := g (vh_RN V) rho (nth k v 0) in Some (a + b)).
Proof.
  intros V r v tot L H. unfold qStagTotal, qStagConvective, qStagRadiative, heat_history in H.
  destruct (con_law _) as [f|]; [|discriminate]. destruct (rad_law _) as [g|]; [|discriminate]. cbn [rbind] in H. injection H as <-.
  exists f, g. do 2 (split; [reflexivity|]). unfold rho_vec, rhovectorized. revert v L. induction r as [|x r IH]; intros [|y v] L; cbn [length] in L; try lia.
  - split; [reflexivity|]. cbn [length]. intros; lia.
  - destruct (IH v ltac:(lia)) as (Lt & N). split; [cbn; f_equal; exact Lt|]. intros [|k] Hk; [reflexivity|]. cbn [length] in Hk. apply N. lia.
Qed.

(** The VENUS radiative law jumps upwards at 8 and at 10 km/s: there is a gap in its values. *)
Lemma rpower_54 : 3.975 <= Rpower 10 0.6.
Proof.
  replace 0.6 with (3 * / 5) by lra. rewrite <- Rpower_mult. replace (Rpower 10 3) with 1000 by (replace 3 with (INR 3) by (cbn; lra); rewrite Rpower_pow by lra; lra).
  replace 3.975 with (Rpower (3.975 ^ 5) (/ 5)).
  - apply Rle_Rpower_l; [lra|lra].
  - replace (3.975 ^ 5) with (Rpower 3.975 5) by (replace 5 with (INR 5) at 1 by (cbn; lra); rewrite Rpower_pow by lra; reflexivity). rewrite Rpower_mult. replace (5 * / 5) with 1 by lra. apply Rpower_1. lra.
Qed.
Theorem C45_venus_jumps : forall RN rho g, 0 < RN -> 0 < rho -> (forall v, 0 < v -> rad_venus RN rho v = Some (g v)) ->
  exists k, 0 < k /\ (forall v, 0 < v < 8000 -> g v <= 357557 * k) /\ 357564 * k <= g 8000 /\
  (forall v, 8000 <= v < 10000 -> g v <= 1.22e6 * k) /\ 1.2203e6 * k <= g 10000 /\
  ~ continuity_pt g 8000 /\ ~ continuity_pt g 10000.
Proof.
  intros RN rho g HR Hr Hg. set (k := Rpower rho 1.2 * Rpower RN 0.49). assert (Hk : 0 < k) by (apply Rmult_lt_0_compat; apply exp_pos).
  assert (G1 : forall v, 0 < v < 8000 -> g v = 3.33e-34 * v ^ 10 * k).
  { intros v Hv. specialize (Hg v (proj1 Hv)). unfold rad_venus, np_pow in Hg. rcases; cbn [obind andb] in Hg; try lra. sinj Hg. unfold k. ring. }
  assert (G2 : forall v, 8000 <= v < 10000 -> g v = 1.22e-16 * Rpower v 5.5 * k).
  { intros v Hv. specialize (Hg v ltac:(lra)). unfold rad_venus, np_pow in Hg. rcases; cbn [obind andb] in Hg; try lra. sinj Hg. unfold k. ring. }
  assert (G3 : g 10000 = 3.07e-48 * Rpower 10000 13.4 * k).
  { specialize (Hg 10000 ltac:(lra)). unfold rad_venus, np_pow in Hg. rcases; cbn [obind andb] in Hg; try lra. sinj Hg. unfold k. ring. }
  assert (B1 : forall v, 0 < v < 8000 -> g v <= 357557 * k).
  { intros v Hv. rewrite G1 by auto. apply Rmult_le_compat_r; [lra|]. assert (v ^ 10 <= 8000 ^ 10) by (apply pow_incr; lra). lra. }
  assert (P5 : forall v, 0 < v -> Rpower v 5.5 = v ^ 5 * sqrt v).
  { intros v Hv. replace 5.5 with (5 + / 2) by lra. rewrite Rpower_plus, Rpower_sqrt by auto. replace 5 with (INR 5) at 1 by (cbn; lra). rewrite Rpower_pow by auto. auto. }
  assert (B2 : 357564 * k <= g 8000).
  { rewrite G2 by lra. apply Rmult_le_compat_r; [lra|]. rewrite P5 by lra. assert (89.4427 <= sqrt 8000).
    { rewrite <- (sqrt_Rsqr 89.4427) by lra. apply sqrt_le_1; unfold Rsqr; lra. } lra. }
  assert (B3 : forall v, 8000 <= v < 10000 -> g v <= 1.22e6 * k).
  { intros v Hv. rewrite G2 by auto. apply Rmult_le_compat_r; [lra|]. assert (Rpower v 5.5 <= Rpower 10000 5.5) by (apply Rle_Rpower_l; lra). rewrite (P5 10000) in H by lra.
    replace (sqrt 10000) with 100 in H by (rewrite <- (sqrt_Rsqr 100) by lra; f_equal; unfold Rsqr; lra). lra. }
  assert (B4 : 1.2203e6 * k <= g 10000).
  { rewrite G3. apply Rmult_le_compat_r; [lra|]. replace 10000 with (Rpower 10 4) by (replace 4 with (INR 4) by (cbn; lra); rewrite Rpower_pow by lra; lra).
    rewrite Rpower_mult. replace (4 * 13.4) with (53 + 0.6) by lra. rewrite Rpower_plus. replace (Rpower 10 53) with (10 ^ 53) by (rewrite <- (Rpower_pow 53 10) by lra; f_equal; rewrite INR_IZR_INZ; reflexivity).
    pose proof rpower_54. lra. }
  exists k. do 5 (split; auto). 
  assert (J : forall x0 lo gap, 0 < lo < x0 -> 0 < gap -> (forall v, lo < v < x0 -> g v + gap <= g x0) -> ~ continuity_pt g x0).
  { intros x0 lo gap Hx Hgap B C. destruct (C gap Hgap) as (d & Hd & C1). set (v := Rmax (x0 - d / 2) ((lo + x0) / 2)).
    assert (V1 : x0 - d / 2 <= v) by apply Rmax_l. assert (V2 : (lo + x0) / 2 <= v) by apply Rmax_r.
    assert (V3 : v < x0) by (apply Rmax_lub_lt; lra).
    specialize (C1 v). unfold dist in C1. cbn in C1. unfold R_dist in C1. specialize (B v ltac:(lra)).
    assert (Rabs (g v - g x0) < gap). { apply C1. split; [split; [exact I|lra]|]. rewrite Rabs_left by lra. lra. }
    rewrite Rabs_left in H by lra. lra. }
  split.
  - apply (J 8000 1000 (7 * k)); [lra|lra|]. intros v Hv. specialize (B1 v ltac:(lra)). lra.
  - apply (J 10000 8000 (300 * k)); [lra|lra|]. intros v Hv. specialize (B3 v ltac:(lra)). lra.
Qed.
(** The EARTH radiative law: zero below 9 km/s, and at least 1.5 times its scale from 9 km/s on. *)
Theorem C45_earth_jump : forall RN rho v q, 0 < RN -> 0 < rho -> rad_earth RN rho v = Some q ->
  let k := 4.736e4 * Rpower RN 0.6 * Rpower rho 1.22 in 0 < k /\ (v < 9000 -> q = 0) /\ (9000 <= v -> 1.5 * k <= q) /\ (16000 < v -> q = 2040 * k).
Proof.
  intros RN rho v q HR Hr H k. assert (Hk : 0 < k) by (unfold k; posi).
  unfold rad_earth, np_pow in H. destruct (earth_fV_cases v) as (f & E & Hf & F1 & F2 & F3). rewrite E in H. rcases; try lra. cbn [obind] in H. sinj H. fold k.
  split; auto. split; [intros L; rewrite F1 by auto; ring|]. split; [intros L; specialize (F2 L); nra|]. intros L. rewrite F3 by auto. ring.
Qed.
Example C45_witness : exists q s, con_sutton_graves 1.8960e-8 1 1e-4 11000 = Some q /\ rad_venus 1 1e-4 11000 = Some s /\ 0 < q /\ known "VENUS".
Proof.
  destruct (C45_heating_defined "VENUS" 1 1e-4 11000) as (f & g & q & s & E1 & E2 & E3 & E4 & E5 & E6); try lra; [cbn; auto|].
  cbv in E1, E2. injection E1 as <-. injection E2 as <-. exists q, s. repeat split; auto. cbn; auto.
Qed.

(** * C46 *)
Lemma otrapz_step : forall ys xs acc y0 x0 k, length ys = length xs -> (k < length ys)%nat ->
  nth (S k) (acc :: otrapz_from acc y0 x0 ys xs) None =
  (leto a := nth k (acc :: otrapz_from acc y0 x0 ys xs) None in leto p := nth k (y0 :: ys) None in leto q := nth k ys None in Some (a + (nth k xs 0 - nth k (x0 :: xs) 0) * (p + q) / 2)).
Proof.
  induction ys as [|y ys IH]; intros [|x xs] acc y0 x0 k L Hk; cbn [length] in *; try lia. destruct k as [|k].
  - reflexivity.
  - cbn [otrapz_from]. set (acc' := leto a := acc in leto p := y0 in leto q := y in Some (a + (x - x0) * (p + q) / 2)).
    change (nth (S (S k)) (acc :: acc' :: otrapz_from acc' y x ys xs) None) with (nth (S k) (acc' :: otrapz_from acc' y x ys xs) None).
    rewrite IH by lia. reflexivity.
Qed.
(** An accumulated history is the running trapezoid sum from 0. *)
Lemma ocumtrapz_spec : forall y x i h, ocumtrapz y x i = Ok h -> nth 0 h None = Some 0 /\
  forall k, (S k < length y)%nat -> nth (S k) h None = (leto a := nth k h None in leto p := nth k y None in leto q := nth (S k) y None in Some (a + (nth (S k) x 0 - nth k x 0) * (p + q) / 2)).
Proof.
  intros [|y0 ys] [|x0 xs] i h H; cbn [ocumtrapz] in H; try discriminate.
  destruct (Nat.eqb_spec (length ys) (length xs)) as [L|L]; cbn [negb] in H; [|discriminate].
  destruct (Reqb_spec i 0) as [I|I]; cbn [negb] in H; [|discriminate]. injection H as <-. split; [reflexivity|].
  intros k Hk. cbn [length] in Hk. rewrite otrapz_step by lia. reflexivity.
Qed.
(** After a propagation that returns: the heat load starts at 0 and grows by the trapezoid of the total
    heating rate; with non-negative speeds and a positive nose radius it never decreases. *)
Theorem C46_heat_load : forall E name o t_sec dt delta_deg o', engine_ok E -> Planet name = Ok (vh_planet (ob_veh o)) ->
  propogateEntry E o t_sec dt delta_deg = (o', Ok tt) \/ propogateEntry2 E o t_sec dt delta_deg = (o', Ok tt) ->
  exists f h, ob_flight o' = Some f /\ ob_heat o' = Some h /\ length h = f_index f /\ nth 0 h None = Some 0 /\
    (forall k, (S k < f_index f)%nat -> nth (S k) h None = (leto a := nth k h None in leto p := nth k (f_qtot f) None in leto q := nth (S k) (f_qtot f) None in Some (a + dt * (p + q) / 2))) /\
    (0 <= dt -> 0 < vh_RN (ob_veh o) -> Forall (fun v => 0 <= v) (c_v (f_si f)) ->
     forall j k a b, (j <= k < f_index f)%nat -> nth j h None = Some a -> nth k h None = Some b -> 0 <= a <= b).
Proof.
  intros E name o t_sec dt delta_deg o' HE HP HO.
  destruct (C43_flight_aligned E name o t_sec dt delta_deg o' HE HP HO) as (_ & _ & _ & f & h & Hf & Hh & Al & _ & Tk).
  exists f, h. do 2 (split; auto). destruct Al as (H1 & (T1 & T2 & _ & _ & T5 & _) & _ & _ & _ & _ & _ & _ & _ & Lq & Lh & _). split; auto.
  assert (G : forall solve h0, store o (fly solve (ob_veh o) (ob_tol o) (ob_init o) t_sec dt delta_deg) h0 = (o', Ok tt) ->
    exists h0, ocumtrapz (f_qtot f) (c_t (f_si f)) h0 = Ok h /\ exists c0, post (ob_veh o) (deg delta_deg) c0 = Ok f).
  { intros solve h0 H. unfold store, fly in H. destruct (solve _ _ _ _ _ _) as [c0|]; cbn [rbind] in H; [|discriminate H].
    destruct (post (ob_veh o) (deg delta_deg) c0) as [f'|] eqn:Ep; [|discriminate H]. destruct (ocumtrapz (f_qtot f') (c_t (f_si f')) h0) as [h'|] eqn:Eh; [|discriminate H].
    assert (Ho : set_heat (set_flight o f') h' = o') by (apply (f_equal fst) in H; exact H). subst o'. cbn [ob_flight ob_heat set_heat set_flight] in Hf, Hh.
    assert (f' = f) by congruence. assert (h' = h) by congruence. subst. eauto. }
  assert (G' : exists h0, ocumtrapz (f_qtot f) (c_t (f_si f)) h0 = Ok h /\ exists c0, post (ob_veh o) (deg delta_deg) c0 = Ok f) by (destruct HO as [HO|HO]; apply (G _ _ HO)).
  destruct G' as (h0 & Eh & c0 & Ep). clear G HO Hf Hh. destruct (ocumtrapz_spec _ _ _ _ Eh) as (S0 & S1). split; auto.
  assert (ST : forall k, (S k < f_index f)%nat -> nth (S k) h None = (leto a := nth k h None in leto p := nth k (f_qtot f) None in leto q := nth (S k) (f_qtot f) None in Some (a + dt * (p + q) / 2))).
  { intros k Hk. rewrite S1 by lia. rewrite !Tk by lia. rewrite S_INR. destruct (nth k h None); cbn [obind]; auto. destruct (nth k (f_qtot f) None); cbn [obind]; auto. destruct (nth (S k) (f_qtot f) None); cbn [obind]; auto.
    f_equal. field. }
  split; auto. intros Hdt HRN Hv.
  assert (Q : forall k q, (k < f_index f)%nat -> nth k (f_qtot f) None = Some q -> 0 <= q).
  { intros k q Hk Hq. destruct (post_inv _ _ _ _ Ep) as (cls & qc & qr & _ & _ & _ & _ & _ & _ & _ & _ & _ & Qc & Qr & _ & _ & E3). cbv zeta in *.
    assert (L : length (c_v (f_si f)) = length (c_r (f_si f))) by congruence.
    destruct (C45_total_is_sum (ob_veh o) (c_r (f_si f)) (c_v (f_si f)) (f_qtot f) L) as (a & b & Ca & Cb & _ & N).
    { unfold qStagTotal. rewrite Qc, Qr, E3. reflexivity. }
    rewrite N in Hq by lia. cbv zeta in Hq. set (d := density_int _ _) in Hq. set (v := nth k (c_v (f_si f)) 0) in *.
    assert (Hvk : 0 <= v) by (rewrite Forall_forall in Hv; apply Hv, nth_In; lia).
    destruct (a (vh_RN (ob_veh o)) d v) as [x|] eqn:Ex; cbn [obind] in Hq; [|discriminate]. destruct (b (vh_RN (ob_veh o)) d v) as [y|] eqn:Ey; cbn [obind] in Hq; [|discriminate]. injection Hq as <-.
    pose proof (C45_heating_nonneg _ _ _ _ a x HRN Hvk (or_introl Ca) Ex). pose proof (C45_heating_nonneg _ _ _ _ b y HRN Hvk (or_intror Cb) Ey). lra. }
  assert (Step : forall k b, (S k < f_index f)%nat -> nth (S k) h None = Some b -> exists a, nth k h None = Some a /\ a <= b).
  { intros k b Hk Hb. rewrite ST in Hb by auto. destruct (nth k h None) as [a|]; cbn [obind] in Hb; [|discriminate]. destruct (nth k (f_qtot f) None) as [p|] eqn:Ep'; cbn [obind] in Hb; [|discriminate].
    destruct (nth (S k) (f_qtot f) None) as [q|] eqn:Eq'; cbn [obind] in Hb; [|discriminate]. injection Hb as <-. exists a. split; auto. pose proof (Q k p ltac:(lia) Ep'). pose proof (Q (S k) q Hk Eq'). nra. }
  assert (M : forall j k b, (j <= k < f_index f)%nat -> nth k h None = Some b -> exists a, nth j h None = Some a /\ a <= b).
  { intros j k. induction k as [|k IH]; intros b Hk Hb.
    - exists b. replace j with 0%nat by lia. split; auto. lra.
    - destruct (Nat.eq_dec j (S k)) as [->|N]; [exists b; split; auto; lra|]. destruct (Step k b (proj2 Hk) Hb) as (a & Ha & La). destruct (IH a ltac:(lia) Ha) as (a' & Ha' & La'). exists a'. split; auto. lra. }
  intros j k a b Hjk Ha Hb. destruct (M 0%nat j a ltac:(lia) Ha) as (z & Hz & Lz). rewrite S0 in Hz. injection Hz as <-. destruct (M j k b Hjk Hb) as (a' & Ha' & La). rewrite Ha in Ha'. injection Ha' as <-. lra.
Qed.
(** A non-zero starting heat load: propogateEntry2 never returns; if the flight itself can be computed, it
    is stored, the old heat load is kept, and ValueError is raised. *)
Theorem C46_continued_load_fails : forall E o t_sec dt delta_deg, heatLoad0 (ob_init o) <> 0 ->
  (forall o', propogateEntry2 E o t_sec dt delta_deg <> (o', Ok tt)) /\
  forall f, fly (solveTrajectory2 E) (ob_veh o) (ob_tol o) (ob_init o) t_sec dt delta_deg = Ok f ->
    exists o', propogateEntry2 E o t_sec dt delta_deg = (o', Err ValueError) /\ ob_flight o' = Some f /\ ob_heat o' = ob_heat o.
Proof.
  intros E o t_sec dt delta_deg H0.
  assert (X : forall y x, ocumtrapz y x (heatLoad0 (ob_init o)) = Err ValueError).
  { intros [|y0 ys] [|x0 xs]; cbn [ocumtrapz]; auto. destruct (Nat.eqb _ _); cbn [negb]; auto. destruct (Reqb_spec (heatLoad0 (ob_init o)) 0); [contradiction|]. reflexivity. }
  unfold propogateEntry2, store. split.
  - intros o' H. destruct (fly _ _ _ _ _ _ _) as [f|]; [|discriminate]. rewrite X in H. discriminate.
  - intros f ->. rewrite X. exists (set_flight o f). repeat split.
Qed.
(** With a zero starting heat load the two propagators accumulate alike. *)
Theorem C46_same_when_zero : forall E o t_sec dt delta_deg, heatLoad0 (ob_init o) = 0 ->
  fly (solveTrajectory2 E) (ob_veh o) (ob_tol o) (ob_init o) t_sec dt delta_deg = fly (solveTrajectory E) (ob_veh o) (ob_tol o) (ob_init o) t_sec dt delta_deg ->
  propogateEntry2 E o t_sec dt delta_deg = propogateEntry E o t_sec dt delta_deg.
Proof. intros E o t_sec dt delta_deg H0 H. unfold propogateEntry2, propogateEntry. rewrite H, H0. reflexivity. Qed.
(** Witness for C46: see C43_witness, whose propagation returns from any heat load. *)

(** * C47 *)
Lemma set_RN_twice : forall V x y, set_RN (set_RN V x) y = set_RN V y.
Proof. reflexivity. Qed.
Lemma set_RN_same : forall V, set_RN V (vh_RN V) = V.
Proof. intros []. reflexivity. Qed.
(** Peak and final accumulated heating of a vehicle along a trajectory. *)
Definition peak_and_load (V : vehicle) (tc rc vc : list R) (row : option R * option R) : Prop :=
  exists q h, qStagTotal V rc vc = Ok q /\ q <> [] /\ ocumtrapz q tc 0 = Ok h /\ snd row = nth (length q - 1) h None /\ recorded_max q (fst row).
Lemma pymax_from_some : forall l a, exists x, pymax_from (Some a) l = Some x /\ a <= x /\ (x = a \/ In (Some x) l) /\ forall y, In (Some y) l -> y <= x.
Proof.
  induction l as [|[b|] l IH]; intros a; cbn [pymax_from].
  - exists a. cbn [In]. repeat split; auto; [lra|tauto].
  - destruct (Rltb_spec a b) as [L|L].
    + destruct (IH b) as (x & E & H1 & H2 & H3). exists x. split; [exact E|]. split; [lra|]. split; [right; destruct H2 as [-> | H2]; [left; auto|right; auto]|].
      intros y [Hy|Hy]; [injection Hy as <-; lra|auto].
    + destruct (IH a) as (x & E & H1 & H2 & H3). exists x. split; [exact E|]. split; [lra|]. split; [destruct H2 as [-> | H2]; [left; auto|right; right; auto]|].
      intros y [Hy|Hy]; [injection Hy as <-; lra|auto].
  - destruct (IH a) as (x & E & H1 & H2 & H3). exists x. split; [exact E|]. split; [lra|]. split; [destruct H2 as [-> | H2]; [left; auto|right; right; auto]|].
    intros y [Hy|Hy]; [discriminate|auto].
Qed.
Lemma pymax_from_none : forall l, pymax_from None l = None. Proof. induction l as [|[b|] l IH]; cbn [pymax_from]; auto. Qed.
Lemma pymax_recorded : forall l m, pymax l = Ok m -> recorded_max l m.
Proof.
  intros [|[a|] l] m H; cbn [pymax] in H; [discriminate| |]; injection H as <-; cbn [recorded_max]; [|apply pymax_from_none].
  destruct (pymax_from_some l a) as (x & E & H1 & H2 & H3). exists x. split; [exact E|]. split; [destruct H2 as [-> | H2]; [left; auto|right; auto]|].
  intros y [Hy|Hy]; [injection Hy as <-; lra|auto].
Qed.
Lemma last_nth : forall (l : list (option R)), last l None = nth (length l - 1) l None.
Proof.
  induction l as [|a [|b l] IH]; auto. transitivity (last (b :: l) None); [reflexivity|]. rewrite IH. cbn [length]. replace (S (S (length l)) - 1)%nat with (S (S (length l) - 1)) by lia. reflexivity.
Qed.
Lemma rn_row : forall V tc rc vc row, (letr q := qStagTotal V rc vc in letr m := pymax q in letr h := ocumtrapz q tc 0 in Ok (m, last h None)) = Ok row -> peak_and_load V tc rc vc row.
Proof.
  intros V tc rc vc row H. destruct (qStagTotal V rc vc) as [q|] eqn:Eq; [|discriminate]. cbn [rbind] in H. destruct (pymax q) as [m|] eqn:Em; [|discriminate]. cbn [rbind] in H.
  destruct (ocumtrapz q tc 0) as [h|] eqn:Eh; [|discriminate]. cbn [rbind] in H. injection H as <-. destruct (ocumtrapz_inv _ _ _ _ Eh) as (Hn & _ & _ & Lh).
  exists q, h. repeat split; auto; cbn [fst snd]. { rewrite last_nth, Lh. auto. }
  apply pymax_recorded. exact Em.
Qed.
Lemma rn_loop_ok : forall rns V tc rc vc V' rows, rn_loop V tc rc vc rns = (V', Ok rows) ->
  set_RN V' (vh_RN V) = V /\ length rows = length rns /\ forall k, (k < length rns)%nat -> peak_and_load (set_RN V (nth k rns 0)) tc rc vc (nth k rows (None, None)).
Proof.
  induction rns as [|x rns IH]; intros V tc rc vc V' rows H; cbn [rn_loop] in H.
  - injection H as <- <-. split; [apply set_RN_same|]. split; auto. cbn; intros; lia.
  - match type of H with (match ?z with _ => _ end) = _ => destruct z as [row|] eqn:Er; [|discriminate] end.
    destruct (rn_loop (set_RN V x) tc rc vc rns) as [V2 out] eqn:El. destruct out as [rows'|]; [|discriminate]. cbn [rbind] in H. injection H as <- <-.
    destruct (IH _ _ _ _ _ _ El) as (A & B & C). split.
    { apply (f_equal (fun W => set_RN W (vh_RN V))) in A. rewrite !set_RN_twice, set_RN_same in A. exact A. }
    split; [cbn; lia|]. intros [|k] Hk; cbn [nth length] in *; [apply rn_row; auto|]. specialize (C k ltac:(lia)). rewrite set_RN_twice in C. exact C.
Qed.
(** A sweep that returns leaves the vehicle exactly as it was and reports, for every radius, the peak heat
    rate and heat load of a vehicle built with that radius. *)
Theorem C47_sweep : forall mass beta LD A alpha RN p atm user V tc rc vc rns V' rows, Vehicle mass beta LD A alpha RN p atm user = Ok V ->
  computeHeatingForMultipleRN V tc rc vc rns = (V', Ok rows) ->
  V' = V /\ length rows = length rns /\
  forall k, (k < length rns)%nat -> exists W, Vehicle mass beta LD A alpha (nth k rns 0) p atm user = Ok W /\ peak_and_load W tc rc vc (nth k rows (None, None)).
Proof.
  intros mass beta LD A alpha RN p atm user V tc rc vc rns V' rows HV H. unfold computeHeatingForMultipleRN in H. destruct (rn_loop V tc rc vc rns) as [V1 out] eqn:El. destruct out as [rows'|]; [|discriminate].
  injection H as <- <-. destruct (rn_loop_ok _ _ _ _ _ _ _ El) as (X & Y & Z). split; auto. split; auto. intros k Hk. exists (set_RN V (nth k rns 0)). split; auto.
  clear -HV. unfold Vehicle in *. destruct user; [|]; repeat match type of HV with (if ?b then _ else _) = _ => destruct b; [discriminate HV|] end; try discriminate HV; injection HV as <-; reflexivity.
Qed.
(** A sweep that raises stops at its first radius and leaves that radius in the vehicle. *)
Theorem C47_sweep_interrupted : forall V tc rc vc rns V' e, computeHeatingForMultipleRN V tc rc vc rns = (V', Err e) ->
  exists x rest, rns = x :: rest /\ V' = set_RN V x /\ vh_RN V' = x.
Proof.
  intros V tc rc vc rns V' e H. unfold computeHeatingForMultipleRN in H. destruct (rn_loop V tc rc vc rns) as [V1 out] eqn:El. destruct out as [rows'|e']; [discriminate|]. injection H as <- <-.
  assert (Len : forall x q, qStagTotal (set_RN V x) rc vc = Ok q -> forall y, exists q', qStagTotal (set_RN V y) rc vc = Ok q' /\ length q' = length q).
  { intros x q Hq y. unfold qStagTotal, qStagConvective, qStagRadiative, heat_history in *. cbn [vh_planet set_RN vh_RN] in *. destruct (con_law _); [|discriminate]. destruct (rad_law _); [|discriminate]. cbn [rbind] in *. injection Hq as <-.
    eexists. split; [reflexivity|]. unfold vsum, rho_vec. cbn [vh_planet vh_atm set_RN]. rewrite !map_length, !combine_length, !map_length, !combine_length. reflexivity. }
  set (row := fun x => letr q := qStagTotal (set_RN V x) rc vc in letr m := pymax q in letr h := ocumtrapz q tc 0 in Ok (m, last h None)).
  assert (All : forall x r, row x = Ok r -> forall y, exists r', row y = Ok r').
  { intros x r Hr y. unfold row in *. destruct (qStagTotal (set_RN V x) rc vc) as [q|] eqn:Eq; [|discriminate]. cbn [rbind] in Hr. destruct (Len x q Eq y) as (q' & -> & Lq). cbn [rbind].
    destruct (pymax q) as [m|] eqn:Em; [|discriminate]. cbn [rbind] in Hr. destruct (ocumtrapz q tc 0) as [h|] eqn:Eh; [|discriminate]. destruct (ocumtrapz_inv _ _ _ _ Eh) as (Hn & Lt & _ & _).
    assert (Hn' : q' <> []) by (intros ->; destruct q; [congruence|discriminate]). destruct (ocumtrapz_ok q' tc Hn' ltac:(congruence)) as (h' & ->). destruct q'; [congruence|]. cbn [pymax rbind]. eauto. }
  assert (Loop : forall rns y, (exists r, row y = Ok r) -> exists W rows, rn_loop (set_RN V y) tc rc vc rns = (W, Ok rows)).
  { intros l. induction l as [|z l IH]; intros y (r & Hr); cbn [rn_loop]; eauto. rewrite set_RN_twice. destruct (All y r Hr z) as (r' & Hr'). fold (row z). rewrite Hr'. destruct (IH z (ex_intro _ r' Hr')) as (W & rows & ->). cbn [rbind]. eauto. }
  destruct rns as [|x rns]; cbn [rn_loop] in El; [discriminate|]. exists x, rns. split; auto. fold (row x) in El. destruct (row x) as [r|] eqn:Er.
  - destruct (Loop rns x (ex_intro _ r Er)) as (W & rows & EW). rewrite EW in El. discriminate.
  - injection El as <- <-. split; reflexivity.
Qed.
Example C47_interrupted_witness : forall V x rest, vh_planet V = VENUS -> computeHeatingForMultipleRN V [] [] [] (x :: rest) = (set_RN V x, Err ValueError).
Proof. intros V x rest H. unfold computeHeatingForMultipleRN. cbn [rn_loop]. unfold qStagTotal, qStagConvective, qStagRadiative, heat_history. cbn [vh_planet set_RN]. rewrite H. reflexivity. Qed.
(** On a non-empty aligned trajectory every sweep returns. *)
Example C47_witness : forall V tc rc vc rns, vh_planet V = VENUS -> rc <> [] -> length tc = length rc -> length vc = length rc ->
  exists V' rows, computeHeatingForMultipleRN V tc rc vc rns = (V', Ok rows).
Proof.
  intros V tc rc vc rns HV Hn Lt Lv.
  assert (Row : forall x, exists r, (letr q := qStagTotal (set_RN V x) rc vc in letr m := pymax q in letr h := ocumtrapz q tc 0 in Ok (m, last h None)) = Ok r).
  { intros x. destruct (qStagTotal (set_RN V x) rc vc) as [q|] eqn:Eq.
    - destruct (C45_total_is_sum _ _ _ _ Lv Eq) as (f & g & _ & _ & Lq & _). cbn [rbind].
      assert (Hq : q <> []) by (intros ->; destruct rc; [congruence|discriminate]). destruct (ocumtrapz_ok q tc Hq ltac:(congruence)) as (h & Eh). destruct q as [|a q]; [congruence|]. cbn [pymax rbind]. rewrite Eh. cbn [rbind]. eauto.
    - exfalso. unfold qStagTotal, qStagConvective, qStagRadiative, heat_history in Eq. cbn [vh_planet set_RN] in Eq. rewrite HV in Eq. cbn in Eq. discriminate. }
  assert (Loop : forall l y, exists W rows, rn_loop (set_RN V y) tc rc vc l = (W, Ok rows)).
  { intros l. induction l as [|z l IH]; intros y; cbn [rn_loop]; eauto. rewrite set_RN_twice. destruct (Row z) as (r & ->). destruct (IH z) as (W & rows & ->). cbn [rbind]. eauto. }
  unfold computeHeatingForMultipleRN. destruct (Loop rns (vh_RN V)) as (W & rows & E). rewrite set_RN_same in E. rewrite E. eauto.
Qed.
