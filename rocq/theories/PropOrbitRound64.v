(** C119, continued: what the bounds amount to in binary64, and a circular orbit whose eccentricity comes out as nan. *)
From Coq Require Import ZArith Reals Lra Lia.
From Flocq Require Import Core.
Require Import Verif.Base Verif.RoundSpec Verif.PropRound64 Verif.PlanetModel Verif.OrbitScalarModel Verif.RunningSpec Verif.PropRunning64 Verif.PropUnits64
  Verif.OrbitRoundModel Verif.OrbitRoundSpec Verif.PropOrbitRound.
Local Open Scope R_scope.

Lemma small64 : bpow radix2 (-53) <= 1e-9 /\ bpow radix2 (-1075) <= bpow radix2 (-53) * 1e-6.
Proof. pose proof e53_num. pose proof tiny. split; [lra|]. eapply Rle_trans; [exact H0|]. lra. Qed.
Lemma root64 : sqrt (82 * bpow radix2 (-53)) + 2 * bpow radix2 (-53) <= 1e-7.
Proof.
  pose proof e53_num as [_ H]. assert (sqrt (82 * bpow radix2 (-53)) <= 0.99e-7); [|lra]. rewrite <- (sqrt_square 0.99e-7) by lra. apply sqrt_le_1_alt. lra.
Qed.
(** The eccentricity is within 10^-7, and within 10^-12 if it is at least 0.01; it is undefined only if it is below 10^-7.
    The altitudes of the apsides are within 2 * 10^-12 of the semi-major axis if that is at most a hundred times the
    distance and the eccentricity at least 0.01, and within 1.1 * 10^-7 of it in any case. *)
Theorem C119_binary64 : forall sq gm rp r v g c a ecc, let e := bpow radix2 (-53) in
  good_square sq e (bpow radix2 (-1075)) -> good_cos c g e -> ordinary b64 gm r v -> on_ellipse gm r v g a ecc -> a <= 100 * r -> 0 <= rp <= r ->
  match orbit_r b64 sq gm r v c with
  | None => ecc <= 1e-7
  | Some (a', ecc') => Rabs (a' - a) <= 2e-15 * (a * a / r) /\ Rabs (ecc' - ecc) <= 1e-7 /\ (0.01 <= ecc -> Rabs (ecc' - ecc) <= 1e-12)
  end /\
  match apo_km_r b64 sq gm rp r v c with
  | None => ecc <= 1e-7
  | Some h => let off := Rabs (1000 * h - (a * (1 + ecc) - rp)) in off <= 1.1e-7 * a /\ (0.01 <= ecc -> off <= 2e-12 * a)
  end /\
  match peri_km_r b64 sq gm rp r v c with
  | None => ecc <= 1e-7
  | Some h => let off := Rabs (1000 * h - (a * (1 - ecc) - rp)) in off <= 1.1e-7 * a /\ (0.01 <= ecc -> off <= 2e-12 * a)
  end.
Proof.
  intros sq gm rp r v g c a ecc e Sq Co Od El Hfar Hp. destruct small64 as [S1 S2]. fold e in S1, S2. pose proof e53_num as EN. fold e in EN. pose proof root64 as RT. fold e in RT.
  assert (Far : 1e5 * e * a <= r). { assert (e * a <= 1.12e-16 * (100 * r)). { destruct Od as [_ R V]. destruct (ellipse_facts _ _ _ _ _ _ R V El) as (_ & Ra & _). apply Rmult_le_compat; lra. } destruct Od as [_ R V]. lra. }
  pose proof (C119_orbit _ _ _ _ _ _ _ _ _ _ _ C115_binary64 Sq S1 S2 Co Od El Far) as O.
  pose proof (fun apo => C119_apsides _ _ _ _ gm rp _ _ _ _ _ _ apo C115_binary64 Sq S1 S2 Co Od El Far (proj1 Hp)) as Q. fold e in O, Q.
  destruct Od as [_ R V]. destruct (ellipse_facts _ _ _ _ _ _ R V El) as (Ec & Ra & _).
  assert (W : 0 <= a * a / r <= 100 * a).
  { split. - apply Rmult_le_pos; [apply Rmult_le_pos; lra|]. left. apply Rinv_0_lt_compat. lra.
    - apply Rmult_le_reg_r with r; [lra|]. unfold Rdiv. rewrite Rmult_assoc, Rinv_l by lra. assert (a * a <= a * (100 * r)) by (apply Rmult_le_compat_l; lra). lra. }
  assert (EW : 0 <= e * (a * a / r) <= 1.12e-16 * (100 * a)) by (split; [apply Rmult_le_pos|apply Rmult_le_compat]; lra).
  assert (EP : 0 <= e * rp <= 1.12e-16 * (2 * a)) by (split; [apply Rmult_le_pos|apply Rmult_le_compat]; lra).
  assert (EA : 0 <= e * a <= 1.12e-16 * a) by (split; [apply Rmult_le_pos|apply Rmult_le_compat]; lra).
  assert (Z : ecc * ecc <= 82 * e -> ecc <= 1e-7) by (intros; nra).
  assert (RTa : a * (sqrt (82 * e) + 2 * e) <= a * 1e-7) by (apply Rmult_le_compat_l; lra).
  assert (Div : forall x B, 0.01 <= ecc -> x * ecc <= B * ecc -> x <= B) by (intros x B Hx Hy; apply Rmult_le_reg_r with ecc; lra).
  assert (F : forall y, y <= 60 * e * (a * a / r) + 3 * e * rp + 1.01 * a * (sqrt (82 * e) + 2 * e) -> y * ecc <= (60 * e * (a * a / r) + 3 * e * rp) * ecc + 1.01 * a * (84 * e) ->
    y <= 1.1e-7 * a /\ (0.01 <= ecc -> y <= 2e-12 * a)).
  { intros y Y1 Y2. split; [lra|]. intros Hx. apply (Div _ _ Hx). eapply Rle_trans; [exact Y2|].
    assert (a * e * 1 <= a * e * (100 * ecc)) by (apply Rmult_le_compat_l; lra).
    assert ((60 * e * (a * a / r) + 3 * e * rp) * ecc <= (60 * 1.12e-16 * (100 * a) + 3 * 1.12e-16 * (2 * a)) * ecc) by (apply Rmult_le_compat_r; lra).
    assert (e * a * (100 * ecc) <= 1.12e-16 * a * (100 * ecc)) by (apply Rmult_le_compat_r; lra).
    assert (0 <= a * ecc) by (apply Rmult_le_pos; lra). lra. }
  split; [|split].
  - destruct (orbit_r _ _ _ _ _ _) as [[a' ecc']|]; [|auto]. destruct O as (O1 & _ & O2 & O3). split; [|split].
    + eapply Rle_trans; [exact O1|]. apply Rmult_le_compat_r; lra.
    + lra.
    + intros Hx. apply (Div _ _ Hx). eapply Rle_trans; [exact O3|]. lra.
  - specialize (Q true). cbn beta iota in Q. destruct (apo_km_r _ _ _ _ _ _ _); [|auto]. destruct Q as [Q1 Q2]. apply F; assumption.
  - specialize (Q false). cbn beta iota in Q. destruct (peri_km_r _ _ _ _ _ _ _); [|auto]. destruct Q as [Q1 Q2]. apply F; assumption.
Qed.

(** ** A circular orbit of the Earth without an eccentricity *)
Lemma b64_is : forall x m k, (-1000 <= k <= 900)%Z -> bpow radix2 (52 + k) <= x < bpow radix2 (53 + k) -> Rabs (x * bpow radix2 (- k) - IZR m) < / 2 -> b64 x = IZR m * bpow radix2 k.
Proof.
  intros x m k Hk Hx Hm. unfold b64, round, F2R, scaled_mantissa, cexp. cbn [Fnum Fexp].
  assert (M : mag_val radix2 x (mag radix2 x) = (53 + k)%Z).
  { apply mag_unique. rewrite Rabs_pos_eq by (pose proof (bpow_gt_0 radix2 (52 + k)); lra). replace (53 + k - 1)%Z with (52 + k)%Z by lia. exact Hx. }
  rewrite M. replace (FLT_exp (-1074) 53 (53 + k)) with k by (unfold FLT_exp; lia). rewrite (Znearest_imp _ _ m); [reflexivity|exact Hm].
Qed.
Lemma b64_opp : forall x, b64 (- x) = - b64 x.
Proof. exact (ar_neg _ _ _ C115_binary64). Qed.
Definition square64 (x : R) : R := b64 (x * x).
Lemma square64_good : good_square square64 (bpow radix2 (-53)) (bpow radix2 (-1075)).
Proof.
  intros x. pose proof (ar_err _ _ _ C115_binary64 (x * x)) as H. assert (P : 0 <= x * x) by apply Rle_0_sqr. rewrite (Rabs_pos_eq (x * x)) in H by auto.
  assert (0 <= bpow radix2 (-53) * (x * x)) by (apply Rmult_le_pos; [apply bpow_ge_0|auto]). unfold square64. lra.
Qed.
Definition r_nan : R := 10682368.
Definition v_nan : R := 6716374810259712 / 1099511627776.
Lemma b64_v : b64 v_nan = v_nan.
Proof.
  replace v_nan with (IZR 6716374810259712 * bpow radix2 (-40)) by (unfold v_nan; cbn; lra).
  apply b64_format. apply generic_format_FLT. exists (Float radix2 6716374810259712 (-40)); [reflexivity| |]; vm_compute; congruence.
Qed.
Ltac is64 x m k := rewrite (b64_is x m k) by (unfold r_nan, v_nan; lia || (split; cbn; lra) || (cbn; apply Rabs_def1; lra)).
Theorem C119_circular_nan :
  let gm := 3.986004e14 in let e := bpow radix2 (-53) in
  machine b64 r_nan /\ machine b64 v_nan /\ good_square square64 e (bpow radix2 (-1075)) /\ good_cos 1 0 e /\ ordinary b64 gm r_nan v_nan /\
  (exists a ecc, on_ellipse gm r_nan v_nan 0 a ecc /\ ecc <= 1e-14 /\ a <= 1.01 * r_nan) /\
  orbit_r b64 square64 gm r_nan v_nan 1 = None.
Proof.
  cbv zeta. split; [|split; [|split; [|split; [|split; [|split]]]]].
  - apply b64_int. reflexivity.
  - apply b64_v.
  - apply square64_good.
  - unfold good_cos. rewrite cos_0, Rminus_diag_eq, Rabs_R0 by reflexivity. pose proof (bpow_ge_0 radix2 (-53)). lra.
  - split; [|unfold r_nan; lra|unfold v_nan; lra]. replace 3.986004e14 with (IZR 398600400000000) by lra. apply b64_int. reflexivity.
  - exists (3.986004e14 * r_nan / (2 * 3.986004e14 - r_nan * (v_nan * v_nan))), (Rabs (1 - r_nan * (v_nan * v_nan) / 3.986004e14)).
    assert (D : 3.98600399e14 <= 2 * 3.986004e14 - r_nan * (v_nan * v_nan)) by (unfold r_nan, v_nan; lra). split; [|split].
    + split; [|split; [|split]].
      * apply Rdiv_lt_0_compat; [unfold r_nan; lra|lra].
      * apply Rabs_pos.
      * assert (0 < r_nan) by (unfold r_nan; lra). replace 3.986004e14 with (398600400000000) in * by lra. field. split; lra.
      * rewrite cos_0. replace (Rabs (1 - r_nan * (v_nan * v_nan) / 3.986004e14) * Rabs (1 - r_nan * (v_nan * v_nan) / 3.986004e14))
          with ((1 - r_nan * (v_nan * v_nan) / 3.986004e14) * (1 - r_nan * (v_nan * v_nan) / 3.986004e14)).
        { assert (0 < r_nan) by (unfold r_nan; lra). replace 3.986004e14 with (398600400000000) in * by lra. field. lra. }
        rewrite <- Rabs_mult. symmetry. apply Rabs_pos_eq. apply Rle_0_sqr.
    + unfold r_nan, v_nan. apply Rabs_le. lra.
    + apply Rmult_le_reg_r with (2 * 3.986004e14 - r_nan * (v_nan * v_nan)); [lra|]. unfold Rdiv. rewrite Rmult_assoc, Rinv_l by lra.
      assert (0 < r_nan) by (unfold r_nan; lra). nra.
  - unfold orbit_r, energy_r, angmom_r, sma_r, ecc_r, square64.
    assert (G : b64 (-1 * 3.986004e14) = - 398600400000000). { replace (-1 * 3.986004e14) with (IZR (-398600400000000)) by lra. apply b64_int. reflexivity. }
    rewrite G. replace (- 398600400000000 / r_nan) with (- (398600400000000 / r_nan)) by (unfold Rdiv; ring). rewrite b64_opp.
    is64 (398600400000000 / r_nan) 5008181712883436%Z (-27)%Z.
    is64 (v_nan * v_nan) 5008181712883440%Z (-27)%Z.
    is64 (0.5 * (IZR 5008181712883440 * bpow radix2 (-27))) 5008181712883440%Z (-28)%Z.
    replace (- (IZR 5008181712883436 * bpow radix2 (-27)) + IZR 5008181712883440 * bpow radix2 (-28)) with (- (IZR 5008181712883432 * bpow radix2 (-28))) by (cbn; lra).
    rewrite b64_opp. is64 (IZR 5008181712883432 * bpow radix2 (-28)) 5008181712883432%Z (-28)%Z.
    replace (2 * - (IZR 5008181712883432 * bpow radix2 (-28))) with (- (IZR 5008181712883432 * bpow radix2 (-27))) by (cbn; lra).
    rewrite b64_opp. is64 (IZR 5008181712883432 * bpow radix2 (-27)) 5008181712883432%Z (-27)%Z.
    destruct (Reqb_spec (- (IZR 5008181712883432 * bpow radix2 (-27))) 0) as [N|_]; [exfalso; cbn in N; lra|]. cbn [obind].
    is64 (r_nan * v_nan) 8552883547440102%Z (-17)%Z. rewrite Rmult_1_r. is64 (IZR 8552883547440102 * bpow radix2 (-17)) 8552883547440102%Z (-17)%Z.
    is64 (IZR 8552883547440102 * bpow radix2 (-17) * (IZR 8552883547440102 * bpow radix2 (-17))) 8121483150000007%Z 19%Z.
    replace (- (IZR 5008181712883432 * bpow radix2 (-27)) * (IZR 8121483150000007 * bpow radix2 19)) with (- (IZR 5008181712883432 * bpow radix2 (-27) * (IZR 8121483150000007 * bpow radix2 19))) by ring.
    rewrite b64_opp. is64 (IZR 5008181712883432 * bpow radix2 (-27) * (IZR 8121483150000007 * bpow radix2 19)) 4515705963972324%Z 45%Z.
    is64 (3.986004e14 * 3.986004e14) 4515705963972323%Z 45%Z.
    replace (- (IZR 4515705963972324 * bpow radix2 45) / (IZR 4515705963972323 * bpow radix2 45)) with (- (IZR 4515705963972324 / IZR 4515705963972323)) by (field; pose proof (bpow_gt_0 radix2 45); lra).
    rewrite b64_opp. is64 (IZR 4515705963972324 / IZR 4515705963972323) 4503599627370497%Z (-52)%Z.
    replace (1 + - (IZR 4503599627370497 * bpow radix2 (-52))) with (- bpow radix2 (-52)) by (cbn; lra).
    rewrite (proj2 (b64_pow (-52) ltac:(lia))). destruct (Rltb_spec (- bpow radix2 (-52)) 0) as [_|N]; [reflexivity|]. exfalso. pose proof (bpow_gt_0 radix2 (-52)). lra.
Qed.

(** An eccentric orbit of the Earth meets the other hypotheses. *)
Example C119_witness : let gm := 3.986004e14 in let e := bpow radix2 (-53) in
  good_square square64 e (bpow radix2 (-1075)) /\ good_cos 1 0 e /\ ordinary b64 gm 6600000 9000 /\ 0 <= 6371000 <= 6600000 /\
  exists a ecc, on_ellipse gm 6600000 9000 0 a ecc /\ 0.01 <= ecc /\ a <= 100 * 6600000 /\ orbit_r b64 square64 gm 6600000 9000 1 <> None.
Proof.
  cbv zeta. assert (C1 : good_cos 1 0 (bpow radix2 (-53))). { unfold good_cos. rewrite cos_0, Rminus_diag_eq, Rabs_R0 by reflexivity. pose proof (bpow_ge_0 radix2 (-53)). lra. }
  assert (O1 : ordinary b64 3.986004e14 6600000 9000). { split; [|lra|lra]. replace 3.986004e14 with (IZR 398600400000000) by lra. apply b64_int. reflexivity. }
  split; [apply square64_good|]. split; [exact C1|]. split; [exact O1|]. split; [lra|].
  assert (El : on_ellipse 3.986004e14 6600000 9000 0 (3.986004e14 * 6600000 / (2 * 3.986004e14 - 6600000 * (9000 * 9000))) (6600000 * (9000 * 9000) / 3.986004e14 - 1)).
  { split; [lra|]. split; [lra|]. rewrite cos_0. split; lra. }
  eexists _, _. split; [exact El|]. split; [lra|]. split; [lra|]. intros N.
  destruct (C119_binary64 square64 3.986004e14 6371000 6600000 9000 0 1 _ _ square64_good C1 O1 El ltac:(lra) ltac:(lra)) as [H _]. rewrite N in H. lra.
Qed.
