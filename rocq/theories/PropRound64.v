(** C96, continued: binary64 rounding to nearest is a rounding in the sense of RoundSpec. *)
From Coq Require Import ZArith Reals Lra Lia.
From Flocq Require Import Core Relative.
Require Import Verif.Base Verif.Numpy Verif.PlanetModel Verif.AeroModel Verif.HeatModel Verif.TrajectoryModel Verif.OrbitScalarModel Verif.OrbiterModel
  Verif.CorridorModel Verif.CorridorSpec Verif.CorridorProofs Verif.RoundSpec Verif.RoundModel Verif.PropRound.
Local Open Scope R_scope.

Definition b64 (x : R) : R := round radix2 (FLT_exp (-1074) 53) ZnearestE x.
Local Instance p53 : Prec_gt_0 53 := eq_refl.

Lemma b64_format : forall x, b64 x = x <-> generic_format radix2 (FLT_exp (-1074) 53) x.
Proof.
  intros x. split.
  - intros H. rewrite <- H. unfold b64. apply generic_format_round; auto with typeclass_instances.
  - intros H. apply round_generic; auto with typeclass_instances.
Qed.
Lemma b64_twice : forall x, b64 x = x -> b64 (2 * x) = 2 * x.
Proof.
  intros x H. apply b64_format in H. apply b64_format. apply FLT_format_generic in H; [|exact p53]. destruct H as [[m e] E Hm He].
  apply generic_format_FLT. exists (Float radix2 m (e + 1)); cbn [Fnum Fexp] in *; auto; [|lia].
  rewrite E. unfold F2R. cbn [Fnum Fexp]. rewrite bpow_plus. change (bpow radix2 1) with 2. ring.
Qed.
(** Angles of up to 180 degrees: the rounding error of a sum, a difference or a mean is at most 2^-45 degrees. *)
Theorem C96_binary64 : rounding b64 (/ 2 ^ 45) 360.
Proof.
  split.
  - intros x y H. apply round_le; auto with typeclass_instances.
  - intros x. apply b64_format. unfold b64. apply generic_format_round; auto with typeclass_instances.
  - exact b64_twice.
  - intros x Hx. unfold b64. eapply Rle_trans; [apply error_le_half_ulp; auto with typeclass_instances|].
    assert (U : ulp radix2 (FLT_exp (-1074) 53) x <= bpow radix2 (-44)).
    { destruct (Req_dec x 0) as [->|N].
      - rewrite ulp_FLT_0 by exact p53. apply bpow_le. lia.
      - rewrite ulp_neq_0 by auto. apply bpow_le. unfold cexp, FLT_exp.
        assert (mag radix2 x <= 9)%Z. { apply mag_le_bpow; auto. eapply Rle_lt_trans; [exact Hx|]. change (bpow radix2 9) with 512. lra. }
        lia. }
    replace (/ 2 ^ 45) with (/ 2 * bpow radix2 (-44)); [lra|].
    change (bpow radix2 (-44)) with (/ IZR (Zpower_pos 2 44)). rewrite <- Rinv_mult. f_equal. change (2 ^ 45) with (2 * 2 ^ 44). f_equal.
    change (Zpower_pos 2 44) with (2 ^ 44)%Z. change 2%Z with (Z.of_nat 2). rewrite pow_IZR. reflexivity.
Qed.
(** From 8 to 16 degrees, where entry angles usually are, the numbers of the machine are 2^-49 degrees apart, so
    that a finer tolerance makes a search run for ever. *)
Lemma b64_lattice : forall x, b64 x = x -> 8 <= Rabs x -> exists k, x = IZR k * bpow radix2 (-49).
Proof.
  intros x H Hx. apply b64_format in H. unfold generic_format, F2R in H. cbn [Fnum Fexp] in H.
  set (m := Ztrunc (scaled_mantissa radix2 (FLT_exp (-1074) 53) x)) in H. set (c := cexp radix2 (FLT_exp (-1074) 53) x) in H.
  assert (Hc : (-49 <= c)%Z).
  { unfold c, cexp, FLT_exp. assert (4 <= mag radix2 x)%Z. { apply mag_ge_bpow. change (bpow radix2 (4 - 1)) with 8. auto. } lia. }
  exists (m * 2 ^ (c + 49))%Z. rewrite H, mult_IZR, Rmult_assoc. f_equal.
  rewrite (IZR_Zpower radix2) by lia. rewrite <- bpow_plus. f_equal. lia.
Qed.
Theorem C96_spacing : forall low high, 8 <= low -> spaced b64 low high (bpow radix2 (-49)) /\ spaced b64 (- high) (- low) (bpow radix2 (-49)).
Proof.
  intros low high H.
  assert (K : forall x y, b64 x = x -> b64 y = y -> 8 <= Rabs x -> 8 <= Rabs y -> x <> y -> bpow radix2 (-49) <= Rabs (x - y)).
  { intros x y Hx Hy Ax Ay N. destruct (b64_lattice x Hx Ax) as (i & ->), (b64_lattice y Hy Ay) as (j & ->).
    pose proof (bpow_gt_0 radix2 (-49)) as P. replace (IZR i * bpow radix2 (-49) - IZR j * bpow radix2 (-49)) with (IZR (i - j) * bpow radix2 (-49)) by (rewrite minus_IZR; ring).
    rewrite Rabs_mult, (Rabs_pos_eq (bpow radix2 (-49))) by lra. rewrite <- abs_IZR.
    assert (1 <= Z.abs (i - j))%Z by (assert (i <> j) by (intros ->; auto); lia). apply IZR_le in H0. nra. }
  split; intros x y Mx My Hx Hy N; apply K; auto; try (rewrite Rabs_pos_eq; lra); try (rewrite Rabs_left; lra).
Qed.
Lemma b64_pow : forall e, (-1000 <= e <= 1000)%Z -> machine b64 (bpow radix2 e) /\ machine b64 (- bpow radix2 e).
Proof.
  intros e He. assert (G : generic_format radix2 (FLT_exp (-1074) 53) (bpow radix2 e)) by (apply generic_format_bpow; unfold FLT_exp; lia).
  split; apply b64_format; auto. apply generic_format_opp. auto.
Qed.
Lemma b64_int : forall z, (Z.abs z < 2 ^ 53)%Z -> machine b64 (IZR z).
Proof.
  intros z Hz. apply b64_format, generic_format_FLT. exists (Float radix2 z 0); cbn [Fnum Fexp]; auto; [|lia]. unfold F2R. cbn [Fnum Fexp bpow]. ring.
Qed.
(** A concrete search: the bracket -15..-10 degrees and the predicate "shallower than -12". *)
Definition probe (o : vobj) : vobj * res R := (o, Ok (if Rltb (gamma0_deg (ob_init o)) (-12) then 1 else -1)).
Lemma probe_good : good probe.
Proof.
  split.
  - intros o. apply same_refl.
  - intros o o' (_ & E & _). unfold probe. cbn [snd]. rewrite E. reflexivity.
  - intros o a H. unfold probe in H. cbn [snd] in H. injection H as <-. destruct (Rltb _ _); auto.
Qed.
Lemma probe_opposite : forall o, opposite (answer_at probe o) (-15) (-10).
Proof.
  intros o. left. unfold answer_at, probe. cbn [snd set_gamma0 ob_init with_gamma0 gamma0_deg].
  destruct (Rltb_spec (-15) (-12)); [|lra]. destruct (Rltb_spec (-10) (-12)); [lra|]. auto.
Qed.
Example C96_witness : forall o, limit_search_r b64 probe (1 / 10 ^ 10) 40 o (-15) (-10) <> None /\
  forall n, limit_search_r b64 probe (1 / 10 ^ 15) n o (-15) (-10) = None.
Proof.
  intros o. assert (M1 : machine b64 (-15)) by (apply (b64_int (-15)); reflexivity). assert (M2 : machine b64 (-10)) by (apply (b64_int (-10)); reflexivity).
  assert (S1 : Rabs (-15) <= 360 / 2) by (rewrite Rabs_left; lra). assert (S2 : Rabs (-10) <= 360 / 2) by (rewrite Rabs_left; lra). split.
  - apply (C96_terminates b64 (/ 2 ^ 45) 360 probe (1 / 10 ^ 10) 40 o (-15) (-10) _ (answer_at probe o) C96_binary64 probe_good); auto.
    + left. auto.
    + rewrite Rabs_pos_eq by lra. assert (E : (2 ^ 40 = 1099511627776) /\ (2 ^ 45 = 35184372088832) /\ (10 ^ 10 = 10000000000)) by (repeat split; ring). destruct E as (-> & -> & ->). lra.
  - intros n. apply (C96_too_fine b64 (/ 2 ^ 45) 360 probe (1 / 10 ^ 15) (bpow radix2 (-49)) n o (-15) (-10) _ (answer_at probe o) C96_binary64 probe_good); auto.
    + left. auto.
    + rewrite Rmin_left, Rmax_right by lra. destruct (C96_spacing 10 15 ltac:(lra)) as (_ & H). exact H.
    + apply b64_pow. lia.
    + apply b64_pow. lia.
    + change (bpow radix2 (-49)) with (/ IZR (Zpower_pos 2 49)). change (Zpower_pos 2 49) with 562949953421312%Z.
      assert (E : 10 ^ 15 = 1000000000000000) by ring. rewrite E. lra.
    + apply probe_opposite.
    + intros g _. eexists. reflexivity.
Qed.

(** * C97 in binary64 *)
Theorem C97_binary64 : relative b64 (/ 2 ^ 53) (bpow radix2 (-1022)).
Proof.
  split; [apply round_0; auto with typeclass_instances|]. intros x Hx. unfold b64.
  pose proof (relative_error_N_FLT radix2 (-1074) 53 p53 (fun z => negb (Z.even z)) x Hx) as H.
  replace (/ 2 ^ 53) with (/ 2 * bpow radix2 (-53 + 1)); [exact H|].
  change (bpow radix2 (-53 + 1)) with (/ IZR (Zpower_pos 2 52)). rewrite <- Rinv_mult. f_equal. change (2 ^ 53) with (2 * 2 ^ 52). f_equal.
  change (Zpower_pos 2 52) with (2 ^ 52)%Z. change 2%Z with (Z.of_nat 2). rewrite pow_IZR. reflexivity.
Qed.
