(** C115, continued: binary64 rounding to nearest is an arithmetic in the sense of RunningSpec. *)
From Coq Require Import ZArith Reals Lra Lia List.
From Flocq Require Import Core Relative Plus_error.
Require Import Verif.Base Verif.Numpy Verif.RoundSpec Verif.PropRound64 Verif.PlanetModel Verif.AeroModel Verif.HeatModel Verif.TrajectoryModel Verif.CorridorModel Verif.GuidanceModel Verif.RunningModel Verif.RunningSpec Verif.PropRunning.
Import ListNotations.
Local Open Scope R_scope.
Local Instance p53' : Prec_gt_0 53 := eq_refl.

Lemma half_eps : / 2 * bpow radix2 (-53 + 1) = bpow radix2 (-53).
Proof. rewrite bpow_plus. change (bpow radix2 1) with 2. lra. Qed.
Theorem C115_binary64 : arithmetic b64 (bpow radix2 (-53)) (bpow radix2 (-1075)).
Proof.
  assert (Ee : / 2 * bpow radix2 (-1074) = bpow radix2 (-1075)) by (change (-1074)%Z with (-1075 + 1)%Z; rewrite bpow_plus; change (bpow radix2 1) with 2; lra).
  split.
  - apply bpow_ge_0.
  - apply bpow_ge_0.
  - intros x y H. apply round_le; auto with typeclass_instances.
  - intros x. apply b64_format. unfold b64. apply generic_format_round; auto with typeclass_instances.
  - intros x. unfold b64. apply round_NE_opp.
  - intros x. destruct (error_N_FLT radix2 (-1074) 53 eq_refl (fun x => negb (Z.even x)) x) as (eps & eta & H1 & H2 & _ & H3).
    change (round radix2 (FLT_exp (-1074) 53) (Znearest (fun x => negb (Z.even x))) x) with (b64 x) in H3. rewrite H3.
    replace (x * (1 + eps) + eta - x) with (x * eps + eta) by ring. eapply Rle_trans; [apply Rabs_triang|]. rewrite Rabs_mult.
    change (-(53) + 1)%Z with (-53 + 1)%Z in H1. rewrite half_eps in H1. rewrite Ee in H2. pose proof (Rabs_pos x). nra.
  - intros x y Hx Hy. apply b64_format in Hx, Hy. destruct (FLT_plus_error_N_ex radix2 (-1074) 53 (fun x => negb (Z.even x)) x y Hx Hy) as (eps & H1 & H2).
    change (round radix2 (FLT_exp (-1074) 53) (Znearest (fun x => negb (Z.even x))) (x + y)) with (b64 (x + y)) in H2. rewrite H2.
    replace ((x + y) * (1 + eps) - (x + y)) with ((x + y) * eps) by ring. rewrite Rabs_mult, Rmult_comm. apply Rmult_le_compat_r; [apply Rabs_pos|].
    eapply Rle_trans; [exact H1|]. unfold u_ro. change (/ 2 * bpow radix2 (- (53) + 1)) with (/ 2 * bpow radix2 (-53 + 1)). rewrite half_eps. pose proof (bpow_gt_0 radix2 (-53)).
    apply Rmult_le_reg_r with (1 + bpow radix2 (-53)); [lra|]. unfold Rdiv. rewrite Rmult_assoc, Rinv_l by lra. nra.
  - intros x Hx. destruct (Rle_lt_dec (bpow radix2 (-1021)) (Rabs x)) as [L|L].
    + assert (E : b64 (x / 2) = x / 2); [|rewrite E, Rminus_diag_eq, Rabs_R0 by reflexivity; apply bpow_ge_0]. apply b64_format. apply b64_format in Hx.
      replace (x / 2) with (x * bpow radix2 (-1)) by (change (bpow radix2 (-1)) with (/ 2); reflexivity).
      apply FLT_format_generic in Hx; [|exact p53']. destruct Hx as [f E Hm He]. 
      assert (N : x <> 0) by (intros ->; rewrite Rabs_R0 in L; pose proof (bpow_gt_0 radix2 (-1021)); lra).
      apply generic_format_FLT_FLX; [|].
      * rewrite Rabs_mult, (Rabs_pos_eq (bpow radix2 (-1))) by apply bpow_ge_0. replace (-1074 + 53 - 1)%Z with (-1021 + -1)%Z by lia. rewrite bpow_plus. apply Rmult_le_compat_r; [apply bpow_ge_0|exact L].
      * apply generic_format_FLX. exists (Float radix2 (Fnum f) (Fexp f + -1)); [|exact Hm]. rewrite E. unfold F2R. cbn [Fnum Fexp]. rewrite bpow_plus. ring.
    + unfold b64. eapply Rle_trans; [apply error_le_half_ulp; auto with typeclass_instances|].
      rewrite ulp_FLT_small; [rewrite <- Ee; lra|exact p53'|]. change (-1074 + 53)%Z with (-1021)%Z.
      unfold Rdiv. rewrite Rabs_mult, (Rabs_pos_eq (/ 2)) by lra. pose proof (Rabs_pos x). lra.
Qed.

(** How large the factors of C115 are: up to a hundredth of all the steps' errors, hardly more than their sum. *)
Theorem C115_factor : forall e k, 0 <= e -> INR k * e <= / 100 -> 0 <= (1 + e) ^ k - 1 <= 1.02 * (INR k * e).
Proof.
  intros e k He. induction k as [|k IH]; intros Hk; [cbn; lra|]. rewrite S_INR in Hk |- *.
  assert (Pk : 0 <= INR k) by apply pos_INR. assert (Hk' : INR k * e <= / 100) by nra. specialize (IH Hk'). cbn [pow].
  assert (Q : (INR k * e) * e <= / 100 * e) by (apply Rmult_le_compat_r; lra). split; nra.
Qed.

(** A flight of a hundred thousand steps of binary64 has its heat load to ten digits. *)
Lemma b64_z : forall x z, x = IZR z -> (Z.abs z < 2 ^ 53)%Z -> b64 x = IZR z.
Proof. intros x z -> H. apply b64_int. exact H. Qed.
Ltac numb e z := rewrite (b64_z e z) by (try reflexivity; lra).
Example C115_witness :
  (forall k, INR k <= 100000 -> (1 + bpow radix2 (-53)) ^ k - 1 <= 1 / 10 ^ 10) /\
  (let y := [0; 3; 5] in let x := [0; 1; 2] in
   y <> [] /\ length y = length x /\ Forall (fun v => b64 v = v) y /\ Forall (fun v => b64 v = v) x /\ Forall (fun v => 0 <= v) y /\ never_falls x /\
   trapezoids y x 2 = 5.5) /\
  (b64 30 = 30 /\ b64 45 = 45 /\ 0 <= 30 * 1 /\ 0 <= 45 <= 180 /\ (forall c, In c [180; 0] -> 0 <= c <= 180) /\ bank_after_r b64 30 1 45 [180; 0] = 45) /\
  (forall leg, In leg [[0; 1]; [0; 2]] -> Forall (fun t => b64 t = t /\ 0 <= t) leg /\ never_falls leg) /\ clock_of b64 [[0; 1]; [0; 2]] = [0; 1; 1; 3].
Proof.
  assert (P : bpow radix2 (-53) <= / 10 ^ 15 * 0.2).
  { change (bpow radix2 (-53)) with (/ IZR (Zpower_pos 2 53)). cbn. lra. }
  split; [|split; [|split; [|split]]].
  - intros k Hk. pose proof (bpow_ge_0 radix2 (-53)). pose proof (pos_INR k). cbn [pow] in P |- *.
    assert (INR k * bpow radix2 (-53) <= 100000 * bpow radix2 (-53)) by (apply Rmult_le_compat_r; lra).
    destruct (C115_factor (bpow radix2 (-53)) k) as (_ & B); lra.
  - cbn zeta. split; [discriminate|]. split; [reflexivity|].
    split; [repeat apply Forall_cons; try apply Forall_nil; apply b64_z; reflexivity|]. split; [repeat apply Forall_cons; try apply Forall_nil; apply b64_z; reflexivity|].
    split; [repeat apply Forall_cons; try apply Forall_nil; lra|]. split.
    + intros j k Hjk. cbn in Hjk. assert (C : (j = 0 \/ j = 1 \/ j = 2)%nat) by lia. assert (D : (k = 0 \/ k = 1 \/ k = 2)%nat) by lia.
      destruct C as [->|[->| ->]], D as [->|[->| ->]]; cbn; try lra; lia.
    + unfold trapezoids. cbn. lra.
  - split; [apply b64_z; reflexivity|]. split; [apply b64_z; reflexivity|]. split; [lra|]. split; [lra|]. split; [intros c [<-|[<-|[]]]; lra|].
    unfold bank_after_r. cbn [fold_left].
    assert (E1 : psuedoController_r b64 30 180 45 1 = 75).
    { unfold psuedoController_r. numb (180 - 45) 135%Z. replace (np_sign 135) with 1 by (unfold np_sign; destruct (Rltb_spec 0 135); [reflexivity|lra]).
      numb (1 * 30) 30%Z. numb (30 * 1) 30%Z. numb (45 + 30) 75%Z. destruct (Rltb _ _); reflexivity. }
    rewrite E1. unfold psuedoController_r. numb (0 - 75) (-75)%Z.
    replace (np_sign (-75)) with (-1) by (unfold np_sign; destruct (Rltb_spec 0 (-75)); [lra|]; destruct (Rltb_spec (-75) 0); [reflexivity|lra]).
    numb (-1 * 30) (-30)%Z. numb (-30 * 1) (-30)%Z. numb (75 + -30) 45%Z. destruct (Rltb _ _); reflexivity.
  - intros leg H. assert (N : forall a b, a <= b -> never_falls [a; b]).
    { intros a b Hab j k Hjk. cbn in Hjk. assert (C : (j = 0 \/ j = 1)%nat) by lia. assert (D : (k = 0 \/ k = 1)%nat) by lia.
      destruct C as [->| ->], D as [->| ->]; cbn; try lra; lia. }
    destruct H as [<-|[<-|[]]]; (split; [|apply N; lra]); repeat apply Forall_cons; try apply Forall_nil; (split; [apply b64_z; reflexivity|lra]).
  - unfold clock_of, clock_app. cbn [fold_left app map last]. numb (0 + 0) 0%Z. numb (1 + 0) 1%Z. numb (0 + 1) 1%Z. numb (2 + 1) 3%Z. reflexivity.
Qed.
