(** C117, continued: what the bounds amount to in binary64. *)
From Coq Require Import ZArith Reals Lra Lia List.
From Flocq Require Import Core.
Require Import Verif.Base Verif.RoundSpec Verif.PropRound64 Verif.PlanetModel Verif.TrajectoryModel Verif.RunningSpec Verif.PropRunning64 Verif.UnitsModel Verif.UnitsSpec Verif.PropUnits.
Import ListNotations.
Local Open Scope R_scope.

Lemma e53 : bpow radix2 (-53) = / 2 ^ 53.
Proof. cbn. lra. Qed.
Lemma e53_num : 1.11e-16 <= bpow radix2 (-53) <= 1.12e-16.
Proof. rewrite e53. cbn. lra. Qed.
Lemma tiny : bpow radix2 (-1075) <= 1e-60.
Proof.
  apply Rle_trans with (bpow radix2 (-53 + -53 + (-53 + -53))); [apply bpow_le; lia|]. rewrite !bpow_plus. pose proof e53_num as [_ H]. pose proof (bpow_ge_0 radix2 (-53)) as P.
  assert (Q : 0 <= bpow radix2 (-53) * bpow radix2 (-53) <= 1.12e-16 * 1.12e-16) by (split; [apply Rmult_le_pos|apply Rmult_le_compat]; lra).
  apply Rle_trans with ((1.12e-16 * 1.12e-16) * (1.12e-16 * 1.12e-16)); [apply Rmult_le_compat; lra|lra].
Qed.
Lemma PI_3_4 : 3 <= PI <= 4.
Proof. split; [|apply PI_4]. pose proof PI2_3_2. lra. Qed.
(** np.pi and 1E-3 as binary64 reads them. *)
Theorem C117_constants : constants (bpow radix2 (-53)) (b64 PI) (b64 (/ 1000)).
Proof.
  pose proof PI_3_4 as P. destruct C115_binary64 as [_ _ Mo _ _ _ _ _]. split.
  - split.
    + pose proof (Mo 3 PI ltac:(lra)) as H. assert (E : b64 3 = 3) by (apply b64_int; reflexivity). lra.
    + pose proof (Mo PI 4 ltac:(lra)) as H. assert (E : b64 4 = 4) by (apply b64_int; reflexivity). lra.
  - destruct C97_binary64 as [_ H]. specialize (H (/ 1000)). rewrite (Rabs_pos_eq (/ 1000)) in H by lra. rewrite e53. apply H.
    apply Rle_trans with (bpow radix2 (-10)); [apply bpow_le; lia|]. cbn. lra.
Qed.

Lemma off_num : forall n m f x y B, INR n <= 1e6 -> (m <= 7)%nat -> 0 <= f -> Rabs x + f <= B ->
  off (bpow radix2 (-53)) (n * m) f x y -> Rabs (y - x) <= INR n * (INR m * 1.15e-16 * B).
Proof.
  intros n m f x y B Hn Hm Hf HB H. unfold off in H. pose proof e53_num as [E1 E2].
  assert (N : 0 <= INR n <= 1000000). { split; [apply pos_INR|lra]. }
  assert (M : 0 <= INR m <= 7). { split; [apply pos_INR|]. replace 7 with (INR 7) by (cbn; lra). apply le_INR. exact Hm. }
  assert (NM : 0 <= INR n * INR m <= 7000000) by (split; [apply Rmult_le_pos; lra|]; replace 7000000 with (1000000 * 7) by lra; apply Rmult_le_compat; lra).
  pose proof (C115_factor (bpow radix2 (-53)) (n * m) ltac:(lra)) as F. rewrite mult_INR in F.
  assert (K : INR n * INR m * bpow radix2 (-53) <= 7000000 * 1.12e-16) by (apply Rmult_le_compat; lra).
  specialize (F ltac:(lra)). destruct F as [F0 F1]. pose proof (Rabs_pos x).
  eapply Rle_trans; [exact H|]. apply Rle_trans with ((INR n * INR m * 1.15e-16) * B); [|lra].
  assert (INR n * INR m * bpow radix2 (-53) <= INR n * INR m * 1.12e-16) by (apply Rmult_le_compat_l; lra).
  apply Rmult_le_compat; lra.
Qed.

(** On a planet up to the size of Jupiter, [n] passes through the conversions move an altitude by at most [n] micrometres,
    a speed by at most [n] times 0.1 nm/s and an angle by at most [n] times 10^-12 degrees. *)
Theorem C117_binary64 : forall rp vref n i, 1 <= rp <= 7.5e7 -> 0 < vref <= 1e5 -> INR n <= 1e6 ->
  Rabs (h0_km i) <= 1e6 -> Rabs (v0_kms i) <= 100 -> Rabs (gamma0_deg i) <= 360 -> Rabs (theta0_deg i) <= 360 -> Rabs (phi0_deg i) <= 360 -> Rabs (psi0_deg i) <= 360 ->
  let i' := Nat.iter n (first_sample_r b64 (b64 PI) (b64 (/ 1000)) rp vref) i in
  Rabs (h0_km i' - h0_km i) <= INR n * 1e-9 /\ Rabs (v0_kms i' - v0_kms i) <= INR n * 1e-13 /\
  Rabs (gamma0_deg i' - gamma0_deg i) <= INR n * 1e-12 /\ Rabs (theta0_deg i' - theta0_deg i) <= INR n * 1e-12 /\
  Rabs (phi0_deg i' - phi0_deg i) <= INR n * 1e-12 /\ Rabs (psi0_deg i' - psi0_deg i) <= INR n * 1e-12 /\ heatLoad0 i' = heatLoad0 i.
Proof.
  intros rp vref n i Hr Hv Hn B1 B2 B3 B4 B5 B6. cbv zeta. pose proof e53_num as [E1 E2].
  assert (HH : bpow radix2 (-1075) * (180 + rp + vref) <= bpow radix2 (-53) * / 1000).
  { pose proof tiny. pose proof (bpow_ge_0 radix2 (-1075)). apply Rle_trans with (1e-60 * (180 + 7.5e7 + 1e5)); [apply Rmult_le_compat; lra|lra]. }
  destruct (C117_many_restarts b64 _ _ _ _ rp vref (/ 1000) C115_binary64 C117_constants ltac:(lra) ltac:(lra) ltac:(lra) HH n i) as (I1 & I2 & I3 & I4 & I5 & I6 & I7 & I8).
  assert (N : 0 <= INR n) by apply pos_INR.
  apply (off_num n 7 _ _ _ (1e6 + / 1000 + 7.5e7 / 500)) in I1; [|auto|auto|lra|lra].
  apply (off_num n 5 _ _ _ (100 + / 1000)) in I2; [|auto|lia|lra|lra].
  apply (off_num n 4 _ _ _ (360 + / 1000)) in I4; [|auto|lia|lra|lra].
  apply (off_num n 4 _ _ _ (360 + / 1000)) in I5; [|auto|lia|lra|lra].
  apply (off_num n 4 _ _ _ (360 + / 1000)) in I6; [|auto|lia|lra|lra].
  apply (off_num n 4 _ _ _ (360 + / 1000)) in I7; [|auto|lia|lra|lra].
  change (INR 7) with (1 + 1 + 1 + 1 + 1 + 1 + 1) in I1. change (INR 5) with (1 + 1 + 1 + 1 + 1) in I2. change (INR 4) with (1 + 1 + 1 + 1) in *.
  repeat split; auto; (eapply Rle_trans; [eassumption|apply Rmult_le_compat_l; [exact N|lra]]).
Qed.

(** Witness: an entry at Venus; the conversions are not exact even there: binary64 has no 0.001. *)
Example C117_witness : exists i, h0_km i = 180 /\ v0_kms i = 10.8191 /\
  (1 <= RP VENUS <= 7.5e7) /\ (0 < Vref VENUS <= 1e5) /\ Rabs (h0_km i) <= 1e6 /\ Rabs (v0_kms i) <= 100 /\ Rabs (gamma0_deg i) <= 360 /\
  (let i' := Nat.iter 1000 (first_sample_r b64 (b64 PI) (b64 (/ 1000)) (RP VENUS) (Vref VENUS)) i in Rabs (h0_km i' - 180) <= 1e-6).
Proof.
  exists (mkInit 180 0 0 10.8191 0 (-5.2) 0 0). cbn [h0_km v0_kms gamma0_deg]. split; [auto|]. split; [auto|].
  assert (R1 : 1 <= RP VENUS <= 7.5e7) by (cbn; lra).
  assert (V1 : 0 < Vref VENUS <= 1e5).
  { unfold Vref. cbn [RP GM VENUS]. split; [apply sqrt_lt_R0; apply Rdiv_lt_0_compat; lra|]. rewrite <- (sqrt_square 1e5) by lra. apply sqrt_le_1_alt.
    apply Rmult_le_reg_r with 6051.8e3; [lra|]. unfold Rdiv. rewrite Rmult_assoc, Rinv_l by lra. lra. }
  assert (A1 : Rabs 180 <= 1e6) by (rewrite Rabs_pos_eq; lra). assert (A2 : Rabs 10.8191 <= 100) by (rewrite Rabs_pos_eq; lra).
  assert (A3 : Rabs (-5.2) <= 360) by (rewrite Rabs_left; lra). assert (A0 : Rabs 0 <= 360) by (rewrite Rabs_R0; lra).
  do 5 (split; [auto|]). assert (N0 : INR 1000 = 1000) by (rewrite INR_IZR_INZ; reflexivity). assert (N1 : INR 1000 <= 1e6) by (rewrite N0; lra).
  destruct (C117_binary64 (RP VENUS) (Vref VENUS) 1000 (mkInit 180 0 0 10.8191 0 (-5.2) 0 0) R1 V1 N1 A1 A2 A3 A0 A0 A0) as [H _].
  cbv zeta. eapply Rle_trans; [exact H|]. rewrite N0. lra.
Qed.
