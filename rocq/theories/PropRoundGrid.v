(** C97: the time grid in rounded arithmetic; rounding and the zenith. *)
From Coq Require Import String List.
Require Import Verif.Base Verif.Numpy Verif.NumpyProofs Verif.PlanetModel Verif.PlanetProofs Verif.AeroModel Verif.HeatModel Verif.TrajectoryModel Verif.TrajectorySpec Verif.TrajectoryProofs
  Verif.OrbitScalarModel Verif.OrbiterModel Verif.CorridorModel Verif.RoundSpec Verif.RoundModel.

Lemma grid_exact : forall tau t_sec dt, dt / tau <> 0 -> arange ((t_sec + dt) / tau) (dt / tau) = Ok (time_grid_r (fun x => x) tau t_sec dt).
Proof. intros tau t_sec dt H. unfold arange, time_grid_r. destruct (Reqb_spec (dt / tau) 0); [contradiction|]. reflexivity. Qed.

Lemma last_entry : forall {A} (l : list A) d, last l d = nth (length l - 1) l d.
Proof.
  intros A l d. induction l as [|x [|y l] IH]; auto. change (last (x :: y :: l) d) with (last (y :: l) d). rewrite IH. cbn [length Nat.sub].
  replace (length l - 0)%nat with (length l) by lia. reflexivity.
Qed.
Lemma ceil_between : forall x, 0 <= x -> x <= INR (ceil_nat x) < x + 1.
Proof.
  intros x Hx. unfold ceil_nat. destruct (base_Int_part (- x)) as (B1 & B2). set (z := Int_part (- x)) in *.
  assert (0 <= - z)%Z. { apply le_IZR. rewrite opp_IZR. lra. }
  rewrite INR_IZR_INZ, Z2Nat.id by auto. rewrite opp_IZR. lra.
Qed.
Lemma rel_bounds : forall rnd e m x, relative rnd e m -> 0 <= e <= 1 / 100 -> 0 < m <= x -> (1 - e) * x <= rnd x <= (1 + e) * x.
Proof.
  intros rnd e m x RL He Hx. pose proof (rl_err _ _ _ RL x) as H. rewrite (Rabs_pos_eq x) in H by lra. specialize (H (proj2 Hx)).
  unfold Rabs in H. destruct (Rcase_abs (rnd x - x)); lra.
Qed.
Lemma mul_low : forall e y D v, 0 <= e <= 1 / 100 -> 0 <= y -> (1 - e) * y <= D -> (1 - e) * D <= v -> y - 2 * e * y <= v.
Proof. intros e y D v He Hy H1 H2. assert ((1 - e) * ((1 - e) * y) <= (1 - e) * D) by (apply Rmult_le_compat_l; lra). assert (0 <= e * e * y) by (apply Rmult_le_pos; auto; apply Rmult_le_pos; lra). lra. Qed.
Lemma mul_high : forall e y D v, 0 <= e <= 1 / 100 -> 0 <= y -> D <= (1 + e) * y -> v <= (1 + e) * D -> v <= (1 + e) * ((1 + e) * y).
Proof. intros e y D v He Hy H1 H2. eapply Rle_trans; [exact H2|]. apply Rmult_le_compat_l; lra. Qed.
Lemma mul_high3 : forall e y, 0 <= e <= 1 / 100 -> 0 <= y -> (1 + e) * ((1 + e) * y) <= y + 3 * e * y.
Proof. intros e y He Hy. assert (0 <= e * y) by (apply Rmult_le_pos; lra). assert (e * (e * y) <= 1 / 100 * (e * y)) by (apply Rmult_le_compat_r; lra). lra. Qed.
Lemma low_end : forall e T dt y v, 0 <= e <= 1 / 100 -> 0 < dt <= T -> 0 <= y -> (1 - e) * ((1 - 4 * e) * T) - dt <= y -> y - 2 * e * y <= v -> T - dt - 8 * e * T <= v.
Proof.
  intros e T dt y v He Hd Hy H1 H2. assert (0 <= e * T) by (apply Rmult_le_pos; lra). assert (0 <= e * (e * T)) by (apply Rmult_le_pos; lra).
  destruct (Rle_lt_dec y T) as [L|L].
  - assert (e * y <= e * T) by (apply Rmult_le_compat_l; lra). lra.
  - assert ((1 - 2 * e) * T <= (1 - 2 * e) * y) by (apply Rmult_le_compat_l; lra). lra.
Qed.
Lemma high_end : forall e, 0 <= e <= 1 / 100 -> (1 + e) * ((1 + e) * ((1 + e) * (1 + 3.2 * e))) <= 1 + 8 * e.
Proof.
  intros e He. assert (A : e * e <= 1 / 100 * e) by (apply Rmult_le_compat_r; lra). assert (A0 : 0 <= e * e) by (apply Rmult_le_pos; lra).
  assert (B : e * (e * e) <= 1 / 100 * (e * e)) by (apply Rmult_le_compat_r; lra). assert (B0 : 0 <= e * (e * e)) by (apply Rmult_le_pos; lra).
  assert (C : e * (e * (e * e)) <= 1 / 100 * (e * (e * e))) by (apply Rmult_le_compat_r; lra). lra.
Qed.
(** Every sample is k*dt up to a relative error of 3e, and the last one lies between the requested time and one
    step past it, up to 8e(t_sec+dt). *)
Theorem C97_time_grid : forall rnd e m tau t_sec dt, relative rnd e m -> 0 <= e <= 1 / 100 -> 0 < m <= 1 / 2 -> 0 < tau -> 0 <= t_sec ->
  2 * m <= dt -> 2 * m * tau <= dt ->
  let ts := time_grid_r rnd tau t_sec dt in
  ts <> [] /\
  (forall k, (k < length ts)%nat -> Rabs (tau * nth k ts 0 - INR k * dt) <= 3 * e * (INR k * dt)) /\
  t_sec - 8 * e * (t_sec + dt) <= tau * last ts 0 < t_sec + dt + 8 * e * (t_sec + dt).
Proof.
  intros rnd e m tau t_sec dt RL He Hm Htau Ht Hd1 Hd2 ts.
  assert (Hdt : 0 < dt) by lra.
  destruct (rel_bounds rnd e m (t_sec + dt) RL He ltac:(lra)) as (A1 & A2). set (a := rnd (t_sec + dt)) in *.
  assert (Es : forall x, x / tau * tau = x) by (intros; field; lra).
  assert (Hq : 2 * m <= dt / tau). { apply (Rmult_le_reg_r tau); auto. rewrite Es. lra. }
  assert (Hat : 2 * (1 - e) * m <= a / tau).
  { apply (Rmult_le_reg_r tau); auto. rewrite Es. assert ((1 - e) * (2 * m * tau) <= (1 - e) * dt) by (apply Rmult_le_compat_l; lra). assert ((1 - e) * dt <= (1 - e) * (t_sec + dt)) by (apply Rmult_le_compat_l; lra). lra. }
  destruct (rel_bounds rnd e m (a / tau) RL He) as (B1 & B2). { split; [lra|]. assert (m <= 2 * (1 - e) * m) by nra. lra. }
  destruct (rel_bounds rnd e m (dt / tau) RL He ltac:(lra)) as (C1 & C2).
  set (stop := rnd (a / tau)) in *. set (step := rnd (dt / tau)) in *.
  assert (Hqp : 0 < dt / tau) by (apply Rdiv_lt_0_compat; auto).
  assert (Hstep : 0 < step) by nra.
  (* in physical time *)
  set (S := tau * stop). set (D := tau * step).
  assert (HD : (1 - e) * dt <= D <= (1 + e) * dt). { unfold D. rewrite <- (Es dt) at 1 2. split; nra. }
  assert (HDp : 0 < D) by (apply Rmult_lt_0_compat; auto).
  assert (HS : (1 - e) * a <= S <= (1 + e) * a). { unfold S. rewrite <- (Es a) at 1 2. split; nra. }
  assert (Eq : stop / step = S / D) by (unfold S, D; field; lra).
  set (T := t_sec + dt) in *. assert (HT : dt <= T) by (unfold T; lra).
  assert (HS' : (1 - e) * ((1 - e) * T) <= S <= (1 + e) * ((1 + e) * T)) by (split; nra).
  assert (Eqm : S / D * D = S) by (field; lra).
  assert (Q1 : (1 - 4 * e) * T <= S / D * dt * 1).
  { rewrite Rmult_1_r. apply (Rmult_le_reg_r D); auto. replace (S / D * dt * D) with (S * dt) by (field; lra).
    assert ((1 - 4 * e) * T * D <= (1 - 4 * e) * T * ((1 + e) * dt)) by (apply Rmult_le_compat_l; [apply Rmult_le_pos; lra|lra]).
    assert ((1 - e) * ((1 - e) * T) * dt <= S * dt) by (apply Rmult_le_compat_r; lra).
    assert ((1 - 4 * e) * (1 + e) <= (1 - e) * (1 - e)) by nra. assert (0 <= T * dt) by (apply Rmult_le_pos; lra).
    assert ((1 - 4 * e) * (1 + e) * (T * dt) <= (1 - e) * (1 - e) * (T * dt)) by (apply Rmult_le_compat_r; auto). lra. }
  assert (Q2 : S / D * dt <= (1 + 3.2 * e) * T).
  { apply (Rmult_le_reg_r D); auto. replace (S / D * dt * D) with (S * dt) by (field; lra).
    assert ((1 + 3.2 * e) * T * ((1 - e) * dt) <= (1 + 3.2 * e) * T * D) by (apply Rmult_le_compat_l; [apply Rmult_le_pos; lra|lra]).
    assert (S * dt <= (1 + e) * ((1 + e) * T) * dt) by (apply Rmult_le_compat_r; lra).
    assert ((1 + e) * (1 + e) <= (1 + 3.2 * e) * (1 - e)) by nra. assert (0 <= T * dt) by (apply Rmult_le_pos; lra).
    assert ((1 + e) * (1 + e) * (T * dt) <= (1 + 3.2 * e) * (1 - e) * (T * dt)) by (apply Rmult_le_compat_r; auto). lra. }
  assert (Qm : m <= stop / step).
  { rewrite Eq. apply (Rmult_le_reg_r dt); auto. assert ((1 - 4 * e) * dt <= (1 - 4 * e) * T) by (apply Rmult_le_compat_l; lra). nra. }
  destruct (rel_bounds rnd e m (stop / step) RL He ltac:(lra)) as (N1 & N2).
  set (X := rnd (stop / step)) in *.
  assert (HX : 0 < X) by nra. destruct (ceil_between X ltac:(lra)) as (Z1 & Z2).
  assert (Hn : (1 <= ceil_nat X)%nat). { destruct (ceil_nat X); [cbn [INR] in Z1; lra|lia]. }
  set (n := ceil_nat X) in *.
  assert (Lts : length ts = n) by (unfold ts, time_grid_r; rewrite map_length, seq_length; reflexivity).
  assert (Nk : forall k, (k < n)%nat -> nth k ts 0 = rnd (INR k * step)).
  { intros k Hk. unfold ts, time_grid_r. fold a. fold stop. fold step. fold X. fold n.
    rewrite (nth_indep _ 0 (rnd (INR 0 * step))) by (rewrite map_length, seq_length; auto). rewrite (map_nth (fun i => rnd (INR i * step))), seq_nth; auto. }
  assert (Bk : forall k, (k < n)%nat -> (1 - e) * (INR k * D) <= tau * nth k ts 0 <= (1 + e) * (INR k * D)).
  { intros k Hk. rewrite Nk by auto. destruct k as [|k].
    - cbn [INR]. rewrite !Rmult_0_l, (rl_zero _ _ _ RL). lra.
    - assert (1 <= INR (Datatypes.S k)) by (rewrite S_INR; pose proof (pos_INR k); lra). set (j := INR (Datatypes.S k)) in *.
      assert (m <= step). { assert ((1 - e) * (2 * m) <= (1 - e) * (dt / tau)) by (apply Rmult_le_compat_l; lra). assert (m <= (1 - e) * (2 * m)) by nra. lra. }
      destruct (rel_bounds rnd e m (j * step) RL He) as (K1 & K2). { split; [lra|]. nra. }
      unfold D. split; [replace ((1 - e) * (j * (tau * step))) with (tau * ((1 - e) * (j * step))) by ring|replace ((1 + e) * (j * (tau * step))) with (tau * ((1 + e) * (j * step))) by ring]; apply Rmult_le_compat_l; lra. }
  split; [intros E; rewrite E in Lts; cbn [length] in Lts; lia|]. split.
  - intros k Hk. rewrite Lts in Hk. specialize (Bk k Hk). pose proof (pos_INR k) as Pk. apply Rabs_le.
    assert (INR k * ((1 - e) * dt) <= INR k * D <= INR k * ((1 + e) * dt)) by (split; apply Rmult_le_compat_l; lra).
    assert (0 <= INR k * dt) by (apply Rmult_le_pos; lra). set (y := INR k * dt) in *.
    replace (INR k * ((1 - e) * dt)) with ((1 - e) * y) in H by (unfold y; ring). replace (INR k * ((1 + e) * dt)) with ((1 + e) * y) in H by (unfold y; ring).
    pose proof (mul_low e y (INR k * D) _ He H0 (proj1 H) (proj1 Bk)). pose proof (mul_high e y (INR k * D) _ He H0 (proj2 H) (proj2 Bk)). pose proof (mul_high3 e y He H0).
    assert (0 <= e * y) by (apply Rmult_le_pos; lra). lra.
  - assert (El : last ts 0 = nth (n - 1) ts 0) by (rewrite last_entry, Lts; reflexivity). rewrite El. specialize (Bk (n - 1)%nat ltac:(lia)).
    rewrite minus_INR in Bk by lia. cbn [INR] in Bk. set (w := INR n - 1) in *. assert (Hw : 0 <= w) by (unfold w; apply le_INR in Hn; cbn [INR] in Hn; lra).
    rewrite Eq in N1, N2. rewrite Rmult_1_r in Q1.
    assert (W1 : (1 - e) * (S / D) - 1 <= w) by (unfold w; lra). assert (W2 : w < (1 + e) * (S / D)) by (unfold w; lra).
    assert (V2 : w * dt < (1 + e) * ((1 + 3.2 * e) * T)).
    { apply Rlt_le_trans with ((1 + e) * (S / D) * dt); [apply Rmult_lt_compat_r; auto|]. rewrite Rmult_assoc. apply Rmult_le_compat_l; lra. }
    assert (V1 : (1 - e) * ((1 - 4 * e) * T) - dt <= w * dt).
    { apply Rle_trans with (((1 - e) * (S / D) - 1) * dt); [|apply Rmult_le_compat_r; lra]. assert ((1 - e) * ((1 - 4 * e) * T) <= (1 - e) * (S / D * dt)) by (apply Rmult_le_compat_l; lra). lra. }
    assert (HwD : w * ((1 - e) * dt) <= w * D <= w * ((1 + e) * dt)) by (split; apply Rmult_le_compat_l; lra).
    set (y := w * dt) in *. replace (w * ((1 - e) * dt)) with ((1 - e) * y) in HwD by (unfold y; ring). replace (w * ((1 + e) * dt)) with ((1 + e) * y) in HwD by (unfold y; ring).
    assert (Hy : 0 <= y) by (apply Rmult_le_pos; lra). replace t_sec with (T - dt) by (unfold T; lra). split.
    + apply (low_end e T dt y); auto. apply (mul_low e y (w * D)); auto; [apply HwD|apply Bk].
    + pose proof (mul_high e y (w * D) _ He Hy (proj2 HwD) (proj2 Bk)) as U.
      assert ((1 + e) * ((1 + e) * y) < (1 + e) * ((1 + e) * ((1 + e) * ((1 + 3.2 * e) * T)))) by (apply Rmult_lt_compat_l; [lra|]; apply Rmult_lt_compat_l; [lra|exact V2]).
      assert ((1 + e) * ((1 + e) * ((1 + e) * (1 + 3.2 * e))) * T <= (1 + 8 * e) * T) by (apply Rmult_le_compat_r; [lra|apply high_end; auto]). lra.
Qed.
(** A step of 0.1 s over 2400 s with a reference time of 1000 s, for the machine that keeps every number. *)
Example C97_witness : relative (fun x => x) 0 (1 / 1000000) /\ 0 <= 0 <= 1 / 100 /\ 2 * (1 / 1000000) * 1000 <= 0.1.
Proof. split; [split; [reflexivity|intros x _; replace (x - x) with 0 by ring; rewrite Rabs_R0; lra]|]. lra. Qed.
