(** C115: running totals, clocks and bank angles in rounded arithmetic. *)
From Coq Require Import List Lia.
Require Import Verif.Base Verif.Numpy Verif.NumpyProofs Verif.PlanetModel Verif.AeroModel Verif.HeatModel Verif.TrajectoryModel Verif.CorridorModel Verif.GuidanceModel
  Verif.RunningModel Verif.RunningSpec.
Import ListNotations.
Local Open Scope R_scope.

(** ** Without rounding this is the model of the other properties *)
Lemma trapz_exact : forall ys xs acc y0 x0, trapz_from_r (fun x => x) acc y0 x0 ys xs = trapz_from acc y0 x0 ys xs.
Proof. induction ys as [|y ys IH]; intros [|x xs] acc y0 x0; cbn; auto. rewrite IH. auto. Qed.
Theorem C115_exact :
  (forall y x i, cumtrapz_r (fun x => x) y x i = cumtrapz y x i) /\
  (forall rate cmd ini dt, psuedoController_r (fun x => x) rate cmd ini dt = psuedoController rate cmd ini dt).
Proof.
  split.
  - intros [|y0 ys] [|x0 xs] i; cbn; auto. rewrite trapz_exact. auto.
  - intros. reflexivity.
Qed.

(** ** Totals *)
Lemma trapz_sum : forall ys xs y0 x0 k, length ys = length xs -> (k <= length ys)%nat ->
  nth k (0 :: trapz_from 0 y0 x0 ys xs) 0 = trapezoids (y0 :: ys) (x0 :: xs) k.
Proof.
  intros ys xs y0 x0 k L. induction k as [|k IH]; intros Hk; [reflexivity|]. cbn [nth]. rewrite trapz_from_step by (auto; lia). rewrite IH by lia. reflexivity.
Qed.
Section Totals.
  Variables (rnd : R -> R) (e eta : R).
  Hypothesis A : arithmetic rnd e eta.
  Lemma rnd0 : rnd 0 = 0.
  Proof. pose proof (ar_neg _ _ _ A 0) as H. rewrite Ropp_0 in H. lra. Qed.
  Lemma rnd_nonneg : forall x, 0 <= x -> 0 <= rnd x.
  Proof. intros x H. rewrite <- rnd0. apply (ar_mono _ _ _ A). auto. Qed.
  Lemma rnd_ge : forall x y, rnd x = x -> x <= y -> x <= rnd y.
  Proof. intros x y E H. rewrite <- E. apply (ar_mono _ _ _ A). auto. Qed.
  Lemma rnd_sub : forall x y, rnd x = x -> rnd y = y -> Rabs (rnd (x - y) - (x - y)) <= e * Rabs (x - y).
  Proof. intros x y Hx Hy. replace (x - y) with (x + - y) by ring. apply (ar_add _ _ _ A); auto. rewrite (ar_neg _ _ _ A), Hy. auto. Qed.
  Definition gap (x0 x1 y0 y1 : R) : R := rnd (rnd (rnd (x1 - x0) * rnd (y0 + y1)) / 2).
  Lemma gap_nonneg : forall x0 x1 y0 y1, x0 <= x1 -> 0 <= y0 -> 0 <= y1 -> 0 <= gap x0 x1 y0 y1.
  Proof.
    intros. unfold gap. apply rnd_nonneg. assert (0 <= rnd (rnd (x1 - x0) * rnd (y0 + y1))); [|lra].
    apply rnd_nonneg, Rmult_le_pos; apply rnd_nonneg; lra.
  Qed.
  Lemma gap_close : forall x0 x1 y0 y1, rnd x0 = x0 -> rnd x1 = x1 -> rnd y0 = y0 -> rnd y1 = y1 -> x0 <= x1 -> 0 <= y0 -> 0 <= y1 ->
    Rabs (gap x0 x1 y0 y1 - (x1 - x0) * (y0 + y1) / 2) <= ((1 + e) ^ 3 - 1) * ((x1 - x0) * (y0 + y1) / 2) + 2 * eta.
  Proof.
    intros x0 x1 y0 y1 H0 H1 K0 K1 Hx Hy0 Hy1. pose proof (ar_e _ _ _ A) as He. pose proof (ar_eta _ _ _ A) as Ht.
    pose proof (rnd_sub x1 x0 H1 H0) as D. rewrite (Rabs_pos_eq (x1 - x0)) in D by lra.
    pose proof (ar_add _ _ _ A y0 y1 K0 K1) as S. rewrite (Rabs_pos_eq (y0 + y1)) in S by lra.
    unfold gap. set (d := x1 - x0) in *. set (s := y0 + y1) in *. assert (Pd : 0 <= d) by (unfold d; lra). assert (Ps : 0 <= s) by (unfold s; lra).
    pose proof (rnd_nonneg d Pd) as Pd'. pose proof (rnd_nonneg s Ps) as Ps'.
    pose proof (ar_err _ _ _ A (rnd d * rnd s)) as Q. rewrite (Rabs_pos_eq (rnd d * rnd s)) in Q by (apply Rmult_le_pos; auto).
    pose proof (ar_half _ _ _ A (rnd (rnd d * rnd s)) (ar_keep _ _ _ A _)) as U.
    set (p := rnd (rnd d * rnd s)) in *. set (d' := rnd d) in *. set (s' := rnd s) in *. clearbody p d' s' d s.
    assert (Ud : d' <= (1 + e) * d /\ (1 - e) * d <= d') by (split; unfold Rabs in D; destruct (Rcase_abs (d' - d)); lra).
    assert (Us : s' <= (1 + e) * s /\ (1 - e) * s <= s') by (split; unfold Rabs in S; destruct (Rcase_abs (s' - s)); lra).
    assert (DS : Rabs (d' * s' - d * s) <= ((1 + e) ^ 2 - 1) * (d * s)).
    { replace (d' * s' - d * s) with ((d' - d) * (s' - s) + d * (s' - s) + (d' - d) * s) by ring.
      eapply Rle_trans; [apply Rabs_triang|]. eapply Rle_trans; [apply Rplus_le_compat_r, Rabs_triang|]. rewrite !Rabs_mult, (Rabs_pos_eq d), (Rabs_pos_eq s) by auto.
      pose proof (Rabs_pos (d' - d)). pose proof (Rabs_pos (s' - s)).
      assert (M1 : Rabs (d' - d) * Rabs (s' - s) <= (e * d) * (e * s)) by (apply Rmult_le_compat; auto).
      assert (M2 : d * Rabs (s' - s) <= d * (e * s)) by (apply Rmult_le_compat_l; auto).
      assert (M3 : Rabs (d' - d) * s <= e * d * s) by (apply Rmult_le_compat_r; auto).
      replace (((1 + e) ^ 2 - 1) * (d * s)) with (e * d * (e * s) + d * (e * s) + e * d * s) by ring. lra. }
    assert (M : d' * s' <= (1 + e) ^ 2 * (d * s)).
    { replace ((1 + e) ^ 2 * (d * s)) with (((1 + e) * d) * ((1 + e) * s)) by ring. apply Rmult_le_compat; tauto. }
    replace (rnd (p / 2) - d * s / 2) with ((rnd (p / 2) - p / 2) + (p - d' * s') * / 2 + (d' * s' - d * s) * / 2) by field.
    eapply Rle_trans; [apply Rabs_triang|]. eapply Rle_trans; [apply Rplus_le_compat_r, Rabs_triang|]. unfold Rdiv at 2 3.
    rewrite (Rabs_mult (p - d' * s')), (Rabs_mult (d' * s' - d * s)), (Rabs_pos_eq (/ 2)) by lra.
    assert (E2 : e * (d' * s') <= e * ((1 + e) ^ 2 * (d * s))) by (apply Rmult_le_compat_l; auto).
    replace (((1 + e) ^ 3 - 1) * (d * s / 2)) with ((e * ((1 + e) ^ 2 * (d * s)) + ((1 + e) ^ 2 - 1) * (d * s)) * / 2) by field. lra.
  Qed.
  Definition bound (k : nat) (T : R) : R := ((1 + e) ^ (k + 3) - 1) * T + 2 * INR k * eta * (1 + e) ^ k.
  Lemma pow_ge1 : forall k, 1 <= (1 + e) ^ k.
  Proof. intros k. apply pow_R1_Rle. pose proof (ar_e _ _ _ A). lra. Qed.
  Lemma step_close : forall k r T h t, 0 <= r -> 0 <= T -> 0 <= h -> 0 <= t -> rnd r = r -> rnd h = h ->
    Rabs (r - T) <= bound k T -> Rabs (h - t) <= ((1 + e) ^ 3 - 1) * t + 2 * eta -> Rabs (rnd (r + h) - (T + t)) <= bound (S k) (T + t).
  Proof.
    intros k r T h t Pr PT Ph Pt Mr Mh B C. pose proof (ar_e _ _ _ A) as He. pose proof (ar_eta _ _ _ A) as Ht.
    pose proof (ar_add _ _ _ A r h Mr Mh) as Sm. rewrite (Rabs_pos_eq (r + h)) in Sm by lra.
    replace (rnd (r + h) - (T + t)) with ((rnd (r + h) - (r + h)) + ((r - T) + (h - t))) by ring.
    eapply Rle_trans; [apply Rabs_triang|].
    assert (W : Rabs ((r - T) + (h - t)) <= bound k T + (((1 + e) ^ 3 - 1) * t + 2 * eta)) by (eapply Rle_trans; [apply Rabs_triang|lra]).
    assert (V : r + h <= T + t + (bound k T + (((1 + e) ^ 3 - 1) * t + 2 * eta))) by (unfold Rabs in W; destruct (Rcase_abs _); lra).
    assert (E1 : e * (r + h) <= e * (T + t + (bound k T + (((1 + e) ^ 3 - 1) * t + 2 * eta)))) by (apply Rmult_le_compat_l; auto).
    assert (Z : (1 + e) * (bound k T + (((1 + e) ^ 3 - 1) * t + 2 * eta)) + e * (T + t) <= bound (S k) (T + t)); [|lra].
    unfold bound. rewrite S_INR. set (g := (1 + e) ^ k). assert (Hg : 1 <= g) by apply pow_ge1.
    replace ((1 + e) ^ (k + 3)) with (g * (1 + e) ^ 3) by (unfold g; rewrite pow_add; reflexivity).
    replace ((1 + e) ^ (Datatypes.S k + 3)) with (g * (1 + e) ^ 3 * (1 + e)) by (cbn [Nat.add pow]; unfold g; rewrite pow_add; ring).
    replace ((1 + e) ^ Datatypes.S k) with (g * (1 + e)) by (cbn [pow]; unfold g; ring).
    assert (X1 : (1 + e) ^ 3 <= g * (1 + e) ^ 3) by (pose proof (pow_ge1 3); nra).
    assert (X2 : (1 + e) ^ 3 * t <= g * (1 + e) ^ 3 * t) by (apply Rmult_le_compat_r; auto).
    assert (X3 : eta <= g * eta) by nra.
    set (c := (1 + e) ^ 3) in *. 
    replace ((g * c * (1 + e) - 1) * (T + t) + 2 * (INR k + 1) * eta * (g * (1 + e))) with
      ((1 + e) * ((g * c - 1) * T + 2 * INR k * eta * g) + e * (T + t) + (1 + e) * ((g * c * t - t) + 2 * (g * eta))) by ring.
    assert ((1 + e) * ((c - 1) * t + 2 * eta) <= (1 + e) * (g * c * t - t + 2 * (g * eta))); [|lra]. apply Rmult_le_compat_l; lra.
  Qed.
  Lemma total_from : forall ys xs k r T y0 x0, length ys = length xs -> Forall (fun x => rnd x = x) (y0 :: ys) -> Forall (fun x => rnd x = x) (x0 :: xs) ->
    Forall (fun y => 0 <= y) (y0 :: ys) -> never_falls (x0 :: xs) -> 0 <= r -> 0 <= T -> rnd r = r -> Rabs (r - T) <= bound k T ->
    let l := r :: trapz_from_r rnd r y0 x0 ys xs in let m := T :: trapz_from T y0 x0 ys xs in
    length l = S (length ys) /\ Forall (fun x => rnd x = x) l /\ (forall i, (i < length ys)%nat -> nth i l 0 <= nth (S i) l 0) /\
    (forall i, (i <= length ys)%nat -> Rabs (nth i l 0 - nth i m 0) <= bound (k + i) (nth i m 0)).
  Proof.
    induction ys as [|y1 ys IH]; intros [|x1 xs] k r T y0 x0 L My Mx Py Nx Pr PT Mr B; try discriminate; cbv zeta.
    - cbn. repeat split; auto; [intros; lia|]. intros i Hi. replace i with O by lia. rewrite Nat.add_0_r. auto.
    - inversion My as [|? ? My0 My1]; subst. inversion Mx as [|? ? Mx0 Mx1]; subst. inversion Py as [|? ? Py0 Py1]; subst. inversion My1 as [|? ? My2 _]; subst. inversion Mx1 as [|? ? Mx2 _]; subst. inversion Py1 as [|? ? Py2 _]; subst.
      assert (Hx : x0 <= x1) by (apply (Nx 0%nat 1%nat); cbn [length]; lia).
      assert (Nx1 : never_falls (x1 :: xs)) by (intros i j Hij; apply (Nx (S i) (S j)); cbn [length] in *; lia).
      pose proof (gap_nonneg x0 x1 y0 y1 Hx Py0 Py2) as Pg. pose proof (gap_close x0 x1 y0 y1 Mx0 Mx2 My0 My2 Hx Py0 Py2) as Cg.
      assert (Pt : 0 <= (x1 - x0) * (y0 + y1) / 2) by (assert (0 <= (x1 - x0) * (y0 + y1)) by (apply Rmult_le_pos; lra); lra).
      assert (Mg : rnd (gap x0 x1 y0 y1) = gap x0 x1 y0 y1) by apply (ar_keep _ _ _ A).
      pose proof (step_close k r T _ _ Pr PT Pg Pt Mr Mg B Cg) as B1. fold (gap x0 x1 y0 y1).
      cbn [trapz_from_r trapz_from]. fold (gap x0 x1 y0 y1). set (r1 := rnd (r + gap x0 x1 y0 y1)) in *. set (T1 := T + (x1 - x0) * (y0 + y1) / 2) in *.
      assert (Hr : r <= r1) by (apply rnd_ge; auto; lra).
      destruct (IH xs (S k) r1 T1 y1 x1) as (I1 & I2 & I3 & I4); auto; try (unfold T1; lra); try lra; [apply (ar_keep _ _ _ A)|].
      cbn [length] in *. split; [lia|]. split; [constructor; auto|]. split.
      + intros [|i] Hi; [exact Hr|]. apply (I3 i). lia.
      + intros [|i] Hi; [rewrite Nat.add_0_r; exact B|]. replace (k + S i)%nat with (S k + i)%nat by lia. apply (I4 i). lia.
  Qed.
End Totals.
(** Heat load and data volume: the running total starts at zero, never falls, and is the trapezoid integral up to a relative
    error of (1+e)^(k+3)-1 at point [k] and underflow. *)
Theorem C115_total : forall rnd e eta y x, arithmetic rnd e eta -> y <> [] -> length y = length x ->
  Forall (fun v => rnd v = v) y -> Forall (fun v => rnd v = v) x -> Forall (fun v => 0 <= v) y -> never_falls x ->
  exists r, cumtrapz_r rnd y x 0 = Ok r /\ length r = length y /\ nth 0 r 0 = 0 /\ Forall (fun v => rnd v = v) r /\ never_falls r /\
    forall k, (k < length y)%nat ->
      Rabs (nth k r 0 - trapezoids y x k) <= ((1 + e) ^ (k + 3) - 1) * trapezoids y x k + 2 * INR k * eta * (1 + e) ^ k.
Proof.
  intros rnd e eta [|y0 ys] [|x0 xs] A N L My Mx Py Nx; try congruence; try discriminate. injection L as L. cbn [cumtrapz_r]. rewrite L, Nat.eqb_refl. cbn [negb].
  destruct (Reqb_spec 0 0) as [_|Q]; [|lra]. cbn [negb]. eexists. split; [reflexivity|].
  destruct (total_from rnd e eta A ys xs 0 0 0 y0 x0) as (I1 & I2 & I3 & I4); auto; try lra.
  { eapply rnd0; eauto. }
  { unfold bound. rewrite Rminus_diag_eq, Rabs_R0 by reflexivity. cbn [INR]. lra. }
  split; [cbn [length] in *; lia|]. split; [reflexivity|]. split; [exact I2|]. split.
  - intros j k Hjk. rewrite I1 in Hjk. destruct Hjk as (Hjk & Hk). induction Hjk as [|k Hjk IH]; [lra|]. eapply Rle_trans; [apply IH; lia|]. apply I3. lia.
  - intros k Hk. cbn [length] in Hk. specialize (I4 k ltac:(lia)). rewrite trapz_sum in I4 by (auto; lia). exact I4.
Qed.

(** ** Bank angle *)
Lemma sign_cases : forall x, (x < 0 /\ np_sign x = -1) \/ (x = 0 /\ np_sign x = 0) \/ (0 < x /\ np_sign x = 1).
Proof. intros x. unfold np_sign. rcases; lra. Qed.
Lemma bank_step : forall rnd e eta rate dt c b, arithmetic rnd e eta -> rnd rate = rate -> 0 <= rate * dt -> rnd b = b -> 
  let s := rnd (rate * dt) in let b' := psuedoController_r rnd rate c b dt in
  rnd b' = b' /\ (b' = b \/ (b < c /\ b' = rnd (b + s)) \/ (c < b /\ b' = rnd (b - s))).
Proof.
  intros rnd e eta rate dt c b A Mr Hs Mb s b'.
  assert (E : b' = rnd (b + rnd (rnd (np_sign (rnd (c - b)) * rate) * dt))) by (unfold b', psuedoController_r; destruct (Rltb _ _); reflexivity).
  split; [rewrite E; apply (ar_keep _ _ _ A)|]. pose proof (rnd0 _ _ _ A) as Z.
  destruct (sign_cases (rnd (c - b))) as [(Hn & Sg)|[(Hn & Sg)|(Hn & Sg)]]; rewrite Sg in E.
  - right. right. split.
    + destruct (Rlt_le_dec c b); auto. assert (0 <= rnd (c - b)) by (eapply rnd_nonneg; eauto; lra). lra.
    + rewrite E. replace (-1 * rate) with (- rate) by ring. rewrite (ar_neg _ _ _ A), Mr. replace (- rate * dt) with (- (rate * dt)) by ring. rewrite (ar_neg _ _ _ A). reflexivity.
  - left. rewrite E. rewrite Rmult_0_l, Z, Rmult_0_l, Z, Rplus_0_r. exact Mb.
  - right. left. split.
    + destruct (Rlt_le_dec b c); auto. assert (rnd (c - b) <= rnd 0) by (apply (ar_mono _ _ _ A); lra). lra.
    + rewrite E, Rmult_1_l, Mr. reflexivity.
Qed.
(** However many cycles are flown, the bank angle stays between one rounded step below zero and one rounded step above 180:
    rounding errors do not build up outside the band. *)
Theorem C115_bank_band : forall rnd e eta rate dt cmds b, arithmetic rnd e eta -> rnd rate = rate -> rnd b = b -> 0 <= rate * dt ->
  0 <= b <= 180 -> (forall c, In c cmds -> 0 <= c <= 180) ->
  - rnd (rate * dt) <= bank_after_r rnd rate dt b cmds <= rnd (180 + rnd (rate * dt)).
Proof.
  intros rnd e eta rate dt cmds b A Mr Mb Hs Hb Hc. set (s := rnd (rate * dt)). assert (Ps : 0 <= s) by (eapply rnd_nonneg; eauto).
  assert (G : forall l x, (forall c, In c l -> 0 <= c <= 180) -> rnd x = x -> - s <= x <= rnd (180 + s) -> - s <= bank_after_r rnd rate dt x l <= rnd (180 + s)).
  { unfold bank_after_r. induction l as [|c l IH]; intros x Hl Mx Hx; cbn [fold_left]; auto.
    destruct (bank_step rnd e eta rate dt c x A Mr Hs Mx) as (M & Cs). apply IH; [intros; apply Hl; right; auto|exact M|]. fold s in Cs. assert (Hc0 : 0 <= c <= 180) by (apply Hl; left; auto).
    destruct Cs as [->|[(H1 & ->)|(H1 & ->)]]; auto.
    - split; [|apply (ar_mono _ _ _ A); lra]. assert (x <= rnd (x + s)) by (eapply rnd_ge; eauto; lra). lra.
    - split.
      + replace (- s) with (rnd (- s)) by (rewrite (ar_neg _ _ _ A); unfold s; rewrite (ar_keep _ _ _ A); reflexivity). apply (ar_mono _ _ _ A). lra.
      + assert (rnd (x - s) <= rnd x) by (apply (ar_mono _ _ _ A); lra). lra. }
  apply G; auto. split; [lra|]. rewrite <- Mb. apply (ar_mono _ _ _ A). lra.
Qed.
(** After [n] cycles it is a whole number of steps from where it started, up to [n] rounding errors. *)
Theorem C115_bank_lattice : forall rnd e eta rate dt cmds b, arithmetic rnd e eta -> rnd rate = rate -> rnd b = b -> 0 <= rate * dt ->
  0 <= b <= 180 -> (forall c, In c cmds -> 0 <= c <= 180) ->
  exists z : Z, (Z.abs z <= Z.of_nat (length cmds))%Z /\
    Rabs (bank_after_r rnd rate dt b cmds - (b + IZR z * rnd (rate * dt))) <= INR (length cmds) * (e * (rnd (180 + rnd (rate * dt)) + rnd (rate * dt))).
Proof.
  intros rnd e eta rate dt cmds b A Mr Mb Hs Hb. set (s := rnd (rate * dt)). assert (Ps : 0 <= s) by (eapply rnd_nonneg; eauto).
  assert (Ms : rnd s = s) by apply (ar_keep _ _ _ A). set (W := rnd (180 + s) + s). pose proof (ar_e _ _ _ A) as He.
  assert (PW : 0 <= W) by (unfold W; assert (0 <= rnd (180 + s)) by (eapply rnd_nonneg; eauto; lra); lra).
  assert (G : forall l, (forall c, In c l -> 0 <= c <= 180) -> rnd (bank_after_r rnd rate dt b (rev l)) = bank_after_r rnd rate dt b (rev l) /\
    exists z : Z, (Z.abs z <= Z.of_nat (length l))%Z /\ Rabs (bank_after_r rnd rate dt b (rev l) - (b + IZR z * s)) <= INR (length l) * (e * W)).
  { induction l as [|c l IH]; intros Hl.
    - cbn. split; auto. exists 0%Z. split; [cbn; lia|]. rewrite Rmult_0_l, Rplus_0_r, Rminus_diag_eq, Rabs_R0 by reflexivity. lra.
    - destruct IH as (M & z & Hz & B); [intros; apply Hl; right; auto|].
      assert (Bd : - s <= bank_after_r rnd rate dt b (rev l) <= rnd (180 + s)).
      { eapply C115_bank_band; eauto. intros c0 H0. apply Hl. right. apply in_rev. auto. }
      cbn [rev]. unfold bank_after_r in *. rewrite fold_left_app. cbn [fold_left]. set (x := fold_left _ (rev l) b) in *.
      destruct (bank_step rnd e eta rate dt c x A Mr Hs M) as (M' & Cs). split; auto. fold s in Cs. cbn [length]. rewrite S_INR.
      destruct Cs as [->|[(H1 & ->)|(H1 & ->)]].
      + exists z. split; [lia|]. assert (0 <= e * W) by (apply Rmult_le_pos; auto). lra.
      + exists (z + 1)%Z. split; [lia|]. rewrite plus_IZR. pose proof (ar_add _ _ _ A x s M Ms) as E1.
        assert (Rabs (x + s) <= W) by (apply Rabs_le; unfold W in *; split; lra). assert (e * Rabs (x + s) <= e * W) by (apply Rmult_le_compat_l; auto).
        replace (rnd (x + s) - (b + (IZR z + 1) * s)) with ((rnd (x + s) - (x + s)) + (x - (b + IZR z * s))) by ring. eapply Rle_trans; [apply Rabs_triang|]. lra.
      + exists (z - 1)%Z. split; [lia|]. rewrite minus_IZR. pose proof (rnd_sub _ _ _ A x s M Ms) as E1.
        assert (Rabs (x - s) <= W).
        { apply Rabs_le. unfold W in *. split; [|lra]. assert (Hc0 : 0 <= c <= 180) by (apply Hl; left; auto). assert (0 <= rnd (180 + s)) by (eapply rnd_nonneg; eauto; lra). lra. }
        assert (e * Rabs (x - s) <= e * W) by (apply Rmult_le_compat_l; auto).
        replace (rnd (x - s) - (b + (IZR z - 1) * s)) with ((rnd (x - s) - (x - s)) + (x - (b + IZR z * s))) by ring. eapply Rle_trans; [apply Rabs_triang|]. lra. }
  intros Hc. destruct (G (rev cmds)) as (_ & z & Hz & B); [intros c Hin; apply Hc; apply in_rev; auto|]. rewrite rev_involutive, rev_length in B. rewrite rev_length in Hz. exists z. auto.
Qed.

(** ** The clock of a guided flight *)
Lemma never_falls_app : forall a b, never_falls a -> never_falls b -> (forall x y, In x a -> In y b -> x <= y) -> never_falls (a ++ b).
Proof.
  intros a b Ha Hb H j k Hjk. rewrite app_length in Hjk. destruct (Nat.lt_ge_cases k (length a)) as [K|K].
  - rewrite !app_nth1 by lia. apply Ha. lia.
  - rewrite (app_nth2 a b 0 K). destruct (Nat.lt_ge_cases j (length a)) as [J|J]; [rewrite app_nth1 by auto; apply H; apply nth_In; lia|].
    rewrite app_nth2 by auto. apply Hb. lia.
Qed.
Lemma never_falls_map : forall f l, (forall x y, x <= y -> f x <= f y) -> never_falls l -> never_falls (map f l).
Proof.
  intros f l Hf H j k Hjk. rewrite map_length in Hjk. assert (N : forall n, (n < length l)%nat -> nth n (map f l) 0 = nth n (map f l) (f 0)) by (intros; apply nth_indep; rewrite map_length; auto). rewrite !N by lia.
  rewrite !map_nth. apply Hf, H. auto.
Qed.
Lemma in_last : forall l x, never_falls l -> In x l -> x <= last l 0.
Proof.
  intros l x H I. assert (L : last l 0 = nth (length l - 1) l 0).
  { clear. induction l as [|a l IH]; auto. destruct l as [|b l]; auto. cbn [last length] in *. rewrite IH. replace (S (S (length l)) - 1)%nat with (S (S (length l) - 1)) by lia. reflexivity. }
  rewrite L. apply In_nth with (d := 0) in I. destruct I as (i & Hi & <-). apply H. lia.
Qed.
Lemma pairs_weaken : forall (P Q : R -> R -> Prop) l m, (forall a b, P a b -> Q a b) -> Forall2 P l m -> Forall2 Q l m.
Proof. intros P Q l m H F. induction F; constructor; auto. Qed.
Lemma last_pair : forall (Q : R -> R -> Prop) l m, Forall2 Q l m -> Q 0 0 -> Q (last l 0) (last m 0).
Proof. intros Q l m F Z. induction F as [|a b l m H F IH]; auto. destruct F; auto. Qed.
(** The clock never runs backwards, and after [n] cycles it is off by at most (1+e)^n-1 times the time flown. *)
Theorem C115_clock : forall rnd e eta legs, arithmetic rnd e eta ->
  (forall leg, In leg legs -> Forall (fun t => rnd t = t /\ 0 <= t) leg /\ never_falls leg) ->
  never_falls (clock_of rnd legs) /\
  Forall2 (fun t exact => Rabs (t - exact) <= ((1 + e) ^ length legs - 1) * exact) (clock_of rnd legs) (clock_of (fun x => x) legs).
Proof.
  intros rnd e eta legs A H. pose proof (ar_e _ _ _ A) as He.
  set (close := fun n a b => 0 <= b /\ Rabs (a - b) <= ((1 + e) ^ n - 1) * b).
  assert (G : forall l, (forall leg, In leg l -> Forall (fun t => rnd t = t /\ 0 <= t) leg /\ never_falls leg) ->
    let c := clock_of rnd (rev l) in never_falls c /\ Forall (fun t => rnd t = t /\ 0 <= t) c /\ Forall2 (close (length l)) c (clock_of (fun x => x) (rev l))).
  { induction l as [|leg l IH]; intros Hl; [cbn; repeat split; auto; intros j k Hjk; cbn in Hjk; lia|].
    destruct IH as (I1 & I2 & I3); [intros; apply Hl; right; auto|]. destruct (Hl leg (or_introl eq_refl)) as (L1 & L2).
    cbn [rev length]. unfold clock_of in *. rewrite !fold_left_app. cbn [fold_left]. set (c := fold_left (clock_app rnd) (rev l) []) in *. set (c' := fold_left (clock_app (fun x => x)) (rev l) []) in *. unfold clock_app.
    assert (Z : rnd (last c 0) = last c 0 /\ 0 <= last c 0).
    { clear -A I2. clearbody c. induction I2 as [|a l0 Ha F IH]; [split; [eapply rnd0; eauto|cbn; lra]|]. destruct F; auto. }
    destruct Z as (Z1 & Z2). rewrite Forall_forall in L1.
    assert (Lc : close (length l) (last c 0) (last c' 0)).
    { apply last_pair; auto. split; [lra|]. rewrite Rminus_diag_eq, Rabs_R0 by reflexivity. lra. }
    destruct Lc as (Lc1 & Lc2). split; [|split].
    - apply never_falls_app; auto.
      + apply never_falls_map; auto. intros x y Hxy. apply (ar_mono _ _ _ A). lra.
      + intros x y Hx Hy. apply in_map_iff in Hy. destruct Hy as (t & <- & Ht). destruct (L1 t Ht) as (_ & Pt). pose proof (in_last c x I1 Hx). assert (last c 0 <= rnd (t + last c 0)) by (eapply rnd_ge; eauto; lra). lra.
    - apply Forall_app. split; auto. apply Forall_forall. intros y Hy. apply in_map_iff in Hy. destruct Hy as (t & <- & Ht). destruct (L1 t Ht) as (_ & Pt).
      split; [apply (ar_keep _ _ _ A)|]. eapply rnd_nonneg; eauto. lra.
    - set (g := (1 + e) ^ length l) in *. assert (Hg : 1 <= g) by (apply pow_R1_Rle; lra). assert (Eg : (1 + e) ^ S (length l) = (1 + e) * g) by reflexivity. unfold close. rewrite Eg. apply Forall2_app.
      + eapply pairs_weaken; [|exact I3]. intros a b (P1 & P2). split; auto. eapply Rle_trans; [exact P2|]. apply Rmult_le_compat_r; auto. fold g. nra.
      + clear I3. assert (L1' : Forall (fun t => rnd t = t /\ 0 <= t) leg) by (apply Forall_forall; auto). clear L1 L2 Hl. induction L1' as [|t leg (Mt & Pt) F IH]; cbn [map]; constructor; auto.
        split; [lra|]. pose proof (ar_add _ _ _ A t (last c 0) Mt Z1) as E1. rewrite (Rabs_pos_eq (t + last c 0)) in E1 by lra.
        set (x := last c 0) in *. set (x' := last c' 0) in *. fold g in Lc2.
        assert (Hx : x <= g * x') by (unfold Rabs in Lc2; destruct (Rcase_abs (x - x')); lra).
        replace (rnd (t + x) - (t + x')) with ((rnd (t + x) - (t + x)) + (x - x')) by ring. eapply Rle_trans; [apply Rabs_triang|].
        assert (e * (t + x) <= e * (t + g * x')) by (apply Rmult_le_compat_l; lra).
        assert (0 <= ((1 + e) * g - 1 - e) * t) by (apply Rmult_le_pos; nra).
        replace (((1 + e) * g - 1) * (t + x')) with (e * (t + g * x') + (g - 1) * x' + ((1 + e) * g - 1 - e) * t) by ring. lra. }
  destruct (G (rev legs)) as (G1 & _ & G3); [intros leg Hin; apply H; apply in_rev; auto|]. rewrite rev_involutive in G1, G3. rewrite rev_length in G3. split; auto.
  eapply pairs_weaken; [|exact G3]. intros a b (_ & P). exact P.
Qed.
