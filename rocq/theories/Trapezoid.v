(** The trapezoid rule on a quantity that is piecewise continuous: its sums approach the integral, evenly over all times. *)
From Coq Require Import Reals Lra Lia List Classical.
From Coquelicot Require Import Coquelicot.
Require Import Verif.Base Verif.ExactProofs.
Import ListNotations.
Local Open Scope R_scope.

Section Trap.
  Variables (T : R) (q : R -> R) (l : list R) (G : nat -> R -> R) (idx : R -> nat) (N : nat).
  Hypothesis HT : 0 <= T.
  Hypothesis Hq : forall t, 0 <= t <= T -> q t = G (idx t) t /\ (idx t < N)%nat.
  Hypothesis Hc : forall j t, (j < N)%nat -> 0 <= t <= T -> continuity_pt (G j) t.
  Hypothesis Hi : forall a b, 0 <= a <= b -> b <= T -> (forall c, a <= c <= b -> ~ In c l) -> idx a = idx b.

  Lemma all_uniform : forall e n, 0 < e -> (n <= N)%nat -> exists d, 0 < d /\ forall j s t, (j < n)%nat -> 0 <= s <= T -> 0 <= t <= T -> Rabs (s - t) < d -> Rabs (G j s - G j t) < e.
  Proof using Hc.
    intros e n He. induction n as [|n IH]; intros Hn; [exists 1; split; [lra|intros; lia]|]. destruct IH as (d & Hd & H); [lia|].
    assert (C : forall x, (fun c => 0 <= c <= T) x -> continuity_pt (G n) x) by (intros x Hx; apply Hc; [lia|exact Hx]).
    destruct (Heine (G n) (fun c => 0 <= c <= T) (compact_P3 0 T) C (mkposreal e He)) as ((d' & Hd') & H'). cbn in H'.
    exists (Rmin d d'). split; [apply Rmin_glb_lt; auto|]. intros j s t Hj Hs Ht Hst. pose proof (Rmin_l d d'). pose proof (Rmin_r d d').
    destruct (Nat.eq_dec j n) as [->|]; [apply H'; auto; lra|apply H; auto; [lia|lra]].
  Qed.
  Lemma q_bounded : exists M, 0 <= M /\ forall t, 0 <= t <= T -> Rabs (q t) <= M.
  Proof using HT Hq Hc.
    assert (A : forall n, (n <= N)%nat -> exists M, 0 <= M /\ forall j t, (j < n)%nat -> 0 <= t <= T -> Rabs (G j t) <= M).
    { induction n as [|n IH]; intros Hn; [exists 0; split; [lra|intros; lia]|]. destruct IH as (M & HM & H); [lia|].
      assert (C : forall c, 0 <= c <= T -> continuity_pt (fun t => Rabs (G n t)) c) by (intros c Hcc; apply (continuity_pt_comp (G n) Rabs); [apply Hc; [lia|auto]|apply Rcontinuity_abs]).
      destruct (continuity_ab_maj _ 0 T HT C) as (x & Hx & _). exists (M + Rabs (G n x)). pose proof (Rabs_pos (G n x)). split; [lra|]. intros j t Hj Ht.
      destruct (Nat.eq_dec j n) as [->|]; [specialize (Hx t Ht); lra|specialize (H j t ltac:(lia) Ht); lra]. }
    destruct (A N (le_n N)) as (M & HM & H). exists M. split; auto. intros t Ht. destruct (Hq t Ht) as (-> & L). apply H; auto.
  Qed.
  Lemma q_even : forall e, 0 < e -> exists d, 0 < d /\ forall a s, 0 <= a <= s -> s <= T -> s - a < d -> (forall c, a <= c <= s -> ~ In c l) -> Rabs (q s - q a) < e.
  Proof using Hq Hc Hi.
    intros e He. destruct (all_uniform e N He (le_n N)) as (d & Hd & H). exists d. split; auto. intros a s Ha Hs Hd' Hn.
    destruct (Hq a ltac:(lra)) as (-> & La). destruct (Hq s ltac:(lra)) as (-> & Ls). rewrite <- (Hi a s ltac:(lra) Hs Hn). apply H; auto; try lra. rewrite Rabs_right; lra.
  Qed.
  (** How much of [0, t] lies within [w] of the corners. *)
  Definition clip (w c t : R) : R := Rmax 0 (Rmin (2 * w) (t - (c - w))).
  Definition around (w t : R) : R := fold_right (fun c s => clip w c t + s) 0 l.
  Lemma clip_facts : forall w c t t', 0 <= w -> t <= t' -> 0 <= clip w c t <= 2 * w /\ clip w c t <= clip w c t'.
  Proof using.
    intros w c t t' Hw Ht. unfold clip, Rmin. repeat (match goal with |- context [Rle_dec ?a ?b] => destruct (Rle_dec a b) end); unfold Rmax; repeat (match goal with |- context [Rle_dec ?a ?b] => destruct (Rle_dec a b) end); lra.
  Qed.
  Lemma around_bounds : forall w t, 0 <= w -> 0 <= around w t <= 2 * w * INR (length l).
  Proof using.
    intros w t Hw. unfold around. clear Hi. induction l as [|c l' IH]; [cbn; lra|]. cbn [fold_right length]. rewrite S_INR. destruct (clip_facts w c t t Hw ltac:(lra)) as (A & _). lra.
  Qed.
  Lemma around_grows : forall w t t', 0 <= w -> t <= t' -> around w t <= around w t'.
  Proof using.
    intros w t t' Hw Ht. unfold around. clear Hi. induction l as [|c l' IH]; [cbn; lra|]. cbn [fold_right]. destruct (clip_facts w c t t' Hw Ht) as (_ & A). lra.
  Qed.
  Lemma around_step : forall w a c, 0 <= w -> In c l -> a <= c <= a + w -> around w a + w <= around w (a + w).
  Proof using.
    intros w a c Hw Hin Ha. unfold around. clear Hi. induction l as [|x l' IH]; [contradiction|]. cbn [fold_right]. destruct Hin as [->|Hin].
    - assert (clip w c a + w <= clip w c (a + w)). { unfold clip, Rmin. repeat (match goal with |- context [Rle_dec ?a ?b] => destruct (Rle_dec a b) end); unfold Rmax; repeat (match goal with |- context [Rle_dec ?a ?b] => destruct (Rle_dec a b) end); lra. }
      pose proof (fun H => around_grows w a (a + w) Hw H). clear IH.
      assert (fold_right (fun c s => clip w c a + s) 0 l' <= fold_right (fun c s => clip w c (a + w) + s) 0 l').
      { clear - Hw. induction l' as [|y l'' IH]; [cbn; lra|]. cbn [fold_right]. destruct (clip_facts w y a (a + w) Hw ltac:(lra)) as (_ & A). lra. }
      lra.
    - specialize (IH Hin). destruct (clip_facts w x a (a + w) Hw ltac:(lra)) as (_ & A). lra.
  Qed.

  (** The integral exists. *)
  Lemma q_integrable : forall l' a b, 0 <= a <= b -> b <= T -> (forall c, a < c < b -> In c l -> In c l') -> ex_RInt q a b.
  Proof using Hq Hc Hi.
    induction l' as [|x l' IH]; intros a b Ha Hb Hl.
    - destruct (Req_dec a b) as [->|Nab]; [apply ex_RInt_point|]. set (m := (a + b) / 2).
      assert (I : forall s, a < s < b -> idx s = idx m).
      { intros s Hs. assert (W : forall u v, a < u <= v -> v < b -> idx u = idx v) by (intros u v Hu Hv; apply Hi; try lra; intros c Hcc Hin; apply (Hl c); auto; lra).
        destruct (Rle_dec s m); [apply W; unfold m in *; lra|symmetry; apply W; unfold m in *; lra]. }
      destruct (Hq m ltac:(unfold m; lra)) as (_ & Lm).
      apply (ex_RInt_ext (G (idx m))).
      + rewrite Rmin_left, Rmax_right by lra. intros s Hs. destruct (Hq s ltac:(lra)) as (-> & _). rewrite (I s Hs); auto.
      + apply (ex_RInt_continuous (G (idx m))). rewrite Rmin_left, Rmax_right by lra. intros z Hz. apply continuity_pt_filterlim. apply Hc; auto. lra.
    - destruct (Rlt_dec a x) as [A|A]; [destruct (Rlt_dec x b) as [B|B]|].
      + apply (ex_RInt_Chasles q a x b); apply IH; try lra; intros c Hcc Hin; destruct (Hl c ltac:(lra) Hin) as [->|]; auto; lra.
      + apply IH; auto. intros c Hcc Hin. destruct (Hl c Hcc Hin) as [->|]; auto. lra.
      + apply IH; auto. intros c Hcc Hin. destruct (Hl c Hcc Hin) as [->|]; auto. lra.
  Qed.
  Lemma q_locally : forall t, 0 < t < T -> ~ In t l -> exists d, 0 < d /\ 0 < t - d /\ t + d < T /\ forall c, t - d <= c <= t + d -> ~ In c l.
  Proof using.
    intros t Ht. clear Hi. induction l as [|x l' IH]; intros Hn.
    - exists (Rmin t (T - t) / 2). assert (0 < Rmin t (T - t)) by (apply Rmin_glb_lt; lra). pose proof (Rmin_l t (T - t)). pose proof (Rmin_r t (T - t)). repeat split; try lra. auto.
    - destruct IH as (d & D1 & D2 & D3 & D4); [intros H; apply Hn; right; auto|]. assert (x <> t) by (intros ->; apply Hn; left; auto).
      assert (0 < Rabs (t - x)) by (apply Rabs_pos_lt; lra). exists (Rmin d (Rabs (t - x) / 2)). assert (0 < Rmin d (Rabs (t - x) / 2)) by (apply Rmin_glb_lt; lra).
      pose proof (Rmin_l d (Rabs (t - x) / 2)). pose proof (Rmin_r d (Rabs (t - x) / 2)). repeat split; try lra. intros c Hcc [->|Hin]; [|apply (D4 c); auto; lra].
      assert (Rabs (t - c) <= Rabs (t - c) / 2) by (eapply Rle_trans; [|eassumption]; apply Rabs_le; lra). lra.
  Qed.
  Lemma q_continuous : forall t, 0 < t < T -> ~ In t l -> continuity_pt q t.
  Proof using Hq Hc Hi.
    intros t Ht Hn. destruct (q_locally t Ht Hn) as (d & D1 & D2 & D3 & D4). destruct (Hq t ltac:(lra)) as (Et & Lt).
    apply continuity_pt_filterlim. apply (continuous_ext_loc q (G (idx t)) t).
    - exists (mkposreal d D1). intros s Hs. unfold ball in Hs. cbn in Hs. unfold AbsRing_ball, abs, minus, plus, opp in Hs. cbn in Hs. apply Rabs_def2 in Hs.
      destruct (Hq s ltac:(lra)) as (-> & _). f_equal.
      destruct (Rle_dec s t); [symmetry|]; apply Hi; try lra; intros c Hcc; apply D4; lra.
    - apply continuity_pt_filterlim. apply Hc; auto. lra.
  Qed.
  Theorem integral_exists : exists J : R -> R, J 0 = 0 /\ (forall t, 0 <= t <= T -> continuity_pt J t) /\ (forall t, 0 < t < T -> ~ In t l -> derivable_pt_lim J t (q t)).
  Proof using HT Hq Hc Hi.
    destruct q_bounded as (M & HM & QM).
    assert (EX : forall a b, 0 <= a <= b -> b <= T -> ex_RInt q a b) by (intros a b Ha Hb; apply (q_integrable l); auto).
    set (I := fun t : R => RInt q 0 t : R). set (cl := fun t => Rmax 0 (Rmin T t)).
    assert (CL : forall t, 0 <= cl t <= T) by (intros t; unfold cl; split; [apply Rmax_l|apply Rmax_lub; [lra|apply Rmin_l]]).
    assert (CI : forall t, 0 <= t <= T -> cl t = t) by (intros t Ht; unfold cl; rewrite Rmin_right, Rmax_right; lra).
    assert (CD : forall s t, Rabs (cl s - cl t) <= Rabs (s - t)).
    { intros s t. unfold cl, Rmin. destruct (Rle_dec T s), (Rle_dec T t); unfold Rmax; repeat (match goal with |- context [Rle_dec ?a ?b] => destruct (Rle_dec a b) end); apply Rabs_le; destruct (Rcase_abs (s - t)) as [X|X];
        [rewrite Rabs_left by auto|rewrite Rabs_right by auto|..]; try lra; try (rewrite Rabs_left by auto; lra); rewrite Rabs_right by auto; lra. }
    assert (IL : forall a b, 0 <= a <= b -> b <= T -> Rabs (I b - I a) <= M * (b - a)).
    { intros a b Ha Hb. assert (E : I b = I a + RInt q a b) by (unfold I; symmetry; apply (RInt_Chasles q 0 a b); apply EX; lra). rewrite E. replace (I a + RInt q a b - I a) with (RInt q a b : R) by (cbn; ring).
      rewrite Rmult_comm. apply abs_RInt_le_const; [lra|apply EX; lra|]. intros s Hs. apply QM. lra. }
    assert (IL2 : forall a b, 0 <= a <= T -> 0 <= b <= T -> Rabs (I b - I a) <= M * Rabs (b - a)).
    { intros a b Ha Hb. destruct (Rle_dec a b); [rewrite (Rabs_right (b - a)) by lra; apply IL; lra|]. rewrite Rabs_minus_sym, (Rabs_left (b - a)) by lra. replace (- (b - a)) with (a - b) by ring. apply IL; lra. }
    exists (fun t => I (cl t)). split; [|split].
    - rewrite CI by lra. unfold I. rewrite RInt_point. reflexivity.
    - intros t Ht e He. exists (e / (M + 1)). assert (0 < e / (M + 1)) by (apply Rdiv_lt_0_compat; lra). split; auto. intros s (_ & Hs). cbn in *. unfold R_dist in *.
      eapply Rle_lt_trans; [apply IL2; apply CL|]. pose proof (CD s t). assert (e / (M + 1) * (M + 1) = e) by (field; lra). pose proof (Rabs_pos (cl s - cl t)). nra.
    - intros t Ht Hn. apply is_derive_Reals. apply (is_derive_ext_loc I).
      + apply (locally_interval _ t 0 T); cbn; try lra. intros s Hs1 Hs2. cbn in *. rewrite CI by lra. reflexivity.
      + apply (is_derive_RInt q I 0 t).
        * apply (locally_interval _ t 0 T); cbn; try lra. intros s Hs1 Hs2. apply (RInt_correct q 0 s), EX; cbn in Hs1, Hs2; lra.
        * apply continuity_pt_filterlim, q_continuous; auto.
  Qed.

  Variable J : R -> R.
  Hypothesis J0 : J 0 = 0.
  Hypothesis Jc : forall t, 0 <= t <= T -> continuity_pt J t.
  Hypothesis Jd : forall t, 0 < t < T -> ~ In t l -> derivable_pt_lim J t (q t).

  Lemma J_slow : forall M a b, (forall t, 0 <= t <= T -> Rabs (q t) <= M) -> 0 <= a <= b -> b <= T -> Rabs (J b - J a) <= M * (b - a).
  Proof using Jc Jd.
    intros M a b HM Ha Hb.
    assert (U : J b - M * b <= J a - M * a).
    { apply (nonincreasing_corners (fun t => J t - M * t) (fun t => q t - M * 1) l); [lra| |].
      - intros c Hcc. apply (continuity_pt_minus J (fun t => M * t)); [apply Jc; lra|]. apply derivable_continuous_pt. apply (derivable_pt_scal id M). apply derivable_pt_id.
      - intros c Hcc Hn. split; [apply (derivable_pt_lim_minus J (fun t => M * t)); [apply Jd; auto; lra|apply (derivable_pt_lim_scal id M), derivable_pt_lim_id]|].
        specialize (HM c ltac:(lra)). apply Rabs_le_between in HM. lra. }
    assert (L : - J b - M * b <= - J a - M * a).
    { apply (nonincreasing_corners (fun t => - J t - M * t) (fun t => - q t - M * 1) l); [lra| |].
      - intros c Hcc. apply (continuity_pt_minus (fun t => - J t) (fun t => M * t)); [apply (continuity_pt_opp J), Jc; lra|]. apply derivable_continuous_pt. apply (derivable_pt_scal id M). apply derivable_pt_id.
      - intros c Hcc Hn. split; [apply (derivable_pt_lim_minus (fun t => - J t) (fun t => M * t)); [apply (derivable_pt_lim_opp J), Jd; auto; lra|apply (derivable_pt_lim_scal id M), derivable_pt_lim_id]|].
        specialize (HM c ltac:(lra)). apply Rabs_le_between in HM. lra. }
    apply Rabs_le. lra.
  Qed.
  Lemma one_good : forall e a w, 0 < w -> 0 <= a -> a + w <= T -> (forall c, a <= c <= a + w -> ~ In c l) -> (forall s, a <= s <= a + w -> Rabs (q s - q a) < e) ->
    Rabs (w * (q a + q (a + w)) / 2 - (J (a + w) - J a)) <= 2 * e * w.
  Proof using Jc Jd.
    intros e a w Hw Ha Hb Hn He.
    assert (D : forall c, a < c < a + w -> derivable_pt_lim J c (q c)) by (intros c Hcc; apply Jd; [lra|apply Hn; lra]).
    assert (B : Rabs (J (a + w) - J a - q a * w) <= e * w).
    { apply Rabs_le.
      assert (U : J (a + w) - (q a + e) * (a + w) <= J a - (q a + e) * a).
      { apply (nonincreasing_corners (fun t => J t - (q a + e) * t) (fun t => q t - (q a + e) * 1) []); [lra| |].
        - intros c Hcc. apply (continuity_pt_minus J (fun t => (q a + e) * t)); [apply Jc; lra|]. apply derivable_continuous_pt. apply (derivable_pt_scal id (q a + e)). apply derivable_pt_id.
        - intros c Hcc _. split; [apply (derivable_pt_lim_minus J (fun t => (q a + e) * t)); [apply D; auto|apply (derivable_pt_lim_scal id (q a + e)), derivable_pt_lim_id]|].
          specialize (He c ltac:(lra)). apply Rabs_def2 in He. lra. }
      assert (L : - J (a + w) - (e - q a) * (a + w) <= - J a - (e - q a) * a).
      { apply (nonincreasing_corners (fun t => - J t - (e - q a) * t) (fun t => - q t - (e - q a) * 1) []); [lra| |].
        - intros c Hcc. apply (continuity_pt_minus (fun t => - J t) (fun t => (e - q a) * t)); [apply (continuity_pt_opp J), Jc; lra|]. apply derivable_continuous_pt. apply (derivable_pt_scal id (e - q a)). apply derivable_pt_id.
        - intros c Hcc _. split; [apply (derivable_pt_lim_minus (fun t => - J t) (fun t => (e - q a) * t)); [apply (derivable_pt_lim_opp J), D; auto|apply (derivable_pt_lim_scal id (e - q a)), derivable_pt_lim_id]|].
          specialize (He c ltac:(lra)). apply Rabs_def2 in He. lra. }
      lra. }
    specialize (He (a + w) ltac:(lra)). apply Rabs_le_between in B. apply Rabs_def2 in He. apply Rabs_le. nra.
  Qed.
  Theorem trapezoid : forall e, 0 < e -> exists d, 0 < d /\ forall w (h : nat -> R) n, 0 < w < d -> h 0%nat = 0 -> INR n * w <= T ->
    (forall k, (k < n)%nat -> h (S k) = h k + w * (q (INR k * w) + q (INR (S k) * w)) / 2) -> Rabs (h n - J (INR n * w)) <= e.
  Proof using HT Hq Hc Hi J0 Jc Jd.
    intros e He. destruct q_bounded as (M & HM & QM). set (e' := e / (4 * (T + 1))). assert (He' : 0 < e') by (apply Rdiv_lt_0_compat; lra).
    destruct (q_even e' He') as (d1 & Hd1 & QE). set (K := 4 * M * INR (length l) + 1). assert (HK : 1 <= K) by (unfold K; pose proof (pos_INR (length l)); nra).
    set (d2 := e / (2 * K)). assert (Hd2 : 0 < d2) by (apply Rdiv_lt_0_compat; lra). exists (Rmin d1 d2). split; [apply Rmin_glb_lt; auto|].
    intros w h n Hw h0 Hn Hs. pose proof (Rmin_l d1 d2). pose proof (Rmin_r d1 d2).
    assert (MAIN : forall k, (k <= n)%nat -> Rabs (h k - J (INR k * w)) <= 2 * e' * (INR k * w) + 2 * M * around w (INR k * w)).
    { induction k as [|k IH]; intros Hk.
      - cbn [INR]. rewrite Rmult_0_l, h0, J0, Rminus_0_r, Rabs_R0. destruct (around_bounds w 0 ltac:(lra)) as (A & _). nra.
      - specialize (IH ltac:(lia)). rewrite (Hs k ltac:(lia)). rewrite S_INR. set (a := INR k * w) in *. replace ((INR k + 1) * w) with (a + w) by (unfold a; ring).
        assert (Ha : 0 <= a) by (apply Rmult_le_pos; [apply pos_INR|lra]).
        assert (Hb : a + w <= T). { apply (Rle_trans _ (INR n * w)); auto. replace (a + w) with (INR (S k) * w) by (rewrite S_INR; unfold a; ring). apply Rmult_le_compat_r; [lra|]. apply le_INR. lia. }
        replace (h k + w * (q a + q (a + w)) / 2 - J (a + w)) with ((h k - J a) + (w * (q a + q (a + w)) / 2 - (J (a + w) - J a))) by ring.
        eapply Rle_trans; [apply Rabs_triang|]. destruct (classic (exists c, In c l /\ a <= c <= a + w)) as [(c & Hcl & Hca)|NC].
        + assert (Rabs (w * (q a + q (a + w)) / 2 - (J (a + w) - J a)) <= 2 * M * w).
          { pose proof (J_slow M a (a + w) QM ltac:(lra) Hb) as B. replace (a + w - a) with w in B by ring. pose proof (QM a ltac:(lra)) as B1. pose proof (QM (a + w) ltac:(lra)) as B2.
            apply Rabs_le_between in B. apply Rabs_le_between in B1. apply Rabs_le_between in B2. apply Rabs_le. nra. }
          pose proof (around_step w a c ltac:(lra) Hcl Hca). nra.
        + assert (Rabs (w * (q a + q (a + w)) / 2 - (J (a + w) - J a)) <= 2 * e' * w).
          { apply one_good; auto; try lra. { intros c Hcc Hin. apply NC. exists c. auto. } intros s Hss. apply QE; try lra. intros c Hcc Hin. apply NC. exists c. split; auto. lra. }
          pose proof (around_grows w a (a + w) ltac:(lra) ltac:(lra)). nra. }
    specialize (MAIN n (le_n n)). destruct (around_bounds w (INR n * w) ltac:(lra)) as (_ & A).
    assert (E1 : 2 * e' * (INR n * w) <= e / 2). { assert (e' * (4 * (T + 1)) = e) by (unfold e'; field; lra). nra. }
    assert (E2 : 2 * M * around w (INR n * w) <= e / 2).
    { assert (Q : d2 * (2 * K) = e) by (unfold d2; field; lra). assert (2 * M * around w (INR n * w) <= K * w) by (unfold K; pose proof (pos_INR (length l)); nra). nra. }
    lra.
  Qed.
  Variable K : R -> R.
  Hypothesis K0 : K 0 = 0.
  Hypothesis Kc : forall t, 0 <= t <= T -> continuity_pt K t.
  Hypothesis Kd : forall t, 0 < t < T -> ~ In t l -> derivable_pt_lim K t (q t).
  Lemma integral_unique : forall t, 0 <= t <= T -> J t = K t.
  Proof using J0 Jc Jd K0 Kc Kd.
    assert (A : forall P Q t, P 0 = 0 -> Q 0 = 0 -> (forall t, 0 <= t <= T -> continuity_pt P t) -> (forall t, 0 <= t <= T -> continuity_pt Q t) ->
      (forall t, 0 < t < T -> ~ In t l -> derivable_pt_lim P t (q t)) -> (forall t, 0 < t < T -> ~ In t l -> derivable_pt_lim Q t (q t)) -> 0 <= t <= T -> P t <= Q t).
    { intros P Q t P0 Q0 Pc Qc Pd Qd Ht. assert (P t - Q t <= P 0 - Q 0); [|lra]. apply (nonincreasing_corners (fun s => P s - Q s) (fun s => q s - q s) l); [lra| |].
      - intros c Hcc. apply (continuity_pt_minus P Q); [apply Pc|apply Qc]; lra.
      - intros c Hcc Hn. split; [|lra]. apply (derivable_pt_lim_minus P Q); [apply Pd|apply Qd]; auto; lra. }
    intros t Ht. apply Rle_antisym; apply A; auto.
  Qed.
End Trap.
