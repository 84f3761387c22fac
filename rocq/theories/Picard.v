(** Existence of solutions of y' = G(y) for a bounded Lipschitz right hand side, by Picard's iteration.  Vectors are the first [n] values
    of a function on the natural numbers. *)
From Coq Require Import Reals Lra Lia Classical_Prop.
From Coquelicot Require Import Coquelicot.
Local Open Scope R_scope.

Lemma cont_eps : forall (f : R -> R) t, continuous f t -> forall e, 0 < e -> exists d, 0 < d /\ forall s, Rabs (s - t) < d -> Rabs (f s - f t) < e.
Proof.
  intros f t C e He. destruct (proj1 (filterlim_locally f (f t)) C (mkposreal e He)) as (d & D). exists d. split; [apply cond_pos|]. intros s Hs. apply (D s Hs).
Qed.
Lemma eps_cont : forall (f : R -> R) t, (forall e, 0 < e -> exists d, 0 < d /\ forall s, Rabs (s - t) < d -> Rabs (f s - f t) < e) -> continuous f t.
Proof.
  intros f t H. apply (proj2 (filterlim_locally f (f t))). intros e. destruct (H e (cond_pos e)) as (d & Hd & D). exists (mkposreal d Hd). intros s Hs. apply (D s Hs).
Qed.
Definition integral (f : R -> R) (t : R) : R := RInt f 0 t.
Section Picard.
Variables (n : nat) (G : (nat -> R) -> nat -> R) (L B h : R) (x0 : nat -> R).
Hypothesis HL : 0 <= L.
Hypothesis HB : 0 <= B.
Hypothesis Hh : 0 < h.
Hypothesis HLh : L * h <= 1 / 2.
Hypothesis lip : forall a b K, (forall i, (i < n)%nat -> Rabs (a i - b i) <= K) -> forall i, (i < n)%nat -> Rabs (G a i - G b i) <= L * K.
Hypothesis bdd : forall a i, (i < n)%nat -> Rabs (G a i) <= B.

Definition vec_continuous (u : R -> nat -> R) : Prop := forall i, (i < n)%nat -> forall t : R, continuous (fun s : R => u s i) t.
Lemma near_all : forall (u : R -> nat -> R) t, (forall i, (i < n)%nat -> continuous (fun s : R => u s i) t) -> forall e, 0 < e ->
  exists d, 0 < d /\ forall s, Rabs (s - t) < d -> forall i, (i < n)%nat -> Rabs (u s i - u t i) < e.
Proof.
  intros u t. generalize n. induction n0 as [|m IH]; intros H e He.
  - exists 1. split; [lra|]. intros. lia.
  - destruct (IH (fun i Hi => H i ltac:(lia)) e He) as (d & Hd & D).
    destruct (cont_eps _ _ (H m ltac:(lia)) e He) as (d' & Hd' & C).
    exists (Rmin d d'). split; [apply Rmin_glb_lt; auto|]. intros s Hs i Hi.
    destruct (PeanoNat.Nat.eq_dec i m) as [->|N]; [|apply D; [eapply Rlt_le_trans; [exact Hs|apply Rmin_l]|lia]].
    apply C. eapply Rlt_le_trans; [exact Hs|apply Rmin_r].
Qed.
Lemma G_continuous : forall u, vec_continuous u -> forall i, (i < n)%nat -> forall t : R, continuous (fun s : R => G (u s) i) t.
Proof.
  intros u C i Hi t. apply eps_cont. intros e He0.
  assert (He : 0 < e / (L + 1)) by (apply Rdiv_lt_0_compat; lra).
  destruct (near_all u t (fun j Hj => C j Hj t) _ He) as (d & Hd & D). exists d. split; auto. intros s Hs.
  eapply Rle_lt_trans; [apply (lip (u s) (u t) (e / (L + 1))); auto|].
  - intros j Hj. apply Rlt_le, D; auto.
  - assert (E : (L + 1) * (e / (L + 1)) = e) by (field; lra). nra.
Qed.
Lemma RInt_small : forall (f : R -> R) M t, (forall s, continuous f s) -> (forall s, Rabs s <= Rabs t -> Rabs (f s) <= M) -> Rabs (integral f t) <= M * Rabs t.
Proof.
  intros f M t C Hf. unfold integral. assert (E : forall a b, ex_RInt f a b) by (intros a b; apply (ex_RInt_continuous f); intros; apply C).
  destruct (Rle_or_lt 0 t) as [Ht|Ht].
  - rewrite (Rabs_right t) by lra. replace (M * t) with ((t - 0) * M) by ring. apply abs_RInt_le_const; auto. intros s Hs. apply Hf. rewrite !Rabs_right; lra.
  - rewrite (Rabs_left t) by lra. rewrite <- opp_RInt_swap by auto. change (opp (RInt f t 0)) with (- RInt f t 0). rewrite Rabs_Ropp. replace (M * - t) with ((0 - t) * M) by ring.
    apply abs_RInt_le_const; [lra|auto|]. intros s Hs. apply Hf. rewrite (Rabs_left t) by lra. destruct (Req_dec s 0) as [->|N]; [rewrite Rabs_R0; lra|]. rewrite Rabs_left; lra.
Qed.
Lemma RInt_sub : forall (f g : R -> R) t, (forall s, continuous f s) -> (forall s, continuous g s) -> integral (fun s => f s - g s) t = integral f t - integral g t.
Proof.
  intros f g t Cf Cg. assert (Ef : ex_RInt f 0 t) by (apply (ex_RInt_continuous f); intros; apply Cf). assert (Eg : ex_RInt g 0 t) by (apply (ex_RInt_continuous g); intros; apply Cg).
  exact (RInt_minus f g 0 t Ef Eg).
Qed.
Fixpoint iter (k : nat) : R -> nat -> R :=
  match k with O => fun _ i => x0 i | S k' => fun t i => x0 i + integral (fun s => G (iter k' s) i) t end.
Lemma int_derive : forall (f : R -> R) c, (forall s, continuous f s) -> forall t, is_derive (fun u => c + integral f u) t (f t).
Proof.
  intros f c C t. replace (f t) with (plus 0 (f t)) by (unfold plus; cbn; ring). apply (is_derive_plus (fun _ => c) (fun u => RInt f 0 u)); [apply (is_derive_const c t)|].
  apply (is_derive_RInt f (fun u => RInt f 0 u) 0 t); [|apply C]. exists (mkposreal 1 Rlt_0_1). intros u _. apply (RInt_correct f), (ex_RInt_continuous f). intros; apply C.
Qed.
Lemma iter_continuous : forall k, vec_continuous (iter k).
Proof.
  induction k as [|k IH]; intros i Hi t; cbn [iter].
  - apply continuous_const.
  - apply (ex_derive_continuous (fun s : R => x0 i + integral (fun u => G (iter k u) i) s)). eexists. apply (int_derive (fun u => G (iter k u) i)). intros s. apply G_continuous; auto.
Qed.
Lemma iter_step : forall k t i, (i < n)%nat -> Rabs t <= h -> Rabs (iter (S k) t i - iter k t i) <= B * h / 2 ^ k.
Proof.
  induction k as [|k IH]; intros t i Hi Ht.
  - change (Rabs (x0 i + integral (fun s => G x0 i) t - x0 i) <= B * h / 2 ^ 0). replace (x0 i + integral (fun s => G x0 i) t - x0 i) with (integral (fun s => G x0 i) t) by ring.
    eapply Rle_trans; [apply (RInt_small (fun _ => G x0 i) B); [intros; apply continuous_const|intros; apply bdd; auto]|]. cbn [pow]. assert (B * Rabs t <= B * h) by (apply Rmult_le_compat_l; auto). lra.
  - change (Rabs (x0 i + integral (fun s => G (iter (S k) s) i) t - (x0 i + integral (fun s => G (iter k s) i) t)) <= B * h / 2 ^ S k).
    pose proof (G_continuous _ (iter_continuous (S k)) i Hi) as C1. pose proof (G_continuous _ (iter_continuous k) i Hi) as C2.
    replace (x0 i + integral (fun s => G (iter (S k) s) i) t - (x0 i + integral (fun s => G (iter k s) i) t)) with (integral (fun s => G (iter (S k) s) i - G (iter k s) i) t).
    2: { rewrite (RInt_sub _ _ t C1 C2). ring. }
    eapply Rle_trans; [apply (RInt_small _ (L * (B * h / 2 ^ k)))|].
    + intros s. apply (continuous_minus (fun u => G (iter (S k) u) i) (fun u => G (iter k u) i)); auto.
    + intros s Hs. apply lip; auto. intros j Hj. apply IH; auto. lra.
    + assert (P : 0 < 2 ^ k) by (apply pow_lt; lra). assert (Q : 0 <= B * h / 2 ^ k) by (apply Rmult_le_pos; [apply Rmult_le_pos; lra|apply Rlt_le, Rinv_0_lt_compat; auto]).
      replace (B * h / 2 ^ S k) with (1 / 2 * (B * h / 2 ^ k)) by (cbn [pow]; field; lra). pose proof (Rabs_pos t).
      assert (L * Rabs t <= 1 / 2) by (eapply Rle_trans; [apply Rmult_le_compat_l; [auto|exact Ht]|auto]). nra.
Qed.
Lemma iter_far : forall k m t i, (i < n)%nat -> Rabs t <= h -> Rabs (iter (m + k) t i - iter k t i) <= 2 * (B * h) / 2 ^ k - 2 * (B * h) / 2 ^ (m + k).
Proof.
  intros k m. induction m as [|m IH]; intros t i Hi Ht.
  - cbn [Nat.add]. rewrite !Rminus_diag_eq, Rabs_R0 by reflexivity. lra.
  - cbn [Nat.add]. pose proof (iter_step (m + k) t i Hi Ht) as A. specialize (IH t i Hi Ht).
    replace (iter (S (m + k)) t i - iter k t i) with ((iter (S (m + k)) t i - iter (m + k) t i) + (iter (m + k) t i - iter k t i)) by ring.
    eapply Rle_trans; [apply Rabs_triang|]. assert (P : 0 < 2 ^ (m + k)) by (apply pow_lt; lra).
    replace (2 * (B * h) / 2 ^ S (m + k)) with (B * h / 2 ^ (m + k)) by (cbn [pow]; field; lra).
    replace (2 * (B * h) / 2 ^ (m + k)) with (B * h / 2 ^ (m + k) + B * h / 2 ^ (m + k)) in IH by (field; lra). lra.
Qed.
Lemma iter_far' : forall k m t i, (i < n)%nat -> Rabs t <= h -> (k <= m)%nat -> Rabs (iter m t i - iter k t i) <= 2 * (B * h) / 2 ^ k.
Proof.
  intros k m t i Hi Ht Hk. replace m with ((m - k) + k)%nat by lia. eapply Rle_trans; [apply iter_far; auto|].
  assert (0 <= 2 * (B * h) / 2 ^ (m - k + k)) by (apply Rmult_le_pos; [assert (0 <= B * h) by (apply Rmult_le_pos; lra); lra|apply Rlt_le, Rinv_0_lt_compat, pow_lt; lra]). lra.
Qed.
Lemma half_small : forall C e, 0 < e -> exists k, C / 2 ^ k < e.
Proof.
  intros C e He. assert (A : Rabs (1 / 2) < 1) by (rewrite Rabs_right; lra). destruct (Rle_or_lt C 0) as [Z|Z]; [exists 0%nat; cbn; lra|].
  destruct (pow_lt_1_zero (1 / 2) A (e / C) ltac:(apply Rdiv_lt_0_compat; auto)) as (k & H). exists k. specialize (H k (le_n k)).
  assert (P : 0 < 2 ^ k) by (apply pow_lt; lra). replace ((1 / 2) ^ k) with (/ 2 ^ k) in H by (unfold Rdiv; rewrite Rmult_1_l; symmetry; rewrite pow_inv; reflexivity).
  rewrite Rabs_right in H by (apply Rle_ge, Rlt_le, Rinv_0_lt_compat; auto). apply (Rmult_lt_compat_l C) in H; auto. replace (C * (e / C)) with e in H by (field; lra). exact H.
Qed.
Definition limit (t : R) (i : nat) : R := real (Lim_seq (fun k => iter k t i)).
Lemma limit_is : forall t i, (i < n)%nat -> Rabs t <= h -> is_lim_seq (fun k => iter k t i) (limit t i).
Proof.
  intros t i Hi Ht. apply Lim_seq_correct'. apply ex_lim_seq_cauchy_corr. intros e.
  destruct (half_small (2 * (B * h)) (e / 2) ltac:(pose proof (cond_pos e); lra)) as (k & Hk). exists k. intros m m' Hm Hm'.
  pose proof (iter_far' k m t i Hi Ht Hm). pose proof (iter_far' k m' t i Hi Ht Hm').
  replace (iter m t i - iter m' t i) with ((iter m t i - iter k t i) - (iter m' t i - iter k t i)) by ring. eapply Rle_lt_trans; [apply Rabs_triang|]. rewrite Rabs_Ropp. lra.
Qed.
Lemma limit_near : forall k t i, (i < n)%nat -> Rabs t <= h -> Rabs (limit t i - iter k t i) <= 2 * (B * h) / 2 ^ k.
Proof.
  intros k t i Hi Ht. pose proof (limit_is t i Hi Ht) as Lm.
  assert (Lk : is_lim_seq (fun m => Rabs (iter m t i - iter k t i)) (Rabs (limit t i - iter k t i))).
  { apply (is_lim_seq_abs _ (Finite (limit t i - iter k t i))). apply (is_lim_seq_minus' _ _ (limit t i) (iter k t i)); auto. apply is_lim_seq_const. }
  assert (Le : is_lim_seq (fun _ : nat => 2 * (B * h) / 2 ^ k) (2 * (B * h) / 2 ^ k)) by apply is_lim_seq_const.
  apply (is_lim_seq_le_loc _ _ (Finite _) (Finite _) (ex_intro _ k (fun m Hm => iter_far' k m t i Hi Ht Hm)) Lk Le).
Qed.
(** A time put back into [-h, h]. *)
Definition hold (t : R) : R := Rmax (- h) (Rmin h t).
Lemma hold_in : forall t, Rabs (hold t) <= h.
Proof. intros t. unfold hold. apply Rabs_le. split; [apply Rmax_l|]. apply Rmax_lub; [lra|apply Rmin_l]. Qed.
Lemma hold_id : forall t, Rabs t <= h -> hold t = t.
Proof. intros t Ht. apply Rabs_le_between in Ht. unfold hold. rewrite Rmin_right, Rmax_right; lra. Qed.
Lemma hold_lip : forall s t, Rabs (hold s - hold t) <= Rabs (s - t).
Proof.
  intros s t. unfold hold, Rmin. destruct (Rle_dec h s) as [A|A]; destruct (Rle_dec h t) as [A'|A']; try apply Rnot_le_lt in A; try apply Rnot_le_lt in A'; unfold Rmax;
    repeat (match goal with |- context [Rle_dec ?a ?b] => let N := fresh in destruct (Rle_dec a b) as [N|N]; [|apply Rnot_le_lt in N] end); unfold Rabs; repeat (match goal with |- context [Rcase_abs ?a] => destruct (Rcase_abs a) end); lra.
Qed.
Definition lim (t : R) (i : nat) : R := limit (hold t) i.
Lemma lim_near : forall k t i, (i < n)%nat -> Rabs (lim t i - iter k (hold t) i) <= 2 * (B * h) / 2 ^ k.
Proof. intros k t i Hi. apply limit_near; auto. apply hold_in. Qed.
Lemma lim_continuous : vec_continuous lim.
Proof.
  intros i Hi t. apply eps_cont. intros e He0. destruct (half_small (2 * (B * h)) (e / 3) ltac:(lra)) as (k & Hk).
  assert (He : 0 < e / 3) by lra. destruct (cont_eps _ _ (iter_continuous k i Hi (hold t)) _ He) as (d & Hd & D).
  exists d. split; auto. intros s Hs.
  assert (Q : Rabs (iter k (hold s) i - iter k (hold t) i) < e / 3) by (apply D; eapply Rle_lt_trans; [apply hold_lip|exact Hs]).
  pose proof (lim_near k s i Hi) as A1. pose proof (lim_near k t i Hi) as A2.
  replace (lim s i - lim t i) with ((lim s i - iter k (hold s) i) + (iter k (hold s) i - iter k (hold t) i) - (lim t i - iter k (hold t) i)) by ring.
  eapply Rle_lt_trans; [apply Rabs_triang|]. rewrite Rabs_Ropp. pose proof (Rabs_triang (lim s i - iter k (hold s) i) (iter k (hold s) i - iter k (hold t) i)). lra.
Qed.
Lemma lim_equation : forall t i, (i < n)%nat -> Rabs t <= h -> lim t i = x0 i + integral (fun s => G (lim s) i) t.
Proof.
  intros t i Hi Ht. apply Rminus_diag_uniq. apply NNPP. intros N. pose proof (Rabs_pos_lt _ N) as P. set (q := Rabs (lim t i - (x0 i + integral (fun s => G (lim s) i) t))) in *.
  destruct (half_small (2 * (B * h)) (q / 3) ltac:(lra)) as (k & Hk). pose proof (lim_near (S k) t i Hi) as A. rewrite (hold_id t Ht) in A.
  assert (PB : 0 <= B * h) by (apply Rmult_le_pos; lra). assert (P2 : 0 < 2 ^ k) by (apply pow_lt; lra). assert (PI2 : 0 < / 2 ^ k) by (apply Rinv_0_lt_compat; auto).
  assert (A' : 2 * (B * h) / 2 ^ S k <= 2 * (B * h) / 2 ^ k) by (replace (2 * (B * h) / 2 ^ S k) with ((B * h) * / 2 ^ k) by (cbn [pow]; field; lra); unfold Rdiv; nra).
  pose proof (G_continuous _ lim_continuous i Hi) as C1. pose proof (G_continuous _ (iter_continuous k) i Hi) as C2.
  assert (D : Rabs (integral (fun s => G (iter k s) i - G (lim s) i) t) <= L * (2 * (B * h) / 2 ^ k) * Rabs t).
  { apply RInt_small; [intros s; apply (continuous_minus (fun u => G (iter k u) i) (fun u => G (lim u) i)); auto|]. intros s Hs. apply lip; auto. intros j Hj.
    rewrite Rabs_minus_sym. pose proof (lim_near k s j Hj) as Z. rewrite hold_id in Z by lra. exact Z. }
  rewrite (RInt_sub _ _ t C2 C1) in D.
  assert (D' : L * (2 * (B * h) / 2 ^ k) * Rabs t <= 2 * (B * h) / 2 ^ k).
  { assert (Z : 0 <= 2 * (B * h) / 2 ^ k) by (apply Rmult_le_pos; [lra|apply Rlt_le; auto]). pose proof (Rabs_pos t). assert (L * Rabs t <= 1 / 2) by (eapply Rle_trans; [apply Rmult_le_compat_l; [auto|exact Ht]|auto]). nra. }
  cbn [iter] in A. unfold q in *. clear q N.
  replace (lim t i - (x0 i + integral (fun s => G (lim s) i) t)) with ((lim t i - (x0 i + integral (fun s => G (iter k s) i) t)) + (integral (fun s => G (iter k s) i) t - integral (fun s => G (lim s) i) t)) in * by ring.
  match type of P with 0 < Rabs (?a + ?b) => pose proof (Rabs_triang a b) end. lra.
Qed.
Lemma lim_derive : forall t i, (i < n)%nat -> Rabs t < h -> is_derive (fun s => lim s i) t (G (lim t) i).
Proof.
  intros t i Hi Ht. apply (is_derive_ext_loc (fun s => x0 i + integral (fun u => G (lim u) i) s)).
  - assert (Hd : 0 < h - Rabs t) by lra. exists (mkposreal _ Hd). intros s Hs. change (Rabs (s - t) < h - Rabs t) in Hs. symmetry. apply lim_equation; auto.
    replace s with (t + (s - t)) by ring. eapply Rle_trans; [apply Rabs_triang|]. lra.
  - apply (int_derive (fun u => G (lim u) i)). apply G_continuous; auto. apply lim_continuous.
Qed.
Theorem picard : exists y : R -> nat -> R, (forall i, (i < n)%nat -> y 0 i = x0 i) /\ forall t i, (i < n)%nat -> Rabs t < h -> derivable_pt_lim (fun s => y s i) t (G (y t) i).
Proof.
  exists lim. split.
  - intros i Hi. rewrite lim_equation by (auto; rewrite Rabs_R0; lra). unfold integral. rewrite RInt_point. unfold zero. cbn. ring.
  - intros t i Hi Ht. apply is_derive_Reals. apply lim_derive; auto.
Qed.
End Picard.
