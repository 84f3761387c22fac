(** C123: linear table lookup in binary64. *)
From Coq Require Import List ZArith Lia Lra Permutation Sorted.
From Flocq Require Import Core Relative Plus_error Sterbenz.
Require Import Verif.Base Verif.Numpy Verif.NumpyProofs Verif.PlanetModel Verif.RoundSpec Verif.TableSpec Verif.PropRound64 Verif.PropRunning64 Verif.PropOrbitRound64
  Verif.TableRoundModel Verif.TableRoundSpec.
Import ListNotations.
Local Open Scope R_scope.

(** ** The rows used *)
Lemma sorted_seg_r : forall rnd t p q x, StronglySorted row_lt t -> adjacent t p q -> fst p <= x < fst q ->
  interp_sorted_r rnd t x = if Reqb x (fst p) then snd p else lin_r rnd p q x.
Proof.
  intros rnd. induction t as [|a t IH]; intros p q x S (Ip & Iq & L & N) X; [destruct Ip|]. destruct t as [|b t].
  - destruct Ip as [<-|[]], Iq as [<-|[]]. lra.
  - inversion S as [|? ? S' F]; subst. inversion S' as [|? ? S2 F2]; subst. rewrite Forall_forall in F, F2.
    assert (Lb : forall r, In r (b :: t) -> r = b \/ fst b < fst r) by (intros r [->|H]; [left; reflexivity|right; apply F2; exact H]).
    assert (La : forall r, In r (b :: t) -> fst a < fst r) by (intros r H; apply F; exact H).
    change (interp_sorted_r rnd (a :: b :: t) x) with (if Rltb x (fst b) then (if Reqb x (fst a) then snd a else lin_r rnd a b x) else interp_sorted_r rnd (b :: t) x).
    assert (Iq' : In q (b :: t)). { destruct Iq as [<-|H]; [|exact H]. exfalso. destruct Ip as [<-|H]; [lra|]. specialize (La p H). lra. }
    destruct (Rltb_spec x (fst b)) as [Hx|Hx].
    + assert (p = a) as ->. { destruct Ip as [->|H]; [reflexivity|]. exfalso. destruct (Lb p H) as [->|]; lra. }
      destruct (Lb q Iq') as [->|H]; [reflexivity|]. exfalso. apply (N b); [right; left; reflexivity|]. split; [apply La; left; reflexivity|exact H].
    + apply IH; auto. assert (Ip' : In p (b :: t)).
      { destruct Ip as [<-|H]; [|exact H]. exfalso. apply (N b); [right; left; reflexivity|]. split; [apply La; left; reflexivity|lra]. }
      split; [exact Ip'|]. split; [exact Iq'|]. split; [exact L|]. intros r Hr. apply N. right. exact Hr.
Qed.
Lemma sort_adjacent : forall t p q, adjacent t p q -> adjacent (sort_rows t) p q.
Proof. intros t p q (A & B & C & D). split; [apply in_sort; exact A|]. split; [apply in_sort; exact B|]. split; [exact C|]. intros r Hr. apply D. apply in_unsort. exact Hr. Qed.
Lemma seg_r : forall rnd t lo hi p q x, NoDup (map fst t) -> adjacent t p q -> fst p <= x < fst q ->
  interp1d_r rnd t lo hi x = Ok (if Reqb x (fst p) then snd p else lin_r rnd p q x).
Proof.
  intros rnd t lo hi p q x ND A X. pose proof (sort_rows_strict t ND) as S. pose proof (sort_adjacent t p q A) as A'.
  unfold interp1d_r. destruct (sort_rows t) as [|a s] eqn:E; [destruct A' as [[] _]|].
  destruct (Rltb_spec x (fst a)) as [H|H]. { exfalso. pose proof (first_x_min s a p S (proj1 A')). lra. }
  destruct (Rltb_spec (last_x (a :: s)) x) as [H'|H']. { exfalso. pose proof (last_x_max (a :: s) q S (proj1 (proj2 A'))). lra. }
  rewrite (sorted_seg_r rnd (a :: s) p q x S A' X). reflexivity.
Qed.
Lemma sorted_last_r : forall rnd t p, StronglySorted row_lt t -> In p t -> (forall q, In q t -> fst q <= fst p) -> interp_sorted_r rnd t (fst p) = snd p.
Proof.
  intros rnd. induction t as [|a t IH]; intros p S I M; [destruct I|]. destruct t as [|b t].
  - destruct I as [->|[]]. reflexivity.
  - inversion S as [|? ? S' F]; subst. rewrite Forall_forall in F.
    change (interp_sorted_r rnd (a :: b :: t) (fst p)) with (if Rltb (fst p) (fst b) then (if Reqb (fst p) (fst a) then snd a else lin_r rnd a b (fst p)) else interp_sorted_r rnd (b :: t) (fst p)).
    pose proof (M b (or_intror (or_introl eq_refl))) as Mb. destruct (Rltb_spec (fst p) (fst b)) as [H|H]; [lra|].
    apply IH; auto; [|intros q Hq; apply M; right; exact Hq]. destruct I as [<-|I]; [|exact I]. exfalso. pose proof (F b (or_introl eq_refl)) as Fb. unfold row_lt in Fb. lra.
Qed.
(** A row is the last one, or has a neighbour. *)
Lemma next_row : forall t p, In p t -> (forall q, In q t -> fst q <= fst p) \/ exists q, adjacent t p q.
Proof.
  intros t p I. assert (G : forall l, (forall q, In q l -> In q t) -> (forall q, In q l -> fst q <= fst p) \/ exists q, In q l /\ fst p < fst q /\ forall r, In r l -> ~ (fst p < fst r < fst q)).
  { induction l as [|a l IH]; intros Hl; [left; intros q []|]. destruct IH as [IH|(q & Iq & Lq & Nq)]; [intros q Hq; apply Hl; right; exact Hq| |].
    - destruct (Rle_or_lt (fst a) (fst p)) as [H|H].
      + left. intros q [<-|Hq]; auto.
      + right. exists a. split; [left; reflexivity|]. split; [exact H|]. intros r [<-|Hr]; [lra|]. specialize (IH r Hr). lra.
    - right. destruct (Rle_or_lt (fst a) (fst p)) as [H|H]; [|destruct (Rle_or_lt (fst q) (fst a)) as [H'|H']].
      + exists q. split; [right; exact Iq|]. split; [exact Lq|]. intros r [<-|Hr]; [lra|auto].
      + exists q. split; [right; exact Iq|]. split; [exact Lq|]. intros r [<-|Hr]; [lra|auto].
      + exists a. split; [left; reflexivity|]. split; [exact H|]. intros r [<-|Hr]; [lra|]. specialize (Nq r Hr). lra. }
  destruct (G t (fun q H => H)) as [H|(q & A & B & C)]; [left; exact H|right]. exists q. split; [exact I|]. auto.
Qed.
Lemma node_r : forall rnd t lo hi x y, NoDup (map fst t) -> In (x, y) t -> interp1d_r rnd t lo hi x = Ok y.
Proof.
  intros rnd t lo hi x y ND I. destruct (next_row t (x, y) I) as [M|(q & A)].
  - pose proof (sort_rows_strict t ND) as S. unfold interp1d_r. apply in_sort in I. destruct (sort_rows t) as [|a s] eqn:E; [destruct I|].
    assert (M' : forall q, In q (a :: s) -> fst q <= x) by (intros q Hq; apply (M q); apply in_unsort; rewrite E; exact Hq).
    destruct (Rltb_spec x (fst a)) as [H|H]. { exfalso. pose proof (M' a (or_introl eq_refl)). lra. }
    destruct (Rltb_spec (last_x (a :: s)) x) as [H'|H']. { exfalso. pose proof (last_x_max (a :: s) (x, y) S I) as Q. cbn [fst] in Q. lra. }
    pose proof (sorted_last_r rnd (a :: s) (x, y) S I M') as Q. cbn [fst snd] in Q. rewrite Q. reflexivity.
  - rewrite (seg_r rnd t lo hi (x, y) q x ND A). { cbn [fst snd]. destruct (Reqb_spec x x); [reflexivity|congruence]. }
    destruct A as (_ & _ & L & _). cbn [fst] in *. lra.
Qed.
(** Where a query is. *)
Lemma where_x : forall t x, NoDup (map fst t) -> inside t x -> (exists y, In (x, y) t) \/ exists p q, adjacent t p q /\ fst p < x < fst q.
Proof.
  intros t x ND I. destruct (interp1d_inside t 0 0 x ND I) as (y & _ & [H|(p & q & A & X & _)]); [left; eauto|].
  destruct (Req_dec (fst p) x) as [E|E]; [left; exists (snd p); rewrite <- E, <- surjective_pairing; apply A|].
  destruct (Req_dec x (fst q)) as [E'|E']; [left; exists (snd q); rewrite E', <- surjective_pairing; apply A|]. right. exists p, q. split; [exact A|lra].
Qed.

(** ** Whatever the rounding *)
(** Without rounding it is the exact lookup of C03. *)
Theorem C123_exact : forall t lo hi x, interp1d_r (fun y => y) t lo hi x = interp1d t lo hi x.
Proof.
  intros t lo hi x. unfold interp1d_r, interp1d. destruct (sort_rows t) as [|[x0 y0] s]; [reflexivity|]. cbn [fst].
  assert (G : forall l, interp_sorted_r (fun y => y) l x = interp_sorted l x).
  { induction l as [|[a b] l IH]; [reflexivity|]. destruct l as [|[c d] l]; [reflexivity|].
    change (interp_sorted_r (fun y => y) ((a, b) :: (c, d) :: l) x) with (if Rltb x c then (if Reqb x a then b else lin_r (fun y => y) (a, b) (c, d) x) else interp_sorted_r (fun y => y) ((c, d) :: l) x).
    change (interp_sorted ((a, b) :: (c, d) :: l) x) with (if Rltb x c then (d - b) / (c - a) * (x - a) + b else interp_sorted ((c, d) :: l) x).
    rewrite IH. destruct (Rltb x c); [|reflexivity]. unfold lin_r. cbn [fst snd]. destruct (Reqb_spec x a) as [->|]; [ring|reflexivity]. }
  rewrite G. reflexivity.
Qed.
(** At a tabulated abscissa the tabulated value, outside the fill value, exactly; the order of the rows does not matter. *)
Theorem C123_nodes : forall rnd t lo hi x, NoDup (map fst t) -> t <> [] ->
  (forall y, In (x, y) t -> interp1d_r rnd t lo hi x = Ok y) /\
  (left_of t x -> interp1d_r rnd t lo hi x = Ok lo) /\ (right_of t x -> interp1d_r rnd t lo hi x = Ok hi) /\
  (forall t', Permutation t t' -> interp1d_r rnd t' lo hi x = interp1d_r rnd t lo hi x).
Proof.
  intros rnd t lo hi x ND NE. split; [|split; [|split]].
  - intros y. apply node_r. exact ND.
  - intros L. unfold interp1d_r. destruct (sort_rows t) as [|a s] eqn:E.
    + destruct t as [|p t]; [congruence|]. pose proof (in_sort (p :: t) p (or_introl eq_refl)) as Q. rewrite E in Q. destruct Q.
    + destruct (Rltb_spec x (fst a)) as [H|H]; [reflexivity|]. exfalso. assert (I : In a t) by (apply in_unsort; rewrite E; left; reflexivity). specialize (L a I). lra.
  - intros L. unfold interp1d_r. destruct (sort_rows t) as [|a s] eqn:E.
    + destruct t as [|p t]; [congruence|]. pose proof (in_sort (p :: t) p (or_introl eq_refl)) as Q. rewrite E in Q. destruct Q.
    + assert (Ia : In a t) by (apply in_unsort; rewrite E; left; reflexivity). pose proof (L a Ia) as La. destruct (Rltb_spec x (fst a)) as [H|H]; [lra|].
      destruct (Rltb_spec (last_x (a :: s)) x) as [H'|H']; [reflexivity|]. exfalso. assert (Il : In (last (a :: s) (0, 0)) t) by (apply in_unsort; rewrite E; apply last_x_in).
      specialize (L _ Il). unfold last_x in H'. lra.
  - intros t' P. unfold interp1d_r. replace (sort_rows t') with (sort_rows t); [reflexivity|]. apply strict_sorted_unique.
    + apply sort_rows_strict. exact ND.
    + apply sort_rows_strict. eapply Permutation_NoDup; [apply Permutation_map; exact P|exact ND].
    + intros r. rewrite <- !sort_rows_in. split; [apply Permutation_in; exact P|apply Permutation_in; apply Permutation_sym; exact P].
Qed.

(** ** Binary64 *)
Local Instance p53' : Prec_gt_0 53 := eq_refl.
Notation F64 := (generic_format radix2 (FLT_exp (-1074) 53)).
Lemma b64_le : forall x y, x <= y -> b64 x <= b64 y.
Proof. intros x y H. apply round_le; auto with typeclass_instances. Qed.
Lemma b64_0 : b64 0 = 0.
Proof. apply round_0. auto with typeclass_instances. Qed.
Lemma b64_pos : forall x, 0 <= x -> 0 <= b64 x.
Proof. intros x H. rewrite <- b64_0. apply b64_le. exact H. Qed.
Lemma b64_neg : forall x, x <= 0 -> b64 x <= 0.
Proof. intros x H. pose proof (b64_le x 0 H) as Q. rewrite b64_0 in Q. exact Q. Qed.
Lemma b64_machine : forall x, machine b64 (b64 x).
Proof. intros x. unfold machine. apply b64_format. unfold b64. apply generic_format_round; auto with typeclass_instances. Qed.
Lemma lin_left : forall p q, machine b64 (snd p) -> lin_r b64 p q (fst p) = snd p.
Proof. intros p q H. unfold lin_r. rewrite (Rminus_diag_eq (fst p) (fst p)) by reflexivity. rewrite b64_0, Rmult_0_r, b64_0, Rplus_0_l. exact H. Qed.
Lemma seg64 : forall t lo hi p q x, NoDup (map fst t) -> machine_table t -> adjacent t p q -> fst p <= x < fst q -> interp1d_r b64 t lo hi x = Ok (lin_r b64 p q x).
Proof.
  intros t lo hi p q x ND M A X. rewrite (seg_r b64 t lo hi p q x ND A X). destruct (Reqb_spec x (fst p)) as [->|]; [|reflexivity]. rewrite lin_left; [reflexivity|]. apply M. apply A.
Qed.
Lemma lin_falls : forall p q x x', fst p < fst q -> snd q <= snd p -> fst p <= x <= x' -> lin_r b64 p q x' <= lin_r b64 p q x.
Proof.
  intros p q x x' L D X. unfold lin_r. apply b64_le. apply Rplus_le_compat_r. apply b64_le.
  apply Rmult_le_compat_neg_l; [|apply b64_le; lra]. apply b64_neg. unfold Rdiv. pose proof (b64_neg (snd q - snd p) ltac:(lra)). pose proof (b64_pos (fst q - fst p) ltac:(lra)) as P.
  destruct P as [P|P]; [|rewrite <- P, Rinv_0; lra]. apply Rinv_0_lt_compat in P. nra.
Qed.
Lemma lin_rises : forall p q x x', fst p < fst q -> snd p <= snd q -> fst p <= x <= x' -> lin_r b64 p q x <= lin_r b64 p q x'.
Proof.
  intros p q x x' L D X. unfold lin_r. apply b64_le. apply Rplus_le_compat_r. apply b64_le.
  apply Rmult_le_compat_l; [|apply b64_le; lra]. apply b64_pos. unfold Rdiv. pose proof (b64_pos (snd q - snd p) ltac:(lra)). pose proof (b64_pos (fst q - fst p) ltac:(lra)) as P.
  destruct P as [P|P]; [|rewrite <- P, Rinv_0; lra]. apply Rinv_0_lt_compat in P. nra.
Qed.
(** Between two rows the computed value goes steadily from the first, downwards or upwards as the rows do. *)
Theorem C123_between_rows : forall t lo hi p q, NoDup (map fst t) -> machine_table t -> adjacent t p q -> forall x x', fst p <= x <= x' -> x' < fst q ->
  exists y y', interp1d_r b64 t lo hi x = Ok y /\ interp1d_r b64 t lo hi x' = Ok y' /\ (snd q <= snd p -> y' <= y <= snd p) /\ (snd p <= snd q -> snd p <= y <= y').
Proof.
  intros t lo hi p q ND M A x x' X X'. exists (lin_r b64 p q x), (lin_r b64 p q x').
  rewrite (seg64 t lo hi p q x), (seg64 t lo hi p q x') by (auto; lra). split; [reflexivity|]. split; [reflexivity|].
  destruct A as (Ip & Iq & L & _). pose proof (lin_left p q (proj2 (M p Ip))) as E. split; intros D.
  - split; [apply lin_falls; auto|]. rewrite <- E. apply lin_falls; auto; lra.
  - split; [rewrite <- E; apply lin_rises; auto; lra|]. apply lin_rises; auto.
Qed.

(** *** Whole metres *)
Lemma minus_whole : forall x k, machine b64 x -> (0 <= k < 2 ^ 53)%Z -> IZR k <= x -> x < IZR (2 ^ 53) -> machine b64 (x - IZR k).
Proof.
  intros x k H K L U. assert (K0 : 0 <= IZR k) by (apply (IZR_le 0); lia). destruct (Req_dec x 0) as [->|N0].
  { replace (0 - IZR k) with 0 by lra. exact b64_0. }
  apply b64_format. apply b64_format in H. set (c := cexp radix2 (FLT_exp (-1074) 53) x).
  assert (E : x = IZR (Ztrunc (scaled_mantissa radix2 (FLT_exp (-1074) 53) x)) * bpow radix2 c) by exact H. set (m := Ztrunc _) in E.
  assert (C0 : (c <= 0)%Z).
  { unfold c, cexp, FLT_exp. assert (mag radix2 x <= 53)%Z. { apply mag_le_bpow; [exact N0|]. rewrite Rabs_pos_eq by lra. change (bpow radix2 53) with (IZR (2 ^ 53)). exact U. }
    lia. }
  assert (C1 : (-1074 <= c)%Z) by (unfold c, cexp, FLT_exp; lia).
  apply generic_format_FLT. exists (Float radix2 (m - k * 2 ^ (- c)) c); cbn [Fnum Fexp]; [|..|exact C1].
  - unfold F2R. cbn [Fnum Fexp]. rewrite minus_IZR, mult_IZR. rewrite (IZR_Zpower radix2) by lia. rewrite Rmult_minus_distr_r, <- E, Rmult_assoc, <- bpow_plus. replace (- c + c)%Z with 0%Z by lia. change (bpow radix2 0) with 1. ring.
  - assert (B : bpow radix2 (- c) * x < bpow radix2 53).
    { pose proof (bpow_gt_0 radix2 (- c)) as P. pose proof (bpow_mag_gt radix2 x) as G. rewrite Rabs_pos_eq in G by lra. eapply Rlt_le_trans; [apply Rmult_lt_compat_l; [exact P|exact G]|]. rewrite <- bpow_plus. apply bpow_le.
      unfold c, cexp, FLT_exp. lia. }
    assert (Q : IZR (m - k * 2 ^ (- c)) = bpow radix2 (- c) * (x - IZR k)).
    { rewrite minus_IZR, mult_IZR. rewrite (IZR_Zpower radix2) by lia. rewrite E at 1. rewrite Rmult_minus_distr_l. f_equal; [|ring].
      rewrite (Rmult_comm (IZR m)), <- Rmult_assoc, <- bpow_plus. replace (- c + c)%Z with 0%Z by lia. change (bpow radix2 0) with 1. ring. }
    pose proof (bpow_gt_0 radix2 (- c)) as P. assert (0 <= bpow radix2 (- c) * (x - IZR k) < IZR (2 ^ 53)).
    { split; [apply Rmult_le_pos; lra|]. change (IZR (2 ^ 53)) with (bpow radix2 53). eapply Rle_lt_trans; [|exact B]. apply Rmult_le_compat_l; lra. }
    rewrite <- Q in H0. destruct H0 as [H1 H2]. apply lt_IZR in H2. apply (le_IZR 0) in H1. change (radix2 ^ 53)%Z with (2 ^ 53)%Z. lia.
Qed.
Lemma step_below : forall e d, machine b64 e -> machine b64 d -> 0 <= e < d -> e * (1 + bpow radix2 (-53)) <= d.
Proof.
  intros e d He Hd L. apply b64_format in He, Hd. pose proof (succ_le_lt radix2 (FLT_exp (-1074) 53) e d He Hd (proj2 L)) as S. rewrite succ_eq_pos in S by lra.
  pose proof (ulp_FLT_gt radix2 (-1074) 53 e) as U. rewrite Rabs_pos_eq in U by lra. change (- (53))%Z with (-53)%Z in U. lra.
Qed.
Lemma quotient_up : forall x, bpow radix2 (-1022) <= x -> b64 x <= x * (1 + bpow radix2 (-53)).
Proof.
  intros x H. pose proof (bpow_gt_0 radix2 (-1022)) as P. pose proof (relative_error_N_FLT radix2 (-1074) 53 p53' (fun z => negb (Z.even z)) x) as R.
  change (-1074 + 53 - 1)%Z with (-1022)%Z in R. rewrite Rabs_pos_eq in R by lra. specialize (R H). fold (b64 x) in R.
  replace (/ 2 * bpow radix2 (- (53) + 1)) with (bpow radix2 (-53)) in R. { apply Rabs_le_inv in R. lra. }
  change (bpow radix2 (- (53) + 1)) with (bpow radix2 (1 + -53)). rewrite bpow_plus. change (bpow radix2 1) with 2. lra.
Qed.
(** The product does not pass the difference it was made from. *)
Lemma back : forall D d e, machine b64 D -> machine b64 d -> machine b64 e -> 0 <= e < d -> D = 0 \/ bpow radix2 (-1022) * d <= D ->
  0 <= b64 (b64 (D / d) * e) <= D.
Proof.
  intros D d e HD Hd He L [->|N].
  - unfold Rdiv. rewrite Rmult_0_l, b64_0, Rmult_0_l, b64_0. lra.
  - pose proof (bpow_gt_0 radix2 (-1022)) as P. assert (Dp : 0 < D) by (assert (0 < bpow radix2 (-1022) * d) by (apply Rmult_lt_0_compat; lra); lra).
    assert (Q : bpow radix2 (-1022) <= D / d). { apply Rmult_le_reg_r with d; [lra|]. unfold Rdiv. rewrite Rmult_assoc, Rinv_l by lra. lra. }
    assert (S : b64 (D / d) <= D / d * (1 + bpow radix2 (-53))) by (apply quotient_up; exact Q).
    assert (S0 : 0 <= b64 (D / d)) by (apply b64_pos; lra).
    split; [apply b64_pos; apply Rmult_le_pos; lra|]. rewrite <- HD at 2. apply b64_le.
    pose proof (step_below e d He Hd L) as T. eapply Rle_trans; [apply Rmult_le_compat_r; [lra|exact S]|].
    replace (D / d * (1 + bpow radix2 (-53)) * e) with (D / d * (e * (1 + bpow radix2 (-53)))) by ring.
    eapply Rle_trans; [apply Rmult_le_compat_l; [lra|exact T]|]. unfold Rdiv. rewrite Rmult_assoc, Rinv_l by lra. lra.
Qed.
Lemma b64_min : bpow radix2 (-1022) * 1 = bpow radix2 (-1022).
Proof. ring. Qed.
(** The segment of an altitude above the ground begins on or above the ground. *)
Lemma grounded : forall t p q x, whole_metres t -> adjacent t p q -> 0 <= x -> fst p <= x < fst q -> 0 <= fst p.
Proof.
  intros t p q x [_ [(y & I)|W]] (Ip & Iq & L & N) X0 X; [|apply W; exact Ip]. destruct (Rle_or_lt 0 (fst p)) as [H|H]; [exact H|]. exfalso. apply (N _ I). cbn [fst]. lra.
Qed.
(** A falling segment over whole metres: never above its first row, never below zero; never below its second row if that is at
    least half the first. *)
Lemma falling : forall t p q x, machine_table t -> whole_metres t -> no_underflow t -> adjacent t p q -> machine b64 x -> 0 <= x -> fst p <= x < fst q -> snd q <= snd p -> 0 <= snd q ->
  0 <= lin_r b64 p q x /\ (snd p <= 2 * snd q -> snd q <= lin_r b64 p q x).
Proof.
  intros t p q x M W U A Mx X0 X D Z. pose proof (grounded t p q x W A X0 X) as G0. destruct W as [W _]. destruct A as (Ip & Iq & L & N). destruct (M p Ip) as [Mp1 Mp2], (M q Iq) as [Mq1 Mq2].
  destruct (W p Ip) as (kp & Ep & Kp), (W q Iq) as (kq & Eq & Kq). assert (Kp0 : (0 <= kp)%Z) by (apply le_IZR; lra).
  assert (X2 : x < IZR (2 ^ 53)). { apply Rlt_trans with (fst q); [lra|]. rewrite Eq. apply IZR_lt. lia. }
  assert (E1 : b64 (x - fst p) = x - fst p). { rewrite Ep. apply minus_whole; auto; [lia|]. rewrite <- Ep. lra. }
  assert (E2 : b64 (fst q - fst p) = fst q - fst p). { rewrite Ep. apply minus_whole; auto; [lia|rewrite <- Ep; lra|]. rewrite Eq. apply IZR_lt. lia. }
  set (DD := b64 (snd p - snd q)). assert (ED : b64 (snd q - snd p) = - DD) by (unfold DD; rewrite <- b64_opp; f_equal; ring).
  assert (DU : DD <= snd p). { unfold DD. pose proof (b64_le (snd p - snd q) (snd p) ltac:(lra)) as Q. unfold machine in Mp2. rewrite Mp2 in Q. exact Q. }
  unfold lin_r. rewrite E1, E2, ED. replace (- DD / (fst q - fst p)) with (- (DD / (fst q - fst p))) by (unfold Rdiv; ring). rewrite b64_opp.
  replace (- b64 (DD / (fst q - fst p)) * (x - fst p)) with (- (b64 (DD / (fst q - fst p)) * (x - fst p))) by ring. rewrite b64_opp.
  assert (B : 0 <= b64 (b64 (DD / (fst q - fst p)) * (x - fst p)) <= DD).
  { apply back; [apply b64_machine|unfold machine; exact E2|unfold machine; exact E1|lra|].
    destruct (U p q) as [E|E]; [repeat (split; [assumption|]); exact N| |].
    - left. unfold DD. rewrite E, (Rminus_diag_eq (snd q) (snd q)) by reflexivity. apply b64_0.
    - right. unfold DD. rewrite Rabs_minus_sym, (Rabs_pos_eq (snd p - snd q)) in E by lra. pose proof (bpow_gt_0 radix2 (-1022)) as P.
      replace (bpow radix2 (-1021)) with (2 * bpow radix2 (-1022)) in E by (change (-1021)%Z with (1 + -1022)%Z; rewrite bpow_plus; reflexivity).
      assert (1 <= fst q - fst p). { rewrite Ep, Eq, <- minus_IZR. apply IZR_le. assert (kp < kq)%Z by (apply lt_IZR; lra). lia. }
      assert (R : Rabs (b64 (snd p - snd q) - (snd p - snd q)) <= bpow radix2 (-53) * Rabs (snd p - snd q)).
      { pose proof (relative_error_N_FLT radix2 (-1074) 53 p53' (fun z => negb (Z.even z)) (snd p - snd q)) as R. change (-1074 + 53 - 1)%Z with (-1022)%Z in R.
        replace (/ 2 * bpow radix2 (- (53) + 1)) with (bpow radix2 (-53)) in R by (change (bpow radix2 (- (53) + 1)) with (bpow radix2 (1 + -53)); rewrite bpow_plus; change (bpow radix2 1) with 2; lra).
        apply R. rewrite Rabs_pos_eq by lra. nra. }
      rewrite (Rabs_pos_eq (snd p - snd q)) in R by lra. apply Rabs_le_inv in R.
      assert (bpow radix2 (-53) <= / 2). { change (/ 2) with (bpow radix2 (-1)). apply bpow_le. lia. }
      nra. }
  set (P := b64 (b64 (DD / (fst q - fst p)) * (x - fst p))) in *. split; [apply b64_pos; lra|]. intros G.
  assert (EX : DD = snd p - snd q).
  { unfold DD. unfold b64. apply round_generic; auto with typeclass_instances. apply b64_format in Mp2, Mq2. apply sterbenz; auto with typeclass_instances. lra. }
  pose proof (b64_le (snd q) (- P + snd p) ltac:(lra)) as Q. unfold machine in Mq2. rewrite Mq2 in Q. exact Q.
Qed.
(** Densities read from such a table are never negative. *)
Theorem C123_never_negative : forall t lo hi x, NoDup (map fst t) -> t <> [] -> machine_table t -> whole_metres t -> no_underflow t -> machine b64 x -> 0 <= x -> 0 <= lo -> 0 <= hi ->
  (forall p, In p t -> 0 <= snd p) -> exists y, interp1d_r b64 t lo hi x = Ok y /\ 0 <= y.
Proof.
  intros t lo hi x ND NE M W U Mx X0 Lo Hi Pos. destruct (C123_nodes b64 t lo hi x ND NE) as (Nn & Nl & Nr & _).
  assert (C : left_of t x \/ right_of t x \/ inside t x).
  { assert (G : forall l : list (R * R), l <> [] -> (forall p, In p l -> x < fst p) \/ (forall p, In p l -> fst p < x) \/ exists p q, In p l /\ In q l /\ fst p <= x <= fst q).
    { induction l as [|a l IH]; intros H; [congruence|]. destruct l as [|b l].
      - destruct (Rtotal_order x (fst a)) as [T|[T|T]]; [left|right; right|right; left]; try (intros p [<-|[]]; lra). exists a, a. cbn [In]. repeat split; auto; lra.
      - destruct (IH ltac:(discriminate)) as [I|[I|(p & q & I1 & I2 & I3)]].
        + destruct (Rlt_or_le x (fst a)) as [T|T]; [left; intros p [<-|H']; auto|]. right. right. exists a, b. split; [left; reflexivity|]. split; [right; left; reflexivity|]. specialize (I b (or_introl eq_refl)). lra.
        + destruct (Rlt_or_le (fst a) x) as [T|T]; [right; left; intros p [<-|H']; auto|]. right. right. exists b, a. split; [right; left; reflexivity|]. split; [left; reflexivity|]. specialize (I b (or_introl eq_refl)). lra.
        + right. right. exists p, q. split; [right; exact I1|]. split; [right; exact I2|exact I3]. }
    exact (G t NE). }
  destruct C as [C|[C|C]]; [exists lo; auto|exists hi; auto|].
  destruct (where_x t x ND C) as [(y & I)|(p & q & A & X)]; [exists y; split; [auto|exact (Pos (x, y) I)]|].
  exists (lin_r b64 p q x). split; [apply seg64; auto; lra|]. pose proof A as (Ip & Iq & L & _).
  destruct (Rle_or_lt (snd q) (snd p)) as [D|D].
  - apply (falling t p q x); auto; lra.
  - pose proof (lin_rises p q (fst p) x L ltac:(lra) ltac:(lra)) as G. rewrite lin_left in G by (apply M; exact Ip). specialize (Pos p Ip). lra.
Qed.
(** A falling profile is read as a falling profile if no row is less than half its predecessor: the rounding never shows. *)
Theorem C123_falling_profile : forall t lo hi x x', NoDup (map fst t) -> machine_table t -> whole_metres t -> no_underflow t -> decreasing t -> gentle t -> (forall p, In p t -> 0 <= snd p) ->
  machine b64 x -> machine b64 x' -> inside t x -> inside t x' -> 0 <= x <= x' ->
  exists y y', interp1d_r b64 t lo hi x = Ok y /\ interp1d_r b64 t lo hi x' = Ok y' /\ y' <= y /\
    (forall p q, adjacent t p q -> fst p <= x <= fst q -> snd q <= y <= snd p).
Proof.
  intros t lo hi x x' ND M W U De Ge Pos Mx Mx' I I' [X0 L].
  assert (One : forall z, 0 <= z -> machine b64 z -> inside t z -> exists y, interp1d_r b64 t lo hi z = Ok y /\ ((In (z, y) t) \/ exists p q, adjacent t p q /\ fst p < z < fst q /\ y = lin_r b64 p q z /\ snd q <= y <= snd p)).
  { intros z Z0 Mz Iz. destruct (where_x t z ND Iz) as [(y & H)|(p & q & A & X)].
    - exists y. split; [apply node_r; auto|left; exact H].
    - exists (lin_r b64 p q z). split; [apply seg64; auto; lra|]. right. exists p, q. split; [exact A|]. split; [exact X|]. split; [reflexivity|]. pose proof A as (Ip & Iq & Lt & _).
      assert (D : snd q <= snd p) by (apply De; auto; lra). split.
      + apply (falling t p q z); auto; lra.
      + rewrite <- (lin_left p q) by (apply M; exact Ip). apply lin_falls; auto; lra. }
  destruct (One x X0 Mx I) as (y & Hy & Cy), (One x' (Rle_trans _ _ _ X0 L) Mx' I') as (y' & Hy' & Cy'). exists y, y'. split; [exact Hy|]. split; [exact Hy'|].
  assert (Same : forall p p' : R * R, In p t -> In p' t -> fst p = fst p' -> p = p').
  { intros [a b] [a' b'] H H' E. cbn [fst] in E. subst a'. f_equal. apply (nodup_fst_inj t a b b' ND H H'). }
  split.
  - destruct Cy as [Cy|(p & q & A & X & Ey & By)], Cy' as [Cy'|(p' & q' & A' & X' & Ey' & By')].
    + exact (De _ _ Cy Cy' L).
    + pose proof A' as (Ip' & Iq' & Lt' & N'). assert (x <= fst p'). { destruct (Rle_or_lt x (fst p')); [auto|]. exfalso. apply (N' _ Cy). cbn [fst]. lra. }
      pose proof (De _ _ Cy Ip' H) as T. cbn [snd] in T. lra.
    + pose proof A as (Ip & Iq & Lt & N). assert (fst q <= x'). { destruct (Rle_or_lt (fst q) x'); [auto|]. exfalso. apply (N _ Cy'). cbn [fst]. lra. }
      pose proof (De _ _ Iq Cy' H) as T. cbn [snd] in T. lra.
    + pose proof A as (Ip & Iq & Lt & N). pose proof A' as (Ip' & Iq' & Lt' & N'). destruct (Rtotal_order (fst p) (fst p')) as [T|[T|T]].
      * assert (fst q <= fst p'). { destruct (Rle_or_lt (fst q) (fst p')); [auto|]. exfalso. apply (N p' Ip'). lra. }
        pose proof (De _ _ Iq Ip' H). lra.
      * assert (p = p') as <- by (apply Same; auto). assert (fst q = fst q'). { destruct (Rtotal_order (fst q) (fst q')) as [Q|[Q|Q]]; [exfalso; apply (N' q Iq); lra|exact Q|exfalso; apply (N q' Iq'); lra]. }
        assert (q = q') as <- by (apply Same; auto). rewrite Ey, Ey'. apply lin_falls; auto; [apply De; auto; lra|lra].
      * exfalso. assert (fst q' <= fst p). { destruct (Rle_or_lt (fst q') (fst p)); [auto|]. exfalso. apply (N' p Ip). lra. } lra.
  - intros p q A X. pose proof A as (Ip & Iq & Lt & N). destruct Cy as [Cy|(p2 & q2 & A2 & X2 & Ey & By)].
    + pose proof (De _ _ Ip Cy ltac:(cbn [fst]; lra)) as T1. pose proof (De _ _ Cy Iq ltac:(cbn [fst]; lra)) as T2. cbn [snd] in *. lra.
    + pose proof A2 as (Ip2 & Iq2 & Lt2 & N2).
      assert (fst p = fst p2). { destruct (Rtotal_order (fst p) (fst p2)) as [Q|[Q|Q]]; [exfalso; apply (N p2 Ip2); lra|exact Q|exfalso; apply (N2 p Ip); lra]. }
      assert (fst q = fst q2). { destruct (Rtotal_order (fst q) (fst q2)) as [Q|[Q|Q]]; [exfalso; apply (N2 q Iq); lra|exact Q|exfalso; apply (N q2 Iq2); lra]. }
      assert (p = p2) as <- by (apply Same; auto). assert (q = q2) as <- by (apply Same; auto). exact By.
Qed.
