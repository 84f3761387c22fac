(** C123, continued: accuracy, and a density below zero. *)
From Coq Require Import List ZArith Lia Lra String.
From Flocq Require Import Core Relative Plus_error.
Require Import Verif.Base Verif.Numpy Verif.NumpyProofs Verif.PlanetModel Verif.HeatModel Verif.RoundSpec Verif.RunningSpec Verif.TableSpec Verif.PropRound64 Verif.PropRunning64 Verif.PropOrbitRound64
  Verif.TableRoundModel Verif.TableRoundSpec Verif.PropTableRound.
Import ListNotations.
Local Open Scope R_scope.
Local Instance p53'' : Prec_gt_0 53 := eq_refl.

Lemma diff_eps : forall x y, machine b64 x -> machine b64 y -> exists k, Rabs k <= bpow radix2 (-53) /\ b64 (x - y) = (x - y) * (1 + k).
Proof.
  intros x y Hx Hy. apply b64_format in Hx, Hy. assert (Hy' : generic_format radix2 (FLT_exp (-1074) 53) (- y)) by (apply generic_format_opp; exact Hy).
  destruct (FLT_plus_error_N_ex radix2 (-1074) 53 (fun z => negb (Z.even z)) x (- y) Hx Hy') as (k & K & E).
  exists k. split; [|exact E]. eapply Rle_trans; [exact K|]. unfold u_ro. change (bpow radix2 (- (53) + 1)) with (bpow radix2 (1 + -53)). rewrite bpow_plus. change (bpow radix2 1) with 2.
  replace (/ 2 * (2 * bpow radix2 (-53))) with (bpow radix2 (-53)) by field. pose proof (bpow_gt_0 radix2 (-53)) as P.
  apply Rmult_le_reg_r with (1 + bpow radix2 (-53)); [lra|]. unfold Rdiv. rewrite Rmult_assoc, Rinv_l by lra. nra.
Qed.
Lemma sum_eps : forall x y, machine b64 x -> machine b64 y -> exists k, Rabs k <= bpow radix2 (-53) /\ b64 (x + y) = (x + y) * (1 + k).
Proof.
  intros x y Hx Hy. destruct (diff_eps x (- y) Hx) as (k & K & E); [unfold machine in *; rewrite b64_opp, Hy; reflexivity|]. exists k. split; [exact K|]. replace (x + y) with (x - - y) by ring. exact E.
Qed.
Lemma quot_eps : forall x, bpow radix2 (-1022) <= Rabs x -> exists k, Rabs k <= bpow radix2 (-53) /\ b64 x = x * (1 + k).
Proof.
  intros x H. destruct (relative_error_N_FLT_ex radix2 (-1074) 53 eq_refl (fun z => negb (Z.even z)) x H) as (k & K & E). exists k. split; [|exact E].
  change (bpow radix2 (- (53) + 1)) with (bpow radix2 (1 + -53)) in K. rewrite bpow_plus in K. change (bpow radix2 1) with 2 in K. lra.
Qed.
Lemma prod_eps : forall x, exists k h, Rabs k <= bpow radix2 (-53) /\ Rabs h <= bpow radix2 (-1075) /\ b64 x = x * (1 + k) + h.
Proof.
  intros x. destruct (error_N_FLT radix2 (-1074) 53 eq_refl (fun z => negb (Z.even z)) x) as (k & h & K & Hh & _ & E). exists k, h. split; [|split; [|exact E]].
  - change (bpow radix2 (- (53) + 1)) with (bpow radix2 (1 + -53)) in K. rewrite bpow_plus in K. change (bpow radix2 1) with 2 in K. lra.
  - eapply Rle_trans; [exact Hh|]. change (-1074)%Z with (1 + -1075)%Z. rewrite bpow_plus. change (bpow radix2 1) with 2. lra.
Qed.
Lemma factors : forall u a b c f g, 0 <= u <= 1 / 1000 -> Rabs a <= u -> Rabs b <= u -> Rabs c <= u -> Rabs f <= u -> Rabs g <= u ->
  Rabs ((1 + a) / (1 + b) * (1 + f) * (1 + c) * (1 + g) - 1) <= 6 * u.
Proof.
  intros u a b c f g U A B C F G. apply Rabs_le_inv in A, B, C, F, G.
  assert (M : forall x y l l' h h', 0 < l -> 0 < l' -> l <= x <= h -> l' <= y <= h' -> l * l' <= x * y <= h * h') by (intros; split; apply Rmult_le_compat; lra).
  assert (N : (1 - u) * (1 - u) * (1 - u) * (1 - u) <= (1 + a) * (1 + f) * (1 + c) * (1 + g) <= (1 + u) * (1 + u) * (1 + u) * (1 + u)).
  { assert (0 < 1 - u) by lra. assert (0 < (1 - u) * (1 - u)) by (apply Rmult_lt_0_compat; lra). assert (0 < (1 - u) * (1 - u) * (1 - u)) by (apply Rmult_lt_0_compat; lra).
    repeat (apply M; try lra). }
  replace ((1 + a) / (1 + b) * (1 + f) * (1 + c) * (1 + g)) with ((1 + a) * (1 + f) * (1 + c) * (1 + g) / (1 + b)) by (field; lra). set (X := (1 + a) * (1 + f) * (1 + c) * (1 + g)) in *. clearbody X.
  assert (T1 : (1 + u) * (1 + u) * (1 + u) * (1 + u) <= (1 + 6 * u) * (1 - u)).
  { assert (E : (1 + u) * (1 + u) * (1 + u) * (1 + u) - (1 + 6 * u) * (1 - u) = u * (- 1 + u * (12 + u * (4 + u)))) by ring.
    assert (u * (12 + u * (4 + u)) <= 1). { assert (u * (4 + u) <= 1) by nra. nra. } nra. }
  assert (T2 : (1 - 6 * u) * (1 + u) <= (1 - u) * (1 - u) * (1 - u) * (1 - u)).
  { assert (E : (1 - u) * (1 - u) * (1 - u) * (1 - u) - (1 - 6 * u) * (1 + u) = u * (1 + u * (12 - u * (4 - u)))) by ring.
    assert (0 <= u * (12 - u * (4 - u))). { assert (u * (4 - u) <= 1) by nra. nra. } nra. }
  apply Rabs_le. split.
  - apply Rplus_le_reg_r with 1. replace (X / (1 + b) - 1 + 1) with (X / (1 + b)) by ring. apply Rmult_le_reg_r with (1 + b); [lra|]. unfold Rdiv. rewrite Rmult_assoc, Rinv_l by lra. nra.
  - apply Rplus_le_reg_r with 1. replace (X / (1 + b) - 1 + 1) with (X / (1 + b)) by ring. apply Rmult_le_reg_r with (1 + b); [lra|]. unfold Rdiv. rewrite Rmult_assoc, Rinv_l by lra. nra.
Qed.
Lemma lin_accurate : forall p q x y, machine b64 (fst p) -> machine b64 (snd p) -> machine b64 (fst q) -> machine b64 (snd q) -> machine b64 x -> fst p < fst q -> on_segment p q x y ->
  snd p = snd q \/ bpow radix2 (-1021) * (fst q - fst p) <= Rabs (snd q - snd p) ->
  Rabs (lin_r b64 p q x - y) <= bpow radix2 (-50) * (Rabs (snd p) + Rabs (snd q)) + bpow radix2 (-1074).
Proof.
  intros p q x y A1 A2 B1 B2 Mx L (X & Y) U. set (u := bpow radix2 (-53)). assert (Up : 0 <= u <= 1 / 1000).
  { split; [apply bpow_ge_0|]. apply Rle_trans with (bpow radix2 (-10)); [apply bpow_le; lia|]. change (bpow radix2 (-10)) with (/ 1024). lra. }
  assert (U8 : bpow radix2 (-50) = 8 * u) by (change (-50)%Z with (3 + -53)%Z; rewrite bpow_plus; reflexivity).
  assert (E2 : bpow radix2 (-1074) = 2 * bpow radix2 (-1075)) by (change (-1074)%Z with (1 + -1075)%Z; rewrite bpow_plus; reflexivity). rewrite U8, E2.
  pose proof (bpow_gt_0 radix2 (-1075)) as Hp. set (eta := bpow radix2 (-1075)) in *.
  pose proof (Rabs_pos (snd p)) as Pp. pose proof (Rabs_pos (snd q)) as Pq.
  destruct (Req_dec (snd p) (snd q)) as [Eq|Ne].
  - assert (y = snd p) as ->. { assert (Q : (y - snd p) * (fst q - fst p) = 0) by (rewrite Y, Eq; ring). apply Rmult_integral in Q. destruct Q; lra. }
    unfold lin_r. replace (snd q - snd p) with 0 by lra. rewrite b64_0. unfold Rdiv. rewrite Rmult_0_l, b64_0, Rmult_0_l, b64_0, Rplus_0_l. unfold machine in A2. rewrite A2. replace (snd p - snd p) with 0 by ring. rewrite Rabs_R0. nra.
  - destruct U as [U|U]; [congruence|]. destruct (diff_eps _ _ B2 A2) as (a & Ka & Ea), (diff_eps _ _ B1 A1) as (b & Kb & Eb), (diff_eps _ _ Mx A1) as (c & Kc & Ec). fold u in Ka, Kb, Kc.
    pose proof (Rabs_le_inv _ _ Ka) as Ka'. pose proof (Rabs_le_inv _ _ Kb) as Kb'.
    assert (Qb : bpow radix2 (-1022) <= Rabs (b64 (snd q - snd p) / b64 (fst q - fst p))).
    { rewrite Ea, Eb. unfold Rdiv. rewrite !Rabs_mult, Rabs_inv, !Rabs_mult. rewrite (Rabs_pos_eq (fst q - fst p)), (Rabs_pos_eq (1 + a)), (Rabs_pos_eq (1 + b)) by lra.
      assert (0 < (fst q - fst p) * (1 + b)) by (apply Rmult_lt_0_compat; lra). apply Rmult_le_reg_r with ((fst q - fst p) * (1 + b)); [auto|]. rewrite Rmult_assoc, Rinv_l by lra. rewrite Rmult_1_r.
      replace (bpow radix2 (-1021)) with (2 * bpow radix2 (-1022)) in U by (change (-1021)%Z with (1 + -1022)%Z; rewrite bpow_plus; reflexivity).
      assert (Z0 : 0 <= bpow radix2 (-1022) * (fst q - fst p)) by (apply Rmult_le_pos; [apply bpow_ge_0|lra]). nra. }
    destruct (quot_eps _ Qb) as (f & Kf & Ef). fold u in Kf.
    destruct (prod_eps (b64 (b64 (snd q - snd p) / b64 (fst q - fst p)) * b64 (x - fst p))) as (g & h & Kg & Kh & Eg). fold u in Kg. fold eta in Kh.
    unfold lin_r. destruct (sum_eps (b64 (b64 (b64 (snd q - snd p) / b64 (fst q - fst p)) * b64 (x - fst p))) (snd p) (b64_machine _) A2) as (k & Kk & Ek). fold u in Kk.
    rewrite Ek, Eg, Ef, Ea, Eb, Ec.
    set (K := (1 + a) / (1 + b) * (1 + f) * (1 + c) * (1 + g)). assert (HK : Rabs (K - 1) <= 6 * u) by (apply factors; auto).
    set (w := (snd q - snd p) * (x - fst p) / (fst q - fst p)).
    assert (Ey : y = snd p + w). { unfold w. rewrite <- Y. field. lra. }
    replace ((snd q - snd p) * (1 + a) / ((fst q - fst p) * (1 + b)) * (1 + f) * ((x - fst p) * (1 + c)) * (1 + g) + h + snd p) with (y + w * (K - 1) + h) by (rewrite Ey; unfold w, K; field; lra).
    set (Z := Rabs (snd p) + Rabs (snd q)).
    assert (Hw : Rabs w <= Z /\ Rabs y <= Z).
    { assert (Ht : exists s, 0 <= s <= 1 /\ w = (snd q - snd p) * s).
      { exists ((x - fst p) / (fst q - fst p)). split; [|unfold w; field; lra]. split; [apply Rdiv_pos_compat || (unfold Rdiv; apply Rmult_le_pos; [lra|left; apply Rinv_0_lt_compat; lra])|].
        apply Rmult_le_reg_r with (fst q - fst p); [lra|]. unfold Rdiv. rewrite Rmult_assoc, Rinv_l by lra. lra. }
      destruct Ht as (s & S & Ew). rewrite Ey, Ew. unfold Z. split.
      - rewrite Rabs_mult, (Rabs_pos_eq s) by lra. pose proof (Rabs_triang (snd q) (- snd p)) as T. rewrite Rabs_Ropp in T. pose proof (Rabs_pos (snd q - snd p)). unfold Rminus in *. nra.
      - replace (snd p + (snd q - snd p) * s) with (snd p * (1 - s) + snd q * s) by ring. eapply Rle_trans; [apply Rabs_triang|]. rewrite !Rabs_mult, (Rabs_pos_eq s), (Rabs_pos_eq (1 - s)) by lra. nra. }
    destruct Hw as [Hw Hy]. replace ((y + w * (K - 1) + h) * (1 + k) - y) with (k * y + (w * (K - 1) + h) * (1 + k)) by ring.
    eapply Rle_trans; [apply Rabs_triang|]. rewrite !Rabs_mult. assert (T1 : Rabs k * Rabs y <= u * Z) by (apply Rmult_le_compat; auto using Rabs_pos).
    assert (T2 : Rabs (w * (K - 1) + h) <= 6 * u * Z + eta). { eapply Rle_trans; [apply Rabs_triang|]. rewrite Rabs_mult. assert (Rabs w * Rabs (K - 1) <= Z * (6 * u)) by (apply Rmult_le_compat; auto using Rabs_pos). lra. }
    assert (T3 : Rabs (1 + k) <= 1 + u). { eapply Rle_trans; [apply Rabs_triang|]. rewrite Rabs_R1. lra. }
    assert (T4 : Rabs (w * (K - 1) + h) * Rabs (1 + k) <= (6 * u * Z + eta) * (1 + u)) by (apply Rmult_le_compat; auto using Rabs_pos).
    assert (Z0 : 0 <= Z) by (unfold Z; lra). assert (0 <= u * Z) by (apply Rmult_le_pos; lra). nra.
Qed.
(** The computed value is the exact one to eight roundings of the neighbouring tabulated values. *)
Theorem C123_accuracy : forall t lo hi x, NoDup (map fst t) -> machine_table t -> no_underflow t -> machine b64 x -> inside t x ->
  exists y z, interp1d_r b64 t lo hi x = Ok y /\ interp1d t lo hi x = Ok z /\
    forall p q, adjacent t p q -> fst p <= x <= fst q -> Rabs (y - z) <= bpow radix2 (-50) * (Rabs (snd p) + Rabs (snd q)) + bpow radix2 (-1074).
Proof.
  intros t lo hi x ND M U Mx I. destruct (interp1d_inside t lo hi x ND I) as (z & Ez & Iz). destruct (where_x t x ND I) as [(y & H)|(p & q & A & X)].
  - assert (y = z) as <-. { apply (Interpolates_unique t x y z ND); [left; exact H|exact Iz]. }
    exists y, y. split; [apply node_r; auto|]. split; [exact Ez|]. intros p q _ _. replace (y - y) with 0 by ring. rewrite Rabs_R0.
    pose proof (Rabs_pos (snd p)). pose proof (Rabs_pos (snd q)). pose proof (bpow_gt_0 radix2 (-50)). pose proof (bpow_gt_0 radix2 (-1074)). nra.
  - exists (lin_r b64 p q x), z. split; [apply seg64; auto; lra|]. split; [exact Ez|]. intros p' q' A' X'.
    pose proof A as (Ip & Iq & L & N). pose proof A' as (Ip' & Iq' & L' & N').
    assert (Same : forall a b : R * R, In a t -> In b t -> fst a = fst b -> a = b).
    { intros [a b] [a' b'] H H' E. cbn [fst] in E. subst a'. f_equal. apply (nodup_fst_inj t a b b' ND H H'). }
    assert (fst p' = fst p). { destruct (Rtotal_order (fst p) (fst p')) as [Q|[Q|Q]]; [exfalso; apply (N p' Ip'); lra|auto|exfalso; apply (N' p Ip); lra]. }
    assert (fst q' = fst q). { destruct (Rtotal_order (fst q) (fst q')) as [Q|[Q|Q]]; [exfalso; apply (N' q Iq); lra|auto|exfalso; apply (N q' Iq'); lra]. }
    assert (p' = p) as -> by (apply Same; auto). assert (q' = q) as -> by (apply Same; auto).
    destruct (M p Ip) as [A1 A2], (M q Iq) as [B1 B2]. apply lin_accurate; auto.
    set (z' := snd p + (snd q - snd p) * (x - fst p) / (fst q - fst p)). assert (S : on_segment p q x z'). { split; [lra|]. unfold z'. field. lra. }
    replace z with z'; [exact S|]. apply (Interpolates_unique t x z' z ND); [right; exists p, q; auto|exact Iz].
Qed.

(** ** A density below zero *)
Definition low_table : table := [(-2000, 7); (1000, 0)].
Definition low_x : R := 1000 - bpow radix2 (-43).
Lemma low_machine : machine b64 low_x.
Proof.
  unfold machine. assert (E : low_x = IZR (1000 * 2 ^ 43 - 1) * bpow radix2 (-43)).
  { unfold low_x. change (1000 * 2 ^ 43 - 1)%Z with 8796093022207999%Z. change (bpow radix2 (-43)) with (/ 8796093022208). lra. }
  rewrite E. apply b64_is; [lia| |].
  - change (52 + -43)%Z with 9%Z. change (53 + -43)%Z with 10%Z. change (bpow radix2 9) with 512. change (bpow radix2 10) with 1024. change (bpow radix2 (-43)) with (/ 8796093022208). change (1000 * 2 ^ 43 - 1)%Z with 8796093022207999%Z. lra.
  - rewrite Rmult_assoc, <- bpow_plus. change (-43 + - -43)%Z with 0%Z. change (bpow radix2 0) with 1. rewrite Rmult_1_r, Rminus_diag_eq by reflexivity. rewrite Rabs_R0. lra.
Qed.
Lemma low_value : interp1d_r b64 low_table 0 0 low_x = Ok (- bpow radix2 (-50)).
Proof.
  assert (ND : NoDup (map fst low_table)). { cbn. constructor; [intros [H|[]]; lra|]. constructor; [intros []|constructor]. }
  assert (A : adjacent low_table (-2000, 7) (1000, 0)).
  { split; [left; reflexivity|]. split; [right; left; reflexivity|]. cbn [fst]. split; [lra|]. intros r [<-|[<-|[]]]; cbn [fst]; lra. }
  assert (X : -2000 <= low_x < 1000). { unfold low_x. change (bpow radix2 (-43)) with (/ 8796093022208). lra. }
  rewrite (seg_r b64 low_table 0 0 _ _ low_x ND A X). cbn [fst snd]. destruct (Reqb_spec low_x (-2000)) as [E|_]; [exfalso; unfold low_x in E; change (bpow radix2 (-43)) with (/ 8796093022208) in E; lra|].
  f_equal. unfold lin_r. cbn [fst snd]. replace (0 - 7) with (- (7)) by ring. rewrite b64_opp. rewrite (b64_z 7 7) by (try reflexivity; lia).
  rewrite (b64_z (1000 - -2000) 3000) by (try lra; lia).
  assert (E1 : b64 (low_x - -2000) = 3000).
  { rewrite (b64_is _ (3000 * 2 ^ 41) (-41)); [| lia| |].
    - change (3000 * 2 ^ 41)%Z with 6597069766656000%Z. change (bpow radix2 (-41)) with (/ 2199023255552). lra.
    - change (52 + -41)%Z with 11%Z. change (53 + -41)%Z with 12%Z. change (bpow radix2 11) with 2048. change (bpow radix2 12) with 4096. unfold low_x. change (bpow radix2 (-43)) with (/ 8796093022208). lra.
    - unfold low_x. change (bpow radix2 (-43)) with (/ 8796093022208). change (- -41)%Z with 41%Z. change (bpow radix2 41) with 2199023255552. change (3000 * 2 ^ 41)%Z with 6597069766656000%Z. apply Rabs_lt. lra. }
  rewrite E1. replace (- (7) / 3000) with (- (7 / 3000)) by field. rewrite b64_opp.
  assert (E2 : b64 (7 / 3000) = 5380300354831953 * bpow radix2 (-61)).
  { apply b64_is; [lia| |].
    - change (52 + -61)%Z with (-9)%Z. change (53 + -61)%Z with (-8)%Z. change (bpow radix2 (-9)) with (/ 512). change (bpow radix2 (-8)) with (/ 256). lra.
    - change (- -61)%Z with 61%Z. change (bpow radix2 61) with 2305843009213693952. apply Rabs_lt. lra. }
  rewrite E2. replace (- (5380300354831953 * bpow radix2 (-61)) * 3000) with (- (5380300354831953 * 3000 * bpow radix2 (-61))) by ring. rewrite b64_opp.
  assert (E3 : b64 (5380300354831953 * 3000 * bpow radix2 (-61)) = 7881299347898369 * bpow radix2 (-50)).
  { apply b64_is; [lia| |].
    - change (52 + -50)%Z with 2%Z. change (53 + -50)%Z with 3%Z. change (bpow radix2 2) with 4. change (bpow radix2 3) with 8. change (bpow radix2 (-61)) with (/ 2305843009213693952). lra.
    - rewrite Rmult_assoc, <- bpow_plus. change (-61 + - -50)%Z with (-11)%Z. change (bpow radix2 (-11)) with (/ 2048). apply Rabs_lt. lra. }
  rewrite E3. replace (- (7881299347898369 * bpow radix2 (-50)) + 7) with (- bpow radix2 (-50)) by (change (bpow radix2 (-50)) with (/ 1125899906842624); lra).
  apply b64_pow. lia.
Qed.
(** Whole metres are not enough if they begin below zero: a table whose densities are nowhere negative gives a negative one, and
    the heating computed from it is nan. *)
Theorem C123_negative_refuted : exists t x, NoDup (map fst t) /\ machine_table t /\ no_underflow t /\ decreasing t /\ (forall p, In p t -> 0 <= snd p /\ exists k, fst p = IZR k) /\
  machine b64 x /\ inside t x /\ 0 < x /\ (exists y, interp1d_r b64 t 0 0 x = Ok y /\ y < 0) /\
  density_r b64 VENUS t x < 0 /\ forall k RN v, 0 < RN -> con_sutton_graves k RN (density_r b64 VENUS t x) v = None.
Proof.
  exists low_table, low_x. assert (X : 0 < low_x < 1000). { unfold low_x. change (bpow radix2 (-43)) with (/ 8796093022208). lra. }
  split. { cbn. constructor; [intros [H|[]]; lra|]. constructor; [intros []|constructor]. }
  split. { intros p [<-|[<-|[]]]; cbn [fst snd]; split; apply b64_int; reflexivity. }
  split. { intros p q (I & J & L & _). right. destruct I as [<-|[<-|[]]], J as [<-|[<-|[]]]; cbn [fst snd] in *; try lra.
    replace (0 - 7) with (- (7)) by ring. rewrite Rabs_Ropp, Rabs_pos_eq by lra. assert (bpow radix2 (-1021) <= bpow radix2 (-20)) by (apply bpow_le; lia). change (bpow radix2 (-20)) with (/ 1048576) in H. lra. }
  split. { intros p q I J L. destruct I as [<-|[<-|[]]], J as [<-|[<-|[]]]; cbn [fst snd] in *; lra. }
  split. { intros p [<-|[<-|[]]]; cbn [fst snd]; (split; [lra|]); [exists (-2000)%Z|exists 1000%Z]; reflexivity. }
  split; [exact low_machine|]. split. { exists (-2000, 7), (1000, 0). split; [left; reflexivity|]. split; [right; left; reflexivity|]. cbn [fst]. lra. }
  split; [lra|]. pose proof (bpow_gt_0 radix2 (-50)) as P. split. { exists (- bpow radix2 (-50)). split; [exact low_value|lra]. }
  assert (D : density_r b64 VENUS low_table low_x = - bpow radix2 (-50)).
  { unfold density_r, density. rewrite low_value. cbn [h_thres VENUS]. destruct (Rleb_spec 0 low_x); [|lra]. destruct (Rleb_spec low_x 180000); [reflexivity|lra]. }
  rewrite D. split; [lra|]. intros k RN v HR. unfold con_sutton_graves, np_div, np_sqrt. destruct (Reqb_spec RN 0); [lra|]. cbn [obind]. destruct (Rltb_spec (- bpow radix2 (-50) / RN) 0) as [H|H]; [reflexivity|].
  exfalso. apply H. unfold Rdiv. apply Rinv_0_lt_compat in HR. nra.
Qed.
(** A table of three rows that meets every assumption, and a query between them. *)
Example C123_witness : let t := [(-1000, 70); (0, 65); (1000, 61); (2000, 31)] in
  NoDup (map fst t) /\ machine_table t /\ whole_metres t /\ no_underflow t /\ decreasing t /\ gentle t /\ (forall p, In p t -> 0 <= snd p) /\ adjacent t (0, 65) (1000, 61) /\
  machine b64 (IZR 500) /\ inside t 500 /\ interp1d_r b64 t 0 0 2000 = Ok 31.
Proof.
  cbv zeta. assert (ND : NoDup (map fst [(-1000, 70); (0, 65); (1000, 61); (2000, 31)])).
  { cbn. constructor; [intros [H|[H|[H|[]]]]; lra|]. constructor; [intros [H|[H|[]]]; lra|]. constructor; [intros [H|[]]; lra|]. constructor; [intros []|constructor]. }
  assert (M : machine_table [(-1000, 70); (0, 65); (1000, 61); (2000, 31)]) by (intros p [<-|[<-|[<-|[<-|[]]]]]; cbn [fst snd]; split; apply b64_int; reflexivity).
  split; [exact ND|]. split; [exact M|].
  split. { split; [|left; exists 65; right; left; reflexivity]. intros p [<-|[<-|[<-|[<-|[]]]]]; cbn [fst]; [exists (-1000)%Z|exists 0%Z|exists 1000%Z|exists 2000%Z]; (split; [reflexivity|lia]). }
  split. { intros p q (I & J & L & _). right. assert (bpow radix2 (-1021) <= bpow radix2 (-20)) by (apply bpow_le; lia). change (bpow radix2 (-20)) with (/ 1048576) in H.
    destruct I as [<-|[<-|[<-|[<-|[]]]]], J as [<-|[<-|[<-|[<-|[]]]]]; cbn [fst snd] in *; try lra; rewrite Rabs_left by lra; lra. }
  split. { intros p q I J L. destruct I as [<-|[<-|[<-|[<-|[]]]]], J as [<-|[<-|[<-|[<-|[]]]]]; cbn [fst snd] in *; lra. }
  split. { intros p q (I & J & L & N). destruct I as [<-|[<-|[<-|[<-|[]]]]], J as [<-|[<-|[<-|[<-|[]]]]]; cbn [fst snd] in *; try lra; exfalso; solve [apply (N (1000, 61)); [right; right; left; reflexivity|cbn [fst]; lra]|apply (N (0, 65)); [right; left; reflexivity|cbn [fst]; lra]]. }
  split. { intros p [<-|[<-|[<-|[<-|[]]]]]; cbn [snd]; lra. }
  split. { split; [right; left; reflexivity|]. split; [right; right; left; reflexivity|]. cbn [fst]. split; [lra|]. intros r [<-|[<-|[<-|[<-|[]]]]]; cbn [fst]; lra. }
  split; [apply b64_int; reflexivity|]. split. { exists (0, 65), (1000, 61). split; [right; left; reflexivity|]. split; [right; right; left; reflexivity|]. cbn [fst]. lra. }
  apply node_r; [exact ND|]. right. right. right. left. reflexivity.
Qed.
