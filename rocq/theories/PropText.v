(** C118: numbers on disk. *)
From Coq Require Import ZArith Reals Lra Lia List Ascii String.
From Flocq Require Import Core.
Require Import Verif.Base Verif.RoundSpec Verif.PropRound64 Verif.PropRunning64 Verif.PropUnits64 Verif.LauncherModel Verif.MonteModel Verif.TextModel Verif.TextSpec.
Import ListNotations.
Local Open Scope R_scope.
Local Instance p53'' : Prec_gt_0 53 := eq_refl.

(** ** A number close to a binary64 number is rounded to it *)
Lemma b64_flx : forall x, b64 x = x -> generic_format radix2 (FLX_exp 53) x.
Proof. intros x H. apply b64_format in H. eapply generic_format_FLX_FLT. exact H. Qed.
Lemma gap_flx : forall f x, 0 < f -> f < x -> generic_format radix2 (FLX_exp 53) f -> generic_format radix2 (FLX_exp 53) x -> f * bpow radix2 (-53) <= x - f.
Proof.
  intros f x Hf L Ff Fx. pose proof (succ_le_lt radix2 (FLX_exp 53) f x Ff Fx L) as S. rewrite succ_eq_pos in S by lra.
  pose proof (ulp_FLX_ge radix2 53 f) as U. rewrite Rabs_pos_eq in U by lra. change (- (53))%Z with (-53)%Z in U. lra.
Qed.
Lemma b64_near_pos : forall x y, 0 < x -> b64 x = x -> Rabs (y - x) <= bpow radix2 (-55) * x -> b64 y = x.
Proof.
  intros x y Hx Fx H. pose proof (round_N_pt radix2 (FLT_exp (-1074) 53) (fun z => negb (Z.even z)) y) as [Fy N].
  change (round radix2 (FLT_exp (-1074) 53) (Znearest (fun z => negb (Z.even z))) y) with (b64 y) in Fy, N.
  specialize (N x (proj1 (b64_format x) Fx)).
  assert (B55 : 0 < bpow radix2 (-55) <= / 1000) by (split; [apply bpow_gt_0|cbn; lra]).
  assert (E : bpow radix2 (-53) = 4 * bpow radix2 (-55)) by (change (-53)%Z with (2 + -55)%Z; rewrite bpow_plus; change (bpow radix2 2) with 4; ring).
  rewrite (Rabs_minus_sym x y) in N.
  assert (D : Rabs (b64 y - x) <= 2 * (bpow radix2 (-55) * x)).
  { replace (b64 y - x) with ((b64 y - y) + (y - x)) by ring. eapply Rle_trans; [apply Rabs_triang|]. lra. }
  apply Rabs_le_inv in D. assert (G : generic_format radix2 (FLX_exp 53) (b64 y)) by (eapply generic_format_FLX_FLT; exact Fy). apply b64_flx in Fx.
  assert (P : bpow radix2 (-55) * x <= / 1000 * x) by (apply Rmult_le_compat_r; lra).
  destruct (Rtotal_order (b64 y) x) as [L|[L|L]]; auto; exfalso.
  - assert (0 < b64 y) by lra. pose proof (gap_flx (b64 y) x ltac:(lra) L G Fx) as Q. rewrite E in Q.
    assert (0.9 * x <= b64 y) by lra. assert (4 * bpow radix2 (-55) * (0.9 * x) <= b64 y * (4 * bpow radix2 (-55))) by nra. nra.
  - pose proof (gap_flx x (b64 y) Hx L Fx G) as Q. rewrite E in Q. nra.
Qed.
Lemma b64_near : forall x y, b64 x = x -> Rabs (y - x) <= bpow radix2 (-55) * Rabs x -> b64 y = x.
Proof.
  intros x y Fx H. destruct (Rtotal_order x 0) as [L|[->|L]].
  - rewrite (Rabs_left x) in H by lra. assert (N : forall z, b64 (- z) = - b64 z) by (intros; unfold b64; apply round_NE_opp).
    assert (Q : b64 (- y) = - x); [|rewrite N in Q; lra]. apply b64_near_pos; [lra|rewrite N; lra|]. replace (- y - - x) with (- (y - x)) by ring. rewrite Rabs_Ropp. exact H.
  - rewrite Rabs_R0, Rmult_0_r in H. pose proof (Rabs_pos (y - 0)). destruct (Req_dec y 0) as [->|Hy]; [exact Fx|]. pose proof (Rabs_pos_lt (y - 0) ltac:(lra)). lra.
  - apply b64_near_pos; auto. rewrite (Rabs_pos_eq x) in H by lra. exact H.
Qed.

(** ** Nineteen digits identify a binary64 number *)
Lemma p18 : (10 ^ 18)%R = 1000000000000000000.
Proof. rewrite pow_IZR. reflexivity. Qed.
Lemma p19 : (10 ^ 19)%R = 10000000000000000000.
Proof. rewrite pow_IZR. reflexivity. Qed.
Lemma q18 : bpow radix10 18 = 1000000000000000000.
Proof. reflexivity. Qed.
Lemma q19 : bpow radix10 19 = 10000000000000000000.
Proof. reflexivity. Qed.
Lemma inv18 : / 10 ^ 18 <= bpow radix2 (-55).
Proof. rewrite p18. change (bpow radix2 (-55)) with (/ 36028797018963968). lra. Qed.
Lemma sci_near : forall x, x <> 0 -> let '(m, k) := sci x in
  (10 ^ 18 <= m < 10 ^ 19)%Z /\ Rabs (IZR m * bpow radix10 (k - 18) - Rabs x) <= / 10 ^ 18 * Rabs x.
Proof.
  intros x Hx. unfold sci. destruct (mag radix10 x) as [e He]. cbn [mag_val]. specialize (He Hx). set (k := (e - 1)%Z) in *.
  set (y := Rabs x * bpow radix10 (18 - k)).
  assert (Pb : forall z, bpow radix10 z * bpow radix10 (- z) = 1) by (intros z; rewrite <- bpow_plus, Z.add_opp_diag_r; reflexivity).
  assert (Y : 10 ^ 18 <= y < 10 ^ 19).
  { unfold y. rewrite p18, p19, <- q18, <- q19. replace 18%Z with (k + (18 - k))%Z at 1 by lia. replace 19%Z with (e + (18 - k))%Z by (unfold k; lia). rewrite !bpow_plus.
    split; [apply Rmult_le_compat_r; [apply bpow_ge_0|tauto]|apply Rmult_lt_compat_r; [apply bpow_gt_0|tauto]]. }
  pose proof (Znearest_half (fun z => negb (Z.even z)) y) as Hh. set (m := ZnearestE y) in *.
  change (Znearest (fun z => negb (Z.even z)) y) with m in Hh.
  assert (E18 : (10 ^ 18 = 1000000000000000000)%Z) by reflexivity. assert (E19 : (10 ^ 19 = 10000000000000000000)%Z) by reflexivity.
  assert (R18 : (10 ^ 18)%R = 1000000000000000000) by exact p18. assert (R19 : (10 ^ 19)%R = 10000000000000000000) by exact p19.
  assert (M : (10 ^ 18 <= m <= 10 ^ 19)%Z).
  { rewrite E18, E19. apply Rabs_le_inv in Hh. rewrite R18, R19 in Y.
    split; apply Znot_gt_le; intros G; [assert (Q : (m <= 1000000000000000000 - 1)%Z) by lia|assert (Q : (10000000000000000000 + 1 <= m)%Z) by lia]; apply IZR_le in Q; [rewrite minus_IZR in Q|rewrite plus_IZR in Q]; lra. }
  assert (N : Rabs (IZR m * bpow radix10 (k - 18) - Rabs x) <= / 10 ^ 18 * Rabs x).
  { replace (Rabs x) with (y * bpow radix10 (k - 18)) at 1 by (unfold y; rewrite Rmult_assoc; replace (k - 18)%Z with (- (18 - k))%Z by lia; rewrite Pb; ring).
    replace (IZR m * bpow radix10 (k - 18) - y * bpow radix10 (k - 18)) with ((IZR m - y) * bpow radix10 (k - 18)) by ring.
    rewrite Rabs_mult, (Rabs_pos_eq (bpow radix10 (k - 18))) by apply bpow_ge_0.
    apply Rle_trans with (/ 2 * bpow radix10 (k - 18)); [apply Rmult_le_compat_r; [apply bpow_ge_0|rewrite Rabs_minus_sym; exact Hh]|].
    replace (bpow radix10 (k - 18)) with (/ 10 ^ 18 * bpow radix10 k) by (replace k with (18 + (k - 18))%Z at 1 by lia; rewrite bpow_plus; rewrite q18, p18; lra).
    assert (bpow radix10 k <= Rabs x) by tauto. pose proof (bpow_ge_0 radix10 k). rewrite R18. lra. }
  destruct (Z.eqb_spec m (10 ^ 19)) as [E|E].
  - split; [rewrite E18, E19; lia|]. replace (IZR (10 ^ 18) * bpow radix10 (k + 1 - 18)) with (IZR m * bpow radix10 (k - 18)); [exact N|].
    rewrite E. replace (k + 1 - 18)%Z with (1 + (k - 18))%Z by lia. rewrite bpow_plus. change (bpow radix10 1) with 10. rewrite E18, E19. lra.
  - split; [lia|exact N].
Qed.
Lemma sci_exact : forall x, x <> 0 -> b64 x = x -> let '(m, k) := sci x in b64 ((if Rltb x 0 then -1 else 1) * IZR m * bpow radix10 (k - 18)) = x.
Proof.
  intros x Hx Fx. pose proof (sci_near x Hx) as H. destruct (sci x) as [m k]. destruct H as [_ H]. apply b64_near; auto.
  assert (B := inv18). pose proof (Rabs_pos x) as P.
  eapply Rle_trans; [|apply Rmult_le_compat_r; [exact P|exact B]].
  destruct (Rltb_spec x 0) as [L|L].
  - rewrite (Rabs_left x) in * by lra. replace (-1 * IZR m * bpow radix10 (k - 18) - x) with (- (IZR m * bpow radix10 (k - 18) - - x)) by ring. rewrite Rabs_Ropp. exact H.
  - rewrite (Rabs_pos_eq x) in * by lra. rewrite Rmult_1_l. exact H.
Qed.

(** ** Digits *)
Lemma digit_ok : forall z, (0 <= z < 10)%Z -> is_digit (digit z) = true /\ value (digit z) = z.
Proof.
  intros z H. assert (E : z = 0%Z \/ z = 1%Z \/ z = 2%Z \/ z = 3%Z \/ z = 4%Z \/ z = 5%Z \/ z = 6%Z \/ z = 7%Z \/ z = 8%Z \/ z = 9%Z) by lia.
  repeat (destruct E as [->|E]; [split; reflexivity|]). subst. split; reflexivity.
Qed.
Lemma digits_len : forall n m, List.length (digits n m) = n.
Proof. induction n as [|n IH]; intros m; cbn [digits]; auto. rewrite app_length, IH. cbn. lia. Qed.
Lemma digits_all : forall n m, Forall (fun c => is_digit c = true) (digits n m).
Proof.
  induction n as [|n IH]; intros m; cbn [digits]; [constructor|]. apply Forall_app. split; [apply IH|]. constructor; [|constructor]. apply digit_ok. apply Z.mod_pos_bound. lia.
Qed.
Lemma number_app : forall a b, number (a ++ b) = (number a * 10 ^ Z.of_nat (List.length b) + number b)%Z.
Proof.
  intros a b. unfold number. rewrite fold_left_app. generalize (fold_left (fun a c => a * 10 + value c)%Z a 0%Z). clear a.
  assert (G : forall b x y, fold_left (fun a c => a * 10 + value c)%Z b (x + y)%Z = (x * 10 ^ Z.of_nat (List.length b) + fold_left (fun a c => a * 10 + value c)%Z b y)%Z).
  { clear b. induction b as [|c b IH]; intros x y; [cbn; lia|]. cbn [fold_left]. replace ((x + y) * 10 + value c)%Z with (x * 10 + (y * 10 + value c))%Z by lia. rewrite IH.
    cbn [List.length]. rewrite Nat2Z.inj_succ, Z.pow_succ_r by lia. lia. }
  intros x. rewrite <- (Z.add_0_r x) at 1. apply G.
Qed.
Lemma number_digits : forall n m, (0 <= m < 10 ^ Z.of_nat n)%Z -> number (digits n m) = m.
Proof.
  induction n as [|n IH]; intros m H; [cbn in *; lia|]. cbn [digits]. rewrite number_app. cbn [List.length]. change (10 ^ Z.of_nat 1)%Z with 10%Z.
  rewrite Nat2Z.inj_succ, Z.pow_succ_r in H by lia. rewrite IH by (split; [apply Z.div_pos; lia|apply Z.div_lt_upper_bound; lia]).
  unfold number. cbn [fold_left]. rewrite (proj2 (digit_ok (m mod 10) (Z.mod_pos_bound m 10 ltac:(lia)))). pose proof (Z.div_mod m 10 ltac:(lia)). lia.
Qed.
Lemma span_digits : forall ds rest, Forall (fun c => is_digit c = true) ds -> (forall c r, rest = c :: r -> is_digit c = false) -> span (ds ++ rest) = (ds, rest).
Proof.
  induction ds as [|d ds IH]; intros rest H Hr; [cbn [app]; destruct rest as [|c r]; cbn [span]; auto; rewrite (Hr c r eq_refl); auto|].
  inversion H; subst. cbn [app span]. rewrite H2, IH; auto.
Qed.
Definition exp_digits (k : Z) : text := digits (Nat.max 2 (Z.to_nat (Zdigits radix10 (Z.abs k)))) (Z.abs k).
Lemma exp_digits_ok : forall k, number (exp_digits k) = Z.abs k /\ exp_digits k <> [] /\ Forall (fun c => is_digit c = true) (exp_digits k).
Proof.
  intros k. unfold exp_digits. split; [|split; [|apply digits_all]].
  - apply number_digits. split; [lia|]. rewrite Nat2Z.inj_max, Z2Nat.id by apply Zdigits_ge_0. change (Z.of_nat 2) with 2%Z.
    apply Z.lt_le_trans with (10 ^ Zdigits radix10 (Z.abs k))%Z.
    + pose proof (Zdigits_correct radix10 (Z.abs k)) as [_ H]. rewrite Z.abs_involutive in H. exact H.
    + apply Z.pow_le_mono_r; lia.
  - intros E. apply (f_equal (@List.length _)) in E. rewrite digits_len in E. cbn [List.length] in E. lia.
Qed.

(** ** One number *)
Definition mantissa (x : R) (m : Z) : text := (if Rltb x 0 then ["-"%char] else []) ++ digits 1 (m / 10 ^ 18) ++ ["."%char] ++ digits 18 (m mod 10 ^ 18).
Definition parts (x : R) : Z * Z := if Reqb x 0 then (0, 0)%Z else sci x.
Lemma fmt_split : forall x, let '(m, k) := parts x in fmt18e (Some x) = mantissa x m ++ ["e"; if (k <? 0)%Z then "-" else "+"]%char ++ exp_digits k.
Proof. intros x. unfold fmt18e, parts, mantissa, exp_digits. destruct (if Reqb x 0 then (0, 0)%Z else sci x) as [m k]. rewrite !app_assoc. reflexivity. Qed.
Lemma parts_range : forall x, (0 <= fst (parts x) < 10 ^ 19)%Z.
Proof.
  intros x. unfold parts. destruct (Reqb_spec x 0) as [->|N]; [cbn [fst]; split; [lia|reflexivity]|]. pose proof (sci_near x N) as H. destruct (sci x) as [m k]. destruct H as [H _].
  assert (E18 : (10 ^ 18 = 1000000000000000000)%Z) by reflexivity. cbn [fst]. lia.
Qed.
Lemma digit_not_sign : forall n m r, digits (S n) m = r -> forall r', sign_of (r ++ r') = (false, r ++ r').
Proof.
  intros n m r E r'. assert (F := digits_all (S n) m). assert (L := digits_len (S n) m). rewrite E in *. destruct r as [|c r]; [discriminate|]. inversion F; subst. cbn [app sign_of].
  destruct (Ascii.eqb_spec c "-") as [->|]; [discriminate|]. destruct (Ascii.eqb_spec c "+") as [->|]; [discriminate|]. reflexivity.
Qed.
(** The number before the exponent, followed by anything that is not a digit. *)
Lemma float_mantissa : forall x m rest, (0 <= m < 10 ^ 19)%Z -> (forall c r, rest = c :: r -> is_digit c = false) ->
  py_float (mantissa x m ++ rest) =
  match parse_exp rest with
  | Some k => Ok (Some (b64 ((if Rltb x 0 then -1 else 1) * IZR m * bpow radix10 (k - 18))))
  | None => Err ValueError
  end.
Proof.
  intros x m rest Hm Hr. unfold mantissa, py_float. rewrite <- !app_assoc.
  assert (E18 : (10 ^ 18 = 1000000000000000000)%Z) by reflexivity. assert (E19 : (10 ^ 19 = 10000000000000000000)%Z) by reflexivity.
  set (d := digits 1 (m / 10 ^ 18)). set (f := digits 18 (m mod 10 ^ 18)).
  assert (Ld : List.length d = 1%nat) by apply digits_len. assert (Lf : List.length f = 18%nat) by apply digits_len.
  assert (Fd : Forall (fun c => is_digit c = true) d) by apply digits_all. assert (Ff : Forall (fun c => is_digit c = true) f) by apply digits_all.
  assert (S : sign_of ((if Rltb x 0 then ["-"%char] else []) ++ d ++ ["."%char] ++ f ++ rest) = (Rltb x 0, d ++ ["."%char] ++ f ++ rest)).
  { destruct (Rltb x 0); [reflexivity|]. cbn [app]. apply (digit_not_sign 0 (m / 10 ^ 18) d eq_refl). }
  rewrite S. clear S.
  assert (N : text_eqb (d ++ ["."%char] ++ f ++ rest) ["n"; "a"; "n"]%char = false).
  { unfold text_eqb. destruct (list_eq_dec _ _ _) as [E|]; auto. destruct d as [|c d]; [discriminate|]. inversion Fd; subst. cbn [app] in E. injection E as E _. subst c. discriminate. }
  rewrite N. rewrite (span_digits d (["."%char] ++ f ++ rest) Fd) by (intros c r E; injection E as <- _; reflexivity).
  cbn [app]. change (Ascii.eqb "." ".") with true. cbv iota. rewrite (span_digits f rest Ff Hr).
  assert (V : number (d ++ f) = m).
  { rewrite number_app, Lf. change (Z.of_nat 18) with 18%Z. unfold d, f. pose proof (Z.div_mod m (10 ^ 18) ltac:(lia)). pose proof (Z.mod_pos_bound m (10 ^ 18) ltac:(lia)).
    rewrite !number_digits; [lia|change (Z.of_nat 18) with 18%Z; lia|]. change (10 ^ Z.of_nat 1)%Z with 10%Z. split; [apply Z.div_pos; lia|apply Z.div_lt_upper_bound; lia]. }
  destruct (d ++ f) as [|c r] eqn:E; [apply (f_equal (@List.length _)) in E; rewrite app_length, Ld, Lf in E; discriminate|].
  rewrite V, Lf. reflexivity.
Qed.
Lemma e_not_digit : forall s r c r', ["e"%char; s] ++ r = c :: r' -> is_digit c = false.
Proof. intros s r c r' E. cbn in E. injection E as <- _. reflexivity. Qed.
Lemma exp_parses : forall k, parse_exp (["e"; if (k <? 0)%Z then "-" else "+"]%char ++ exp_digits k) = Some k.
Proof.
  intros k. destruct (exp_digits_ok k) as (V & N & F). cbn [app parse_exp]. change (Ascii.eqb "e" "e") with true. cbv iota.
  assert (Q : sign_of ((if (k <? 0)%Z then "-"%char else "+"%char) :: exp_digits k) = ((k <? 0)%Z, exp_digits k)) by (destruct (k <? 0)%Z; reflexivity).
  rewrite Q. pose proof (span_digits (exp_digits k) [] F ltac:(discriminate)) as P. rewrite app_nil_r in P. rewrite P.
  destruct (exp_digits k) as [|c r]; [congruence|]. rewrite V. destruct (Z.ltb_spec k 0); f_equal; lia.
Qed.
Theorem C118_number : forall v, (forall x, v = Some x -> b64 x = x) -> py_float (fmt18e v) = Ok v.
Proof.
  intros [x|] H; [|reflexivity]. specialize (H x eq_refl). pose proof (fmt_split x) as S. pose proof (parts_range x) as P. destruct (parts x) as [m k] eqn:E. rewrite S.
  rewrite (float_mantissa x m _ P) by (intros c r; apply e_not_digit). rewrite exp_parses. unfold parts in E. destruct (Reqb_spec x 0) as [->|N].
  - injection E as <- <-. replace (_ * _ * _) with 0 by ring. rewrite H. auto.
  - pose proof (sci_exact x N H) as Q. rewrite E in Q. rewrite Q. auto.
Qed.

(** ** Files *)
Lemma digit_no_nl : forall c, is_digit c = true -> c <> newline.
Proof. intros c H ->. discriminate. Qed.
Lemma fmt_no_nl : forall v, ~ In newline (fmt18e v).
Proof.
  intros [x|] H; [|cbn in H; repeat (destruct H as [H|H]; [discriminate|]); exact H].
  pose proof (fmt_split x) as S. destruct (parts x) as [m k]. rewrite S in H. unfold mantissa in H. rewrite <- !app_assoc in H.
  apply in_app_or in H; destruct H as [H|H]; [|apply in_app_or in H; destruct H as [H|H]; [|apply in_app_or in H; destruct H as [H|H];
    [|apply in_app_or in H; destruct H as [H|H]; [|apply in_app_or in H; destruct H as [H|H]]]]].
  - destruct (Rltb x 0); cbn in H; [destruct H as [H|[]]; discriminate|exact H].
  - pose proof (digits_all 1 (m / 10 ^ 18)) as F. rewrite Forall_forall in F. exact (digit_no_nl _ (F _ H) eq_refl).
  - destruct H as [H|[]]; discriminate.
  - pose proof (digits_all 18 (m mod 10 ^ 18)) as F. rewrite Forall_forall in F. exact (digit_no_nl _ (F _ H) eq_refl).
  - destruct H as [H|[H|[]]]; [discriminate|]. destruct (k <? 0)%Z; discriminate.
  - destruct (exp_digits_ok k) as (_ & _ & F). rewrite Forall_forall in F. exact (digit_no_nl _ (F _ H) eq_refl).
Qed.
Lemma fmt_not_nil : forall v, fmt18e v <> [].
Proof.
  intros [x|]; [|discriminate]. pose proof (fmt_split x) as S. destruct (parts x) as [m k]. rewrite S. unfold mantissa. intros E. apply (f_equal (@List.length _)) in E.
  rewrite !app_length in E. cbn [List.length] in E. lia.
Qed.
Lemma lines_end : forall s cur, ~ In newline s -> lines cur s = [cur ++ s].
Proof.
  induction s as [|c s IH]; intros cur H; cbn [lines]; [rewrite app_nil_r; auto|].
  destruct (Ascii.eqb_spec c newline) as [->|N]; [exfalso; apply H; left; auto|]. rewrite IH by (intros Q; apply H; right; auto). rewrite <- app_assoc. reflexivity.
Qed.
Lemma lines_more : forall s rest cur, ~ In newline s -> lines cur (s ++ newline :: rest) = (cur ++ s) :: lines [] rest.
Proof.
  induction s as [|c s IH]; intros rest cur H; cbn [app lines]; [rewrite app_nil_r; reflexivity|].
  destruct (Ascii.eqb_spec c newline) as [->|N]; [exfalso; apply H; left; auto|]. rewrite IH by (intros Q; apply H; right; auto). rewrite <- app_assoc. reflexivity.
Qed.
Lemma load_line : forall s rest, ~ In newline s -> s <> [] -> load_column (s ++ newline :: rest) = rbind (py_float s) (fun y => rbind (load_column rest) (fun ys => Ok (y :: ys))).
Proof. intros s rest H N. unfold load_column. rewrite lines_more by auto. cbn [app]. destruct s as [|c s]; [congruence|]. reflexivity. Qed.
Lemma load_end : forall s, ~ In newline s -> s <> [] -> load_column s = rbind (py_float s) (fun y => Ok [y]).
Proof. intros s H N. unfold load_column. rewrite lines_end by auto. cbn [app]. destruct s as [|c s]; [congruence|]. reflexivity. Qed.
Lemma print_cons : forall v l, print_column (v :: l) = fmt18e v ++ newline :: print_column l.
Proof. intros. unfold print_column. cbn [map concat]. rewrite <- app_assoc. reflexivity. Qed.
Lemma print_app : forall a b, print_column (a ++ b) = print_column a ++ print_column b.
Proof. intros. unfold print_column. rewrite map_app, concat_app. reflexivity. Qed.
Lemma load_prefix : forall l t, Forall storable l -> load_column (print_column l ++ t) = rbind (load_column t) (fun ys => Ok (l ++ ys)).
Proof.
  induction l as [|v l IH]; intros t H; [change (print_column [] ++ t) with t; cbn [app]; destruct (load_column t); reflexivity|]. inversion H; subst. rewrite print_cons, <- app_assoc. cbn [app].
  rewrite load_line by (apply fmt_no_nl || apply fmt_not_nil). rewrite C118_number by auto. cbn [rbind]. rewrite IH by auto. cbn [app]. destruct (load_column t); reflexivity.
Qed.
(** One line per value: as many line feeds (character 10) as values, and the last character is one. *)
Theorem C118_lines : forall l, count_occ Ascii.ascii_dec (print_column l) "010"%char = length l /\ (l <> [] -> exists t, print_column l = t ++ ["010"%char]).
Proof.
  intros l. split.
  - induction l as [|v l IH]; [reflexivity|]. rewrite print_cons, count_occ_app. change (count_occ Ascii.ascii_dec (newline :: print_column l) "010"%char) with (Datatypes.S (count_occ Ascii.ascii_dec (print_column l) "010"%char)).
    rewrite IH, (proj1 (count_occ_not_In Ascii.ascii_dec _ _) (fmt_no_nl v : ~ In "010"%char (fmt18e v))). reflexivity.
  - intros N. destruct (exists_last N) as (l' & v & ->). rewrite print_app. exists (print_column l' ++ fmt18e v). rewrite print_cons, <- app_assoc. reflexivity.
Qed.
Theorem C118_file : forall l, Forall storable l -> load_column (print_column l) = Ok l.
Proof. intros l H. rewrite <- (app_nil_r (print_column l)), load_prefix by auto. cbn. rewrite app_nil_r. reflexivity. Qed.
(** So files with different numbers have different texts. *)
Theorem C118_faithful : forall l l', Forall storable l -> Forall storable l' -> print_column l = print_column l' -> l = l'.
Proof. intros l l' H H' E. apply C118_file in H, H'. rewrite E in H. congruence. Qed.

(** ** Cut-off files *)
Lemma float_err : forall s e, py_float s = Err e -> e = ValueError.
Proof.
  intros s e H. unfold py_float in H. destruct (sign_of s) as [n l1]. destruct (text_eqb l1 _); [discriminate|]. destruct (span l1) as [i l2].
  destruct (match l2 with c :: l' => if Ascii.eqb c "." then span l' else ([], l2) | [] => ([], []) end) as [f l3]. destruct (i ++ f); [congruence|]. destruct (parse_exp l3); congruence.
Qed.
Theorem C118_cut_off : forall l t rest, Forall storable l -> t ++ rest = print_column l -> cut_reading l (load_column t).
Proof.
  unfold cut_reading. induction l as [|v l IH]; intros t rest H E.
  - cbn in E. apply app_eq_nil in E. destruct E as [-> ->]. right. exists 0%nat, []. cbn. auto.
  - inversion H; subst. rewrite print_cons in E. apply app_eq_app in E. destruct E as (u & [[E1 E2]|[E1 E2]]).
    + destruct u as [|c u].
      * rewrite app_nil_r in E1. subst t. rewrite load_end by (apply fmt_no_nl || apply fmt_not_nil). rewrite C118_number by auto. right. exists 1%nat, []. cbn. split; auto. split; lia.
      * cbn in E2. injection E2 as <- E2. subst t. rewrite load_line by (apply fmt_no_nl || apply fmt_not_nil). rewrite C118_number by auto. cbn [rbind].
        destruct (IH u rest H3 (eq_sym E2)) as [->|(k & ys & -> & L1 & L2)]; [left; reflexivity|]. right. exists (S k), ys. cbn. split; auto. split; auto. lia.
    + destruct t as [|c t]; [right; exists 0%nat, []; cbn; split; auto; split; lia|].
      assert (N : ~ In newline (c :: t)) by (intros Q; apply (fmt_no_nl v); rewrite E1; apply in_or_app; auto).
      rewrite load_end by (auto; discriminate). destruct (py_float (c :: t)) as [y|e] eqn:Q; cbn [rbind].
      * right. exists 0%nat, [y]. cbn. split; auto. split; lia.
      * left. rewrite (float_err _ _ Q). reflexivity.
Qed.
(** The other number can be there, and nothing tells: when the last number of a file exceeds 10, a cut-off file reads without an exception, with
    the full count of numbers and a wrong last one. *)
Theorem C118_misread : forall l x, Forall storable l -> machine b64 x -> 10 < Rabs x ->
  exists t rest y, rest <> [] /\ t ++ rest = print_column (l ++ [Some x]) /\ load_column t = Ok (l ++ [Some y]) /\ y <> x.
Proof.
  intros l x Hl Hx Hb. pose proof (fmt_split x) as S. pose proof (parts_range x) as P. destruct (parts x) as [m k] eqn:E. cbn [fst] in P.
  exists (print_column l ++ mantissa x m), ((["e"; if (k <? 0)%Z then "-" else "+"]%char ++ exp_digits k) ++ [newline]), (b64 ((if Rltb x 0 then -1 else 1) * IZR m * bpow radix10 (0 - 18))).
  split; [discriminate|]. split.
  - rewrite print_app, print_cons, S. cbn. rewrite <- !app_assoc. reflexivity.
  - split.
    + rewrite load_prefix by auto. assert (N : ~ In newline (mantissa x m)).
      { intros Q. apply (fmt_no_nl (Some x)). rewrite S. apply in_or_app. auto. }
      rewrite load_end; auto.
      * rewrite <- (app_nil_r (mantissa x m)) at 1. rewrite (float_mantissa x m [] P) by discriminate. reflexivity.
      * unfold mantissa. intros Q. apply (f_equal (@List.length _)) in Q. rewrite !app_length in Q. cbn [List.length] in Q. lia.
    + intros Q. destruct C115_binary64 as [_ _ Mo _ Ng _ _ _].
      assert (M : 0 <= IZR m * bpow radix10 (0 - 18) <= 10).
      { destruct P as [P1 P2]. apply IZR_le in P1. apply IZR_lt in P2. pose proof (bpow_gt_0 radix10 (0 - 18)). split; [apply Rmult_le_pos; lra|].
        replace 10 with (IZR (10 ^ 19) * bpow radix10 (0 - 18)); [apply Rmult_le_compat_r; lra|]. change (IZR (10 ^ 19)) with (bpow radix10 19). rewrite <- bpow_plus. reflexivity. }
      assert (B : 0 <= b64 (IZR m * bpow radix10 (0 - 18)) <= 10).
      { assert (Z0 : b64 0 = 0) by (apply b64_int; reflexivity). assert (Z10 : b64 10 = 10) by (apply b64_int; reflexivity). split; [rewrite <- Z0 at 1|rewrite <- Z10]; apply Mo; lra. }
      destruct (Rltb x 0).
      * replace (-1 * IZR m * bpow radix10 (0 - 18)) with (- (IZR m * bpow radix10 (0 - 18))) in Q by ring. rewrite Ng in Q. rewrite <- Q, Rabs_Ropp, Rabs_pos_eq in Hb; lra.
      * rewrite Rmult_1_l in Q. rewrite <- Q, Rabs_pos_eq in Hb; lra.
Qed.
(** Cut off within the exponent mark, before its first digit, the file is refused. *)
Theorem C118_detected : forall l x, Forall storable l ->
  exists mant sg ds, fmt18e (Some x) = mant ++ ["e"%char; sg] ++ ds /\ ds <> [] /\
    load_column (print_column l ++ mant ++ ["e"%char]) = Err ValueError /\ load_column (print_column l ++ mant ++ ["e"%char; sg]) = Err ValueError.
Proof.
  intros l x Hl. pose proof (fmt_split x) as S. pose proof (parts_range x) as P. destruct (parts x) as [m k] eqn:E. cbn [fst] in P.
  exists (mantissa x m), (if (k <? 0)%Z then "-" else "+")%char, (exp_digits k). split; [exact S|]. split; [apply exp_digits_ok|].
  assert (G : forall r, (forall c r', r = c :: r' -> is_digit c = false) -> ~ In newline r -> parse_exp r = None -> load_column (print_column l ++ mantissa x m ++ r) = Err ValueError).
  { intros r H1 H2 H3. rewrite load_prefix by auto. rewrite load_end.
    - rewrite (float_mantissa x m r P H1), H3. reflexivity.
    - intros Q. apply in_app_or in Q. destruct Q as [Q|Q]; [|auto]. apply (fmt_no_nl (Some x)). rewrite S. apply in_or_app. auto.
    - unfold mantissa. intros Q. apply (f_equal (@List.length _)) in Q. rewrite !app_length in Q. cbn [List.length] in Q. lia. }
  split; apply G.
  - intros c r' Q. injection Q as <- _. reflexivity.
  - intros [Q|[]]. discriminate.
  - reflexivity.
  - intros c r' Q. injection Q as <- _. reflexivity.
  - intros [Q|[Q|[]]]; [discriminate|]. destruct (k <? 0)%Z; discriminate.
  - destruct (k <? 0)%Z; reflexivity.
Qed.
