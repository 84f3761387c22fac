(** C122: reading a spreadsheet of interplanetary trajectories. *)
From Coq Require Import ZArith List Ascii Bool Lia.
From Flocq Require Import Core Digits.
Require Import Verif.Base Verif.TextModel Verif.PropText Verif.DatasetModel Verif.DatasetSpec.
Import ListNotations.
Local Open Scope Z_scope.

(** ** The calendar *)
Lemma is_leap_iff : forall y, is_leap y = true <-> leap y.
Proof.
  intros y. unfold is_leap, leap. rewrite andb_true_iff, orb_true_iff, negb_true_iff, Z.eqb_eq, Z.eqb_neq, Z.eqb_eq.
  rewrite !Z.mod_divide by lia. tauto.
Qed.
Lemma month_length_iff : forall y m n, month_length y m n <-> 1 <= m <= 12 /\ n = days_in_month y m.
Proof.
  intros y m n. unfold days_in_month. split.
  - intros [k H|k H|H|H].
    + cbn [In] in H. destruct H as [<-|[<-|[<-|[<-|[<-|[<-|[<-|[]]]]]]]]; cbn; lia.
    + cbn [In] in H. destruct H as [<-|[<-|[<-|[<-|[]]]]]; cbn; lia.
    + apply is_leap_iff in H. rewrite H. cbn. lia.
    + destruct (is_leap y) eqn:E; [apply is_leap_iff in E; tauto|]. cbn. lia.
  - intros [Hm ->]. assert (C : m = 1 \/ m = 2 \/ m = 3 \/ m = 4 \/ m = 5 \/ m = 6 \/ m = 7 \/ m = 8 \/ m = 9 \/ m = 10 \/ m = 11 \/ m = 12) by lia.
    destruct C as [->|[->|[->|[->|[->|[->|[->|[->|[->|[->|[->| ->]]]]]]]]]]]; cbn;
      try (apply Long; cbn; tauto); try (apply Short; cbn; tauto).
    destruct (is_leap y) eqn:E; [apply FebLeap; apply is_leap_iff; exact E|apply Feb]. intros H. apply is_leap_iff in H. congruence.
Qed.
Definition ok_date (t : date) : bool := let '(y, m, d) := t in (1000 <=? y) && (y <=? 9999) && (1 <=? m) && (m <=? 12) && (1 <=? d) && (d <=? days_in_month y m).
Lemma ok_date_iff : forall t, ok_date t = true <-> calendar t.
Proof.
  intros [[y m] d]. unfold ok_date, calendar. rewrite !andb_true_iff, !Z.leb_le. split.
  - intros H. split; [lia|]. exists (days_in_month y m). split; [apply month_length_iff; lia|lia].
  - intros (H & n & L & D). apply month_length_iff in L. lia.
Qed.
Lemma month_days_range : forall y m, 28 <= days_in_month y m <= 31.
Proof. intros y m. unfold days_in_month. destruct (m =? 2), (is_leap y), ((m =? 4) || (m =? 6) || (m =? 9) || (m =? 11)); lia. Qed.

(** ** Eight digits *)
Lemma value_digit' : forall k, 0 <= k <= 9 -> value (digit k) = k /\ is_digit (digit k) = true.
Proof.
  intros k H. assert (C : k = 0 \/ k = 1 \/ k = 2 \/ k = 3 \/ k = 4 \/ k = 5 \/ k = 6 \/ k = 7 \/ k = 8 \/ k = 9) by lia.
  destruct C as [->|[->|[->|[->|[->|[->|[->|[->|[->| ->]]]]]]]]]; split; reflexivity.
Qed.
Lemma digits_of : forall z, 10000000 <= z <= 99999999 -> py_int z =
  [digit (z / 10000000); digit (z / 1000000 mod 10); digit (z / 100000 mod 10); digit (z / 10000 mod 10);
   digit (z / 1000 mod 10); digit (z / 100 mod 10); digit (z / 10 mod 10); digit (z mod 10)].
Proof.
  intros z H. unfold py_int. destruct (Z.ltb_spec z 0); [lia|]. rewrite Z.abs_eq by lia.
  assert (D : Zdigits radix10 z = 8). { apply Zdigits_unique. rewrite Z.abs_eq by lia. change (Zpower radix10 (8 - 1)) with 10000000. change (Zpower radix10 8) with 100000000. lia. }
  rewrite D. change (Nat.max 1 (Z.to_nat 8)) with 8%nat. cbn [digits app]. rewrite !Z.div_div by lia. cbn [Z.mul Pos.mul].
  rewrite (Z.mod_small (z / 10000000)); [reflexivity|]. Z.div_mod_to_equations. lia.
Qed.
Definition four (m1 m2 d1 d2 : Z) : bool :=
  match month_day [digit m1; digit m2; digit d1; digit d2] with
  | Some (m, d, []) => (m =? 10 * m1 + m2) && (d =? 10 * d1 + d2) && (1 <=? m) && (m <=? 12) && (1 <=? d) && (d <=? 31)
  | _ => negb ((1 <=? 10 * m1 + m2) && (10 * m1 + m2 <=? 12) && (1 <=? 10 * d1 + d2) && (10 * d1 + d2 <=? 31))
  end.
Definition ten : list Z := [0; 1; 2; 3; 4; 5; 6; 7; 8; 9].
Lemma four_all : forallb (fun a => forallb (fun b => forallb (fun c => forallb (fun d => four a b c d) ten) ten) ten) ten = true.
Proof. vm_compute. reflexivity. Qed.
Lemma four_ok : forall a b c d, 0 <= a <= 9 -> 0 <= b <= 9 -> 0 <= c <= 9 -> 0 <= d <= 9 -> four a b c d = true.
Proof.
  intros a b c d Ha Hb Hc Hd. assert (T : forall k, 0 <= k <= 9 -> In k ten) by (intros k H; unfold ten; cbn [In]; lia).
  pose proof four_all as F. rewrite forallb_forall in F. specialize (F a (T a Ha)). rewrite forallb_forall in F. specialize (F b (T b Hb)).
  rewrite forallb_forall in F. specialize (F c (T c Hc)). rewrite forallb_forall in F. exact (F d (T d Hd)).
Qed.
Lemma not_a_word : forall c t, is_digit c = true \/ c = "-"%char -> existsb (text_eqb (c :: t)) nat_words = false.
Proof.
  intros c t H. assert (N : c <> "n"%char /\ c <> "N"%char) by (split; intros ->; destruct H; discriminate).
  destruct N as [N1 N2]. unfold nat_words, existsb, text_eqb. repeat match goal with |- context [list_eq_dec ?d ?a ?b] => destruct (list_eq_dec d a b); [congruence|] end. reflexivity.
Qed.
Lemma parse_eight : forall z, 10000000 <= z <= 99999999 -> let t := (z / 10000, z / 100 mod 100, z mod 100) in
  parse_date (py_int z) = if ok_date t then Some (Some t) else None.
Proof.
  intros z H t. rewrite digits_of by auto. unfold parse_date.
  assert (R : forall k, 0 <= k mod 10 <= 9) by (intros k; pose proof (Z.mod_pos_bound k 10 ltac:(lia)); lia).
  assert (R0 : 1 <= z / 10000000 <= 9) by (Z.div_mod_to_equations; lia).
  destruct (value_digit' (z / 10000000) ltac:(lia)) as [V1 D1]. destruct (value_digit' _ (R (z / 1000000))) as [V2 D2].
  destruct (value_digit' _ (R (z / 100000))) as [V3 D3]. destruct (value_digit' _ (R (z / 10000))) as [V4 D4].
  rewrite not_a_word by auto. cbn [forallb]. rewrite D1, D2, D3, D4. cbn [andb].
  pose proof (four_ok _ _ _ _ (R (z / 1000)) (R (z / 100)) (R (z / 10)) (R z)) as F. unfold four in F.
  assert (Y : number [digit (z / 10000000); digit (z / 1000000 mod 10); digit (z / 100000 mod 10); digit (z / 10000 mod 10)] = z / 10000).
  { unfold number. cbn [fold_left]. rewrite V1, V2, V3, V4. Z.div_mod_to_equations. lia. }
  rewrite Y. assert (M : 10 * (z / 1000 mod 10) + z / 100 mod 10 = z / 100 mod 100) by (Z.div_mod_to_equations; lia).
  assert (D : 10 * (z / 10 mod 10) + z mod 10 = z mod 100) by (Z.div_mod_to_equations; lia). rewrite M, D in F.
  assert (YB : 1000 <= z / 10000 <= 9999) by (Z.div_mod_to_equations; lia).
  pose proof (month_days_range (z / 10000) (z / 100 mod 100)) as MB. unfold t, ok_date.
  replace (1000 <=? z / 10000) with true by (symmetry; apply Z.leb_le; lia). replace (z / 10000 <=? 9999) with true by (symmetry; apply Z.leb_le; lia). cbn [andb].
  assert (Bad : negb ((1 <=? z / 100 mod 100) && (z / 100 mod 100 <=? 12) && (1 <=? z mod 100) && (z mod 100 <=? 31)) = true ->
    (1 <=? z / 100 mod 100) && (z / 100 mod 100 <=? 12) && (1 <=? z mod 100) && (z mod 100 <=? days_in_month (z / 10000) (z / 100 mod 100)) = false).
  { intros B. apply negb_true_iff in B. destruct (1 <=? z / 100 mod 100), (z / 100 mod 100 <=? 12), (1 <=? z mod 100); try reflexivity.
    cbn [andb] in *. apply Z.leb_gt in B. apply Z.leb_gt. lia. }
  destruct (month_day _) as [[[m d] [|c r]]|].
  - rewrite !andb_true_iff, !Z.eqb_eq, !Z.leb_le in F. destruct F as (((((-> & ->) & F3) & F4) & F5) & F6).
    replace (1 <=? z / 100 mod 100) with true by (symmetry; apply Z.leb_le; lia). replace (z / 100 mod 100 <=? 12) with true by (symmetry; apply Z.leb_le; lia).
    replace (1 <=? z mod 100) with true by (symmetry; apply Z.leb_le; lia). replace (1 <=? z / 10000) with true by (symmetry; apply Z.leb_le; lia). reflexivity.
  - rewrite (Bad F). reflexivity.
  - rewrite (Bad F). reflexivity.
Qed.
Lemma yyyymmdd_range : forall t, calendar t -> 10000000 <= yyyymmdd t <= 99999999 /\ (yyyymmdd t / 10000, yyyymmdd t / 100 mod 100, yyyymmdd t mod 100) = t.
Proof.
  intros [[y m] d] H. apply ok_date_iff in H. unfold ok_date in H. rewrite !andb_true_iff, !Z.leb_le in H. pose proof (month_days_range y m).
  unfold yyyymmdd. split; [lia|]. f_equal; [f_equal|]; Z.div_mod_to_equations; lia.
Qed.
Lemma reads_date : forall t, calendar t -> parse_date (py_int (yyyymmdd t)) = Some (Some t).
Proof. intros t H. destruct (yyyymmdd_range t H) as [R E]. rewrite parse_eight by auto. rewrite E. apply ok_date_iff in H. rewrite H. reflexivity. Qed.

(** ** Columns *)
Lemma all_dates_iff : forall l ds, all_dates l = Some ds <-> Forall2 (fun t d => parse_date t = Some d) l ds.
Proof.
  induction l as [|t l IH]; intros ds; cbn [all_dates].
  - split; [intros E; injection E as <-; constructor|intros E; inversion E; reflexivity].
  - split.
    + destruct (parse_date t) eqn:P; [|discriminate]. destruct (all_dates l) as [ds'|]; [|discriminate]. intros E. injection E as <-. constructor; [exact P|]. apply IH. reflexivity.
    + intros E. inversion E as [|? d ? ds' P Q]; subst. rewrite P. apply IH in Q. rewrite Q. reflexivity.
Qed.
Lemma all_dates_none : forall l t, In t l -> parse_date t = None -> all_dates l = None.
Proof.
  induction l as [|a l IH]; intros t H P; [destruct H|]. cbn [all_dates]. destruct H as [->|H]; [rewrite P; reflexivity|]. rewrite (IH t H P). destruct (parse_date a); reflexivity.
Qed.
Lemma ints_strs : forall fstr zs, column_strs fstr (map CInt zs) = map py_int zs.
Proof.
  intros fstr zs. unfold column_strs. assert (E : forallb is_int (map CInt zs) = true) by (apply forallb_forall; intros c H; apply in_map_iff in H; destruct H as (z & <- & _); reflexivity).
  rewrite E. cbn [negb andb]. rewrite map_map. reflexivity.
Qed.

(** A sheet with the four columns, whose launch dates are written as whole numbers, is read as it is: the k-th date is that
    of the k-th row, and so are the other columns. *)
Theorem C122_reads : forall fstr sh ds c3 tof av, has sh n_Lcdate (map (fun t => CInt (yyyymmdd t)) ds) -> has sh n_LC3 c3 -> has sh n_TOF tof -> has sh n_Avinf av ->
  Forall calendar ds -> load fstr sh = Loaded (mkTraj (map Some ds) c3 tof av).
Proof.
  intros fstr sh ds c3 tof av H1 H2 H3 H4 C. unfold load. unfold has in *. rewrite H1, H2, H3, H4. rewrite <- (map_map yyyymmdd CInt), ints_strs.
  replace (all_dates (map py_int (map yyyymmdd ds))) with (Some (map Some ds)); [reflexivity|]. symmetry. apply all_dates_iff. clear - C.
  induction C as [|t ds Ht _ IH]; cbn [map]; constructor; auto. apply reads_date. exact Ht.
Qed.
(** Eight-digit numbers are read exactly if all of them are dates, and as those. *)
Theorem C122_eight_digits : forall fstr sh zs c3 tof av, has sh n_Lcdate (map CInt zs) -> has sh n_LC3 c3 -> has sh n_TOF tof -> has sh n_Avinf av ->
  Forall (fun z => 10000000 <= z <= 99999999) zs ->
  (forall tj, load fstr sh = Loaded tj <-> exists ds, Forall2 (fun z t => calendar t /\ yyyymmdd t = z) zs ds /\ tj = mkTraj (map Some ds) c3 tof av) /\
  (load fstr sh = BadDate <-> exists z, In z zs /\ ~ exists t, calendar t /\ yyyymmdd t = z).
Proof.
  intros fstr sh zs c3 tof av H1 H2 H3 H4 Z.
  assert (One : forall z, 10000000 <= z <= 99999999 -> (exists t, calendar t /\ yyyymmdd t = z /\ parse_date (py_int z) = Some (Some t)) \/ ((~ exists t, calendar t /\ yyyymmdd t = z) /\ parse_date (py_int z) = None)).
  { intros z Hz. pose proof (parse_eight z Hz) as P. cbv zeta in P. set (t := (z / 10000, z / 100 mod 100, z mod 100)) in *. destruct (ok_date t) eqn:O.
    - left. exists t. apply ok_date_iff in O. split; [auto|]. split; [|exact P]. unfold yyyymmdd, t. Z.div_mod_to_equations. lia.
    - right. split; [|exact P]. intros (s & C & E). destruct (yyyymmdd_range s C) as [_ Q]. rewrite E in Q. fold t in Q. subst s. apply ok_date_iff in C. congruence. }
  assert (Ld : load fstr sh = match all_dates (map py_int zs) with None => BadDate | Some ds => Loaded (mkTraj ds c3 tof av) end).
  { unfold load, has in *. rewrite H1, H2, H3, H4, ints_strs. destruct (all_dates _); reflexivity. }
  rewrite Ld. assert (Good : forall ds, all_dates (map py_int zs) = Some ds -> exists ds', Forall2 (fun z t => calendar t /\ yyyymmdd t = z) zs ds' /\ ds = map Some ds').
  { clear - Z One. intros ds E. apply all_dates_iff in E. revert ds E. induction Z as [|z zs Hz Z IH]; intros ds E; cbn [map] in E; inversion E as [|? d ? ds' P Q]; subst.
    - exists []. split; constructor.
    - destruct (IH _ Q) as (ds2 & F & ->). destruct (One z Hz) as [(t & C & Y & P')|[_ P']]; [|congruence]. exists (t :: ds2). split; [constructor; auto|]. cbn [map]. congruence. }
  split.
  - intros tj. split.
    + destruct (all_dates _) as [ds|] eqn:E; [|discriminate]. intros T. injection T as <-. destruct (Good ds eq_refl) as (ds' & F & ->). exists ds'. auto.
    + intros (ds & F & ->). replace (all_dates (map py_int zs)) with (Some (map Some ds)); [reflexivity|]. symmetry. apply all_dates_iff.
      clear - F. induction F as [|z t zs ds [C <-] F IH]; cbn [map]; constructor; auto. apply reads_date. exact C.
  - split.
    + destruct (all_dates _) as [ds|] eqn:E; [discriminate|]. intros _. clear - E Z One. induction Z as [|z zs Hz Z IH]; cbn [map all_dates] in E; [discriminate|].
      destruct (One z Hz) as [(t & C & Y & P)|[N P]]; [|exists z; split; [left; reflexivity|exact N]]. rewrite P in E.
      destruct (all_dates (map py_int zs)); [discriminate|]. destruct (IH eq_refl) as (z' & I & N). exists z'. split; [right; exact I|exact N].
    + intros (z & I & N). rewrite Forall_forall in Z. destruct (One z (Z z I)) as [(t & C & Y & P)|[_ P]]; [exfalso; apply N; eauto|].
      rewrite (all_dates_none _ (py_int z)); [reflexivity|apply in_map; exact I|exact P].
Qed.

(** ** Empty cells *)
Lemma two_chars : forall p q l v r, In (v, r) (two p q l) -> (forall c, p c = true -> is_digit c = true) -> (forall c, q c = true -> is_digit c = true) ->
  exists a b, l = a :: b :: r /\ is_digit a = true /\ is_digit b = true.
Proof.
  intros p q [|a [|b r']] v r H P Q; cbn [two] in H; [destruct H|destruct H|]. destruct (p a && q b) eqn:E; [|destruct H]. apply andb_true_iff in E. destruct E as [Ea Eb].
  destruct H as [H|[]]. injection H as _ <-. exists a, b. auto.
Qed.
Lemma one_chars : forall p l v r, In (v, r) (one p l) -> (forall c, p c = true -> is_digit c = true) -> exists a, l = a :: r /\ is_digit a = true.
Proof. intros p [|a r'] v r H P; cbn [one] in H; [destruct H|]. destruct (p a) eqn:Ea; [|destruct H]. destruct H as [H|[]]. injection H as _ <-. exists a. auto. Qed.
Lemma among_digit : forall lo hi c, among lo hi c = true -> is_digit c = true.
Proof. intros lo hi c H. unfold among in H. rewrite !andb_true_iff in H. tauto. Qed.
Definition plain (c : ascii) : Prop := is_digit c = true \/ c = " "%char.
Lemma months_chars : forall l v r, In (v, r) (months l) -> exists pre, l = pre ++ r /\ Forall plain pre.
Proof.
  intros l v r H. unfold months in H. rewrite !in_app_iff in H.
  destruct H as [H|[H|H]]; [apply two_chars in H|apply two_chars in H|apply one_chars in H]; try apply among_digit.
  - destruct H as (a & b & -> & A & B). exists [a; b]. split; [reflexivity|]. unfold plain. auto.
  - destruct H as (a & b & -> & A & B). exists [a; b]. split; [reflexivity|]. unfold plain. auto.
  - destruct H as (a & -> & A). exists [a]. split; [reflexivity|]. unfold plain. auto.
Qed.
Lemma days_chars : forall l v r, In (v, r) (days l) -> exists pre, l = pre ++ r /\ Forall plain pre.
Proof.
  intros l v r H. unfold days in H. rewrite !in_app_iff in H.
  assert (T : forall lo hi lo' hi', In (v, r) (two (among lo hi) (among lo' hi') l) -> exists pre, l = pre ++ r /\ Forall plain pre).
  { intros lo hi lo' hi' G. apply two_chars in G; try apply among_digit. destruct G as (a & b & -> & A & B). exists [a; b]. split; [reflexivity|]. unfold plain. auto. }
  destruct H as [H|[H|[H|[H|H]]]]; try (eapply T; exact H).
  - apply one_chars in H; [|apply among_digit]. destruct H as (a & -> & A). exists [a]. split; [reflexivity|]. unfold plain. auto.
  - destruct l as [|a l]; [destruct H|]. destruct (Ascii.eqb a " ") eqn:E; [|destruct H]. apply Ascii.eqb_eq in E. subst a.
    apply one_chars in H; [|apply among_digit]. destruct H as (b & -> & B). exists [" "%char; b]. split; [reflexivity|]. unfold plain. auto.
Qed.
Lemma parse_chars : forall t d, parse_date t = Some (Some d) -> Forall plain t.
Proof.
  intros t d H. unfold parse_date in H. destruct (existsb _ _); [discriminate|]. destruct t as [|a [|b [|c [|e r]]]]; try discriminate.
  destruct (forallb is_digit [a; b; c; e]) eqn:F; [|discriminate]. cbn [forallb] in F. rewrite !andb_true_iff in F. destruct F as (Fa & Fb & Fc & Fe & _).
  destruct (month_day r) as [[[m dd] [|x y]]|] eqn:M; try discriminate. clear H. unfold month_day in M.
  destruct (flat_map _ _) as [|h l] eqn:G; [discriminate|]. injection M as M.
  assert (I : In h (h :: l)) by (left; reflexivity). rewrite <- G in I. apply in_flat_map in I. destruct I as ([m' r'] & I1 & I2). apply in_map_iff in I2. destruct I2 as ([d' r2] & E & I2).
  cbn [fst snd] in *. rewrite M in E. injection E as _ _ ->.
  apply months_chars in I1. apply days_chars in I2. destruct I1 as (p1 & -> & P1), I2 as (p2 & -> & P2). rewrite app_nil_r.
  repeat (constructor; [left; assumption|]). apply Forall_app. auto.
Qed.
Lemma odd_char : forall t, existsb (text_eqb t) nat_words = false -> (exists c, In c t /\ is_digit c = false /\ c <> " "%char) -> parse_date t = None.
Proof.
  intros t N (c & I & D & S). destruct (parse_date t) as [[d|]|] eqn:P; [| |reflexivity].
  - exfalso. apply parse_chars in P. rewrite Forall_forall in P. destruct (P c I); congruence.
  - exfalso. unfold parse_date in P. rewrite N in P. destruct t as [|a [|b [|x [|e r]]]]; try discriminate. destruct (forallb _ _); [|discriminate].
    destruct (month_day r) as [[[m dd] [|y z]]|]; try discriminate. destruct (_ && _); discriminate.
Qed.
Lemma py_int_head : forall z, exists c t, py_int z = c :: t /\ (is_digit c = true \/ c = "-"%char).
Proof.
  intros z. unfold py_int. destruct (z <? 0); [eexists _, _; split; [reflexivity|]; right; reflexivity|]. cbn [app].
  pose proof (digits_all (Nat.max 1 (Z.to_nat (Zdigits radix10 (Z.abs z)))) (Z.abs z)) as F. pose proof (digits_len (Nat.max 1 (Z.to_nat (Zdigits radix10 (Z.abs z)))) (Z.abs z)) as L.
  destruct (digits _ _) as [|c t]; [cbn [List.length] in L; lia|]. exists c, t. split; [reflexivity|]. left. inversion F; auto.
Qed.
(** One empty cell, or one number that is not whole, among the launch dates: nothing is read, however many good rows there
    are. *)
Theorem C122_blank : forall fstr sh lc c, prints_point fstr -> has sh n_Lcdate lc -> Forall (fun c => is_text c = false) lc ->
  (exists b, In b lc /\ is_int b = false) -> In c lc -> c <> CBlank -> load fstr sh = BadDate.
Proof.
  intros fstr sh lc c F H T (b & Ib & Nb) Ic Nc. unfold load, has in *. rewrite H.
  assert (E1 : forallb is_int lc = false). { apply not_true_iff_false. intros E. rewrite forallb_forall in E. rewrite (E b Ib) in Nb. discriminate. }
  assert (E2 : existsb is_text lc = false). { apply not_true_iff_false. intros E. apply existsb_exists in E. destruct E as (x & I & X). rewrite Forall_forall in T. rewrite (T x I) in X. discriminate. }
  unfold column_strs. rewrite E1, E2. cbn [negb andb].
  rewrite (all_dates_none _ (cell_str fstr true c)); [reflexivity|apply in_map; exact Ic|].
  rewrite Forall_forall in T. specialize (T c Ic). destruct c as [z|x|t|]; cbn [cell_str is_text] in *; try discriminate; [| |congruence].
  - destruct (Z.abs z <? 10 ^ 16); [|apply odd_char; apply F]. destruct (py_int_head z) as (a & t & -> & Q). cbn [app]. apply odd_char; [apply not_a_word; exact Q|].
    exists "."%char. split; [|split; [reflexivity|discriminate]]. right. apply in_app_iff. right. left. reflexivity.
  - apply odd_char; apply F.
Qed.
(** The same dates and an empty cell in a column with some other text that is a date: the empty cell is no date, the others
    are read. *)
Theorem C122_blank_among_text : forall fstr sh lc c3 tof av, has sh n_Lcdate lc -> has sh n_LC3 c3 -> has sh n_TOF tof -> has sh n_Avinf av ->
  (exists t, In (CText t) lc) ->
  Forall (fun c => c = CBlank \/ (exists t, calendar t /\ (c = CInt (yyyymmdd t) \/ exists s, c = CText s /\ parse_date s = Some (Some t)))) lc ->
  exists ds, load fstr sh = Loaded (mkTraj ds c3 tof av) /\ Forall2 (fun c d => c = CBlank -> d = None) lc ds /\
    Forall2 (fun c d => forall t, calendar t -> c = CInt (yyyymmdd t) -> d = Some t) lc ds.
Proof.
  intros fstr sh lc c3 tof av H1 H2 H3 H4 (tx & It) F. unfold load, has in *. rewrite H1, H2, H3, H4.
  unfold column_strs. assert (E : existsb is_text lc = true) by (apply existsb_exists; exists (CText tx); split; [exact It|reflexivity]). rewrite E, andb_false_r. clear It E H1.
  assert (G : exists ds, all_dates (map (cell_str fstr false) lc) = Some ds /\ Forall2 (fun c d => c = CBlank -> d = None) lc ds /\ Forall2 (fun c d => forall t, calendar t -> c = CInt (yyyymmdd t) -> d = Some t) lc ds).
  { induction F as [|c lc Hc F (ds & D & B1 & B2)]; [exists []; repeat split; constructor|]. cbn [map all_dates]. rewrite D.
    destruct Hc as [->|(t & C & [->|(s & -> & P)])].
    - exists (None :: ds). split; [reflexivity|]. split; constructor; auto. intros t _ N. discriminate.
    - exists (Some t :: ds). cbn [cell_str]. rewrite reads_date by exact C. split; [reflexivity|]. split; constructor; auto; [discriminate|].
      intros t' C' N. injection N as N. f_equal. destruct (yyyymmdd_range t C) as [_ Q]. destruct (yyyymmdd_range t' C') as [_ Q']. rewrite N in Q. congruence.
    - exists (Some t :: ds). cbn [cell_str]. rewrite P. split; [reflexivity|]. split; constructor; auto; [discriminate|]. intros t' _ N. discriminate. }
  destruct G as (ds & -> & G). exists ds. split; [reflexivity|exact G].
Qed.
Lemma F2_len : forall A B (R : A -> B -> Prop) l m, Forall2 R l m -> List.length l = List.length m.
Proof. intros A B R l m H. induction H; cbn [List.length]; congruence. Qed.
(** Only the column of launch dates is looked at cell by cell, and it comes first: a column is missed only if those before
    it are there and the dates could be read. *)
Theorem C122_missing : forall fstr sh,
  (column sh n_Lcdate = None -> load fstr sh = KeyError n_Lcdate) /\
  (forall lc, has sh n_Lcdate lc -> load fstr sh <> BadDate ->
     (column sh n_LC3 = None -> load fstr sh = KeyError n_LC3) /\
     (forall c3, has sh n_LC3 c3 -> column sh n_TOF = None -> load fstr sh = KeyError n_TOF) /\
     (forall c3 tof, has sh n_LC3 c3 -> has sh n_TOF tof -> column sh n_Avinf = None -> load fstr sh = KeyError n_Avinf)) /\
  (forall tj, load fstr sh = Loaded tj -> exists lc, has sh n_Lcdate lc /\ List.length (tj_date tj) = List.length lc /\
     has sh n_LC3 (tj_C3 tj) /\ has sh n_TOF (tj_TOF tj) /\ has sh n_Avinf (tj_Avinf tj)).
Proof.
  intros fstr sh. unfold load, has. split; [|split].
  - intros ->. reflexivity.
  - intros lc -> B. destruct (all_dates _); [|congruence]. split; [|split].
    + intros ->. reflexivity. + intros c3 -> ->. reflexivity. + intros c3 tof -> -> ->. reflexivity.
  - intros tj H. destruct (column sh n_Lcdate) as [lc|]; [|discriminate]. destruct (all_dates _) as [ds|] eqn:D; [|discriminate].
    destruct (column sh n_LC3); [|discriminate]. destruct (column sh n_TOF); [|discriminate]. destruct (column sh n_Avinf); [|discriminate]. injection H as <-.
    exists lc. split; [reflexivity|]. cbn [tj_date tj_C3 tj_TOF tj_Avinf]. split; [|auto]. apply all_dates_iff in D. apply F2_len in D. unfold column_strs in D. rewrite map_length in D. auto.
Qed.
Lemma seven : forall z, 1000000 <= z <= 9999999 -> py_int z =
  [digit (z / 1000000); digit (z / 100000 mod 10); digit (z / 10000 mod 10); digit (z / 1000 mod 10); digit (z / 100 mod 10); digit (z / 10 mod 10); digit (z mod 10)].
Proof.
  intros z H. unfold py_int. destruct (Z.ltb_spec z 0); [lia|]. rewrite Z.abs_eq by lia.
  assert (D : Zdigits radix10 z = 7). { apply Zdigits_unique. rewrite Z.abs_eq by lia. change (Zpower radix10 (7 - 1)) with 1000000. change (Zpower radix10 7) with 10000000. lia. }
  rewrite D. change (Nat.max 1 (Z.to_nat 7)) with 7%nat. cbn [digits app]. rewrite !Z.div_div by lia. cbn [Z.mul Pos.mul].
  rewrite (Z.mod_small (z / 1000000)); [reflexivity|]. Z.div_mod_to_equations. lia.
Qed.
(** Without its zeros the eleventh of January is read as the first of November. *)
Theorem C122_unpadded : forall y, 1000 <= y <= 9999 -> parse_date (py_int (1000 * y + 111)) = Some (Some (y, 11, 1)).
Proof.
  intros y H. rewrite seven by lia.
  replace ((1000 * y + 111) / 1000000) with (y / 1000) by (Z.div_mod_to_equations; lia). replace ((1000 * y + 111) / 100000 mod 10) with (y / 100 mod 10) by (Z.div_mod_to_equations; lia).
  replace ((1000 * y + 111) / 10000 mod 10) with (y / 10 mod 10) by (Z.div_mod_to_equations; lia). replace ((1000 * y + 111) / 1000 mod 10) with (y mod 10) by (Z.div_mod_to_equations; lia).
  replace ((1000 * y + 111) / 100 mod 10) with 1 by (Z.div_mod_to_equations; lia). replace ((1000 * y + 111) / 10 mod 10) with 1 by (Z.div_mod_to_equations; lia).
  replace ((1000 * y + 111) mod 10) with 1 by (Z.div_mod_to_equations; lia).
  assert (R : forall k, 0 <= k mod 10 <= 9) by (intros k; pose proof (Z.mod_pos_bound k 10 ltac:(lia)); lia). assert (R0 : 1 <= y / 1000 <= 9) by (Z.div_mod_to_equations; lia).
  destruct (value_digit' (y / 1000) ltac:(lia)) as [V1 D1]. destruct (value_digit' _ (R (y / 100))) as [V2 D2]. destruct (value_digit' _ (R (y / 10))) as [V3 D3]. destruct (value_digit' _ (R y)) as [V4 D4].
  unfold parse_date. rewrite not_a_word by auto. cbn [forallb]. rewrite D1, D2, D3, D4. cbn [andb].
  replace (month_day [digit 1; digit 1; digit 1]) with (Some (11, 1, @nil ascii)) by reflexivity.
  assert (Y : number [digit (y / 1000); digit (y / 100 mod 10); digit (y / 10 mod 10); digit (y mod 10)] = y). { unfold number. cbn [fold_left]. rewrite V1, V2, V3, V4. Z.div_mod_to_equations. lia. }
  rewrite Y. replace (1 <=? y) with true by (symmetry; apply Z.leb_le; lia). reflexivity.
Qed.

(** ** The axis of the plots counts days *)
Lemma before_next : forall y m, 1 <= m <= 11 -> days_before_month y (m + 1) = days_before_month y m + days_in_month y m.
Proof.
  intros y m H. assert (C : m = 1 \/ m = 2 \/ m = 3 \/ m = 4 \/ m = 5 \/ m = 6 \/ m = 7 \/ m = 8 \/ m = 9 \/ m = 10 \/ m = 11) by lia.
  destruct C as [->|[->|[->|[->|[->|[->|[->|[->|[->|[->| ->]]]]]]]]]]; unfold days_before_month; cbn [fold_left Z.add Pos.add Pos.succ Z.ltb Z.compare Pos.compare Pos.compare_cont]; lia.
Qed.
Lemma year_days : forall y, days_before_month y 12 + 31 = if is_leap y then 366 else 365.
Proof. intros y. unfold days_before_month, days_in_month. cbn. destruct (is_leap y); reflexivity. Qed.
Definition year_start (p : Z) : Z := p * 365 + p / 4 - p / 100 + p / 400.
Lemma year_next : forall y, year_start y = year_start (y - 1) + (if is_leap y then 366 else 365).
Proof.
  intros y. unfold year_start, is_leap. assert (Q : forall k, 1 < k -> y / k = (y - 1) / k + (if y mod k =? 0 then 1 else 0)).
  { intros k Hk. destruct (Z.eqb_spec (y mod k) 0) as [E|E].
    - apply Z.mod_divide in E; [|lia]. destruct E as [q ->]. rewrite Z.div_mul by lia. replace (q * k - 1) with ((q - 1) * k + (k - 1)) by ring. rewrite Z.div_add_l, (Z.div_small (k - 1)) by lia. lia.
    - rewrite Z.add_0_r. apply Z.div_unique with (y mod k - 1); [left; pose proof (Z.mod_pos_bound y k); lia|]. pose proof (Z.div_mod y k). lia. }
  rewrite (Q 4), (Q 100), (Q 400) by lia.
  assert (H4 : y mod 100 = 0 -> y mod 4 = 0). { rewrite !Z.mod_divide by lia. intros [q ->]. exists (25 * q). ring. }
  assert (H5 : y mod 400 = 0 -> y mod 100 = 0). { rewrite !Z.mod_divide by lia. intros [q ->]. exists (4 * q). ring. }
  destruct (Z.eqb_spec (y mod 4) 0), (Z.eqb_spec (y mod 100) 0), (Z.eqb_spec (y mod 400) 0); cbn [andb orb negb]; try lia; exfalso; tauto.
Qed.
Lemma date_num_alt : forall y m d, date_num (y, m, d) = year_start (y - 1) + days_before_month y m + d - 719163.
Proof. reflexivity. Qed.
Theorem C122_axis : date_num (1970, 1, 1) = 0 /\ (forall a b, next_day a b -> date_num b = date_num a + 1).
Proof.
  split; [reflexivity|]. intros a b H. destruct H as [y m d n L D|y m n L Hm|y]; rewrite !date_num_alt.
  - lia.
  - apply month_length_iff in L. destruct L as [R ->]. rewrite before_next by lia. lia.
  - replace (y + 1 - 1) with y by ring. rewrite (year_next y), <- year_days. change (days_before_month (y + 1) 1) with 0. lia.
Qed.
Lemma year_mono : forall p n, (0 <= n)%Z -> year_start p <= year_start (p + n).
Proof.
  intros p n Hn. pattern n. apply natlike_ind; [rewrite Z.add_0_r; lia| |exact Hn]. intros k Hk IH. replace (p + Z.succ k) with (p + k + 1) by lia.
  rewrite (year_next (p + k + 1)). replace (p + k + 1 - 1) with (p + k) by ring. destruct (is_leap _); lia.
Qed.
Lemma month_mono : forall y n m, 0 <= n -> 1 <= m -> m + n <= 12 -> days_before_month y m <= days_before_month y (m + n).
Proof.
  intros y n m Hn Hm. pattern n. apply natlike_ind; [rewrite Z.add_0_r; lia| |exact Hn]. intros k Hk IH Hl. replace (m + Z.succ k) with (m + k + 1) by lia.
  rewrite before_next by lia. pose proof (month_days_range y (m + k)). lia.
Qed.
(** Dates are plotted in the order of the calendar. *)
Theorem C122_order : forall y m d y' m' d', calendar (y, m, d) -> calendar (y', m', d') ->
  (date_num (y, m, d) < date_num (y', m', d') <-> y < y' \/ (y = y' /\ (m < m' \/ (m = m' /\ d < d')))).
Proof.
  assert (L : forall y m d y' m' d', calendar (y, m, d) -> calendar (y', m', d') -> y < y' \/ (y = y' /\ (m < m' \/ (m = m' /\ d < d'))) -> date_num (y, m, d) < date_num (y', m', d')).
  { intros y m d y' m' d' (Y & n & L & D) (Y' & n' & L' & D') O. rewrite !date_num_alt. apply month_length_iff in L, L'. destruct L as [M ->], L' as [M' ->].
    assert (E : days_before_month y m + d <= if is_leap y then 366 else 365).
    { rewrite <- year_days. pose proof (month_mono y (12 - m) m ltac:(lia) ltac:(lia) ltac:(lia)) as Q. replace (m + (12 - m)) with 12 in Q by ring.
      destruct (Z.eq_dec m 12) as [->|N]; [change (days_in_month y 12) with 31 in D; lia|].
      pose proof (before_next y m ltac:(lia)). pose proof (month_mono y (11 - m) (m + 1) ltac:(lia) ltac:(lia) ltac:(lia)) as Q2. replace (m + 1 + (11 - m)) with 12 in Q2 by ring. lia. }
    destruct O as [O|[<- [O|[<- O]]]].
    - pose proof (year_next y). pose proof (year_mono y (y' - 1 - y) ltac:(lia)) as Q. replace (y + (y' - 1 - y)) with (y' - 1) in Q by ring.
      pose proof (month_mono y' (m' - 1) 1 ltac:(lia) ltac:(lia) ltac:(lia)) as Q2. replace (1 + (m' - 1)) with m' in Q2 by ring. change (days_before_month y' 1) with 0 in Q2. lia.
    - pose proof (before_next y m ltac:(lia)). pose proof (month_mono y (m' - (m + 1)) (m + 1) ltac:(lia) ltac:(lia) ltac:(lia)) as Q2. replace (m + 1 + (m' - (m + 1))) with m' in Q2 by ring. lia.
    - lia. }
  intros y m d y' m' d' C C'. split; [|apply L; assumption]. intros H.
  destruct (Z.lt_trichotomy y y') as [T|[T|T]]; [left; exact T| |exfalso; pose proof (L y' m' d' y m d C' C ltac:(left; lia)); lia].
  right. split; [exact T|]. destruct (Z.lt_trichotomy m m') as [U|[U|U]]; [left; exact U| |exfalso; pose proof (L y' m' d' y m d C' C ltac:(right; split; [lia|left; lia])); lia].
  right. split; [exact U|]. destruct (Z.lt_trichotomy d d') as [V|[V|V]]; [exact V|subst; lia|exfalso; pose proof (L y' m' d' y m d C' C ltac:(right; split; [lia|right; lia])); lia].
Qed.

(** ** A sheet with two trajectories; with an empty third row *)
Definition sheet_of (lc : list cell) : sheet := [(n_LC3, [CNum 12.5; CInt 30; CInt 8]); (n_Lcdate, lc); (n_TOF, [CInt 11; CInt 12; CInt 9]); (n_Avinf, [CInt 9; CNum 7.5; CInt 6])].
Example C122_witness : let fstr := fun _ : R => ["."%char] in let ds := [(2031, 5, 14); (2032, 2, 29); (2036, 12, 31)] in
  Forall calendar ds /\ map yyyymmdd ds = [20310514; 20320229; 20361231] /\ prints_point fstr /\
  (exists tj, load fstr (sheet_of (map (fun t => CInt (yyyymmdd t)) ds)) = Loaded tj /\ tj_date tj = map Some ds) /\
  load fstr (sheet_of [CInt 20310514; CInt 20320229; CBlank]) = BadDate /\
  load fstr (sheet_of [CInt 20310514; CInt 20310229; CInt 20361231]) = BadDate /\
  load fstr (tl (sheet_of (map (fun t => CInt (yyyymmdd t)) ds))) = KeyError n_LC3 /\
  next_day (2032, 2, 28) (2032, 2, 29) /\ next_day (2032, 2, 29) (2032, 3, 1).
Proof.
  cbv zeta. assert (C : Forall calendar [(2031, 5, 14); (2032, 2, 29); (2036, 12, 31)]) by (constructor; [|constructor; [|constructor; [|constructor]]]; apply ok_date_iff; reflexivity).
  split; [exact C|]. split; [reflexivity|]. split.
  { intros x. split; [|reflexivity]. exists "."%char. split; [left; reflexivity|]. split; [reflexivity|discriminate]. }
  split. { eexists. split; [vm_compute; reflexivity|reflexivity]. }
  split; [vm_compute; reflexivity|]. split; [vm_compute; reflexivity|]. split; [vm_compute; reflexivity|].
  assert (M : month_length 2032 2 29) by (apply month_length_iff; split; [lia|reflexivity]).
  split; [change 29 with (28 + 1); apply SameMonth with 29; [exact M|lia]|]. change 3 with (2 + 1). apply NextMonth; [exact M|lia].
Qed.
