(** Property C109: which clock a transmit schedule is read in, and what the printed link budget adds up to. *)
Require Import Verif.Base Verif.Numpy Verif.NumpyProofs Verif.TelecomModel Verif.TelecomSpec Verif.PropTelecom.

(** * The clock of a schedule *)
(** The flags of a schedule of duration T, used with a visibility whose own clock runs evenly from 0 to Tv with as many
    points: at the visibility's i-th instant t the transmitter counts as on exactly when t * T / Tv is in a window. *)
Theorem C109_schedule_clock : forall T Tv n ws i, (2 <= n)%nat -> (i < n)%nat -> Tv <> 0 ->
  nth i (snd (Schedule T n ws)) false = true <->
  exists w, In w ws /\ in_window (nth i (linspace 0 Tv n) 0 * (T / Tv)) w.
Proof.
  intros T Tv n ws i Hn Hi HT. generalize (C15_schedule T n ws Hn). destruct (Schedule T n ws) as [ts on] eqn:E.
  intros (L1 & L2 & H0 & H1 & Hg & Hon). cbn [snd]. rewrite Hon by auto.
  assert (Et : nth i ts 0 = nth i (linspace 0 Tv n) 0 * (T / Tv)).
  { generalize (C15_schedule Tv n ws Hn). destruct (Schedule Tv n ws) as [tv on'] eqn:E'.
    intros (_ & _ & _ & _ & Hg' & _). assert (Ev : tv = linspace 0 Tv n) by (unfold Schedule in E'; congruence).
    rewrite <- Ev, Hg, Hg' by auto. assert (INR (n - 1) <> 0) by (apply not_0_INR; lia). field. split; auto. }
  rewrite Et. tauto.
Qed.

Definition stretch_window (k : R) (w : R * R) : R * R := (fst w * k, snd w * k).
(** So the data volume is the one of a schedule whose windows are stretched by Tv/T; no error is raised. *)
Theorem C109_windows_are_stretched : forall lk T Tv n ws vis, (2 <= n)%nat -> 0 < T -> 0 < Tv ->
  link_data_volume lk (linspace 0 Tv n, vis) (Schedule T n ws) =
  link_data_volume lk (linspace 0 Tv n, vis) (Schedule Tv n (map (stretch_window (Tv / T)) ws)).
Proof.
  intros lk T Tv n ws vis Hn HT HTv. unfold link_data_volume. cbn [fst snd]. f_equal.
  assert (L : forall T' ws', length (snd (Schedule T' n ws')) = n).
  { intros T' ws'. apply (C15_degenerate T' n ws'). }
  apply nth_ext with (d := false) (d' := false); [rewrite !L; auto|]. intros i Hi. rewrite L in Hi.
  apply eq_iff_eq_true.
  rewrite (C109_schedule_clock T Tv n ws i), (C109_schedule_clock Tv Tv n _ i) by (auto; lra).
  set (t := nth i (linspace 0 Tv n) 0).
  assert (K : forall w, in_window (t * (T / Tv)) w <-> in_window (t * (Tv / Tv)) (stretch_window (Tv / T) w)).
  { intros (a, b). unfold in_window, stretch_window. cbn [fst snd].
    assert (0 < Tv / T) by (apply Rdiv_lt_0_compat; auto).
    replace (t * (Tv / Tv)) with (t * (T / Tv) * (Tv / T)) by (field; lra).
    split; intros (A & B); split.
    - apply Rmult_le_compat_r; lra.
    - apply Rmult_le_compat_r; lra.
    - apply Rmult_le_reg_r with (Tv / T); auto.
    - apply Rmult_le_reg_r with (Tv / T); auto. }
  split.
  - intros (w & Hw & Iw). exists (stretch_window (Tv / T) w). split; [apply in_map; auto|]. apply K; auto.
  - intros (w & Hw & Iw). apply in_map_iff in Hw. destruct Hw as (w0 & <- & Hw0). exists w0. split; auto. apply K; auto.
Qed.

(** The windows mean what they say exactly when the two clocks are the same: for different durations there is
    a schedule (one window) under which some sample counts as on although its time is outside the window. *)
Theorem C109_clock_refuted : forall T Tv n, (2 <= n)%nat -> 0 < T -> 0 < Tv -> T <> Tv ->
  exists w, nth (n - 1) (snd (Schedule T n [w])) false = true /\ ~ in_window (nth (n - 1) (linspace 0 Tv n) 0) w.
Proof.
  intros T Tv n Hn HT HTv Hne. exists (T, T).
  assert (E : nth (n - 1) (linspace 0 Tv n) 0 = Tv).
  { generalize (C15_schedule Tv n [] Hn). unfold Schedule. tauto. }
  split.
  - apply (C109_schedule_clock T Tv n [(T, T)] (n - 1)); auto; try lia; try lra.
    exists (T, T). split; [left; auto|]. rewrite E. unfold in_window; cbn [fst snd].
    replace (Tv * (T / Tv)) with T by (field; lra). lra.
  - rewrite E. unfold in_window; cbn [fst snd]. lra.
Qed.

(** Neither the margin nor the range enters the data volume: links with the same rate download the same. *)
Theorem C109_margin_ignored : forall a a' lk lk' vis sch, Link a = Ok lk -> Link a' = Ok lk' ->
  rate_kbps a = rate_kbps a' -> link_data_volume lk vis sch = link_data_volume lk' vis sch.
Proof.
  assert (K : forall a lk, Link a = Ok lk -> lk_R lk = rate_kbps a * 1e3).
  { intros a lk. unfold Link. destruct (Reqb _ 0); [discriminate|].
    destruct (tx_gain a _) as [gt|]; cbn [rbind]; [|discriminate].
    destruct (rx_gain a _) as [gr|]; cbn [rbind]; [|discriminate].
    destruct gt as [g1|], gr as [g2|]; try discriminate. intros [= <-]. reflexivity. }
  intros a a' lk lk' vis sch H H' E. unfold link_data_volume. rewrite (K _ _ H), (K _ _ H'), E. auto.
Qed.

(** * The printed budget *)
Lemma round2_near : forall x, Rabs (round2 x - x) <= 1 / 200.
Proof.
  intros x. unfold round2. destruct (base_Int_part (100 * x)) as (A & B).
  set (n := Int_part (100 * x)) in *. apply Rabs_le.
  destruct (Rltb_spec (100 * x - IZR n) (1/2)); [lra|].
  destruct (Rltb_spec (1/2) (100 * x - IZR n)); [rewrite plus_IZR; lra|].
  destruct (Z.even n); [|rewrite plus_IZR]; lra.
Qed.
Fixpoint osum (l : list (option R)) : option R :=
  match l with [] => Some 0 | x :: l' => leto a := x in leto b := osum l' in Some (a + b) end.

(** The decibel lines of the printed budget add up to the available Eb/N0 printed below them plus the DSN loss, up to the
    rounding of ten numbers to hundredths: the DSN loss is not printed. *)
Theorem C109_printed_budget : forall a lk e, Link a = Ok lk -> EB_N0 lk = Some e ->
  exists s av, osum (bg_lines (print_link_budget a lk)) = Some s /\ bg_available (print_link_budget a lk) = Some av /\
    Rabs (s - (av + L_DSN_dB a)) <= 1 / 20 /\ Rabs (av - e) <= 1 / 200 /\
    (exists m, bg_margin (print_link_budget a lk) = Some m /\ Rabs (m - (e - bg_required (print_link_budget a lk))) <= 1 / 200) /\
    bg_required (print_link_budget a lk) = Eb_N0_req a.
Proof.
  intros a lk e. unfold Link. destruct (Reqb _ 0); [discriminate|].
  destruct (tx_gain a _) as [gt|]; cbn [rbind]; [|discriminate].
  destruct (rx_gain a _) as [gr|]; cbn [rbind]; [|discriminate].
  destruct gt as [[g1|]|], gr as [[g2|]|]; try discriminate; intros [= <-]; cbn [EB_N0];
    destruct (compute_dB (Pt a)) as [pt|]; cbn [obind]; try discriminate.
  destruct (compute_dB (Ts a)) as [ts|]; cbn [obind]; try discriminate.
  destruct (compute_free_space_loss_dB _ _) as [ls|]; cbn [obind]; try discriminate.
  destruct (compute_dB (rate_kbps a * 1e3)) as [rr|]; cbn [obind]; try discriminate.
  destruct (compute_dB 1.38e-23) as [ka|]; cbn [obind]; try discriminate.
  intros He. injection He as He.
  unfold print_link_budget, round2o, oneg.
  cbn [bg_lines bg_available bg_required bg_margin osum obind lk_Pt_dB lk_Gt_dBi lk_Gr_dBi lk_Ts_dBK lk_Ls_dB lk_Ka_dB lk_R_dBHz EB_N0 EB_N0_margin].
  assert (N := round2_near). do 2 eexists. split; [reflexivity|]. split; [reflexivity|].
  assert (Q : forall x, - (1/200) <= round2 x - x <= 1/200).
  { intros x. generalize (N x). intros K. unfold Rabs in K. destruct (Rcase_abs (round2 x - x)); lra. }
  pose proof (Q pt). pose proof (Q (Lt_dB a)). pose proof (Q (L_sc_dB a)). pose proof (Q g1). pose proof (Q g2).
  pose proof (Q ts). pose proof (Q ls). pose proof (Q (- ka)). pose proof (Q rr).
  rewrite He. pose proof (Q e).
  split; [apply Rabs_le; lra|]. split; [apply N|]. split; [|reflexivity].
  eexists. split; [reflexivity|]. apply N.
Qed.

(** With the default DSN loss of 1 dB the printed lines never add up to the printed total. *)
Theorem C109_printed_sum_refuted : forall a lk e, Link a = Ok lk -> EB_N0 lk = Some e -> 1 / 20 < L_DSN_dB a ->
  osum (bg_lines (print_link_budget a lk)) <> bg_available (print_link_budget a lk).
Proof.
  intros a lk e H He HL. destruct (C109_printed_budget a lk e H He) as (s & av & -> & -> & K & _).
  intros [= ->]. replace (av - (av + L_DSN_dB a)) with (- L_DSN_dB a) in K by ring.
  rewrite Rabs_Ropp in K. unfold Rabs in K. destruct (Rcase_abs (L_DSN_dB a)); lra.
Qed.

(** Example: a link with the default losses prints a budget; a visibility of two rotations with a schedule of one. *)
Example C109_witness :
  (exists lk e, Link example_link = Ok lk /\ EB_N0 lk = Some e /\ 1 / 20 < L_DSN_dB example_link) /\
  snd (Schedule 10 3 [(4, 6)]) = [false; true; false] /\ ~ in_window (nth 1 (linspace 0 20 3) 0) (4, 6).
Proof.
  split.
  - destruct C12_witness as (P & T & G & Q). destruct (C12_link_budget _ _ _ P T G Q) as (lk & H & E & _).
    exists lk. eexists. split; [exact H|]. split; [exact E|]. cbn. lra.
  - split; [apply C15_witness|]. generalize (C15_schedule 20 3 [] ltac:(lia)). unfold Schedule. intros (_ & _ & _ & _ & K & _).
    rewrite K by lia. unfold in_window. cbn [fst snd]. replace (INR 1) with 1 by reflexivity.
    replace (INR (3 - 1)) with 2 by (cbn; lra). lra.
Qed.
