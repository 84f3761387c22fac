(** Properties C12-C16: link budget, schedules, data volume. *)
Require Import Verif.Base Verif.Numpy Verif.NumpyProofs Verif.TelecomModel Verif.TelecomSpec.
From Coq Require Import Permutation.

Lemma ln10_pos : 0 < ln 10.
Proof. rewrite <- ln_1. apply ln_increasing; lra. Qed.
Lemma dB_mult : forall x y, 0 < x -> 0 < y -> dB (x * y) = dB x + dB y.
Proof. intros; unfold dB. rewrite ln_mult; auto. field. generalize ln10_pos; lra. Qed.
Lemma dB_inv : forall x, 0 < x -> dB (/ x) = - dB x.
Proof. intros; unfold dB. rewrite ln_Rinv; auto. field. generalize ln10_pos; lra. Qed.
Lemma dB_div : forall x y, 0 < x -> 0 < y -> dB (x / y) = dB x - dB y.
Proof. intros. unfold Rdiv. rewrite dB_mult, dB_inv; auto. apply Rinv_0_lt_compat; auto. Qed.
Lemma dB_sq : forall x, 0 < x -> dB (x ^ 2) = 2 * dB x.
Proof. intros. replace (x ^ 2) with (x * x) by ring. rewrite dB_mult; auto. ring. Qed.
Lemma dB_incr : forall x y, 0 < x -> x < y -> dB x < dB y.
Proof.
  intros. unfold dB. apply Rmult_lt_compat_l; [lra|]. unfold Rdiv.
  apply Rmult_lt_compat_r; [apply Rinv_0_lt_compat, ln10_pos|apply ln_increasing; auto].
Qed.
Lemma dB_inj : forall x y, 0 < x -> 0 < y -> dB x = dB y -> x = y.
Proof.
  intros x y Hx Hy H. destruct (Rtotal_order x y) as [Hl|[He|Hg]]; auto; exfalso.
  - generalize (dB_incr x y Hx Hl); lra.
  - generalize (dB_incr y x Hy Hg); lra.
Qed.
Lemma dB_from_dB : forall g, dB (from_dB g) = g.
Proof. intros; unfold dB, from_dB, Rpower. rewrite ln_exp. field. generalize ln10_pos; lra. Qed.
Lemma from_dB_pos : forall g, 0 < from_dB g.
Proof. intros; unfold from_dB, Rpower. apply exp_pos. Qed.
Lemma compute_dB_pos : forall x, 0 < x -> compute_dB x = Some (dB x).
Proof. intros; unfold compute_dB. rewrite np_log10_some; auto. Qed.
Lemma free_space_pos : forall d l, 0 < d -> 0 < l ->
  compute_free_space_loss_dB d l = Some (2 * dB (4 * PI * d / l)).
Proof.
  intros. unfold compute_free_space_loss_dB. rewrite np_log10_some.
  - simpl. f_equal. unfold dB. ring.
  - apply Rdiv_lt_0_compat; auto. generalize PI_RGT_0; intros.
    apply Rmult_lt_0_compat; lra.
Qed.

(** All physical parameters positive. *)
Definition physical (a : link_args) : Prop :=
  0 < freq a /\ 0 < Pt a /\ 0 < Ts a /\ 0 < range_km a /\ 0 < rate_kbps a.
(** The transmit gain [g] (a power ratio) results from the arguments: a usable dish, or,
    without one, a given non-zero dBi value. *)
Definition tx_has_gain (a : link_args) (lambda g : R) : Prop :=
  (exists D e, Dt a = Some D /\ eta_t a = Some e /\ D <> 0 /\ 0 < e /\ g = dish_gain e D lambda) \/
  (Dt a = None /\ exists d, Gt_dBi a = Some d /\ d <> 0 /\ g = from_dB d).
(** Same for the receiver, for its own dish. *)
Definition rx_has_gain (a : link_args) (lambda g : R) : Prop :=
  (exists D e, Dr a = Some D /\ eta_r a = Some e /\ D <> 0 /\ 0 < e /\ g = dish_gain e D lambda) \/
  (Dr a = None /\ exists d, Gr_dBi a = Some d /\ d <> 0 /\ g = from_dB d).
Definition losses (a : link_args) : R := Lt_dB a + L_sc_dB a + La_dB a + L_other_dB a + L_DSN_dB a.

Lemma dish_gain_pos : forall e D l, 0 < e -> D <> 0 -> 0 < l -> 0 < dish_gain e D l.
Proof.
  intros e D l He HD Hl. unfold dish_gain. apply Rmult_lt_0_compat; auto.
  replace ((PI * D / l) ^ 2) with (Rsqr (PI * D / l)) by (unfold Rsqr; ring).
  apply Rsqr_pos_lt. unfold Rdiv. generalize PI_neq0; intros.
  apply Rmult_integral_contrapositive_currified; [|apply Rinv_neq_0_compat; lra].
  apply Rmult_integral_contrapositive_currified; auto.
Qed.
Lemma truthy_some : forall x, x <> 0 -> truthy (Some x) = true.
Proof. intros; simpl. destruct (Reqb_spec x 0); auto; contradiction. Qed.
Lemma truthy_true : forall o, truthy o = true <-> exists x, o = Some x /\ x <> 0.
Proof.
  intros [x|]; simpl.
  - destruct (Reqb_spec x 0); simpl; split; intros H; try discriminate; eauto.
    destruct H as (y & E & Hy). inversion E; subst; contradiction.
  - split; [discriminate|]. intros (x & E & _); discriminate.
Qed.

(** * C12 *)
Lemma tx_gain_ok : forall a l g, 0 < l -> tx_has_gain a l g -> 0 < g /\ tx_gain a l = Ok (Some (Some (dB g))).
Proof.
  intros a l g Hl [(D & e & HD & He & Dn & en & ->)|(HD & d & Hd & dn & ->)]; unfold tx_gain.
  - split; [apply dish_gain_pos; auto|]. rewrite HD, He, !truthy_some; try lra; auto. simpl.
    change (compute_antenna_gain e D l) with (dish_gain e D l).
    rewrite compute_dB_pos; auto. apply dish_gain_pos; auto.
  - split; [apply from_dB_pos|]. rewrite HD, Hd, dB_from_dB. simpl. destruct (Reqb_spec d 0); auto; contradiction.
Qed.
Lemma rx_gain_ok : forall a l g, 0 < l -> rx_has_gain a l g -> (Dr a <> None -> Dt a = Dr a) ->
  0 < g /\ rx_gain a l = Ok (Some (Some (dB g))).
Proof.
  intros a l g Hl [(D & e & HD & He & Dn & en & ->)|(HD & d & Hd & dn & ->)] Heq; unfold rx_gain.
  - split; [apply dish_gain_pos; auto|]. rewrite Heq, HD, He, !truthy_some; try lra; auto; [|rewrite HD; discriminate].
    simpl. change (compute_antenna_gain e D l) with (dish_gain e D l).
    rewrite compute_dB_pos; auto. apply dish_gain_pos; auto.
  - split; [apply from_dB_pos|]. rewrite HD, Hd, dB_from_dB. simpl. destruct (Reqb_spec d 0); auto; contradiction.
Qed.

(** With positive parameters, and equal diameters if the receiver is given as a dish, the reported
    Eb/N0 is the textbook ratio in decibels minus the losses. *)
Theorem C12_link_budget : forall a Gt Gr, physical a ->
  let lambda := 3e8 / (freq a * 1e9) in
  tx_has_gain a lambda Gt -> rx_has_gain a lambda Gr -> (Dr a <> None -> Dt a = Dr a) ->
  exists lk, Link a = Ok lk /\
    EB_N0 lk = Some (dB (eb_over_n0 (Pt a) Gt Gr lambda (range_km a * 1000) (Ts a) (rate_kbps a * 1000)) - losses a) /\
    EB_N0_margin lk = Some (dB (eb_over_n0 (Pt a) Gt Gr lambda (range_km a * 1000) (Ts a) (rate_kbps a * 1000))
                            - losses a - Eb_N0_req a) /\
    lk_R lk = rate_kbps a * 1000.
Proof.
  intros a Gt Gr (Hf & HP & HT & Hd & HR) lambda Ht Hr Heq.
  assert (Hl : 0 < lambda) by (apply Rdiv_lt_0_compat; lra).
  destruct (tx_gain_ok _ _ _ Hl Ht) as (Gtp & Et). destruct (rx_gain_ok _ _ _ Hl Hr Heq) as (Grp & Er).
  unfold Link. destruct (Reqb_spec (freq a * 1e9) 0); [lra|]. fold lambda. rewrite Et, Er.
  cbn [rbind]. generalize PI_RGT_0; intros HPI.
  assert (Hfs : 0 < 4 * PI * (range_km a * 1000) / lambda).
  { apply Rdiv_lt_0_compat; auto. apply Rmult_lt_0_compat; lra. }
  rewrite (compute_dB_pos (Pt a)), (compute_dB_pos (Ts a)), (compute_dB_pos (rate_kbps a * 1e3)),
    (compute_dB_pos 1.38e-23), free_space_pos; try lra.
  assert (E : dB (eb_over_n0 (Pt a) Gt Gr lambda (range_km a * 1000) (Ts a) (rate_kbps a * 1000)) =
    dB (Pt a) + dB Gt + dB Gr - 2 * dB (4 * PI * (range_km a * 1000) / lambda) - dB (1.38e-23) - dB (Ts a) - dB (rate_kbps a * 1e3)).
  { replace (rate_kbps a * 1e3) with (rate_kbps a * 1000) by lra.
    assert (0 < rate_kbps a * 1000) by lra. generalize dependent (rate_kbps a * 1000). intros rt Hrt. unfold eb_over_n0, boltzmann.
    assert (Hkb : 0 < 1.38e-23) by lra. generalize dependent (1.38e-23). intros kb Hkb.
    replace (lambda / (4 * PI * (range_km a * 1000))) with (/ (4 * PI * (range_km a * 1000) / lambda))
      by (field; repeat split; lra).
    rewrite dB_div, !dB_mult, dB_sq, dB_inv; auto; try lra;
      repeat apply Rmult_lt_0_compat; auto; try lra; try (apply Rinv_0_lt_compat; auto);
      try (apply pow_lt, Rinv_0_lt_compat; auto).
  }
  eexists; split; [reflexivity|]. cbn [EB_N0 EB_N0_margin obind lk_R].
  rewrite E. unfold losses. replace (range_km a * 1e3) with (range_km a * 1000) by lra.
  repeat split; try (f_equal; lra).
Qed.

(** Consequences for any two links that differ in one parameter. *)
Definition with_range a x := mkLinkArgs (freq a) (Pt a) (Ts a) x (L_other_dB a) (rate_kbps a) (Eb_N0_req a)
  (Dt a) (eta_t a) (Gt_dBi a) (Dr a) (eta_r a) (Gr_dBi a) (Lt_dB a) (L_sc_dB a) (La_dB a) (L_DSN_dB a).
Definition with_rate a x := mkLinkArgs (freq a) (Pt a) (Ts a) (range_km a) (L_other_dB a) x (Eb_N0_req a)
  (Dt a) (eta_t a) (Gt_dBi a) (Dr a) (eta_r a) (Gr_dBi a) (Lt_dB a) (L_sc_dB a) (La_dB a) (L_DSN_dB a).
Definition with_Ts a x := mkLinkArgs (freq a) (Pt a) x (range_km a) (L_other_dB a) (rate_kbps a) (Eb_N0_req a)
  (Dt a) (eta_t a) (Gt_dBi a) (Dr a) (eta_r a) (Gr_dBi a) (Lt_dB a) (L_sc_dB a) (La_dB a) (L_DSN_dB a).
Definition with_Pt a x := mkLinkArgs (freq a) x (Ts a) (range_km a) (L_other_dB a) (rate_kbps a) (Eb_N0_req a)
  (Dt a) (eta_t a) (Gt_dBi a) (Dr a) (eta_r a) (Gr_dBi a) (Lt_dB a) (L_sc_dB a) (La_dB a) (L_DSN_dB a).

(** The margin of a link, when construction succeeds with finite numbers. *)
Definition margin (a : link_args) (m : R) : Prop := exists lk, Link a = Ok lk /\ EB_N0_margin lk = Some m.

Theorem C12_margin_trends : forall a Gt Gr, physical a ->
  let lambda := 3e8 / (freq a * 1e9) in
  tx_has_gain a lambda Gt -> rx_has_gain a lambda Gr -> (Dr a <> None -> Dt a = Dr a) ->
  exists m, margin a m /\
    margin (with_range a (2 * range_km a)) (m - 20 * (ln 2 / ln 10)) /\
    margin (with_rate a (2 * rate_kbps a)) (m - 10 * (ln 2 / ln 10)) /\
    (forall x, range_km a < x -> exists m', margin (with_range a x) m' /\ m' < m) /\
    (forall x, rate_kbps a < x -> exists m', margin (with_rate a x) m' /\ m' < m) /\
    (forall x, Ts a < x -> exists m', margin (with_Ts a x) m' /\ m' < m) /\
    (forall x, Pt a < x -> exists m', margin (with_Pt a x) m' /\ m < m').
Proof.
  intros a Gt Gr Hph lambda Ht Hr Heq. pose proof Hph as (Hf & HP & HT & Hd & HR).
  assert (Hl : 0 < lambda) by (apply Rdiv_lt_0_compat; lra).
  destruct (tx_gain_ok _ _ _ Hl Ht) as (Gtp & _). destruct (rx_gain_ok _ _ _ Hl Hr Heq) as (Grp & _).
  generalize PI_RGT_0; intros HPI.
  set (k := Gt * Gr * (lambda / (4 * PI)) ^ 2 / boltzmann).
  assert (Hb : 0 < boltzmann) by (unfold boltzmann; lra).
  assert (Hk : 0 < k).
  { unfold k. pos. }
  assert (Hform : forall P d T r, 0 < P -> 0 < d -> 0 < T -> 0 < r ->
    dB (eb_over_n0 P Gt Gr lambda (d * 1000) T (r * 1000)) = dB k + dB P - 2 * dB (d * 1000) - dB T - dB (r * 1000)).
  { intros P d T r H1 H2 H3 H4.
    replace (eb_over_n0 P Gt Gr lambda (d * 1000) T (r * 1000)) with (k * P / ((d * 1000) ^ 2) / T / (r * 1000)).
    - rewrite !dB_div, dB_mult, dB_sq; auto; pos.
    - unfold eb_over_n0, k. field. repeat split; lra. }
  destruct (C12_link_budget a Gt Gr Hph Ht Hr Heq) as (lk & E & _ & Em & _). fold lambda in Em.
  rewrite Hform in Em; auto. eexists; split; [exists lk; split; eauto|].
  assert (M : forall b, physical b -> freq b = freq a -> Dt b = Dt a -> eta_t b = eta_t a -> Gt_dBi b = Gt_dBi a ->
    Dr b = Dr a -> eta_r b = eta_r a -> Gr_dBi b = Gr_dBi a -> losses b = losses a -> Eb_N0_req b = Eb_N0_req a ->
    margin b (dB k + dB (Pt b) - 2 * dB (range_km b * 1000) - dB (Ts b) - dB (rate_kbps b * 1000) - losses a - Eb_N0_req a)).
  { intros b Hb' Ef e1 e2 e3 e4 e5 e6 el eq. pose proof Hb' as (Hf' & HP' & HT' & Hd' & HR').
    destruct (C12_link_budget b Gt Gr Hb') as (lk' & E' & _ & Em' & _).
    - rewrite Ef. fold lambda. unfold tx_has_gain in *. rewrite e1, e2, e3. auto.
    - rewrite Ef. fold lambda. unfold rx_has_gain in *. rewrite e4, e5, e6. auto.
    - rewrite e1, e4; auto.
    - exists lk'. split; auto. rewrite Em', Ef. fold lambda. rewrite Hform; auto. rewrite el, eq. auto. }
  assert (Hc : forall b m m', m = m' -> margin b m -> margin b m') by (intros; subst; auto).
  split; [|split; [|split; [|split; [|split]]]].
  - eapply Hc; [|apply M]; try reflexivity; simpl.
    + replace (2 * range_km a * 1000) with (2 * (range_km a * 1000)) by ring. rewrite (dB_mult 2); try lra.
      assert (E2 : dB 2 = 10 * (ln 2 / ln 10)) by reflexivity. lra.
    + unfold physical; simpl; lra.
  - eapply Hc; [|apply M]; try reflexivity; simpl.
    + replace (2 * rate_kbps a * 1000) with (2 * (rate_kbps a * 1000)) by ring. rewrite (dB_mult 2); try lra.
      assert (E2 : dB 2 = 10 * (ln 2 / ln 10)) by reflexivity. lra.
    + unfold physical; simpl; lra.
  - intros x Hx. eexists; split; [apply M; try reflexivity; unfold physical; simpl; lra|]. simpl.
    assert (dB (range_km a * 1000) < dB (x * 1000)) by (apply dB_incr; lra). lra.
  - intros x Hx. eexists; split; [apply M; try reflexivity; unfold physical; simpl; lra|]. simpl.
    assert (dB (rate_kbps a * 1000) < dB (x * 1000)) by (apply dB_incr; lra). lra.
  - intros x Hx. eexists; split; [apply M; try reflexivity; unfold physical; simpl; lra|]. simpl.
    assert (dB (Ts a) < dB x) by (apply dB_incr; lra). lra.
  - intros x Hx. eexists; split; [apply M; try reflexivity; unfold physical; simpl; lra|]. simpl.
    assert (dB (Pt a) < dB x) by (apply dB_incr; lra). lra.
Qed.

Definition example_link := mkLinkArgs 8.4 100 120 1e6 0 10 3
  (Some 3) (Some 0.6) None None None (Some 70) 1 0.2 0.35 1.
Example C12_witness : physical example_link /\
  tx_has_gain example_link (3e8 / (freq example_link * 1e9)) (dish_gain 0.6 3 (3e8 / (freq example_link * 1e9))) /\
  rx_has_gain example_link (3e8 / (freq example_link * 1e9)) (from_dB 70) /\
  (Dr example_link <> None -> Dt example_link = Dr example_link).
Proof.
  unfold physical, tx_has_gain, rx_has_gain, example_link; simpl. repeat split; try lra.
  - left. exists 3, 0.6. repeat split; auto; lra.
  - right. split; auto. exists 70. repeat split; auto; lra.
  - congruence.
Qed.

(** * C13 *)
Definition with_Dr a x := mkLinkArgs (freq a) (Pt a) (Ts a) (range_km a) (L_other_dB a) (rate_kbps a) (Eb_N0_req a)
  (Dt a) (eta_t a) (Gt_dBi a) x (eta_r a) (Gr_dBi a) (Lt_dB a) (L_sc_dB a) (La_dB a) (L_DSN_dB a).

(** Any two non-zero receiver diameters give the same link. *)
Theorem C13_receiver_diameter_unused : forall a D1 D2, D1 <> 0 -> D2 <> 0 ->
  Link (with_Dr a (Some D1)) = Link (with_Dr a (Some D2)).
Proof.
  intros a D1 D2 H1 H2. unfold Link, tx_gain, rx_gain, with_Dr; simpl.
  destruct (Reqb_spec D1 0); [contradiction|]. destruct (Reqb_spec D2 0); [contradiction|]. reflexivity.
Qed.

(** When both ends are dishes, the receiver gain is the one of its own dish exactly when the two
    diameters have the same square. *)
Theorem C13_receiver_gain : forall a lk D D' e, physical a -> Dt a = Some D -> Dr a = Some D' -> eta_r a = Some e ->
  D <> 0 -> D' <> 0 -> 0 < e -> Link a = Ok lk ->
  let lambda := 3e8 / (freq a * 1e9) in
  lk_Gr_dBi lk = Some (dB (dish_gain e D lambda)) /\
  (lk_Gr_dBi lk = Some (dB (dish_gain e D' lambda)) <-> D ^ 2 = D' ^ 2).
Proof.
  intros a lk D D' e Hph HD HD' He Dn Dn' en HL lambda. pose proof Hph as (Hf & _).
  assert (Hl : 0 < lambda) by (apply Rdiv_lt_0_compat; lra).
  assert (Hg : lk_Gr_dBi lk = Some (dB (dish_gain e D lambda))).
  { unfold Link in HL. destruct (Reqb_spec (freq a * 1e9) 0); [discriminate|]. fold lambda in HL.
    assert (Er : rx_gain a lambda = Ok (Some (Some (dB (dish_gain e D lambda))))).
    { unfold rx_gain. rewrite HD', He, !truthy_some; auto; try lra. rewrite HD. simpl.
      change (compute_antenna_gain e D lambda) with (dish_gain e D lambda).
      rewrite compute_dB_pos; auto. apply dish_gain_pos; auto. }
    rewrite Er in HL. destruct (tx_gain a lambda) as [[gt|]|]; simpl in HL; try discriminate.
    inversion HL; reflexivity. }
  split; auto. rewrite Hg. split.
  - intros E. inversion E as [E']. fold (dB (dish_gain e D lambda)) in *.
    assert (dB (dish_gain e D lambda) = dB (dish_gain e D' lambda)) by congruence.
    apply dB_inj in H; try (apply dish_gain_pos; auto). unfold dish_gain in H.
    apply Rmult_eq_reg_l in H; [|lra].
    replace ((PI * D / lambda) ^ 2) with ((PI / lambda) ^ 2 * D ^ 2) in H by (field; lra).
    replace ((PI * D' / lambda) ^ 2) with ((PI / lambda) ^ 2 * D' ^ 2) in H by (field; lra).
    apply Rmult_eq_reg_l in H; auto. apply pow_nonzero. unfold Rdiv.
    apply Rmult_integral_contrapositive_currified; [apply PI_neq0|apply Rinv_neq_0_compat; lra].
  - intros E. do 2 f_equal. unfold dish_gain. f_equal.
    replace ((PI * D / lambda) ^ 2) with ((PI / lambda) ^ 2 * D ^ 2) by (field; lra).
    replace ((PI * D' / lambda) ^ 2) with ((PI / lambda) ^ 2 * D' ^ 2) by (field; lra).
    rewrite E; auto.
Qed.
Definition example_link2 := mkLinkArgs 8.4 100 120 1e6 0 10 3
  (Some 3) (Some 0.6) None (Some 34) (Some 0.7) None 1 0.2 0.35 1.
Example C13_witness : physical example_link2 /\ exists lk, Link example_link2 = Ok lk.
Proof.
  split; [unfold physical, example_link2; simpl; repeat split; lra|].
  unfold Link, tx_gain, rx_gain, example_link2; simpl. rcases; try lra; simpl. eexists; reflexivity.
Qed.

(** * C14 *)
Definition nonzero (o : option R) : Prop := exists x, o = Some x /\ x <> 0.
Theorem C14_link_fails_exactly_when : forall a, freq a <> 0 ->
  let tx_ok := (nonzero (Dt a) /\ nonzero (eta_t a)) \/ nonzero (Gt_dBi a) in
  let rx_dish := nonzero (Dr a) /\ nonzero (eta_r a) in
  let rx_ok := rx_dish \/ nonzero (Gr_dBi a) in
  (Link a = Err TypeError <-> rx_dish /\ Dt a = None) /\
  (Link a = Err AttributeError <-> (~ tx_ok \/ ~ rx_ok) /\ ~ (rx_dish /\ Dt a = None)) /\
  ((exists lk, Link a = Ok lk) <-> tx_ok /\ rx_ok /\ ~ (rx_dish /\ Dt a = None)).
Proof.
  intros a Hf tx_ok rx_dish rx_ok. unfold Link. destruct (Reqb_spec (freq a * 1e9) 0); [lra|].
  set (wl := 3e8 / (freq a * 1e9)).
  assert (Htx : (tx_ok /\ exists g, tx_gain a wl = Ok (Some g)) \/ (~ tx_ok /\ tx_gain a wl = Ok None)).
  { unfold tx_ok, nonzero, tx_gain. rewrite <- !truthy_true.
    destruct (truthy (Dt a)) eqn:E1, (truthy (eta_t a)) eqn:E2, (truthy (Gt_dBi a)) eqn:E3; simpl;
    try (right; split; [intuition discriminate|reflexivity]); left; (split; [tauto|]); eauto;
    apply truthy_true in E1; apply truthy_true in E2; destruct E1 as (? & -> & _), E2 as (? & -> & _); eauto. }
  assert (Hrx : (rx_dish /\ Dt a = None /\ rx_gain a wl = Err TypeError) \/
                (rx_ok /\ ~ (rx_dish /\ Dt a = None) /\ exists g, rx_gain a wl = Ok (Some g)) \/
                (~ rx_ok /\ rx_gain a wl = Ok None)).
  { unfold rx_ok, rx_dish, nonzero, rx_gain. rewrite <- !truthy_true.
    destruct (truthy (Dr a)) eqn:E1, (truthy (eta_r a)) eqn:E2; simpl.
    - apply truthy_true in E2; destruct E2 as (? & -> & _). destruct (Dt a).
      + right; left. split; [tauto|]. split; [intros [_ H]; discriminate|eauto].
      + left; auto.
    - destruct (truthy (Gr_dBi a)) eqn:E3.
      + right; left. split; [tauto|]. split; [intuition discriminate|eauto].
      + right; right. split; [intuition discriminate|auto].
    - destruct (truthy (Gr_dBi a)) eqn:E3.
      + right; left. split; [tauto|]. split; [intuition discriminate|eauto].
      + right; right. split; [intuition discriminate|auto].
    - destruct (truthy (Gr_dBi a)) eqn:E3.
      + right; left. split; [tauto|]. split; [intuition discriminate|eauto].
      + right; right. split; [intuition discriminate|auto]. }
  assert (Hd : rx_dish -> rx_ok) by (unfold rx_ok; tauto).
  clearbody tx_ok rx_ok rx_dish.
  destruct Htx as [(T & g & ->)|(T & ->)]; destruct Hrx as [(D1 & D2 & ->)|[(R1 & R2 & r & ->)|(R1 & ->)]];
  cbn [rbind]; repeat split; intros; try discriminate; try tauto; eauto;
  match goal with H : exists _, _ |- _ => destruct H; discriminate | _ => idtac end.
Qed.

(** A legitimate 0 dBi antenna at either end is rejected. *)
Theorem C14_isotropic_rejected_refuted : forall a, freq a <> 0 -> Dt a = None -> Dr a = None ->
  Gt_dBi a = Some 0 \/ Gr_dBi a = Some 0 -> Link a = Err AttributeError.
Proof.
  intros a Hf Ht Hr HG. apply C14_link_fails_exactly_when; auto.
  assert (N : ~ nonzero None) by (intros (x & E & _); discriminate).
  assert (Z : ~ nonzero (Some 0)) by (intros (x & E & Hx); inversion E; subst; lra).
  rewrite Ht, Hr. split; [|tauto]. destruct HG as [->| ->]; [left|right]; tauto.
Qed.
Example C14_witness : freq example_link <> 0.
Proof. simpl; lra. Qed.

(** * C15 *)
Lemma scan_spec : forall ws t cur, scan_windows ws t cur = true <->
  (ws = [] /\ cur = true) \/ exists w, In w ws /\ in_window t w.
Proof.
  induction ws as [|[x y] ws IH]; intros t cur; simpl.
  - split; intros H; [left; auto|]. destruct H as [[_ H]|(w & [] & _)]; auto.
  - destruct (Rleb_spec x t), (Rleb_spec t y); simpl;
    try (rewrite IH; split;
      [intros [[-> H]|(w & Hw & H)]; [discriminate|right; exists w; auto]
      |intros [[E _]|(w & [<-|Hw] & H)]; [discriminate|unfold in_window in H; simpl in H; lra|right; exists w; auto]]).
    split; auto. intros _. right. exists (x, y). split; auto. split; auto.
Qed.

Theorem C15_schedule : forall T n ws, (2 <= n)%nat ->
  let '(ts, on) := Schedule T n ws in
  length ts = n /\ length on = n /\ nth 0 ts 0 = 0 /\ nth (n - 1) ts 0 = T /\
  (forall i, (i < n)%nat -> nth i ts 0 = INR i * (T / INR (n - 1))) /\
  (forall i, (i < n)%nat -> (nth i on false = true <-> exists w, In w ws /\ in_window (nth i ts 0) w)).
Proof.
  intros T n ws Hn. unfold Schedule. rewrite map_length, linspace_length.
  assert (Hgrid : forall i, (i < n)%nat -> nth i (linspace 0 T n) 0 = INR i * (T / INR (n - 1))).
  { intros i Hi. rewrite linspace_nth; auto. rewrite Rminus_0_r. ring. }
  assert (Hn1 : INR (n - 1) <> 0) by (apply not_0_INR; lia).
  repeat split; auto.
  - rewrite Hgrid; [simpl; ring|lia].
  - rewrite Hgrid; [field; auto|lia].
  - intros H0. rewrite (nth_indep _ false (scan_windows ws 0 false)) in H0 by (rewrite map_length, linspace_length; auto).
    rewrite (map_nth (fun t => scan_windows ws t false)) in H0. apply scan_spec in H0. destruct H0 as [[_ H0]|H0]; [discriminate|auto].
  - intros H0. rewrite (nth_indep _ false (scan_windows ws 0 false)) by (rewrite map_length, linspace_length; auto).
    rewrite (map_nth (fun t => scan_windows ws t false)). apply scan_spec. auto.
Qed.

(** Order, repetition and overlap of windows do not matter: only the set of covered times does. *)
Theorem C15_window_order_irrelevant : forall T n ws ws',
  (forall t, (exists w, In w ws /\ in_window t w) <-> (exists w, In w ws' /\ in_window t w)) ->
  Schedule T n ws = Schedule T n ws'.
Proof.
  intros T n ws ws' H. unfold Schedule. f_equal. apply map_ext. intros t.
  apply eq_true_iff_eq. rewrite !scan_spec. specialize (H t).
  split; intros [[_ E]|E]; try discriminate; right; tauto.
Qed.
Theorem C15_permutation : forall T n ws ws', Permutation ws ws' -> Schedule T n ws = Schedule T n ws'.
Proof.
  intros. apply C15_window_order_irrelevant. intros t. split; intros (w & Hw & Hin); exists w; split; auto.
  - eapply Permutation_in; eauto.
  - eapply Permutation_in; [apply Permutation_sym|]; eauto.
Qed.
(** With no window, or a single grid point. *)
Theorem C15_degenerate : forall T n ws, (forall t, scan_windows [] t false = false) /\
  length (fst (Schedule T n ws)) = n /\ length (snd (Schedule T n ws)) = n /\ fst (Schedule T 1 ws) = [0].
Proof. intros; simpl. rewrite map_length, linspace_length. auto. Qed.
Example C15_witness : snd (Schedule 10 3 [(4, 6)]) = [false; true; false].
Proof. unfold Schedule; simpl. rcases; simpl; auto; lra. Qed.

(** * C16 *)
(** The link is on at sample i; a schedule or a visibility record of a single sample counts for every sample. *)
Definition flag (l : list bool) (i : nat) : bool := if Nat.eqb (length l) 1 then nth 0 l false else nth i l false.
Definition on_at (vis tx : list bool) (i : nat) : Prop := flag vis i = true /\ flag tx i = true.

Lemma bits_length : forall l m, length l = length m -> length (bits l m) = length l.
Proof. induction l; destruct m; simpl; intros; auto; discriminate. Qed.
Lemma bits_nth : forall l m i, length l = length m ->
  nth i (bits l m) 0 = b2R (nth i l false && nth i m false).
Proof.
  induction l as [|a l IH]; destruct m as [|b m]; simpl; intros i H; try discriminate; [destruct i; auto|].
  destruct i; [destruct a, b; simpl; lra|]. apply IH; auto.
Qed.

Lemma stretch_length : forall l n, length (stretch l n) = if Nat.eqb (length l) 1 then n else length l.
Proof. intros [|b [|c l]] n; cbn [stretch length Nat.eqb]; auto. apply repeat_length. Qed.
Lemma stretch_nth : forall l n i, (i < length (stretch l n))%nat -> nth i (stretch l n) false = flag l i.
Proof.
  intros [|b [|c l]] n i H; cbn [stretch length Nat.eqb] in *; auto. unfold flag. cbn [length Nat.eqb nth].
  rewrite repeat_length in H. apply (repeat_spec n b). apply nth_In. rewrite repeat_length. auto.
Qed.
Theorem C16_data_volume : forall rate ts vis tx v, 0 <= rate ->
  compute_data_volume rate ts vis tx = Ok v ->
  (forall i, (S i < length ts)%nat -> nth i ts 0 <= nth (S i) ts 0) ->
  length v = length ts /\ nth 0 v 0 = 0 /\
  (forall i j, (i <= j)%nat -> (j < length ts)%nat ->
     0 <= nth j v 0 - nth i v 0 <= rate * (nth j ts 0 - nth i ts 0)) /\
  (forall i j, (i <= j)%nat -> (j < length ts)%nat ->
     (forall k, (i <= k <= j)%nat -> on_at vis tx k) ->
     nth j v 0 - nth i v 0 = rate * (nth j ts 0 - nth i ts 0)) /\
  (forall i j, (i <= j)%nat -> (j < length ts)%nat ->
     (forall k, (i <= k <= j)%nat -> ~ on_at vis tx k) -> nth j v 0 = nth i v 0) /\
  (forall i, (S i < length ts)%nat -> on_at vis tx i -> ~ on_at vis tx (S i) ->
     nth (S i) v 0 - nth i v 0 = rate * (nth (S i) ts 0 - nth i ts 0) / 2).
Proof.
  intros rate ts vis tx v Hr Hv Hts. unfold compute_data_volume in Hv. cbv zeta in Hv.
  set (w := stretch vis (length tx)) in *. set (u := stretch tx (length vis)) in *.
  destruct (Nat.eqb_spec (length w) (length u)) as [Hl|]; simpl in Hv; [|discriminate].
  destruct (cumtrapz_spec _ _ _ Hv) as (A & B & C & D).
  rewrite map_length, bits_length in A, B, D; auto. rewrite B in A, D.
  assert (Hy : forall i, (i < length ts)%nat -> nth i (map (fun x => rate * x) (bits w u)) 0 = rate * b2R (flag vis i && flag tx i)).
  { intros i Hi. replace 0 with (rate * 0) at 1 by ring. rewrite (map_nth (fun x => rate * x)), bits_nth; auto.
    unfold w, u. rewrite !stretch_nth; auto; fold w; fold u; lia. }
  assert (Hon : forall i, on_at vis tx i -> b2R (flag vis i && flag tx i) = 1).
  { intros i [-> ->]. reflexivity. }
  assert (Hoff : forall i, ~ on_at vis tx i -> b2R (flag vis i && flag tx i) = 0).
  { intros i Hn. unfold on_at in Hn. destruct (flag vis i), (flag tx i); simpl; auto. exfalso; auto. }
  assert (Hb : forall i, 0 <= b2R (flag vis i && flag tx i) <= 1).
  { intros i. destruct (flag vis i && flag tx i); simpl; lra. }
  assert (Hstep : forall i, (S i < length ts)%nat -> nth (S i) v 0 - nth i v 0 =
     rate * (nth (S i) ts 0 - nth i ts 0) * (b2R (flag vis i && flag tx i) + b2R (flag vis (S i) && flag tx (S i))) / 2).
  { intros i Hi. rewrite D, !Hy by lia. lra. }
  split; [auto|]. split; [auto|]. split; [|split; [|split]].
  - intros i j Hij Hj. split.
    + assert (G : nth i v 0 - nth j v 0 <= 0); [|lra].
      clear -Hij Hj Hstep Hts Hb Hr. induction Hij; [lra|].
      specialize (IHHij ltac:(lia)). specialize (Hstep m Hj). specialize (Hts m Hj).
      pose proof (Hb m). pose proof (Hb (S m)).
      assert (0 <= rate * (nth (S m) ts 0 - nth m ts 0)) by (apply Rmult_le_pos; lra).
      assert (0 <= nth (S m) v 0 - nth m v 0); [|lra]. rewrite Hstep.
      apply Rmult_le_pos; [|lra]. apply Rmult_le_pos; lra.
    + clear -Hij Hj Hstep Hts Hb Hr. induction Hij; [lra|].
      specialize (IHHij ltac:(lia)). specialize (Hstep m Hj). specialize (Hts m Hj).
      pose proof (Hb m). pose proof (Hb (S m)).
      assert (0 <= rate * (nth (S m) ts 0 - nth m ts 0)) by (apply Rmult_le_pos; lra).
      assert (nth (S m) v 0 - nth m v 0 <= rate * (nth (S m) ts 0 - nth m ts 0)); [|lra]. rewrite Hstep.
      set (q := rate * (nth (S m) ts 0 - nth m ts 0)) in *. nra.
  - intros i j Hij Hj Hk. induction Hij; [lra|].
    assert (IH : nth m v 0 - nth i v 0 = rate * (nth m ts 0 - nth i ts 0)) by (apply IHHij; [lia|intros; apply Hk; lia]).
    specialize (Hstep m Hj). rewrite !Hon in Hstep by (apply Hk; lia). lra.
  - intros i j Hij Hj Hk. induction Hij; [lra|].
    assert (IH : nth m v 0 = nth i v 0) by (apply IHHij; [lia|intros; apply Hk; lia]).
    specialize (Hstep m Hj). rewrite !Hoff in Hstep by (apply Hk; lia). lra.
  - intros i Hi H1 H2. rewrite Hstep, Hon, Hoff; auto. lra.
Qed.
Example C16_witness : exists v, compute_data_volume 10 [0; 1; 2] [true; true; false] [true; true; true] = Ok v /\ v = [0; 10; 15].
Proof.
  unfold compute_data_volume; simpl. destruct (Reqb_spec 0 0); simpl; [|lra]. eexists; split; [reflexivity|].
  repeat f_equal; lra.
Qed.
Example C16_one_sample : exists v, compute_data_volume 10 [0; 1; 2] [true; true; false] [true] = Ok v /\ v = [0; 10; 15].
Proof.
  unfold compute_data_volume; simpl. destruct (Reqb_spec 0 0); simpl; [|lra]. eexists; split; [reflexivity|].
  repeat f_equal; lra.
Qed.
(** It fails exactly on empty or mismatching arrays. *)
Theorem C16_defined : forall rate ts vis tx,
  (exists v, compute_data_volume rate ts vis tx = Ok v) <->
  ts <> [] /\ (length vis = length ts \/ length vis = 1%nat) /\ (length tx = length ts \/ length tx = 1%nat) /\
  (length vis = length ts \/ length tx = length ts).
Proof.
  intros. unfold compute_data_volume. cbv zeta. set (w := stretch vis (length tx)). set (u := stretch tx (length vis)).
  assert (Lw : length w = if Nat.eqb (length vis) 1 then length tx else length vis) by apply stretch_length.
  assert (Lu : length u = if Nat.eqb (length tx) 1 then length vis else length tx) by apply stretch_length.
  assert (K : forall (l : list R), l <> [] <-> (length l <> 0)%nat) by (intros [|? ?]; cbn [length]; split; intros; congruence || lia).
  destruct (Nat.eqb_spec (length w) (length u)) as [Hl|Hl]; simpl.
  - split.
    + intros (v & Hv). apply cumtrapz_ok in Hv. rewrite map_length, bits_length in Hv; auto.
      destruct Hv as (A & _ & C). rewrite K in C |- *. rewrite map_length, bits_length in C by auto.
      destruct (Nat.eqb_spec (length vis) 1), (Nat.eqb_spec (length tx) 1); lia.
    + intros (A & B). rewrite K in A. apply cumtrapz_total.
      * rewrite K, map_length, bits_length; auto. destruct (Nat.eqb_spec (length vis) 1), (Nat.eqb_spec (length tx) 1); lia.
      * rewrite map_length, bits_length; auto. destruct (Nat.eqb_spec (length vis) 1), (Nat.eqb_spec (length tx) 1); lia.
  - split; [intros (v & Hv); discriminate|]. intros (A & B). exfalso. apply Hl. destruct (Nat.eqb_spec (length vis) 1), (Nat.eqb_spec (length tx) 1); lia.
Qed.
(** Whatever the reason, the error is a ValueError. *)
Theorem C16_error : forall rate ts vis tx e, compute_data_volume rate ts vis tx = Err e -> e = ValueError.
Proof.
  intros rate ts vis tx e. unfold compute_data_volume. cbv zeta. destruct (negb _); [intros H; injection H as <-; reflexivity|].
  unfold cumtrapz. destruct (map _ _) as [|y ys], ts as [|x xs]; try (intros H; injection H as <-; reflexivity).
  destruct (negb _); [intros H; injection H as <-; reflexivity|]. destruct (negb _); [intros H; injection H as <-; reflexivity|]. discriminate.
Qed.
