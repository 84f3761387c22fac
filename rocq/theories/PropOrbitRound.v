(** C119: the orbit reported at atmospheric exit, in rounded arithmetic. *)
From Coq Require Import Lra Lia.
Require Import Verif.Base Verif.PlanetModel Verif.OrbitScalarModel Verif.OrbiterModel Verif.OrbitModel Verif.RunningSpec Verif.OrbitRoundModel Verif.OrbitRoundSpec.
Local Open Scope R_scope.

(** ** Without rounding this is the model of the other properties *)
Theorem C119_exact : forall p r v g, r <> 0 -> GM p <> 0 ->
  let id := fun x : R => x in let sq := fun x => x * x in
  computeEnergyScalar p r v = Some (energy_r id sq (GM p) r v) /\
  (forall E, computeSemiMajorAxisScalar p E = sma_r id (GM p) E) /\
  computeAngMomScalar r v g = angmom_r id r v (cos g) /\
  (forall h E, computeEccScalar p h E = ecc_r id sq (GM p) h E).
Proof.
  intros p r v g Hr Hg. cbv zeta. split; [|split; [|split]].
  - unfold computeEnergyScalar, energy_r, np_div. destruct (Reqb_spec r 0) as [N|_]; [contradiction|]. reflexivity.
  - intros E. unfold computeSemiMajorAxisScalar, sma_r, np_div. destruct (Reqb_spec (2 * E) 0); [reflexivity|]. f_equal. unfold Rdiv. ring.
  - reflexivity.
  - intros h E. unfold computeEccScalar, ecc_r, np_div. destruct (Reqb_spec (GM p * GM p) 0) as [N|_]; [exfalso; apply Rmult_integral in N; tauto|]. reflexivity.
Qed.

(** ** How deviations grow *)
Section Near.
  Variables (rnd sq : R -> R) (e eta : R).
  Hypothesis A : arithmetic rnd e eta.
  Hypothesis Sq : good_square sq e eta.
  Hypothesis He : e <= 1e-9.
  Hypothesis Ht : eta <= e * 1e-6.
  Let E0 : 0 <= e := ar_e _ _ _ A.
  (** [y] is [x] up to [a] roundings of [M]. *)
  Definition near (a M x y : R) : Prop := Rabs x <= M /\ Rabs (y - x) <= a * e * M.
  Lemma near_refl : forall M x, Rabs x <= M -> near 0 M x x.
  Proof. intros M x H. split; auto. rewrite Rminus_diag_eq, Rabs_R0 by reflexivity. lra. Qed.
  Lemma near_more : forall a b M N x y, 0 <= a <= b -> M <= N -> near a M x y -> near b N x y.
  Proof.
    intros a b M N x y [Pa Hab] HM [H1 H2]. pose proof (Rabs_pos x). split; [lra|]. eapply Rle_trans; [exact H2|].
    apply Rmult_le_compat; [apply Rmult_le_pos; lra|lra|apply Rmult_le_compat_r; lra|lra].
  Qed.
  Lemma near_size : forall a M x y, 0 <= a <= 200 -> near a M x y -> Rabs y <= 1.000001 * M.
  Proof.
    intros a M x y Ha [H1 H2]. pose proof (Rabs_pos x). assert (P : a * e <= 200 * 1e-9) by (apply Rmult_le_compat; lra).
    assert (Q : a * e * M <= 200 * 1e-9 * M) by (apply Rmult_le_compat_r; lra).
    replace y with (x + (y - x)) by ring. pose proof (Rabs_triang x (y - x)). lra.
  Qed.
  Lemma near_rnd : forall a M x y, 0 <= a <= 200 -> 1 <= M -> near a M x y -> near (a + 1.001) M x (rnd y).
  Proof.
    intros a M x y Ha HM H. pose proof (near_size _ _ _ _ Ha H) as Y. destruct H as [H1 H2]. split; [exact H1|].
    pose proof (ar_err _ _ _ A y) as R1. replace (rnd y - x) with ((rnd y - y) + (y - x)) by ring. pose proof (Rabs_triang (rnd y - y) (y - x)) as T.
    assert (Q : e * Rabs y <= e * (1.000001 * M)) by (apply Rmult_le_compat_l; lra).
    assert (Z : e * 1e-6 <= e * 1e-6 * M). { rewrite <- (Rmult_1_r (e * 1e-6)) at 1. apply Rmult_le_compat_l; lra. } 
    assert (0 <= e * M) by (apply Rmult_le_pos; lra). lra.
  Qed.
  Lemma near_mul : forall a b M N x y x' y', 0 <= a <= 200 -> 0 <= b <= 200 -> near a M x y -> near b N x' y' -> near (a + b + 0.001) (M * N) (x * x') (y * y').
  Proof.
    intros a b M N x y x' y' Ha Hb H H'. pose proof (near_size _ _ _ _ Hb H') as Y. destruct H as [H1 H2], H' as [G1 G2].
    pose proof (Rabs_pos x) as X0. pose proof (Rabs_pos x') as X1. split; [rewrite Rabs_mult; apply Rmult_le_compat; lra|].
    replace (y * y' - x * x') with ((y - x) * y' + x * (y' - x')) by ring. eapply Rle_trans; [apply Rabs_triang|]. rewrite !Rabs_mult.
    assert (P1 : Rabs (y - x) * Rabs y' <= (a * e * M) * (1.000001 * N)) by (apply Rmult_le_compat; auto; apply Rabs_pos).
    assert (P2 : Rabs x * Rabs (y' - x') <= M * (b * e * N)) by (apply Rmult_le_compat; auto; apply Rabs_pos).
    assert (P4 : 0 <= e * M * N) by (apply Rmult_le_pos; [apply Rmult_le_pos|]; lra).
    assert (P3 : a * (e * M * N) <= 200 * (e * M * N)) by (apply Rmult_le_compat_r; lra). lra.
  Qed.
  Lemma near_scale : forall a M x y c, 0 <= c -> near a M x y -> near a (c * M) (c * x) (c * y).
  Proof.
    intros a M x y c Hc [H1 H2]. split.
    - rewrite Rabs_mult, (Rabs_pos_eq c) by lra. apply Rmult_le_compat_l; lra.
    - replace (c * y - c * x) with (c * (y - x)) by ring. rewrite Rabs_mult, (Rabs_pos_eq c) by lra. apply (Rmult_le_compat_l c) in H2; lra.
  Qed.
  Lemma near_square : forall a M x y, 0 <= a <= 90 -> 1 <= M -> near a M x y -> near (2 * a + 2.002) (M * M) (x * x) (sq y).
  Proof.
    intros a M x y Ha HM H. pose proof (near_size a M x y ltac:(lra) H) as Y. pose proof (near_mul a a M M x y x y ltac:(lra) ltac:(lra) H H) as [P1 P2].
    split; [exact P1|]. pose proof (Sq y) as R1. replace (sq y - x * x) with ((sq y - y * y) + (y * y - x * x)) by ring.
    pose proof (Rabs_triang (sq y - y * y) (y * y - x * x)) as T.
    assert (Z : y * y <= 1.0000021 * (M * M)).
    { replace (y * y) with (Rabs y * Rabs y) by (rewrite <- Rabs_mult; apply Rabs_pos_eq; nra). pose proof (Rabs_pos y).
      apply Rle_trans with ((1.000001 * M) * (1.000001 * M)); [apply Rmult_le_compat; lra|]. assert (0 <= M * M) by nra. lra. }
    assert (Q : 2 * e * (y * y) <= 2 * e * (1.0000021 * (M * M))) by (apply Rmult_le_compat_l; lra).
    assert (M1 : 1 <= M * M) by nra.
    assert (W : e * 1e-6 <= e * 1e-6 * (M * M)). { rewrite <- (Rmult_1_r (e * 1e-6)) at 1. apply Rmult_le_compat_l; lra. }
    assert (0 <= e * (M * M)) by (apply Rmult_le_pos; lra). lra.
  Qed.
  Lemma near_div : forall a b M x y g g', 0 <= a <= 90 -> 0 <= b <= 90 -> 0 < g -> near a M x y -> Rabs (g' - g) <= b * e * g -> near (a + b + 0.002) (M / g) (x / g) (y / g').
  Proof.
    intros a b M x y g g' Ha Hb Hg H G. pose proof (near_size a M x y ltac:(lra) H) as Y. destruct H as [H1 H2].
    assert (B : b * e <= 90 * 1e-9) by (apply Rmult_le_compat; lra). assert (B0 : 0 <= b * e) by (apply Rmult_le_pos; lra).
    assert (BG : b * e * g <= 90 * 1e-9 * g) by (apply Rmult_le_compat_r; lra).
    assert (G' : (1 - 90 * 1e-9) * g <= g'). { pose proof (Rle_abs (g - g')) as T. rewrite Rabs_minus_sym in T. lra. }
    assert (Pg : 0 < g') by lra. pose proof (Rabs_pos x) as X0. assert (Ig : 0 < / g) by (apply Rinv_0_lt_compat; auto).
    split. { unfold Rdiv. rewrite Rabs_mult, (Rabs_pos_eq (/ g)) by lra. apply Rmult_le_compat_r; lra. }
    replace (y / g' - x / g) with ((y - x) / g + y * (g - g') / (g * g')) by (field; lra).
    eapply Rle_trans; [apply Rabs_triang|]. unfold Rdiv. rewrite !Rabs_mult, !(Rabs_pos_eq (/ _)) by (left; apply Rinv_0_lt_compat; try apply Rmult_lt_0_compat; auto).
    assert (P1 : Rabs (y - x) * / g <= (a * e * M) * / g) by (apply Rmult_le_compat_r; lra).
    assert (P2 : Rabs y * Rabs (g - g') <= (1.000001 * M) * (b * e * g)) by (apply Rmult_le_compat; auto; try apply Rabs_pos; rewrite Rabs_minus_sym; auto).
    assert (P3 : / (g * g') <= 1.000001 * (/ g * / g)).
    { rewrite Rinv_mult. assert (/ g' <= 1.000001 * / g); [|nra].
      apply Rmult_le_reg_r with g'; [auto|]. rewrite Rinv_l by lra. replace (1.000001 * / g * g') with (1.000001 * g' * / g) by ring.
      apply Rmult_le_reg_r with g; [auto|]. rewrite Rmult_assoc, Rinv_l by lra. lra. }
    assert (P4 : Rabs y * Rabs (g - g') * / (g * g') <= (1.000001 * M * (b * e * g)) * (1.000001 * (/ g * / g))).
    { apply Rmult_le_compat; auto; [apply Rmult_le_pos; apply Rabs_pos|]. left. apply Rinv_0_lt_compat. apply Rmult_lt_0_compat; auto. }
    replace ((1.000001 * M * (b * e * g)) * (1.000001 * (/ g * / g))) with (1.000001 * 1.000001 * b * (e * (M * / g))) in P4 by (field; lra).
    assert (Q : 0 <= e * (M * / g)) by (apply Rmult_le_pos; [lra|]; apply Rmult_le_pos; lra).
    assert (Q2 : b * (e * (M * / g)) <= 90 * (e * (M * / g))) by (apply Rmult_le_compat_r; lra). lra.
  Qed.
End Near.

(** ** The ellipse *)
Lemma ellipse_facts : forall gm r v g a ecc, 1 <= r <= gm -> 0 <= v -> on_ellipse gm r v g a ecc ->
  0 <= ecc <= 1 /\ r <= 2 * a /\ v * v <= 2 * (gm / r) /\ - (gm / r) + 0.5 * (v * v) = - (gm / (2 * a)) /\
  2 * (- (gm / r) + 0.5 * (v * v)) * ((r * v * cos g) * (r * v * cos g)) / (gm * gm) = ecc * ecc - 1.
Proof.
  intros gm r v g a ecc Hr Hv (Ha & He & V & H).
  assert (E1 : ecc * ecc <= 1).
  { assert (0 <= gm * a * (1 - ecc * ecc)) by (rewrite <- H; apply Rle_0_sqr). assert (0 < gm * a) by (apply Rmult_lt_0_compat; lra). nra. }
  assert (EV : - (gm / r) + 0.5 * (v * v) = - (gm / (2 * a))) by (rewrite V; replace 0.5 with (/ 2) by lra; field; lra).
  split; [nra|]. split; [|split; [|split; [exact EV|]]].
  - assert (0 <= gm * (2 / r - 1 / a)) by (rewrite <- V; apply Rle_0_sqr).
    apply Rmult_le_reg_l with (gm / (r * a)). { apply Rdiv_lt_0_compat; [lra|]. apply Rmult_lt_0_compat; lra. }
    replace (gm / (r * a) * r) with (gm * (1 / a)) by (field; lra). replace (gm / (r * a) * (2 * a)) with (gm * (2 / r)) by (field; lra). lra.
  - assert (0 < gm / a) by (apply Rdiv_lt_0_compat; lra). rewrite V. unfold Rdiv in *. nra.
  - rewrite EV, H. field. lra.
Qed.

Section Orbit.
  Variables (rnd sq : R -> R) (e eta gm r v g c a ecc : R).
  Hypothesis A : arithmetic rnd e eta.
  Hypothesis Sq : good_square sq e eta.
  Hypothesis He : e <= 1e-9.
  Hypothesis Ht : eta <= e * 1e-6.
  Hypothesis Co : good_cos c g e.
  Hypothesis Od : ordinary rnd gm r v.
  Hypothesis El : on_ellipse gm r v g a ecc.
  Let E0 : 0 <= e := ar_e _ _ _ A.
  Let U := gm / r.
  Let L := r * sqrt (2 * U).
  Lemma U1 : 1 <= U.
  Proof. destruct Od as [_ [R1 R2] _]. unfold U. apply Rmult_le_reg_r with r; [lra|]. unfold Rdiv. rewrite Rmult_assoc, Rinv_l by lra. lra. Qed.
  Lemma S1 : 1 <= sqrt (2 * U) /\ sqrt (2 * U) * sqrt (2 * U) = 2 * U /\ v <= sqrt (2 * U).
  Proof.
    pose proof U1. destruct Od as [_ R V]. destruct (ellipse_facts _ _ _ _ _ _ R V El) as (_ & _ & V2 & _). fold U in V2.
    split; [|split]. - rewrite <- sqrt_1. apply sqrt_le_1_alt. lra. - apply sqrt_sqrt. lra.
    - rewrite <- (sqrt_square v) by auto. apply sqrt_le_1_alt. auto.
  Qed.
  Lemma energy_near : near e 5.005 U (- (gm / r) + 0.5 * (v * v)) (energy_r rnd sq gm r v).
  Proof.
    pose proof U1 as U1. destruct S1 as (S1 & S2 & S3). destruct Od as [G R V]. destruct (ellipse_facts _ _ _ _ _ _ R V El) as (_ & _ & V2 & _). fold U in V2.
    assert (N1 : near e 1.001 U (- (gm / r)) (rnd (rnd (-1 * gm) / r))).
    { replace (-1 * gm) with (- gm) by ring. rewrite (ar_neg _ _ _ A), G. replace (- gm / r) with (- (gm / r)) by (unfold Rdiv; ring).
      replace 1.001 with (0 + 1.001) by lra. apply (near_rnd _ _ _ A He Ht); [lra|auto|]. apply near_refl. rewrite Rabs_Ropp, Rabs_pos_eq; fold U; lra. }
    assert (N2 : near e 3.003 U (0.5 * (v * v)) (rnd (0.5 * sq v))).
    { apply (near_more _ _ _ A) with (a := 2 * 0 + 2.002 + 1.001) (M := U); [lra|lra|]. apply (near_rnd _ _ _ A He Ht); [lra|auto|].
      replace U with (0.5 * (sqrt (2 * U) * sqrt (2 * U))) by (rewrite S2; lra).
      apply near_scale; [lra|]. apply (near_square _ _ _ _ A Sq He Ht); [lra|auto|]. apply near_refl. rewrite Rabs_pos_eq; auto. }
    unfold energy_r. apply (near_more _ _ _ A) with (a := 4.004 + 1.001) (M := U); [lra|lra|]. apply (near_rnd _ _ _ A He Ht); [lra|auto|].
    destruct N1 as [_ N1], N2 as [_ N2]. split.
    - fold U. assert (0 <= v * v) by apply Rle_0_sqr. apply Rabs_le. lra.
    - match goal with |- Rabs (?x + ?y - (?z + ?w)) <= _ => replace (x + y - (z + w)) with ((x - z) + (y - w)) by ring; pose proof (Rabs_triang (x - z) (y - w)) end. lra.
  Qed.
  Lemma twice_near : near e 6.006 (2 * U) (2 * (- (gm / r) + 0.5 * (v * v))) (rnd (2 * energy_r rnd sq gm r v)).
  Proof.
    pose proof U1. apply (near_more _ _ _ A) with (a := 5.005 + 1.001) (M := 2 * U); [lra|lra|]. apply (near_rnd _ _ _ A He Ht); [lra|lra|].
    apply near_scale; [lra|apply energy_near].
  Qed.
  Lemma angmom_near : near e 4.003 L (r * v * cos g) (angmom_r rnd r v c).
  Proof.
    destruct S1 as (S1 & _ & S3). destruct Od as [_ R V]. assert (L1 : 1 <= L) by (unfold L; nra).
    unfold angmom_r. apply (near_more _ _ _ A) with (a := 1.001 + 2 + 0.001 + 1.001) (M := L * 1); [lra|lra|].
    apply (near_rnd _ _ _ A He Ht); [lra|lra|]. apply (near_mul _ _ _ A He); [lra|lra| |].
    - replace 1.001 with (0 + 1.001) by lra. apply (near_rnd _ _ _ A He Ht); [lra|auto|]. apply near_refl. rewrite Rabs_pos_eq by (apply Rmult_le_pos; lra).
      apply Rmult_le_compat_l; lra.
    - split; [apply Rabs_le; destruct (COS_bound g); lra|]. unfold good_cos in Co. lra.
  Qed.
  Lemma radicand_near : Rabs (rnd (1 + rnd (rnd (rnd (2 * energy_r rnd sq gm r v) * sq (angmom_r rnd r v c)) / sq gm)) - ecc * ecc) <= 82 * e.
  Proof.
    pose proof U1 as U1. destruct S1 as (S1 & S2 & S3). pose proof twice_near as T. pose proof angmom_near as H. destruct Od as [_ R V].
    destruct (ellipse_facts _ _ _ _ _ _ R V El) as (Ec & _ & _ & _ & X). assert (L1 : 1 <= L) by (unfold L; nra).
    pose proof (near_square _ _ _ _ A Sq He Ht _ _ _ _ (ltac:(lra) : 0 <= 4.003 <= 90) L1 H) as H2.
    pose proof (near_mul _ _ _ A He _ _ _ _ _ _ _ _ (ltac:(lra) : 0 <= 6.006 <= 200) (ltac:(lra) : 0 <= 2 * 4.003 + 2.002 <= 200) T H2) as P.
    assert (Q : 2 * U * (L * L) = 4 * (gm * gm)).
    { unfold L. replace (2 * U * (r * sqrt (2 * U) * (r * sqrt (2 * U)))) with (2 * U * (r * r) * (sqrt (2 * U) * sqrt (2 * U))) by ring. rewrite S2. unfold U. field. lra. }
    rewrite Q in P. assert (G1 : 1 <= gm * gm) by nra.
    pose proof (near_rnd _ _ _ A He Ht _ _ _ _ (ltac:(lra) : 0 <= 6.006 + (2 * 4.003 + 2.002) + 0.001 <= 200) (ltac:(lra) : 1 <= 4 * (gm * gm)) P) as P1.
    assert (G2 : Rabs (sq gm - gm * gm) <= 2.001 * e * (gm * gm)).
    { pose proof (Sq gm). assert (e * 1e-6 <= e * 1e-6 * (gm * gm)). { rewrite <- (Rmult_1_r (e * 1e-6)) at 1. apply Rmult_le_compat_l; lra. }
      assert (0 <= e * (gm * gm)) by (apply Rmult_le_pos; lra). lra. }
    pose proof (near_div _ _ _ A He _ _ _ _ _ _ _ (ltac:(lra) : 0 <= 6.006 + (2 * 4.003 + 2.002) + 0.001 + 1.001 <= 90) (ltac:(lra) : 0 <= 2.001 <= 90) (ltac:(lra) : 0 < gm * gm) P1 G2) as P2.
    replace (4 * (gm * gm) / (gm * gm)) with 4 in P2 by (field; lra). rewrite X in P2.
    apply (near_rnd _ _ _ A He Ht) in P2; [|lra|lra]. destruct P2 as [_ P2].
    set (q := rnd (rnd (rnd (2 * energy_r rnd sq gm r v) * sq (angmom_r rnd r v c)) / sq gm)) in *.
    pose proof (ar_err _ _ _ A (1 + q)) as W.
    assert (Y : Rabs (1 + q) <= 1.001). { replace (1 + q) with (ecc * ecc + (q - (ecc * ecc - 1))) by ring. eapply Rle_trans; [apply Rabs_triang|]. rewrite (Rabs_pos_eq (ecc * ecc)) by nra. assert (ecc * ecc <= 1) by nra. lra. }
    replace (rnd (1 + q) - ecc * ecc) with ((rnd (1 + q) - (1 + q)) + (q - (ecc * ecc - 1))) by ring. eapply Rle_trans; [apply Rabs_triang|].
    assert (e * Rabs (1 + q) <= e * 1.001) by (apply Rmult_le_compat_l; lra). lra.
  Qed.
  (** The eccentricity: undefined only for a nearly circular orbit, otherwise good to half the digits, and to all but the
      last few if the orbit is not nearly circular. *)
  Lemma ecc_near : match ecc_r rnd sq gm (angmom_r rnd r v c) (energy_r rnd sq gm r v) with
    | None => ecc * ecc <= 82 * e
    | Some y => 0 <= y /\ Rabs (y - ecc) <= sqrt (82 * e) + 2 * e /\ Rabs (y - ecc) * ecc <= 84 * e
    end.
  Proof.
    pose proof radicand_near as X. destruct Od as [_ R V]. destruct (ellipse_facts _ _ _ _ _ _ R V El) as (Ec & _).
    unfold ecc_r. set (x := rnd (1 + _)) in *. destruct (Rltb_spec x 0) as [N|N].
    - pose proof (Rle_abs (ecc * ecc - x)) as T. rewrite Rabs_minus_sym in T. lra.
    - assert (x <= 1.001). { pose proof (Rle_abs (x - ecc * ecc)). assert (ecc * ecc <= 1) by nra. lra. }
      set (y := sqrt x). assert (Y : 0 <= y <= 1.001). { split; [apply sqrt_pos|]. unfold y. rewrite <- (sqrt_square 1.001) by lra. apply sqrt_le_1_alt. lra. }
      assert (YY : y * y = x) by (apply sqrt_sqrt; lra).
      pose proof (ar_err _ _ _ A y) as W. rewrite (Rabs_pos_eq y) in W by lra. assert (W2 : e * y <= e * 1.001) by (apply Rmult_le_compat_l; lra).
      assert (D2 : Rabs (y - ecc) * (y + ecc) <= 82 * e). { rewrite <- (Rabs_pos_eq (y + ecc)) by lra. rewrite <- Rabs_mult. replace ((y - ecc) * (y + ecc)) with (x - ecc * ecc) by (rewrite <- YY; ring). exact X. }
      pose proof (Rabs_pos (y - ecc)) as P0.
      assert (D1 : Rabs (y - ecc) <= sqrt (82 * e)).
      { rewrite <- (sqrt_square (Rabs (y - ecc))) by auto. apply sqrt_le_1_alt. eapply Rle_trans; [|exact D2]. apply Rmult_le_compat_l; [auto|]. apply Rabs_le; lra. }
      assert (D3 : Rabs (y - ecc) * ecc <= 82 * e) by (eapply Rle_trans; [|exact D2]; apply Rmult_le_compat_l; lra).
      assert (T : Rabs (rnd y - ecc) <= Rabs (rnd y - y) + Rabs (y - ecc)). { replace (rnd y - ecc) with ((rnd y - y) + (y - ecc)) by ring. apply Rabs_triang. }
      split; [|split].
      + replace 0 with (rnd 0). { apply (ar_mono _ _ _ A). lra. } pose proof (ar_neg _ _ _ A 0) as Z. rewrite Ropp_0 in Z. lra.
      + lra.
      + assert (Rabs (rnd y - ecc) * ecc <= (Rabs (rnd y - y) + Rabs (y - ecc)) * ecc) by (apply Rmult_le_compat_r; lra).
        assert (Rabs (rnd y - y) * ecc <= Rabs (rnd y - y) * 1) by (apply Rmult_le_compat_l; [apply Rabs_pos|lra]). lra.
  Qed.
  Hypothesis Far : 1e5 * e * a <= r.
  Lemma sma_near : exists y, sma_r rnd gm (energy_r rnd sq gm r v) = Some y /\ Rabs (y - a) <= 15 * e * (a * a / r).
  Proof.
    pose proof U1 as U1. destruct twice_near as [_ T]. destruct Od as [G R V]. destruct (ellipse_facts _ _ _ _ _ _ R V El) as (_ & Ra & _ & EV & _).
    rewrite EV in T. set (d := rnd (2 * energy_r rnd sq gm r v)) in *. unfold sma_r. fold d.
    assert (Pa : 0 < a) by lra. set (D := gm / a). assert (PD : 0 < D) by (apply Rdiv_lt_0_compat; lra).
    replace (2 * - (gm / (2 * a))) with (- D) in T by (unfold D; field; lra). replace (d - - D) with (D + d) in T by ring.
    assert (UD : U = a / r * D) by (unfold U, D; field; lra). set (t := a / r) in *. assert (Pt : 1 / 2 <= t).
    { unfold t. apply Rmult_le_reg_r with r; [lra|]. unfold Rdiv. rewrite (Rmult_assoc a), Rinv_l by lra. lra. }
    assert (tE : e * t <= 1e-5). { unfold t. apply Rmult_le_reg_r with r; [lra|]. unfold Rdiv. rewrite <- Rmult_assoc, (Rmult_assoc (e * a)), Rinv_l by lra. lra. }
    assert (Pe : 0 <= e * t) by (apply Rmult_le_pos; lra).
    assert (T1 : Rabs (D + d) <= 12.012 * (e * t) * D) by (eapply Rle_trans; [exact T|]; rewrite UD; lra).
    assert (T2 : 12.012 * (e * t) * D <= 12.012 * 1e-5 * D) by (apply Rmult_le_compat_r; lra).
    assert (Dd : d <= - 0.9998 * D). { pose proof (Rle_abs (D + d)). lra. }
    destruct (Reqb_spec d 0) as [N|N]; [exfalso; lra|]. eexists. split; [reflexivity|].
    replace (-1 * gm) with (- gm) by ring. rewrite (ar_neg _ _ _ A), G. set (y := - gm / d).
    assert (Ya : y - a = a * (D + d) / (- d)) by (unfold y, D; field; split; lra).
    assert (Y1 : Rabs (y - a) <= 12.03 * (e * t) * a).
    { rewrite Ya. unfold Rdiv. rewrite !Rabs_mult, (Rabs_pos_eq a), (Rabs_pos_eq (/ - d)) by (try lra; left; apply Rinv_0_lt_compat; lra).
      apply Rmult_le_reg_r with (- d); [lra|]. rewrite Rmult_assoc, Rinv_l, Rmult_1_r by lra.
      assert (a * Rabs (D + d) <= a * (12.012 * (e * t) * D)) by (apply Rmult_le_compat_l; lra).
      assert (12.03 * (e * t) * a * (0.9998 * D) <= 12.03 * (e * t) * a * (- d)). { apply Rmult_le_compat_l; [|lra]. apply Rmult_le_pos; lra. }
      assert (0 <= (e * t) * a * D) by (apply Rmult_le_pos; [apply Rmult_le_pos|]; lra). lra. }
    assert (Y2 : Rabs y <= 1.001 * a). { replace y with (a + (y - a)) by ring. eapply Rle_trans; [apply Rabs_triang|]. rewrite (Rabs_pos_eq a) by lra. assert (12.03 * (e * t) * a <= 12.03 * 1e-5 * a) by (apply Rmult_le_compat_r; lra). lra. }
    pose proof (ar_err _ _ _ A y) as W. assert (W2 : e * Rabs y <= e * (1.001 * a)) by (apply Rmult_le_compat_l; lra).
    assert (W3 : e * a <= 2 * (e * t) * a). { assert (e * 1 * a <= e * (2 * t) * a); [|lra]. apply Rmult_le_compat_r; [lra|]. apply Rmult_le_compat_l; lra. }
    assert (W4 : e * 1e-6 <= 2 * e * a * 1e-6). { assert (e * 1 <= e * (2 * a)); [|lra]. apply Rmult_le_compat_l; lra. }
    replace (rnd y - a) with ((rnd y - y) + (y - a)) by ring. eapply Rle_trans; [apply Rabs_triang|].
    replace (15 * e * (a * a / r)) with (15 * ((e * t) * a)) by (unfold t; field; lra). assert (0 <= e * t * a) by (apply Rmult_le_pos; lra). lra.
  Qed.
End Orbit.

Theorem C119_orbit : forall rnd sq e eta gm r v g c a ecc, arithmetic rnd e eta -> good_square sq e eta -> e <= 1e-9 -> eta <= e * 1e-6 ->
  good_cos c g e -> ordinary rnd gm r v -> on_ellipse gm r v g a ecc -> 1e5 * e * a <= r ->
  match orbit_r rnd sq gm r v c with
  | None => ecc * ecc <= 82 * e
  | Some (a', ecc') => Rabs (a' - a) <= 15 * e * (a * a / r) /\ 0 <= ecc' /\ Rabs (ecc' - ecc) <= sqrt (82 * e) + 2 * e /\ Rabs (ecc' - ecc) * ecc <= 84 * e
  end.
Proof.
  intros rnd sq e eta gm r v g c a ecc A Sq He Ht Co Od El Far.
  pose proof (ecc_near rnd sq e eta gm r v g c a ecc A Sq He Ht Co Od El) as X.
  destruct (sma_near rnd sq e eta gm r v g a ecc A Sq He Ht Od El Far) as (y & E & Y).
  unfold orbit_r. rewrite E. cbn [obind]. destruct (ecc_r _ _ _ _ _) as [z|]; cbn [obind]; [|exact X]. split; [exact Y|exact X].
Qed.

Lemma apsis_near : forall rnd e eta a r rp s a' s' d, arithmetic rnd e eta -> e <= 1e-9 -> eta <= e * 1e-6 -> 1 <= r <= 2 * a -> 1e5 * e * a <= r -> 0 <= rp ->
  Rabs (a' - a) <= 15 * e * (a * a / r) -> 0 <= s <= 2 -> Rabs (s' - s) <= d -> d <= / 10 ->
  Rabs (1000 * rnd (rnd (rnd (a' * rnd s') - rp) / 1000) - (a * s - rp)) <= 60 * e * (a * a / r) + 3 * e * rp + 1.01 * a * d.
Proof.
  intros rnd e eta a r rp s a' s' d A He Ht Hr Far Hp Ha Hs Hd Hd1. pose proof (ar_e _ _ _ A) as E0. pose proof (Rabs_pos (s' - s)) as D0.
  set (w := a * a / r) in *. assert (W1 : a <= 2 * w).
  { unfold w. apply Rmult_le_reg_r with r; [lra|]. unfold Rdiv. replace (2 * (a * a * / r) * r) with (2 * a * a * (/ r * r)) by ring. rewrite Rinv_l by lra. assert (a * r <= a * (2 * a)) by (apply Rmult_le_compat_l; lra). lra. }
  assert (W2 : e * w <= 1e-5 * a).
  { unfold w. apply Rmult_le_reg_r with r; [lra|]. unfold Rdiv. replace (e * (a * a * / r) * r) with (e * a * a * (/ r * r)) by ring. rewrite Rinv_l by lra. assert (e * a * a <= r * 1e-5 * a); [|lra]. apply Rmult_le_compat_r; lra. }
  assert (EW : e * a <= 2 * (e * w)) by (assert (e * a <= e * (2 * w)); [apply Rmult_le_compat_l; lra|lra]).
  assert (E1 : e <= 2 * (e * a)) by (assert (e * 1 <= e * (2 * a)); [apply Rmult_le_compat_l; lra|lra]).
  assert (A1 : Rabs a' <= 1.001 * a). { replace a' with (a + (a' - a)) by ring. eapply Rle_trans; [apply Rabs_triang|]. rewrite (Rabs_pos_eq a) by lra. lra. }
  set (s1 := rnd s').
  assert (S0 : Rabs s' <= 2.1). { replace s' with (s + (s' - s)) by ring. eapply Rle_trans; [apply Rabs_triang|]. rewrite (Rabs_pos_eq s) by lra. lra. }
  assert (S1 : Rabs (s1 - s) <= d + 2.2 * e).
  { pose proof (ar_err _ _ _ A s') as R1. fold s1 in R1. assert (e * Rabs s' <= e * 2.1) by (apply Rmult_le_compat_l; lra).
    replace (s1 - s) with ((s1 - s') + (s' - s)) by ring. eapply Rle_trans; [apply Rabs_triang|]. lra. }
  assert (S2 : Rabs s1 <= 2.2). { replace s1 with (s + (s1 - s)) by ring. eapply Rle_trans; [apply Rabs_triang|]. rewrite (Rabs_pos_eq s) by lra. lra. }
  assert (X1 : Rabs (a' * s1 - a * s) <= 33 * (e * w) + a * (d + 2.2 * e)).
  { replace (a' * s1 - a * s) with ((a' - a) * s1 + a * (s1 - s)) by ring. eapply Rle_trans; [apply Rabs_triang|]. rewrite !Rabs_mult, (Rabs_pos_eq a) by lra.
    assert (Rabs (a' - a) * Rabs s1 <= (15 * e * w) * 2.2) by (apply Rmult_le_compat; auto; apply Rabs_pos).
    assert (a * Rabs (s1 - s) <= a * (d + 2.2 * e)) by (apply Rmult_le_compat_l; lra). lra. }
  assert (X2 : Rabs (a' * s1) <= 2.21 * a).
  { rewrite Rabs_mult. apply Rle_trans with ((1.001 * a) * 2.2); [apply Rmult_le_compat; auto; apply Rabs_pos|lra]. }
  set (P := rnd (a' * s1)). pose proof (ar_err _ _ _ A (a' * s1)) as R2. fold P in R2.
  assert (R2' : e * Rabs (a' * s1) <= e * (2.21 * a)) by (apply Rmult_le_compat_l; lra).
  assert (EA : e * a <= 1e-9 * a) by (apply Rmult_le_compat_r; lra). assert (ER : e * rp <= 1e-9 * rp) by (apply Rmult_le_compat_r; lra).
  assert (P1 : Rabs P <= 2.22 * a). { replace P with (a' * s1 + (P - a' * s1)) by ring. eapply Rle_trans; [apply Rabs_triang|]. lra. }
  set (Q := rnd (P - rp)). pose proof (ar_err _ _ _ A (P - rp)) as R3. fold Q in R3.
  assert (Q0 : Rabs (P - rp) <= 2.22 * a + rp). { unfold Rminus. eapply Rle_trans; [apply Rabs_triang|]. rewrite Rabs_Ropp, (Rabs_pos_eq rp) by lra. lra. }
  assert (R3' : e * Rabs (P - rp) <= e * (2.22 * a + rp)) by (apply Rmult_le_compat_l; lra).
  assert (Q1 : Rabs Q <= 2.23 * a + 1.01 * rp). { replace Q with ((P - rp) + (Q - (P - rp))) by ring. eapply Rle_trans; [apply Rabs_triang|]. lra. }
  pose proof (ar_err _ _ _ A (Q / 1000)) as R4. assert (Z : Rabs (Q / 1000) = Rabs Q / 1000) by (unfold Rdiv; rewrite Rabs_mult, (Rabs_pos_eq (/ 1000)); lra).
  rewrite Z in R4. assert (R4' : e * Rabs Q <= e * (2.23 * a + 1.01 * rp)) by (apply Rmult_le_compat_l; lra).
  assert (R5 : Rabs (1000 * rnd (Q / 1000) - Q) <= e * Rabs Q + 1000 * eta).
  { replace (1000 * rnd (Q / 1000) - Q) with (1000 * (rnd (Q / 1000) - Q / 1000)) by field. rewrite Rabs_mult, (Rabs_pos_eq 1000) by lra. lra. }
  match goal with |- Rabs (?z - ?y) <= _ => replace (z - y) with ((z - Q) + (Q - (P - rp)) + (P - a' * s1) + (a' * s1 - a * s)) by ring end.
  pose proof (Rabs_triang (1000 * rnd (Q / 1000) - Q + (Q - (P - rp)) + (P - a' * s1)) (a' * s1 - a * s)).
  pose proof (Rabs_triang (1000 * rnd (Q / 1000) - Q + (Q - (P - rp))) (P - a' * s1)).
  pose proof (Rabs_triang (1000 * rnd (Q / 1000) - Q) (Q - (P - rp))).
  assert (0 <= a * d) by (apply Rmult_le_pos; lra). assert (0 <= e * rp) by (apply Rmult_le_pos; lra). assert (0 <= e * a) by (apply Rmult_le_pos; lra). lra.
Qed.

Theorem C119_apsides : forall rnd sq e eta gm rp r v g c a ecc (apo : bool), arithmetic rnd e eta -> good_square sq e eta -> e <= 1e-9 -> eta <= e * 1e-6 ->
  good_cos c g e -> ordinary rnd gm r v -> on_ellipse gm r v g a ecc -> 1e5 * e * a <= r -> 0 <= rp ->
  match (if apo then apo_km_r rnd sq gm rp r v c else peri_km_r rnd sq gm rp r v c) with
  | None => ecc * ecc <= 82 * e
  | Some h => let off := Rabs (1000 * h - (a * (if apo then 1 + ecc else 1 - ecc) - rp)) in
      off <= 60 * e * (a * a / r) + 3 * e * rp + 1.01 * a * (sqrt (82 * e) + 2 * e) /\
      off * ecc <= (60 * e * (a * a / r) + 3 * e * rp) * ecc + 1.01 * a * (84 * e)
  end.
Proof.
  intros rnd sq e eta gm rp r v g c a ecc apo A Sq He Ht Co Od El Far Hp. pose proof (ar_e _ _ _ A) as E0.
  pose proof (C119_orbit _ _ _ _ _ _ _ _ _ _ _ A Sq He Ht Co Od El Far) as X.
  destruct Od as [_ R V]. destruct (ellipse_facts _ _ _ _ _ _ R V El) as (Ec & Ra & _).
  assert (SE : sqrt (82 * e) + 2 * e <= / 10).
  { assert (sqrt (82 * e) <= / 100); [|lra]. rewrite <- (sqrt_square (/ 100)) by lra. apply sqrt_le_1_alt. lra. }
  unfold apo_km_r, peri_km_r. destruct (orbit_r _ _ _ _ _ _) as [[a' ecc']|]; cbn [obind fst snd]; [|destruct apo; exact X].
  destruct X as (Xa & X0 & X1 & X2).
  assert (G : forall s s', 0 <= s <= 2 -> Rabs (s' - s) = Rabs (ecc' - ecc) ->
    let off := Rabs (1000 * rnd (rnd (rnd (a' * rnd s') - rp) / 1000) - (a * s - rp)) in
    off <= 60 * e * (a * a / r) + 3 * e * rp + 1.01 * a * (sqrt (82 * e) + 2 * e) /\ off * ecc <= (60 * e * (a * a / r) + 3 * e * rp) * ecc + 1.01 * a * (84 * e)).
  { intros s s' Hs Es. cbv zeta.
    pose proof (apsis_near rnd e eta a r rp s a' s' (Rabs (ecc' - ecc)) A He Ht ltac:(lra) Far Hp Xa Hs ltac:(lra) ltac:(lra)) as Y. split.
    - eapply Rle_trans; [exact Y|]. assert (1.01 * a * Rabs (ecc' - ecc) <= 1.01 * a * (sqrt (82 * e) + 2 * e)) by (apply Rmult_le_compat_l; lra). lra.
    - apply (Rmult_le_compat_r ecc) in Y; [|lra]. eapply Rle_trans; [exact Y|].
      assert (1.01 * a * (Rabs (ecc' - ecc) * ecc) <= 1.01 * a * (84 * e)) by (apply Rmult_le_compat_l; lra). lra. }
  destruct apo; apply G; try lra; [f_equal; ring|]. replace (1 - ecc' - (1 - ecc)) with (- (ecc' - ecc)) by ring. apply Rabs_Ropp.
Qed.
