(** C121: the altitudes of the apsides from the exit state, in rounded arithmetic from beginning to end. *)
From Coq Require Import Lra Lia.
Require Import Verif.Base Verif.PlanetModel Verif.OrbitScalarModel Verif.OrbiterModel Verif.OrbitModel Verif.ConicSpec Verif.FrameProofs Verif.OrbiterProofs
  Verif.RunningSpec Verif.OrbitRoundModel Verif.OrbitRoundSpec Verif.PropOrbitRound Verif.ExitRoundModel Verif.ExitRoundSpec.
Local Open Scope R_scope.

(** ** Without rounding this is the model of the other properties *)
Definition exact_lib : mathlib := mkLib sin cos acos dot.
Lemma hat_exact : forall w, hat_r (fun x => x) exact_lib w = unit_of w.
Proof.
  intros [a b c]. unfold hat_r, unit_of, np_div. cbn [m_dot exact_lib]. fold (norm2 (V3 a b c)). fold (norm (V3 a b c)).
  destruct (Reqb_spec (norm (V3 a b c)) 0) as [_|N]; [reflexivity|]. cbn [obind vx vy vz]. unfold vscale. cbn [vx vy vz]. f_equal. f_equal; field; exact N.
Qed.
Lemma ie_exact : forall p x, ie_r (fun x => x) exact_lib (OMEGA p) x = exit_v_ie p x.
Proof. intros p x. reflexivity. Qed.
Lemma pos_exact : forall x, pos_r (fun x => x) exact_lib x = exit_r_vec x.
Proof. intros x. reflexivity. Qed.
Lemma fpa_exact : forall p x, fpa_r (fun x => x) exact_lib x (exit_v_ie p x) = fpa_ie (exit_r_vec x) (exit_v_ie p x).
Proof.
  intros p x. unfold fpa_r, fpa_ie. rewrite pos_exact, !hat_exact. destruct (unit_of (exit_r_vec x)) as [ru|]; [|reflexivity]. cbn [obind].
  destruct (unit_of (exit_v_ie p x)) as [vu|]; [|reflexivity]. cbn [obind m_dot m_acos exact_lib]. unfold np_arccos.
  set (d := dot ru vu). destruct (Rltb_spec 1 (Rabs d)) as [H|H].
  - destruct (Rleb_spec (-1) d), (Rleb_spec d 1); cbn; try reflexivity. exfalso. apply (Rlt_irrefl 1). eapply Rlt_le_trans; [exact H|]. apply Rabs_le. lra.
  - assert (-1 <= d <= 1). { pose proof (Rle_abs d). pose proof (Rle_abs (- d)) as T. rewrite Rabs_Ropp in T. lra. }
    destruct (Rleb_spec (-1) d), (Rleb_spec d 1); try lra. reflexivity.
Qed.
Theorem C121_exact : forall p x, x_r x <> 0 -> GM p <> 0 ->
  let id := fun x : R => x in let sq := fun x => x * x in
  apsis_r id sq exact_lib true (GM p) (RP p) (OMEGA p) x = compute_ApoapsisAltitudeKm p x /\
  apsis_r id sq exact_lib false (GM p) (RP p) (OMEGA p) x = compute_PeriapsisAltitudeKm p x.
Proof.
  intros p x Hr Hg. cbv zeta. unfold apsis_r. rewrite ie_exact, fpa_exact.
  unfold compute_ApoapsisAltitudeKm, compute_PeriapsisAltitudeKm, terminal_orbit.
  replace (speed_r (fun x => x) (fun x => x * x) (exit_v_ie p x)) with (norm (exit_v_ie p x)) by reflexivity.
  set (v := norm _).
  destruct (C119_exact p (x_r x) v 0 Hr Hg) as (E1 & E2 & _ & E4). cbv zeta in E1, E2, E4. rewrite E1. cbn [obind].
  destruct (fpa_ie (exit_r_vec x) (exit_v_ie p x)) as [g|]; cbn [obind]; [|split; reflexivity].
  unfold apo_km_r, peri_km_r, orbit_r. rewrite E2, E4. replace (computeAngMomScalar (x_r x) v g) with (angmom_r (fun x => x) (x_r x) v (m_cos exact_lib g)) by reflexivity.
  destruct (sma_r _ _ _); cbn [obind]; [|split; reflexivity]. destruct (ecc_r _ _ _ _ _); cbn [obind]; [|split; reflexivity].
  cbn [fst snd]. replace 1e3 with 1000 by lra. split; reflexivity.
Qed.

(** ** More rules for deviations *)
Lemma arith_more : forall rnd e f eta, arithmetic rnd e eta -> e <= f -> arithmetic rnd f eta.
Proof.
  intros rnd e f eta A H. destruct A. constructor; auto; try lra.
  - intros x. eapply Rle_trans; [apply ar_err|]. pose proof (Rabs_pos x). assert (e * Rabs x <= f * Rabs x) by (apply Rmult_le_compat_r; auto). lra.
  - intros x y X Y. eapply Rle_trans; [apply ar_add; auto|]. apply Rmult_le_compat_r; [apply Rabs_pos|auto].
Qed.
Lemma square_more : forall sq e f eta, good_square sq e eta -> e <= f -> good_square sq f eta.
Proof. intros sq e f eta S H x. eapply Rle_trans; [apply S|]. assert (0 <= x * x) by apply Rle_0_sqr. assert (2 * e * (x * x) <= 2 * f * (x * x)) by (apply Rmult_le_compat_r; lra). lra. Qed.
Lemma near_e : forall e f a b M x y, 0 <= M -> a * e <= b * f -> near e a M x y -> near f b M x y.
Proof. intros e f a b M x y P H [H1 H2]. split; [auto|]. eapply Rle_trans; [exact H2|]. apply Rmult_le_compat_r; auto. Qed.
Lemma near_add : forall e a b M N x y x' y', near e a M x y -> near e b N x' y' -> Rabs (y + y' - (x + x')) <= a * e * M + b * e * N /\ Rabs (x + x') <= M + N.
Proof.
  intros e a b M N x y x' y' [H1 H2] [G1 G2]. split; [|eapply Rle_trans; [apply Rabs_triang|lra]].
  replace (y + y' - (x + x')) with ((y - x) + (y' - x')) by ring. eapply Rle_trans; [apply Rabs_triang|lra].
Qed.
Lemma near_neg : forall e a M x y, near e a M x y -> near e a M (- x) (- y).
Proof. intros e a M x y [H1 H2]. split; [rewrite Rabs_Ropp; auto|]. replace (- y - - x) with (- (y - x)) by ring. rewrite Rabs_Ropp. auto. Qed.

Section Steps.
  Variables (rnd : R -> R) (e eta : R).
  Hypothesis A : arithmetic rnd e eta.
  Hypothesis He : e <= 1e-9.
  Hypothesis Ht : eta <= e * 1e-6.
  Let E0 : 0 <= e := ar_e _ _ _ A.
  Lemma step_mul : forall a b c M N K x y x' y', 0 <= a <= 90 -> 0 <= b <= 90 -> a + b + 1.002 <= c -> M * N = K -> 1 <= K ->
    near e a M x y -> near e b N x' y' -> near e c K (x * x') (rnd (y * y')).
  Proof.
    intros a b c M N K x y x' y' Ha Hb Hc <- HK H H'. apply (near_more _ _ _ A) with (a := a + b + 0.001 + 1.001) (M := M * N); [lra|lra|].
    apply (near_rnd _ _ _ A He Ht); [lra|auto|]. apply (near_mul _ _ _ A He); auto; lra.
  Qed.
  Lemma step_add : forall a b d c M N K x y x' y', 0 <= a <= d -> 0 <= b <= d -> d <= 90 -> d + 1.001 <= c -> M + N = K -> 1 <= K ->
    near e a M x y -> near e b N x' y' -> near e c K (x + x') (rnd (y + y')).
  Proof.
    intros a b d c M N K x y x' y' Ha Hb Hd Hc <- HK H H'. apply (near_more _ _ _ A) with (a := d + 1.001) (M := M + N); [lra|lra|].
    apply (near_rnd _ _ _ A He Ht); [lra|auto|]. apply (near_more _ _ _ A _ d _ M) in H; [|lra|lra]. apply (near_more _ _ _ A _ d _ N) in H'; [|lra|lra].
    destruct (near_add _ _ _ _ _ _ _ _ _ H H') as [P Q]. split; [exact Q|]. lra.
  Qed.
  (** The root of a nearly right square. *)
  Lemma step_root : forall a n s, 0 <= a <= 190 -> 1 <= n -> Rabs (s - n * n) <= a * e * (n * n) -> Rabs (rnd (sqrt s) - n) <= (a + 1.002) * e * n.
  Proof.
    intros a n s Ha Hn H. assert (AE : a * e <= 190 * 1e-9) by (apply Rmult_le_compat; lra). assert (NN : 1 <= n * n) by nra.
    assert (a * e * (n * n) <= 190 * 1e-9 * (n * n)) by (apply Rmult_le_compat_r; lra).
    assert (S0 : 0 <= s). { pose proof (Rle_abs (n * n - s)) as T. rewrite Rabs_minus_sym in T. lra. }
    set (t := sqrt s). assert (T0 : 0 <= t) by apply sqrt_pos. assert (TT : t * t = s) by (apply sqrt_sqrt; auto).
    assert (D : Rabs (t - n) <= a * e * n).
    { apply Rmult_le_reg_r with n; [lra|]. replace (a * e * n * n) with (a * e * (n * n)) by ring. eapply Rle_trans; [|exact H]. rewrite <- TT.
      replace (t * t - n * n) with ((t - n) * (t + n)) by ring. rewrite Rabs_mult, (Rabs_pos_eq (t + n)) by lra. apply Rmult_le_compat_l; [apply Rabs_pos|lra]. }
    assert (NE : near e a n n t) by (split; [rewrite Rabs_pos_eq; lra|exact D]).
    destruct (near_rnd _ _ _ A He Ht a n n t ltac:(lra) Hn NE) as [_ P]. eapply Rle_trans; [exact P|]. apply Rmult_le_compat_r; [lra|]. apply Rmult_le_compat_r; lra.
  Qed.
End Steps.

(** ** Unit vectors *)
Section Unit.
  Variables (rnd : R -> R) (L : mathlib) (e eta : R).
  Hypothesis A : arithmetic rnd e eta.
  Hypothesis He : e <= 1e-9.
  Hypothesis Ht : eta <= e * 1e-6.
  Hypothesis Dt : forall a b, Rabs (m_dot L a b - dot a b) <= 4 * e * (Rabs (vx a * vx b) + Rabs (vy a * vy b) + Rabs (vz a * vz b)) + 4 * eta.
  Let E0 : 0 <= e := ar_e _ _ _ A.
  Lemma dot_near : forall c d M N w w' u u', 0 <= c <= 90 -> 0 <= d <= 90 -> 1 <= M * N ->
    near e c M (vx w) (vx w') -> near e c M (vy w) (vy w') -> near e c M (vz w) (vz w') ->
    near e d N (vx u) (vx u') -> near e d N (vy u) (vy u') -> near e d N (vz u) (vz u') ->
    Rabs (m_dot L w' u' - dot w u) <= (3 * (c + d) + 12.01) * e * (M * N).
  Proof.
    intros c d M N w w' u u' Hc Hd HM X Y Z X' Y' Z'.
    assert (P : forall a a' b b', near e c M a a' -> near e d N b b' -> Rabs (a' * b' - a * b) <= (c + d + 0.001) * e * (M * N) /\ Rabs (a' * b') <= 1.000001 * (M * N)).
    { intros a a' b b' Ha Hb. pose proof (near_mul _ _ _ A He c d M N a a' b b' ltac:(lra) ltac:(lra) Ha Hb) as Q.
      split; [apply Q|]. apply (near_size _ _ _ A He (c + d + 0.001) _ (a * b)); [lra|exact Q]. }
    destruct (P _ _ _ _ X X') as [P1 Q1]. destruct (P _ _ _ _ Y Y') as [P2 Q2]. destruct (P _ _ _ _ Z Z') as [P3 Q3].
    pose proof (Dt w' u') as D.
    assert (S : 4 * e * (Rabs (vx w' * vx u') + Rabs (vy w' * vy u') + Rabs (vz w' * vz u')) <= 4 * e * (3.000003 * (M * N))) by (apply Rmult_le_compat_l; lra).
    assert (Z1 : e * 1 <= e * (M * N)) by (apply Rmult_le_compat_l; lra).
    replace (m_dot L w' u' - dot w u) with ((m_dot L w' u' - dot w' u') + (vx w' * vx u' - vx w * vx u) + (vy w' * vy u' - vy w * vy u) + (vz w' * vz u' - vz w * vz u)) by (unfold dot; ring).
    set (s0 := m_dot L w' u' - dot w' u') in *. set (s1 := vx w' * vx u' - vx w * vx u) in *. set (s2 := vy w' * vy u' - vy w * vy u) in *. set (s3 := vz w' * vz u' - vz w * vz u) in *.
    pose proof (Rabs_triang (s0 + s1 + s2) s3). pose proof (Rabs_triang (s0 + s1) s2). pose proof (Rabs_triang s0 s1). lra.
  Qed.
  Lemma hat_near : forall w w', let n := norm w in 1 <= n ->
    near e 6.02 n (vx w) (vx w') -> near e 6.02 n (vy w) (vy w') -> near e 6.02 n (vz w) (vz w') ->
    exists u, hat_r rnd L w' = Some u /\ near e 57 1 (vx w / n) (vx u) /\ near e 57 1 (vy w / n) (vy u) /\ near e 57 1 (vz w / n) (vz u).
  Proof.
    intros w w' n Hn X Y Z. assert (NN : 1 <= n * n) by nra.
    pose proof (dot_near 6.02 6.02 n n w w' w w' ltac:(lra) ltac:(lra) NN X Y Z X Y Z) as D. fold (norm2 w) in D. rewrite <- norm_sq in D. fold n in D.
    pose proof (step_root rnd e eta A He Ht (3 * (6.02 + 6.02) + 12.01) n _ ltac:(lra) Hn D) as R.
    unfold hat_r. set (s := rnd (sqrt (m_dot L w' w'))) in *.
    assert (S0 : 0 < s).
    { pose proof (Rle_abs (n - s)) as T. rewrite Rabs_minus_sym in T. assert ((3 * (6.02 + 6.02) + 12.01 + 1.002) * e * n <= 60 * 1e-9 * n) by (apply Rmult_le_compat_r; lra). lra. }
    destruct (Reqb_spec s 0) as [N|_]; [lra|]. eexists. split; [reflexivity|]. cbn [vx vy vz].
    assert (G : forall a b, near e 6.02 n a b -> near e 57 1 (a / n) (rnd (b / s))).
    { intros a b H. apply (near_more _ _ _ A) with (a := 6.02 + 49.15 + 0.002 + 1.001) (M := 1); [lra|lra|]. apply (near_rnd _ _ _ A He Ht); [lra|lra|].
      replace 1 with (n / n) by (field; lra). apply (near_div _ _ _ A He); [lra|lra|lra|exact H|]. eapply Rle_trans; [exact R|]. apply Rmult_le_compat_r; [lra|]. apply Rmult_le_compat_r; lra. }
    split; [|split]; apply G; assumption.
  Qed.
End Unit.

(** ** From the exit state to the inertial speed and flight-path angle *)
Lemma norm_comp : forall w, Rabs (vx w) <= norm w /\ Rabs (vy w) <= norm w /\ Rabs (vz w) <= norm w.
Proof.
  intros [a b c]. unfold norm, norm2, dot. cbn [vx vy vz].
  assert (H : forall t s, t * t <= s -> Rabs t <= sqrt s). { intros t s H. rewrite <- sqrt_Rsqr_abs. apply sqrt_le_1_alt. exact H. }
  split; [|split]; apply H; nra.
Qed.
Lemma spin_bound : forall r w, 0 <= r -> Rabs (r * w) <= r * Rabs w.
Proof. intros r w H. rewrite Rabs_mult, (Rabs_pos_eq r) by auto. lra. Qed.

Section Exit.
  Variables (rnd sq : R -> R) (L : mathlib) (e eta omega k : R) (x : exit_state).
  Hypothesis A : arithmetic rnd e eta.
  Hypothesis Sq : good_square sq e eta.
  Hypothesis Lb : good_lib L e eta.
  Hypothesis Ht : eta <= e * 1e-6.
  Hypothesis Hk : k * e <= 1e-10.
  Let V := inertial omega x.
  Let n := norm V.
  Hypothesis W : well_posed omega x n k.
  Let E0 : 0 <= e := ar_e _ _ _ A.
  Let K1 : 1 <= k := wp_k _ _ _ _ W.
  Lemma e_small : e <= 1e-10.
  Proof. assert (1 * e <= k * e) by (apply Rmult_le_compat_r; auto). lra. Qed.
  Lemma near_sin : forall y, near e 2 1 (sin y) (m_sin L y).
  Proof. intros y. split; [apply Rabs_le; destruct (SIN_bound y); lra|]. rewrite Rmult_1_r. apply (gl_sin _ _ _ Lb). Qed.
  Lemma near_cos : forall y, near e 2 1 (cos y) (m_cos L y).
  Proof. intros y. split; [apply Rabs_le; destruct (COS_bound y); lra|]. rewrite Rmult_1_r. apply (gl_cos _ _ _ Lb). Qed.
  Let B := 1 + x_v x.
  Let C := 1 + x_r x * Rabs omega.
  Let B1 : 1 <= B. Proof. unfold B. destruct W. lra. Qed.
  Let C1 : 1 <= C. Proof. unfold C. destruct W. assert (0 <= x_r x * Rabs omega) by (apply Rmult_le_pos; [lra|apply Rabs_pos]). lra. Qed.
  Ltac mul a b M N := apply (step_mul rnd e eta A ltac:(pose proof e_small; lra) Ht a b _ M N); [lra|lra|lra|try ring|try lra| |].
  Ltac add a b d M N := apply (step_add rnd e eta A ltac:(pose proof e_small; lra) Ht a b d _ M N); [lra|lra|lra|lra|try ring|try lra| |].
  Let E9 : e <= 1e-9. Proof. pose proof e_small. lra. Qed.
  Lemma near_minus1 : forall a b x y, 0 <= a <= 90 -> a + 1.001 <= b -> near e a 1 x y -> near e b 1 (-1 * x) (rnd (-1 * y)).
  Proof.
    intros a b s t Ha Hb H. apply (near_more _ _ _ A) with (a := a + 1.001) (M := 1); [lra|lra|]. apply (near_rnd _ _ _ A E9 Ht); [lra|lra|].
    replace (-1 * s) with (- s) by ring. replace (-1 * t) with (- t) by ring. apply near_neg. exact H.
  Qed.
  Lemma near_v : near e 0 B (x_v x) (x_v x).
  Proof. apply near_refl. unfold B. destruct W. rewrite Rabs_pos_eq; lra. Qed.
  Lemma near_part : forall s s' a a', near e 2 1 s s' -> near e 2 1 a a' -> near e 6.005 B (x_v x * s * a) (rnd (rnd (x_v x * s') * a')).
  Proof. intros s s' a a' Hs Ha. mul 3.003 2 B 1; [|exact Ha]. mul 0 2 B 1; [apply near_v|exact Hs]. Qed.
  Lemma near_rel : let w := rel_vel (x_v x) (x_g x) (x_psi x) (x_theta x) (x_phi x) in let w' := rel_r rnd L x in
    near e 14.02 (3 * B) (vx w) (vx w') /\ near e 14.02 (3 * B) (vy w) (vy w') /\ near e 14.02 (3 * B) (vz w) (vz w').
  Proof.
    cbv zeta. pose proof (near_sin (x_g x)) as sg. pose proof (near_cos (x_g x)) as cg. pose proof (near_sin (x_phi x)) as sf. pose proof (near_cos (x_phi x)) as cf.
    pose proof (near_sin (x_theta x)) as st. pose proof (near_cos (x_theta x)) as ct. pose proof (near_sin (x_psi x)) as sp. pose proof (near_cos (x_psi x)) as cp.
    pose proof (near_part _ _ _ _ sg cf) as up. pose proof (near_part _ _ _ _ cg cp) as east. pose proof (near_part _ _ _ _ cg sp) as north.
    pose proof (near_minus1 2 3.002 _ _ ltac:(lra) ltac:(lra) st) as mst. pose proof (near_minus1 2 3.002 _ _ ltac:(lra) ltac:(lra) sf) as msf.
    unfold rel_r, rel_vel, up_dir, east_dir, north_dir, vadd, vscale. cbn [vx vy vz]. split; [|split].
    - match goal with |- near _ _ _ ?t _ => replace t with (x_v x * sin (x_g x) * cos (x_phi x) * cos (x_theta x) + x_v x * cos (x_g x) * cos (x_psi x) * (-1 * sin (x_theta x))
          + x_v x * cos (x_g x) * sin (x_psi x) * (-1 * sin (x_phi x) * cos (x_theta x))) by ring end.
      add 11.02 13.015 13.015 (2 * B) B.
      + add 9.01 10.01 10.01 B B; [mul 6.005 2 B 1; auto|mul 6.005 3.002 B 1; auto].
      + mul 6.005 6.005 B 1; [exact north|]. mul 3.002 2 1 1; auto.
    - match goal with |- near _ _ _ ?t _ => replace t with (x_v x * sin (x_g x) * cos (x_phi x) * sin (x_theta x) + x_v x * cos (x_g x) * cos (x_psi x) * cos (x_theta x)
          + x_v x * cos (x_g x) * sin (x_psi x) * (-1 * sin (x_phi x) * sin (x_theta x))) by ring end.
      add 11.02 13.015 13.015 (2 * B) B.
      + add 9.01 9.01 10.01 B B; [mul 6.005 2 B 1; auto|mul 6.005 2 B 1; auto].
      + mul 6.005 6.005 B 1; [exact north|]. mul 3.002 2 1 1; auto.
    - match goal with |- near _ _ _ ?t _ => replace t with (x_v x * sin (x_g x) * sin (x_phi x) + x_v x * cos (x_g x) * sin (x_psi x) * cos (x_phi x)) by ring end.
      apply (near_more _ _ _ A) with (a := 10.02) (M := 2 * B); [lra|lra|].
      add 6.005 9.01 9.01 B B; [mul 3.003 2 B 1; [mul 0 2 B 1; [apply near_v|exact sg]|exact sf]|mul 6.005 2 B 1; auto].
  Qed.
  Lemma near_ie : let w := ie_r rnd L omega x in
    near e 15.03 (3 * B + C) (vx V) (vx w) /\ near e 15.03 (3 * B + C) (vy V) (vy w) /\ near e 15.03 (3 * B + C) (vz V) (vz w).
  Proof.
    cbv zeta. destruct near_rel as (N1 & N2 & N3). pose proof (near_cos (x_phi x)) as cf. pose proof (near_sin (x_theta x)) as st. pose proof (near_cos (x_theta x)) as ct.
    assert (SP : near e 4.005 C (x_r x * omega * cos (x_phi x)) (rnd (rnd (x_r x * omega) * m_cos L (x_phi x)))).
    { mul 1.002 2 C 1; [|exact cf]. apply (near_more _ _ _ A) with (a := 0 + 1.001) (M := C); [lra|lra|]. apply (near_rnd _ _ _ A E9 Ht); [lra|auto|]. apply near_refl.
      unfold C. destruct W. eapply Rle_trans; [apply spin_bound; lra|lra]. }
    unfold ie_r, V, inertial, inertial_vel. set (w := rel_vel _ _ _ _ _) in *. clearbody w. unfold cross, sph_pos, up_dir, vadd, vscale. cbn [vx vy vz]. split; [|split].
    - match goal with |- near _ _ _ ?t _ => replace t with (vx w + x_r x * omega * cos (x_phi x) * sin (x_theta x) * -1) by ring end.
      add 14.02 8.015 14.02 (3 * B) C; [exact N1|].
      apply (near_more _ _ _ A) with (a := 7.01 + 1.001) (M := C); [lra|lra|]. apply (near_rnd _ _ _ A E9 Ht); [lra|auto|].
      match goal with |- near _ _ _ (?s * -1) (?t * -1) => replace (s * -1) with (- s) by ring; replace (t * -1) with (- t) by ring end.
      apply near_neg. mul 4.005 2 C 1; auto.
    - match goal with |- near _ _ _ ?t _ => replace t with (vy w + x_r x * omega * cos (x_phi x) * cos (x_theta x)) by ring end.
      add 14.02 7.01 14.02 (3 * B) C; [exact N2|]. mul 4.005 2 C 1; auto.
    - match goal with |- near _ _ _ ?t _ => replace t with (vz w) by ring end. apply (near_more _ _ _ A) with (a := 14.02) (M := 3 * B); [lra|lra|exact N3].
  Qed.
  (** In units of the inertial speed. *)
  Let f := 10 * k * e.
  Let F9 : f <= 1e-9. Proof. unfold f. lra. Qed.
  Let EF : 10 * e <= f. Proof. unfold f. assert (1 * e <= k * e) by (apply Rmult_le_compat_r; auto). lra. Qed.
  Let AF : arithmetic rnd f eta. Proof. apply arith_more with e; [exact A|lra]. Qed.
  Let TF : eta <= f * 1e-6. Proof. lra. Qed.
  Let SF : good_square sq f eta. Proof. apply square_more with e; [exact Sq|lra]. Qed.
  Let n1 : 1 <= n := wp_n _ _ _ _ W.
  Lemma near_ie_n : let w := ie_r rnd L omega x in near f 6.02 n (vx V) (vx w) /\ near f 6.02 n (vy V) (vy w) /\ near f 6.02 n (vz V) (vz w).
  Proof.
    cbv zeta. destruct near_ie as ([_ N1] & [_ N2] & [_ N3]). destruct (norm_comp V) as (M1 & M2 & M3). fold n in M1, M2, M3.
    assert (S : 15.03 * e * (3 * B + C) <= 6.02 * f * n).
    { destruct W. unfold B, C. assert (0 <= x_r x * Rabs omega) by (apply Rmult_le_pos; [lra|apply Rabs_pos]).
      apply Rle_trans with (15.03 * e * (4 * (k * n))); [apply Rmult_le_compat_l; lra|]. unfold f. assert (0 <= e * (k * n)) by (apply Rmult_le_pos; [lra|]; apply Rmult_le_pos; lra). lra. }
    split; [|split]; (split; [assumption|]); (eapply Rle_trans; [eassumption|exact S]).
  Qed.
  Let DE : forall a b, Rabs (m_dot L a b - dot a b) <= 4 * e * (Rabs (vx a * vx b) + Rabs (vy a * vy b) + Rabs (vz a * vz b)) + 4 * eta := gl_dot _ _ _ Lb.
  Let DF : forall a b, Rabs (m_dot L a b - dot a b) <= 4 * f * (Rabs (vx a * vx b) + Rabs (vy a * vy b) + Rabs (vz a * vz b)) + 4 * eta.
  Proof.
    intros a b. eapply Rle_trans; [apply DE|]. apply Rplus_le_compat_r. apply Rmult_le_compat_r; [|lra].
    pose proof (Rabs_pos (vx a * vx b)). pose proof (Rabs_pos (vy a * vy b)). pose proof (Rabs_pos (vz a * vz b)). lra.
  Qed.
  Let P := sph_pos (x_r x) (x_theta x) (x_phi x).
  Lemma near_pos : let w := pos_r rnd L x in near e 6.02 (x_r x) (vx P) (vx w) /\ near e 6.02 (x_r x) (vy P) (vy w) /\ near e 6.02 (x_r x) (vz P) (vz w).
  Proof.
    cbv zeta. pose proof (near_sin (x_phi x)) as sf. pose proof (near_cos (x_phi x)) as cf. pose proof (near_sin (x_theta x)) as st. pose proof (near_cos (x_theta x)) as ct.
    assert (R : near e 0 (x_r x) (x_r x) (x_r x)). { apply near_refl. destruct W. rewrite Rabs_pos_eq; lra. }
    pose proof (wp_r _ _ _ _ W). unfold P, pos_r, sph_pos, up_dir, vscale. cbn [vx vy vz]. split; [|split].
    - mul 0 5.01 (x_r x) 1; [exact R|]. mul 2 2 1 1; auto.
    - mul 0 5.01 (x_r x) 1; [exact R|]. mul 2 2 1 1; auto.
    - mul 0 2 (x_r x) 1; auto.
  Qed.
  (** The scalar product of the unit vectors is the sine of the flight-path angle. *)
  Variable gam : R.
  Hypothesis Gam : x_r x * n * sin gam = dot P V.
  Lemma angle_dot : exists ru vu, hat_r rnd L (pos_r rnd L x) = Some ru /\ hat_r rnd L (ie_r rnd L omega x) = Some vu /\ Rabs (m_dot L ru vu - sin gam) <= 2010 * (k * e).
  Proof.
    pose proof (wp_r _ _ _ _ W) as R1. assert (PN : norm P = x_r x) by (apply sph_norm; lra).
    destruct near_pos as (X & Y & Z). destruct near_ie_n as (X' & Y' & Z').
    destruct (hat_near rnd L e eta A E9 Ht DE P _ ltac:(rewrite PN; lra) ltac:(rewrite PN; exact X) ltac:(rewrite PN; exact Y) ltac:(rewrite PN; exact Z)) as (ru & Er & RX & RY & RZ).
    destruct (hat_near rnd L f eta AF F9 TF DF V _ n1 X' Y' Z') as (vu & Ev & VX & VY & VZ).
    exists ru, vu. split; [exact Er|]. split; [exact Ev|]. rewrite PN in RX, RY, RZ. fold n in VX, VY, VZ.
    apply (near_e _ f _ 5.7) in RX; [|lra|lra]. apply (near_e _ f _ 5.7) in RY; [|lra|lra]. apply (near_e _ f _ 5.7) in RZ; [|lra|lra].
    pose proof (dot_near rnd L f eta AF F9 TF DF 5.7 57 1 1 (V3 (vx P / x_r x) (vy P / x_r x) (vz P / x_r x)) ru (V3 (vx V / n) (vy V / n) (vz V / n)) vu
      ltac:(lra) ltac:(lra) ltac:(lra) RX RY RZ VX VY VZ) as D.
    replace (dot _ _) with (sin gam) in D.
    - eapply Rle_trans; [exact D|]. unfold f. assert (0 <= k * e) by (apply Rmult_le_pos; lra). lra.
    - apply Rmult_eq_reg_l with (x_r x * n); [|apply Rgt_not_eq; apply Rmult_lt_0_compat; lra]. rewrite Gam. unfold dot. cbn [vx vy vz]. field. lra.
  Qed.
  Lemma speed_near : 0 <= speed_r rnd sq (ie_r rnd L omega x) /\ Rabs (speed_r rnd sq (ie_r rnd L omega x) - n) <= 500 * (k * e) * n.
  Proof.
    destruct near_ie_n as (X & Y & Z). set (w := ie_r rnd L omega x) in *. assert (NN : 1 <= n * n) by nra. split.
    - unfold speed_r. replace 0 with (rnd 0). { apply (ar_mono _ _ _ A). apply sqrt_pos. } pose proof (ar_neg _ _ _ A 0) as Q. rewrite Ropp_0 in Q. lra.
    - apply (near_square _ _ _ _ AF SF F9 TF) in X; [|lra|auto]. apply (near_square _ _ _ _ AF SF F9 TF) in Y; [|lra|auto]. apply (near_square _ _ _ _ AF SF F9 TF) in Z; [|lra|auto].
      assert (S : near f 16.2 (3 * (n * n)) (vx V * vx V + vy V * vy V + vz V * vz V) (rnd (rnd (sq (vx w) + sq (vy w)) + sq (vz w)))).
      { apply (step_add rnd f eta AF F9 TF 15.1 (2 * 6.02 + 2.002) 15.1 _ (2 * (n * n)) (n * n)); [lra|lra|lra|lra|ring|lra| |exact Z].
        apply (step_add rnd f eta AF F9 TF (2 * 6.02 + 2.002) (2 * 6.02 + 2.002) 14.05 _ (n * n) (n * n)); [lra|lra|lra|lra|ring|lra|exact X|exact Y]. }
      destruct S as [_ S]. fold (dot V V) in S. fold (norm2 V) in S. rewrite <- norm_sq in S. fold n in S.
      pose proof (step_root rnd f eta AF F9 TF 48.6 n _ ltac:(lra) n1 ltac:(eapply Rle_trans; [exact S|right; lra])) as R. fold (speed_r rnd sq w) in R.
      eapply Rle_trans; [exact R|]. unfold f. assert (0 <= k * e * n) by (apply Rmult_le_pos; [apply Rmult_le_pos|]; lra). lra.
  Qed.
End Exit.

(** ** Angles *)
Lemma sin_close : forall a b, Rabs (sin a - sin b) <= Rabs (a - b).
Proof.
  intros a b. destruct (MVT_abs sin cos b a) as (c & E & _). { intros c _. apply derivable_pt_lim_sin. }
  rewrite E. rewrite <- (Rmult_1_l (Rabs (a - b))) at 2. apply Rmult_le_compat_r; [apply Rabs_pos|]. apply Rabs_le. destruct (COS_bound c). lra.
Qed.
Lemma acos_close : forall s d, Rabs s <= 0.9 -> Rabs d <= 0.91 -> Rabs (acos d - acos s) <= 2.45 * Rabs (d - s).
Proof.
  intros s d Hs Hd. assert (S : -1 <= s <= 1 /\ -0.91 <= s <= 0.91) by (pose proof (Rle_abs s); pose proof (Rle_abs (- s)) as T; rewrite Rabs_Ropp in T; lra).
  assert (D : -1 <= d <= 1 /\ -0.91 <= d <= 0.91) by (pose proof (Rle_abs d); pose proof (Rle_abs (- d)) as T; rewrite Rabs_Ropp in T; lra).
  destruct (MVT_abs cos (fun c => - sin c) (acos s) (acos d)) as (c & E & Hc). { intros c _. apply derivable_pt_lim_cos. }
  rewrite !cos_acos in E by tauto. rewrite Rabs_Ropp in E. pose proof (acos_bound s) as Bs. pose proof (acos_bound d) as Bd.
  assert (CB : -0.91 <= cos c <= 0.91).
  { assert (M : forall y z, 0 <= y <= PI -> 0 <= z <= PI -> y <= z -> cos z <= cos y) by (intros; apply cos_decr_1; lra).
    unfold Rmin, Rmax in Hc. destruct (Rle_dec (acos s) (acos d)).
    - pose proof (M (acos s) c ltac:(lra) ltac:(lra) ltac:(lra)). pose proof (M c (acos d) ltac:(lra) ltac:(lra) ltac:(lra)). rewrite cos_acos in * by tauto. lra.
    - pose proof (M (acos d) c ltac:(lra) ltac:(lra) ltac:(lra)). pose proof (M c (acos s) ltac:(lra) ltac:(lra) ltac:(lra)). rewrite cos_acos in * by tauto. lra. }
  assert (Q : 0.41 <= Rabs (sin c)).
  { pose proof (sin2_cos2 c) as T. unfold Rsqr in T. assert (0.1681 <= Rabs (sin c) * Rabs (sin c)). { rewrite <- Rabs_mult, Rabs_pos_eq by apply Rle_0_sqr. nra. }
    pose proof (Rabs_pos (sin c)). nra. }
  rewrite E. pose proof (Rabs_pos (acos d - acos s)). nra.
Qed.
Lemma degrees_near : forall rnd e eta a, arithmetic rnd e eta -> e <= 1e-9 -> eta <= e * 1e-6 -> Rabs a <= 4.01 ->
  Rabs (rnd (rnd (rnd (90 - rnd (rnd (180 / rnd PI) * a)) * rnd PI) / 180) - (PI / 2 - a)) <= 60 * e.
Proof.
  intros rnd e eta a A He Ht Ha. pose proof (ar_e _ _ _ A) as E0. pose proof PI_4 as P4. assert (P3 : 3 < PI) by (pose proof PI2_3_2; lra).
  assert (N1 : near e 1.001 4 PI (rnd PI)).
  { apply (near_more _ _ _ A) with (a := 0 + 1.001) (M := 4); [lra|lra|]. apply (near_rnd _ _ _ A He Ht); [lra|lra|]. apply near_refl. rewrite Rabs_pos_eq; lra. }
  assert (N0 : Rabs (rnd PI - PI) <= 1.01 * e * PI).
  { pose proof (ar_err _ _ _ A PI) as T. rewrite (Rabs_pos_eq PI) in T by lra. assert (e * 1 <= e * PI) by (apply Rmult_le_compat_l; lra). lra. }
  assert (N2 : near e 2.02 60 (180 / PI) (rnd (180 / rnd PI))).
  { assert (Q : 1 <= 180 / PI <= 60). { split; apply Rmult_le_reg_r with PI; try lra; unfold Rdiv; rewrite Rmult_assoc, Rinv_l by lra; lra. }
    apply (near_more _ _ _ A) with (a := 0 + 1.01 + 0.002 + 1.001) (M := 180 / PI); [lra|lra|]. apply (near_rnd _ _ _ A He Ht); [lra|lra|].
    apply (near_div _ _ _ A He); [lra|lra|lra| |exact N0]. apply near_refl. rewrite Rabs_pos_eq; lra. }
  assert (N3 : near e 3.03 240.6 (180 / PI * a) (rnd (rnd (180 / rnd PI) * a))).
  { apply (step_mul rnd e eta A He Ht 2.02 0 _ 60 4.01); [lra|lra|lra|lra|lra|exact N2|]. apply near_refl. exact Ha. }
  assert (N4 : near e 4.04 330.6 (90 + - (180 / PI * a)) (rnd (90 - rnd (rnd (180 / rnd PI) * a)))).
  { unfold Rminus. apply (step_add rnd e eta A He Ht 0 3.03 3.03 _ 90 240.6); [lra|lra|lra|lra|lra|lra| |apply near_neg; exact N3]. apply near_refl. rewrite Rabs_pos_eq; lra. }
  assert (N5 : near e 6.05 1322.4 ((90 + - (180 / PI * a)) * PI) (rnd (rnd (90 - rnd (rnd (180 / rnd PI) * a)) * rnd PI))).
  { apply (step_mul rnd e eta A He Ht 4.04 1.001 _ 330.6 4); [lra|lra|lra|lra|lra|exact N4|exact N1]. }
  apply (near_scale _ _ _ _ _ (/ 180)) in N5; [|lra].
  apply (near_rnd _ _ _ A He Ht) in N5; [|lra|lra]. destruct N5 as [_ N5].
  replace (/ 180 * ((90 + - (180 / PI * a)) * PI)) with (PI / 2 - a) in N5 by (field; lra).
  rewrite (Rmult_comm (/ 180)) in N5. eapply Rle_trans; [exact N5|]. lra.
Qed.

(** The inertial speed comes out to [500 k e] of itself, and the flight-path angle with a sine to [2100 k e]; it is undefined
    only if the motion is vertical up to such an error. *)
Theorem C121_state : forall rnd sq L e eta omega k x gam, arithmetic rnd e eta -> good_square sq e eta -> good_lib L e eta -> eta <= e * 1e-6 -> k * e <= 1e-10 ->
  let V := inertial omega x in let P := sph_pos (x_r x) (x_theta x) (x_phi x) in
  well_posed omega x (norm V) k -> - (PI / 2) <= gam <= PI / 2 -> x_r x * norm V * sin gam = dot P V ->
  let w := ie_r rnd L omega x in
  0 <= speed_r rnd sq w /\ Rabs (speed_r rnd sq w - norm V) <= 500 * (k * e) * norm V /\
  match fpa_r rnd L x w with
  | None => 1 - 2100 * (k * e) < Rabs (sin gam)
  | Some g => Rabs (sin g - sin gam) <= 2100 * (k * e) /\ (Rabs (sin gam) <= 0.9 -> Rabs (g - gam) <= 5000 * (k * e))
  end.
Proof.
  intros rnd sq L e eta omega k x gam A Sq Lb Ht Hk V P W Hg Gam w. pose proof (ar_e _ _ _ A) as E0. pose proof (wp_k _ _ _ _ W) as K1.
  destruct (speed_near rnd sq L e eta omega k x A Sq Lb Ht Hk W) as [S1 S2]. split; [exact S1|]. split; [exact S2|].
  destruct (angle_dot rnd L e eta omega k x A Lb Ht Hk W gam Gam) as (ru & vu & Er & Ev & D). unfold fpa_r. fold w in Ev. rewrite Er, Ev. cbn [obind].
  set (d := m_dot L ru vu) in *. assert (EK : e <= k * e) by (rewrite <- (Rmult_1_l e) at 1; apply Rmult_le_compat_r; auto).
  assert (T : Rabs d <= Rabs (sin gam) + Rabs (d - sin gam)). { replace d with (sin gam + (d - sin gam)) at 1 by ring. apply Rabs_triang. }
  assert (Z0 : 0 <= Rabs (d - sin gam)) by apply Rabs_pos.
  destruct (Rltb_spec 1 (Rabs d)) as [H|H].
  - destruct (Req_dec (k * e) 0) as [Z|Z]; [exfalso|lra]. assert (Rabs (sin gam) <= 1) by (apply Rabs_le; destruct (SIN_bound gam); lra). lra.
  - assert (Hd : -1 <= d <= 1). { pose proof (Rle_abs d). pose proof (Rle_abs (- d)) as Y. rewrite Rabs_Ropp in Y. lra. }
    pose proof (gl_acos _ _ _ Lb d Hd) as AC. pose proof (acos_bound d) as AB. set (a := m_acos L d) in *.
    assert (Ha : Rabs a <= 4.01). { pose proof PI_4. replace a with (acos d + (a - acos d)) by ring. eapply Rle_trans; [apply Rabs_triang|]. rewrite (Rabs_pos_eq (acos d)) by lra. lra. }
    pose proof (degrees_near rnd e eta a A ltac:(lra) Ht Ha) as G. set (g := rnd (rnd (rnd _ * rnd PI) / 180)) in *.
    assert (G2 : Rabs (g - (PI / 2 - acos d)) <= 68 * e).
    { replace (g - (PI / 2 - acos d)) with ((g - (PI / 2 - a)) + - (a - acos d)) by ring. eapply Rle_trans; [apply Rabs_triang|]. rewrite Rabs_Ropp. lra. }
    split.
    + pose proof (sin_close g (PI / 2 - acos d)) as SC. rewrite sin_shift, cos_acos in SC by auto.
      replace (sin g - sin gam) with ((sin g - d) + (d - sin gam)) by ring. eapply Rle_trans; [apply Rabs_triang|]. lra.
    + intros Hs. assert (Gm : gam = PI / 2 - acos (sin gam)).
      { replace (acos (sin gam)) with (PI / 2 - gam); [ring|]. rewrite <- cos_shift. rewrite acos_cos by lra. reflexivity. }
      pose proof (acos_close (sin gam) d Hs ltac:(lra)) as Q.
      replace (g - gam) with ((g - (PI / 2 - acos d)) + - (acos d - acos (sin gam))) by (rewrite Gm at 2; ring). eapply Rle_trans; [apply Rabs_triang|]. rewrite Rabs_Ropp. lra.
Qed.

(** ** The ellipse through a slightly different state *)
Lemma on_ellipse_q : forall gm r v g a ecc, 1 <= r <= gm -> 0 <= v -> on_ellipse gm r v g a ecc ->
  let q := r * (v * v) / gm in (2 - q) * a = r /\ 0 <= q < 2 /\ ecc * ecc = 1 - q * (2 - q) * (cos g * cos g).
Proof.
  intros gm r v g a ecc Hr Hv (Ha & He & V & H) q.
  assert (Q : 2 - q = r / a) by (unfold q; rewrite V; field; lra).
  assert (Q2 : (2 - q) * a = r) by (rewrite Q; field; lra).
  assert (Q0 : 0 <= q). { unfold q. apply Rmult_le_pos; [|left; apply Rinv_0_lt_compat; lra]. apply Rmult_le_pos; [lra|apply Rle_0_sqr]. }
  split; [exact Q2|]. split. { split; [exact Q0|]. assert (0 < r / a) by (apply Rdiv_lt_0_compat; lra). lra. }
  replace (ecc * ecc) with (1 - gm * a * (1 - ecc * ecc) / (gm * a)) by (field; lra). rewrite <- H, Q. unfold q. field. lra.
Qed.
Lemma ellipse_of : forall gm r v g, 1 <= r <= gm -> 0 <= v -> r * (v * v) / gm < 2 -> exists a ecc, on_ellipse gm r v g a ecc.
Proof.
  intros gm r v g Hr Hv Q. set (q := r * (v * v) / gm) in *. set (R2 := (1 - q) * (1 - q) * (cos g * cos g) + sin g * sin g).
  assert (P : 0 <= R2). { unfold R2. apply Rplus_le_le_0_compat; [|apply Rle_0_sqr]. apply Rmult_le_pos; apply Rle_0_sqr. }
  exists (r / (2 - q)), (sqrt R2). split; [apply Rdiv_lt_0_compat; lra|]. split; [apply sqrt_pos|].
  assert (VV : v * v = gm * q / r) by (unfold q; field; lra). split. { rewrite VV. field. lra. }
  rewrite sqrt_sqrt by exact P. replace (1 - R2) with (q * (2 - q) * (cos g * cos g)).
  - replace (r * v * cos g * (r * v * cos g)) with (r * r * (v * v) * (cos g * cos g)) by ring. rewrite VV. field. lra.
  - unfold R2. pose proof (sin2_cos2 g) as T. unfold Rsqr in T. replace (sin g * sin g) with (1 - cos g * cos g) by lra. ring.
Qed.
Lemma ellipse_shift : forall gm r n v g gam a ecc d, 1 <= r <= gm -> 0 <= n -> 0 <= v -> on_ellipse gm r n gam a ecc -> 0 <= d <= 1e-10 -> 2e5 * d * a <= r ->
  Rabs (v - n) <= 500 * d * n -> Rabs (sin g - sin gam) <= 2100 * d ->
  exists a1 ecc1, on_ellipse gm r v g a1 ecc1 /\ 0 < a1 <= 1.012 * a /\ Rabs (a1 - a) <= 2025 * d * (a * a / r) /\ Rabs (ecc1 * ecc1 - ecc * ecc) <= 8300 * d.
Proof.
  intros gm r n v g gam a ecc d Hr Hn Hv El Hd Far Dv Dg.
  destruct (on_ellipse_q gm r n gam a ecc Hr Hn El) as (Q1 & Q2 & Q3). set (q := r * (n * n) / gm) in *.
  assert (Pa : 0 < a) by (destruct El; auto).
  set (q' := r * (v * v) / gm). assert (DQ : Rabs (q' - q) <= 2000.2 * d).
  { assert (Z : Rabs (v * v - n * n) <= 1000.1 * d * (n * n)).
    { replace (v * v - n * n) with ((v - n) * (v + n)) by ring. rewrite Rabs_mult, (Rabs_pos_eq (v + n)) by lra.
      assert (v <= 1.0000001 * n). { pose proof (Rle_abs (v - n)). assert (500 * d * n <= 500 * 1e-10 * n) by (apply Rmult_le_compat_r; lra). lra. }
      apply Rle_trans with ((500 * d * n) * (2.0000001 * n)); [apply Rmult_le_compat; [apply Rabs_pos|lra|exact Dv|lra]|].
      assert (0 <= d * (n * n)) by (apply Rmult_le_pos; [lra|apply Rle_0_sqr]). lra. }
    replace (q' - q) with (r / gm * (v * v - n * n)) by (unfold q', q; field; lra). assert (0 < r / gm) by (apply Rdiv_lt_0_compat; lra).
    rewrite Rabs_mult, (Rabs_pos_eq (r / gm)) by lra. apply Rle_trans with (r / gm * (1000.1 * d * (n * n))); [apply Rmult_le_compat_l; lra|].
    replace (r / gm * (1000.1 * d * (n * n))) with (1000.1 * d * q) by (unfold q; field; lra). assert (d * q <= d * 2) by (apply Rmult_le_compat_l; lra). lra. }
  assert (DA : 2e5 * d <= 2 - q). { apply Rmult_le_reg_r with a; [auto|]. lra. }
  assert (QD : Rabs (q' - q) <= 0.0100011 * (2 - q)) by lra.
  assert (QL : 0.9899 * (2 - q) <= 2 - q' <= 1.0101 * (2 - q)). { pose proof (Rle_abs (q' - q)). pose proof (Rle_abs (q - q')) as T. rewrite Rabs_minus_sym in T. lra. }
  destruct (ellipse_of gm r v g Hr Hv ltac:(fold q'; lra)) as (a1 & ecc1 & El1).
  destruct (on_ellipse_q gm r v g a1 ecc1 Hr Hv El1) as (R1 & R2 & R3). fold q' in R1, R2, R3.
  exists a1, ecc1. assert (Pa1 : 0 < a1) by (destruct El1; auto). split; [exact El1|].
  assert (A1 : a1 <= 1.012 * a).
  { apply Rmult_le_reg_l with (2 - q'); [lra|]. rewrite R1. apply Rle_trans with (0.9899 * (2 - q) * (1.012 * a)); [|apply Rmult_le_compat_r; lra]. lra. }
  split; [lra|]. split.
  - replace (a1 - a) with ((q' - q) * (a * a1 / r)).
    + assert (0 < a * a1 / r) by (apply Rdiv_lt_0_compat; [apply Rmult_lt_0_compat|]; lra). rewrite Rabs_mult, (Rabs_pos_eq (a * a1 / r)) by lra.
      assert (AA : a * a1 / r <= 1.012 * (a * a / r)).
      { unfold Rdiv. rewrite <- Rmult_assoc. apply Rmult_le_compat_r; [left; apply Rinv_0_lt_compat; lra|]. assert (a * a1 <= a * (1.012 * a)) by (apply Rmult_le_compat_l; lra). lra. }
      apply Rle_trans with ((2000.2 * d) * (1.012 * (a * a / r))); [apply Rmult_le_compat; [apply Rabs_pos|lra|exact DQ|exact AA]|].
      assert (0 <= a * a / r) by (apply Rmult_le_pos; [apply Rle_0_sqr|left; apply Rinv_0_lt_compat; lra]). assert (0 <= d * (a * a / r)) by (apply Rmult_le_pos; lra). lra.
    + replace ((q' - q) * (a * a1 / r)) with ((((2 - q) * a) * a1 - ((2 - q') * a1) * a) / r) by (field; lra). rewrite Q1, R1. field. lra.
  - rewrite R3, Q3. pose proof (sin2_cos2 g) as T1. pose proof (sin2_cos2 gam) as T2. unfold Rsqr in T1, T2.
    replace (1 - q' * (2 - q') * (cos g * cos g) - (1 - q * (2 - q) * (cos gam * cos gam)))
      with ((q' - q) * (q' + q - 2) * (cos g * cos g) + q * (2 - q) * ((sin g - sin gam) * (sin g + sin gam))).
    2: { replace ((sin g - sin gam) * (sin g + sin gam)) with (cos gam * cos gam - cos g * cos g) by lra. ring. }
    eapply Rle_trans; [apply Rabs_triang|]. rewrite !Rabs_mult.
    assert (C1 : Rabs (cos g) * Rabs (cos g) <= 1). { rewrite <- Rabs_mult, Rabs_pos_eq by apply Rle_0_sqr. pose proof (Rle_0_sqr (sin g)). unfold Rsqr in *. lra. }
    assert (C0 : 0 <= Rabs (cos g) * Rabs (cos g)) by (apply Rmult_le_pos; apply Rabs_pos).
    assert (X1 : Rabs (q' + q - 2) <= 2.01). { apply Rabs_le. pose proof (Rle_abs (q' - q)). lra. }
    assert (X2 : Rabs (q' - q) * Rabs (q' + q - 2) <= (2000.2 * d) * 2.01) by (apply Rmult_le_compat; auto; apply Rabs_pos).
    assert (X3 : Rabs (q' - q) * Rabs (q' + q - 2) * (Rabs (cos g) * Rabs (cos g)) <= (2000.2 * d * 2.01) * 1). { apply Rmult_le_compat; auto. apply Rmult_le_pos; apply Rabs_pos. }
    assert (Y1 : Rabs (sin g + sin gam) <= 2). { apply Rabs_le. destruct (SIN_bound g), (SIN_bound gam). lra. }
    assert (Y2 : Rabs (sin g - sin gam) * Rabs (sin g + sin gam) <= (2100 * d) * 2) by (apply Rmult_le_compat; auto; apply Rabs_pos).
    assert (Y3 : Rabs q * Rabs (2 - q) <= 1). { rewrite (Rabs_pos_eq q), (Rabs_pos_eq (2 - q)) by lra. pose proof (Rle_0_sqr (1 - q)) as Z. unfold Rsqr in Z. lra. }
    assert (Y4 : Rabs q * Rabs (2 - q) * (Rabs (sin g - sin gam) * Rabs (sin g + sin gam)) <= 1 * (2100 * d * 2)).
    { apply Rmult_le_compat; auto; apply Rmult_le_pos; apply Rabs_pos. }
    lra.
Qed.

(** The whole calculation.  [a] and [ecc] are semi-major axis and eccentricity of the orbit the exit state is on. *)
Theorem C121_apsides : forall rnd sq L e eta gm rp omega k x gam a ecc (apo : bool),
  arithmetic rnd e eta -> good_square sq e eta -> good_lib L e eta -> eta <= e * 1e-6 -> k * e <= 1e-10 -> rnd gm = gm -> x_r x <= gm -> 0 <= rp ->
  let V := inertial omega x in let P := sph_pos (x_r x) (x_theta x) (x_phi x) in
  well_posed omega x (norm V) k -> - (PI / 2) <= gam <= PI / 2 -> x_r x * norm V * sin gam = dot P V ->
  on_ellipse gm (x_r x) (norm V) gam a ecc -> 2e5 * (k * e) * a <= x_r x ->
  match apsis_r rnd sq L apo gm rp omega x with
  | None => ecc * ecc <= 8400 * (k * e) \/ 1 - 2100 * (k * e) < Rabs (sin gam)
  | Some h => let off := Rabs (1000 * h - (a * (if apo then 1 + ecc else 1 - ecc) - rp)) in let far := 4200 * (k * e) * (a * a / x_r x) + 3 * e * rp in
      off <= far + 102 * sqrt (k * e) * a /\ off * ecc <= far * ecc + 9300 * (k * e) * a
  end.
Proof.
  intros rnd sq L e eta gm rp omega k x gam a ecc apo A Sq Lb Ht Hk Gm Rg Hp V P W Hg Gam El Far.
  pose proof (ar_e _ _ _ A) as E0. destruct (C121_state rnd sq L e eta omega k x gam A Sq Lb Ht Hk W Hg Gam) as (S0 & S1 & S2). fold V in S1.
  unfold apsis_r. set (w := ie_r rnd L omega x) in *. destruct (fpa_r rnd L x w) as [g|]; cbn [obind]; [|right; exact S2]. destruct S2 as [S2 _].
  destruct W as [R1 _ N1 K1 _]. fold V in N1. set (n := norm V) in *. set (v := speed_r rnd sq w) in *. set (r := x_r x) in *. set (d := k * e) in *.
  assert (D0 : 0 <= d) by (apply Rmult_le_pos; lra). assert (ED : e <= d) by (unfold d; rewrite <- (Rmult_1_l e) at 1; apply Rmult_le_compat_r; lra).
  destruct (ellipse_shift gm r n v g gam a ecc d ltac:(lra) ltac:(lra) S0 El ltac:(lra) Far S1 S2) as (a1 & ecc1 & El1 & A1 & A2 & A3).
  assert (Far1 : 1e5 * e * a1 <= r). { assert (e * a1 <= d * (1.012 * a)) by (apply Rmult_le_compat; lra). lra. }
  assert (Co : good_cos (m_cos L g) g e) by apply (gl_cos _ _ _ Lb).
  assert (Od : ordinary rnd gm r v) by (split; [exact Gm|lra|exact S0]).
  pose proof (C119_orbit _ _ _ _ _ _ _ _ _ _ _ A Sq ltac:(lra) Ht Co Od El1 Far1) as O.
  destruct (ellipse_facts _ _ _ _ _ _ (conj R1 Rg : 1 <= r <= gm) S0 El1) as (Ec1 & Ra1 & _).
  destruct (ellipse_facts _ _ _ _ _ _ (conj R1 Rg : 1 <= r <= gm) (ltac:(lra) : 0 <= n) El) as (Ec & Ra & _).
  replace ((if apo then apo_km_r else peri_km_r) rnd sq gm rp r v (m_cos L g)) with
    (leto o := orbit_r rnd sq gm r v (m_cos L g) in Some (rnd (rnd (rnd (fst o * rnd (if apo then 1 + snd o else 1 - snd o)) - rp) / 1000))) by (destruct apo; reflexivity).
  destruct (orbit_r rnd sq gm r v (m_cos L g)) as [[a' ecc']|]; cbn [obind fst snd].
  2: { left. pose proof (Rle_abs (ecc * ecc - ecc1 * ecc1)) as T. rewrite Rabs_minus_sym in T. lra. }
  destruct O as (O1 & O2 & O3 & O4).
  (* eccentricities *)
  set (z := Rabs (ecc' - ecc1)) in *. set (y := Rabs (ecc1 - ecc)). assert (Z0 : 0 <= z) by apply Rabs_pos. assert (Y0 : 0 <= y) by apply Rabs_pos.
  assert (YS : y * (ecc1 + ecc) <= 8300 * d). { unfold y. rewrite <- (Rabs_pos_eq (ecc1 + ecc)) by lra. rewrite <- Rabs_mult. replace ((ecc1 - ecc) * (ecc1 + ecc)) with (ecc1 * ecc1 - ecc * ecc) by ring. exact A3. }
  assert (YE : y * ecc <= 8300 * d) by (eapply Rle_trans; [|exact YS]; apply Rmult_le_compat_l; lra).
  set (s := sqrt d) in *. assert (SS : s * s = d) by (apply sqrt_sqrt; auto). assert (Sp : 0 <= s) by apply sqrt_pos.
  assert (Ssm : s <= 1e-5). { unfold s. rewrite <- (sqrt_square 1e-5) by lra. apply sqrt_le_1_alt. lra. }
  assert (Y1 : y <= 91.2 * s).
  { apply Rsqr_incr_0; [|lra|lra]. unfold Rsqr. replace (91.2 * s * (91.2 * s)) with (8317.44 * (s * s)) by lra. rewrite SS.
    assert (y * y <= y * (ecc1 + ecc)); [|lra]. apply Rmult_le_compat_l; [auto|]. unfold y. apply Rabs_le. lra. }
  assert (DS : d <= 1e-5 * s) by (rewrite <- SS; apply Rmult_le_compat_r; auto).
  assert (Z1 : z <= 9.1 * s).
  { eapply Rle_trans; [exact O3|]. assert (sqrt (82 * e) <= 9.06 * s); [|lra]. rewrite <- (sqrt_square (9.06 * s)) by lra. apply sqrt_le_1_alt. replace (9.06 * s * (9.06 * s)) with (82.0836 * (s * s)) by lra. rewrite SS. lra. }
  assert (ZE : z * ecc <= 914 * d).
  { assert (z * ecc <= z * (ecc1 + y)). { apply Rmult_le_compat_l; [auto|]. unfold y. pose proof (Rle_abs (ecc - ecc1)) as T. rewrite Rabs_minus_sym in T. lra. }
    assert (z * y <= (9.1 * s) * (91.2 * s)) by (apply Rmult_le_compat; auto). replace (9.1 * s * (91.2 * s)) with (829.92 * (s * s)) in H0 by lra. rewrite SS in H0. lra. }
  (* the altitude on its own ellipse, and from there to the exact one *)
  set (sg := fun t : R => if apo then 1 + t else 1 - t). fold (sg ecc'). fold (sg ecc).
  assert (B1 : Rabs (1000 * rnd (rnd (rnd (a' * rnd (sg ecc')) - rp) / 1000) - (a1 * sg ecc1 - rp)) <= 60 * e * (a1 * a1 / r) + 3 * e * rp + 1.01 * a1 * z).
  { apply (apsis_near rnd e eta a1 r rp (sg ecc1) a' (sg ecc') z A); auto; try lra.
    - unfold sg. destruct apo; lra.
    - unfold sg, z. destruct apo; [replace (1 + ecc' - (1 + ecc1)) with (ecc' - ecc1) by ring; lra|].
      replace (1 - ecc' - (1 - ecc1)) with (- (ecc' - ecc1)) by ring. rewrite Rabs_Ropp. lra. }
  assert (B2 : Rabs (a1 * sg ecc1 - a * sg ecc) <= 2 * (2025 * d * (a * a / r)) + a * y).
  { replace (a1 * sg ecc1 - a * sg ecc) with ((a1 - a) * sg ecc1 + a * (sg ecc1 - sg ecc)) by ring. eapply Rle_trans; [apply Rabs_triang|]. rewrite !Rabs_mult, (Rabs_pos_eq a) by lra.
    assert (Rabs (sg ecc1 - sg ecc) = y). { unfold sg, y. destruct apo; [f_equal; ring|]. rewrite <- Rabs_Ropp. f_equal. ring. }
    rewrite H. assert (Rabs (sg ecc1) <= 2) by (apply Rabs_le; unfold sg; destruct apo; lra).
    assert (Rabs (a1 - a) * Rabs (sg ecc1) <= (2025 * d * (a * a / r)) * 2) by (apply Rmult_le_compat; auto; apply Rabs_pos). lra. }
  set (u := a * a / r) in *. assert (U0 : 0 <= u) by (unfold u; apply Rmult_le_pos; [apply Rle_0_sqr|left; apply Rinv_0_lt_compat; lra]).
  assert (B3 : 60 * e * (a1 * a1 / r) <= 62 * d * u).
  { assert (a1 * a1 / r <= 1.025 * u).
    { unfold u, Rdiv. rewrite <- Rmult_assoc. apply Rmult_le_compat_r; [left; apply Rinv_0_lt_compat; lra|]. assert (a1 * a1 <= (1.012 * a) * (1.012 * a)) by (apply Rmult_le_compat; lra). assert (0 <= a * a) by apply Rle_0_sqr. lra. }
    assert (0 <= a1 * a1 / r) by (apply Rmult_le_pos; [apply Rle_0_sqr|left; apply Rinv_0_lt_compat; lra]).
    assert (e * (a1 * a1 / r) <= d * (1.025 * u)) by (apply Rmult_le_compat; auto). assert (0 <= d * u) by (apply Rmult_le_pos; auto). lra. }
  assert (B4 : 1.01 * a1 * z <= 1.03 * a * z) by (apply Rmult_le_compat_r; lra).
  assert (O5 : Rabs (1000 * rnd (rnd (rnd (a' * rnd (sg ecc')) - rp) / 1000) - (a * sg ecc - rp)) <= (4200 * d * u + 3 * e * rp) + (1.03 * a * z + a * y)).
  { match goal with |- Rabs (?p - _) <= _ => replace (p - (a * sg ecc - rp)) with ((p - (a1 * sg ecc1 - rp)) + (a1 * sg ecc1 - a * sg ecc)) by ring end.
    eapply Rle_trans; [apply Rabs_triang|]. assert (0 <= d * u) by (apply Rmult_le_pos; auto). lra. }
  cbv zeta. split.
  - eapply Rle_trans; [exact O5|]. assert (a * z <= a * (9.1 * s)) by (apply Rmult_le_compat_l; lra). assert (a * y <= a * (91.2 * s)) by (apply Rmult_le_compat_l; lra).
    assert (0 <= a * s) by (apply Rmult_le_pos; lra). lra.
  - apply (Rmult_le_compat_r ecc) in O5; [|lra]. eapply Rle_trans; [exact O5|].
    assert (a * (z * ecc) <= a * (914 * d)) by (apply Rmult_le_compat_l; lra). assert (a * (y * ecc) <= a * (8300 * d)) by (apply Rmult_le_compat_l; lra).
    assert (0 <= a * d) by (apply Rmult_le_pos; lra). lra.
Qed.
