(** C121, continued: what the bounds amount to in binary64. *)
From Coq Require Import ZArith Reals Lra Lia.
From Flocq Require Import Core.
Require Import Verif.Base Verif.RoundSpec Verif.PropRound64 Verif.PlanetModel Verif.OrbiterModel Verif.ConicSpec Verif.OrbiterProofs Verif.RunningSpec Verif.PropRunning64 Verif.PropUnits64
  Verif.OrbitRoundModel Verif.OrbitRoundSpec Verif.PropOrbitRound Verif.PropOrbitRound64 Verif.ExitRoundModel Verif.ExitRoundSpec Verif.PropExitRound.
Local Open Scope R_scope.

(** If the inertial speed is at least a tenth of the speeds it is put together from and the semi-major axis at most a
    hundred times the distance: the altitudes are within 1.6e-9 of the semi-major axis (1.6 centimetres for ten
    thousand kilometres) if the eccentricity is at least 0.01, and within 4e-6 of it in any case; they are undefined only if
    the eccentricity is below 4e-6 or the motion is within 3e-12 (in the sine) of vertical. *)
Theorem C121_binary64 : forall sq L gm rp omega x gam a ecc (apo : bool), let e := bpow radix2 (-53) in
  good_square sq e (bpow radix2 (-1075)) -> good_lib L e (bpow radix2 (-1075)) -> b64 gm = gm -> x_r x <= gm -> 0 <= rp <= x_r x ->
  let V := inertial omega x in let P := sph_pos (x_r x) (x_theta x) (x_phi x) in
  well_posed omega x (norm V) 10 -> - (PI / 2) <= gam <= PI / 2 -> x_r x * norm V * sin gam = dot P V ->
  on_ellipse gm (x_r x) (norm V) gam a ecc -> a <= 100 * x_r x ->
  match apsis_r b64 sq L apo gm rp omega x with
  | None => ecc <= 4e-6 \/ 1 - 3e-12 < Rabs (sin gam)
  | Some h => let off := Rabs (1000 * h - (a * (if apo then 1 + ecc else 1 - ecc) - rp)) in
      off <= 4e-6 * a /\ (0.01 <= ecc -> off <= 1.6e-9 * a)
  end.
Proof.
  intros sq L gm rp omega x gam a ecc apo e Sq Lb Gm Rg Hp V P W Hg Gam El Hfar. destruct small64 as [_ S2]. fold e in S2. pose proof e53_num as EN. fold e in EN.
  pose proof (wp_r _ _ _ _ W) as R1. pose proof (wp_n _ _ _ _ W) as N1. fold V in N1. set (r := x_r x) in *.
  destruct (ellipse_facts _ _ _ _ _ _ (conj R1 Rg) (ltac:(lra) : 0 <= norm V) El) as (Ec & Ra & _).
  set (d := 10 * e). assert (D : 0 <= d <= 1.12e-15) by (unfold d; lra).
  assert (DA : d * a <= 1.12e-15 * a) by (apply Rmult_le_compat_r; lra).
  pose proof (C121_apsides b64 sq L e _ gm rp omega 10 x gam a ecc apo C115_binary64 Sq Lb S2 ltac:(fold d; lra) Gm Rg (proj1 Hp) W Hg Gam El ltac:(fold d; fold r; lra)) as X.
  fold d in X. fold r in X. destruct (apsis_r _ _ _ _ _ _ _ _) as [h|].
  2: { destruct X as [X|X]; [left|right; lra]. nra. }
  cbv zeta in X |- *. set (off := Rabs _) in *. destruct X as [X1 X2].
  assert (Wf : 0 <= a * a / r <= 100 * a).
  { split. - apply Rmult_le_pos; [apply Rmult_le_pos; lra|]. left. apply Rinv_0_lt_compat. lra.
    - apply Rmult_le_reg_r with r; [lra|]. unfold Rdiv. rewrite Rmult_assoc, Rinv_l by lra. assert (a * a <= a * (100 * r)) by (apply Rmult_le_compat_l; lra). lra. }
  assert (F1 : d * (a * a / r) <= 1.12e-15 * (100 * a)) by (apply Rmult_le_compat; lra).
  assert (F2 : e * rp <= 1.12e-16 * (2 * a)) by (apply Rmult_le_compat; lra).
  set (far := 4200 * d * (a * a / r) + 3 * e * rp) in *. assert (F : far <= 5e-10 * a) by (unfold far; lra).
  assert (SD : sqrt d <= 3.4e-8). { rewrite <- (sqrt_square 3.4e-8) by lra. apply sqrt_le_1_alt. lra. }
  split.
  - assert (102 * sqrt d * a <= 102 * 3.4e-8 * a) by (apply Rmult_le_compat_r; lra). lra.
  - intros Hx. apply Rmult_le_reg_r with ecc; [lra|]. eapply Rle_trans; [exact X2|].
    assert (far * ecc <= 5e-10 * a * ecc) by (apply Rmult_le_compat_r; lra). assert (a * 0.01 <= a * ecc) by (apply Rmult_le_compat_l; lra). lra.
Qed.

(** Exit eastward at 9 km/s over the equator of the Earth meets the hypotheses. *)
Definition x_east : exit_state := mkExit 6600000 0 0 9000 0 0.
Example C121_witness : let gm := 3.986004e14 in let e := bpow radix2 (-53) in let V := inertial 7e-5 x_east in let P := sph_pos 6600000 0 0 in
  good_square square64 e (bpow radix2 (-1075)) /\ good_lib exact_lib e (bpow radix2 (-1075)) /\ b64 gm = gm /\ 0 <= 6371000 <= x_r x_east /\
  well_posed 7e-5 x_east (norm V) 10 /\ norm V = 9462 /\ x_r x_east * norm V * sin 0 = dot P V /\
  exists a ecc, on_ellipse gm 6600000 (norm V) 0 a ecc /\ 0.01 <= ecc /\ a <= 100 * 6600000 /\ forall apo, apsis_r b64 square64 exact_lib apo gm 6371000 7e-5 x_east <> None.
Proof.
  cbv zeta. assert (VV : inertial 7e-5 x_east = V3 0 9462 0).
  { unfold inertial, inertial_vel, rel_vel, up_dir, east_dir, north_dir, x_east, sph_pos, up_dir, vadd, vscale, cross. cbn [vx vy vz x_r x_v x_g x_psi x_theta x_phi]. rewrite sin_0, cos_0. f_equal; lra. }
  assert (NV : norm (inertial 7e-5 x_east) = 9462). { rewrite VV. apply norm_eq; [lra|]. unfold norm2, dot. cbn [vx vy vz]. lra. }
  assert (Lb : good_lib exact_lib (bpow radix2 (-53)) (bpow radix2 (-1075))).
  { pose proof (bpow_ge_0 radix2 (-53)). pose proof (bpow_ge_0 radix2 (-1075)). constructor; cbn [exact_lib m_sin m_cos m_acos m_dot].
    - intros y. rewrite Rminus_diag_eq, Rabs_R0 by reflexivity. lra.
    - intros y. rewrite Rminus_diag_eq, Rabs_R0 by reflexivity. lra.
    - intros y _. rewrite Rminus_diag_eq, Rabs_R0 by reflexivity. lra.
    - intros u w. rewrite Rminus_diag_eq, Rabs_R0 by reflexivity. apply Rplus_le_le_0_compat; [|lra]. apply Rmult_le_pos; [lra|].
      pose proof (Rabs_pos (vx u * vx w)). pose proof (Rabs_pos (vy u * vy w)). pose proof (Rabs_pos (vz u * vz w)). lra. }
  assert (Gm : b64 3.986004e14 = 3.986004e14). { replace 3.986004e14 with (IZR 398600400000000) by lra. apply b64_int. reflexivity. }
  assert (Wp : well_posed 7e-5 x_east (norm (inertial 7e-5 x_east)) 10). { rewrite NV. unfold x_east. constructor; cbn [x_r x_v]; try lra. rewrite Rabs_pos_eq by lra. lra. }
  assert (Dt : x_r x_east * norm (inertial 7e-5 x_east) * sin 0 = dot (sph_pos 6600000 0 0) (inertial 7e-5 x_east)).
  { rewrite VV, sin_0. unfold dot, sph_pos, up_dir, vscale. cbn [vx vy vz]. rewrite sin_0, cos_0. ring. }
  split; [apply square64_good|]. split; [exact Lb|]. split; [exact Gm|]. split; [cbn [x_r x_east]; lra|]. split; [exact Wp|]. split; [exact NV|]. split; [exact Dt|].
  assert (El : on_ellipse 3.986004e14 6600000 9462 0 (3.986004e14 * 6600000 / (2 * 3.986004e14 - 6600000 * (9462 * 9462))) (6600000 * (9462 * 9462) / 3.986004e14 - 1)).
  { split; [lra|]. split; [lra|]. rewrite cos_0. split; lra. }
  rewrite <- NV in El at 1. eexists _, _. split; [exact El|]. split; [lra|]. split; [lra|]. intros apo N.
  pose proof (C121_binary64 square64 exact_lib 3.986004e14 6371000 7e-5 x_east 0 _ _ apo square64_good Lb Gm ltac:(cbn [x_r x_east]; lra) ltac:(cbn [x_r x_east]; lra) Wp
    ltac:(pose proof PI_RGT_0; lra) Dt El ltac:(cbn [x_r x_east]; lra)) as H.
  rewrite N in H. rewrite sin_0, Rabs_R0 in H. lra.
Qed.
