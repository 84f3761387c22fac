(** Properties C17-C20: visibility and frames. *)
Require Import Verif.Base Verif.Numpy Verif.NumpyProofs Verif.PlanetModel Verif.PlanetProofs.
Require Import Verif.LauncherModel Verif.FrameModel Verif.FrameProofs Verif.VisibilityModel Verif.GeomSpec.
Require Import Verif.TelecomModel Verif.PropTelecom.
From Coq Require Import String.
From Coq Require Import List.

(** * C20 *)
(** Every frame change keeps dot and cross products and is undone by its transpose. *)
Theorem C20_frame_changes_are_rotations : forall t u,
  proper_rotation (R1 t) /\ proper_rotation (R2 t) /\ proper_rotation (R3 t) /\
  proper_rotation (ICRF_to_BI_matrix t u) /\ proper_rotation (BI_to_BI_dprime_matrix t u).
Proof.
  intros. split; [apply R1_rot|]. split; [apply R2_rot|]. split; [apply R3_rot|].
  split; apply mmul_rot; auto using R1_rot, R2_rot, R3_rot.
Qed.
Theorem C20_lengths_kept : forall a0 d0 t u v,
  norm (ICRF_to_BI a0 d0 v) = norm v /\ norm (BI_to_BI_dprime t u v) = norm v.
Proof. intros; split; apply rot_norm; apply C20_frame_changes_are_rotations. Qed.
(** The pole with the given right ascension and declination becomes the z axis, and the ascending
    node of the equator on the ICRF equator becomes the x axis. *)
Theorem C20_pole_becomes_z : forall a0 d0,
  ICRF_to_BI a0 d0 (direction d0 a0) = V3 0 0 1 /\ ICRF_to_BI a0 d0 (direction 0 (a0 + PI / 2)) = V3 1 0 0.
Proof.
  intros. unfold ICRF_to_BI, ICRF_to_BI_matrix. rewrite !mvmul_mmul. unfold R1, R3, direction.
  rewrite cos_0, sin_0, !(Rplus_comm a0), !(sin_shift), cos_shift, !cos_plus, !sin_plus, cos_PI2, sin_PI2.
  generalize (sin2cos2 a0) (sin2cos2 d0). generalize (sin a0) (cos a0) (sin d0) (cos d0). intros s c sd cd H1 H2.
  assert (E1 : c * c = 1 - s * s) by lra. assert (E2 : cd * cd = 1 - sd * sd) by lra.
  split; apply vec_eq; vsimpl; ring_simplify;
    try replace (c ^ 2) with (1 - s * s) by (rewrite <- E1; ring);
    try replace (cd ^ 2) with (1 - sd * sd) by (rewrite <- E2; ring); try ring.
Qed.

(** * C17 *)
Lemma beta_sin : forall x, -1 <= x <= 1 ->
  let b := acos x * 180 / PI in 0 <= b <= 180 /\ cos (deg b) = x /\ sin (deg (90 - b)) = x /\ (0 < 90 - b <-> 0 < x).
Proof.
  intros x Hx b. pose proof PI_RGT_0.
  assert (Hb : deg b = acos x) by (unfold deg, b; field; lra).
  destruct (acos_bound x) as [A B].
  assert (Hs : sin (deg (90 - b)) = x).
  { replace (deg (90 - b)) with (PI / 2 - acos x) by (unfold deg, b; field; lra).
    rewrite sin_shift. apply cos_acos; auto. }
  split; [|split; [|split]]; auto.
  - unfold b, Rdiv. split.
    + apply Rmult_le_pos; [lra|]. left; apply Rinv_0_lt_compat; auto.
    + apply Rmult_le_reg_r with PI; auto. rewrite Rmult_assoc, Rinv_l; lra.
  - rewrite Hb. apply cos_acos; auto.
  - assert (E : 90 - b = (PI / 2 - acos x) * (180 / PI)) by (unfold b; field; lra).
    assert (Hk : 0 < 180 / PI) by (apply Rdiv_lt_0_compat; lra). split; intros Hp.
    + rewrite <- (cos_acos x) by auto. apply cos_gt_0; [lra|].
      assert (0 < PI / 2 - acos x) by (apply Rmult_lt_reg_r with (180 / PI); auto; lra). lra.
    + rewrite E. apply Rmult_lt_0_compat; auto.
      destruct (Rlt_dec (acos x) (PI / 2)); [lra|]. exfalso.
      assert (cos (acos x) <= 0). { apply cos_le_0; lra. }
      rewrite cos_acos in H0; lra.
Qed.

(** For unit vectors: visible exactly above the horizontal plane; elevation in [0,90]; 0 when not
    visible, otherwise its sine is the cosine of the zenith angle. *)
Theorem C17_look : forall z d, norm2 z = 1 -> norm2 d = 1 ->
  let s := look (Some z) (Some d) in
  (visible s = true <-> 0 < dot z d) /\ 0 <= elev s <= 90 /\
  (visible s = false -> elev s = 0) /\ (visible s = true -> sin (deg (elev s)) = dot z d).
Proof.
  intros z d Hz Hd. pose proof (cauchy_unit z d Hz Hd) as Hc.
  destruct (beta_sin _ Hc) as (B1 & B2 & B3 & B4). unfold look. simpl.
  rewrite np_arccos_some; auto. simpl.
  set (b := acos (dot z d) * 180 / PI) in *.
  destruct (Rltb_spec 0 (90 - b)).
  - destruct (Rltb_spec 0 (90 - b)); [|lra]. repeat split; intros; auto; try lra; try discriminate; tauto.
  - destruct (Rltb_spec 0 0); [lra|]. repeat split; intros; auto; try lra; try discriminate.
Qed.

Lemma lander_norm2 : forall rp lat lon, norm2 (lander_pos rp lat lon) = rp * rp.
Proof.
  intros. unfold lander_pos. generalize (sin2cos2 (deg lat)) (sin2cos2 (deg lon)).
  generalize (sin (deg lat)) (cos (deg lat)) (sin (deg lon)) (cos (deg lon)); intros s c s' c' H1 H2. vsimpl.
  replace (rp * c * c' * (rp * c * c') + rp * c * s' * (rp * c * s') + rp * s * (rp * s))
    with (rp * rp * (c * c * (s' * s' + c' * c') + s * s)) by ring.
  rewrite H2. replace (c * c * 1 + s * s) with 1 by lra. ring.
Qed.
Lemma lander_unit : forall rp lat lon, 0 < rp ->
  unit_of (lander_pos rp lat lon) = Some (direction (deg lat) (deg lon)) /\ norm2 (direction (deg lat) (deg lon)) = 1.
Proof.
  intros rp lat lon Hrp.
  assert (N : norm (lander_pos rp lat lon) = rp) by (apply norm_eq; [lra|apply lander_norm2]).
  assert (Hd : vscale (1 / rp) (lander_pos rp lat lon) = direction (deg lat) (deg lon)).
  { apply vec_eq; unfold lander_pos, direction; vsimpl; field; lra. }
  assert (Hnz : lander_pos rp lat lon <> vzero).
  { intros E. rewrite E in N. unfold norm in N. replace (norm2 vzero) with 0 in N by (vsimpl; ring). rewrite sqrt_0 in N. lra. }
  split.
  - rewrite unit_of_some, N, Hd; auto.
  - rewrite <- Hd. generalize (unit_norm2 _ Hnz). rewrite N. auto.
Qed.

(** API level: at every grid longitude, the target is visible iff its direction is above the local
    horizontal plane. *)
Theorem C17_lander_to_planet : forall eph target observer lat n v i,
  LanderToPlanet eph target observer lat n = Ok v -> (i < n)%nat ->
  eph target <> eph (ephemeris_name observer) ->
  exists p d s, Planet observer = Ok p /\ norm2 d = 1 /\
    d = ICRF_to_BI (a0 p) (d0 p) (vscale (1 / norm (vsub (eph target) (eph (ephemeris_name observer))))
                                     (vsub (eph target) (eph (ephemeris_name observer)))) /\
    nth_error (lv_sights v) i = Some s /\ List.length (lv_sights v) = n /\
    let zenith := direction (deg lat) (deg (nth i (lv_lon v) 0)) in
    (visible s = true <-> 0 < dot zenith d) /\ 0 <= elev s <= 90 /\
    (visible s = false -> elev s = 0) /\ (visible s = true -> sin (deg (elev s)) = dot zenith d).
Proof.
  intros eph target observer lat n v i Hv Hi Hne. unfold LanderToPlanet in Hv.
  destruct (Planet observer) as [p|] eqn:Hp; simpl in Hv; [|discriminate]. inversion Hv; subst; clear Hv. simpl.
  set (w := vsub (eph target) (eph (ephemeris_name observer))).
  assert (Hw : w <> vzero).
  { intros E. apply Hne. unfold w in E. apply vec_eq.
    - apply (f_equal vx) in E; simpl in E; lra.
    - apply (f_equal vy) in E; simpl in E; lra.
    - apply (f_equal vz) in E; simpl in E; lra. }
  set (u := vscale (1 / norm w) w).
  assert (Hu : norm2 (ICRF_to_BI (a0 p) (d0 p) u) = 1).
  { unfold norm2, ICRF_to_BI. destruct (C20_frame_changes_are_rotations (a0 p) (d0 p)) as (_ & _ & _ & (A & _) & _).
    rewrite A. apply unit_norm2; auto. }
  assert (Hlen : (i < List.length (linspace 0 360 n))%nat) by (rewrite linspace_length; auto).
  exists p, (ICRF_to_BI (a0 p) (d0 p) u), (look (unit_of (lander_pos (RP p) lat (nth i (linspace 0 360 n) 0))) (target_direction eph p target observer)).
  split; auto. split; auto. split; auto. split.
  { rewrite nth_error_map. rewrite (nth_error_nth' _ 0 Hlen). reflexivity. }
  split; [rewrite map_length; apply linspace_length|].
  destruct (Planet_facts _ _ Hp) as (HR & _).
  destruct (lander_unit (RP p) lat (nth i (linspace 0 360 n) 0) HR) as (E & En). rewrite E.
  unfold target_direction. fold w. rewrite unit_of_some; auto. simpl obind. apply C17_look; auto.
Qed.

Lemma mapr_nth : forall {A B} (f : A -> res B) l r i a, mapr f l = Ok r -> nth_error l i = Some a ->
  exists b, f a = Ok b /\ nth_error r i = Some b.
Proof.
  intros A B f l; induction l as [|x l IH]; intros r i a H Hi; [destruct i; discriminate|].
  simpl in H. destruct (f x) as [b|] eqn:Hf; simpl in H; [|discriminate].
  destruct (mapr f l) as [bs|] eqn:Hm; simpl in H; [|discriminate]. inversion H; subst.
  destruct i; simpl in *; [inversion Hi; subst; eauto|]. eapply IH; eauto.
Qed.
Lemma mapr_length : forall {A B} (f : A -> res B) l r, mapr f l = Ok r -> List.length r = List.length l.
Proof.
  intros A B f l; induction l as [|x l IH]; intros r H; simpl in H; [inversion H; auto|].
  destruct (f x); simpl in H; [|discriminate]. destruct (mapr f l) eqn:Hm; simpl in H; [|discriminate].
  inversion H; simpl. f_equal; auto.
Qed.

(** Straight-line meaning of the horizontal-plane test for a lander on the sphere of radius rad. *)
Lemma horizon_clear : forall rad l o, norm2 l = rad * rad -> 0 < rad ->
  (0 < dot l (vsub o l) -> clear_segment rad l o) /\
  (dot l (vsub o l) < 0 -> blocked rad l (vsub o l)).
Proof.
  intros rad l o Hl Hr.
  assert (E : forall s, norm2 (ray l (vsub o l) s) = rad * rad + 2 * s * dot l (vsub o l) + s * s * norm2 (vsub o l)).
  { intros s. rewrite <- Hl. unfold ray. vsimpl. ring. }
  set (q := dot l (vsub o l)) in *. set (w := norm2 (vsub o l)) in *.
  assert (Hw : 0 <= w) by apply norm2_nonneg. split.
  - intros Hq s Hs. rewrite E. assert (0 < 2 * s * q) by (apply Rmult_lt_0_compat; lra).
    assert (0 <= s * s * w) by (apply Rmult_le_pos; auto; nra). lra.
  - intros Hq. assert (Hw' : 0 < w).
    { destruct Hw as [|Hw]; auto. exfalso. symmetry in Hw. apply norm2_zero in Hw. unfold q in Hq. rewrite Hw in Hq.
      vsimpl. unfold dot in Hq; simpl in Hq. lra. }
    exists (- q / w). split.
    + apply Rmult_le_pos; [lra|]. left; apply Rinv_0_lt_compat; auto.
    + rewrite E. replace (rad * rad + 2 * (- q / w) * q + - q / w * (- q / w) * w) with (rad * rad - q * q / w) by (field; lra).
      assert (0 < q * q / w) by (apply Rdiv_lt_0_compat; nra). lra.
Qed.

(** Lander to orbiter: the reported range is the straight-line distance, the flag is the horizontal
    plane test, and a visible orbiter has a line of sight that stays outside the planet, while an
    orbiter strictly below the plane is hidden behind it. *)
Theorem C17_lander_to_orbiter : forall name lat orbit T n ts lons pts i,
  LanderToOrbiter name lat orbit T n = Ok (ts, lons, pts) -> (i < n)%nat ->
  exists p o rng s, Planet name = Ok p /\ nth_error orbit i = Some o /\ nth_error pts i = Some (rng, s) /\
    let l := vscale (RP p) (direction (deg lat) (deg (nth i lons 0))) in
    let w := vsub (vscale (RP p) o) l in
    rng = norm w /\
    (w <> vzero -> (visible s = true <-> 0 < dot l w) /\ 0 <= elev s <= 90 /\
       (visible s = false -> elev s = 0) /\ (visible s = true -> sin (deg (elev s)) * RP p * rng = dot l w)) /\
    (visible s = true -> clear_segment (RP p) l (vscale (RP p) o)) /\
    (visible s = false -> dot l w < 0 -> blocked (RP p) l w).
Proof.
  intros name lat orbit T n ts lons pts i H Hi. unfold LanderToOrbiter in H.
  destruct (Planet name) as [p|] eqn:Hp; simpl in H; [|discriminate].
  set (ls := linspace 0 (360 / (2 * PI / OMEGA p) * T) n) in *.
  destruct (mapr _ (seq 0 n)) as [r|] eqn:Hm in H; simpl in H; [|discriminate]. inversion H; subst; clear H.
  assert (Hs : nth_error (seq 0 n) i = Some i).
  { rewrite (nth_error_nth' _ 0%nat) by (rewrite seq_length; auto). rewrite seq_nth; auto. }
  destruct (mapr_nth _ _ _ _ _ Hm Hs) as (b & Hb & Hn).
  destruct (nth_error ls i) as [lon|] eqn:Hlon; [|discriminate].
  destruct (nth_error orbit i) as [o|] eqn:Ho; [|discriminate]. inversion Hb; subst; clear Hb.
  destruct (Planet_facts _ _ Hp) as (HR & _).
  assert (El : lander_pos (RP p) lat lon = vscale (RP p) (direction (deg lat) (deg (nth i ls 0)))).
  { rewrite (nth_error_nth _ _ 0 Hlon). unfold lander_pos, direction. apply vec_eq; vsimpl; ring. }
  destruct (lander_unit (RP p) lat lon HR) as (E & En).
  exists p, o. do 2 eexists. split; auto. split; auto. split; [exact Hn|].
  intros l w. fold l in El. rewrite El in *. fold w in Hn |- *. split; auto.
  assert (Ed : direction (deg lat) (deg (nth i ls 0)) = direction (deg lat) (deg lon)) by (rewrite (nth_error_nth _ _ 0 Hlon); auto).
  assert (Hl : norm2 l = RP p * RP p) by (unfold l; rewrite norm2_vscale, Ed, En; ring).
  assert (Hlook : w <> vzero -> (visible (look (unit_of l) (unit_of w)) = true <-> 0 < dot l w) /\
    0 <= elev (look (unit_of l) (unit_of w)) <= 90 /\
    (visible (look (unit_of l) (unit_of w)) = false -> elev (look (unit_of l) (unit_of w)) = 0) /\
    (visible (look (unit_of l) (unit_of w)) = true -> sin (deg (elev (look (unit_of l) (unit_of w)))) * RP p * norm w = dot l w)).
  { intros Hw. rewrite E, (unit_of_some w); auto.
    destruct (C17_look (direction (deg lat) (deg lon)) (vscale (1 / norm w) w) En (unit_norm2 w Hw)) as (L1 & L2 & L3 & L4).
    pose proof (norm_pos w Hw) as Hnw.
    assert (Hdot : dot l w = RP p * norm w * dot (direction (deg lat) (deg lon)) (vscale (1 / norm w) w)).
    { unfold l. rewrite Ed, dot_vscale_l, dot_vscale_r. field. lra. }
    assert (0 < RP p * norm w) by (apply Rmult_lt_0_compat; auto).
    split; [|split; [|split]]; auto.
    - rewrite L1, Hdot. split; intros; [apply Rmult_lt_0_compat; auto|].
      apply Rmult_lt_reg_l with (RP p * norm w); auto. rewrite Rmult_0_r; auto.
    - intros Hv. rewrite (L4 Hv), Hdot. ring. }
  destruct (horizon_clear (RP p) l (vscale (RP p) o) Hl HR) as (C1 & C2). fold w in C1, C2.
  split; [exact Hlook|]. split.
  - intros Hv. apply C1. apply Hlook; auto. intros Hw. rewrite Hw, unit_of_none in Hv.
    unfold look in Hv. destruct (unit_of l); simpl in Hv; destruct (Rltb_spec 0 0); try lra; discriminate.
  - intros _. exact C2.
Qed.

(** The lander's longitude advances with the planet's rotation. *)
Theorem C17_rotation_phase : forall name lat orbit T n ts lons pts p i,
  LanderToOrbiter name lat orbit T n = Ok (ts, lons, pts) -> Planet name = Ok p -> (2 <= n)%nat -> (i < n)%nat ->
  deg (nth i lons 0) = OMEGA p * nth i ts 0.
Proof.
  intros name lat orbit T n ts lons pts p i H Hp Hn Hi. unfold LanderToOrbiter in H. rewrite Hp in H. simpl in H.
  destruct (mapr _ (seq 0 n)) as [r|] eqn:Hm in H; simpl in H; [|discriminate]. inversion H; subst; clear H.
  rewrite !linspace_nth; auto. destruct (Planet_facts _ _ Hp) as (_ & _ & _ & _ & _ & _ & _ & Ho & _).
  pose proof PI_RGT_0. assert (INR (n - 1) <> 0) by (apply not_0_INR; lia). unfold deg. field. repeat split; auto; lra.
Qed.
Example C17_witness : norm2 (direction 0 0) = 1 /\ norm2 (V3 (3/5) (4/5) 0) = 1 /\
  exists pts, LanderToOrbiter "MARS" 10 [V3 2 0 0; V3 0 2 0] 1000 2 = Ok pts.
Proof.
  split; [unfold direction; vsimpl; rewrite cos_0, sin_0; ring|]. split; [vsimpl; lra|].
  unfold LanderToOrbiter. simpl. eexists; reflexivity.
Qed.

(** * C18 *)
Lemma sees_spec : forall n a, norm2 n = 1 -> 1 <= norm2 a -> (snd (orbiter_sees n a) = false <-> blocked 1 a n).
Proof.
  intros n a Hn Ha. unfold orbiter_sees; simpl.
  assert (E : forall s, norm2 (ray a n s) = norm2 a + 2 * s * dot a n + s * s).
  { intros s. transitivity (norm2 a + 2 * s * dot a n + s * s * norm2 n); [unfold ray; vsimpl; ring|rewrite Hn; ring]. }
  assert (Ec : norm2 (cross (vsub vzero a) n) = norm2 a - dot a n * dot a n).
  { rewrite cross_norm2, Hn. vsimpl. ring. }
  assert (Ed : dot n (vscale (-1) a) = - dot a n) by (vsimpl; ring). rewrite Ed.
  set (q := dot a n) in *.
  assert (Hd : norm (cross (vsub vzero a) n) < 1 <-> norm2 a - q * q < 1).
  { rewrite <- Ec. pose proof (norm_sq (cross (vsub vzero a) n)). pose proof (norm_nonneg (cross (vsub vzero a) n)).
    set (k := norm (cross (vsub vzero a) n)) in *. split; intros; nra. }
  destruct (Rltb_spec (norm (cross (vsub vzero a) n)) 1) as [H1|H1], (Rltb_spec 0 (- q)) as [H2|H2]; simpl; split; intros H; try discriminate; auto.
  - exists (- q). split; [lra|]. rewrite E. apply Hd in H1. lra.
  - exfalso. destruct H as (s & Hs & Hlt). rewrite E in Hlt. assert (0 <= s * q) by (apply Rmult_le_pos; lra). nra.
  - exfalso. destruct H as (s & Hs & Hlt). rewrite E in Hlt. apply H1, Hd. generalize (Rle_0_sqr (s + q)); unfold Rsqr; lra.
  - exfalso. destruct H as (s & Hs & Hlt). rewrite E in Hlt. assert (0 <= s * q) by (apply Rmult_le_pos; lra). nra.
Qed.

(** The target is reported hidden exactly when the half-line towards it meets the planet's interior. *)
Theorem C18_occultation_exact : forall eph target observer orbit T n ts vis i a,
  OrbiterToPlanet eph target observer orbit T n = Ok (ts, vis) -> (i < n)%nat ->
  nth_error orbit i = Some a -> 1 <= norm2 a -> eph target <> eph (ephemeris_name observer) ->
  exists p d, Planet observer = Ok p /\ List.length vis = n /\
    d = ICRF_to_BI (a0 p) (d0 p) (vscale (1 / norm (vsub (eph target) (eph (ephemeris_name observer))))
                                     (vsub (eph target) (eph (ephemeris_name observer)))) /\
    norm2 d = 1 /\ (nth i vis true = false <-> blocked 1 a d).
Proof.
  intros eph target observer orbit T n ts vis i a H Hi Ha Hout Hne. unfold OrbiterToPlanet in H.
  destruct (Planet observer) as [p|] eqn:Hp; simpl in H; [|discriminate].
  destruct (mapr _ (seq 0 n)) as [r|] eqn:Hm in H; simpl in H; [|discriminate]. inversion H; subst; clear H.
  set (w := vsub (eph target) (eph (ephemeris_name observer))) in *.
  assert (Hw : w <> vzero).
  { intros E. apply Hne. unfold w in E. apply vec_eq.
    - apply (f_equal vx) in E; simpl in E; lra.
    - apply (f_equal vy) in E; simpl in E; lra.
    - apply (f_equal vz) in E; simpl in E; lra. }
  set (d := ICRF_to_BI (a0 p) (d0 p) (vscale (1 / norm w) w)).
  assert (Hd : norm2 d = 1).
  { unfold norm2, d, ICRF_to_BI. destruct (C20_frame_changes_are_rotations (a0 p) (d0 p)) as (_ & _ & _ & (A & _) & _).
    rewrite A. apply unit_norm2; auto. }
  exists p, d. split; auto. split; [rewrite (mapr_length _ _ _ Hm), seq_length; auto|]. split; auto. split; auto.
  assert (Hs : nth_error (seq 0 n) i = Some i).
  { rewrite (nth_error_nth' _ 0%nat) by (rewrite seq_length; auto). rewrite seq_nth; auto. }
  destruct (mapr_nth _ _ _ _ _ Hm Hs) as (b & Hb & Hn). rewrite Ha in Hb.
  unfold target_direction in Hb. fold w in Hb. rewrite unit_of_some in Hb; auto. simpl in Hb. fold d in Hb.
  injection Hb as Hb. rewrite (nth_error_nth _ _ _ Hn), <- Hb. apply sees_spec; auto.
Qed.
Example C18_witness : 1 <= norm2 (V3 0 0 2) /\ blocked 1 (V3 0 0 2) (V3 0 0 (-1)) /\ ~ blocked 1 (V3 0 0 2) (V3 0 0 1) /\
  exists r, OrbiterToPlanet (fun s => if string_dec s "EARTH" then V3 1 0 0 else vzero) "EARTH" "MARS" [V3 0 0 2; V3 2 0 0] 100 2 = Ok r.
Proof.
  split; [vsimpl; lra|]. split; [exists 2; split; [lra|]; unfold ray; vsimpl; lra|]. split.
  - intros (s & Hs & H). unfold ray in H. unfold norm2, dot, vadd, vscale in H. simpl in H. nra.
  - unfold OrbiterToPlanet. simpl. eexists; reflexivity.
Qed.

(** * C19 *)
Theorem C19_time_grid_direction : forall eph target observer lat n v p,
  LanderToPlanet eph target observer lat n = Ok v -> Planet observer = Ok p -> (2 <= n)%nat ->
  List.length (lv_t v) = n /\ nth 0 (lv_t v) 0 = 0 /\
  (0 < OMEGA p -> forall i, (S i < n)%nat -> nth i (lv_t v) 0 < nth (S i) (lv_t v) 0) /\
  (OMEGA p < 0 -> forall i, (S i < n)%nat -> nth (S i) (lv_t v) 0 < nth i (lv_t v) 0 <= 0) /\
  (OMEGA p < 0 <-> observer = "VENUS"%string \/ observer = "URANUS"%string).
Proof.
  intros eph target observer lat n v p Hv Hp Hn. unfold LanderToPlanet in Hv. rewrite Hp in Hv. simpl in Hv.
  inversion Hv; subst; clear Hv. simpl.
  pose proof PI_RGT_0. assert (Hn1 : 0 < INR (n - 1)) by (apply lt_0_INR; lia).
  split; [apply linspace_length|]. split; [rewrite linspace_nth; try lia; simpl; ring|].
  split; [|split].
  - intros Ho i Hi. rewrite !linspace_nth; try lia. rewrite S_INR.
    assert (0 < (2 * PI / OMEGA p - 0) / INR (n - 1)). { rewrite Rminus_0_r. pos. } lra.
  - intros Ho i Hi. rewrite !linspace_nth; try lia. rewrite S_INR.
    assert (Hneg : (2 * PI / OMEGA p - 0) / INR (n - 1) < 0).
    { assert (0 < (2 * PI / - OMEGA p) / INR (n - 1)) by (pos).
      replace ((2 * PI / OMEGA p - 0) / INR (n - 1)) with (- ((2 * PI / - OMEGA p) / INR (n - 1))) by (field; lra). lra. }
    split; [lra|]. assert (0 <= INR i) by apply pos_INR. nra.
  - each_planet Hp; simpl; (split; [intros; try lra; auto|intros [E|E]; try discriminate E; lra]).
Qed.

(** Downlink from a lander on VENUS or URANUS: the accumulated data volume is never positive and ends
    at minus rate times the rotation period when the link is always on. *)
Theorem C19_retrograde_data_volume : forall eph target observer lat n v vol rate tx p,
  LanderToPlanet eph target observer lat n = Ok v -> Planet observer = Ok p -> (2 <= n)%nat -> OMEGA p < 0 -> 0 <= rate ->
  compute_data_volume rate (lv_t v) (map visible (lv_sights v)) tx = Ok vol ->
  (forall i, (i < n)%nat -> nth i vol 0 <= 0) /\
  ((forall i, (i < n)%nat -> on_at (map visible (lv_sights v)) tx i) -> nth (n - 1) vol 0 = rate * (2 * PI / OMEGA p)).
Proof.
  intros eph target observer lat n v vol rate tx p Hv Hp Hn Ho Hr Hvol.
  destruct (C19_time_grid_direction _ _ _ _ _ _ _ Hv Hp Hn) as (L & T0 & _ & Tneg & _). specialize (Tneg Ho).
  assert (Tlast : nth (n - 1) (lv_t v) 0 = 2 * PI / OMEGA p).
  { unfold LanderToPlanet in Hv. rewrite Hp in Hv. simpl in Hv. inversion Hv; simpl.
    rewrite linspace_nth; try lia. field. split; try lra; apply not_0_INR; lia. }
  unfold compute_data_volume in Hvol. cbv zeta in Hvol.
  set (vis := map visible (lv_sights v)) in *. set (w := stretch vis (List.length tx)) in *. set (u := stretch tx (List.length vis)) in *.
  destruct (Nat.eqb_spec (List.length w) (List.length u)) as [Hl|]; simpl in Hvol; [|discriminate].
  destruct (cumtrapz_spec _ _ _ Hvol) as (A & B & C & D).
  rewrite map_length, bits_length in A, B, D; auto. rewrite B, L in D. rewrite L in B.
  assert (Hy : forall i, (i < n)%nat -> nth i (map (fun x => rate * x) (bits w u)) 0 = rate * b2R (flag vis i && flag tx i)).
  { intros i Hi. replace 0 with (rate * 0) at 1 by ring. rewrite (map_nth (fun x => rate * x)), bits_nth; auto.
    unfold w, u. rewrite !stretch_nth; auto; fold w; fold u; lia. }
  assert (Hb : forall i, 0 <= rate * b2R (flag vis i && flag tx i)).
  { intros i. apply Rmult_le_pos; auto. destruct (flag vis i && flag tx i); simpl; lra. }
  split.
  - intros i. induction i as [|i IH]; intros Hi; [rewrite C; lra|]. specialize (IH ltac:(lia)). rewrite D; auto.
    rewrite !Hy by lia. pose proof (Hb i). pose proof (Hb (S i)). specialize (Tneg i Hi).
    set (dt := nth (S i) (lv_t v) 0 - nth i (lv_t v) 0). assert (dt < 0) by (unfold dt; lra).
    set (q1 := rate * b2R (flag vis i && flag tx i)) in *.
    set (q2 := rate * b2R (flag vis (S i) && flag tx (S i))) in *.
    assert (0 <= - dt * (q1 + q2)) by (apply Rmult_le_pos; lra). lra.
  - intros Hon. rewrite <- Tlast.
    assert (G : forall i, (i < n)%nat -> nth i vol 0 = rate * nth i (lv_t v) 0).
    { intros i. induction i as [|i IH]; intros Hi; [rewrite C, T0; ring|]. rewrite D; auto. rewrite !Hy, IH by lia.
      destruct (Hon i ltac:(lia)) as [-> ->]. destruct (Hon (S i) Hi) as [-> ->]. simpl. lra. }
    apply G. lia.
Qed.
Example C19_witness : exists v vol, LanderToPlanet (fun s => if string_dec s "EARTH" then V3 1 0 0 else vzero) "EARTH" "VENUS" 0 3 = Ok v /\
  compute_data_volume 1 (lv_t v) (map visible (lv_sights v)) [true; true; true] = Ok vol /\ OMEGA VENUS < 0.
Proof.
  eexists. unfold LanderToPlanet. simpl rbind. 
  assert (H : exists vol, compute_data_volume 1 (linspace 0 (2 * PI / OMEGA VENUS) 3) (map visible (map (fun lon => look (unit_of (lander_pos (RP VENUS) 0 lon)) (target_direction (fun s => if string_dec s "EARTH" then V3 1 0 0 else vzero) VENUS "EARTH" "VENUS")) (linspace 0 360 3))) [true; true; true] = Ok vol).
  { apply C16_defined. rewrite !map_length, !linspace_length. simpl. repeat split; auto. discriminate. }
  destruct H as (vol & H). exists vol. split; [reflexivity|]. split; [exact H|]. simpl; lra.
Qed.
