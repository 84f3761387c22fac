(** Geometry of orbital elements and conics, shared by the approach and orbiter models. *)
From Coq Require Import Nsatz.
Require Import Verif.Base Verif.FrameModel Verif.FrameProofs Verif.ApproachModel Verif.ConicSpec.
Local Open Scope R_scope.

Lemma cos_sin_acos : forall x, -1 <= x <= 1 -> cos (acos x) = x /\ 0 <= sin (acos x) /\
  sin (acos x) * sin (acos x) = 1 - x * x.
Proof.
  intros x Hx. assert (E : cos (acos x) = x) by (apply cos_acos; auto).
  repeat split; auto. - apply sin_acos_nonneg; auto.
  - generalize (sin2cos2 (acos x)). rewrite E. lra.
Qed.

Lemma sq_eq_nonneg : forall a b, 0 <= a -> 0 <= b -> a * a = b * b -> a = b.
Proof. intros; nra. Qed.

(** The two-branch arccos used for OMEGA and omega recovers the angle: its cosine is [c] and its sine
    is [s], when c^2+s^2=1 and the branch condition decides the sign of s. *)
Lemma branch_angle : forall c s (b : bool) a, c * c + s * s = 1 ->
  (b = true -> 0 <= s) -> (b = false -> s <= 0) ->
  a = (if b then acos c else 2 * PI - acos c) -> cos a = c /\ sin a = s.
Proof.
  intros c s b a H Ht Hf ->. assert (Hc : -1 <= c <= 1) by nra.
  destruct (cos_sin_acos c Hc) as (A & B & C).
  destruct b.
  - split; auto. apply sq_eq_nonneg; auto. lra.
  - replace (2 * PI - acos c) with (- acos c + 2 * PI) by ring.
    rewrite cos_period with (k := 1%nat) || idtac.
    replace (cos (- acos c + 2 * PI)) with (cos (- acos c)) by (rewrite <- (cos_period _ 1); simpl INR; f_equal; ring).
    replace (sin (- acos c + 2 * PI)) with (sin (- acos c)) by (rewrite <- (sin_period _ 1); simpl INR; f_equal; ring).
    rewrite cos_neg, sin_neg. split; auto. specialize (Hf eq_refl).
    assert (sin (acos c) = - s) by (apply sq_eq_nonneg; auto; lra). lra.
Qed.

(** Orbit direction built from node, inclination and argument of periapsis. *)
Definition orbit_dir (Om i om th : R) : vec :=
  V3 (cos Om * cos (th + om) - sin Om * cos i * sin (th + om))
     (sin Om * cos (th + om) + cos Om * cos i * sin (th + om))
     (sin i * sin (th + om)).
Definition orbit_normal (Om i : R) : vec := V3 (sin Om * sin i) (- cos Om * sin i) (cos i).

Lemma elements_frame : forall H P k N i Om om,
  norm2 H = 1 -> norm2 P = 1 -> dot H P = 0 -> 0 < k ->
  unit_of (cross zaxis (vscale k H)) = Some N ->
  np_arccos (vz H) = Some i -> OMEGA_of N = Some Om -> omega_of N P = Some om ->
  (forall th, orbit_dir Om i om th = perifocal P H th) /\ orbit_normal Om i = H /\ 0 < sin i /\
  N = V3 (cos Om) (sin Om) 0.
Proof.
  intros [hx hy hz] [px py pz] k N i Om om HH HP HPH Hk HN Hi HOm Hom.
  apply unit_of_inv in HN. destruct HN as (Hnz & HN & HN1).
  unfold norm2, dot in HH, HP, HPH. simpl in HH, HP, HPH, Hi.
  set (n := sqrt (hx * hx + hy * hy)).
  assert (Hn0 : 0 < hx * hx + hy * hy).
  { destruct (Rle_lt_dec (hx * hx + hy * hy) 0) as [Hle|]; auto. exfalso. apply Hnz.
    assert (hx = 0) by nra. assert (hy = 0) by nra. subst. apply vec_eq; unfold zaxis; vsimpl; ring. }
  assert (Hn : 0 < n) by (apply sqrt_lt_R0; auto).
  assert (Hnn : n * n = hx * hx + hy * hy) by (apply sqrt_sqrt; lra).
  assert (HNx : N = V3 (- hy / n) (hx / n) 0).
  { assert (Hnorm : norm (cross zaxis (vscale k (V3 hx hy hz))) = k * n).
    { apply norm_eq; [apply Rmult_le_pos; lra|]. unfold zaxis. vsimpl. 
      replace (k * n * (k * n)) with (k * k * (n * n)) by ring. rewrite Hnn. ring. }
    rewrite HN, Hnorm. apply vec_eq; unfold zaxis; vsimpl; field; lra. }
  set (c := - hy / n) in *. set (s := hx / n) in *.
  assert (Hcs : c * c + s * s = 1).
  { unfold c, s. replace (- hy / n * (- hy / n) + hx / n * (hx / n)) with ((hx * hx + hy * hy) / (n * n)) by (field; lra).
    rewrite Hnn. field. lra. }
  assert (Hhx : hx = n * s) by (unfold s; field; lra).
  assert (Hhy : hy = - (n * c)) by (unfold c; field; lra).
  clearbody c s n. subst hx hy.
  assert (Hnk : n * n + hz * hz = 1) by (clear -HH Hcs; assert (n * n * (c * c + s * s) + hz * hz = 1) by lra; rewrite Hcs in H; lra).
  assert (Hhz : -1 <= hz <= 1) by nra.
  rewrite np_arccos_some in Hi; auto. inversion Hi; subst i; clear Hi.
  destruct (cos_sin_acos hz Hhz) as (Ci & Si0 & Si2).
  assert (Si : sin (acos hz) = n) by (apply sq_eq_nonneg; lra). rewrite HNx in HOm, Hom.
  unfold OMEGA_of in HOm. simpl in HOm. assert (Hc : -1 <= c <= 1) by nra.
  rewrite np_arccos_some in HOm; auto. simpl in HOm. inversion HOm as [EOm]; clear HOm.
  destruct (branch_angle c s (Rleb 0 s) Om Hcs) as (COm & SOm); auto.
  { intros E; apply Rleb_true; auto. } { intros E; apply Rleb_false in E; lra. }
  unfold omega_of in Hom. simpl in Hom.
  set (cw := dot (V3 c s 0) (V3 px py pz)) in *. set (sw := - hz * s * px + hz * c * py + n * pz).
  assert (Ecw : cw = c * px + s * py) by (unfold cw; vsimpl; ring).
  assert (Hw : cw * cw + sw * sw = 1) by (rewrite Ecw; unfold sw; clear -Hcs Hnk HPH HP; nsatz).
  assert (Hcw : -1 <= cw <= 1) by nra.
  rewrite np_arccos_some in Hom; auto. simpl in Hom. inversion Hom as [Eom]; clear Hom.
  assert (Hpz : pz = n * sw) by (unfold sw; clear -Hcs Hnk HPH HP; nsatz).
  destruct (branch_angle cw sw (Rleb 0 pz) om Hw) as (Com & Som); auto.
  { intros E; apply Rleb_true in E. nra. } { intros E; apply Rleb_false in E. nra. }
  rewrite Eom, EOm.
  assert (Hpx : px = cw * c - sw * hz * s) by (rewrite Ecw; unfold sw; clear -Hcs Hnk HPH HP; nsatz).
  assert (Hpy : py = cw * s + sw * hz * c) by (rewrite Ecw; unfold sw; clear -Hcs Hnk HPH HP; nsatz).
  repeat split.
  - intros th. unfold orbit_dir, perifocal. rewrite COm, SOm, Ci, Si, cos_plus, sin_plus, Com, Som.
    clearbody cw sw. clear Ecw. apply vec_eq; vsimpl; rewrite Hpx, Hpy, Hpz; clear -Hcs Hnk; nsatz.
  - unfold orbit_normal. rewrite COm, SOm, Ci, Si. apply vec_eq; vsimpl; ring.
  - rewrite Si; auto.
  - rewrite HNx, COm, SOm. auto.
Qed.

(** Orthonormal frame facts. *)
Lemma frame_facts : forall P W, norm2 P = 1 -> norm2 W = 1 -> dot W P = 0 ->
  norm2 (cross W P) = 1 /\ dot (cross W P) P = 0 /\ dot (cross W P) W = 0 /\
  cross P (cross W P) = W /\ cross (cross W P) W = P.
Proof.
  intros [px py pz] [wx wy wz] HP HW HWP. unfold norm2, dot in *; simpl in *.
  repeat split; try (apply vec_eq); vsimpl; clear -HP HW HWP; nsatz.
Qed.
Lemma perifocal_unit : forall P W th, norm2 P = 1 -> norm2 W = 1 -> dot W P = 0 ->
  norm2 (perifocal P W th) = 1 /\ dot W (perifocal P W th) = 0.
Proof.
  intros [px py pz] [wx wy wz] th HP HW HWP. unfold perifocal. generalize (sin2cos2 th).
  generalize (sin th) (cos th). intros s c H. unfold norm2, dot in *; simpl in *.
  split; vsimpl; nsatz.
Qed.
(** Transverse direction. *)
Lemma perifocal_shift : forall P W th, norm2 P = 1 -> norm2 W = 1 -> dot W P = 0 ->
  cross W (perifocal P W th) = vadd (vscale (- sin th) P) (vscale (cos th) (cross W P)).
Proof.
  intros [px py pz] [wx wy wz] th HP HW HWP. unfold perifocal. unfold norm2, dot in *; simpl in *.
  generalize (sin th) (cos th). intros s c. apply vec_eq; vsimpl; clear -HW HWP; nsatz.
Qed.
Lemma orbit_dir_transverse : forall Om i om th,
  cross (orbit_normal Om i) (orbit_dir Om i om th) =
  V3 (- sin (th + om) * cos Om - cos (th + om) * cos i * sin Om)
     (cos (th + om) * cos i * cos Om - sin (th + om) * sin Om)
     (cos (th + om) * sin i).
Proof.
  intros. unfold orbit_normal, orbit_dir. generalize (sin2cos2 Om) (sin2cos2 i).
  generalize (sin (th + om)) (cos (th + om)) (sin Om) (cos Om) (sin i) (cos i); intros st ct sO cO si ci H1 H2.
  apply vec_eq; vsimpl; nsatz.
Qed.

(** States given by radial and transverse components in an orthonormal frame (u radial, W normal). *)
Lemma rv_invariants : forall mu u W r vr vt, norm2 u = 1 -> norm2 W = 1 -> dot W u = 0 -> 0 < r -> mu <> 0 ->
  let rv := vscale r u in let vv := vadd (vscale vr u) (vscale vt (cross W u)) in
  norm rv = r /\ norm2 vv = vr * vr + vt * vt /\ ang_mom rv vv = vscale (r * vt) W /\
  dot rv vv = r * vr /\
  ecc_vector mu rv vv = vadd (vscale (r * vt * vt / mu - 1) u) (vscale (- (r * vt * vr / mu)) (cross W u)).
Proof.
  intros mu [ux uy uz] [wx wy wz] r vr vt Hu HW HWu Hr Hmu rv vv.
  assert (Hn : norm rv = r).
  { apply norm_eq; [lra|]. unfold rv. rewrite norm2_vscale, Hu. ring. }
  split; auto. unfold ecc_vector, ang_mom. rewrite Hn. unfold rv, vv. unfold norm2, dot in *; simpl in *.
  split; [vsimpl; clear -Hu HW HWu; nsatz|].
  assert (Hh : cross (vscale r (V3 ux uy uz)) (vadd (vscale vr (V3 ux uy uz)) (vscale vt (cross (V3 wx wy wz) (V3 ux uy uz)))) = vscale (r * vt) (V3 wx wy wz)).
  { apply vec_eq; vsimpl; clear -Hu HWu; nsatz. }
  split; [exact Hh|]. split; [vsimpl; clear -Hu HW HWu; nsatz|].
  rewrite Hh.
  assert (Hx : cross (vadd (vscale vr (V3 ux uy uz)) (vscale vt (cross (V3 wx wy wz) (V3 ux uy uz)))) (vscale (r * vt) (V3 wx wy wz))
    = vscale (r * vt) (vadd (vscale vt (V3 ux uy uz)) (vscale (- vr) (cross (V3 wx wy wz) (V3 ux uy uz))))).
  { apply vec_eq; vsimpl; clear -HW HWu; nsatz. }
  rewrite Hx. apply vec_eq; vsimpl; field; split; lra.
Qed.

(** The conic state has its eccentricity vector along P and its angular momentum along W. *)
Lemma conic_state : forall mu h e P W th, 0 < mu -> 0 < h -> norm2 P = 1 -> norm2 W = 1 -> dot W P = 0 ->
  0 < 1 + e * cos th ->
  let r := conic_pos mu h e P W th in let v := conic_vel mu h e P W th in
  norm r = conic_radius mu h e th /\ ang_mom r v = vscale h W /\ ecc_vector mu r v = vscale e P /\
  energy mu r v = - (mu * mu * (1 - e * e) / (2 * (h * h))) /\
  v = vadd (vscale (mu / h * (e * sin th)) (perifocal P W th)) (vscale (h / conic_radius mu h e th) (cross W (perifocal P W th))).
Proof.
  intros mu h e P W th Hmu Hh HP HW HWP Hden r v.
  destruct (perifocal_unit P W th HP HW HWP) as (Hu & HWu).
  pose proof (perifocal_shift P W th HP HW HWP) as Hsh.
  assert (Hr : 0 < conic_radius mu h e th) by (unfold conic_radius; pos).
  assert (Hv : v = vadd (vscale (mu / h * (e * sin th)) (perifocal P W th)) (vscale (h / conic_radius mu h e th) (cross W (perifocal P W th)))).
  { unfold v, conic_vel. rewrite Hsh. unfold perifocal, conic_radius.
    generalize (cross W P) as Q; intros [qx qy qz]. destruct P as [px py pz].
    generalize (sin2cos2 th). revert Hden. generalize (sin th) (cos th); intros s c Hden Hsc.
    assert (Hk : h / (h * h / mu / (1 + e * c)) = mu / h * (1 + e * c)) by (field; repeat split; lra). rewrite Hk.
    generalize (mu / h); intros k. clear -Hsc. apply vec_eq; vsimpl; nsatz. }
  destruct (rv_invariants mu (perifocal P W th) W (conic_radius mu h e th) (mu / h * (e * sin th)) (h / conic_radius mu h e th) Hu HW HWu Hr ltac:(lra)) as (A & B & C & D & E).
  fold (conic_pos mu h e P W th) in A, C, E. fold r in A, C, E. rewrite <- Hv in B, C, E.
  split; [exact A|]. split.
  { rewrite C. f_equal. field. lra. }
  split; [|split; [|exact Hv]].
  - rewrite E, Hsh.
    replace (conic_radius mu h e th * (h / conic_radius mu h e th) * (h / conic_radius mu h e th) / mu - 1) with (e * cos th)
      by (unfold conic_radius; field; repeat split; try lra).
    replace (- (conic_radius mu h e th * (h / conic_radius mu h e th) * (mu / h * (e * sin th)) / mu)) with (- (e * sin th))
      by (field; repeat split; lra).
    unfold perifocal. generalize (cross W P) as Q; intros [qx qy qz]. destruct P as [px py pz].
    generalize (sin2cos2 th). generalize (sin th) (cos th); intros s c Hsc. clear -Hsc. apply vec_eq; vsimpl; nsatz.
  - unfold energy. rewrite A, B. unfold conic_radius.
    generalize (sin2cos2 th). revert Hden. generalize (sin th) (cos th); intros s c Hden Hsc.
    assert (Hs : s * s = 1 - c * c) by lra.
    replace (mu / h * (e * s) * (mu / h * (e * s))) with (mu * mu / (h * h) * (e * e * (s * s))) by (field; lra).
    rewrite Hs. field. repeat split; lra.
Qed.
