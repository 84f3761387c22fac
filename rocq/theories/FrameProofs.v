(** Lemmas about rotations and vectors. *)
Require Import Verif.Base Verif.FrameModel.

Ltac vsimpl := cbv [norm2 dot cross vadd vsub vscale vzero mvmul mmul transpose vx vy vz row1 row2 row3].
Ltac vring := intros; apply vec_eq; vsimpl; ring.

(** A proper rotation: keeps dot and cross products, undone by its transpose. *)
Definition proper_rotation (m : mat) : Prop :=
  (forall a b, dot (mvmul m a) (mvmul m b) = dot a b) /\
  (forall a b, cross (mvmul m a) (mvmul m b) = mvmul m (cross a b)) /\
  (forall a, mvmul (transpose m) (mvmul m a) = a) /\
  (forall a, mvmul m (mvmul (transpose m) a) = a).

Lemma mvmul_mmul : forall m n a, mvmul (mmul m n) a = mvmul m (mvmul n a).
Proof. vring. Qed.
Lemma transpose_mmul : forall m n, transpose (mmul m n) = mmul (transpose n) (transpose m).
Proof. intros; unfold mmul, transpose; f_equal; apply vec_eq; vsimpl; ring. Qed.


Lemma sq_split : forall s c, s * s + c * c = 1 -> c * c = 1 - s * s.
Proof. intros; lra. Qed.

Lemma R1_rot : forall t, proper_rotation (R1 t).
Proof.
  intros t; unfold proper_rotation, R1; generalize (sin2cos2 t); generalize (sin t) (cos t); intros s c H;
  assert (c * c = 1 - s * s) by lra;
  repeat split; [intros [a1 a2 a3] [b1 b2 b3]|intros [a1 a2 a3] [b1 b2 b3]; apply vec_eq|intros [a1 a2 a3]; apply vec_eq|intros [a1 a2 a3]; apply vec_eq]; vsimpl;
  ring_simplify; try replace (c ^ 2) with (1 - s * s) by (rewrite <- H0; ring); ring.
Qed.
Lemma R2_rot : forall t, proper_rotation (R2 t).
Proof.
  intros t; unfold proper_rotation, R2; generalize (sin2cos2 t); generalize (sin t) (cos t); intros s c H;
  assert (c * c = 1 - s * s) by lra;
  repeat split; [intros [a1 a2 a3] [b1 b2 b3]|intros [a1 a2 a3] [b1 b2 b3]; apply vec_eq|intros [a1 a2 a3]; apply vec_eq|intros [a1 a2 a3]; apply vec_eq]; vsimpl;
  ring_simplify; try replace (c ^ 2) with (1 - s * s) by (rewrite <- H0; ring); ring.
Qed.
Lemma R3_rot : forall t, proper_rotation (R3 t).
Proof.
  intros t; unfold proper_rotation, R3; generalize (sin2cos2 t); generalize (sin t) (cos t); intros s c H;
  assert (c * c = 1 - s * s) by lra;
  repeat split; [intros [a1 a2 a3] [b1 b2 b3]|intros [a1 a2 a3] [b1 b2 b3]; apply vec_eq|intros [a1 a2 a3]; apply vec_eq|intros [a1 a2 a3]; apply vec_eq]; vsimpl;
  ring_simplify; try replace (c ^ 2) with (1 - s * s) by (rewrite <- H0; ring); ring.
Qed.
Lemma mmul_rot : forall m n, proper_rotation m -> proper_rotation n -> proper_rotation (mmul m n).
Proof.
  intros m n (A1 & A2 & A3 & A4) (B1 & B2 & B3 & B4). repeat split; intros.
  - rewrite !mvmul_mmul, A1, B1; auto.
  - rewrite !mvmul_mmul, A2, B2; auto.
  - rewrite transpose_mmul, !mvmul_mmul, A3, B3; auto.
  - rewrite transpose_mmul, !mvmul_mmul, B4, A4; auto.
Qed.
Lemma rot_norm : forall m a, proper_rotation m -> norm (mvmul m a) = norm a.
Proof. intros m a (A & _). unfold norm, norm2. rewrite A; auto. Qed.

Lemma cross_norm2 : forall a b, norm2 (cross a b) = norm2 a * norm2 b - dot a b * dot a b.
Proof. intros [a1 a2 a3] [b1 b2 b3]; vsimpl; ring. Qed.
Lemma cauchy : forall a b, dot a b * dot a b <= norm2 a * norm2 b.
Proof. intros a b. generalize (norm2_nonneg (cross a b)) (cross_norm2 a b); lra. Qed.
Lemma cauchy_unit : forall a b, norm2 a = 1 -> norm2 b = 1 -> -1 <= dot a b <= 1.
Proof. intros a b Ha Hb. generalize (cauchy a b). rewrite Ha, Hb. intros; split; nra. Qed.
Lemma unit_of_some : forall a, a <> vzero -> unit_of a = Some (vscale (1 / norm a) a).
Proof.
  intros a Ha. unfold unit_of. pose proof (norm_pos a Ha). rewrite np_div_some; simpl; auto; lra.
Qed.
Lemma unit_of_none : unit_of vzero = None.
Proof.
  unfold unit_of, np_div. destruct (Reqb_spec (norm vzero) 0) as [|n]; auto.
  exfalso; apply n. unfold norm. replace (norm2 vzero) with 0 by (vsimpl; ring). apply sqrt_0.
Qed.
Lemma unit_norm2 : forall a, a <> vzero -> norm2 (vscale (1 / norm a) a) = 1.
Proof.
  intros a Ha. pose proof (norm_pos a Ha). pose proof (norm_sq a).
  replace (norm2 (vscale (1 / norm a) a)) with (norm2 a / (norm a * norm a)).
  - rewrite H0. field. rewrite <- H0. nra.
  - destruct a; vsimpl. field. lra.
Qed.
Lemma unit_of_inv : forall a u, unit_of a = Some u -> a <> vzero /\ u = vscale (1 / norm a) a /\ norm2 u = 1.
Proof.
  intros a u H. assert (Ha : a <> vzero) by (intros ->; rewrite unit_of_none in H; discriminate).
  rewrite unit_of_some in H; auto. inversion H; subst. repeat split; auto. apply unit_norm2; auto.
Qed.
Lemma dot_vscale_l : forall k a b, dot (vscale k a) b = k * dot a b.
Proof. intros; vsimpl; ring. Qed.
Lemma dot_vscale_r : forall k a b, dot a (vscale k b) = k * dot a b.
Proof. intros; vsimpl; ring. Qed.
Lemma norm2_vscale : forall k a, norm2 (vscale k a) = k * k * norm2 a.
Proof. intros; vsimpl; ring. Qed.
Lemma norm_vscale : forall k a, 0 <= k -> norm (vscale k a) = k * norm a.
Proof.
  intros k a Hk. apply norm_eq; [apply Rmult_le_pos; auto; apply norm_nonneg|].
  rewrite norm2_vscale, <- norm_sq. ring.
Qed.
