(** Common vocabulary of the model: Python exceptions as values, boolean comparisons
    on the reals, three-vectors.  No file of /repo is modelled here. *)
From Coq Require Export Reals Lra Lia List Bool.
Export ListNotations.
Open Scope R_scope.

(** Python exceptions the modelled code can raise. *)
Inductive exn :=
| ValueError | AttributeError | IndexError | UnboundLocalError | TypeError
| FileExistsError | ZeroDivisionError | OracleError (* raised by an external engine *).

(** Result of a call that may raise. *)
Inductive res (A : Type) :=
| Ok (a : A)
| Err (e : exn).
Arguments Ok {A} a.
Arguments Err {A} e.

Definition rbind {A B} (x : res A) (f : A -> res B) : res B :=
  match x with Ok a => f a | Err e => Err e end.
Definition rmap {A B} (f : A -> B) (x : res A) : res B :=
  match x with Ok a => Ok (f a) | Err e => Err e end.

(** numpy floats that may be NaN or infinite: [None] is "not a finite number". *)
Definition obind {A B} (x : option A) (f : A -> option B) : option B :=
  match x with Some a => f a | None => None end.

Declare Scope py_scope.
Delimit Scope py_scope with py.
Notation "'letr' x := e 'in' k" := (rbind e (fun x => k))
  (at level 200, x pattern, e at level 100, k at level 200, right associativity) : py_scope.
Notation "'leto' x := e 'in' k" := (obind e (fun x => k))
  (at level 200, x pattern, e at level 100, k at level 200, right associativity) : py_scope.
Open Scope py_scope.

(** Comparisons as Python booleans. *)
Definition Rltb (x y : R) : bool := if Rlt_dec x y then true else false.
Definition Rleb (x y : R) : bool := if Rle_dec x y then true else false.
Definition Reqb (x y : R) : bool := if Req_EM_T x y then true else false.

Lemma Rltb_spec : forall x y, reflect (x < y) (Rltb x y).
Proof. intros; unfold Rltb; destruct (Rlt_dec x y); constructor; lra. Qed.
Lemma Rleb_spec : forall x y, reflect (x <= y) (Rleb x y).
Proof. intros; unfold Rleb; destruct (Rle_dec x y); constructor; lra. Qed.
Lemma Reqb_spec : forall x y, reflect (x = y) (Reqb x y).
Proof. intros; unfold Reqb; destruct (Req_EM_T x y); constructor; auto. Qed.

Lemma Rltb_true : forall x y, Rltb x y = true <-> x < y.
Proof. intros; destruct (Rltb_spec x y); split; intros; auto; try discriminate; lra. Qed.
Lemma Rltb_false : forall x y, Rltb x y = false <-> y <= x.
Proof. intros; destruct (Rltb_spec x y); split; intros; auto; try discriminate; lra. Qed.
Lemma Rleb_true : forall x y, Rleb x y = true <-> x <= y.
Proof. intros; destruct (Rleb_spec x y); split; intros; auto; try discriminate; lra. Qed.
Lemma Rleb_false : forall x y, Rleb x y = false <-> y < x.
Proof. intros; destruct (Rleb_spec x y); split; intros; auto; try discriminate; lra. Qed.
Lemma Reqb_true : forall x y, Reqb x y = true <-> x = y.
Proof. intros; destruct (Reqb_spec x y); split; intros; auto; try discriminate; lra. Qed.
Lemma Reqb_false : forall x y, Reqb x y = false <-> x <> y.
Proof. intros; destruct (Reqb_spec x y); split; intros; auto; try discriminate; lra. Qed.

(** Decide real comparisons in the goal or in a hypothesis. *)
Ltac rcase1 :=
  match goal with
  | |- context [Rltb ?a ?b] => let H := fresh "Hc" in destruct (Rltb_spec a b) as [H|H]
  | |- context [Rleb ?a ?b] => let H := fresh "Hc" in destruct (Rleb_spec a b) as [H|H]
  | |- context [Reqb ?a ?b] => let H := fresh "Hc" in destruct (Reqb_spec a b) as [H|H]
  | H : context [Rltb ?a ?b] |- _ => let H := fresh "Hc" in destruct (Rltb_spec a b) as [H|H]
  | H : context [Rleb ?a ?b] |- _ => let H := fresh "Hc" in destruct (Rleb_spec a b) as [H|H]
  | H : context [Reqb ?a ?b] |- _ => let H := fresh "Hc" in destruct (Reqb_spec a b) as [H|H]
  end.
Ltac rcases := repeat rcase1.

(** numpy partial operations (IEEE results that are not finite numbers are [None]). *)
Definition np_sqrt (x : R) : option R := if Rltb x 0 then None else Some (sqrt x).
Definition np_arccos (x : R) : option R :=
  if Rleb (-1) x && Rleb x 1 then Some (acos x) else None.
Definition np_arcsin (x : R) : option R :=
  if Rleb (-1) x && Rleb x 1 then Some (asin x) else None.
Definition np_div (x y : R) : option R := if Reqb y 0 then None else Some (x / y).
Definition np_log10 (x : R) : option R := if Rltb 0 x then Some (ln x / ln 10) else None.

Lemma np_sqrt_some : forall x, 0 <= x -> np_sqrt x = Some (sqrt x).
Proof. intros; unfold np_sqrt; rcases; auto; lra. Qed.
Lemma np_sqrt_none : forall x, x < 0 -> np_sqrt x = None.
Proof. intros; unfold np_sqrt; rcases; auto; lra. Qed.
Lemma np_arccos_some : forall x, -1 <= x <= 1 -> np_arccos x = Some (acos x).
Proof. intros; unfold np_arccos; rcases; simpl; auto; lra. Qed.
Lemma np_arccos_none : forall x, x < -1 \/ 1 < x -> np_arccos x = None.
Proof. intros; unfold np_arccos; rcases; simpl; auto; lra. Qed.
Lemma np_arcsin_some : forall x, -1 <= x <= 1 -> np_arcsin x = Some (asin x).
Proof. intros; unfold np_arcsin; rcases; simpl; auto; lra. Qed.
Lemma np_div_some : forall x y, y <> 0 -> np_div x y = Some (x / y).
Proof. intros; unfold np_div; rcases; auto; contradiction. Qed.
Lemma np_log10_some : forall x, 0 < x -> np_log10 x = Some (ln x / ln 10).
Proof. intros; unfold np_log10; rcases; auto; contradiction. Qed.

(** Three-vectors and 3x3 matrices (numpy arrays of shape (3,) and (3,3)). *)
Record vec := V3 { vx : R; vy : R; vz : R }.
Definition vadd a b := V3 (vx a + vx b) (vy a + vy b) (vz a + vz b).
Definition vsub a b := V3 (vx a - vx b) (vy a - vy b) (vz a - vz b).
Definition vscale k a := V3 (k * vx a) (k * vy a) (k * vz a).
Definition dot a b := vx a * vx b + vy a * vy b + vz a * vz b.
Definition cross a b :=
  V3 (vy a * vz b - vz a * vy b) (vz a * vx b - vx a * vz b) (vx a * vy b - vy a * vx b).
Definition norm2 a := dot a a.
Definition norm a := sqrt (norm2 a).
Definition vzero := V3 0 0 0.
(** [v / LA.norm(v)]: not finite when v = 0. *)
Definition unit_of (a : vec) : option vec :=
  leto k := np_div 1 (norm a) in Some (vscale k a).

Record mat := M3 { row1 : vec; row2 : vec; row3 : vec }.
Definition mvmul (m : mat) (v : vec) := V3 (dot (row1 m) v) (dot (row2 m) v) (dot (row3 m) v).
Definition transpose (m : mat) :=
  M3 (V3 (vx (row1 m)) (vx (row2 m)) (vx (row3 m)))
     (V3 (vy (row1 m)) (vy (row2 m)) (vy (row3 m)))
     (V3 (vz (row1 m)) (vz (row2 m)) (vz (row3 m))).
(** np.matmul of two 3x3 arrays. *)
Definition mmul (a b : mat) :=
  let t := transpose b in
  M3 (V3 (dot (row1 a) (row1 t)) (dot (row1 a) (row2 t)) (dot (row1 a) (row3 t)))
     (V3 (dot (row2 a) (row1 t)) (dot (row2 a) (row2 t)) (dot (row2 a) (row3 t)))
     (V3 (dot (row3 a) (row1 t)) (dot (row3 a) (row2 t)) (dot (row3 a) (row3 t))).

Lemma vec_eq : forall a b, vx a = vx b -> vy a = vy b -> vz a = vz b -> a = b.
Proof. intros [? ? ?] [? ? ?]; simpl; intros; subst; auto. Qed.

Lemma norm2_nonneg : forall a, 0 <= norm2 a.
Proof. intros; unfold norm2, dot; nra. Qed.
Lemma norm2_zero : forall a, norm2 a = 0 -> a = vzero.
Proof.
  intros [x y z]; unfold norm2, dot, vzero; simpl; intros.
  assert (x = 0) by nra. assert (y = 0) by nra. assert (z = 0) by nra. subst; auto.
Qed.
Lemma norm_nonneg : forall a, 0 <= norm a.
Proof. intros; apply sqrt_pos. Qed.
Lemma norm_sq : forall a, norm a * norm a = norm2 a.
Proof. intros; apply sqrt_sqrt, norm2_nonneg. Qed.
Lemma norm_pos : forall a, a <> vzero -> 0 < norm a.
Proof.
  intros a Ha. apply sqrt_lt_R0. destruct (norm2_nonneg a) as [H|H]; auto.
  exfalso; apply Ha, norm2_zero; auto.
Qed.
Lemma norm_eq : forall a k, 0 <= k -> norm2 a = k * k -> norm a = k.
Proof. intros; unfold norm; rewrite H0; apply sqrt_square; auto. Qed.

(** Small real facts used everywhere. *)
Lemma sqrt_sq : forall x, 0 <= x -> sqrt x * sqrt x = x.
Proof. intros; apply sqrt_sqrt; auto. Qed.
Lemma sin2cos2 : forall x, sin x * sin x + cos x * cos x = 1.
Proof. intros; generalize (sin2_cos2 x); unfold Rsqr; lra. Qed.
Lemma sin_acos_nonneg : forall x, -1 <= x <= 1 -> 0 <= sin (acos x).
Proof. intros; apply sin_ge_0; apply acos_bound. Qed.

(** Positivity and non-negativity by syntax. *)
Ltac pos :=
  repeat (first [assumption | match goal with
    | |- 0 < PI => apply PI_RGT_0
    | |- 0 < IZR _ => apply IZR_lt; reflexivity
    | |- 0 < _ * _ => apply Rmult_lt_0_compat
    | |- 0 < _ / _ => apply Rdiv_lt_0_compat
    | |- 0 < / _ => apply Rinv_0_lt_compat
    | |- 0 < _ ^ _ => apply pow_lt
    | |- 0 < _ + _ => apply Rplus_lt_0_compat
    | |- 0 < sqrt _ => apply sqrt_lt_R0
    | |- 0 < exp _ => apply exp_pos
    end]); try lra.
