(** Derivatives of expressions built from functions with known derivatives. *)
Require Import Verif.Base.

Lemma dl_eq : forall f x l l', derivable_pt_lim f x l -> l = l' -> derivable_pt_lim f x l'.
Proof. intros; subst; auto. Qed.
Lemma dl_sin : forall f x l, derivable_pt_lim f x l -> derivable_pt_lim (fun t => sin (f t)) x (cos (f x) * l).
Proof. intros. apply (derivable_pt_lim_comp f sin x l (cos (f x))); auto. apply derivable_pt_lim_sin. Qed.
Lemma dl_cos : forall f x l, derivable_pt_lim f x l -> derivable_pt_lim (fun t => cos (f t)) x (- sin (f x) * l).
Proof. intros. apply (derivable_pt_lim_comp f cos x l (- sin (f x))); auto. apply derivable_pt_lim_cos. Qed.
Lemma dl_exp : forall f x l, derivable_pt_lim f x l -> derivable_pt_lim (fun t => exp (f t)) x (exp (f x) * l).
Proof. intros. apply (derivable_pt_lim_comp f exp x l (exp (f x))); auto. apply derivable_pt_lim_exp. Qed.
Lemma dl_pow : forall n f x l, derivable_pt_lim f x l -> derivable_pt_lim (fun t => f t ^ n) x (INR n * f x ^ pred n * l).
Proof. intros n f x l H. apply (derivable_pt_lim_comp f (fun y => y ^ n) x l (INR n * f x ^ pred n)); auto. apply derivable_pt_lim_pow. Qed.
Lemma dl_plus : forall f g x l m, derivable_pt_lim f x l -> derivable_pt_lim g x m -> derivable_pt_lim (fun t => f t + g t) x (l + m).
Proof. intros; apply (derivable_pt_lim_plus f g); auto. Qed.
Lemma dl_minus : forall f g x l m, derivable_pt_lim f x l -> derivable_pt_lim g x m -> derivable_pt_lim (fun t => f t - g t) x (l - m).
Proof. intros; apply (derivable_pt_lim_minus f g); auto. Qed.
Lemma dl_opp : forall f x l, derivable_pt_lim f x l -> derivable_pt_lim (fun t => - f t) x (- l).
Proof. intros; apply (derivable_pt_lim_opp f); auto. Qed.
Lemma dl_mult : forall f g x l m, derivable_pt_lim f x l -> derivable_pt_lim g x m -> derivable_pt_lim (fun t => f t * g t) x (l * g x + f x * m).
Proof. intros; apply (derivable_pt_lim_mult f g); auto. Qed.
Lemma dl_div : forall f g x l m, derivable_pt_lim f x l -> derivable_pt_lim g x m -> g x <> 0 -> derivable_pt_lim (fun t => f t / g t) x ((l * g x - m * f x) / Rsqr (g x)).
Proof. intros; apply (derivable_pt_lim_div f g); auto. Qed.
Lemma dl_const : forall c x, derivable_pt_lim (fun _ => c) x 0.
Proof. intros; apply derivable_pt_lim_const. Qed.
Lemma dl_id : forall x, derivable_pt_lim (fun t => t) x 1.
Proof. intros; apply derivable_pt_lim_id. Qed.
Lemma dl_ext : forall f g x l, (forall y, f y = g y) -> derivable_pt_lim f x l -> derivable_pt_lim g x l.
Proof. intros f g x l H D e He. destruct (D e He) as (d & Hd). exists d. intros h H1 H2. rewrite <- !H. auto. Qed.

Ltac dstep :=
  lazymatch goal with
  | |- derivable_pt_lim (fun _ => ?c) ?x _ => apply dl_const
  | |- derivable_pt_lim (fun t => t) ?x _ => apply dl_id
  | |- derivable_pt_lim (fun t => @?f t + @?g t) ?x _ => apply (dl_plus f g x)
  | |- derivable_pt_lim (fun t => @?f t - @?g t) ?x _ => apply (dl_minus f g x)
  | |- derivable_pt_lim (fun t => @?f t * @?g t) ?x _ => apply (dl_mult f g x)
  | |- derivable_pt_lim (fun t => @?f t / @?g t) ?x _ => apply (dl_div f g x)
  | |- derivable_pt_lim (fun t => - @?f t) ?x _ => apply (dl_opp f x)
  | |- derivable_pt_lim (fun t => @?f t ^ ?n) ?x _ => apply (dl_pow n f x)
  | |- derivable_pt_lim (fun t => sin (@?f t)) ?x _ => apply (dl_sin f x)
  | |- derivable_pt_lim (fun t => cos (@?f t)) ?x _ => apply (dl_cos f x)
  | |- derivable_pt_lim (fun t => exp (@?f t)) ?x _ => apply (dl_exp f x)
  end.
(** Prove [derivable_pt_lim f x l] from hypotheses about the atoms; leaves non-zero denominators and
    [computed derivative = l]. *)
Ltac dlim := eapply dl_eq; [repeat (first [eassumption | dstep]) | cbn [INR pred]].

(** A function whose derivative is non-positive (zero) on an interval does not grow (is constant). *)
Lemma nonincreasing_of_deriv : forall f f' a b, a <= b -> (forall c, a <= c <= b -> derivable_pt_lim f c (f' c)) ->
  (forall c, a <= c <= b -> f' c <= 0) -> f b <= f a.
Proof.
  intros f f' a b Hab Hd Hn. destruct (Req_dec a b) as [E|E]; [subst; lra|].
  assert (pr : forall c, a < c < b -> derivable_pt f c) by (intros c Hc; exists (f' c); apply Hd; lra).
  destruct (MVT_cor2 f f' a b ltac:(lra) Hd) as (c & H1 & H2). assert (f' c <= 0) by (apply Hn; lra). nra.
Qed.
Lemma constant_of_deriv : forall f a b, a <= b -> (forall c, a <= c <= b -> derivable_pt_lim f c 0) -> f b = f a.
Proof.
  intros f a b Hab Hd. destruct (Req_dec a b) as [E|E]; [subst; lra|].
  destruct (MVT_cor2 f (fun _ => 0) a b ltac:(lra) Hd) as (c & H1 & H2). lra.
Qed.
