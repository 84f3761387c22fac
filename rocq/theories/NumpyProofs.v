(** Lemmas about the numpy/scipy models. *)
Require Import Verif.Base Verif.Numpy Verif.TableSpec.
From Coq Require Import Permutation Sorting.Sorted.

(** * Sorting *)
Lemma insert_row_perm : forall p t, Permutation (p :: t) (insert_row p t).
Proof.
  induction t as [|q t IH]; simpl; auto.
  destruct (Rleb (fst p) (fst q)); auto.
  eapply perm_trans; [apply perm_swap|]. constructor; auto.
Qed.
Lemma sort_rows_perm : forall t, Permutation t (sort_rows t).
Proof.
  induction t; simpl; auto.
  eapply perm_trans; [|apply insert_row_perm]. constructor; auto.
Qed.
Lemma sort_rows_in : forall t p, In p t <-> In p (sort_rows t).
Proof. intros; split; apply Permutation_in; [|symmetry]; apply sort_rows_perm. Qed.

Lemma in_sort : forall t p, In p t -> In p (sort_rows t).
Proof. intros t p; apply (sort_rows_in t p). Qed.
Lemma in_unsort : forall t p, In p (sort_rows t) -> In p t.
Proof. intros t p; apply (sort_rows_in t p). Qed.

Definition row_lt (p q : R * R) : Prop := fst p < fst q.
Definition row_le (p q : R * R) : Prop := fst p <= fst q.

Lemma insert_row_sorted : forall p t, StronglySorted row_le t -> StronglySorted row_le (insert_row p t).
Proof.
  intros p t; induction 1 as [|q t Hs IH Hf]; simpl.
  - repeat constructor.
  - destruct (Rleb_spec (fst p) (fst q)).
    + constructor; [constructor; auto|]. constructor; [exact r|].
      eapply Forall_impl; [|apply Hf]. unfold row_le; intros; lra.
    + constructor; auto. rewrite Forall_forall in *; intros x Hx.
      apply (Permutation_in (l' := p :: t)) in Hx; [|symmetry; apply insert_row_perm].
      destruct Hx as [<-|Hx]; [unfold row_le; lra|auto].
Qed.
Lemma sort_rows_sorted : forall t, StronglySorted row_le (sort_rows t).
Proof. induction t; simpl; [constructor|apply insert_row_sorted; auto]. Qed.

Lemma strict_sorted : forall t, NoDup (map fst t) -> StronglySorted row_le t -> StronglySorted row_lt t.
Proof.
  induction 2 as [|q t Hs IH Hf]; constructor.
  - apply IH; simpl in H; inversion H; auto.
  - rewrite Forall_forall in *; intros x Hx. specialize (Hf x Hx).
    unfold row_le, row_lt in *. destruct Hf as [|E]; auto. exfalso.
    simpl in H; inversion H; subst. apply H2. rewrite E. apply in_map; auto.
Qed.
Lemma sort_rows_strict : forall t, NoDup (map fst t) -> StronglySorted row_lt (sort_rows t).
Proof.
  intros; apply strict_sorted; [|apply sort_rows_sorted].
  eapply Permutation_NoDup; [|exact H]. apply Permutation_map, sort_rows_perm.
Qed.

(** Two strictly sorted lists with the same elements are equal. *)
Lemma strict_sorted_unique : forall s s', StronglySorted row_lt s -> StronglySorted row_lt s' ->
  (forall p, In p s <-> In p s') -> s = s'.
Proof.
  induction s as [|a s IH]; intros s' Hs Hs' Hin.
  - destruct s' as [|b s']; auto. exfalso; apply (proj2 (Hin b)); left; auto.
  - destruct s' as [|b s'].
    + exfalso; apply (proj1 (Hin a)); left; auto.
    + inversion Hs as [|? ? Hs1 Hf]; inversion Hs' as [|? ? Hs1' Hf']; subst.
      rewrite Forall_forall in *.
      assert (a = b).
      { destruct (proj1 (Hin a) (or_introl eq_refl)) as [|Ha]; auto.
        destruct (proj2 (Hin b) (or_introl eq_refl)) as [|Hb]; auto.
        specialize (Hf _ Hb); specialize (Hf' _ Ha); unfold row_lt in *; lra. }
      subst b. f_equal. apply IH; auto. intros p; split; intros Hp.
      * destruct (proj1 (Hin p) (or_intror Hp)) as [<-|]; auto.
        specialize (Hf _ Hp); unfold row_lt in Hf; lra.
      * destruct (proj2 (Hin p) (or_intror Hp)) as [<-|]; auto.
        specialize (Hf' _ Hp); unfold row_lt in Hf'; lra.
Qed.

(** * The sorted lookup *)
Lemma interp_sorted_cons2 : forall x0 y0 x1 y1 t x,
  interp_sorted ((x0,y0) :: (x1,y1) :: t) x =
  if Rltb x x1 then (y1 - y0) / (x1 - x0) * (x - x0) + y0 else interp_sorted ((x1,y1)::t) x.
Proof. reflexivity. Qed.

Lemma interp_sorted_first : forall t x0 y0, StronglySorted row_lt ((x0,y0)::t) ->
  interp_sorted ((x0,y0)::t) x0 = y0.
Proof.
  intros [|[x1 y1] t] x0 y0 H; [reflexivity|]. rewrite interp_sorted_cons2.
  inversion H as [|? ? ? Hf]; inversion Hf; subst. unfold row_lt in *; simpl in *.
  rcases; [|lra]. replace (x0 - x0) with 0 by ring. ring.
Qed.

(** Every query between the first and last abscissa is on the curve. *)
Lemma interp_sorted_correct : forall t x0 y0 x, StronglySorted row_lt ((x0,y0)::t) ->
  x0 <= x <= last_x ((x0,y0)::t) -> Interpolates ((x0,y0)::t) x (interp_sorted ((x0,y0)::t) x).
Proof.
  induction t as [|[x1 y1] t IH]; intros x0 y0 x Hs Hx.
  - unfold last_x in Hx; simpl in *. left; left. f_equal; lra.
  - rewrite interp_sorted_cons2.
    inversion Hs as [|? ? Hs1 Hf]; inversion Hf as [|? ? Hlt Hf1]; subst. unfold row_lt in Hlt; simpl in Hlt.
    destruct (Rltb_spec x x1).
    + right. exists (x0,y0), (x1,y1). split.
      * split; [left; auto|]. split; [right; left; auto|]. split; [simpl; lra|].
        intros w Hr; simpl in *. destruct Hr as [<-|[<-|Hr]]; simpl; try lra.
        inversion Hs1 as [|? ? ? Hf2]; subst. rewrite Forall_forall in Hf2.
        specialize (Hf2 _ Hr); unfold row_lt in Hf2; simpl in Hf2; lra.
      * split; simpl; [lra|]. field. lra.
    + assert (Hx1 : x1 <= x <= last_x ((x1,y1)::t)).
      { split; [lra|]. destruct Hx as [_ Hx]. unfold last_x in *; simpl in Hx |- *. exact Hx. }
      destruct (IH x1 y1 x Hs1 Hx1) as [Hin|(p & q & (Hp & Hq & Hpq & Hno) & Hseg)].
      * left; right; auto.
      * right; exists p, q. split; auto. split; [right; auto|]. split; [right; auto|].
        split; auto. intros r [<-|Hr]; simpl; auto.
        assert (x1 <= fst p).
        { destruct Hp as [<-|Hp]; simpl; [lra|]. inversion Hs1 as [|? ? ? Hf2]; subst.
          rewrite Forall_forall in Hf2. specialize (Hf2 _ Hp). unfold row_lt in Hf2; simpl in Hf2; lra. }
        lra.
Qed.

Lemma last_x_in : forall p t, In (last (p :: t) (0,0)) (p :: t).
Proof.
  intros p t; revert p; induction t as [|q t IH]; intros p; [left; auto|].
  right. apply (IH q).
Qed.
Lemma last_x_max : forall t p, StronglySorted row_lt t -> In p t -> fst p <= last_x t.
Proof.
  induction t as [|q t IH]; intros p Hs Hp; [inversion Hp|].
  inversion Hs as [|? ? Hs1 Hf]; subst. destruct t as [|q' t].
  - destruct Hp as [<-|[]]. unfold last_x; simpl; lra.
  - assert (E : last_x (q :: q' :: t) = last_x (q' :: t)) by reflexivity. rewrite E.
    destruct Hp as [<-|Hp]; [|apply IH; auto].
    rewrite Forall_forall in Hf. specialize (Hf q' (or_introl eq_refl)); unfold row_lt in Hf.
    specialize (IH q' Hs1 (or_introl eq_refl)). lra.
Qed.
Lemma first_x_min : forall t p q, StronglySorted row_lt (p :: t) -> In q (p :: t) -> fst p <= fst q.
Proof.
  intros t p q Hs [<-|Hq]; [lra|]. inversion Hs as [|? ? ? Hf]; subst. rewrite Forall_forall in Hf.
  specialize (Hf _ Hq); unfold row_lt in Hf; lra.
Qed.

(** * Lookup against the specification *)
Lemma interpolates_ext : forall t t' x y, (forall p, In p t <-> In p t') ->
  Interpolates t x y -> Interpolates t' x y.
Proof.
  intros t t' x y H [Hin|(p & q & (Hp & Hq & Hpq & Hno) & Hseg)].
  - left; apply H; auto.
  - right; exists p, q; split; auto. split; [apply H; auto|]. split; [apply H; auto|].
    split; auto. intros r Hr. apply Hno, H; auto.
Qed.

Lemma interp1d_inside : forall t lo hi x, NoDup (map fst t) -> inside t x ->
  exists y, interp1d t lo hi x = Ok y /\ Interpolates t x y.
Proof.
  intros t lo hi x Hnd (p & q & Hp & Hq & Hx).
  unfold interp1d. pose proof (sort_rows_strict t Hnd) as Hs.
  rewrite sort_rows_in in Hp, Hq.
  destruct (sort_rows t) as [|[x0 y0] s] eqn:E; [inversion Hp|].
  assert (H0 : x0 <= fst p) by (apply (first_x_min _ _ _ Hs Hp)).
  assert (H1 : fst q <= last_x ((x0,y0)::s)) by (apply last_x_max; auto).
  destruct (Rltb_spec x x0); [lra|]. destruct (Rltb_spec (last_x ((x0, y0) :: s)) x); [lra|].
  eexists; split; [reflexivity|].
  apply (interpolates_ext ((x0,y0)::s)).
  - intros r; rewrite <- E; symmetry; apply sort_rows_in.
  - apply interp_sorted_correct; auto; lra.
Qed.

Lemma interp1d_left : forall t lo hi x, t <> [] -> left_of t x -> interp1d t lo hi x = Ok lo.
Proof.
  intros t lo hi x Hne Hl. unfold interp1d.
  destruct (sort_rows t) as [|[x0 y0] s] eqn:E.
  - exfalso; destruct t as [|p t]; [auto|]. assert (In p (sort_rows (p::t))) by (apply in_sort; left; auto).
    rewrite E in H; inversion H.
  - assert (x < x0).
    { apply (Hl (x0,y0)). apply in_unsort. rewrite E; left; auto. }
    rcases; auto; lra.
Qed.

Lemma interp1d_right : forall t lo hi x, t <> [] -> right_of t x -> interp1d t lo hi x = Ok hi.
Proof.
  intros t lo hi x Hne Hl. unfold interp1d.
  destruct (sort_rows t) as [|[x0 y0] s] eqn:E.
  - exfalso; destruct t as [|p t]; [auto|]. assert (In p (sort_rows (p::t))) by (apply in_sort; left; auto).
    rewrite E in H; inversion H.
  - assert (x0 < x).
    { apply (Hl (x0,y0)). apply in_unsort. rewrite E; left; auto. }
    assert (last_x ((x0,y0)::s) < x).
    { apply Hl. apply in_unsort. rewrite E. apply last_x_in. }
    rcases; auto; lra.
Qed.

(** The specification determines the value. *)
Lemma nodup_fst_inj : forall (t : table) x y y', NoDup (map fst t) -> In (x,y) t -> In (x,y') t -> y = y'.
Proof.
  induction t as [|[a b] t IH]; simpl; intros x y y' Hnd H H'; [contradiction|].
  inversion Hnd; subst. destruct H as [E|H], H' as [E'|H'].
  - congruence.
  - inversion E; subst. exfalso; apply H2. change x with (fst (x,y')). apply in_map; auto.
  - inversion E'; subst. exfalso; apply H2. change x with (fst (x,y)). apply in_map; auto.
  - eapply IH; eauto.
Qed.

Lemma Interpolates_unique : forall t x y y', NoDup (map fst t) ->
  Interpolates t x y -> Interpolates t x y' -> y = y'.
Proof.
  assert (A : forall t x y p q, NoDup (map fst t) -> In (x,y) t -> adjacent t p q -> fst p <= x <= fst q ->
             (x,y) = p \/ (x,y) = q).
  { intros t x y [a b] [c d] Hnd Hin (Hp & Hq & Hlt & Hno) Hx; simpl in *.
    specialize (Hno _ Hin); simpl in Hno.
    destruct (Req_dec x a) as [->|Na].
    - left. f_equal. eapply nodup_fst_inj; eauto.
    - destruct (Req_dec x c) as [->|Nc].
      + right. f_equal. eapply nodup_fst_inj; eauto.
      + exfalso; apply Hno; lra. }
  assert (B : forall t x y p q y', NoDup (map fst t) -> In (x,y) t -> adjacent t p q -> on_segment p q x y' -> y = y').
  { intros t x y p q y' Hnd Hin Hadj [Hx Heq].
    destruct (A _ _ _ _ _ Hnd Hin Hadj Hx) as [<-|<-]; destruct Hadj as (Hp & Hq & Hlt & Hno); simpl in *.
    - replace (x - x) with 0 in Heq by ring. rewrite Rmult_0_r in Heq. apply Rmult_integral in Heq. lra.
    - assert ((y - y') * (x - fst p) = 0) by lra.
      apply Rmult_integral in H. lra. }
  intros t x y y' Hnd [H|(p & q & Hadj & Hs)] [H'|(p' & q' & Hadj' & Hs')].
  - eapply nodup_fst_inj; eauto.
  - eapply B; eauto.
  - symmetry; eapply B; eauto.
  - destruct Hadj as (Hp & Hq & Hlt & Hno), Hadj' as (Hp' & Hq' & Hlt' & Hno').
    destruct Hs as [Hx Heq], Hs' as [Hx' Heq'].
    (* if x is a node of one, use B; otherwise the segments coincide *)
    assert (Hn : forall z w, In (z,w) t -> x = z ->
       y = y').
    { intros z w Hin ->. transitivity w.
      - symmetry. apply (B t z w p q); auto; split; auto.
      - apply (B t z w p' q'); auto; split; auto. }
    destruct p as [a b], q as [c d], p' as [a' b'], q' as [c' d']; simpl in *.
    destruct (Req_dec x a); [apply (Hn a b Hp); auto|].
    destruct (Req_dec x c); [apply (Hn c d Hq); auto|].
    destruct (Req_dec x a'); [apply (Hn a' b' Hp'); auto|].
    destruct (Req_dec x c'); [apply (Hn c' d' Hq'); auto|].
    assert (a = a').
    { generalize (Hno _ Hp') (Hno' _ Hp); simpl; intros. destruct (Rtotal_order a a') as [|[|]]; auto; exfalso; lra. }
    assert (c = c').
    { generalize (Hno _ Hq') (Hno' _ Hq); simpl; intros. destruct (Rtotal_order c c') as [|[|]]; auto; exfalso; lra. }
    subst a' c'.
    assert (b = b') by (eapply nodup_fst_inj; eauto).
    assert (d = d') by (eapply nodup_fst_inj; eauto). subst.
    assert ((y - y') * (c - a) = 0) by lra.
    apply Rmult_integral in H3. lra.
Qed.

(** Row order does not matter. *)
Lemma interp1d_perm : forall t t' lo hi x, NoDup (map fst t) -> Permutation t t' ->
  interp1d t lo hi x = interp1d t' lo hi x.
Proof.
  intros t t' lo hi x Hnd Hp. unfold interp1d.
  assert (Hnd' : NoDup (map fst t')) by (eapply Permutation_NoDup; [apply Permutation_map; eauto|auto]).
  assert (sort_rows t = sort_rows t').
  { apply strict_sorted_unique; try apply sort_rows_strict; auto.
    intros p. rewrite <- !sort_rows_in. split; apply Permutation_in; auto; symmetry; auto. }
  rewrite H; auto.
Qed.

(** On the curve, values are between tabulated values. *)
Lemma Interpolates_bounds : forall t x y lo hi, Interpolates t x y ->
  (forall p, In p t -> lo <= snd p <= hi) -> lo <= y <= hi.
Proof.
  intros t x y lo hi [H|(p & q & (Hp & Hq & Hlt & _) & Hx & Heq)] Hb.
  - apply (Hb _ H).
  - generalize (Hb _ Hp) (Hb _ Hq); intros.
    set (a := fst p) in *; set (c := fst q) in *; set (b := snd p) in *; set (d := snd q) in *.
    assert (y = b + (d - b) * (x - a) / (c - a)).
    { apply (Rmult_eq_reg_r (c - a)); [|lra]. field_simplify; [|lra]. lra. }
    set (w := (x - a) / (c - a)).
    assert (Hw : 0 <= w <= 1).
    { unfold w; split; [apply Rmult_le_pos; [lra|left; apply Rinv_0_lt_compat; lra]|].
      apply (Rmult_le_reg_r (c - a)); [lra|]. unfold Rdiv; rewrite Rmult_assoc, Rinv_l; lra. }
    assert (y = b + (d - b) * w) by (unfold w; rewrite H1; field; lra).
    nra.
Qed.

(** A segment's value lies between its two end values. *)
Lemma segment_bounds : forall p q x y, fst p < fst q -> on_segment p q x y ->
  Rmin (snd p) (snd q) <= y <= Rmax (snd p) (snd q).
Proof.
  intros [a b] [c d] x y Hlt Hs; simpl in *.
  apply (Interpolates_bounds [(a,b);(c,d)] x y).
  - right; exists (a,b), (c,d). split; auto. repeat split; simpl; auto.
    intros r [<-|[<-|[]]]; simpl; lra.
  - intros r [<-|[<-|[]]]; simpl; split; try apply Rmin_l; try apply Rmax_l; try apply Rmin_r; apply Rmax_r.
Qed.

(** * Monotone and Lipschitz lookup, on sorted tables *)
Definition nonincreasing_rows (t : table) : Prop :=
  forall p q, In p t -> In q t -> fst p <= fst q -> snd q <= snd p.

Lemma interp_sorted_range : forall t x0 y0 x lo hi, StronglySorted row_lt ((x0,y0)::t) ->
  x0 <= x <= last_x ((x0,y0)::t) -> (forall p, In p ((x0,y0)::t) -> lo <= snd p <= hi) ->
  lo <= interp_sorted ((x0,y0)::t) x <= hi.
Proof. intros. eapply Interpolates_bounds; [apply interp_sorted_correct; eauto|auto]. Qed.

Lemma interp_sorted_mono : forall t x0 y0 x x', StronglySorted row_lt ((x0,y0)::t) ->
  nonincreasing_rows ((x0,y0)::t) -> x0 <= x -> x <= x' -> x' <= last_x ((x0,y0)::t) ->
  interp_sorted ((x0,y0)::t) x' <= interp_sorted ((x0,y0)::t) x.
Proof.
  induction t as [|[x1 y1] t IH]; intros x0 y0 x x' Hs Hm H0 H1 H2.
  - simpl; lra.
  - rewrite !interp_sorted_cons2.
    inversion Hs as [|? ? Hs1 Hf]; inversion Hf as [|? ? Hlt Hf1]; subst. unfold row_lt in Hlt; simpl in Hlt.
    assert (Hy : y1 <= y0).
    { apply (Hm (x0,y0) (x1,y1)); simpl; auto; lra. }
    assert (Hm1 : nonincreasing_rows ((x1,y1)::t)).
    { intros p q Hp Hq; apply Hm; right; auto. }
    assert (Hk : (y1 - y0) / (x1 - x0) <= 0).
    { unfold Rdiv. assert (0 < / (x1 - x0)) by (apply Rinv_0_lt_compat; lra). nra. }
    destruct (Rltb_spec x' x1); destruct (Rltb_spec x x1); try lra.
    + nra.
    + assert (interp_sorted ((x1,y1)::t) x' <= y1).
      { rewrite <- (interp_sorted_first t x1 y1) at 2; auto. apply IH; auto; try lra. }
      assert (y1 <= (y1 - y0) / (x1 - x0) * (x - x0) + y0).
      { replace y1 with ((y1 - y0) / (x1 - x0) * (x1 - x0) + y0) at 1 by (field; lra). nra. }
      lra.
    + apply IH; auto; lra.
Qed.

Definition slopes_bounded (K : R) (t : table) : Prop :=
  forall p q, adjacent t p q -> Rabs (snd q - snd p) <= K * (fst q - fst p).

Lemma slopes_bounded_tail : forall K p t, StronglySorted row_lt (p :: t) ->
  slopes_bounded K (p :: t) -> slopes_bounded K t.
Proof.
  intros K p t Hs H a b (Ha & Hb & Hab & Hno). apply H. split; [right; auto|]. split; [right; auto|].
  split; auto. intros r [<-|Hr]; auto.
  inversion Hs as [|? ? ? Hf]; subst. rewrite Forall_forall in Hf. specialize (Hf _ Ha). unfold row_lt in Hf; lra.
Qed.

Lemma interp_sorted_lipschitz : forall K t x0 y0 x x', StronglySorted row_lt ((x0,y0)::t) ->
  slopes_bounded K ((x0,y0)::t) -> x0 <= x -> x <= x' -> x' <= last_x ((x0,y0)::t) ->
  Rabs (interp_sorted ((x0,y0)::t) x' - interp_sorted ((x0,y0)::t) x) <= K * (x' - x).
Proof.
  induction t as [|[x1 y1] t IH]; intros x0 y0 x x' Hs Hm H0 H1 H2.
  - assert (x' = x) by (unfold last_x in H2; simpl in H2; lra). subst x'.
    replace (interp_sorted [(x0, y0)] x - interp_sorted [(x0, y0)] x) with 0 by ring.
    rewrite Rabs_R0. lra.
  - pose proof (slopes_bounded_tail _ _ _ Hs Hm) as Hm1.
    assert (Hadj : adjacent ((x0,y0)::(x1,y1)::t) (x0,y0) (x1,y1)).
    { split; [left; auto|]. split; [right; left; auto|].
      inversion Hs as [|? ? Hs1 Hf]; inversion Hf as [|? ? Hlt Hf1]; subst. unfold row_lt in Hlt; simpl in Hlt.
      split; [simpl; lra|]. inversion Hs1 as [|? ? ? Hf2]; subst. rewrite Forall_forall in Hf2.
      intros r [<-|[<-|Hr]]; simpl; try lra. specialize (Hf2 _ Hr); unfold row_lt in Hf2; simpl in Hf2; lra. }
    specialize (Hm _ _ Hadj); simpl in Hm. destruct Hadj as (_ & _ & Hlt & _); simpl in Hlt.
    rewrite !interp_sorted_cons2. inversion Hs as [|? ? Hs1 Hf]; subst.
    set (k := (y1 - y0) / (x1 - x0)).
    assert (Hk : Rabs k <= K).
    { unfold k, Rdiv. rewrite Rabs_mult, Rabs_inv, (Rabs_right (x1 - x0)); [|lra].
      apply (Rmult_le_reg_r (x1 - x0)); [lra|]. rewrite Rmult_assoc, Rinv_l; lra. }
    destruct (Rltb_spec x' x1); destruct (Rltb_spec x x1); try lra.
    + replace (k * (x' - x0) + y0 - (k * (x - x0) + y0)) with (k * (x' - x)) by ring.
      rewrite Rabs_mult, (Rabs_right (x' - x)); [|lra]. apply Rmult_le_compat_r; lra.
    + assert (E : y1 = k * (x1 - x0) + y0) by (unfold k; field; lra).
      replace (interp_sorted ((x1, y1) :: t) x' - (k * (x - x0) + y0)) with
        ((interp_sorted ((x1, y1) :: t) x' - y1) + k * (x1 - x)) by (rewrite E at 2; ring).
      eapply Rle_trans; [apply Rabs_triang|].
      assert (Rabs (interp_sorted ((x1, y1) :: t) x' - y1) <= K * (x' - x1)).
      { rewrite <- (interp_sorted_first t x1 y1) at 2; auto. apply IH; auto; lra. }
      rewrite Rabs_mult, (Rabs_right (x1 - x)); [|lra].
      assert (Rabs k * (x1 - x) <= K * (x1 - x)) by (apply Rmult_le_compat_r; lra). lra.
    + apply IH; auto; lra.
Qed.

(** * Cumulative trapezoid *)
Lemma trapz_from_length : forall ys xs acc y0 x0, length ys = length xs ->
  length (trapz_from acc y0 x0 ys xs) = length ys.
Proof. induction ys as [|y ys IH]; destruct xs; simpl; intros; auto; discriminate. Qed.

Lemma cumtrapz_ok : forall y x l, cumtrapz y x 0 = Ok l -> length y = length x /\ length l = length y /\ y <> [].
Proof.
  intros [|y0 ys] [|x0 xs] l; simpl; try discriminate.
  destruct (Nat.eqb_spec (length ys) (length xs)); simpl; try discriminate.
  destruct (Reqb_spec 0 0); simpl; try discriminate. intros H; inversion H; subst; simpl.
  rewrite trapz_from_length; auto. repeat split; auto. discriminate.
Qed.

Lemma cumtrapz_total : forall y x, y <> [] -> length y = length x -> exists l, cumtrapz y x 0 = Ok l.
Proof.
  intros [|y0 ys] [|x0 xs] Hne Hl; simpl in *; try congruence.
  injection Hl as Hl. rewrite Hl, Nat.eqb_refl; simpl. destruct (Reqb_spec 0 0); simpl; [|lra]. eauto.
Qed.

Lemma cumtrapz_initial : forall y x i, i <> 0 -> cumtrapz y x i = Err ValueError.
Proof.
  intros [|y0 ys] [|x0 xs] i Hi; simpl; auto.
  destruct (Nat.eqb (length ys) (length xs)); simpl; auto. destruct (Reqb_spec i 0); simpl; auto. contradiction.
Qed.

(** * linspace *)
Lemma linspace_length : forall a b n, length (linspace a b n) = n.
Proof.
  intros a b [|[|n]]; simpl; auto. rewrite app_length, map_length, seq_length; simpl. lia.
Qed.
Lemma linspace_nth : forall a b n i, (2 <= n)%nat -> (i < n)%nat ->
  nth i (linspace a b n) 0 = a + INR i * ((b - a) / INR (n - 1)).
Proof.
  intros a b [|[|n]] i Hn Hi; try lia.
  change (linspace a b (S (S n))) with
    (map (fun j => a + INR j * ((b - a) / INR (S n))) (seq 0 (S n)) ++ [b]).
  replace (S (S n) - 1)%nat with (S n) by lia.
  assert (L : length (map (fun j => a + INR j * ((b - a) / INR (S n))) (seq 0 (S n))) = S n)
    by (rewrite map_length, seq_length; auto).
  destruct (Nat.eq_dec i (S n)) as [->|Hne].
  - rewrite app_nth2; rewrite L; [|lia]. replace (S n - S n)%nat with 0%nat by lia. simpl nth.
    assert (0 < INR (S n)) by (apply lt_0_INR; lia). field; lra.
  - rewrite app_nth1; [|rewrite L; lia].
    rewrite (nth_indep _ 0 (a + INR 0 * ((b - a) / INR (S n)))); [|rewrite L; lia].
    rewrite (map_nth (fun j => a + INR j * ((b - a) / INR (S n))) (seq 0 (S n)) 0%nat).
    rewrite seq_nth; [|lia]. reflexivity.
Qed.

(** * argmax of booleans *)
Lemma first_true_some : forall l i, first_true l = Some i ->
  nth i l false = true /\ (i < length l)%nat /\ forall j, (j < i)%nat -> nth j l false = false.
Proof.
  induction l as [|[|] l IH]; simpl; intros i H; try discriminate.
  - inversion H; subst. repeat split; auto; try lia. 
  - destruct (first_true l) as [k|]; try discriminate. inversion H; subst.
    destruct (IH k eq_refl) as (A & B & C). repeat split; auto; try lia.
    intros [|j] Hj; auto. apply C; lia.
Qed.
Lemma first_true_none : forall l, first_true l = None -> forall j, nth j l false = false.
Proof.
  induction l as [|[|] l IH]; simpl; intros H j; try discriminate; [destruct j; auto|].
  destruct (first_true l); try discriminate. destruct j; auto.
Qed.
Lemma first_true_exists : forall l j, (j < length l)%nat -> nth j l false = true -> exists i, first_true l = Some i.
Proof.
  intros l j Hj H. destruct (first_true l) eqn:E; eauto.
  rewrite (first_true_none _ E j) in H; discriminate.
Qed.

Lemma list_max_ge : forall l x, In x l -> x <= list_max l.
Proof.
  induction l as [|a l IH]; intros x Hx; [inversion Hx|]. destruct l as [|b l].
  - destruct Hx as [<-|[]]; simpl; lra.
  - change (list_max (a :: b :: l)) with (Rmax a (list_max (b :: l))).
    destruct Hx as [<-|Hx]; [apply Rmax_l|]. eapply Rle_trans; [apply IH; auto|apply Rmax_r].
Qed.
Lemma list_max_in : forall l, l <> [] -> In (list_max l) l.
Proof.
  induction l as [|a l IH]; intros H; [congruence|]. destruct l as [|b l].
  - left; auto.
  - change (list_max (a :: b :: l)) with (Rmax a (list_max (b :: l))).
    unfold Rmax; destruct (Rle_dec a (list_max (b :: l))); [right; apply IH; discriminate|left; auto].
Qed.
Lemma list_min_le : forall l x, In x l -> list_min l <= x.
Proof.
  induction l as [|a l IH]; intros x Hx; [inversion Hx|]. destruct l as [|b l].
  - destruct Hx as [<-|[]]; simpl; lra.
  - change (list_min (a :: b :: l)) with (Rmin a (list_min (b :: l))).
    destruct Hx as [<-|Hx]; [apply Rmin_l|]. eapply Rle_trans; [apply Rmin_r|apply IH; auto].
Qed.
Lemma list_min_in : forall l, l <> [] -> In (list_min l) l.
Proof.
  induction l as [|a l IH]; intros H; [congruence|]. destruct l as [|b l].
  - left; auto.
  - change (list_min (a :: b :: l)) with (Rmin a (list_min (b :: l))).
    unfold Rmin; destruct (Rle_dec a (list_min (b :: l))); [left; auto|right; apply IH; discriminate].
Qed.

(** Running trapezoid: first entry, increments. *)
Lemma trapz_from_step : forall ys xs acc y0 x0 i, length ys = length xs -> (i < length ys)%nat ->
  nth i (trapz_from acc y0 x0 ys xs) 0 =
  nth i (acc :: trapz_from acc y0 x0 ys xs) 0 +
  (nth i xs 0 - nth i (x0 :: xs) 0) * (nth i (y0 :: ys) 0 + nth i ys 0) / 2.
Proof.
  induction ys as [|y ys IH]; intros [|x xs] acc y0 x0 i Hl Hi; simpl in Hl, Hi; try lia; try discriminate.
  injection Hl as Hl. destruct i as [|i]; [simpl; lra|].
  cbn [trapz_from nth]. rewrite IH; auto; try lia.
Qed.

Lemma cumtrapz_spec : forall y x v, cumtrapz y x 0 = Ok v ->
  length v = length y /\ length y = length x /\ nth 0 v 0 = 0 /\
  forall i, (S i < length y)%nat ->
    nth (S i) v 0 = nth i v 0 + (nth (S i) x 0 - nth i x 0) * (nth i y 0 + nth (S i) y 0) / 2.
Proof.
  intros y x v H. destruct (cumtrapz_ok _ _ _ H) as (A & B & C). split; auto. split; auto.
  destruct y as [|y0 ys], x as [|x0 xs]; simpl in H; try discriminate; try congruence.
  simpl in A; injection A as A. rewrite A, Nat.eqb_refl in H. simpl in H.
  destruct (Reqb_spec 0 0); simpl in H; [|discriminate]. inversion H; subst. split; auto.
  intros i Hi. simpl in Hi. cbn [nth]. rewrite trapz_from_step; auto; try lia. 
Qed.

(** Increments of a list bound its total variation. *)
Lemma chain_le : forall (v : list R) (f : nat -> R) j i, (i <= j)%nat -> (j < length v)%nat ->
  (forall k, (i <= k)%nat -> (k < j)%nat -> nth (S k) v 0 - nth k v 0 <= f (S k) - f k) ->
  nth j v 0 - nth i v 0 <= f j - f i.
Proof.
  intros v f j; induction j as [|j IH]; intros i Hij Hj Hk.
  - replace i with 0%nat by lia. lra.
  - destruct (Nat.eq_dec i (S j)) as [->|Hne]; [lra|].
    specialize (IH i ltac:(lia) ltac:(lia)). specialize (Hk j) as Hk1.
    assert (nth j v 0 - nth i v 0 <= f j - f i) by (apply IH; intros; apply Hk; lia).
    specialize (Hk1 ltac:(lia) ltac:(lia)). lra.
Qed.
