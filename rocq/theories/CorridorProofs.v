(** Proofs about the corridor searches. *)
From Coq Require Import String List.
Require Import Verif.Base Verif.Numpy Verif.NumpyProofs Verif.PlanetModel Verif.PlanetProofs Verif.AeroModel Verif.HeatModel Verif.TrajectoryModel Verif.TrajectorySpec Verif.TrajectoryProofs
  Verif.OrbitScalarModel Verif.OrbiterModel Verif.CorridorModel Verif.CorridorSpec.

(** Same vehicle, initial state and solver tolerance. *)
Definition same (o o' : vobj) : Prop := ob_veh o' = ob_veh o /\ ob_init o' = ob_init o /\ ob_tol o' = ob_tol o.
Lemma same_refl : forall o, same o o. Proof. repeat split. Qed.
Lemma same_trans : forall a b c, same a b -> same b c -> same a c.
Proof. intros a b c (H1 & H2 & H3) (K1 & K2 & K3). repeat split; congruence. Qed.
Lemma same_sym : forall a b, same a b -> same b a.
Proof. intros a b (H1 & H2 & H3). repeat split; congruence. Qed.
Lemma same_set : forall o o' g, same o o' -> same (set_gamma0 o g) (set_gamma0 o' g).
Proof. intros o o' g (H1 & H2 & H3). unfold same, set_gamma0. cbn [ob_veh ob_init ob_tol]. rewrite H1, H2, H3. repeat split. Qed.
Lemma set_set : forall o g g', set_gamma0 (set_gamma0 o g) g' = set_gamma0 o g'.
Proof. reflexivity. Qed.
Lemma set_own : forall o, same o (set_gamma0 o (gamma0_deg (ob_init o))).
Proof. intros [V [] t f h]. repeat split. Qed.

(** A predicate that answers 1 or -1 (or raises) from the vehicle, initial state and tolerance only, and
    changes none of them. *)
Record good (ask : vobj -> vobj * res R) : Prop := mkGood {
  g_same : forall o, same o (fst (ask o));
  g_ext : forall o o', same o o' -> snd (ask o') = snd (ask o);
  g_pm : forall o a, snd (ask o) = Ok a -> a = 1 \/ a = -1 }.

Section search.
  Variable ask : vobj -> vobj * res R.
  Hypothesis G : good ask.
  Variable o0 : vobj.
  Definition answer_at (g : R) : res R := snd (ask (set_gamma0 o0 g)).
  Definition reached (o : vobj) : Prop := exists g, same (set_gamma0 o0 g) o.
  Let ans := answer_at.

  Lemma reached_set : forall o g, reached o -> same (set_gamma0 o0 g) (set_gamma0 o g).
  Proof. intros o g (g0 & H). apply (same_set _ _ g) in H. rewrite set_set in H. exact H. Qed.
  Lemma ask_reached : forall o g, reached o -> snd (ask (set_gamma0 o g)) = ans g /\ same (set_gamma0 o0 g) (fst (ask (set_gamma0 o g))).
  Proof.
    intros o g Ho. pose proof (reached_set o g Ho) as S. split; [apply (g_ext _ G); auto|].
    eapply same_trans; [exact S|apply (g_same _ G)].
  Qed.
  Lemma call_case : forall {B} o g (k : vobj -> R -> option (vobj * res B)) q, reached o -> call (ask (set_gamma0 o g)) k = q ->
    (exists e o1, ans g = Err e /\ same (set_gamma0 o0 g) o1 /\ q = Some (o1, Err e)) \/
    (exists a o1, ans g = Ok a /\ (a = 1 \/ a = -1) /\ reached o1 /\ same (set_gamma0 o0 g) o1 /\ k o1 a = q).
  Proof.
    intros B o g k q Ho H. destruct (ask_reached o g Ho) as (E & S). destruct (ask (set_gamma0 o g)) as [o1 [a|e]] eqn:Ea; cbn [fst snd] in *; cbn [call] in H.
    - right. exists a, o1. split; auto. split; [apply (g_pm _ G (set_gamma0 o0 g)); symmetry; exact E|]. split; [exists g; exact S|auto].
    - left. exists e, o1. auto.
  Qed.

  Lemma within_l : forall a b, within a b a. Proof. intros. unfold within, Rmin, Rmax. destruct (Rle_dec a b); lra. Qed.
  Lemma within_r : forall a b, within a b b. Proof. intros. unfold within, Rmin, Rmax. destruct (Rle_dec a b); lra. Qed.
  Lemma within_mid : forall a b, within a b (0.5 * (a + b)). Proof. intros. unfold within, Rmin, Rmax. destruct (Rle_dec a b); lra. Qed.
  Lemma within_trans : forall a b c d g, within a b c -> within a b d -> within c d g -> within a b g.
  Proof. unfold within, Rmin, Rmax. intros a b c d g. destruct (Rle_dec a b), (Rle_dec c d); lra. Qed.

  (** What the loop does from a bracket whose ends answer differently. *)
  Lemma bisect_spec : forall tol fuel o low high lim q, reached o -> opposite ans low high ->
    bisect ask tol fuel o low high lim = q ->
    (exists g e o', q = Some (o', Err e) /\ within low high g /\ ans g = Err e /\ same (set_gamma0 o0 g) o') \/
    (Rabs (high - low) <= tol /\ q = Some (o, Ok lim)) \/
    (exists n lo hi o', (1 <= n <= fuel)%nat /\ tol < Rabs (high - low) / 2 ^ (n - 1) /\ Rabs (hi - lo) = Rabs (high - low) / 2 ^ n /\ Rabs (hi - lo) <= tol /\
       within low high lo /\ within low high hi /\ (low <= high -> lo <= hi) /\ (high <= low -> hi <= lo) /\ opposite ans lo hi /\ reached o' /\ q = Some (o', Ok (Some (hi, 1)))) \/
    (q = None /\ tol < Rabs (high - low) / 2 ^ fuel).
  Proof.
    intros tol fuel. induction fuel as [|fuel IH]; intros o low high lim q Ho Hop H.
    - cbn [bisect] in H. destruct (Rltb_spec tol (Rabs (high - low))) as [L|L].
      + right; right; right. split; auto. rewrite pow_O. lra.
      + right; left. split; [lra|auto].
    - cbn [bisect] in H. destruct (Rltb_spec tol (Rabs (high - low))) as [L|L]; [|right; left; split; [lra|auto]].
      set (mid := 0.5 * (low + high)) in *.
      destruct (call_case _ _ _ _ Ho H) as [(e & o1 & A & S & ->)|(a1 & o1 & A1 & P1 & R1 & _ & H1)]; clear H.
      { left. exists low, e, o1. split; [reflexivity|]. split; [apply within_l|]. split; assumption. }
      destruct (call_case _ _ _ _ R1 H1) as [(e & o2 & A & S & ->)|(a2 & o2 & A2 & P2 & R2 & _ & H2)]; clear H1.
      { left. exists mid, e, o2. split; [reflexivity|]. split; [apply within_mid|]. split; assumption. }
      destruct (call_case _ _ _ _ R2 H2) as [(e & o3 & A & S & ->)|(a3 & o3 & A3 & P3 & R3 & _ & H3)]; clear H2.
      { left. exists high, e, o3. split; [reflexivity|]. split; [apply within_r|]. split; assumption. }
      assert (W : forall d, d = high - low -> Rabs (0.5 * d) = Rabs (high - low) / 2).
      { intros d ->. rewrite Rabs_mult. rewrite (Rabs_pos_eq 0.5) by lra. lra. }
      assert (Wl : Rabs (mid - low) = Rabs (high - low) / 2) by (rewrite <- (W _ eq_refl); f_equal; unfold mid; lra).
      assert (Wh : Rabs (high - mid) = Rabs (high - low) / 2) by (rewrite <- (W _ eq_refl); f_equal; unfold mid; lra).
      assert (Hp : 0 < 2 ^ fuel) by (apply pow_lt; lra).
      (* both halves are treated alike *)
      assert (K : forall lo' hi' lim', within low high lo' -> within low high hi' -> (low <= high -> lo' <= hi') -> (high <= low -> hi' <= lo') -> Rabs (hi' - lo') = Rabs (high - low) / 2 -> opposite ans lo' hi' ->
        lim' = Some (hi', 1) -> bisect ask tol fuel o3 lo' hi' lim' = q ->
        (exists g e o', q = Some (o', Err e) /\ within low high g /\ ans g = Err e /\ same (set_gamma0 o0 g) o') \/
        (Rabs (high - low) <= tol /\ q = Some (o, Ok lim)) \/
        (exists n lo hi o', (1 <= n <= S fuel)%nat /\ tol < Rabs (high - low) / 2 ^ (n - 1) /\ Rabs (hi - lo) = Rabs (high - low) / 2 ^ n /\ Rabs (hi - lo) <= tol /\
           within low high lo /\ within low high hi /\ (low <= high -> lo <= hi) /\ (high <= low -> hi <= lo) /\ opposite ans lo hi /\ reached o' /\ q = Some (o', Ok (Some (hi, 1)))) \/
        (q = None /\ tol < Rabs (high - low) / 2 ^ S fuel)).
      { intros lo' hi' lim' Wlo Whi O1 O2 Hw Hop' -> Hb. destruct (IH _ _ _ _ _ R3 Hop' Hb) as [(g & e & o' & -> & Wg & A & S)|[(Ht & ->)|[(n & lo & hi & o' & Hn & T1 & T2 & T3 & W1 & W2 & W3 & W4 & Op & R & ->)|(-> & T)]]].
        - left. exists g, e, o'. split; [reflexivity|]. split; [exact (within_trans _ _ _ _ _ Wlo Whi Wg)|]. split; assumption.
        - right; right; left. exists 1%nat, lo', hi', o3. split; [lia|]. cbn [Nat.sub]. rewrite pow_O, pow_1.
          split; [lra|]. split; [auto|]. split; [lra|]. repeat (split; [assumption|]). reflexivity.
        - right; right; left. exists (S n), lo, hi, o'. split; [lia|]. rewrite Hw in T1, T2.
          assert (Hpn : 0 < 2 ^ n) by (apply pow_lt; lra).
          split. { replace (S n - 1)%nat with (S (n - 1)) by lia. cbn [pow]. assert (0 < 2 ^ (n - 1)) by (apply pow_lt; lra).
                   replace (Rabs (high - low) / (2 * 2 ^ (n - 1))) with (Rabs (high - low) / 2 / 2 ^ (n - 1)) by (field; lra). auto. }
          split. { cbn [pow]. rewrite T2. field. lra. }
          split; [auto|]. split; [exact (within_trans _ _ _ _ _ Wlo Whi W1)|]. split; [exact (within_trans _ _ _ _ _ Wlo Whi W2)|].
          split; [intros; apply W3; auto|]. split; [intros; apply W4; auto|]. split; [auto|]. split; auto.
        - right; right; right. split; auto. cbn [pow]. rewrite Hw in T. replace (Rabs (high - low) / (2 * 2 ^ fuel)) with (Rabs (high - low) / 2 / 2 ^ fuel) by (field; lra). auto. }
      assert (Hv : a1 * a3 < 0). { unfold opposite in Hop. destruct Hop as [(Q1 & Q2)|(Q1 & Q2)]; rewrite Q1 in A1; rewrite Q2 in A3; injection A1 as <-; injection A3 as <-; lra. }
      destruct (Rltb_spec (a1 * a2) 0) as [C|C].
      + apply (K low mid (Some (mid, 1))); auto; try apply within_l; try apply within_mid; try (unfold mid; lra).
        unfold opposite. rewrite A1, A2. destruct P1 as [-> | ->], P2 as [-> | ->]; try lra; auto.
      + destruct (Rltb_spec (a2 * a3) 0) as [C'|C'].
        * apply (K mid high (Some (high, 1))); auto; try apply within_r; try apply within_mid; try (unfold mid; lra).
          unfold opposite. rewrite A2, A3. destruct P2 as [-> | ->], P3 as [-> | ->]; try lra; auto.
        * exfalso. destruct P1 as [-> | ->], P2 as [-> | ->], P3 as [-> | ->]; lra.
  Qed.
End search.

(** The flight a propagation stores when it succeeds. *)
Definition stored (f : res flight) (h0 : R) : res flight :=
  letr w := f in letr _ := ocumtrapz (f_qtot w) (c_t (f_si w)) h0 in Ok w.
Lemma ask_store : forall {A} o f h0 (k : flight -> res A),
  same o (fst (ask_flight (store o f h0) k)) /\ snd (ask_flight (store o f h0) k) = (letr w := stored f h0 in k w) /\
  (forall w, stored f h0 = Ok w -> ob_flight (fst (ask_flight (store o f h0) k)) = Some w).
Proof.
  intros A o [w|e] h0 k; unfold store, stored; cbn [rbind].
  - destruct (ocumtrapz _ _ _) as [h|e]; cbn [rbind ask_flight set_heat set_flight ob_flight ob_heat fst snd].
    + split; [repeat split|]. split; [reflexivity|]. intros w' E. injection E as <-. reflexivity.
    + split; [repeat split|]. split; [reflexivity|]. discriminate.
  - cbn [ask_flight fst snd]. split; [apply same_refl|]. split; [reflexivity|discriminate].
Qed.
Lemma apo_pm : forall p t r v g, apo_answer p t r v g = 1 \/ apo_answer p t r v g = -1.
Proof.
  intros. unfold apo_answer. destruct (computeEnergyScalar _ _ _); auto. destruct (computeSemiMajorAxisScalar _ _); auto.
  match goal with |- context [if ?b then _ else _] => destruct b end; auto.
Qed.
Lemma low_pm : forall p r a b, low_override p r a = Ok b -> a = 1 \/ a = -1 -> b = 1 \/ b = -1.
Proof. intros p r a b H Ha. unfold low_override in H. destruct (h_low p); [|discriminate]. injection H as <-. match goal with |- context [if ?b then _ else _] => destruct b end; auto. Qed.

Lemma good_hits : forall E t_sec dt d target, good (fun o => hitsTargetApoapsis E o t_sec dt d target).
Proof.
  intros. split.
  - intros o. apply ask_store.
  - intros o o' (H1 & H2 & H3). unfold hitsTargetApoapsis, propogateEntry. rewrite !(proj1 (proj2 (ask_store _ _ _ _))), H1, H2, H3. reflexivity.
  - intros o a H. unfold hitsTargetApoapsis, propogateEntry in H. rewrite (proj1 (proj2 (ask_store _ _ _ _))) in H.
    destruct (stored _ _); [|discriminate]. cbn [rbind] in H. apply (low_pm _ _ _ _ H), apo_pm.
Qed.
Lemma good_hits2 : forall E t_sec dt d target, good (fun o => hitsTargetApoapsis2 E o t_sec dt d target).
Proof.
  intros. split.
  - intros o. apply ask_store.
  - intros o o' (H1 & H2 & H3). unfold hitsTargetApoapsis2, propogateEntry2. rewrite !(proj1 (proj2 (ask_store _ _ _ _))), H1, H2, H3. reflexivity.
  - intros o a H. unfold hitsTargetApoapsis2, propogateEntry2 in H. rewrite (proj1 (proj2 (ask_store _ _ _ _))) in H.
    destruct (stored _ _); [|discriminate]. cbn [rbind] in H. apply (low_pm _ _ _ _ H), apo_pm.
Qed.

(** LD is read by nothing the predicates run. *)
Lemma hits_LD : forall E o x t_sec dt d target, snd (hitsTargetApoapsis E (set_LD o x) t_sec dt d target) = snd (hitsTargetApoapsis E o t_sec dt d target).
Proof. intros. unfold hitsTargetApoapsis, propogateEntry. rewrite !(proj1 (proj2 (ask_store _ _ _ _))). reflexivity. Qed.
Lemma hits2_LD : forall E o x t_sec dt d target, snd (hitsTargetApoapsis2 E (set_LD o x) t_sec dt d target) = snd (hitsTargetApoapsis2 E o t_sec dt d target).
Proof. intros. unfold hitsTargetApoapsis2, propogateEntry2. rewrite !(proj1 (proj2 (ask_store _ _ _ _))). reflexivity. Qed.

(** Outcomes of the search before the attributes are restored. *)
Lemma search_spec : forall ask o0 tol fuel low high q, good ask -> search ask tol fuel o0 low high = q ->
  let ans := answer_at ask o0 in
  (exists g e o', q = Some (o', Err e) /\ within low high g /\ ans g = Err e /\ same (set_gamma0 o0 g) o') \/
  (exists a o', q = Some (o', Ok (Some (0, 0))) /\ ans low = Ok a /\ ans high = Ok a /\ reached o0 o') \/
  (opposite ans low high /\
    ((exists o', Rabs (high - low) <= tol /\ reached o0 o' /\ q = Some (o', Ok None)) \/
     (exists n lo hi o', (1 <= n <= fuel)%nat /\ tol < Rabs (high - low) / 2 ^ (n - 1) /\ Rabs (hi - lo) = Rabs (high - low) / 2 ^ n /\ Rabs (hi - lo) <= tol /\
       within low high lo /\ within low high hi /\ (low <= high -> lo <= hi) /\ (high <= low -> hi <= lo) /\ opposite ans lo hi /\ reached o0 o' /\ q = Some (o', Ok (Some (hi, 1)))) \/
     (q = None /\ tol < Rabs (high - low) / 2 ^ fuel))).
Proof.
  intros ask o0 tol fuel low high q G H ans. unfold search in H.
  assert (R0 : reached o0 o0). { exists (gamma0_deg (ob_init o0)). apply same_sym, set_own. }
  destruct (call_case ask G o0 _ _ _ _ R0 H) as [(e & o1 & A & S & ->)|(a1 & o1 & A1 & P1 & R1 & _ & H1)]; clear H.
  { left. exists low, e, o1. split; [reflexivity|]. split; [apply within_l|]. split; assumption. }
  destruct (call_case ask G o0 _ _ _ _ R1 H1) as [(e & o2 & A & S & ->)|(a2 & o2 & A2 & P2 & R2 & _ & H2)]; clear H1.
  { left. exists high, e, o2. split; [reflexivity|]. split; [apply within_r|]. split; assumption. }
  destruct (Rltb_spec (a1 * a2) 0) as [C|C].
  - assert (Op : opposite ans low high) by (unfold opposite; fold ans in A1, A2; rewrite A1, A2; destruct P1 as [-> | ->], P2 as [-> | ->]; try lra; auto).
    destruct (bisect_spec ask G o0 _ _ _ _ _ _ _ R2 Op H2) as [K|[(Ht & K)|[K|K]]]; [left; exact K|right; right; split; auto..].
    left. exists o2. auto.
  - right; left. exists a1, o2. split; [auto|]. split; [exact A1|]. split; [|exact R2]. unfold ans. rewrite A2. f_equal. destruct P1 as [-> | ->], P2 as [-> | ->]; lra.
Qed.
