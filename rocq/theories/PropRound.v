(** C96: the corridor searches in rounded arithmetic. *)
From Coq Require Import String List.
Require Import Verif.Base Verif.Numpy Verif.NumpyProofs Verif.PlanetModel Verif.PlanetProofs Verif.AeroModel Verif.HeatModel Verif.TrajectoryModel Verif.TrajectorySpec Verif.TrajectoryProofs
  Verif.OrbitScalarModel Verif.OrbiterModel Verif.CorridorModel Verif.CorridorSpec Verif.CorridorProofs Verif.RoundSpec Verif.RoundModel.

(** With exact arithmetic this is the search of CorridorModel. *)
Lemma bisect_r_exact : forall ask tol fuel o low high lim, bisect_r (fun x => x) ask tol fuel o low high lim = bisect ask tol fuel o low high lim.
Proof.
  intros ask tol fuel. induction fuel as [|fuel IH]; intros o low high lim; cbn [bisect bisect_r]; auto.
  destruct (Rltb tol (Rabs (high - low))); auto. unfold call.
  destruct (ask (set_gamma0 o low)) as [o1 [a1|]]; auto. destruct (ask (set_gamma0 o1 _)) as [o2 [a2|]]; auto. destruct (ask (set_gamma0 o2 high)) as [o3 [a3|]]; auto.
  rewrite !IH. reflexivity.
Qed.
Theorem C96_exact : forall ask tol fuel o low high,
  limit_search_r (fun x => x) ask tol fuel o low high = limit_search ask tol fuel o low high /\
  efpa_search_r (fun x => x) ask tol fuel o low high = efpa_search ask tol fuel o low high.
Proof.
  intros. unfold limit_search_r, limit_search, efpa_search_r, efpa_search, search_r, search, call.
  split; [destruct (ask (set_gamma0 o low)) as [o1 [a1|]]|destruct (ask (set_gamma0 (set_LD o 0) low)) as [o1 [a1|]]]; auto;
    destruct (ask (set_gamma0 o1 high)) as [o2 [a2|]]; auto; rewrite bisect_r_exact; reflexivity.
Qed.

Section rounded.
  Variables (rnd : R -> R) (u M : R).
  Hypothesis RD : rounding rnd u M.
  Lemma rd_ge : forall x y, machine rnd x -> x <= y -> x <= rnd y.
  Proof. intros x y Hx H. rewrite <- Hx. apply (rd_mono _ _ _ RD). auto. Qed.
  Lemma rd_le : forall x y, machine rnd y -> x <= y -> rnd x <= y.
  Proof. intros x y Hy H. rewrite <- Hy. apply (rd_mono _ _ _ RD). auto. Qed.
  Lemma mid_within : forall a b, machine rnd a -> machine rnd b -> within a b (rnd (0.5 * rnd (a + b))).
  Proof.
    intros a b Ha Hb. pose proof (rd_twice _ _ _ RD a Ha) as Ha2. pose proof (rd_twice _ _ _ RD b Hb) as Hb2.
    unfold within, Rmin, Rmax. destruct (Rle_dec a b).
    - assert (2 * a <= rnd (a + b) <= 2 * b) by (split; [apply rd_ge; auto; lra|apply rd_le; auto; lra]). split; [apply rd_ge; auto; lra|apply rd_le; auto; lra].
    - assert (2 * b <= rnd (a + b) <= 2 * a) by (split; [apply rd_ge; auto; lra|apply rd_le; auto; lra]). split; [apply rd_ge; auto; lra|apply rd_le; auto; lra].
  Qed.
  Lemma u_pos : 0 <= M -> 0 <= u.
  Proof. intros HM. eapply Rle_trans; [|apply (rd_err _ _ _ RD 0); rewrite Rabs_R0; auto]. apply Rabs_pos. Qed.
  (** The midpoint is off by at most 3/2 u. *)
  Lemma within_size : forall a b g, Rabs a <= M / 2 -> Rabs b <= M / 2 -> within a b g -> Rabs g <= M / 2.
  Proof.
    intros a b g Ha Hb. unfold within, Rmin, Rmax. intros H. apply Rabs_le. unfold Rabs in Ha, Hb.
    destruct (Rle_dec a b), (Rcase_abs a), (Rcase_abs b); lra.
  Qed.
  Lemma mid_close : forall a b, machine rnd a -> machine rnd b -> Rabs a <= M / 2 -> Rabs b <= M / 2 ->
    Rabs (rnd (0.5 * rnd (a + b)) - 0.5 * (a + b)) <= 1.5 * u.
  Proof.
    intros a b Ha Hb HA HB. set (s := a + b). assert (Hs : Rabs s <= M). { eapply Rle_trans; [apply Rabs_triang|]. lra. }
    pose proof (rd_err _ _ _ RD _ Hs) as E1.
    assert (KM : 0 <= M) by (eapply Rle_trans; [apply Rabs_pos|exact Hs]).
    assert (W : within a b (0.5 * rnd s)).
    { pose proof (rd_twice _ _ _ RD a Ha) as Ha2. pose proof (rd_twice _ _ _ RD b Hb) as Hb2. unfold within, Rmin, Rmax, s. destruct (Rle_dec a b).
      - assert (2 * a <= rnd (a + b) <= 2 * b) by (split; [apply rd_ge; auto; lra|apply rd_le; auto; lra]). lra.
      - assert (2 * b <= rnd (a + b) <= 2 * a) by (split; [apply rd_ge; auto; lra|apply rd_le; auto; lra]). lra. }
    assert (Hh : Rabs (0.5 * rnd s) <= M) by (pose proof (within_size _ _ _ HA HB W); lra).
    pose proof (rd_err _ _ _ RD _ Hh) as E2.
    replace (rnd (0.5 * rnd s) - 0.5 * s) with ((rnd (0.5 * rnd s) - 0.5 * rnd s) + 0.5 * (rnd s - s)) by lra.
    eapply Rle_trans; [apply Rabs_triang|]. rewrite (Rabs_mult 0.5), (Rabs_pos_eq 0.5) by lra. lra.
  Qed.
  Lemma halves : forall a b, machine rnd a -> machine rnd b -> Rabs a <= M / 2 -> Rabs b <= M / 2 -> let m := rnd (0.5 * rnd (a + b)) in
    Rabs (m - a) <= Rabs (b - a) / 2 + 1.5 * u /\ Rabs (b - m) <= Rabs (b - a) / 2 + 1.5 * u.
  Proof.
    intros a b Ha Hb HA HB m. pose proof (mid_close a b Ha Hb HA HB) as H. fold m in H. set (e := m - 0.5 * (a + b)) in H.
    assert (D : Rabs (0.5 * (b - a)) = Rabs (b - a) / 2) by (rewrite Rabs_mult, (Rabs_pos_eq 0.5) by lra; lra). split.
    - replace (m - a) with (0.5 * (b - a) + e) by (unfold e; lra). eapply Rle_trans; [apply Rabs_triang|]. lra.
    - replace (b - m) with (0.5 * (b - a) + - e) by (unfold e; lra). eapply Rle_trans; [apply Rabs_triang|]. rewrite Rabs_Ropp. lra.
  Qed.

  Variable ask : vobj -> vobj * res R.
  Hypothesis G : good ask.
  Variable o0 : vobj.
  Let ans := answer_at ask o0.

  (** A bracket of two numbers of the machine that get opposite answers, inside [low, high] and with its orientation. *)
  Definition bracket (low high lo hi : R) : Prop :=
    within low high lo /\ within low high hi /\ machine rnd lo /\ machine rnd hi /\ (low <= high -> lo <= hi) /\ (high <= low -> hi <= lo) /\ opposite ans lo hi.

  Lemma bisect_r_spec : forall tol fuel o low high lim q, reached o0 o -> opposite ans low high ->
    machine rnd low -> machine rnd high -> Rabs low <= M / 2 -> Rabs high <= M / 2 ->
    bisect_r rnd ask tol fuel o low high lim = q ->
    (exists g e o', q = Some (o', Err e) /\ within low high g /\ machine rnd g /\ ans g = Err e) \/
    (Rabs (rnd (high - low)) <= tol /\ q = Some (o, Ok lim)) \/
    (exists lo hi o', Rabs (rnd (hi - lo)) <= tol /\ bracket low high lo hi /\ reached o0 o' /\ q = Some (o', Ok (Some (hi, 1)))) \/
    (q = None /\ exists lo hi, tol < Rabs (rnd (hi - lo)) /\ bracket low high lo hi /\ Rabs (hi - lo) <= Rabs (high - low) / 2 ^ fuel + 3 * u * (1 - / 2 ^ fuel)).
  Proof.
    intros tol fuel. induction fuel as [|fuel IH]; intros o low high lim q Ho Hop Ml Mh Sl Sh H.
    - cbn [bisect_r] in H. destruct (Rltb_spec tol (Rabs (rnd (high - low)))) as [L|L].
      + right; right; right. split; auto. exists low, high. split; auto. split; [|rewrite pow_O; lra].
        split; [apply within_l|]. split; [apply within_r|]. tauto.
      + right; left. split; [lra|auto].
    - cbn [bisect_r] in H. destruct (Rltb_spec tol (Rabs (rnd (high - low)))) as [L|L]; [|right; left; split; [lra|auto]].
      destruct (halves low high Ml Mh Sl Sh) as (Wl & Wh). pose proof (mid_within low high Ml Mh) as Wm.
      set (mid := rnd (0.5 * rnd (low + high))) in *.
      assert (Mm : machine rnd mid) by (apply (rd_keep _ _ _ RD)).
      assert (Sm : Rabs mid <= M / 2) by (apply (within_size low high); auto).
      destruct (call_case ask G o0 _ _ _ _ Ho H) as [(e & o1 & A & S & ->)|(a1 & o1 & A1 & P1 & R1 & _ & H1)]; clear H.
      { left. exists low, e, o1. split; [reflexivity|]. split; [apply within_l|]. split; assumption. }
      destruct (call_case ask G o0 _ _ _ _ R1 H1) as [(e & o2 & A & S & ->)|(a2 & o2 & A2 & P2 & R2 & _ & H2)]; clear H1.
      { left. exists mid, e, o2. split; [reflexivity|]. split; [exact Wm|]. split; assumption. }
      destruct (call_case ask G o0 _ _ _ _ R2 H2) as [(e & o3 & A & S & ->)|(a3 & o3 & A3 & P3 & R3 & _ & H3)]; clear H2.
      { left. exists high, e, o3. split; [reflexivity|]. split; [apply within_r|]. split; assumption. }
      assert (Hp : 0 < 2 ^ fuel) by (apply pow_lt; lra).
      assert (K : forall lo' hi', bracket low high lo' hi' -> Rabs (hi' - lo') <= Rabs (high - low) / 2 + 1.5 * u ->
        bisect_r rnd ask tol fuel o3 lo' hi' (Some (hi', 1)) = q ->
        (exists g e o', q = Some (o', Err e) /\ within low high g /\ machine rnd g /\ ans g = Err e) \/
        (Rabs (rnd (high - low)) <= tol /\ q = Some (o, Ok lim)) \/
        (exists lo hi o', Rabs (rnd (hi - lo)) <= tol /\ bracket low high lo hi /\ reached o0 o' /\ q = Some (o', Ok (Some (hi, 1)))) \/
        (q = None /\ exists lo hi, tol < Rabs (rnd (hi - lo)) /\ bracket low high lo hi /\ Rabs (hi - lo) <= Rabs (high - low) / 2 ^ S fuel + 3 * u * (1 - / 2 ^ S fuel))).
      { intros lo' hi' B Hw Hb. assert (B' := B). destruct B' as (B1 & B2 & B3 & B4 & B5 & B6 & B7).
        assert (T : forall lo hi, bracket lo' hi' lo hi -> bracket low high lo hi).
        { intros lo hi (C1 & C2 & C3 & C4 & C5 & C6 & C7). split; [exact (within_trans _ _ _ _ _ B1 B2 C1)|]. split; [exact (within_trans _ _ _ _ _ B1 B2 C2)|].
          split; [auto|]. split; [auto|]. split; [intros; apply C5, B5; auto|]. split; [intros; apply C6, B6; auto|auto]. }
        assert (Sl' : Rabs lo' <= M / 2) by (apply (within_size low high); auto). assert (Sh' : Rabs hi' <= M / 2) by (apply (within_size low high); auto).
        destruct (IH _ _ _ _ _ R3 B7 B3 B4 Sl' Sh' Hb) as [(g & e & o' & -> & Wg & Mg & A)|[(Ht & ->)|[(lo & hi & o' & Ht & Bk & R & ->)|(-> & lo & hi & Ht & Bk & Hw2)]]].
        - left. exists g, e, o'. split; [reflexivity|]. split; [exact (within_trans _ _ _ _ _ B1 B2 Wg)|]. split; assumption.
        - right; right; left. exists lo', hi', o3. auto.
        - right; right; left. exists lo, hi, o'. auto.
        - right; right; right. split; auto. exists lo, hi. split; auto. split; auto. eapply Rle_trans; [exact Hw2|].
          apply Rle_trans with ((Rabs (high - low) / 2 + 1.5 * u) / 2 ^ fuel + 3 * u * (1 - / 2 ^ fuel)).
          + apply Rplus_le_compat_r. unfold Rdiv at 1 2. apply Rmult_le_compat_r; auto. left. apply Rinv_0_lt_compat. auto.
          + right. cbn [pow]. replace 1.5 with (3 / 2) by lra. field. lra. }
      assert (Hv : a1 * a3 < 0). { unfold opposite in Hop. destruct Hop as [(Q1 & Q2)|(Q1 & Q2)]; unfold ans in Q1, Q2; rewrite Q1 in A1; rewrite Q2 in A3; injection A1 as <-; injection A3 as <-; lra. }
      assert (Wm' := Wm). unfold within in Wm'. 
      assert (O1 : (low <= high -> low <= mid <= high) /\ (high <= low -> high <= mid <= low)).
      { unfold Rmin, Rmax in Wm'. destruct (Rle_dec low high); split; intros; lra. }
      destruct O1 as (O1 & O2).
      destruct (Rltb_spec (a1 * a2) 0) as [C|C].
      + apply (K low mid); auto. split; [apply within_l|]. split; [exact Wm|]. split; [auto|]. split; [auto|]. split; [intros; apply O1; auto|]. split; [intros; apply O2; auto|].
        unfold opposite, ans. rewrite A1, A2. destruct P1 as [-> | ->], P2 as [-> | ->]; try lra; auto.
      + destruct (Rltb_spec (a2 * a3) 0) as [C'|C'].
        * apply (K mid high); auto. split; [exact Wm|]. split; [apply within_r|]. split; [auto|]. split; [auto|]. split; [intros; apply O1; auto|]. split; [intros; apply O2; auto|].
          unfold opposite, ans. rewrite A2, A3. destruct P2 as [-> | ->], P3 as [-> | ->]; try lra; auto.
        * exfalso. destruct P1 as [-> | ->], P2 as [-> | ->], P3 as [-> | ->]; lra.
  Qed.
  Lemma search_r_spec : forall tol fuel low high q, machine rnd low -> machine rnd high -> Rabs low <= M / 2 -> Rabs high <= M / 2 ->
    search_r rnd ask tol fuel o0 low high = q ->
    (exists g e o', q = Some (o', Err e) /\ within low high g /\ machine rnd g /\ ans g = Err e) \/
    (exists a o', q = Some (o', Ok (Some (0, 0))) /\ ans low = Ok a /\ ans high = Ok a) \/
    (opposite ans low high /\
      ((exists o', Rabs (rnd (high - low)) <= tol /\ q = Some (o', Ok None)) \/
       (exists lo hi o', Rabs (rnd (hi - lo)) <= tol /\ bracket low high lo hi /\ q = Some (o', Ok (Some (hi, 1)))) \/
       (q = None /\ exists lo hi, tol < Rabs (rnd (hi - lo)) /\ bracket low high lo hi /\ Rabs (hi - lo) <= Rabs (high - low) / 2 ^ fuel + 3 * u * (1 - / 2 ^ fuel)))).
  Proof.
    intros tol fuel low high q Ml Mh Sl Sh H. unfold search_r in H.
    assert (R0 : reached o0 o0). { exists (gamma0_deg (ob_init o0)). apply same_sym, set_own. }
    destruct (call_case ask G o0 _ _ _ _ R0 H) as [(e & o1 & A & S & ->)|(a1 & o1 & A1 & P1 & R1 & _ & H1)]; clear H.
    { left. exists low, e, o1. split; [reflexivity|]. split; [apply within_l|]. split; assumption. }
    destruct (call_case ask G o0 _ _ _ _ R1 H1) as [(e & o2 & A & S & ->)|(a2 & o2 & A2 & P2 & R2 & _ & H2)]; clear H1.
    { left. exists high, e, o2. split; [reflexivity|]. split; [apply within_r|]. split; assumption. }
    destruct (Rltb_spec (a1 * a2) 0) as [C|C].
    - assert (Op : opposite ans low high) by (unfold opposite, ans; rewrite A1, A2; destruct P1 as [-> | ->], P2 as [-> | ->]; try lra; auto).
      destruct (bisect_r_spec _ _ _ _ _ _ _ R2 Op Ml Mh Sl Sh H2) as [K|[(Ht & K)|[(lo & hi & o' & K1 & K2 & K3 & K4)|K]]]; [left; exact K|right; right; split; auto..].
      + left. exists o2. auto.
      + right. left. exists lo, hi, o'. auto.
    - right; left. exists a1, o2. split; [auto|]. split; [exact A1|]. unfold ans. rewrite A2. f_equal. destruct P1 as [-> | ->], P2 as [-> | ->]; lra.
  Qed.
End rounded.

(** * C96 *)
(** Both kinds of search, for any predicate that answers 1 or -1 from the vehicle and its entry angle (the
    apoapsis predicates do: good_hits, good_hits2), as functions of the answers for the angles. *)
Definition searches_r (rnd : R -> R) (ask : vobj -> vobj * res R) (tol : R) (n : nat) (o : vobj) (low high : R) (q : option (vobj * res (R * R))) (ans : R -> res R) : Prop :=
  q = limit_search_r rnd ask tol n o low high /\ ans = answer_at ask o \/
  q = efpa_search_r rnd ask tol n o low high /\ ans = answer_at ask (set_LD o 0).
Lemma searches_r_spec : forall rnd u M ask tol n o low high q ans, rounding rnd u M -> good ask -> searches_r rnd ask tol n o low high q ans ->
  machine rnd low -> machine rnd high -> Rabs low <= M / 2 -> Rabs high <= M / 2 ->
  (exists g e o', q = Some (o', Err e) /\ within low high g /\ machine rnd g /\ ans g = Err e) \/
  (exists a o', q = Some (o', Ok (0, 0)) /\ ans low = Ok a /\ ans high = Ok a) \/
  (opposite ans low high /\
    ((exists o', Rabs (rnd (high - low)) <= tol /\ q = Some (o', Err UnboundLocalError)) \/
     (exists lo hi o', Rabs (rnd (hi - lo)) <= tol /\ within low high lo /\ within low high hi /\ machine rnd lo /\ machine rnd hi /\ opposite ans lo hi /\ q = Some (o', Ok (hi, 1))) \/
     (q = None /\ exists lo hi, tol < Rabs (rnd (hi - lo)) /\ within low high lo /\ within low high hi /\ machine rnd lo /\ machine rnd hi /\ opposite ans lo hi /\
        Rabs (hi - lo) <= Rabs (high - low) / 2 ^ n + 3 * u * (1 - / 2 ^ n)))).
Proof.
  intros rnd u M ask tol n o low high q ans RD GA H Ml Mh Sl Sh.
  destruct H as [(-> & ->)|(-> & ->)].
  - unfold limit_search_r.
    destruct (search_r_spec rnd u M RD ask GA o tol n low high _ Ml Mh Sl Sh eq_refl) as [(g & e & o' & Q & W & Mg & A)|[(a & o' & Q & A1 & A2)|(Op & [(o' & T & Q)|[(lo & hi & o' & T & (B1 & B2 & B3 & B4 & B5 & B6 & B7) & Q)|(Q & lo & hi & T & (B1 & B2 & B3 & B4 & B5 & B6 & B7) & W)]])]]; rewrite Q; cbn [then_ call bound].
    + left. exists g, e, o'. auto.
    + right; left. exists a. eexists. split; [reflexivity|]. auto.
    + right; right. split; auto. left. eexists. split; [exact T|]. reflexivity.
    + right; right. split; auto. right; left. exists lo, hi. eexists. do 6 (split; [eassumption|]). reflexivity.
    + right; right. split; auto. right; right. split; auto. exists lo, hi. do 6 (split; [eassumption|]). exact W.
  - unfold efpa_search_r.
    destruct (search_r_spec rnd u M RD ask GA (set_LD o 0) tol n low high _ Ml Mh Sl Sh eq_refl) as [(g & e & o' & Q & W & Mg & A)|[(a & o' & Q & A1 & A2)|(Op & [(o' & T & Q)|[(lo & hi & o' & T & (B1 & B2 & B3 & B4 & B5 & B6 & B7) & Q)|(Q & lo & hi & T & (B1 & B2 & B3 & B4 & B5 & B6 & B7) & W)]])]]; rewrite Q; cbn [then_ call bound].
    + left. exists g, e, o'. auto.
    + right; left. exists a. eexists. split; [reflexivity|]. auto.
    + right; right. split; auto. left. eexists. split; [exact T|]. reflexivity.
    + right; right. split; auto. right; left. exists lo, hi. eexists. do 6 (split; [eassumption|]). reflexivity.
    + right; right. split; auto. right; right. split; auto. exists lo, hi. do 6 (split; [eassumption|]). exact W.
Qed.
Lemma pair_size : forall rnd u M x y low high, rounding rnd u M -> Rabs low <= M / 2 -> Rabs high <= M / 2 -> within low high x -> within low high y ->
  Rabs (rnd (x - y) - (x - y)) <= u.
Proof.
  intros rnd u M x y low high RD Sl Sh Wx Wy. apply (rd_err _ _ _ RD).
  pose proof (within_size M _ _ _ Sl Sh Wx). pose proof (within_size M _ _ _ Sl Sh Wy). unfold Rminus. eapply Rle_trans; [apply Rabs_triang|]. rewrite Rabs_Ropp. lra.
Qed.
(** A limit found in rounded arithmetic is a boundary to within the tolerance plus one rounding error. *)
Theorem C96_limit_is_a_boundary : forall rnd u M ask tol n o low high ans o' lim flag, rounding rnd u M -> good ask ->
  searches_r rnd ask tol n o low high (Some (o', Ok (lim, flag))) ans ->
  machine rnd low -> machine rnd high -> Rabs low <= M / 2 -> Rabs high <= M / 2 ->
  is_limit ans low high (tol + u) lim flag.
Proof.
  intros rnd u M ask tol n o low high ans o' lim flag RD GA H Ml Mh Sl Sh.
  destruct (searches_r_spec _ _ _ _ _ _ _ _ _ _ _ RD GA H Ml Mh Sl Sh) as [(g & e & o1 & Q & _)|[(a & o1 & Q & A1 & A2)|(Op & [(o1 & T & Q)|[(lo & hi & o1 & T & B1 & B2 & B3 & B4 & B7 & Q)|(Q & _)]])]]; try discriminate.
  - right. injection Q as _ <- <-. split; auto. split; auto. exists a. auto.
  - left. injection Q as _ E1 E2. subst lim flag. split; auto. split; auto. exists lo. split; [|auto].
    pose proof (pair_size _ _ _ _ _ _ _ RD Sl Sh B2 B1) as E. replace (hi - lo) with (rnd (hi - lo) + - (rnd (hi - lo) - (hi - lo))) by lra.
    eapply Rle_trans; [apply Rabs_triang|]. rewrite Rabs_Ropp. lra.
Qed.
(** It is found: [n] rounds are enough as soon as the width is at most (tol - 4 u) * 2^n. *)
Theorem C96_terminates : forall rnd u M ask tol n o low high q ans, rounding rnd u M -> good ask -> searches_r rnd ask tol n o low high q ans ->
  machine rnd low -> machine rnd high -> Rabs low <= M / 2 -> Rabs high <= M / 2 ->
  Rabs (high - low) <= (tol - 4 * u) * 2 ^ n -> q <> None.
Proof.
  intros rnd u M ask tol n o low high q ans RD GA H Ml Mh Sl Sh Hw Hq. subst q.
  destruct (searches_r_spec _ _ _ _ _ _ _ _ _ _ _ RD GA H Ml Mh Sl Sh) as [(g & e & o1 & Q & _)|[(a & o1 & Q & A1 & A2)|(Op & [(o1 & T & Q)|[(lo & hi & o1 & T & B1 & B2 & B3 & B4 & B7 & Q)|(_ & lo & hi & T & B1 & B2 & B3 & B4 & B7 & W)]])]]; try discriminate.
  pose proof (pair_size _ _ _ _ _ _ _ RD Sl Sh B2 B1) as E. assert (Hp : 0 < 2 ^ n) by (apply pow_lt; lra). assert (Hi : 0 < / 2 ^ n) by (apply Rinv_0_lt_compat; auto).
  assert (K : Rabs (high - low) / 2 ^ n <= tol - 4 * u).
  { apply (Rmult_le_reg_r (2 ^ n)); auto. unfold Rdiv. rewrite Rmult_assoc, Rinv_l by lra. lra. }
  assert (Ku : 0 <= u) by (eapply Rle_trans; [apply Rabs_pos|exact E]).
  assert (Rabs (rnd (hi - lo)) <= Rabs (hi - lo) + u).
  { replace (rnd (hi - lo)) with ((hi - lo) + (rnd (hi - lo) - (hi - lo))) by lra. eapply Rle_trans; [apply Rabs_triang|]. lra. }
  assert (0 <= u * / 2 ^ n) by (apply Rmult_le_pos; lra). lra.
Qed.
(** With a tolerance finer than the numbers of the machine it never ends, although the same call in exact
    arithmetic would. *)
Theorem C96_too_fine : forall rnd u M ask tol d n o low high q ans, rounding rnd u M -> good ask -> searches_r rnd ask tol n o low high q ans ->
  machine rnd low -> machine rnd high -> Rabs low <= M / 2 -> Rabs high <= M / 2 ->
  spaced rnd (Rmin low high) (Rmax low high) d -> machine rnd d -> machine rnd (- d) -> 0 <= tol < d ->
  opposite ans low high -> (forall g, within low high g -> exists a, ans g = Ok a) -> q = None.
Proof.
  intros rnd u M ask tol d n o low high q ans RD GA H Ml Mh Sl Sh Hs Hd Hd' Ht Hop Hok.
  assert (K : forall lo hi, within low high lo -> within low high hi -> machine rnd lo -> machine rnd hi -> opposite ans lo hi -> tol < Rabs (rnd (hi - lo))).
  { intros lo hi W1 W2 M1 M2 Op. assert (N : hi <> lo). { intros ->. destruct Op as [(P1 & P2)|(P1 & P2)]; rewrite P1 in P2; injection P2 as P2; lra. }
    pose proof (Hs hi lo M2 M1 W2 W1 N) as D. unfold Rabs at 1 in D. destruct (Rcase_abs (hi - lo)).
    - assert (rnd (hi - lo) <= - d) by (apply (rd_le _ _ _ RD); auto; lra). rewrite Rabs_left; lra.
    - assert (d <= rnd (hi - lo)) by (apply (rd_ge _ _ _ RD); auto; lra). rewrite Rabs_pos_eq; lra. }
  destruct (searches_r_spec _ _ _ _ _ _ _ _ _ _ _ RD GA H Ml Mh Sl Sh) as [(g & e & o1 & Q & W & _ & A)|[(a & o1 & Q & A1 & A2)|(Op & [(o1 & T & Q)|[(lo & hi & o1 & T & B1 & B2 & B3 & B4 & B7 & Q)|(Q & _)]])]]; auto; exfalso.
  - destruct (Hok g W) as (a & Ea). congruence.
  - destruct Hop as [(P1 & P2)|(P1 & P2)]; rewrite P1 in A1; rewrite P2 in A2; injection A1 as <-; injection A2 as A2; lra.
  - specialize (K low high (within_l _ _) (within_r _ _) Ml Mh Op). lra.
  - specialize (K lo hi B1 B2 B3 B4 B7). lra.
Qed.
