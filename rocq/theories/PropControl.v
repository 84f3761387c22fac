(** C55-C57, C61: bank controller, guidance law, measured density function. *)
From Coq Require Import String ZArith Permutation List.
Require Import Verif.Base Verif.Numpy Verif.TableSpec Verif.NumpyProofs Verif.PlanetModel Verif.PropPlanet Verif.AeroModel Verif.HeatModel
  Verif.TrajectoryModel Verif.GuidanceModel Verif.GuidanceSpec.

(** * C55: the bank controller *)
Lemma controller_cases : forall rate c b dt,
  (c = b -> psuedoController rate c b dt = b) /\ (b < c -> psuedoController rate c b dt = b + rate * dt) /\
  (c < b -> psuedoController rate c b dt = b - rate * dt).
Proof. intros. unfold psuedoController, np_sign. repeat split; intros; rcases; try lra. Qed.
Theorem C55_one_cycle : forall rate c b dt,
  (c = b -> psuedoController rate c b dt = b) /\ (b < c -> psuedoController rate c b dt = b + rate * dt) /\
  (c < b -> psuedoController rate c b dt = b - rate * dt).
Proof. exact controller_cases. Qed.
Theorem C55_change : forall rate c b dt, 0 < rate * dt ->
  (psuedoController rate c b dt = b <-> c = b) /\ (c <> b -> Rabs (psuedoController rate c b dt - b) = rate * dt).
Proof.
  intros rate c b dt H. destruct (controller_cases rate c b dt) as (A & B & C).
  destruct (Rtotal_order b c) as [L|[L|L]].
  - rewrite B by auto. split; [split; intros; lra|]. intros _. replace (b + rate * dt - b) with (rate * dt) by lra. apply Rabs_pos_eq. lra.
  - rewrite A by auto. split; [split; auto|]. congruence.
  - rewrite C by auto. split; [split; intros; lra|]. intros _. replace (b - rate * dt - b) with (- (rate * dt)) by lra. rewrite Rabs_Ropp. apply Rabs_pos_eq. lra.
Qed.
Theorem C55_overshoot : forall rate c b dt, 0 < Rabs (c - b) < rate * dt ->
  (b < c -> c < psuedoController rate c b dt) /\ (c < b -> psuedoController rate c b dt < c).
Proof.
  intros rate c b dt H. destruct (controller_cases rate c b dt) as (_ & B & C). unfold Rabs in H. destruct (Rcase_abs (c - b)).
  - split; intros; [lra|]. rewrite C by auto. lra.
  - split; intros; [|lra]. rewrite B by auto. lra.
Qed.
Lemma lattice_step : forall rate c b dt, exists k : Z, psuedoController rate c b dt = b + IZR k * (rate * dt).
Proof.
  intros rate c b dt. destruct (controller_cases rate c b dt) as (A & B & C). destruct (Rtotal_order b c) as [L|[L|L]].
  - exists 1%Z. rewrite B by auto. lra. - exists 0%Z. rewrite A by auto. lra. - exists (-1)%Z. rewrite C by auto. lra.
Qed.
Lemma lattice_trans : forall s b x y, on_lattice s b x -> on_lattice s x y -> on_lattice s b y.
Proof. intros s b x y (k & ->) (j & ->). exists (k + j)%Z. rewrite plus_IZR. lra. Qed.
Lemma bank_lattice : forall rate dt cmds b, on_lattice (rate * dt) b (bank_after rate dt b cmds).
Proof.
  unfold bank_after. induction cmds as [|c cmds IH]; intros b; cbn [fold_left]; [exists 0%Z; lra|].
  eapply lattice_trans; [|apply IH]. apply lattice_step.
Qed.
Lemma bank_app : forall rate dt b l l', bank_after rate dt b (l ++ l') = bank_after rate dt (bank_after rate dt b l) l'.
Proof. intros. apply fold_left_app. Qed.
Lemma repeat_snoc : forall {A} (x : A) n, repeat x (S n) = repeat x n ++ [x].
Proof. intros A x n. induction n; cbn in *; [auto|]. rewrite <- IHn. auto. Qed.
Lemma bank_succ : forall rate dt b c n, bank_after rate dt b (repeat c (S n)) = psuedoController rate c (bank_after rate dt b (repeat c n)) dt.
Proof. intros. rewrite repeat_snoc, bank_app. reflexivity. Qed.
(** A command that is not a whole number of steps away is never reached, however long it is held ... *)
Theorem C55_never_settles : forall rate c b dt, 0 < rate * dt -> ~ on_lattice (rate * dt) b c ->
  forall n, bank_after rate dt b (repeat c n) <> c /\
    Rabs (bank_after rate dt b (repeat c (S n)) - bank_after rate dt b (repeat c n)) = rate * dt.
Proof.
  intros rate c b dt H N n. assert (E : bank_after rate dt b (repeat c n) <> c) by (intros E; apply N; rewrite <- E; apply bank_lattice).
  split; auto. rewrite bank_succ. apply C55_change; auto.
Qed.
(** ... and the bank angle ends up jumping back and forth across it, one full step each cycle. *)
Theorem C55_chatters : forall rate c b dt, 0 < rate * dt -> ~ on_lattice (rate * dt) b c ->
  exists N, forall n, (N <= n)%nat -> Rabs (bank_after rate dt b (repeat c n) - c) < rate * dt /\
    bank_after rate dt b (repeat c (S (S n))) = bank_after rate dt b (repeat c n) /\
    (bank_after rate dt b (repeat c n) - c) * (bank_after rate dt b (repeat c (S n)) - c) < 0.
Proof.
  intros rate c b dt H N. set (s := rate * dt) in *. set (f := fun n => bank_after rate dt b (repeat c n)).
  assert (NE : forall n, f n <> c) by (intros; apply C55_never_settles; auto).
  assert (UP : forall n, f n < c -> f (S n) = f n + s) by (intros n L; unfold f; rewrite bank_succ; apply controller_cases; auto).
  assert (DN : forall n, c < f n -> f (S n) = f n - s) by (intros n L; unfold f; rewrite bank_succ; apply controller_cases; auto).
  assert (CL : forall m n, Rabs (f n - c) < INR (S m) * s -> exists k, Rabs (f k - c) < s).
  { induction m as [|m IH]; intros n L; [exists n; cbn in L; lra|].
    destruct (Rlt_dec (Rabs (f n - c)) s) as [Q|Q]; [eauto|]. apply (IH (S n)). rewrite S_INR in L. set (M := INR (S m)) in *.
    destruct (Rtotal_order (f n) c) as [O|[O|O]]; [|destruct (NE n O)|].
    - rewrite UP by auto. rewrite Rabs_left1 in L, Q by lra. rewrite Rabs_left1; [|lra]. lra.
    - rewrite DN by auto. rewrite Rabs_pos_eq in L, Q by lra. rewrite Rabs_pos_eq; lra. }
  destruct (archimed (Rabs (f 0%nat - c) / s)) as (AR & _). set (z := up (Rabs (f 0%nat - c) / s)) in *.
  assert (Z0 : (0 <= z)%Z). { apply le_IZR. left. eapply Rle_lt_trans; [|exact AR]. apply Rmult_le_pos; [apply Rabs_pos|left; apply Rinv_0_lt_compat; auto]. }
  destruct (CL (Z.to_nat z) 0%nat) as (N0 & HN).
  { rewrite S_INR, INR_IZR_INZ, Z2Nat.id by auto. apply (Rmult_lt_compat_r s) in AR; auto. replace (Rabs (f 0%nat - c) / s * s) with (Rabs (f 0%nat - c)) in AR by (field; lra). lra. }
  assert (ST : forall n, Rabs (f n - c) < s -> Rabs (f (S n) - c) < s /\ f (S (S n)) = f n /\ (f n - c) * (f (S n) - c) < 0).
  { intros n L. destruct (Rtotal_order (f n) c) as [O|[O|O]]; [|destruct (NE n O)|].
    - rewrite Rabs_left in L by lra. pose proof (UP n O) as E. assert (c < f (S n)) by lra. rewrite (DN (S n)) by auto. rewrite Rabs_pos_eq by lra. split; [lra|]. split; [lra|]. nra.
    - rewrite Rabs_pos_eq in L by lra. pose proof (DN n O) as E. assert (f (S n) < c) by lra. rewrite (UP (S n)) by auto. rewrite Rabs_left by lra. split; [lra|]. split; [lra|]. nra. }
  exists N0. intros n Hn. assert (B : Rabs (f n - c) < s) by (induction Hn; auto; apply ST; auto).
  split; [exact B|]. destruct (ST n B) as (_ & X & Y). auto.
Qed.
(** A command that is k steps away is reached after k cycles and kept. *)
Theorem C55_settles_on_lattice : forall rate b dt k n, 0 < rate * dt -> (Z.abs_nat k <= n)%nat ->
  bank_after rate dt b (repeat (b + IZR k * (rate * dt)) n) = b + IZR k * (rate * dt).
Proof.
  intros rate b dt k n H Hn. set (s := rate * dt) in *. set (c := b + IZR k * s).
  assert (G : forall m, (m <= Z.abs_nat k)%nat -> bank_after rate dt b (repeat c m) = b + IZR (Z.sgn k * Z.of_nat m) * s).
  { induction m as [|m IH]; intros L; [cbn [repeat]; unfold bank_after; cbn; rewrite Z.mul_0_r; lra|].
    rewrite bank_succ, IH by lia. destruct (Z.lt_trichotomy k 0) as [O|[O|O]]; [| |].
    - rewrite (Z.sgn_neg k) by auto. assert (P : (k < -1 * Z.of_nat m)%Z) by lia. apply IZR_lt in P.
      replace (-1 * Z.of_nat (S m))%Z with (-1 * Z.of_nat m + -1)%Z by lia. rewrite plus_IZR.
      destruct (controller_cases rate c (b + IZR (-1 * Z.of_nat m) * s) dt) as (_ & _ & C). rewrite C; [fold s; lra|]. unfold c. nra.
    - subst k. cbn in L. lia.
    - rewrite (Z.sgn_pos k) by auto. assert (P : (1 * Z.of_nat m < k)%Z) by lia. apply IZR_lt in P.
      replace (1 * Z.of_nat (S m))%Z with (1 * Z.of_nat m + 1)%Z by lia. rewrite plus_IZR.
      destruct (controller_cases rate c (b + IZR (1 * Z.of_nat m) * s) dt) as (_ & B & _). rewrite B; [fold s; lra|]. unfold c. nra. }
  induction Hn as [|n Hn IH].
  - rewrite G by lia. unfold c. do 2 f_equal. f_equal. lia.
  - rewrite bank_succ, IH. apply controller_cases. reflexivity.
Qed.
Example C55_witness : 0 < 30 * 1 /\ ~ on_lattice (30 * 1) 0 45 /\ on_lattice (30 * 1) 0 90.
Proof.
  split; [lra|]. split.
  - intros (k & E). assert (D : IZR (2 * k) = IZR 3) by (rewrite mult_IZR; lra). apply eq_IZR in D. lia.
  - exists 3%Z. lra.
Qed.

(** * C56: range of the bank angle *)
Lemma controller_range : forall rate c b dt, 0 < rate * dt -> 0 <= c <= 180 -> - (rate * dt) < b < 180 + rate * dt ->
  - (rate * dt) < psuedoController rate c b dt < 180 + rate * dt.
Proof.
  intros rate c b dt H Hc Hb. destruct (controller_cases rate c b dt) as (A & B & C).
  destruct (Rtotal_order b c) as [L|[L|L]]; [rewrite B by auto|rewrite A by auto|rewrite C by auto]; lra.
Qed.
Theorem C56_range : forall rate dt cmds b, 0 < rate * dt -> 0 <= b <= 180 -> (forall c, In c cmds -> 0 <= c <= 180) ->
  - (rate * dt) < bank_after rate dt b cmds < 180 + rate * dt /\ on_lattice (rate * dt) b (bank_after rate dt b cmds).
Proof.
  intros rate dt cmds b H Hb Hc. split; [|apply bank_lattice].
  assert (G : forall l x, (forall c, In c l -> 0 <= c <= 180) -> - (rate * dt) < x < 180 + rate * dt -> - (rate * dt) < bank_after rate dt x l < 180 + rate * dt).
  { unfold bank_after. induction l as [|c l IH]; intros x Hl Hx; cbn [fold_left]; auto. apply IH; [intros; apply Hl; right; auto|]. apply controller_range; auto. apply Hl. left. auto. }
  apply G; auto. lra.
Qed.
(** The bound is the best possible: for every margin some history of commands comes that close to 180+step. *)
Theorem C56_range_sharp : forall e, 0 < e -> exists rate dt cmds b, 0 < rate * dt /\ 0 <= b <= 180 /\
  (forall c, In c cmds -> 0 <= c <= 180) /\ 180 + rate * dt - e < bank_after rate dt b cmds.
Proof.
  intros e He. set (d := Rmin e 180 / 2). assert (D : 0 < d < e /\ d <= 90) by (unfold d, Rmin; destruct (Rle_dec e 180); lra).
  exists 30, 1, [180], (180 - d). split; [lra|]. split; [lra|]. split.
  - intros c [<-|[]]. lra.
  - unfold bank_after. cbn [fold_left]. destruct (controller_cases 30 180 (180 - d) 1) as (_ & B & _). rewrite B by lra. lra.
Qed.
Example C56_witness : 0 < 30 * 1 /\ 0 <= 0 <= 180 /\ (forall c, In c [100; 0; 180] -> 0 <= c <= 180).
Proof. split; [lra|]. split; [lra|]. intros c [<-|[<-|[<-|[]]]]; lra. Qed.

(** * C57: the guidance law *)
Theorem C57_range : forall V P vi ri qi hdoti qref d, bank_command (cosDeltaCMD V P vi ri qi hdoti qref) = Some d -> 0 <= d <= 180.
Proof.
  intros V P vi ri qi hdoti qref d. generalize (cosDeltaCMD V P vi ri qi hdoti qref). intros x H. pose proof PI_RGT_0 as HPI.
  assert (K : forall y, 0 <= y <= PI -> 0 <= y * 180 / PI <= 180).
  { intros y Hy. split; [apply Rmult_le_pos; [lra|left; apply Rinv_0_lt_compat; auto]|]. apply (Rmult_le_reg_r PI); auto. replace (y * 180 / PI * PI) with (y * 180) by (field; lra). nra. }
  unfold bank_command in H. destruct (xgtb x 1); [cbn [obind] in H; injection H as <-; apply K; lra|].
  destruct (xltb x (-1)); [cbn [obind] in H; injection H as <-; apply K; lra|].
  destruct x as [x| | |]; try discriminate. unfold np_arccos in H. rcases; cbn [andb obind] in H; try discriminate. injection H as <-. apply K. apply acos_bound.
Qed.
(** The law itself: with air to fly in, the command is the angle whose cosine is the saturated sum of the
    equilibrium-glide term and the two feedback terms. *)
Theorem C57_law : forall V P vi ri qi hdoti, 0 < RP (vh_planet V) -> 0 < GM (vh_planet V) -> 0 < ri -> qi <> 0 -> vh_CL V * vh_A V <> 0 ->
  let p := vh_planet V in let g := GM p / (RP p * RP p) in
  let excess := 1 - vi * vi / (g * ri) in
  let qref := - (vh_mass V * g) / (0.75 * vh_CL V * vh_A V) * excess in
  let c := vh_mass V * g * excess / (vh_CL V * qi * vh_A V) - g_Ghdot P * hdoti / qi + g_Gq P * (qi - qref) / qi in
  qref_of V vi ri = Ok (Fin qref) /\
  exists d, bank_command (cosDeltaCMD V P vi ri qi hdoti (Fin qref)) = Some d /\ cos (d * PI / 180) = clamp1 c.
Proof.
  intros V P vi ri qi hdoti HRP HGM Hr Hq HCA p g excess qref c. pose proof PI_RGT_0 as HPI.
  assert (Eg : surface_g p = g) by (unfold surface_g, g; field; apply Rgt_not_eq; auto).
  assert (Hg : 0 < g) by (unfold g; apply Rdiv_lt_0_compat; auto; fold p in HRP; nra).
  assert (Hgr : g * ri <> 0) by (apply Rgt_not_eq; nra).
  assert (HC : vh_CL V <> 0) by (intros Z; apply HCA; rewrite Z; lra). assert (HA : vh_A V <> 0) by (intros Z; apply HCA; rewrite Z; lra).
  assert (Eb : balance p vi ri = Fin excess).
  { unfold balance. rewrite Eg. unfold xdiv. destruct (Reqb_spec (g * ri) 0); [contradiction|]. cbn [xsub xneg xadd]. f_equal. unfold excess. cbn [pow]. rewrite Rmult_1_r. lra. }
  assert (Hcqa : vh_CL V * qi * vh_A V <> 0). { intros Z. apply Rmult_integral in Z. destruct Z as [Z|Z]; [apply Rmult_integral in Z; tauto|tauto]. }
  assert (Eq : qref_of V vi ri = Ok (Fin qref)).
  { unfold qref_of. fold p. destruct (Reqb_spec (0.75 * vh_CL V * vh_A V) 0) as [Z|Z].
    - exfalso. apply HCA. nra.
    - rewrite Eb, Eg. unfold xmul. do 2 f_equal. unfold qref. f_equal. f_equal. lra. }
  split; auto.
  assert (Ec : cosDeltaCMD V P vi ri qi hdoti (Fin qref) = Fin c).
  { unfold cosDeltaCMD. fold p. rewrite Eb, Eg. unfold xdiv at 1. destruct (Reqb_spec (vh_CL V * qi * vh_A V) 0); [contradiction|].
    cbn [xsub xneg xadd xmul]. unfold xdiv. destruct (Reqb_spec qi 0); [contradiction|]. cbn [xsub xneg xadd xmul]. f_equal. unfold c. field. auto. }
  rewrite Ec. unfold bank_command, xgtb, xltb, clamp1. destruct (Rltb_spec 1 c) as [H1|H1].
  - exists (0 * 180 / PI). split; auto. replace (0 * 180 / PI * PI / 180) with 0 by (field; lra). rewrite cos_0, (Rmin_left 1 c), Rmax_right; lra.
  - destruct (Rltb_spec c (-1)) as [H2|H2].
    + exists (PI * 180 / PI). split; auto. replace (PI * 180 / PI * PI / 180) with PI by (field; lra). rewrite cos_PI, (Rmin_right 1 c), Rmax_left; lra.
    + rewrite np_arccos_some by lra. exists (acos c * 180 / PI). split; auto. replace (acos c * 180 / PI * PI / 180) with (acos c) by (field; lra).
      rewrite cos_acos by lra. rewrite (Rmin_right 1 c), Rmax_right; lra.
Qed.
(** The one hole: at zero dynamic pressure, if the altitude-rate term is zero as well, the law divides 0 by 0
    and the command is not a number; the saturation does not catch it. *)
Theorem C57_no_air : forall V P vi ri hdoti, 0 < RP (vh_planet V) -> 0 < GM (vh_planet V) -> 0 < vh_mass V -> 0 < ri -> vh_CL V * vh_A V <> 0 ->
  g_Ghdot P * hdoti = 0 ->
  forall qref, bank_command (cosDeltaCMD V P vi ri 0 hdoti (Fin qref)) = None.
Proof.
  intros V P vi ri hdoti HRP HGM Hm Hr HCA Hh qref. unfold cosDeltaCMD. rewrite Hh. unfold xdiv at 2.
  destruct (Reqb_spec 0 0); [|lra]. unfold xsub at 1. cbn [xneg].
  assert (N : forall a b, xadd (xadd a NaN) b = NaN) by (intros [?| | |] [?| | |]; reflexivity). rewrite N. reflexivity.
Qed.
Example C57_witness : exists V, Vehicle 300 50 0.3 4.5 0 1.5 VENUS (mkAtm (fun _ => 0.001) (fun _ => 0) (fun _ => 0) (fun _ => 0)) false = Ok V /\
  0 < RP (vh_planet V) /\ 0 < GM (vh_planet V) /\ vh_CL V * vh_A V <> 0 /\ 0 < vh_mass V.
Proof.
  unfold Vehicle. destruct (Reqb_spec 300 0); [lra|]. destruct (Reqb_spec (50 * 4.5) 0); [lra|]. eexists. split; [reflexivity|].
  cbn [vh_planet vh_CL vh_A vh_mass]. unfold VENUS. cbn [RP GM]. repeat split; try lra.
Qed.

(** * C61: the measured density function *)
(** A measurement history: [h] the altitudes in km and [d] the densities, [j] the lowest measurement; the
    extrapolation grid of [numLow] points ends below it; [s] is the scale height there. *)
Definition measurements (p : planet) (own_int : R -> R) (h d : list R) (j : nat) (lowAlt_km s : R) : Prop :=
  length d = length h /\ NoDup h /\ (j < length h)%nat /\ (forall k, (k < length h)%nat -> nth j h 0 <= nth k h 0) /\
  lowAlt_km * 1000 < nth j h 0 * 1000 - 1000 /\
  scaleHeight p own_int (nth j h 0 * 1000) (fun _ => 0) = Ok (Some s) /\ s <> 0.
Lemma all_some_map : forall d, all_some (map Some d) = Some d.
Proof. induction d as [|x d IH]; cbn [map all_some]; [auto|]. rewrite IH. reflexivity. Qed.
Lemma list_min_nth : forall h j, (j < length h)%nat -> (forall k, (k < length h)%nat -> nth j h 0 <= nth k h 0) -> list_min h = nth j h 0.
Proof.
  intros h j Hj Hm. assert (Hne : h <> []) by (intros ->; cbn in Hj; lia).
  apply Rle_antisym; [apply list_min_le, nth_In; auto|]. destruct (In_nth h (list_min h) 0 (list_min_in h Hne)) as (k & Hk & <-). auto.
Qed.
Lemma interp_fun_row : forall t lo hi x y, NoDup (map fst t) -> In (x, y) t -> interp_fun t lo hi x = y.
Proof.
  intros t lo hi x y Hnd Hin. unfold interp_fun. destruct (interp1d_inside t lo hi x Hnd) as (z & -> & I).
  - exists (x, y), (x, y). cbn [fst]. repeat split; auto; lra.
  - apply (Interpolates_unique t x); auto. left. auto.
Qed.
Lemma linspace_below : forall a b n x, b < a -> In x (linspace a b n) -> b <= x <= a.
Proof.
  intros a b n x H Hx. destruct (le_lt_dec n 1) as [L|L].
  - destruct n as [|[|n]]; [destruct Hx| |lia]. destruct Hx as [<-|[]]. lra.
  - destruct (In_nth _ _ 0 Hx) as (i & Hi & <-). rewrite linspace_length in Hi. rewrite linspace_nth by lia.
    assert (P : 0 < INR (n - 1)) by (apply lt_0_INR; lia). assert (Q : 0 <= INR i <= INR (n - 1)) by (split; [apply pos_INR|apply le_INR; lia]).
    assert (S : 0 <= INR i / INR (n - 1) <= 1). { split; [apply Rmult_le_pos; [tauto|left; apply Rinv_0_lt_compat; auto]|]. apply (Rmult_le_reg_r (INR (n - 1))); auto. replace (INR i / INR (n - 1) * INR (n - 1)) with (INR i) by (field; lra). lra. }
    replace (INR i * ((b - a) / INR (n - 1))) with (INR i / INR (n - 1) * (b - a)) by (field; lra). nra.
Qed.
Lemma linspace_nodup : forall a b n, b < a -> NoDup (linspace a b n).
Proof.
  intros a b n H. destruct (le_lt_dec n 1) as [L|L].
  - destruct n as [|[|n]]; [constructor| |lia]. constructor; [intros []|constructor].
  - apply (NoDup_nth _ 0). intros i k Hi Hk E. rewrite linspace_length in Hi, Hk. rewrite !linspace_nth in E by lia.
    assert (P : 0 < INR (n - 1)) by (apply lt_0_INR; lia). assert (Q : (b - a) / INR (n - 1) < 0). { apply (Rmult_lt_reg_r (INR (n - 1))); auto. replace ((b - a) / INR (n - 1) * INR (n - 1)) with (b - a) by (field; lra). lra. }
    apply INR_eq. nra.
Qed.
Lemma map_fst_combine : forall (a b : list R), length b = length a -> map fst (combine a b) = a.
Proof. induction a as [|x a IH]; destruct b; cbn; intros H; try discriminate; auto. rewrite IH by lia. auto. Qed.
Lemma combine_nth_in : forall (a b : list R) k, length b = length a -> (k < length a)%nat -> In (nth k a 0, nth k b 0) (combine a b).
Proof. intros a b k H Hk. rewrite <- (combine_nth a b k 0 0) by auto. apply nth_In. rewrite combine_length. lia. Qed.

(** What the function is: [t] its table of altitude-density pairs, [m] the lowest measured altitude. *)
Lemma measured_function : forall p own_int nd h d j lowAlt_km numLow s h0 d0 F, measurements p own_int h d j lowAlt_km s ->
  createDensityMeasuredFunction p own_int nd (h0 :: h) (d0 :: map Some d) lowAlt_km numLow = Ok F ->
  let m := nth j h 0 * 1000 in let low := linspace (m - 1000) (lowAlt_km * 1000) numLow in
  let ha := map (fun x => x * 1000) h ++ low in let da := d ++ map (fun x => nth j d 0 * exp ((m - x) / s)) low in
  F = interp_fun (combine ha da) (list_max da) (list_min da) /\ length da = length ha /\ NoDup ha.
Proof.
  intros p own_int nd h d j lowAlt_km numLow s h0 d0 F (Hl & Hnd & Hj & Hm & Hlow & Hs & Hs0) H m low ha da.
  assert (K : 1e3 = 1000) by lra.
  unfold createDensityMeasuredFunction in H. cbn [tl] in H. destruct h as [|a h']; [cbn in Hj; lia|]. set (h := a :: h') in *.
  change (match h with [] => Err ValueError | _ :: _ => ?x end) with x in H.
  rewrite map_length, Hl, Nat.eqb_refl in H. cbn [negb] in H. rewrite (list_min_nth h j Hj Hm), K, Hs in H. cbn [rbind] in H. rewrite all_some_map in H.
  destruct (Reqb_spec s 0); [contradiction|]. unfold measured_tables in H. rewrite (list_min_nth h j Hj Hm), K in H. fold m low in H.
  assert (Hnd1 : NoDup (map (fun x => x * 1000) h)) by (apply FinFun.Injective_map_NoDup; auto; intros x y E; lra).
  assert (U : interp_fun (combine (map (fun x => x * 1000) h) d) (list_max d) (list_min d) m = nth j d 0).
  { apply interp_fun_row; [rewrite map_fst_combine; auto; rewrite map_length; auto|].
    assert (G := combine_nth_in (map (fun x => x * 1000) h) d j). rewrite (nth_indep _ 0 (0 * 1000)) in G by (rewrite map_length; auto).
    rewrite (map_nth (fun x => x * 1000)) in G. apply G; rewrite map_length; auto. }
  rewrite U in H. injection H as <-. split; [reflexivity|]. split.
  - unfold da, ha. rewrite !app_length, !map_length. lia.
  - unfold ha. assert (App : forall (a b : list R), NoDup a -> NoDup b -> (forall x, In x a -> ~ In x b) -> NoDup (a ++ b)).
    { induction a0 as [|x a0 IH]; intros b Ha Hb Hd; cbn; auto. inversion Ha; subst. constructor; [|apply IH; auto; intros; apply Hd; right; auto].
      rewrite in_app_iff. intros [Z|Z]; [auto|]. apply (Hd x); [left; auto|auto]. }
    apply App; auto; [apply linspace_nodup; unfold m; lra|]. intros x Hx Hx2. apply linspace_below in Hx2; [|unfold m; lra].
    apply in_map_iff in Hx. destruct Hx as (y & <- & Hy). destruct (In_nth h y 0 Hy) as (k & Hk & <-). pose proof (Hm k Hk). unfold m in Hx2. lra.
Qed.
Theorem C61_reproduces_measurements : forall p own_int nd h d j lowAlt_km numLow s h0 d0 F, measurements p own_int h d j lowAlt_km s ->
  createDensityMeasuredFunction p own_int nd (h0 :: h) (d0 :: map Some d) lowAlt_km numLow = Ok F ->
  forall k, (k < length h)%nat -> F (nth k h 0 * 1000) = nth k d 0.
Proof.
  intros p own_int nd h d j lowAlt_km numLow s h0 d0 F HM H k Hk. destruct (measured_function _ _ _ _ _ _ _ _ _ _ _ _ HM H) as (-> & L & N).
  destruct HM as (Hl & _). cbv zeta in *. apply interp_fun_row; [rewrite map_fst_combine; auto|].
  match type of L with length ?da = length ?ha => assert (G := combine_nth_in ha da k L) end.
  rewrite app_length, map_length in G. specialize (G ltac:(lia)). rewrite !app_nth1 in G by (rewrite ?map_length; lia).
  rewrite (nth_indep _ 0 (0 * 1000)) in G by (rewrite map_length; auto). rewrite (map_nth (fun x => x * 1000)) in G. exact G.
Qed.
Theorem C61_extrapolates_exponentially : forall p own_int nd h d j lowAlt_km numLow s h0 d0 F, measurements p own_int h d j lowAlt_km s ->
  createDensityMeasuredFunction p own_int nd (h0 :: h) (d0 :: map Some d) lowAlt_km numLow = Ok F ->
  forall x, In x (linspace (nth j h 0 * 1000 - 1000) (lowAlt_km * 1000) numLow) -> F x = nth j d 0 * exp ((nth j h 0 * 1000 - x) / s).
Proof.
  intros p own_int nd h d j lowAlt_km numLow s h0 d0 F HM H x Hx. destruct (measured_function _ _ _ _ _ _ _ _ _ _ _ _ HM H) as (-> & L & N).
  destruct HM as (Hl & _). cbv zeta in *. apply interp_fun_row; [rewrite map_fst_combine; auto|].
  set (low := linspace _ _ _) in *. destruct (In_nth low x 0 Hx) as (i & Hi & Ei).
  match type of L with length ?da = length ?ha => assert (G := combine_nth_in ha da (length h + i) L) end.
  rewrite app_length, map_length in G. specialize (G ltac:(lia)). rewrite !app_nth2 in G by (rewrite ?map_length; lia). rewrite map_length, Hl in G.
  replace (length h + i - length h)%nat with i in G by lia. rewrite Ei in G.
  rewrite (nth_indep (map _ low) 0 ((fun x => nth j d 0 * exp ((nth j h 0 * 1000 - x) / s)) 0)) in G by (rewrite map_length; auto).
  rewrite (map_nth (fun x => nth j d 0 * exp ((nth j h 0 * 1000 - x) / s))), Ei in G. exact G.
Qed.
(** Outside the table the value is held: the largest density below it, the smallest above it. *)
Theorem C61_held_outside : forall p own_int nd h d j lowAlt_km numLow s h0 d0 F, measurements p own_int h d j lowAlt_km s -> (2 <= numLow)%nat ->
  createDensityMeasuredFunction p own_int nd (h0 :: h) (d0 :: map Some d) lowAlt_km numLow = Ok F ->
  exists top bottom, (forall x, x < lowAlt_km * 1000 -> F x = top) /\ (forall x, (forall k, (k < length h)%nat -> nth k h 0 * 1000 < x) -> F x = bottom) /\
    (forall k, (k < length h)%nat -> bottom <= nth k d 0 <= top) /\ bottom <= nth j d 0 * exp ((nth j h 0 * 1000 - lowAlt_km * 1000) / s) <= top.
Proof.
  intros p own_int nd h d j lowAlt_km numLow s h0 d0 F HM HL H. destruct (measured_function _ _ _ _ _ _ _ _ _ _ _ _ HM H) as (-> & L & N).
  destruct HM as (Hl & _ & Hj & Hm & Hlow & _). cbv zeta in *. set (low := linspace _ _ _) in *.
  set (da := d ++ _) in *. set (ha := map _ h ++ low) in *.
  assert (Hne : combine ha da <> []). { intros Z. apply (f_equal (map fst)) in Z. rewrite map_fst_combine in Z by auto. unfold ha in Z. destruct h; [cbn in Hj; lia|discriminate]. }
  assert (Hin : forall q, In q (combine ha da) -> In (fst q) ha) by (intros q Hq; rewrite <- (map_fst_combine ha da) by auto; apply in_map; auto).
  assert (Hlast : In (lowAlt_km * 1000) low).
  { unfold low. destruct numLow as [|[|n]]; try lia. cbn [linspace]. apply in_or_app. right. left. auto. }
  exists (list_max da), (list_min da). repeat split.
  - intros x Hx. unfold interp_fun. rewrite interp1d_left; auto. intros q Hq. apply Hin in Hq. unfold ha in Hq. apply in_app_or in Hq. destruct Hq as [Hq|Hq].
    + apply in_map_iff in Hq. destruct Hq as (y & E & Hy). destruct (In_nth h y 0 Hy) as (k & Hk & <-). pose proof (Hm k Hk). lra.
    + apply linspace_below in Hq; lra.
  - intros x Hx. unfold interp_fun. rewrite interp1d_right; auto. intros q Hq. apply Hin in Hq. unfold ha in Hq. apply in_app_or in Hq. destruct Hq as [Hq|Hq].
    + apply in_map_iff in Hq. destruct Hq as (y & E & Hy). destruct (In_nth h y 0 Hy) as (k & Hk & <-). pose proof (Hx k Hk). lra.
    + apply linspace_below in Hq; [|lra]. pose proof (Hx j Hj). lra.
  - apply list_min_le. unfold da. apply in_or_app. left. apply nth_In. lia.
  - apply list_max_ge. unfold da. apply in_or_app. left. apply nth_In. lia.
  - apply list_min_le. unfold da. apply in_or_app. right. apply in_map_iff. eexists. split; [reflexivity|auto].
  - apply list_max_ge. unfold da. apply in_or_app. right. apply in_map_iff. eexists. split; [reflexivity|auto].
Qed.
Theorem C61_positive : forall p own_int nd h d j lowAlt_km numLow s h0 d0 F, measurements p own_int h d j lowAlt_km s ->
  createDensityMeasuredFunction p own_int nd (h0 :: h) (d0 :: map Some d) lowAlt_km numLow = Ok F ->
  (forall k, (k < length h)%nat -> 0 < nth k d 0) -> forall x, 0 < F x.
Proof.
  intros p own_int nd h d j lowAlt_km numLow s h0 d0 F HM H Hpos x. destruct (measured_function _ _ _ _ _ _ _ _ _ _ _ _ HM H) as (-> & L & N).
  destruct HM as (Hl & _ & Hj & Hm & Hlow & _). cbv zeta in *. set (low := linspace _ _ _) in *.
  set (da := d ++ _) in *. set (ha := map _ h ++ low) in *.
  assert (Hd : forall y, In y da -> 0 < y).
  { intros y Hy. unfold da in Hy. apply in_app_or in Hy. destruct Hy as [Hy|Hy].
    - destruct (In_nth d y 0 Hy) as (k & Hk & <-). apply Hpos. lia.
    - apply in_map_iff in Hy. destruct Hy as (z & <- & _). apply Rmult_lt_0_compat; [apply Hpos; auto|apply exp_pos]. }
  assert (Hda : da <> []) by (intros Z; apply (f_equal (@length R)) in Z; unfold da in Z; rewrite app_length in Z; cbn in Z; lia).
  assert (Hne : combine ha da <> []). { intros Z. apply (f_equal (map fst)) in Z. rewrite map_fst_combine in Z by auto. unfold ha in Z. destruct h; [cbn in Hj; lia|discriminate]. }
  set (lo := list_min da). assert (Plo : 0 < lo) by (apply Hd, list_min_in; auto).
  unfold interp_fun, interp1d. destruct (sort_rows (combine ha da)) as [|[x0 y0] t] eqn:Es.
  { exfalso. apply Hne. pose proof (sort_rows_perm (combine ha da)) as Q. rewrite Es in Q. apply Permutation_nil. symmetry. auto. }
  assert (SS := sort_rows_strict (combine ha da)). rewrite map_fst_combine in SS by auto. specialize (SS N). rewrite Es in SS.
  destruct (Rltb_spec x x0); [apply Hd, list_max_in; auto|]. destruct (Rltb_spec (last_x ((x0, y0) :: t)) x); [apply Hd, list_min_in; auto|].
  apply Rlt_le_trans with lo; auto. refine (proj1 (interp_sorted_range t x0 y0 x lo (list_max da) SS _ _)); [lra|].
  intros [a b] Hq. rewrite <- Es in Hq. apply in_unsort in Hq. apply in_combine_r in Hq. cbn [snd]. split; [apply list_min_le|apply list_max_ge]; auto.
Qed.
Example C61_witness : exists own s F, measurements VENUS own [110; 90; 100] [1; 5; 3] 1 60 s /\ forall nd,
  createDensityMeasuredFunction VENUS own nd [0; 110; 90; 100] [Some 0; Some 1; Some 5; Some 3] 60 101 = Ok (F nd).
Proof.
  set (own := fun h => if Rltb h 95000 then 2 else 1).
  assert (HS : exists s, scaleHeight VENUS own (90 * 1000) (fun _ => 0) = Ok (Some s) /\ 0 < s).
  { assert (N : INR 180 * 1000 <= h_skip VENUS < (INR 180 + 1) * 1000) by (rewrite INR_IZR_INZ; unfold VENUS; cbn; lra).
    apply (C09_scale_height_value "VENUS" VENUS own (90 * 1000) (fun _ => 0) 180 eq_refl N); [rewrite INR_IZR_INZ; cbn; lra| |].
    - intros x. unfold own. rcases; lra.
    - unfold density, own, VENUS. cbn [h_thres h_skip rho0]. rcases; cbn [andb]; lra. }
  assert (K : 90 * 1e3 = 90 * 1000) by lra. destruct HS as (s & Es & Ps). exists own, s. unfold measurements. cbn [nth length].
  assert (M : list_min [110; 90; 100] = 90). { cbn [list_min]. rewrite (Rmin_left 90 100) by lra. apply Rmin_right. lra. }
  eexists. split.
  - split; [reflexivity|]. split. { repeat constructor; cbn; intros Z; repeat destruct Z as [Z|Z]; lra. } split; [lia|]. split.
    { intros k Hk. do 3 (destruct k as [|k]; [lra|]). lia. } split; [lra|]. split; [exact Es|lra].
  - intros nd. unfold createDensityMeasuredFunction. cbn [tl length Nat.eqb negb]. rewrite M, K, Es. cbn [rbind].
    assert (AS : all_some [Some 1; Some 5; Some 3] = Some [1; 5; 3]) by reflexivity. rewrite AS. destruct (Reqb_spec s 0); [exfalso; lra|]. destruct (measured_tables _ _ _ _ _) as [ha da] eqn:Em.
    instantiate (1 := fun _ => let (ha, da) := measured_tables [110; 90; 100] [1; 5; 3] 60 101 s in interp_fun (combine ha da) (list_max da) (list_min da)). cbv beta. rewrite Em. reflexivity.
Qed.
