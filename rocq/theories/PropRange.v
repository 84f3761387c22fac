(** C95: ranges, grids and miss distances of the visibility classes, and bodies that coincide. *)
Require Import Verif.Base Verif.Numpy Verif.NumpyProofs Verif.PlanetModel Verif.PlanetProofs.
Require Import Verif.LauncherModel Verif.FrameModel Verif.FrameProofs Verif.VisibilityModel Verif.GeomSpec Verif.PropVisibility.
From Coq Require Import String.
From Coq Require Import List.

(** Straight-line distance of two points given in km, in metres. *)
Definition metres_apart (a b : vec) : R := 1000 * sqrt ((vx a - vx b) ^ 2 + (vy a - vy b) ^ 2 + (vz a - vz b) ^ 2).
Lemma range_apart : forall eph target observer, target_range eph target observer = metres_apart (eph target) (eph (ephemeris_name observer)).
Proof.
  intros. unfold target_range, metres_apart, norm, norm2. rewrite Rmult_comm. replace 1e3 with 1000 by lra. f_equal. f_equal. unfold dot, vsub. cbn [vx vy vz]. ring.
Qed.
Theorem C95_range : forall eph target observer lat n v, LanderToPlanet eph target observer lat n = Ok v ->
  lv_range v = metres_apart (eph target) (eph (if string_dec observer "TITAN" then "SATURN"%string else observer)).
Proof.
  intros eph target observer lat n v H. unfold LanderToPlanet in H. destruct (Planet observer); cbn [rbind] in H; [|discriminate].
  injection H as <-. cbn [lv_range]. apply range_apart.
Qed.
(** Longitude and time advance together: at every sample the planet has turned by the listed longitude. *)
Theorem C95_lander_grid : forall eph target observer lat n v p i, LanderToPlanet eph target observer lat n = Ok v ->
  Planet observer = Ok p -> (2 <= n)%nat -> (i < n)%nat ->
  nth i (lv_lon v) 0 = 360 * INR i / INR (n - 1) /\ deg (nth i (lv_lon v) 0) = OMEGA p * nth i (lv_t v) 0.
Proof.
  intros eph target observer lat n v p i H Hp Hn Hi. unfold LanderToPlanet in H. rewrite Hp in H. cbn [rbind] in H.
  injection H as <-. cbn [lv_lon lv_t]. rewrite !linspace_nth; auto.
  destruct (Planet_facts _ _ Hp) as (_ & _ & _ & _ & _ & _ & _ & Ho & _).
  pose proof PI_RGT_0. assert (INR (n - 1) <> 0) by (apply not_0_INR; lia). unfold deg. split; field; auto; repeat split; auto; lra.
Qed.
Theorem C95_orbiter_times : forall eph target observer orbit T n ts vis i, OrbiterToPlanet eph target observer orbit T n = Ok (ts, vis) ->
  (2 <= n)%nat -> (i < n)%nat -> List.length ts = n /\ nth i ts 0 = T * INR i / INR (n - 1).
Proof.
  intros eph target observer orbit T n ts vis i H Hn Hi. unfold OrbiterToPlanet in H. destruct (Planet observer); cbn [rbind] in H; [|discriminate].
  destruct (mapr _ (seq 0 n)); cbn [rbind] in H; [|discriminate]. injection H as <- _. split; [apply linspace_length|].
  rewrite linspace_nth; auto. assert (INR (n - 1) <> 0) by (apply not_0_INR; lia). field. auto.
Qed.
(** The two classes report the same range; the listed miss distance is the distance, in planet radii, at which
    the line from the orbiter towards the target passes the planet's centre: no point of the line is nearer, and one is
    that near. *)
Theorem C95_orbiter_distances : forall eph target observer orbit n rng ds i a,
  OrbiterToPlanet_distances eph target observer orbit n = Ok (rng, ds) -> (i < n)%nat -> nth_error orbit i = Some a ->
  rng = metres_apart (eph target) (eph (if string_dec observer "TITAN" then "SATURN"%string else observer)) /\
  List.length ds = n /\
  (eph target <> eph (ephemeris_name observer) ->
   exists p u d, Planet observer = Ok p /\ nth i ds None = Some d /\
    u = ICRF_to_BI (a0 p) (d0 p) (vscale (1 / norm (vsub (eph target) (eph (ephemeris_name observer))))
                                     (vsub (eph target) (eph (ephemeris_name observer)))) /\
    (forall s, d <= norm (ray a u s)) /\ exists s, norm (ray a u s) = d).
Proof.
  intros eph target observer orbit n rng ds i a H Hi Ha. unfold OrbiterToPlanet_distances in H.
  destruct (Planet observer) as [p|] eqn:Hp; cbn [rbind] in H; [|discriminate].
  destruct (mapr _ (seq 0 n)) as [r|] eqn:Hm in H; cbn [rbind] in H; [|discriminate]. injection H as <- <-.
  split; [apply range_apart|]. split; [rewrite (mapr_length _ _ _ Hm), seq_length; auto|]. intros Hne.
  set (w := vsub (eph target) (eph (ephemeris_name observer))) in *.
  assert (Hw : w <> vzero).
  { intros E. apply Hne. unfold w in E. apply vec_eq.
    - apply (f_equal vx) in E; simpl in E; lra.
    - apply (f_equal vy) in E; simpl in E; lra.
    - apply (f_equal vz) in E; simpl in E; lra. }
  set (u := ICRF_to_BI (a0 p) (d0 p) (vscale (1 / norm w) w)).
  assert (Hu : norm2 u = 1).
  { unfold norm2, u, ICRF_to_BI. destruct (C20_frame_changes_are_rotations (a0 p) (d0 p)) as (_ & _ & _ & (A & _) & _).
    rewrite A. apply unit_norm2; auto. }
  assert (Hs : nth_error (seq 0 n) i = Some i).
  { rewrite (nth_error_nth' _ 0%nat) by (rewrite seq_length; auto). rewrite seq_nth; auto. }
  destruct (mapr_nth _ _ _ _ _ Hm Hs) as (b & Hb & Hn). rewrite Ha in Hb.
  unfold target_direction in Hb. fold w in Hb. rewrite unit_of_some in Hb; auto. cbn [obind] in Hb. fold u in Hb.
  injection Hb as Hb. exists p, u, (norm (cross (vsub vzero a) u)). split; auto. split; [rewrite (nth_error_nth _ _ _ Hn), <- Hb; reflexivity|].
  split; auto.
  assert (E : forall s, norm2 (ray a u s) = norm2 a + 2 * s * dot a u + s * s).
  { intros s. transitivity (norm2 a + 2 * s * dot a u + s * s * norm2 u); [unfold ray; vsimpl; ring|rewrite Hu; ring]. }
  assert (Ec : norm2 (cross (vsub vzero a) u) = norm2 a - dot a u * dot a u).
  { rewrite cross_norm2, Hu. vsimpl. ring. }
  split.
  - intros s. unfold norm. apply sqrt_le_1_alt. rewrite E, Ec. generalize (Rle_0_sqr (s + dot a u)); unfold Rsqr; lra.
  - exists (- dot a u). unfold norm. f_equal. rewrite E, Ec. ring.
Qed.

(** * Bodies that coincide in the ephemeris *)
(** Titan is looked up as Saturn, so Saturn seen from Titan is such a case, for every ephemeris. *)
Lemma same_body : forall eph p target observer, eph target = eph (ephemeris_name observer) -> target_direction eph p target observer = None.
Proof.
  intros eph p target observer H. unfold target_direction. rewrite H. unfold unit_of.
  assert (N : norm (vsub (eph (ephemeris_name observer)) (eph (ephemeris_name observer))) = 0).
  { unfold norm, norm2. replace (dot _ _) with 0 by (unfold dot, vsub; cbn [vx vy vz]; ring). apply sqrt_0. }
  rewrite N. unfold np_div. destruct (Reqb_spec 0 0); [reflexivity|lra].
Qed.
(** A lander never sees the target and an orbiter always does. *)
Theorem C95_same_body_lander : forall eph target observer lat n v s, eph target = eph (ephemeris_name observer) ->
  LanderToPlanet eph target observer lat n = Ok v -> In s (lv_sights v) -> beta s = None /\ elev s = 0 /\ visible s = false.
Proof.
  intros eph target observer lat n v s He H Hs. unfold LanderToPlanet in H. destruct (Planet observer) as [p|]; cbn [rbind] in H; [|discriminate].
  injection H as <-. cbn [lv_sights] in Hs. apply in_map_iff in Hs. destruct Hs as (lon & <- & _). rewrite same_body by auto.
  unfold look. destruct (unit_of _); cbn [obind max0 beta elev visible]; (split; [reflexivity|split; [reflexivity|]]); destruct (Rltb_spec 0 0); auto; lra.
Qed.
Theorem C95_same_body_orbiter : forall eph target observer orbit T n ts vis, eph target = eph (ephemeris_name observer) ->
  OrbiterToPlanet eph target observer orbit T n = Ok (ts, vis) -> vis = repeat true n.
Proof.
  intros eph target observer orbit T n ts vis He H. unfold OrbiterToPlanet in H. destruct (Planet observer) as [p|]; cbn [rbind] in H; [|discriminate].
  rewrite same_body in H by auto. destruct (mapr _ (seq 0 n)) as [r|] eqn:Hm in H; cbn [rbind] in H; [|discriminate]. injection H as _ <-.
  apply nth_ext with (d := true) (d' := true); [rewrite (mapr_length _ _ _ Hm), seq_length, repeat_length; auto|].
  intros i Hi. rewrite (mapr_length _ _ _ Hm), seq_length in Hi.
  assert (Hs : nth_error (seq 0 n) i = Some i).
  { rewrite (nth_error_nth' _ 0%nat) by (rewrite seq_length; auto). rewrite seq_nth; auto. }
  destruct (mapr_nth _ _ _ _ _ Hm Hs) as (b & Hb & Hn). rewrite (nth_error_nth _ _ _ Hn).
  destruct (nth_error orbit i); [|discriminate]. injection Hb as <-. symmetry. apply (repeat_spec n true). apply nth_In. rewrite repeat_length. auto.
Qed.
Theorem C95_saturn_from_titan : forall eph lat orbit T n,
  (exists v, LanderToPlanet eph "SATURN" "TITAN" lat n = Ok v /\ lv_range v = 0 /\ forall s, In s (lv_sights v) -> visible s = false) /\
  ((n <= List.length orbit)%nat -> exists ts, OrbiterToPlanet eph "SATURN" "TITAN" orbit T n = Ok (ts, repeat true n)).
Proof.
  intros eph lat orbit T n. split.
  - eexists. split; [reflexivity|]. split.
    + cbn [lv_range]. rewrite range_apart. unfold metres_apart. change (ephemeris_name "TITAN") with "SATURN"%string.
      replace (_ ^ 2 + _ + _) with 0 by ring. rewrite sqrt_0. ring.
    + intros s Hs. eapply (C95_same_body_lander eph "SATURN" "TITAN" lat n); [reflexivity|reflexivity|exact Hs].
  - intros Hl. destruct (OrbiterToPlanet eph "SATURN" "TITAN" orbit T n) as [[ts vis]|e] eqn:E.
    + exists ts. rewrite (C95_same_body_orbiter eph "SATURN" "TITAN" orbit T n ts vis); auto.
    + exfalso. unfold OrbiterToPlanet in E. change (Planet "TITAN") with (Ok TITAN) in E. cbn [rbind] in E.
      destruct (mapr _ (seq 0 n)) as [r|e'] eqn:Hm in E; cbn [rbind] in E; [discriminate|]. clear E.
      assert (G : forall l, (forall i, In i l -> (i < List.length orbit)%nat) -> forall d, mapr (fun i =>
        match nth_error orbit i with
        | Some a => Ok (match d with Some n => snd (orbiter_sees n a) | None => true end)
        | None => Err IndexError
        end) l <> Err e').
      { induction l as [|i l IH]; intros Hin d; cbn [mapr]; [discriminate|].
        destruct (nth_error orbit i) eqn:Ei; [|apply nth_error_None in Ei; specialize (Hin i (or_introl eq_refl)); lia].
        cbn [rbind]. specialize (IH (fun j Hj => Hin j (or_intror Hj)) d). destruct (mapr _ l); cbn [rbind]; [discriminate|]. congruence. }
      apply (G (seq 0 n)) with (d := target_direction eph TITAN "SATURN" "TITAN"); [|exact Hm]. intros i Hi. apply in_seq in Hi. lia.
Qed.
(** Both outputs need a known observer and an orbit with a position for every requested sample. *)
Lemma mapr_orbit : forall A (g : vec -> A) orbit n k, mapr (fun i => match nth_error orbit i with Some a => Ok (g a) | None => Err IndexError end) (seq k n) =
  if (k + n <=? List.length orbit)%nat || (n =? 0)%nat then Ok (map (fun i => g (nth i orbit vzero)) (seq k n)) else Err IndexError.
Proof.
  intros A g orbit. induction n as [|n IH]; intros k; [cbn; rewrite orb_true_r; auto|]. cbn [seq mapr map]. rewrite orb_false_r.
  destruct (nth_error orbit k) eqn:E; cbn [rbind].
  - rewrite (nth_error_nth _ _ vzero E). assert (L : (k < List.length orbit)%nat) by (apply nth_error_Some; congruence). rewrite IH.
    replace (S k + n)%nat with (k + S n)%nat by lia.
    destruct (Nat.leb_spec (k + S n) (List.length orbit)); cbn [orb rbind]; auto. destruct (Nat.eqb_spec n 0); [lia|]. reflexivity.
  - apply nth_error_None in E. destruct (Nat.leb_spec (k + S n) (List.length orbit)); [lia|reflexivity].
Qed.
Theorem C95_orbiter_raises : forall eph target observer orbit T n e,
  (OrbiterToPlanet eph target observer orbit T n = Err e <-> OrbiterToPlanet_distances eph target observer orbit n = Err e) /\
  (OrbiterToPlanet eph target observer orbit T n = Err e <->
   (Planet observer = Err e \/ ((exists p, Planet observer = Ok p) /\ (List.length orbit < n)%nat /\ e = IndexError))).
Proof.
  intros eph target observer orbit T n e. unfold OrbiterToPlanet, OrbiterToPlanet_distances.
  destruct (Planet observer) as [p|e0]; cbn [rbind].
  - rewrite (mapr_orbit bool (fun a => match target_direction eph p target observer with Some n => snd (orbiter_sees n a) | None => true end)).
    rewrite (mapr_orbit (option R) (fun a => leto n := target_direction eph p target observer in Some (fst (orbiter_sees n a)))). rewrite Nat.add_0_l.
    destruct (Nat.leb_spec n (List.length orbit)) as [L|L]; cbn [orb rbind].
    + split; [split; discriminate|]. split; [discriminate|]. intros [H|(_ & H & _)]; [discriminate|lia].
    + destruct (Nat.eqb_spec n 0); [lia|]. cbn [rbind]. split; [split; intros H; injection H as <-; reflexivity|]. split; [intros H; injection H as <-; right; eauto|]. intros [H|(_ & _ & ->)]; [discriminate|auto].
  - split; [split; intros H; injection H as <-; reflexivity|]. split; [intros H; injection H as <-; auto|]. intros [H|((p & H) & _)]; [injection H as <-; auto|discriminate].
Qed.
Example C95_witness : (exists v, LanderToPlanet (fun s => if string_dec s "EARTH" then V3 1 0 0 else vzero) "EARTH" "MARS" 10 3 = Ok v /\ lv_range v = 1000) /\
  exists r, OrbiterToPlanet_distances (fun s => if string_dec s "EARTH" then V3 1 0 0 else vzero) "EARTH" "MARS" [V3 0 0 2; V3 2 0 0] 2 = Ok r.
Proof.
  split.
  - eexists. split; [reflexivity|]. cbn [lv_range]. rewrite range_apart. unfold metres_apart. cbn [ephemeris_name].
    change (ephemeris_name "MARS") with "MARS"%string. destruct (string_dec "EARTH" "EARTH"); [|congruence]. destruct (string_dec "MARS" "EARTH"); [discriminate|].
    unfold vzero. cbn [vx vy vz]. replace ((1 - 0) ^ 2 + (0 - 0) ^ 2 + (0 - 0) ^ 2) with 1 by ring. rewrite sqrt_1. ring.
  - unfold OrbiterToPlanet_distances. simpl. eexists; reflexivity.
Qed.

(** * C98: rounding and the zenith *)
(** The cosine of the zenith angle is the product of two vectors that were divided by their lengths.  When rounding
    takes it past 1 the target straight overhead is reported as not visible. *)
Theorem C98_past_one : forall z d, 1 < dot z d ->
  let s := look (Some z) (Some d) in beta s = None /\ elev s = 0 /\ visible s = false.
Proof.
  intros z d H. unfold look. cbn [obind]. unfold np_arccos. destruct (Rleb_spec (-1) (dot z d)), (Rleb_spec (dot z d) 1); try lra.
  cbn [andb obind max0 beta elev visible]. destruct (Rltb_spec 0 0); [lra|]. auto.
Qed.
(** Exactly overhead the answer is visible at 90 degrees, but no matter how small the error, a vector that close to
    the zenith direction gives not visible. *)
Theorem C98_zenith_fragile : forall z, norm2 z = 1 ->
  (visible (look (Some z) (Some z)) = true /\ elev (look (Some z) (Some z)) = 90) /\
  forall err, 0 < err -> exists z', norm (vsub z' z) <= err /\ visible (look (Some z') (Some z)) = false.
Proof.
  intros z Hz. split.
  - destruct (C17_look z z Hz Hz) as (V & _ & _ & S). unfold norm2 in Hz. rewrite Hz in V, S. assert (Hv : visible (look (Some z) (Some z)) = true) by (apply V; lra). split; auto.
    unfold look. cbn [obind]. rewrite Hz. rewrite np_arccos_some by lra. rewrite acos_1. cbn [obind max0 elev].
    replace (90 - 0 * 180 / PI) with 90 by (unfold Rdiv; ring). destruct (Rltb_spec 0 90); lra.
  - intros err He. exists (vscale (1 + err) z). assert (N : norm z = 1) by (unfold norm; rewrite Hz; apply sqrt_1). split.
    + replace (vsub (vscale (1 + err) z) z) with (vscale err z) by (apply vec_eq; unfold vsub, vscale; cbn [vx vy vz]; ring).
      unfold norm. replace (norm2 (vscale err z)) with (err * err * norm2 z) by (vsimpl; ring). rewrite Hz, Rmult_1_r, sqrt_square; lra.
    + apply C98_past_one. replace (dot (vscale (1 + err) z) z) with ((1 + err) * norm2 z) by (vsimpl; ring). rewrite Hz. lra.
Qed.
Example C98_witness : norm2 (V3 0 0 1) = 1.
Proof. vsimpl. ring. Qed.
