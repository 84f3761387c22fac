(** Properties C01-C11: planets, density tables, launchers. *)
Require Import Verif.Base Verif.Numpy Verif.TableSpec Verif.NumpyProofs.
Require Import Verif.PlanetModel Verif.PlanetProofs Verif.LauncherModel.
From Coq Require Import Permutation String Sorting.Sorted.
From Coq Require Import List.

(** * C01 *)
(** The density the equations of motion use, at every altitude. *)
Theorem C01_density_every_altitude : forall name p dint h, Planet name = Ok p ->
  (h < 0 -> density p dint h = rho0 p) /\
  (0 <= h <= h_skip p -> density p dint h = dint h) /\
  (h_skip p < h -> density p dint h = 0) /\
  ((forall x, 0 <= x <= h_skip p -> 0 <= dint x) -> 0 <= density p dint h).
Proof.
  intros name p dint h Hp. destruct (Planet_facts _ _ Hp) as (_ & _ & A & _ & B & C & _).
  unfold density. rewrite C. repeat split; intros; rcases; simpl; try lra; auto.
Qed.

(** With a linearly interpolated table of non-negative densities, the density is bounded by the
    surface constant and the table's largest entry, and the dimensionless density is the same
    number in units of rho0, whatever the longitude and latitude. *)
Theorem C01_density_bounded : forall name p tab dint top rb theta phi, Planet name = Ok p ->
  NoDup (map fst tab) -> (forall row, In row tab -> 0 <= snd row <= top) ->
  (forall x, interp1d tab 0 0 x = Ok (dint x)) ->
  0 <= density p dint (rb * RP p - RP p) <= Rmax (rho0 p) top /\
  rhobar p dint rb theta phi * rho0 p = density p dint (rb * RP p - RP p).
Proof.
  intros name p tab dint top rb theta phi Hp Hnd Hb Hint.
  destruct (Planet_facts _ _ Hp) as (_ & _ & A & _ & B & C & _).
  assert (Ht : 0 <= top).
  { destruct tab as [|row tab]; [specialize (Hint 0); discriminate|].
    specialize (Hb row (or_introl eq_refl)); lra. }
  assert (Hd : forall x, 0 <= dint x <= top).
  { intros x. specialize (Hint x).
    assert (Hc : left_of tab x \/ right_of tab x \/ inside tab x).
    { clear -Hint. destruct tab as [|r tab]; [discriminate|]. clear Hint.
      revert r. induction tab as [|r' tab IH]; intros r.
      - destruct (Rlt_dec x (fst r)); [left; intros w [<-|[]]; auto|].
        destruct (Rlt_dec (fst r) x); [right; left; intros w [<-|[]]; auto|].
        right; right; exists r, r; simpl; repeat split; auto; lra.
      - destruct (IH r') as [H|[H|H]].
        + destruct (Rlt_dec x (fst r)); [left; intros w [<-|Hw]; auto|].
          right; right; exists r, r'. specialize (H r' (or_introl eq_refl)). simpl; repeat split; auto; lra.
        + destruct (Rlt_dec (fst r) x); [right; left; intros w [<-|Hw]; auto|].
          right; right; exists r', r. specialize (H r' (or_introl eq_refl)). simpl; repeat split; auto; lra.
        + destruct H as (c & d & Hc & Hd & Hx). right; right; exists c, d.
          split; [right; auto|]. split; [right; auto|lra]. }
    assert (Hne : tab <> []) by (intros ->; discriminate).
    destruct Hc as [Hc|[Hc|Hc]].
    - rewrite interp1d_left in Hint; auto. inversion Hint; lra.
    - rewrite interp1d_right in Hint; auto. inversion Hint; lra.
    - destruct (interp1d_inside tab 0 0 x Hnd Hc) as (y & Hy & HI). rewrite Hy in Hint. inversion Hint; subst.
      eapply Interpolates_bounds; eauto. }
  split.
  - unfold density. generalize (Rmax_l (rho0 p) top) (Rmax_r (rho0 p) top) (Hd (rb * RP p - RP p)); intros.
    rcases; simpl; lra.
  - unfold rhobar, rho2, rho. field; lra.
Qed.

Example C01_witness : exists dint,
  (forall x, interp1d [(0, 1); (1000, 1/2)] 0 0 x = Ok (dint x)) /\ Planet "EARTH" = Ok EARTH.
Proof.
  exists (fun x => match interp1d [(0, 1); (1000, 1/2)] 0 0 x with Ok y => y | Err _ => 0 end).
  split; [|reflexivity]. intros x. unfold interp1d; simpl. destruct (Rleb 0 1000); reflexivity.
Qed.

(** * C02 *)
Theorem C02_scalar_vector_agree : forall name p dint rs theta phi, Planet name = Ok p ->
  (forall r, In r rs -> RP p <= r <= RP p + h_skip p) ->
  rhovectorized p dint rs = map (fun r => rho p dint r theta phi) rs.
Proof.
  intros name p dint rs theta phi Hp Hr. destruct (Planet_facts _ _ Hp) as (_ & _ & A & _ & B & C & _).
  unfold rhovectorized. apply map_ext_in. intros r Hin. specialize (Hr r Hin).
  unfold rho, density. rewrite C. rcases; simpl; auto; lra.
Qed.

(** Outside the atmosphere the two evaluators disagree: below the surface for every table that
    starts at or above the surface, and above h_skip for every table that is positive there. *)
Theorem C02_scalar_vector_differ_outside : forall name p tab dint r theta phi, Planet name = Ok p ->
  (forall x, interp1d tab 0 0 x = Ok (dint x)) ->
  ((forall row, In row tab -> 0 <= fst row) -> r < RP p ->
     rhovectorized p dint [r] = [0] /\ rho p dint r theta phi = rho0 p /\ 0 < rho0 p) /\
  (RP p + h_skip p < r -> 0 < dint (r - RP p) ->
     rho p dint r theta phi = 0 /\ exists d, rhovectorized p dint [r] = [d] /\ 0 < d).
Proof.
  intros name p tab dint r theta phi Hp Hint.
  destruct (Planet_facts _ _ Hp) as (_ & _ & A & _ & B & C & _). split.
  - intros Hrow Hr. repeat split; auto.
    + unfold rhovectorized; simpl. f_equal. specialize (Hint (r - RP p)).
      rewrite interp1d_left in Hint.
      * inversion Hint; auto.
      * intros ->; discriminate.
      * intros row Hin. specialize (Hrow row Hin). lra.
    + unfold rho, density. rewrite C. rcases; simpl; auto; lra.
  - intros Hr Hd. split.
    + unfold rho, density. rewrite C. rcases; simpl; auto; lra.
    + eexists; split; [reflexivity|auto].
Qed.

(** Both situations occur: a two-row table for EARTH reaching 200 km. *)
Example C02_witness : exists dint,
  (forall x, interp1d [(0, 1); (200000, 1)] 0 0 x = Ok (dint x)) /\
  (forall row, In row [(0, 1); (200000, 1)] -> 0 <= fst row) /\
  0 < dint (EARTH.(RP) + 150000 - EARTH.(RP)) /\ RP EARTH + h_skip EARTH < RP EARTH + 150000.
Proof.
  exists (fun x => match interp1d [(0, 1); (200000, 1)] 0 0 x with Ok y => y | Err _ => 0 end).
  split; [|split; [|split]].
  - intros x. unfold interp1d; simpl. destruct (Rleb 0 200000); reflexivity.
  - intros row [<-|[<-|[]]]; simpl; lra.
  - replace (RP EARTH + 150000 - RP EARTH) with 150000 by ring.
    unfold interp1d; simpl. destruct (Rleb_spec 0 200000); [|lra]. unfold last_x; simpl.
    rcases; simpl in *; lra.
  - simpl; lra.
Qed.

(** * C03 *)
Theorem C03_table_lookup : forall t lo hi x, NoDup (map fst t) -> t <> [] ->
  (inside t x -> exists y, interp1d t lo hi x = Ok y /\ Interpolates t x y /\
                           (forall y', Interpolates t x y' -> y' = y)) /\
  (left_of t x -> interp1d t lo hi x = Ok lo) /\
  (right_of t x -> interp1d t lo hi x = Ok hi) /\
  (forall y, In (x, y) t -> interp1d t lo hi x = Ok y) /\
  (forall t', Permutation t t' -> interp1d t' lo hi x = interp1d t lo hi x).
Proof.
  intros t lo hi x Hnd Hne. repeat split.
  - intros Hx. destruct (interp1d_inside t lo hi x Hnd Hx) as (y & Hy & HI).
    exists y; repeat split; auto. intros y' H'. eapply Interpolates_unique; eauto.
  - intros; apply interp1d_left; auto.
  - intros; apply interp1d_right; auto.
  - intros y Hin. destruct (interp1d_inside t lo hi x Hnd) as (z & Hz & HI).
    + exists (x,y), (x,y); simpl; repeat split; auto; lra.
    + rewrite Hz; f_equal. eapply Interpolates_unique; eauto. left; auto.
  - intros t' Hp. symmetry; apply interp1d_perm; auto.
Qed.

(** Between two neighbouring rows the result is between their ordinates. *)
Theorem C03_between_neighbours : forall t lo hi x p q, NoDup (map fst t) -> adjacent t p q ->
  fst p <= x <= fst q -> exists y, interp1d t lo hi x = Ok y /\
    Rmin (snd p) (snd q) <= y <= Rmax (snd p) (snd q).
Proof.
  intros t lo hi x p q Hnd Hadj Hx.
  destruct (interp1d_inside t lo hi x Hnd) as (y & Hy & HI).
  { exists p, q. destruct Hadj as (A & B & _). auto. }
  exists y; split; auto.
  set (z := snd p + (snd q - snd p) * (x - fst p) / (fst q - fst p)).
  assert (Hz : on_segment p q x z).
  { destruct Hadj as (_ & _ & Hlt & _). split; [lra|]. unfold z. field. lra. }
  assert (y = z).
  { eapply Interpolates_unique; eauto. right; exists p, q; auto. }
  subst y. apply (segment_bounds p q x z); auto. apply Hadj.
Qed.

(** Inside the table the lookup is Lipschitz with the largest slope, hence continuous. *)
Theorem C03_lipschitz : forall t lo hi K x x' y y', NoDup (map fst t) ->
  (forall p q, adjacent t p q -> Rabs (snd q - snd p) <= K * (fst q - fst p)) ->
  inside t x -> inside t x' -> interp1d t lo hi x = Ok y -> interp1d t lo hi x' = Ok y' ->
  Rabs (y' - y) <= K * Rabs (x' - x).
Proof.
  assert (A : forall t lo hi K x x' y y', NoDup (map fst t) ->
    (forall p q, adjacent t p q -> Rabs (snd q - snd p) <= K * (fst q - fst p)) ->
    inside t x -> inside t x' -> x <= x' -> interp1d t lo hi x = Ok y -> interp1d t lo hi x' = Ok y' ->
    Rabs (y' - y) <= K * (x' - x)).
  { intros t lo hi K x x' y y' Hnd HK (p & q & Hp & Hq & Hx) (p' & q' & Hp' & Hq' & Hx') Hle Hy Hy'.
    unfold interp1d in Hy, Hy'. pose proof (sort_rows_strict t Hnd) as Hs.
    apply in_sort in Hp, Hq, Hp', Hq'.
    assert (HK' : slopes_bounded K (sort_rows t)).
    { intros a b (Ha & Hb & Hab & Hno). apply HK. split; [apply in_unsort; auto|].
      split; [apply in_unsort; auto|]. split; auto. intros r Hr. apply Hno, in_sort; auto. }
    destruct (sort_rows t) as [|[x0 y0] s] eqn:E; [inversion Hp|].
    pose proof (first_x_min _ _ _ Hs Hp); pose proof (first_x_min _ _ _ Hs Hp').
    pose proof (last_x_max _ _ Hs Hq); pose proof (last_x_max _ _ Hs Hq').
    simpl fst in *.
    destruct (Rltb_spec x x0); [lra|]. destruct (Rltb_spec x' x0); [lra|].
    destruct (Rltb_spec (last_x ((x0,y0)::s)) x); [lra|]. destruct (Rltb_spec (last_x ((x0,y0)::s)) x'); [lra|].
    inversion Hy; inversion Hy'. apply interp_sorted_lipschitz; auto; lra. }
  intros t lo hi K x x' y y' Hnd HK Hx Hx' Hy Hy'.
  destruct (Rle_dec x x').
  - rewrite (Rabs_right (x' - x)); [|lra]. eapply A; eauto.
  - rewrite Rabs_minus_sym, (Rabs_minus_sym x'), (Rabs_right (x - x')); [|lra].
    apply (A t lo hi K x' x y' y); auto; lra.
Qed.

Example C03_witness : NoDup (map fst [(2, 5); (0, 1); (1, 3)]) /\
  adjacent [(2, 5); (0, 1); (1, 3)] (1, 3) (2, 5) /\ inside [(2, 5); (0, 1); (1, 3)] (3/2) /\
  interp1d [(2, 5); (0, 1); (1, 3)] 0 0 (3/2) = Ok 4.
Proof.
  assert (N : NoDup (map fst [(2, 5); (0, 1); (1, 3)])).
  { repeat constructor; simpl; intuition lra. }
  assert (A : adjacent [(2, 5); (0, 1); (1, 3)] (1, 3) (2, 5)).
  { split; [simpl; auto|]. split; [simpl; auto|]. split; [simpl; lra|].
    intros r [<-|[<-|[<-|[]]]]; simpl; lra. }
  split; [exact N|]. split; [exact A|]. split.
  - exists (1, 3), (2, 5). simpl; repeat split; auto; lra.
  - destruct (interp1d_inside _ 0 0 (3/2) N) as (y & Hy & HI).
    { exists (1, 3), (2, 5). simpl; repeat split; auto; lra. }
    rewrite Hy; f_equal. eapply Interpolates_unique; eauto. right; exists (1,3), (2,5).
    split; auto. split; simpl; lra.
Qed.

(** * C04 *)
Theorem C04_nondim_round_trip : forall name p tbar s, Planet name = Ok p ->
  snd (dimensionalize p tbar (nonDimState p s)) = s /\
  nonDimState p (snd (dimensionalize p tbar s)) = s /\
  fst (dimensionalize p (tbar / tau p) s) = tbar /\
  0 < Vref p /\ 0 < tau p /\
  Vref p * Vref p = GM p / RP p /\ Vref p * tau p = RP p.
Proof.
  intros name p tbar s Hp. destruct (Planet_facts _ _ Hp) as (A & B & _).
  pose proof (Vref_pos _ _ Hp). pose proof (tau_pos _ _ Hp).
  destruct s; unfold nonDimState, dimensionalize; simpl.
  repeat split; auto.
  - f_equal; field; lra.
  - f_equal; field; lra.
  - field; lra.
  - unfold Vref. apply sqrt_sqrt. left; apply Rdiv_lt_0_compat; auto.
  - unfold tau. field. lra.
Qed.
Example C04_witness : Planet "TITAN" = Ok TITAN.
Proof. reflexivity. Qed.

(** * C06 *)
Theorem C06_catalogue : forall name,
  ((exists p, Planet name = Ok p) <-> In name names) /\
  (~ In name names -> Planet name = Err ValueError) /\
  (forall p, Planet name = Ok p -> ID p = name /\
     0 < RP p /\ 0 < GM p /\ 0 < rho0 p /\ 1 < CPCV p /\ 0 < J2 p /\ OMEGA p <> 0 /\
     0 < h_trap p < h_skip p /\ h_thres p = h_skip p /\ h_skip p < RP p /\
     (h_low p = None <-> name = "JUPITER"%string \/ name = "SATURN"%string) /\
     (forall hl, h_low p = Some hl -> h_trap p <= hl < h_skip p) /\
     (OMEGA p < 0 <-> name = "VENUS"%string \/ name = "URANUS"%string)).
Proof.
  intros name. split; [|split].
  - split.
    + intros (p & H). each_planet H; subst; simpl; auto 10.
    + intros H; simpl in H; decompose [or] H; subst; try contradiction; eexists; reflexivity.
  - intros H. unfold Planet.
    repeat match goal with |- context [string_dec ?a ?b] => destruct (string_dec a b);
      [exfalso; apply H; subst; simpl; auto 10|] end. reflexivity.
  - intros p H. pose proof (Planet_cases _ _ H) as [_ E]. pose proof (Planet_facts _ _ H).
    split; auto. do 9 (split; [tauto|]). clear E H0.
    each_planet H; simpl; (split; [split; [intros; discriminate || auto|intros [E|E]; discriminate E || auto]|split; [intros hl E; inversion E; subst; lra|
      split; [intros; try lra; auto|intros [E|E]; try discriminate E; lra]]]).
Qed.

(** * C05 (planet part) *)
(** The scalar helpers use the same length unit as the state conversion. *)
Theorem C04_scaled_radius : forall name p d r theta phi s, Planet name = Ok p ->
  rho2 p d (rbar_of p r) theta phi = rho p d r theta phi /\ s_r (nonDimState p s) = rbar_of p (s_r s).
Proof.
  intros name p d r theta phi s Hp. destruct (Planet_facts _ _ Hp) as (A & B & _). unfold rho2, rbar_of. split; [f_equal; field; lra|reflexivity].
Qed.

Theorem C05_altitude_radius : forall p h r,
  computeH p (computeR p h) = h /\ computeR p (computeH p r) = r.
Proof. intros; unfold computeH, computeR; split; ring. Qed.

(** * C07 *)
Theorem C07_sigma_profiles : forall w,
  mc_density5 0 w = mc_avg w + mc_pert w /\
  mc_density5 1 w = mc_high w + mc_pert w /\
  mc_density5 (-1) w = mc_low w + mc_pert w /\
  (forall s, mc_density5 s w = mc_density6 s w + mc_pert w) /\
  (mc_low w <= mc_avg w <= mc_high w -> forall s s', s <= s' -> mc_density5 s w <= mc_density5 s' w) /\
  (mc_low w < mc_avg w -> exists s0, forall s, s < s0 -> mc_density5 s w < 0 /\ mc_density6 s w < 0).
Proof.
  intros w. unfold mc_density5, mc_density6, pSigmaFunc, nSigmaFunc. repeat split.
  - rcases; lra.
  - rcases; lra.
  - rcases; lra.
  - intros H s s' Hs; rcases; try lra; nra.
  - intros H. set (k := mc_avg w - mc_low w).
    exists (Rmin 0 (- (Rabs (mc_avg w) + Rabs (mc_pert w)) / k)). intros s Hs.
    assert (s < 0) by (eapply Rlt_le_trans; [apply Hs|apply Rmin_l]).
    assert (Hk : 0 < k) by (unfold k; lra).
    assert (s * k < - (Rabs (mc_avg w) + Rabs (mc_pert w))).
    { assert (s < - (Rabs (mc_avg w) + Rabs (mc_pert w)) / k) by (eapply Rlt_le_trans; [apply Hs|apply Rmin_r]).
      apply (Rmult_lt_compat_r k) in H1; auto. unfold Rdiv in H1. rewrite Rmult_assoc, Rinv_l in H1; lra. }
    fold k. generalize (Rle_abs (mc_avg w)) (Rle_abs (mc_pert w)) (Rabs_pos (mc_pert w)); intros.
    split; rcases; lra.
Qed.

(** The whole loaded profile is monotone in sigma, at every altitude, node or not. *)
Theorem C07_profile_monotone : forall rows npos i s s' h y y',
  NoDup (map mc_h (mc_block npos i rows)) ->
  (forall w, In w rows -> mc_low w <= mc_avg w <= mc_high w) -> s <= s' ->
  loadAtmosphereModel5 rows s npos i h = Ok y -> loadAtmosphereModel5 rows s' npos i h = Ok y' -> y <= y'.
Proof.
  intros rows npos i s s' h y y' Hnd Hw Hs. apply interp1d_le; auto.
  intros w Hin. apply C07_sigma_profiles; auto. apply Hw. unfold mc_block in Hin.
  assert (Hin2 : In w (skipn ((i - 1) * npos) rows)).
  { rewrite <- (firstn_skipn npos). apply in_or_app; left; auto. }
  rewrite <- (firstn_skipn ((i - 1) * npos)). apply in_or_app; right; auto.
Qed.

(** Profiles from a standard-deviation file (loadMonteCarloDensityFile3): sigma in percent of the mean, so
    sigma = n gives the mean plus n times that share; the rows are ordered, so C07_profile_monotone applies. *)
Theorem C07_file3_ordered : forall km height avg sd total, 0 <= avg -> 0 <= sd ->
  let w := mc_row_file3 km height avg sd total in mc_low w <= mc_avg w <= mc_high w /\
  mc_h w = (if km then 1000 * height else height) /\ mc_pert w = total - avg /\
  forall s, mc_density6 s w = avg * (1 + s * (sd / 100)) /\ mc_density5 s w = total + avg * s * (sd / 100).
Proof.
  intros; simpl. assert (0 <= avg * sd) by (apply Rmult_le_pos; auto). split; [lra|]. split; [destruct km; lra|]. split; [lra|].
  intros s. unfold mc_density5, mc_density6, pSigmaFunc, nSigmaFunc; simpl. split; rcases; lra.
Qed.
(** Files with low, mean and high columns (loadMonteCarloDensityFile2): sigma = -1, 0, 1 give the columns. *)
Theorem C07_file2_columns : forall km height low avg high total,
  let w := mc_row_file2 km height low avg high total in mc_h w = (if km then 1000 * height else height) /\
  mc_density6 (-1) w = low /\ mc_density6 0 w = avg /\ mc_density6 1 w = high /\
  mc_density5 (-1) w = low + (total - avg) /\ mc_density5 0 w = total /\ mc_density5 1 w = high + (total - avg).
Proof.
  intros; simpl. unfold mc_density5, mc_density6, pSigmaFunc, nSigmaFunc; simpl. split; [destruct km; lra|]. repeat split; rcases; lra.
Qed.

Example C07_witness : let rows := [mkRow 0 1 2 4 (1/2); mkRow 1000 1 2 3 0] in
  NoDup (map mc_h (mc_block 2 1 rows)) /\ (forall w, In w rows -> mc_low w <= mc_avg w <= mc_high w) /\
  exists y, loadAtmosphereModel5 rows (-3) 2 1 0 = Ok y /\ y < 0.
Proof.
  simpl. split; [|split].
  - repeat constructor; simpl; intuition lra.
  - intros w [<-|[<-|[]]]; simpl; lra.
  - unfold loadAtmosphereModel5, interp1d, mc_density5, pSigmaFunc, nSigmaFunc; simpl.
    destruct (Rleb_spec 0 1000); [|lra]. eexists; split; [reflexivity|].
    unfold last_x; simpl. rcases; lra.
Qed.

(** * C08 *)
Lemma nth_firstn_lt : forall (A : Type) (l : list A) n j d, (j < n)%nat -> nth j (firstn n l) d = nth j l d.
Proof. induction l; destruct n, j; simpl; intros; auto; try lia. apply IHl; lia. Qed.
Lemma nth_skipn_add : forall (A : Type) (l : list A) n j d, nth j (skipn n l) d = nth (n + j) l d.
Proof. induction l; destruct n; simpl; intros; auto. destruct j; auto. Qed.
Theorem C08_blocks_tile_the_file : forall (rows : list mcrow) npos n,
  List.length rows = (n * npos)%nat ->
  List.concat (map (fun i => mc_block npos i rows) (seq 1 n)) = rows /\
  (forall i j d, (1 <= i <= n)%nat -> (j < npos)%nat ->
     nth j (mc_block npos i rows) d = nth ((i - 1) * npos + j) rows d) /\
  (forall i, (1 <= i <= n)%nat -> List.length (mc_block npos i rows) = npos) /\
  (forall i s h, (n < i)%nat -> loadAtmosphereModel5 rows s npos i h = Err ValueError /\
                                loadAtmosphereModel6 rows s npos i h = Err ValueError).
Proof.
  intros rows npos n Hl. split; [apply mc_block_tile; auto|]. split; [|split].
  - intros i j d Hi Hj. unfold mc_block. rewrite nth_firstn_lt, nth_skipn_add; auto.
  - intros i Hi. unfold mc_block. rewrite firstn_length_le; auto. rewrite skipn_length, Hl. nia.
  - intros i s h Hi. unfold loadAtmosphereModel5, loadAtmosphereModel6, mc_block.
    rewrite skipn_all2; [|rewrite Hl; nia]. rewrite firstn_nil. split; reflexivity.
Qed.
Example C08_witness : List.length (repeat (mkRow 0 1 2 3 0) 6) = (3 * 2)%nat.
Proof. reflexivity. Qed.

(** * C09 *)
Theorem C09_scale_height_ignores_argument : forall p own h f g,
  scaleHeight p own h f = scaleHeight p own h g.
Proof. reflexivity. Qed.

(** What it does compute: it fails exactly when int(h/1000) is past the last grid point; otherwise
    it is a finite number exactly when the planet's own density at h and at h_skip differ, and it is
    positive when that own density is positive and larger at h than at h_skip. *)
Lemma trapz_last_pos : forall ys xs acc y0 x0, length ys = length xs -> ys <> [] -> 0 <= acc ->
  StronglySorted Rlt (x0 :: xs) -> 0 < y0 -> (forall y, In y ys -> 0 < y) ->
  0 < last (trapz_from acc y0 x0 ys xs) 0.
Proof.
  induction ys as [|y ys IH]; intros [|x xs] acc y0 x0 Hl Hne Ha Hs Hy0 Hy; simpl in Hl; try discriminate; try congruence.
  injection Hl as Hl. simpl trapz_from. set (acc' := acc + (x - x0) * (y0 + y) / 2).
  inversion Hs as [|? ? Hs' Hf]; subst. inversion Hf; subst.
  assert (0 < y) by (apply Hy; left; auto).
  assert (0 < acc') by (unfold acc'; nra).
  destruct ys as [|y1 ys].
  - simpl. auto.
  - destruct xs as [|x1 xs]; [discriminate|].
    assert (A : 0 < last (trapz_from acc' y x (y1 :: ys) (x1 :: xs)) 0).
    { apply IH; auto; try lra; try discriminate. intros; apply Hy; right; auto. }
    simpl trapz_from in A |- *. exact A.
Qed.

Lemma linspace_sorted : forall a b n, a < b -> StronglySorted Rlt (linspace a b n).
Proof.
  intros a b n Hab.
  assert (G : forall (l : list R), (forall i, (S i < List.length l)%nat -> nth i l 0 < nth (S i) l 0) -> Sorted Rlt l).
  { induction l as [|x l IH]; intros H; constructor.
    - apply IH. intros i Hi. apply (H (S i)). simpl; lia.
    - destruct l; constructor. apply (H 0%nat). simpl; lia. }
  apply Sorted_StronglySorted; [intros x y z; apply Rlt_trans|]. apply G.
  rewrite linspace_length. intros i Hi. rewrite !linspace_nth; try lia. rewrite S_INR.
  assert (0 < (b - a) / INR (n - 1)). { apply Rdiv_lt_0_compat; [lra|]. apply lt_0_INR; lia. }
  lra.
Qed.

Lemma skipn_sorted : forall k (l : list R), StronglySorted Rlt l -> StronglySorted Rlt (skipn k l).
Proof. induction k; intros l H; simpl; auto. destruct l; auto. inversion H; auto. Qed.

Lemma py_int_pos : forall x, 0 <= x -> exists k, py_int x = Z.of_nat k /\ INR k <= x < INR k + 1.
Proof.
  intros x Hx. unfold py_int. destruct (Rleb_spec 0 x); [|lra]. destruct (base_Int_part x) as [I1 I2].
  assert (K : (0 <= Int_part x)%Z). { assert (-1 < Int_part x)%Z by (apply lt_IZR; lra). lia. }
  exists (Z.to_nat (Int_part x)). rewrite Z2Nat.id by auto. split; auto. rewrite INR_IZR_INZ, Z2Nat.id by auto. lra.
Qed.
Lemma py_int_neg : forall x, x < 0 -> exists k, py_int x = (- Z.of_nat k)%Z /\ INR k <= - x < INR k + 1.
Proof.
  intros x Hx. destruct (py_int_pos (- x)) as (k & E & B); [lra|]. exists k. split; auto. unfold py_int in *.
  destruct (Rleb_spec 0 x); [lra|]. destruct (Rleb_spec 0 (- x)); [|lra]. lia.
Qed.
Lemma floor_unique : forall (a b : nat) x, INR a <= x < INR a + 1 -> INR b <= x < INR b + 1 -> a = b.
Proof.
  intros a b x H1 H2. assert (INR a < INR (S b)) by (rewrite S_INR; lra). assert (INR b < INR (S a)) by (rewrite S_INR; lra).
  apply INR_lt in H. apply INR_lt in H0. lia.
Qed.
Lemma slice_from_map : forall {A B} (f : A -> B) k l, slice_from k (map f l) = map f (slice_from k l).
Proof. intros A B f k l. unfold slice_from. rewrite map_length. destruct (k <? 0)%Z; apply skipn_map. Qed.

(** The altitude grid has n points, n being the whole kilometres below the skip altitude.  Only from n km upwards
    does the call raise; elsewhere the answer is NaN (or infinite) exactly when the air is as dense as at the skip
    altitude, and it is positive where the air is denser. *)
Theorem C09_scale_height_value : forall name p own h arg n, Planet name = Ok p -> INR n * 1000 <= h_skip p < (INR n + 1) * 1000 ->
  (forall e, scaleHeight p own h arg = Err e <-> e = ValueError /\ INR n * 1000 <= h) /\
  (h < INR n * 1000 -> (scaleHeight p own h arg = Ok None <-> density p own h = density p own (h_skip p))) /\
  (-1000 < h < (INR n - 1) * 1000 -> (forall x, 0 < own x) -> density p own (h_skip p) < density p own h ->
     exists H, scaleHeight p own h arg = Ok (Some H) /\ 0 < H).
Proof.
  intros name p own h arg n Hp Hn.
  destruct (Planet_facts _ _ Hp) as (_ & _ & A & _ & B & C & _).
  assert (En : Z.to_nat (py_int (h_skip p / 1000)) = n).
  { destruct (py_int_pos (h_skip p / 1000)) as (k & E & K); [lra|]. rewrite E, Nat2Z.id. apply (floor_unique k n (h_skip p / 1000)); lra. }
  assert (N2 : (2 <= n)%nat). { assert (2000 <= h_skip p) by (each_planet Hp; simpl; lra). assert (H1 : INR 1 < INR n) by (cbn [INR]; lra). apply INR_lt in H1. lia. }
  unfold scaleHeight, densityvectorized. rewrite En, slice_from_map.
  set (hs := linspace 0 (h_skip p) n).
  assert (L : List.length hs = n) by apply linspace_length.
  assert (S : exists j, slice_from (py_int (h / 1000)) hs = skipn j hs /\
      ((n <= j)%nat <-> INR n * 1000 <= h) /\ (-1000 < h < (INR n - 1) * 1000 -> (j + 1 < n)%nat)).
  { unfold slice_from. rewrite L. destruct (Rle_lt_dec 0 h) as [Hh|Hh].
    - destruct (py_int_pos (h / 1000)) as (k & E & K); [lra|]. exists k. rewrite E. destruct (Z.ltb_spec (Z.of_nat k) 0); [lia|]. rewrite Nat2Z.id. split; auto. split; [split|].
      + intros J. apply le_INR in J. lra.
      + intros J. assert (X : INR n < INR (Datatypes.S k)) by (rewrite S_INR; lra). apply INR_lt in X. lia.
      + intros J. assert (X : INR (k + 1) < INR n) by (rewrite plus_INR; cbn [INR]; lra). apply INR_lt in X. auto.
    - destruct (py_int_neg (h / 1000)) as (k & E & K); [lra|]. assert (P : 0 <= INR n) by apply pos_INR. destruct k as [|k].
      + exists 0%nat. rewrite E. cbn. split; [reflexivity|]. split; [split; [intros; lia|intros; lra]|intros; lia].
      + exists (n - Datatypes.S k)%nat. rewrite E. destruct (Z.ltb_spec (- Z.of_nat (Datatypes.S k)) 0); [|lia]. rewrite Z.opp_involutive, Nat2Z.id. split; auto.
        split; [split; [intros; lia|intros; lra]|]. intros J. rewrite S_INR in K. pose proof (pos_INR k). lra. }
  destruct S as (k & -> & S1 & S2).
  assert (Hlen : List.length (skipn k hs) = (n - k)%nat) by (rewrite skipn_length, L; auto).
  assert (Hok : (k < n)%nat -> exists l, cumtrapz (map own (skipn k hs)) (skipn k hs) 0 = Ok l).
  { intros Hkn. apply cumtrapz_total; [|apply map_length].
    intros E. apply map_eq_nil in E. rewrite E in Hlen. simpl in Hlen. lia. }
  split; [|split].
  - intros e. rewrite <- S1. split.
    + intros E. destruct (le_lt_dec n k) as [Hkn|Hkn].
      * split; auto. destruct (skipn k hs) eqn:Z; [cbn in E; congruence|]. simpl in Hlen. lia.
      * destruct (Hok Hkn) as (l & Hl). rewrite Hl in E. discriminate.
    + intros (-> & Hkn). destruct (skipn k hs) eqn:E; [reflexivity|]. simpl in Hlen. lia.
  - intros Hh. assert (Hkn : (k < n)%nat). { destruct (le_lt_dec n k) as [J|J]; auto. apply S1 in J. lra. }
    destruct (Hok Hkn) as (l & Hl). rewrite Hl. simpl. unfold np_div. split; rcases; intros E; auto; try lra; try discriminate.
  - intros Hh Hpos Hd. specialize (S2 Hh). destruct (Hok ltac:(lia)) as (l & Hl). rewrite Hl. simpl. unfold np_div. rcases; [lra|]. eexists; split; [reflexivity|].
    apply Rdiv_lt_0_compat; [|lra].
    assert (Hs : StronglySorted Rlt (skipn k hs)) by (apply skipn_sorted, linspace_sorted; lra).
    destruct (skipn k hs) as [|x0 xs]; [simpl in Hlen; lia|].
    simpl in Hl, Hlen. rewrite map_length, Nat.eqb_refl in Hl. simpl in Hl.
    destruct (Reqb_spec 0 0); simpl in Hl; [|lra]. inversion Hl; subst l.
    destruct xs as [|x1 xs]; [simpl in Hlen; lia|].
    assert (P : 0 < last (trapz_from 0 (own x0) x0 (map own (x1 :: xs)) (x1 :: xs)) 0).
    { apply trapz_last_pos; auto; try lra; [apply map_length|discriminate|].
      intros y Hy. apply in_map_iff in Hy. destruct Hy as (z & <- & _). auto. }
    exact P.
Qed.
(** One to two kilometres below the reference surface the slice wraps round to the last grid point and the scale
    height is 0, whatever the atmosphere. *)
Theorem C09_below_surface : forall name p own h arg, Planet name = Ok p -> -2000 < h <= -1000 ->
  density p own h <> density p own (h_skip p) -> scaleHeight p own h arg = Ok (Some 0).
Proof.
  intros name p own h arg Hp Hh Hd. destruct (Planet_facts _ _ Hp) as (_ & _ & A & _ & B & C & _).
  destruct (py_int_pos (h_skip p / 1000)) as (n & E & K); [lra|].
  assert (N2 : (2 <= n)%nat). { assert (2000 <= h_skip p) by (each_planet Hp; simpl; lra). assert (H1 : INR 1 < INR n) by (cbn [INR]; lra). apply INR_lt in H1. lia. }
  unfold scaleHeight, densityvectorized. rewrite E, Nat2Z.id, slice_from_map. set (hs := linspace 0 (h_skip p) n).
  assert (L : List.length hs = n) by apply linspace_length.
  destruct (py_int_neg (h / 1000)) as (k & Ek & Kk); [lra|]. assert (k = 1)%nat by (apply (floor_unique k 1 (- (h / 1000))); cbn [INR]; lra). subst k.
  unfold slice_from. rewrite Ek. cbn [Z.ltb Z.compare Z.opp Z.of_nat]. change (Z.to_nat (Z.pos (Pos.of_succ_nat 0))) with 1%nat. rewrite L.
  assert (S : List.length (skipn (n - 1) hs) = 1%nat) by (rewrite skipn_length, L; lia).
  destruct (skipn (n - 1) hs) as [|x0 [|x1 xs]]; try (cbn in S; lia). cbn [map cumtrapz List.length Nat.eqb negb].
  destruct (Reqb_spec 0 0); [|lra]. cbn [negb trapz_from rbind last]. unfold np_div. destruct (Reqb_spec (density p own h - density p own (h_skip p)) 0); [lra|]. do 2 f_equal. unfold Rdiv. ring.
Qed.
(** The planets the constructor knows have skip altitudes between 2 and a few thousand km, so the grid exists. *)
Example C09_witness : Planet "TITAN" = Ok TITAN /\ INR 1000 * 1000 <= h_skip TITAN < (INR 1000 + 1) * 1000.
Proof. split; [reflexivity|]. rewrite INR_IZR_INZ. unfold TITAN. cbn [h_skip Z.of_nat Pos.of_succ_nat Pos.succ]. lra. Qed.

(** The measured profile would have mattered: for every planet there are an own table and a
    measured one for which the value for the measured table is finite and the returned one is not. *)
Theorem C09_measurement_ignored_refuted : forall name p, Planet name = Ok p ->
  exists own measured, scaleHeight p own 0 measured = Ok None /\ exists H, scaleHeight p measured 0 measured = Ok (Some H) /\ 0 < H.
Proof.
  intros name p Hp. destruct (Planet_facts _ _ Hp) as (_ & _ & A & _ & B & C & _).
  destruct (py_int_pos (h_skip p / 1000)) as (n & _ & K); [lra|]. assert (Hs : 2000 <= h_skip p) by (each_planet Hp; simpl; lra).
  assert (N1 : 1 < INR n) by lra.
  assert (Hn : INR n * 1000 <= h_skip p < (INR n + 1) * 1000) by lra.
  exists (fun _ => 0), (fun h => if Rltb h 1 then 2 else 1). split.
  - apply (C09_scale_height_value _ _ (fun _ => 0) 0 (fun h => if Rltb h 1 then 2 else 1) n Hp Hn); [lra|].
    unfold density. rcases; simpl; lra.
  - apply (C09_scale_height_value _ _ _ 0 _ n Hp Hn); [lra| |].
    + intros x; rcases; lra.
    + unfold density. rewrite C. rcases; simpl; lra.
Qed.

(** * C10 *)
Theorem C10_launch_mass : forall XY, NoDup (map fst XY) -> XY <> [] ->
  (forall c m, In (c, m) XY -> launchMass XY c = Ok m) /\
  (forall c, left_of XY c \/ right_of XY c -> launchMass XY c = Ok 0) /\
  (forall c lo hi, inside XY c -> (forall row, In row XY -> lo <= snd row <= hi) ->
     exists m, launchMass XY c = Ok m /\ lo <= m <= hi) /\
  (forall c c', inside XY c -> inside XY c' -> c <= c' ->
     (forall p q, In p XY -> In q XY -> fst p <= fst q -> snd q <= snd p) ->
     exists m m', launchMass XY c = Ok m /\ launchMass XY c' = Ok m' /\ m' <= m).
Proof.
  intros XY Hnd Hne. unfold launchMass. repeat split.
  - intros c m Hin. apply C03_table_lookup; auto.
  - intros c [H|H]; [apply interp1d_left|apply interp1d_right]; auto.
  - intros c lo hi Hin Hb. destruct (interp1d_inside XY 0 0 c Hnd Hin) as (y & Hy & HI).
    exists y; split; auto. eapply Interpolates_bounds; eauto.
  - intros c c' Hx Hx' Hle Hmono.
    destruct (interp1d_inside XY 0 0 c Hnd Hx) as (m & Hm & _).
    destruct (interp1d_inside XY 0 0 c' Hnd Hx') as (m' & Hm' & _).
    exists m, m'; repeat split; auto.
    destruct Hx as (p & q & Hp & Hq & Hx), Hx' as (p' & q' & Hp' & Hq' & Hx').
    unfold interp1d in Hm, Hm'. pose proof (sort_rows_strict XY Hnd) as Hs.
    apply in_sort in Hp, Hq, Hp', Hq'.
    assert (HK' : nonincreasing_rows (sort_rows XY)).
    { intros a b Ha Hb. apply Hmono; apply in_unsort; auto. }
    destruct (sort_rows XY) as [|[x0 y0] s] eqn:E; [inversion Hp|].
    pose proof (first_x_min _ _ _ Hs Hp); pose proof (first_x_min _ _ _ Hs Hp').
    pose proof (last_x_max _ _ Hs Hq); pose proof (last_x_max _ _ Hs Hq').
    simpl fst in *.
    destruct (Rltb_spec c x0); [lra|]. destruct (Rltb_spec c' x0); [lra|].
    destruct (Rltb_spec (last_x ((x0,y0)::s)) c); [lra|]. destruct (Rltb_spec (last_x ((x0,y0)::s)) c'); [lra|].
    inversion Hm; inversion Hm'. apply interp_sorted_mono; auto; lra.
Qed.
Example C10_witness : NoDup (map fst [(0, 5000); (10, 4000); (20, 2500)]) /\
  inside [(0, 5000); (10, 4000); (20, 2500)] 15 /\ right_of [(0, 5000); (10, 4000); (20, 2500)] 25 /\
  (forall p q, In p [(0, 5000); (10, 4000); (20, 2500)] -> In q [(0, 5000); (10, 4000); (20, 2500)] ->
     fst p <= fst q -> snd q <= snd p).
Proof.
  split; [repeat constructor; simpl; intuition lra|]. split; [|split].
  - exists (10, 4000), (20, 2500); simpl; repeat split; auto; lra.
  - intros p [<-|[<-|[<-|[]]]]; simpl; lra.
  - intros p q [<-|[<-|[<-|[]]]] [<-|[<-|[<-|[]]]]; simpl; lra.
Qed.

(** * C11 *)
Lemma insert_set_in : forall x l y, In y (insert_set x l) <-> y = x \/ In y l.
Proof.
  induction l as [|a l IH]; simpl; intros y; [intuition|].
  destruct (Rltb_spec x a); simpl; [intuition|]. destruct (Reqb_spec x a); simpl; [subst; intuition|].
  rewrite IH. intuition.
Qed.
Lemma sorted_set_in : forall l y, In y (sorted_set l) <-> In y l.
Proof. induction l as [|a l IH]; simpl; intros y; [tauto|]. rewrite insert_set_in, IH. intuition. Qed.
Lemma insert_set_sorted : forall x l, StronglySorted Rlt l -> StronglySorted Rlt (insert_set x l).
Proof.
  intros x l; induction 1 as [|a l Hs IH Hf]; simpl; [repeat constructor|].
  destruct (Rltb_spec x a).
  - constructor; [constructor; auto|]. constructor; auto. eapply Forall_impl; [|exact Hf]. intros; lra.
  - destruct (Reqb_spec x a); [constructor; auto|]. constructor; auto.
    rewrite Forall_forall in *. intros y Hy. apply insert_set_in in Hy. destruct Hy as [->|Hy]; [lra|auto].
Qed.
Lemma sorted_set_sorted : forall l, StronglySorted Rlt (sorted_set l).
Proof. induction l; simpl; [constructor|apply insert_set_sorted; auto]. Qed.

(** The plotting axis limit fails exactly when at most one distinct mass occurs; otherwise it is
    the second smallest distinct mass (clipped at 0): some mass is below it and none in between. *)
Theorem C11_axis_floor : forall masses,
  (axis_floor masses = Err IndexError <-> forall x y, In x masses -> In y masses -> x = y) /\
  (forall f, axis_floor masses = Ok f ->
     exists x y, In x masses /\ In y masses /\ x < y /\ f = Rmax 0 y /\
                 (forall z, In z masses -> x <= z /\ ~ (x < z < y))) /\
  ((forall z, In z masses -> 0 <= z) -> forall f, axis_floor masses = Ok f -> 0 < f).
Proof.
  intros masses. pose proof (sorted_set_sorted masses) as Hs. pose proof (sorted_set_in masses) as Hin.
  assert (Hmain : forall f, axis_floor masses = Ok f ->
     exists x y, In x masses /\ In y masses /\ x < y /\ f = Rmax 0 y /\
                 (forall z, In z masses -> x <= z /\ ~ (x < z < y))).
  { intros f. unfold axis_floor. destruct (sorted_set masses) as [|a [|b l]]; try discriminate.
    intros H; inversion H; subst; clear H. exists a, b.
    inversion Hs as [|? ? Hs1 Hf]; subst. inversion Hs1 as [|? ? _ Hf1]; subst. rewrite Forall_forall in *.
    repeat split; auto.
    - apply Hin; left; auto.
    - apply Hin; right; left; auto.
    - apply Hf; left; auto.
    - apply Hin in H. destruct H as [<-|H]; [lra|]. left; apply Hf; auto.
    - apply Hin in H. intros Hz. destruct H as [<-|[<-|H]]; try lra. specialize (Hf1 _ H). lra. }
  split; [|split; auto].
  - unfold axis_floor in *. destruct (sorted_set masses) as [|a [|b l]] eqn:E; simpl in *.
    + split; auto. intros _ x y Hx. apply Hin in Hx. contradiction.
    + split; auto. intros _ x y Hx Hy. apply Hin in Hx, Hy. destruct Hx as [<-|[]], Hy as [<-|[]]; auto.
    + split; [discriminate|]. intros H. exfalso.
      inversion Hs as [|? ? Hs1 Hf]; subst. inversion Hf; subst.
      assert (a = b) by (apply H; apply Hin; simpl; auto). lra.
  - intros Hz f Hf. destruct (Hmain f Hf) as (x & y & Hx & Hy & Hxy & -> & _).
    specialize (Hz x Hx). eapply Rlt_le_trans; [|apply Rmax_r]. lra.
Qed.
Example C11_witness : axis_floor [3; 0; 7; 3] = Ok 3 /\ axis_floor [4; 4] = Err IndexError.
Proof.
  unfold axis_floor; simpl. split; rcases; try lra; auto; simpl; rcases; try lra; auto; simpl;
  rcases; try lra; auto; try (unfold Rmax; destruct (Rle_dec 0 3); auto; lra);
  simpl; rcases; try lra; auto; try (unfold Rmax; destruct (Rle_dec 0 3); auto; lra).
Qed.
