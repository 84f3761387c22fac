(** Lemmas about classification, truncation and propagation. *)
From Coq Require Import String List.
Require Import Verif.Base Verif.Numpy Verif.NumpyProofs Verif.PlanetModel Verif.PlanetProofs Verif.AeroModel Verif.HeatModel Verif.TrajectoryModel Verif.TrajectorySpec.
Local Open Scope R_scope.

Lemma nth_map_lt : forall {A} (f : A -> R) l k a, (k < length l)%nat -> nth k (map f l) 0 = f (nth k l a).
Proof. intros A f l k a H. rewrite (nth_indep (map f l) 0 (f a)) by (rewrite map_length; auto). apply map_nth. Qed.
Lemma nth_map_bool : forall (f : R -> bool) l k, (k < length l)%nat -> nth k (map f l) false = f (nth k l 0).
Proof. intros f l k H. rewrite (nth_indep (map f l) false (f 0)) by (rewrite map_length; auto). apply map_nth. Qed.
Lemma in_nth_lt : forall (l : list R) k, (k < length l)%nat -> In (nth k l 0) l.
Proof. intros. apply nth_In; auto. Qed.
Lemma nth_firstn : forall (l : list R) n k, (k < n)%nat -> nth k (firstn n l) 0 = nth k l 0.
Proof. induction l as [|a l IH]; intros [|n] [|k] H; auto; try lia. cbn [firstn nth]. apply IH; lia. Qed.

Lemma min_every : forall l c, l <> [] -> (c <= list_min l <-> every_entry (fun x => c <= x) l).
Proof.
  intros l c Hl. split.
  - intros H k Hk. apply Rle_trans with (list_min l); auto. apply list_min_le, in_nth_lt; auto.
  - intros H. destruct (In_nth _ _ 0 (list_min_in l Hl)) as (k & Hk & E). rewrite <- E. apply H; auto.
Qed.
Lemma max_some : forall l c, l <> [] -> (c < list_max l <-> some_entry (fun x => c < x) l).
Proof.
  intros l c Hl. split.
  - intros H. destruct (In_nth _ _ 0 (list_max_in l Hl)) as (k & Hk & E). exists k. split; auto. rewrite E; auto.
  - intros (k & Hk & H). apply Rlt_le_trans with (nth k l 0); auto. apply list_max_ge, in_nth_lt; auto.
Qed.
Lemma min_some : forall l c, l <> [] -> (list_min l < c <-> some_entry (fun x => x < c) l).
Proof.
  intros l c Hl. split.
  - intros H. destruct (In_nth _ _ 0 (list_min_in l Hl)) as (k & Hk & E). exists k. split; auto. rewrite E; auto.
  - intros (k & Hk & H). apply Rle_lt_trans with (nth k l 0); auto. apply list_min_le, in_nth_lt; auto.
Qed.
Lemma max_le_every : forall l c, l <> [] -> (list_max l <= c <-> every_entry (fun x => x <= c) l).
Proof.
  intros l c Hl. split.
  - intros H k Hk. apply Rle_trans with (list_max l); auto. apply list_max_ge, in_nth_lt; auto.
  - intros H. destruct (In_nth _ _ 0 (list_max_in l Hl)) as (k & Hk & E). rewrite <- E. apply H; auto.
Qed.

(** argmax of a comparison: the first hit, or 0 when there is none. *)
Lemma argmax_hit : forall (f : R -> bool) (P : R -> Prop) l, (forall x, f x = true <-> P x) -> some_entry P l -> first_at P l (argmax_bool (map f l)).
Proof.
  intros f P l Hf (k & Hk & H). unfold argmax_bool.
  destruct (first_true_exists (map f l) k) as (i & Hi); [rewrite map_length; auto|rewrite nth_map_bool by auto; apply Hf; auto|].
  rewrite Hi. destruct (first_true_some _ _ Hi) as (A & B & C). rewrite map_length in B. rewrite nth_map_bool in A by auto.
  split; auto. split; [apply Hf; auto|]. intros j Hj Hp. specialize (C j Hj). rewrite nth_map_bool in C by lia. apply Hf in Hp. congruence.
Qed.
Lemma argmax_miss : forall (f : R -> bool) (P : R -> Prop) l, (forall x, f x = true <-> P x) -> ~ some_entry P l -> argmax_bool (map f l) = 0%nat.
Proof.
  intros f P l Hf H. unfold argmax_bool. destruct (first_true (map f l)) as [i|] eqn:E; auto. exfalso. apply H.
  destruct (first_true_some _ _ E) as (A & B & _). rewrite map_length in B. rewrite nth_map_bool in A by auto. exists i. split; auto. apply Hf; auto.
Qed.

(** Classification by cases on the altitude history. *)
Definition skips (p : planet) (h : list R) := every_entry (fun x => 0 <= x) h /\ some_entry (fun x => h_skip p < x) h.
Lemma classify_cases : forall p r idx flag, h_trap p < h_skip p -> 0 < h_trap p -> classifyTrajectory p r = Ok (idx, flag) ->
  let h := map (fun x => x - RP p) r in r <> [] /\
  (skips p h /\ flag = 1 /\ first_at (fun x => h_skip p < x) h idx \/
   ~ skips p h /\ some_entry (fun x => x < h_trap p) h /\ flag = -1 /\ first_at (fun x => x < h_trap p) h idx \/
   ~ skips p h /\ every_entry (fun x => h_trap p <= x <= h_skip p) h /\ list_min h = h_trap p /\ list_max h = h_skip p /\ flag = -1 /\ idx = 0%nat \/
   ~ skips p h /\ every_entry (fun x => h_trap p <= x) h /\ (list_min h = h_trap p -> list_max h <> h_skip p) /\ flag = 0 /\ idx = length r).
Proof.
  intros p r idx flag Hts Htr H h. unfold classifyTrajectory in H. change (map (computeH p) r) with h in H. cbv zeta in H.
  assert (Hr : r <> []). { intros ->. unfold h in H. cbn in H. discriminate. }
  split; auto. assert (Hh : h <> []). { unfold h. destruct r; [congruence|discriminate]. }
  assert (Hlen : length h = length r) by apply map_length.
  assert (H' : Ok (if Rleb 0 (list_min h) && Rltb (h_skip p) (list_max h) then (argmax_bool (map (fun x => Rltb (h_skip p) x) h), 1)
          else if Rleb (h_trap p) (list_min h) && Rltb (list_max h) (h_skip p) then (length h, 0)
          else if Rleb (list_min h) (h_trap p) then (argmax_bool (map (fun x => Rltb x (h_trap p)) h), -1)
          else (length h, 0)) = Ok (idx, flag)). { destruct h; [congruence|exact H]. } clear H. injection H' as H.
  destruct (Rleb_spec 0 (list_min h)) as [A|A]; destruct (Rltb_spec (h_skip p) (list_max h)) as [B|B]; cbn [andb] in H.
  { left. injection H as <- <-. pose proof (proj1 (max_some h _ Hh) B). pose proof (proj1 (min_every h 0 Hh) A). split; [split; auto|]. split; [auto|]. apply argmax_hit; auto; intros; apply Rltb_true. }
  all: assert (NS : ~ skips p h) by (intros (S1 & S2); apply (min_every h 0 Hh) in S1; apply (max_some h _ Hh) in S2; lra).
  all: right.
  all: destruct (Rleb_spec (h_trap p) (list_min h)) as [C|C]; destruct (Rltb_spec (list_max h) (h_skip p)) as [D|D]; cbn [andb] in H;
    destruct (Rleb_spec (list_min h) (h_trap p)) as [F|F]; injection H as <- <-; try lra.
  all: try (left; split; [exact NS|]; assert (some_entry (fun x => x < h_trap p) h) by (apply min_some; auto; lra); split; [auto|]; split; [auto|];
    apply argmax_hit; auto; intros; apply Rltb_true).
  all: right.
  all: try (right; split; [exact NS|]; split; [apply min_every; auto; lra|]; split; [intros; lra|]; split; [auto|]; rewrite map_length; auto; fail).
  all: try (right; split; [exact NS|]; split; [apply min_every; auto; lra|]; split; [intros; lra|]; split; auto; fail).
  left. split; [exact NS|]. split; [intros k Hk; split; [apply (proj1 (min_every h _ Hh) C); auto|apply (proj1 (max_le_every h (h_skip p) Hh)); [lra|auto]]|].
  split; [lra|]. split; [lra|]. split; auto. apply argmax_miss with (P := fun x => x < h_trap p); [intros; apply Rltb_true|].
  intros Z. apply (min_some h _ Hh) in Z. lra.
Qed.

(** * Propagation *)
(** What both integration steps guarantee: [n] aligned points at times k*dt/tau, starting at [x0]. *)
Definition solver_ok (solve : vehicle -> R -> state -> R -> R -> R -> res traj) : Prop :=
  forall V tol x0 t_sec dt delta c, solve V tol x0 t_sec dt delta = Ok c ->
  exists n, traj_len c n /\ (n <= ceil_nat ((t_sec + dt) / tau (vh_planet V) / (dt / tau (vh_planet V))))%nat /\
    (forall k, (k < n)%nat -> nth k (c_t c) 0 = INR k * (dt / tau (vh_planet V))) /\ ((0 < n)%nat -> snd (point c 0) = x0).

Lemma channels_len : forall ts xs, length xs = length ts -> traj_len (channels ts xs) (length ts).
Proof. intros ts xs H. unfold traj_len, channels. cbn [c_t c_r c_theta c_phi c_v c_psi c_gamma c_drange]. rewrite !map_length. auto 10. Qed.
Lemma arange_inv : forall stop step ts, arange stop step = Ok ts ->
  length ts = ceil_nat (stop / step) /\ forall k, (k < length ts)%nat -> nth k ts 0 = INR k * step.
Proof.
  intros stop step ts H. unfold arange in H. rcases; try discriminate. injection H as <-. rewrite map_length, seq_length.
  split; auto. intros k Hk. rewrite (nth_map_lt (fun i => INR i * step) _ _ 0%nat) by (rewrite seq_length; auto). rewrite seq_nth by auto. auto.
Qed.
Lemma first_state : forall ts xs x0, nth_error xs 0 = Some x0 -> snd (point (channels ts xs) 0) = x0.
Proof. intros ts [|x xs] x0 H; cbn in H; [discriminate|]. injection H as ->. destruct x0. reflexivity. Qed.
Lemma solver1_ok : forall E, engine_ok E -> solver_ok (solveTrajectory E).
Proof.
  intros E (H1 & _) V tol x0 t_sec dt delta c H. unfold solveTrajectory in H.
  destruct (arange _ _) as [ts|] eqn:Ea; [|discriminate]. cbn [rbind] in H. destruct (odeint E _ _ _ _) as [xs|] eqn:Eo; [|discriminate].
  cbn [rbind] in H. injection H as <-. destruct (H1 _ _ _ _ _ Eo) as (L & F). destruct (arange_inv _ _ _ Ea) as (La & Na).
  exists (length ts). split; [apply channels_len; auto|]. split; [rewrite La; auto|]. split; [intros; apply Na; auto|].
  intros Hn. apply first_state, F. intros ->. cbn in Hn; lia.
Qed.
Lemma solver2_ok : forall E, engine_ok E -> solver_ok (solveTrajectory2 E).
Proof.
  intros E (_ & H2) V tol x0 t_sec dt delta c H. unfold solveTrajectory2 in H.
  destruct (arange _ _) as [ts|] eqn:Ea; [|discriminate]. cbn [rbind] in H. destruct (arange_inv _ _ _ Ea) as (La & Na).
  assert (Hne : ts <> []) by (destruct ts; [discriminate|congruence]).
  assert (H' : (letr out := solve_ivp E (fun y => EOM V y delta) (last ts 0) x0 ts hit_EFPA_90 tol in Ok (channels (fst out) (snd out))) = Ok c)
    by (destruct ts; [congruence|exact H]). clear H.
  destruct (solve_ivp E _ _ _ _ _ _) as [[us xs]|] eqn:Eo; [|discriminate]. cbn [rbind fst snd] in H'. injection H' as <-.
  destruct (H2 _ _ _ _ _ _ _ _ Eo) as (L & (n & ->) & F). destruct (F Hne) as (Hu & Fx).
  exists (length (firstn n ts)). split; [apply channels_len; auto|]. split; [rewrite firstn_length, La; lia|]. split.
  - intros k Hk. cbn [c_t channels]. rewrite firstn_length in Hk. rewrite nth_firstn by lia. apply Na. lia.
  - intros _. apply first_state; auto.
Qed.

(** The flight stored by a propagation. *)
Lemma post_inv : forall V delta c0 f, post V delta c0 = Ok f -> exists cls qc qr,
  let p := vh_planet V in let c := dimensionalize_traj p c0 in let i := fst cls in
  classifyTrajectory p (c_r c) = Ok cls /\ f_index f = i /\ f_exitflag f = snd cls /\
  f_si f = mkTraj (firstn i (c_t c)) (firstn i (c_r c)) (firstn i (c_theta c)) (firstn i (c_phi c)) (firstn i (c_v c)) (firstn i (c_psi c)) (firstn i (c_gamma c)) (firstn i (c_drange c)) /\
  (let q := convertToPlotUnits p (c_t c) (c_r c) (c_v c) (c_phi c) (c_psi c) (c_theta c) (c_gamma c) (c_drange c) in
   f_plot f = mkPlot (firstn i (p_t q)) (firstn i (p_h q)) (firstn i (p_v q)) (firstn i (p_phi q)) (firstn i (p_psi q)) (firstn i (p_theta q)) (firstn i (p_gamma q)) (firstn i (p_drange q))) /\
  f_acc_net f = computeAccelerationLoad V (c_r (f_si f)) (c_v (f_si f)) delta /\
  f_acc_drag f = computeAccelerationDrag V (c_r (f_si f)) (c_v (f_si f)) delta /\
  f_dyn f = map (fun x => x / 1.01325e5) (computeDynPres V (c_r (f_si f)) (c_v (f_si f))) /\
  f_stag f = map (fun x => x / 1.01325e5) (computeStagPres V (c_r (f_si f)) (c_v (f_si f))) /\
  qStagConvective V (c_r (f_si f)) (c_v (f_si f)) = Ok qc /\ qStagRadiative V (c_r (f_si f)) (c_v (f_si f)) = Ok qr /\
  f_qcon f = qc /\ f_qrad f = qr /\ f_qtot f = vsum qc qr.
Proof.
  intros V delta c0 f H. unfold post, truncateTrajectory in H. cbv zeta beta iota in H.
  destruct (classifyTrajectory _ _) as [cls|] eqn:Ec; [|discriminate]. cbn [rbind] in H.
  destruct (qStagConvective _ _ _) as [qc|] eqn:Eq; [|discriminate]. cbn [rbind] in H.
  destruct (qStagRadiative _ _ _) as [qr|] eqn:Er; [|discriminate]. cbn [rbind] in H. injection H as <-.
  exists cls, qc, qr. cbv zeta. repeat (split; [first [assumption | reflexivity]|]). reflexivity.
Qed.

Lemma classify_index : forall p r cls, h_trap p < h_skip p -> 0 < h_trap p -> classifyTrajectory p r = Ok cls -> (fst cls <= length r)%nat.
Proof.
  intros p r [i fl] Ht Hp H. destruct (classify_cases p r i fl Ht Hp H) as (_ & [(_ & _ & (L & _))|[(_ & _ & _ & (L & _))|[(_ & _ & _ & _ & _ & ->)|(_ & _ & _ & _ & ->)]]]);
    cbn [fst]; try lia; rewrite map_length in L; lia.
Qed.
Lemma dim_len : forall p c n, traj_len c n -> traj_len (dimensionalize_traj p c) n.
Proof. intros p c n H. unfold traj_len, dimensionalize_traj in *. cbn [c_t c_r c_theta c_phi c_v c_psi c_gamma c_drange]. rewrite !map_length. auto. Qed.
Lemma rho_vec_len : forall V r, length (rho_vec V r) = length r.
Proof. intros. unfold rho_vec, rhovectorized. apply map_length. Qed.
Lemma aero_len : forall V r v d, length v = length r -> length (a_svectorized V r v d) = length r /\ length (a_nvectorized V r v d) = length r /\ length (a_wvectorized V r v d) = length r.
Proof. intros. unfold a_svectorized, a_nvectorized, a_wvectorized, Dvectorized, Lvectorized. rewrite !map_length, !combine_length, rho_vec_len. lia. Qed.
Lemma zip3_len : forall f a b c, length b = length a -> length c = length a -> length (zip3 f a b c) = length a.
Proof. intros. unfold zip3. rewrite map_length, !combine_length. lia. Qed.
Lemma heat_len : forall law V r v q, length v = length r -> heat_history law V r v = Ok q -> length q = length r.
Proof. intros law V r v q L H. unfold heat_history in H. destruct (law _); [|discriminate]. injection H as <-. rewrite map_length, combine_length, rho_vec_len. lia. Qed.
Lemma dyn_len : forall V r v, length v = length r -> length (computeDynPres V r v) = length r.
Proof. intros. unfold computeDynPres. rewrite map_length, combine_length, rho_vec_len. lia. Qed.
Lemma otrapz_len : forall ys xs acc y0 x0, length ys = length xs -> length (otrapz_from acc y0 x0 ys xs) = length ys.
Proof. induction ys as [|y ys IH]; intros [|x xs] acc y0 x0 H; cbn in *; try lia. rewrite IH; lia. Qed.
Lemma ocumtrapz_inv : forall y x i h, ocumtrapz y x i = Ok h -> y <> [] /\ length y = length x /\ i = 0 /\ length h = length y.
Proof.
  intros [|y0 ys] [|x0 xs] i h H; cbn [ocumtrapz] in H; try discriminate.
  destruct (Nat.eqb_spec (length ys) (length xs)) as [L|L]; cbn [negb] in H; [|discriminate].
  destruct (Reqb_spec i 0) as [I|I]; cbn [negb] in H; [|discriminate]. injection H as <-. split; [discriminate|]. split; [cbn [length]; lia|]. split; auto.
  cbn [length]. rewrite otrapz_len by auto. auto.
Qed.
