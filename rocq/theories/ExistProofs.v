(** Existence of solutions of the equations of motion inside the atmosphere. *)
From Coq Require Import String List Classical.
Require Import Verif.Base Verif.Numpy Verif.PlanetModel Verif.AeroModel Verif.TrajectoryModel Verif.PlanetProofs Verif.FlightSpec Verif.FlightProofs Verif.PropFlight Verif.TrajectorySpec Verif.TrajectoryProofs Verif.ExactSpec Verif.ExactProofs
  Verif.DetSpec Verif.DetProofs Verif.NearSpec Verif.NearProofs Verif.ExistSpec.
Require Verif.Picard.
Import ListNotations.
Local Open Scope R_scope.

(** States at which the right hand side is defined, inside the atmosphere. *)
Definition regular (p : planet) (x : state) : Prop := in_air p x /\ s_r x <> 0 /\ s_v x <> 0 /\ cos (s_phi x) <> 0 /\ cos (s_gamma x) + 1e-2 <> 0.
Lemma field_there : forall V delta x, vh_user V = false -> regular (vh_planet V) x -> EOM V x delta = Ok (Some (field V delta x)).
Proof.
  intros V delta x Hu (_ & Hr & Hv & Hc & Hg).
  assert (A : a_sbar V (s_r x) (s_theta x) (s_phi x) (s_v x) delta = Ok (fas V x)) by (unfold a_sbar, Dbar, CD_scalar; rewrite Hu; reflexivity).
  destruct (EOM V x delta) as [[d|]|e] eqn:E; [|exfalso|exfalso].
  - destruct (field_is _ _ _ _ Hu E) as (-> & _). reflexivity.
  - destruct (EOM_some V x delta _ A Hr Hv Hc Hg) as (d & Ed). congruence.
  - destruct (EOM_some V x delta _ A Hr Hv Hc Hg) as (d & Ed). congruence.
Qed.
Lemma Rabs_le_inv : forall a b, Rabs a <= b -> - b <= a <= b.
Proof. intros a b H. revert H. unfold Rabs. destruct (Rcase_abs a); lra. Qed.
Lemma ll_pos : forall F x, loclip F x -> 0 < F x -> exists e, 0 < e /\ forall a, dist x a < e -> 0 < F a.
Proof.
  intros F x (e & L & He & HL & H) P. assert (Q : 0 < F x / (L + 1)) by (apply Rdiv_lt_0_compat; lra). exists (Rmin e (F x / (L + 1))). split; [apply Rmin_glb_lt; auto|].
  intros a Ha. pose proof (Rmin_l e (F x / (L + 1))). pose proof (Rmin_r e (F x / (L + 1))). specialize (H x a ltac:(rewrite dist_self; lra) ltac:(lra)).
  assert (E : (L + 1) * (F x / (L + 1)) = F x) by (field; lra). assert (L * dist x a < F x). { pose proof (dist_pos x a). nra. } apply Rabs_le_inv in H. lra.
Qed.
Lemma ll_abs : forall F x, loclip F x -> loclip (fun a => Rabs (F a)) x.
Proof. intros F x H. apply (ll_lip Rabs F x); auto. intros a b. apply Rabs_triang_inv2. Qed.
Lemma ll_away : forall F x, loclip F x -> F x <> 0 -> exists e, 0 < e /\ forall a, dist x a < e -> F a <> 0.
Proof.
  intros F x H N. destruct (ll_pos (fun a => Rabs (F a)) x (ll_abs _ _ H) (Rabs_pos_lt _ N)) as (e & He & P). exists e. split; auto. intros a Ha Z. specialize (P a Ha). cbv beta in P. rewrite Z, Rabs_R0 in P. lra.
Qed.
Lemma regular_open : forall p x, regular p x -> exists e, 0 < e /\ forall a, dist x a < e -> regular p a.
Proof.
  intros p x ((I1 & I2) & Hr & Hv & Hc & Hg).
  destruct (ll_pos (fun a => RP p * s_r a - RP p) x ltac:(ll) ltac:(cbv beta; lra)) as (e1 & E1 & P1).
  destruct (ll_pos (fun a => h_thres p - (RP p * s_r a - RP p)) x ltac:(ll) ltac:(cbv beta; lra)) as (e2 & E2 & P2).
  destruct (ll_away s_r x (ll_r x) Hr) as (e3 & E3 & P3). destruct (ll_away s_v x (ll_v x) Hv) as (e4 & E4 & P4).
  destruct (ll_away (fun a => cos (s_phi a)) x ltac:(ll) Hc) as (e5 & E5 & P5). destruct (ll_away (fun a => cos (s_gamma a) + 1e-2) x ltac:(ll) Hg) as (e6 & E6 & P6).
  exists (Rmin e1 (Rmin e2 (Rmin e3 (Rmin e4 (Rmin e5 e6))))). split; [repeat apply Rmin_glb_lt; auto|]. intros a Ha.
  assert (dist x a < e1 /\ dist x a < e2 /\ dist x a < e3 /\ dist x a < e4 /\ dist x a < e5 /\ dist x a < e6) as (U1 & U2 & U3 & U4 & U5 & U6).
  { revert Ha. pose proof (Rmin_l e5 e6). pose proof (Rmin_r e5 e6). set (m5 := Rmin e5 e6) in *.
    pose proof (Rmin_l e4 m5). pose proof (Rmin_r e4 m5). set (m4 := Rmin e4 m5) in *. pose proof (Rmin_l e3 m4). pose proof (Rmin_r e3 m4). set (m3 := Rmin e3 m4) in *.
    pose proof (Rmin_l e2 m3). pose proof (Rmin_r e2 m3). set (m2 := Rmin e2 m3) in *. pose proof (Rmin_l e1 m2). pose proof (Rmin_r e1 m2). intros. lra. }
  specialize (P1 a U1). specialize (P2 a U2). cbv beta in P1, P2. repeat split; try lra; auto.
Qed.
(** States as vectors. *)
Definition st_of (a : nat -> R) : state := mkState (a 0%nat) (a 1%nat) (a 2%nat) (a 3%nat) (a 4%nat) (a 5%nat) (a 6%nat).
Definition comp (x : state) (i : nat) : R := match i with 0 => s_r x | 1 => s_theta x | 2 => s_phi x | 3 => s_v x | 4 => s_psi x | 5 => s_gamma x | _ => s_drange x end%nat.
Lemma comp_dist : forall x y i, Rabs (comp x i - comp y i) <= dist x y.
Proof. intros x y i. unfold dist. destruct i as [|[|[|[|[|[|i]]]]]]; cbn [comp]; absall; lra. Qed.
Lemma dist_comp : forall x y K, (forall i, (i < 7)%nat -> Rabs (comp x i - comp y i) <= K) -> dist x y <= 7 * K.
Proof.
  intros x y K H. unfold dist. pose proof (H 0%nat ltac:(lia)). pose proof (H 1%nat ltac:(lia)). pose proof (H 2%nat ltac:(lia)). pose proof (H 3%nat ltac:(lia)).
  pose proof (H 4%nat ltac:(lia)). pose proof (H 5%nat ltac:(lia)). pose proof (H 6%nat ltac:(lia)). cbn [comp] in *. lra.
Qed.
(** A number put back into [c - r, c + r]. *)
Definition clamp (c r v : R) : R := Rmax (c - r) (Rmin (c + r) v).
Lemma clamp_in : forall c r v, 0 < r -> Rabs (c - clamp c r v) <= r.
Proof. intros c r v Hr. unfold clamp. apply Rabs_le. assert (c - r <= Rmax (c - r) (Rmin (c + r) v)) by apply Rmax_l. assert (Rmax (c - r) (Rmin (c + r) v) <= c + r) by (apply Rmax_lub; [lra|apply Rmin_l]). lra. Qed.
Lemma clamp_id : forall c r v, Rabs (c - v) <= r -> clamp c r v = v.
Proof. intros c r v H. apply Rabs_le_inv in H. unfold clamp. rewrite Rmin_right, Rmax_right; lra. Qed.
Lemma clamp_lip : forall c r u v, 0 < r -> Rabs (clamp c r u - clamp c r v) <= Rabs (u - v).
Proof.
  intros c r s t Hr. unfold clamp, Rmin. destruct (Rle_dec (c + r) s) as [A|A]; destruct (Rle_dec (c + r) t) as [A'|A']; try apply Rnot_le_lt in A; try apply Rnot_le_lt in A'; unfold Rmax;
    repeat (match goal with |- context [Rle_dec ?a ?b] => let N := fresh in destruct (Rle_dec a b) as [N|N]; [|apply Rnot_le_lt in N] end); unfold Rabs; repeat (match goal with |- context [Rcase_abs ?a] => destruct (Rcase_abs a) end); lra.
Qed.
Definition boxed (x : state) (r : R) (a : nat -> R) : state := st_of (fun i => clamp (comp x i) r (a i)).
Lemma boxed_comp : forall x r a i, (i < 7)%nat -> comp (boxed x r a) i = clamp (comp x i) r (a i).
Proof. intros x r a i Hi. destruct i as [|[|[|[|[|[|[|i]]]]]]]; try reflexivity. lia. Qed.
(** All solutions that start near a regular state last for a common time. *)
Lemma exist_near : forall V delta x, vh_user V = false -> 0 < RP (vh_planet V) -> lipschitz_air (vh_planet V) (vh_atm V) -> regular (vh_planet V) x ->
  exists rho h, 0 < rho /\ 0 < h /\ forall x0, dist x x0 <= rho -> exists z, z 0 = x0 /\ forall t, Rabs t < h -> moving_by z t (field V delta (z t)) /\ regular (vh_planet V) (z t).
Proof.
  intros V delta x Hu HR HL Reg. destruct (regular_open _ _ Reg) as (e1 & He1 & RO). destruct Reg as (HI & Hr & Hv & Hc & Hg).
  destruct (field_near V delta x HR HL HI Hr Hv Hc Hg) as (e2 & L & He2 & HL0 & HN).
  set (e := Rmin e1 e2). assert (He : 0 < e) by (apply Rmin_glb_lt; auto). pose proof (Rmin_l e1 e2 : e <= e1) as Le1. pose proof (Rmin_r e1 e2 : e <= e2) as Le2.
  set (r := e / 8). assert (Hr8 : 0 < r) by (unfold r; lra). set (G := fun a i => comp (field V delta (boxed x r a)) i).
  assert (BX : forall a, dist x (boxed x r a) < e).
  { intros a. eapply Rle_lt_trans; [apply (dist_comp _ _ r)|unfold r; lra]. intros i Hi. rewrite boxed_comp by auto. apply clamp_in; auto. }
  assert (FL : forall a b, dist x a < e -> dist x b < e -> dist (field V delta a) (field V delta b) <= L * dist a b).
  { intros a b Ha Hb. specialize (HN a b ltac:(lra) ltac:(lra)). unfold dist at 1, field. cbn [s_r s_theta s_phi s_v s_psi s_gamma s_drange]. lra. }
  set (z0 := mkState 0 0 0 0 0 0 0). set (B := dist (field V delta x) z0 + L * e). assert (HB : 0 <= B) by (unfold B; pose proof (dist_pos (field V delta x) z0); nra).
  assert (LIP : forall a b K, (forall i, (i < 7)%nat -> Rabs (a i - b i) <= K) -> forall i, (i < 7)%nat -> Rabs (G a i - G b i) <= (7 * L) * K).
  { intros a b K HK i Hi. unfold G. eapply Rle_trans; [apply comp_dist|]. eapply Rle_trans; [apply FL; apply BX|].
    assert (dist (boxed x r a) (boxed x r b) <= 7 * K). { apply dist_comp. intros j Hj. rewrite !boxed_comp by auto. eapply Rle_trans; [apply clamp_lip; auto|]. auto. }
    apply (Rmult_le_compat_l L) in H; auto. lra. }
  assert (BDD : forall a i, (i < 7)%nat -> Rabs (G a i) <= B).
  { intros a i Hi. unfold G. replace (comp (field V delta (boxed x r a)) i) with (comp (field V delta (boxed x r a)) i - comp z0 i) by (destruct i as [|[|[|[|[|[|i]]]]]]; cbn [comp z0 s_r s_theta s_phi s_v s_psi s_gamma s_drange]; ring).
    eapply Rle_trans; [apply comp_dist|]. eapply Rle_trans; [apply (dist_tri _ (field V delta x))|]. unfold B. rewrite dist_sym.
    assert (dist (field V delta x) (field V delta (boxed x r a)) <= L * e). { eapply Rle_trans; [apply FL; [rewrite dist_self; lra|apply BX]|]. apply Rmult_le_compat_l; auto. left. apply BX. } lra. }
  set (h1 := 1 / (14 * L + 1)). set (h2 := r / (2 * (B + 1))). assert (Hh1 : 0 < h1) by (apply Rdiv_lt_0_compat; lra). assert (Hh2 : 0 < h2) by (apply Rdiv_lt_0_compat; lra).
  set (h := Rmin h1 h2). assert (Hh : 0 < h) by (apply Rmin_glb_lt; auto). pose proof (Rmin_l h1 h2 : h <= h1) as Lh1. pose proof (Rmin_r h1 h2 : h <= h2) as Lh2.
  assert (HLh : 7 * L * h <= 1 / 2). { assert (E : (14 * L + 1) * h1 = 1) by (unfold h1; field; lra). nra. }
  assert (HBh : B * h <= r / 2). { assert (E : (B + 1) * h2 = r / 2) by (unfold h2; field; lra). nra. }
  exists (r / 2), h. split; [lra|]. split; auto. intros x0 Hx0.
  destruct (Picard.picard 7 G (7 * L) B h (comp x0) ltac:(lra) HB Hh HLh LIP BDD) as (y & Y0 & YD).
  assert (YB : forall t i, (i < 7)%nat -> Rabs t < h -> Rabs (y t i - comp x0 i) <= r / 2).
  { intros t i Hi Ht. destruct (Req_dec t 0) as [->|N]; [rewrite Y0, Rminus_diag_eq, Rabs_R0 by auto; lra|].
    assert (MV : exists c, y t i - y 0 i = G (y c) i * (t - 0)).
    { destruct (Rlt_or_le 0 t) as [P|P].
      - destruct (MVT_cor2 (fun s => y s i) (fun c => G (y c) i) 0 t P) as (c & Ec & _); [intros c Hcc; apply YD; auto; rewrite Rabs_right by lra; rewrite Rabs_right in Ht; lra|]. exists c. exact Ec.
      - destruct (MVT_cor2 (fun s => y s i) (fun c => G (y c) i) t 0 ltac:(lra)) as (c & Ec & _); [intros c Hcc; apply YD; auto; rewrite Rabs_left1 by lra; rewrite Rabs_left1 in Ht; lra|]. exists c. lra. }
    destruct MV as (c & Ec). rewrite <- (Y0 i Hi), Ec, Rminus_0_r, Rabs_mult. pose proof (BDD (y c) i Hi). pose proof (Rabs_pos t). pose proof (Rabs_pos (G (y c) i)). nra. }
  assert (YX : forall t i, (i < 7)%nat -> Rabs t < h -> Rabs (comp x i - y t i) <= r).
  { intros t i Hi Ht. specialize (YB t i Hi Ht). pose proof (comp_dist x x0 i). replace (comp x i - y t i) with ((comp x i - comp x0 i) - (y t i - comp x0 i)) by ring.
    eapply Rle_trans; [apply Rabs_triang|]. rewrite Rabs_Ropp. lra. }
  exists (fun t => st_of (y t)). split.
  - destruct x0 as [x1 x2 x3 x4 x5 x6 x7]. unfold st_of. rewrite !Y0 by lia. reflexivity.
  - intros t Ht. assert (EB : boxed x r (y t) = st_of (y t)) by (unfold boxed, st_of; rewrite !clamp_id by (apply YX; auto; lia); reflexivity). split.
    + pose proof (fun i Hi => YD t i Hi Ht) as D. unfold G in D. rewrite EB in D.
      pose proof (D 0%nat ltac:(lia)). pose proof (D 1%nat ltac:(lia)). pose proof (D 2%nat ltac:(lia)). pose proof (D 3%nat ltac:(lia)). pose proof (D 4%nat ltac:(lia)). pose proof (D 5%nat ltac:(lia)). pose proof (D 6%nat ltac:(lia)).
      repeat split; assumption.
    + apply RO. rewrite <- EB. specialize (BX (y t)). lra.
Qed.
(** A solution that lasts a little longer than [T] in both directions. *)
Definition flow (V : vehicle) (delta : R) (x0 : state) (T : R) (y : R -> state) : Prop :=
  y 0 = x0 /\ exists w, 0 < w /\ forall t, - w < t < T + w -> moving_by y t (field V delta (y t)) /\ regular (vh_planet V) (y t).
Lemma moving_continuous : forall y t d, moving_by y t d -> continuous_at y t.
Proof. intros y t d (D1 & D2 & D3 & D4 & D5 & D6 & D7). repeat split; apply derivable_continuous_pt; eexists; eassumption. Qed.
Lemma flow_solves : forall V delta x0 T y, vh_user V = false -> flow V delta x0 T y -> solves (fun x => EOM V x delta) y T /\ forall t, 0 <= t <= T -> in_air (vh_planet V) (y t).
Proof.
  intros V delta x0 T y Hu (_ & w & Hw & H). split.
  - exists nil. intros t Ht. destruct (H t ltac:(lra)) as (M & Rg). split; [apply (moving_continuous _ _ _ M)|]. exists (field V delta (y t)). split; [apply field_there; auto|auto].
  - intros t Ht. apply (H t ltac:(lra)).
Qed.
Lemma flow_upto : forall V delta x0 T T' y, flow V delta x0 T y -> T' <= T -> flow V delta x0 T' y.
Proof. intros V delta x0 T T' y (E & w & Hw & H) L. split; auto. exists w. split; auto. intros t Ht. apply H. lra. Qed.
(** Gluing. *)
Definition joined {A : Type} (f g : R -> A) (s t : R) : A := if Rle_dec t s then f t else g (t - s).
Lemma joined_deriv : forall f g s t l, f s = g 0 -> (t <= s -> derivable_pt_lim f t l) -> (s <= t -> derivable_pt_lim g (t - s) l) -> derivable_pt_lim (joined f g s) t l.
Proof.
  intros f g s t l E Hf Hg e He. destruct (Rtotal_order t s) as [L|[->|L]].
  - destruct (Hf ltac:(lra) e He) as ((d & Hd) & D). cbn in D. assert (Hm : 0 < Rmin d (s - t)) by (apply Rmin_glb_lt; lra). exists (mkposreal _ Hm). intros h Nh Hh. cbn in Hh.
    pose proof (Rmin_l d (s - t)). pose proof (Rmin_r d (s - t)). pose proof (Rle_abs h). unfold joined. destruct (Rle_dec (t + h) s); [|lra]. destruct (Rle_dec t s); [|lra]. apply D; auto. lra.
  - destruct (Hf ltac:(lra) e He) as ((d & Hd) & D). destruct (Hg ltac:(lra) e He) as ((d' & Hd') & D'). cbn in D, D'. rewrite Rminus_diag_eq in D' by auto.
    assert (Hm : 0 < Rmin d d') by (apply Rmin_glb_lt; lra). exists (mkposreal _ Hm). intros h Nh Hh. cbn in Hh.
    pose proof (Rmin_l d d'). pose proof (Rmin_r d d'). unfold joined. destruct (Rle_dec s s); [|lra]. destruct (Rle_dec (s + h) s).
    + apply D; auto. lra.
    + rewrite E. replace (s + h - s) with (0 + h) by ring. apply D'; auto. lra.
  - destruct (Hg ltac:(lra) e He) as ((d & Hd) & D). cbn in D. assert (Hm : 0 < Rmin d (t - s)) by (apply Rmin_glb_lt; lra). exists (mkposreal _ Hm). intros h Nh Hh. cbn in Hh.
    pose proof (Rmin_l d (t - s)). pose proof (Rmin_r d (t - s)). pose proof (Rabs_pos h). assert (- h < t - s) by (eapply Rle_lt_trans; [apply Rle_abs|rewrite Rabs_Ropp; lra]). unfold joined. destruct (Rle_dec (t + h) s); [lra|]. destruct (Rle_dec t s); [lra|].
    replace (t + h - s) with (t - s + h) by ring. apply D; auto. lra.
Qed.
Lemma joined_proj : forall (f : state -> R) y z s t, joined (fun u => f (y u)) (fun u => f (z u)) s t = f (joined y z s t).
Proof. intros. unfold joined. destruct (Rle_dec t s); reflexivity. Qed.
Lemma dl_ext : forall f g t l, (forall u, f u = g u) -> derivable_pt_lim f t l -> derivable_pt_lim g t l.
Proof. intros f g t l E D e He. destruct (D e He) as (d & Hd). exists d. intros h N Hh. rewrite <- !E. auto. Qed.
Lemma joined_moving : forall y z s t d, y s = z 0 -> (t <= s -> moving_by y t d) -> (s <= t -> moving_by z (t - s) d) -> moving_by (joined y z s) t d.
Proof.
  intros y z s t d E Hy Hz.
  assert (Q : forall f l, (t <= s -> derivable_pt_lim (fun u => f (y u)) t l) -> (s <= t -> derivable_pt_lim (fun u => f (z u)) (t - s) l) -> derivable_pt_lim (fun u => f (joined y z s u)) t l).
  { intros f l A B. apply (dl_ext (joined (fun u => f (y u)) (fun u => f (z u)) s)); [intros u; apply joined_proj|]. apply joined_deriv; auto. rewrite E. reflexivity. }
  unfold moving_by in *. do 6 (split; [apply Q; intros L; specialize (Hy L) || specialize (Hz L); tauto|]). apply Q; intros L; specialize (Hy L) || specialize (Hz L); tauto.
Qed.
Lemma flow_join : forall V delta x0 s y z h k, flow V delta x0 s y -> 0 <= s -> z 0 = y s -> (forall t, Rabs t < h -> moving_by z t (field V delta (z t)) /\ regular (vh_planet V) (z t)) -> 0 <= k < h ->
  flow V delta x0 (s + k) (joined y z s).
Proof.
  intros V delta x0 s y z h k (E0 & w & Hw & H) Hs Ez Hz Hk. split; [unfold joined; destruct (Rle_dec 0 s); [auto|lra]|].
  set (w' := Rmin w (h - k)). assert (0 < w') by (apply Rmin_glb_lt; lra). pose proof (Rmin_l w (h - k) : w' <= w). pose proof (Rmin_r w (h - k) : w' <= h - k).
  exists w'. split; auto. intros t Ht. split.
  - apply joined_moving; auto.
    + intros L. unfold joined. destruct (Rle_dec t s); [|lra]. apply H. lra.
    + intros L. unfold joined. destruct (Rle_dec t s) as [L'|_].
      * replace t with s by lra. rewrite Rminus_diag_eq, <- Ez by auto. apply Hz. rewrite Rabs_R0. lra.
      * apply Hz. rewrite Rabs_right; lra.
  - unfold joined. destruct (Rle_dec t s); [apply H; lra|apply Hz; rewrite Rabs_right; lra].
Qed.
(** Bounded right hand side. *)
Definition bd (P : state -> Prop) (F : state -> R) : Prop := exists C, forall x, P x -> Rabs (F x) <= C.
Lemma bd_const : forall P c, bd P (fun _ => c).
Proof. intros P c. exists (Rabs c). intros; lra. Qed.
Lemma bd_plus : forall P F G, bd P F -> bd P G -> bd P (fun x => F x + G x).
Proof. intros P F G (C & H) (D & K). exists (C + D). intros x Hx. eapply Rle_trans; [apply Rabs_triang|]. specialize (H x Hx). specialize (K x Hx). lra. Qed.
Lemma bd_opp : forall P F, bd P F -> bd P (fun x => - F x).
Proof. intros P F (C & H). exists C. intros x Hx. rewrite Rabs_Ropp. auto. Qed.
Lemma bd_minus : forall P F G, bd P F -> bd P G -> bd P (fun x => F x - G x).
Proof. intros. apply (bd_plus P F (fun x => - G x)); auto using bd_opp. Qed.
Lemma bd_mult : forall P F G, bd P F -> bd P G -> bd P (fun x => F x * G x).
Proof.
  intros P F G (C & H) (D & K). exists (C * D). intros x Hx. rewrite Rabs_mult. apply Rmult_le_compat; auto using Rabs_pos.
Qed.
Lemma bd_pow : forall P n F, bd P F -> bd P (fun x => F x ^ n).
Proof. intros P n F H. induction n; [exact (bd_const P 1)|]. apply (bd_mult P F (fun x => F x ^ n)); auto. Qed.
Lemma bd_sin : forall P F, bd P (fun x => sin (F x)).
Proof. intros P F. exists 1. intros x _. apply Rabs_le. pose proof (SIN_bound (F x)). lra. Qed.
Lemma bd_cos : forall P F, bd P (fun x => cos (F x)).
Proof. intros P F. exists 1. intros x _. apply Rabs_le. pose proof (COS_bound (F x)). lra. Qed.
Lemma bd_inv : forall (P : state -> Prop) F m, 0 < m -> (forall x, P x -> m <= Rabs (F x)) -> bd P (fun x => / F x).
Proof. intros P F m Hm H. exists (/ m). intros x Hx. rewrite Rabs_inv. apply Rinv_le_contravar; auto. Qed.
Lemma bd_invmult : forall P F G, bd P (fun x => / F x) -> bd P (fun x => / G x) -> bd P (fun x => / (F x * G x)).
Proof. intros P F G HF HG. destruct (bd_mult P _ _ HF HG) as (C & H). exists C. intros x Hx. rewrite Rinv_mult. auto. Qed.
Lemma bd_invpow : forall P n F, bd P (fun x => / F x) -> bd P (fun x => / F x ^ n).
Proof. intros P n F HF. destruct (bd_pow P n _ HF) as (C & H). exists C. intros x Hx. rewrite <- pow_inv. auto. Qed.
Ltac bdd := repeat match goal with
  | H : bd ?P ?F |- bd ?P ?F => exact H
  | H : bd ?P ?F |- bd ?P (fun a => ?F a) => exact H
  | |- bd _ (fun a => ?c) => apply (bd_const _ c)
  | |- bd _ (fun a => sin (@?F a)) => apply (bd_sin _ F)
  | |- bd _ (fun a => cos (@?F a)) => apply (bd_cos _ F)
  | |- bd _ (fun a => @?F a + @?G a) => apply (bd_plus _ F G)
  | |- bd _ (fun a => @?F a - @?G a) => apply (bd_minus _ F G)
  | |- bd _ (fun a => @?F a * @?G a) => apply (bd_mult _ F G)
  | |- bd _ (fun a => @?F a / @?G a) => apply (bd_mult _ F (fun a => / G a))
  | |- bd _ (fun a => / (@?F a * @?G a)) => apply (bd_invmult _ F G)
  | |- bd _ (fun a => / (@?F a ^ ?n)) => apply (bd_invpow _ n F)
  | |- bd _ (fun a => (@?F a) ^ ?n) => apply (bd_pow _ n F)
  end.
Definition roomy (m w : R) (p : planet) (x : state) : Prop := well_clear m p x /\ no_faster w p x.
Lemma roomy_weak : forall m p x, 0 < m -> 0 < RP p -> m <= RP p * s_r x - RP p <= h_thres p - m -> m <= Rabs (Vref p * s_v x) -> m <= Rabs (cos (s_phi x)) -> m <= Rabs (cos (s_gamma x) + 0.01) -> regular p x.
Proof.
  intros m p x Hm HR H1 H2 H3 H4. split; [split; lra|]. repeat split.
  - intros Z. rewrite Z in H1. lra.
  - intros Z. rewrite Z, Rmult_0_r, Rabs_R0 in H2. lra.
  - intros Z. rewrite Z, Rabs_R0 in H3. lra.
  - intros Z. replace (cos (s_gamma x) + 0.01) with 0 in H4 by lra. rewrite Rabs_R0 in H4. lra.
Qed.
Lemma field_bounded : forall V delta m w, 0 < m -> 0 < RP (vh_planet V) -> 0 < Vref (vh_planet V) -> lipschitz_air (vh_planet V) (vh_atm V) ->
  exists C, 0 <= C /\ forall x, roomy m w (vh_planet V) x -> forall i, Rabs (comp (field V delta x) i) <= C.
Proof.
  intros V delta m w Hm HR HV (L & HL). set (p := vh_planet V) in *. set (P := roomy m w p).
  assert (Br : bd P s_r).
  { exists ((RP p + h_thres p) / RP p). intros x (((A1 & A2) & _) & _). assert (E : RP p * ((RP p + h_thres p) / RP p) = RP p + h_thres p) by (field; lra). rewrite Rabs_right; nra. }
  assert (Bir : bd P (fun x => / s_r x)).
  { apply (bd_inv P s_r 1); [lra|]. intros x (((A1 & A2) & _) & _). rewrite Rabs_right; nra. }
  assert (Bv : bd P s_v).
  { exists (w / Vref p). intros x (_ & A). unfold no_faster in A. rewrite Rabs_mult, (Rabs_right (Vref p)) in A by lra. assert (E : Vref p * (w / Vref p) = w) by (field; lra). nra. }
  assert (Biv : bd P (fun x => / s_v x)).
  { apply (bd_inv P s_v (m / Vref p)); [apply Rdiv_lt_0_compat; lra|]. intros x ((_ & A & _) & _). rewrite Rabs_mult, (Rabs_right (Vref p)) in A by lra. assert (E : Vref p * (m / Vref p) = m) by (field; lra). nra. }
  assert (Bic : bd P (fun x => / cos (s_phi x))).
  { apply (bd_inv P (fun x => cos (s_phi x)) m Hm). intros x ((_ & _ & A & _) & _). lra. }
  assert (Big : bd P (fun x => / (cos (s_gamma x) + 1e-2))).
  { apply (bd_inv P (fun x => cos (s_gamma x) + 1e-2) m Hm). intros x ((_ & _ & _ & A) & _). replace (cos (s_gamma x) + 1e-2) with (cos (s_gamma x) + 0.01) by lra. lra. }
  assert (Ba : bd P (air_at V)).
  { unfold air_at. fold p. apply (bd_mult P (fun x => density p (density_int (vh_atm V)) (s_r x * RP p - RP p)) (fun _ => / rho0 p)); [|apply bd_const].
    exists (Rabs (density_int (vh_atm V) 0) + Rabs L * h_thres p). intros x (((A1 & A2) & _) & _).
    assert (I : 0 <= s_r x * RP p - RP p <= h_thres p) by lra. unfold density. destruct (Rleb_spec 0 (s_r x * RP p - RP p)); [|lra]. destruct (Rleb_spec (s_r x * RP p - RP p) (h_thres p)); [|lra]. cbn [andb].
    specialize (HL _ 0 I ltac:(lra)). fold p in HL. rewrite Rminus_0_r in HL. set (u := s_r x * RP p - RP p) in *. rewrite (Rabs_right u) in HL by lra.
    replace (density_int (vh_atm V) u) with (density_int (vh_atm V) 0 + (density_int (vh_atm V) u - density_int (vh_atm V) 0)) by ring. eapply Rle_trans; [apply Rabs_triang|]. apply Rplus_le_compat_l.
    eapply Rle_trans; [exact HL|]. pose proof (Rle_abs L). pose proof (Rabs_pos L). nra. }
  assert (Bs : bd P (fas V)) by (unfold fas; bdd). assert (Bn : bd P (fan V delta)) by (unfold fan; bdd). assert (Bw : bd P (faw V delta)) by (unfold faw; bdd).
  assert (Bgr : bd P (fgr V)) by (unfold fgr, gr_of; bdd). assert (Bgp : bd P (fgp V)) by (unfold fgp, gp_of; bdd).
  assert (B1 : bd P f1) by (unfold f1; bdd). assert (B2 : bd P f2) by (unfold f2; bdd). assert (B3 : bd P f3) by (unfold f3; bdd). assert (B4 : bd P (f4 V)) by (unfold f4; bdd).
  assert (B5 : bd P (f5 V delta)) by (unfold f5; bdd). assert (B6 : bd P (f6 V delta)) by (unfold f6; bdd). assert (B7 : bd P f7) by (unfold f7; bdd).
  destruct B1 as (C1 & B1), B2 as (C2 & B2), B3 as (C3 & B3), B4 as (C4 & B4), B5 as (C5 & B5), B6 as (C6 & B6), B7 as (C7 & B7).
  exists (Rabs C1 + Rabs C2 + Rabs C3 + Rabs C4 + Rabs C5 + Rabs C6 + Rabs C7).
  pose proof (Rabs_pos C1). pose proof (Rabs_pos C2). pose proof (Rabs_pos C3). pose proof (Rabs_pos C4). pose proof (Rabs_pos C5). pose proof (Rabs_pos C6). pose proof (Rabs_pos C7).
  pose proof (Rle_abs C1). pose proof (Rle_abs C2). pose proof (Rle_abs C3). pose proof (Rle_abs C4). pose proof (Rle_abs C5). pose proof (Rle_abs C6). pose proof (Rle_abs C7).
  split; [lra|]. intros x Hx i. specialize (B1 x Hx). specialize (B2 x Hx). specialize (B3 x Hx). specialize (B4 x Hx). specialize (B5 x Hx). specialize (B6 x Hx). specialize (B7 x Hx).
  destruct i as [|[|[|[|[|[|i]]]]]]; cbn [comp field s_r s_theta s_phi s_v s_psi s_gamma s_drange]; lra.
Qed.
(** Two flows from the same start agree. *)
Lemma flow_same : forall V delta x0 y z T T', vh_user V = false -> 0 < RP (vh_planet V) -> lipschitz_air (vh_planet V) (vh_atm V) -> flow V delta x0 T y -> flow V delta x0 T' z ->
  forall t, 0 <= t <= T -> t <= T' -> y t = z t.
Proof.
  intros V delta x0 y z T T' Hu HR HL Fy Fz t Ht Ht'.
  destruct (flow_solves _ _ _ _ _ Hu (flow_upto _ _ _ _ t _ Fy ltac:(lra))) as (Sy & Iy). destruct (flow_solves _ _ _ _ _ Hu (flow_upto _ _ _ _ t _ Fz ltac:(lra))) as (Sz & _).
  apply (unique V delta y z t); auto; [|lra]. destruct Fy as (-> & _), Fz as (-> & _). reflexivity.
Qed.
(** Along a flow inside a region where the right hand side is bounded nothing changes faster than the bound. *)
Lemma flow_slow : forall V delta x0 T y C, flow V delta x0 T y -> 0 <= C -> (forall t, 0 <= t <= T -> forall i, Rabs (comp (field V delta (y t)) i) <= C) ->
  forall a b, 0 <= a <= b -> b <= T -> forall i, Rabs (comp (y b) i - comp (y a) i) <= C * (b - a).
Proof.
  intros V delta x0 T y C (_ & w & Hw & H) HC HB a b Hab HbT i. destruct (Req_dec a b) as [<-|N]; [rewrite !Rminus_diag_eq, Rabs_R0 by auto; lra|].
  assert (D : forall t, 0 <= t <= T -> derivable_pt_lim (fun u => comp (y u) i) t (comp (field V delta (y t)) i)).
  { intros t Ht. destruct (H t ltac:(lra)) as ((D1 & D2 & D3 & D4 & D5 & D6 & D7) & _). destruct i as [|[|[|[|[|[|i]]]]]]; cbn [comp]; assumption. }
  destruct (MVT_cor2 (fun u => comp (y u) i) (fun t => comp (field V delta (y t)) i) a b ltac:(lra)) as (c & Ec & Hc); [intros c Hc; apply D; lra|].
  cbv beta in Ec. rewrite Ec, Rabs_mult, (Rabs_right (b - a)) by lra. apply Rmult_le_compat_r; [lra|]. apply HB. lra.
Qed.
Lemma ll_closed : forall F x, loclip F x -> (forall e, 0 < e -> exists a, dist x a < e /\ 0 <= F a) -> 0 <= F x.
Proof.
  intros F x H A. destruct (Rle_or_lt 0 (F x)) as [|N]; auto. exfalso. destruct (ll_pos (fun a => 0 - F a) x) as (e & He & P); [apply (ll_minus (fun _ => 0) F); auto; apply ll_const|lra|].
  destruct (A e He) as (a & Ha & Q). specialize (P a Ha). cbv beta in P. lra.
Qed.
(** The solution continues until it leaves the region. *)
Lemma continue : forall V delta m w x0 Tmax, vh_user V = false -> 0 < RP (vh_planet V) -> 0 < Vref (vh_planet V) -> lipschitz_air (vh_planet V) (vh_atm V) -> 0 < m -> 0 <= Tmax -> well_clear m (vh_planet V) x0 ->
  exists T y, 0 <= T <= Tmax /\ flow V delta x0 T y /\ (T = Tmax \/ ~ roomy m w (vh_planet V) (y T)).
Proof.
  intros V delta m w x0 Tmax Hu HR HV HL Hm HT W0. set (p := vh_planet V) in *.
  assert (R0 : regular p x0) by (destruct W0 as (A1 & A2 & A3 & A4); apply (roomy_weak m); auto; lra).
  destruct (classic (no_faster w p x0)) as [N0|N0].
  2:{ destruct (exist_near V delta x0 Hu HR HL R0) as (rho & h & Hrho & Hh & EX). destruct (EX x0 ltac:(rewrite dist_self; lra)) as (z & Ez & Hz). exists 0, z. split; [lra|]. split.
      - split; auto. exists h. split; auto. intros t Ht. apply Hz. apply Rabs_def1; lra.
      - right. rewrite Ez. intros (_ & Q). auto. }
  set (E := fun s => 0 <= s <= Tmax /\ exists y, flow V delta x0 s y /\ forall t, 0 <= t <= s -> roomy m w p (y t)).
  assert (E0 : E 0).
  { split; [lra|]. destruct (exist_near V delta x0 Hu HR HL R0) as (rho & h & Hrho & Hh & EX). destruct (EX x0 ltac:(rewrite dist_self; lra)) as (z & Ez & Hz). exists z. split.
    - split; auto. exists h. split; auto. intros t Ht. apply Hz. apply Rabs_def1; lra.
    - intros t Ht. replace t with 0 by lra. rewrite Ez. split; auto. }
  destruct (completeness E) as (M & UM & LM); [exists Tmax; intros s (Hs & _); lra|exists 0; auto|].
  assert (HM : 0 <= M <= Tmax) by (split; [apply UM; auto|apply LM; intros s (Hs & _); lra]).
  assert (close : forall e, 0 < e -> exists s, E s /\ M - e < s <= M).
  { intros e He. apply NNPP. intros N. assert (M <= M - e); [|lra]. apply LM. intros s Hs. destruct (Rle_or_lt s (M - e)); auto. exfalso. apply N. exists s. split; [exact Hs|split; [lra|apply UM; exact Hs]]. }
  destruct (field_bounded V delta m w Hm HR HV HL) as (C & HC & HB). fold p in HB.
  assert (slow : forall s y s' y', 0 <= s <= s' -> flow V delta x0 s y -> flow V delta x0 s' y' -> (forall t, 0 <= t <= s' -> roomy m w p (y' t)) -> forall i, Rabs (comp (y' s') i - comp (y s) i) <= C * (s' - s)).
  { intros s y s' y' Hs Fy Fy' Ry i. rewrite (flow_same V delta x0 y y' s s' Hu HR HL Fy Fy' s ltac:(lra) ltac:(lra)). apply (flow_slow V delta x0 s' y' C Fy' HC); try lra. intros t Ht j. apply HB. auto. }
  assert (LIM : exists xs : nat -> R, forall i s y, 0 <= s <= M -> E s -> flow V delta x0 s y -> (forall t, 0 <= t <= s -> roomy m w p (y t)) -> Rabs (xs i - comp (y s) i) <= C * (M - s)).
  { assert (ONE : forall i, { v : R | forall s y, 0 <= s <= M -> E s -> flow V delta x0 s y -> (forall t, 0 <= t <= s -> roomy m w p (y t)) -> Rabs (v - comp (y s) i) <= C * (M - s) }).
    { intros i. set (Q := fun v => exists s y, E s /\ flow V delta x0 s y /\ (forall t, 0 <= t <= s -> roomy m w p (y t)) /\ v = comp (y s) i - C * (M - s)).
      assert (UB : forall s y, E s -> flow V delta x0 s y -> (forall t, 0 <= t <= s -> roomy m w p (y t)) -> is_upper_bound Q (comp (y s) i + C * (M - s))).
      { intros s y Es Fy Ry v (s' & y' & Es' & Fy' & Ry' & ->). pose proof (UM s Es). pose proof (UM s' Es'). pose proof (proj1 Es). pose proof (proj1 Es').
        destruct (Rle_or_lt s s') as [L|L].
        - pose proof (slow s y s' y' ltac:(lra) Fy Fy' Ry' i) as B. apply Rabs_le_inv in B. assert (0 <= C * (M - s')) by (apply Rmult_le_pos; lra). lra.
        - pose proof (slow s' y' s y ltac:(lra) Fy' Fy Ry i) as B. apply Rabs_le_inv in B. assert (0 <= C * (M - s)) by (apply Rmult_le_pos; lra). lra. }
      destruct (completeness Q) as (v & Uv & Lv).
      { destruct E0 as (H0 & y & Fy & Ry). exists (comp (y 0) i + C * (M - 0)). apply UB; auto. split; auto. exists y. auto. }
      { destruct E0 as (H0 & y & Fy & Ry). exists (comp (y 0) i - C * (M - 0)). exists 0, y. split; [split; [exact H0|exists y; auto]|auto]. }
      exists v. intros s y Hs Es Fy Ry. apply Rabs_le. assert (comp (y s) i - C * (M - s) <= v) by (apply Uv; exists s, y; auto). pose proof (Lv _ (UB s y Es Fy Ry)). lra. }
    exists (fun i => proj1_sig (ONE i)). intros i. exact (proj2_sig (ONE i)). }
  destruct LIM as (xs & LIM). set (x := st_of xs).
  assert (near_x : forall e, 0 < e -> exists s y, E s /\ M - e < s <= M /\ flow V delta x0 s y /\ (forall t, 0 <= t <= s -> roomy m w p (y t)) /\ dist x (y s) < e).
  { intros e He. set (e' := Rmin e (e / (7 * (C + 1)))). assert (P1 : 0 < e / (7 * (C + 1))) by (apply Rdiv_lt_0_compat; lra). assert (He' : 0 < e') by (apply Rmin_glb_lt; auto).
    pose proof (Rmin_l e (e / (7 * (C + 1))) : e' <= e). pose proof (Rmin_r e (e / (7 * (C + 1))) : e' <= e / (7 * (C + 1))). destruct (close e' He') as (s & Es & Hs). pose proof Es as (Bs & y & Fy & Ry).
    exists s, y. split; auto. split; [lra|]. split; auto. split; auto. eapply Rle_lt_trans; [apply (dist_comp _ _ (C * (M - s)))|].
    - intros i Hi. assert (Ex : comp x i = xs i) by (destruct i as [|[|[|[|[|[|[|i]]]]]]]; [reflexivity..|lia]). rewrite Ex. apply (LIM i s y); auto. lra.
    - assert (Q : 7 * (C + 1) * (e / (7 * (C + 1))) = e) by (field; lra). nra. }
  assert (Rx : regular p x).
  { assert (K : forall F, loclip F x -> (forall a, roomy m w p a -> 0 <= F a) -> 0 <= F x).
    { intros F HF HP. apply (ll_closed F x HF). intros e He. destruct (near_x e He) as (s & y & Es & Hs & Fy & Ry & D). exists (y s). split; auto. apply HP, Ry. destruct Es as (? & _). lra. }
    pose proof (K (fun a => RP p * s_r a - RP p - m) ltac:(ll) ltac:(intros a ((A & _) & _); lra)) as K1.
    pose proof (K (fun a => h_thres p - m - (RP p * s_r a - RP p)) ltac:(ll) ltac:(intros a ((A & _) & _); lra)) as K2.
    assert (K3 : 0 <= Rabs (Vref p * s_v x) - m).
    { apply (K (fun a => Rabs (Vref p * s_v a) - m)); [|intros a ((_ & A & _) & _); lra]. apply (ll_minus (fun a => Rabs (Vref p * s_v a)) (fun _ => m)); [apply (ll_abs (fun a => Vref p * s_v a)); ll|ll]. }
    assert (K4 : 0 <= Rabs (cos (s_phi x)) - m).
    { apply (K (fun a => Rabs (cos (s_phi a)) - m)); [|intros a ((_ & _ & A & _) & _); lra]. apply (ll_minus (fun a => Rabs (cos (s_phi a))) (fun _ => m)); [apply (ll_abs (fun a => cos (s_phi a))); ll|ll]. }
    assert (K5 : 0 <= Rabs (cos (s_gamma x) + 0.01) - m).
    { apply (K (fun a => Rabs (cos (s_gamma a) + 0.01) - m)); [|intros a ((_ & _ & _ & A) & _); lra]. apply (ll_minus (fun a => Rabs (cos (s_gamma a) + 0.01)) (fun _ => m)); [apply (ll_abs (fun a => cos (s_gamma a) + 0.01)); ll|ll]. }
    cbv beta in *. apply (roomy_weak m); auto; lra. }
  destruct (exist_near V delta x Hu HR HL Rx) as (rho & h & Hrho & Hh & EX).
  assert (He : 0 < Rmin rho (h / 2)) by (apply Rmin_glb_lt; lra). pose proof (Rmin_l rho (h / 2)). pose proof (Rmin_r rho (h / 2)).
  destruct (near_x _ He) as (s & y & Es & Hs & Fy & Ry & D). destruct (EX (y s) ltac:(lra)) as (z & Ez & Hz). pose proof (proj1 Es) as Hs0.
  set (T1 := Rmin Tmax (M + h / 4)). pose proof (Rmin_l Tmax (M + h / 4) : T1 <= Tmax). pose proof (Rmin_r Tmax (M + h / 4) : T1 <= M + h / 4).
  assert (M <= T1) by (apply Rmin_glb; lra).
  pose proof (flow_join V delta x0 s y z h (T1 - s) Fy ltac:(lra) Ez Hz ltac:(lra)) as FG. replace (s + (T1 - s)) with T1 in FG by ring. set (g := joined y z s) in *.
  destruct (classic (forall t, 0 <= t <= T1 -> roomy m w p (g t))) as [A|A].
  - assert (E1 : E T1) by (split; [lra|]; exists g; auto). pose proof (UM T1 E1). exists T1, g. split; [lra|]. split; auto. left. unfold T1, Rmin in *. destruct (Rle_dec Tmax (M + h / 4)); lra.
  - apply not_all_ex_not in A. destruct A as (t & A). apply imply_to_and in A. destruct A as (Ht & A). exists t, g. split; [lra|]. split; [apply (flow_upto _ _ _ T1); auto; lra|auto].
Qed.
(** With drag that brakes, the speed stays bounded inside the atmosphere. *)
Lemma speed_bounded : forall V delta y0, 0 < RP (vh_planet V) -> 0 < h_thres (vh_planet V) -> 0 < Vref (vh_planet V) -> braking V -> s_r y0 <> 0 ->
  0 < s_v y0 -> - (PI / 2) < s_phi y0 < PI / 2 -> - acos (-0.01) < s_gamma y0 < acos (-0.01) ->
  exists w, forall y T, y 0 = y0 -> solves (fun x => EOM V x delta) y T -> (forall t, 0 <= t <= T -> in_air (vh_planet V) (y t)) -> forall t, 0 <= t <= T -> no_faster w (vh_planet V) (y t).
Proof.
  intros V delta y0 HR Hth HV HB Hr Hv Hph Hg. set (p := vh_planet V) in *.
  assert (Br : bd (in_air p) s_r).
  { exists ((RP p + h_thres p) / RP p). intros x (A1 & A2). assert (E : RP p * ((RP p + h_thres p) / RP p) = RP p + h_thres p) by (field; lra). rewrite Rabs_right; nra. }
  assert (Bir : bd (in_air p) (fun x => / s_r x)).
  { apply (bd_inv _ s_r 1); [lra|]. intros x (A1 & A2). rewrite Rabs_right; nra. }
  assert (BJ : bd (in_air p) (fun x => zonal_potential (J2 p) (J3 p) (s_r x) (s_phi x) + OMEGAbar p ^ 2 * (s_r x * cos (s_phi x)) ^ 2 / 2)) by (unfold zonal_potential; bdd).
  destruct BJ as (C & BJ). set (K := 2 * (Rabs (jacobi_of p y0) + Rabs C) + 1). assert (HK : 1 <= K) by (unfold K; pose proof (Rabs_pos (jacobi_of p y0)); pose proof (Rabs_pos C); lra).
  exists (Vref p * K). intros y T E0 S I t Ht. unfold no_faster. rewrite <- E0 in Hv, Hph, Hg.
  pose proof (run_upright V delta y T S Hv Hph Hg) as U. pose proof (run_energy V delta y T 0 t S HB (fun u Hu => proj1 (U u Hu)) ltac:(lra) ltac:(lra)) as J. fold p in J. rewrite E0 in J.
  specialize (BJ (y t) (I t Ht)). destruct (U t Ht) as (Vt & _). rewrite Rabs_mult, (Rabs_right (Vref p)), (Rabs_right (s_v (y t))) by lra. apply Rmult_le_compat_l; [lra|].
  assert (Q : s_v (y t) ^ 2 <= K).
  { unfold K. pose proof (Rle_abs (jacobi_of p y0)). pose proof (Rle_abs C). apply Rabs_le_inv in BJ. unfold jacobi_of at 1, jacobi in J. lra. }
  destruct (Rle_or_lt (s_v (y t)) K); auto. exfalso. nra.
Qed.
