(** The heating laws are continuous between finitely many speeds, and so is the heating rate along a flight. *)
From Coq Require Import String List Reals Lra Lia Classical.
Require Import Verif.Base Verif.Numpy Verif.NumpyProofs Verif.TableSpec Verif.PlanetModel Verif.PlanetProofs Verif.AeroModel Verif.HeatModel Verif.PropHeat Verif.CorrelationSpec Verif.PropCorrelation Verif.TrajectoryModel
  Verif.TrajectorySpec Verif.TrajectoryProofs Verif.FlightProofs Verif.ExactSpec Verif.ExactProofs Verif.DetSpec Verif.HeatIntSpec Verif.Trapezoid.
Require Verif.PropPlanet.
Import ListNotations.
Local Open Scope R_scope.

(** Continuous in two positive quantities. *)
Definition cont2 (F : R -> R -> R) : Prop := forall f g t, continuity_pt f t -> continuity_pt g t -> 0 < f t -> 0 < g t -> continuity_pt (fun u => F (f u) (g u)) t.
Lemma cont_Rpower : forall f a t, continuity_pt f t -> 0 < f t -> continuity_pt (fun u => Rpower (f u) a) t.
Proof.
  intros f a t C P. unfold Rpower. apply (continuity_pt_comp (fun u => a * ln (f u)) exp); [|apply derivable_continuous_pt, derivable_pt_exp].
  apply (continuity_pt_scal (fun u => ln (f u)) a). apply (continuity_pt_comp f ln); auto. apply derivable_continuous_pt. exists (/ f t). apply derivable_pt_lim_ln. auto.
Qed.
Lemma cont2_value : forall c RN, 0 < co_refv c -> cont2 (fun rho v => value c RN rho v).
Proof.
  intros c RN Hc f g t Cf Cg Pf Pg. unfold value.
  apply (continuity_pt_mult (fun u => co_coeff c * Rpower (RN / co_refRN c) (co_RN c) * Rpower (f u) (co_rho c)) (fun u => Rpower (g u / co_refv c) (co_v c))).
  - apply (continuity_pt_scal (fun u => Rpower (f u) (co_rho c))). apply cont_Rpower; auto.
  - apply (cont_Rpower (fun u => g u / co_refv c)); [|apply Rdiv_lt_0_compat; auto]. unfold Rdiv.
    apply (continuity_pt_mult g (fun _ => / co_refv c)); auto. apply continuity_pt_const. intros a b. reflexivity.
Qed.
Lemma cont2_plus : forall F G, cont2 F -> cont2 G -> cont2 (fun a b => F a b + G a b).
Proof. intros F G CF CG f g t Cf Cg Pf Pg. apply (continuity_pt_plus (fun u => F (f u) (g u)) (fun u => G (f u) (g u))); [apply CF|apply CG]; auto. Qed.
Lemma cont2_zero : cont2 (fun _ _ => 0).
Proof. intros f g t _ _ _ _. apply continuity_pt_const. intros a b. reflexivity. Qed.

(** The velocity function of the Earth law from 9 km/s on. *)
Definition held (v : R) : R := Rmin 16000 (Rmax 9000 v).
Lemma held_in : forall v, 9000 <= held v <= 16000.
Proof. intros v. unfold held. pose proof (Rmax_l 9000 v). split; [apply Rmin_glb; lra|apply Rmin_l]. Qed.
Lemma held_lip : forall u v, Rabs (held u - held v) <= Rabs (u - v).
Proof.
  intros u v. unfold held, Rmax. destruct (Rle_dec 9000 u), (Rle_dec 9000 v); unfold Rmin; repeat (match goal with |- context [Rle_dec ?a ?b] => destruct (Rle_dec a b) end); apply Rabs_le; destruct (Rcase_abs (u - v)) as [X|X];
    first [rewrite Rabs_left by auto; lra|rewrite Rabs_right by auto; lra].
Qed.
Definition fast_fV (v : R) : R := match interp1d earth_fV 0 2040 (held v) with Ok f => f | Err _ => 0 end.
Lemma fV_nodup : NoDup (map fst earth_fV).
Proof. cbn. repeat constructor; cbn; intros Hi; repeat (destruct Hi as [Hi|Hi]; [lra|]); contradiction. Qed.
Lemma fV_inside : forall v, 9000 <= v <= 16000 -> inside earth_fV v.
Proof. intros v Hv. exists (9000, 1.5), (16000, 2040). cbn. split; [left; auto|]. split; [do 7 right; left; auto|lra]. Qed.
Lemma fast_fV_is : forall v y, 9000 <= v -> interp1d earth_fV 0 2040 v = Ok y -> y = fast_fV v.
Proof.
  intros v y Hv E. unfold fast_fV. destruct (Rle_dec v 16000) as [L|L].
  - replace (held v) with v by (unfold held; rewrite Rmax_right, Rmin_right; lra). rewrite E. reflexivity.
  - replace (held v) with 16000 by (unfold held; rewrite Rmax_right, Rmin_left; lra). destruct (earth_fV_cases v) as (f & Ef & _ & _ & _ & F). rewrite E in Ef. injection Ef as <-. rewrite F by lra.
    destruct (PropPlanet.C03_table_lookup earth_fV 0 2040 16000 fV_nodup ltac:(discriminate)) as (_ & _ & _ & H & _). rewrite (H 2040); auto. cbn. do 7 right. left. auto.
Qed.
Lemma fast_fV_lip : forall u v, Rabs (fast_fV u - fast_fV v) <= Rabs (u - v).
Proof.
  intros u v. unfold fast_fV. pose proof (fV_inside _ (held_in u)) as Iu. pose proof (fV_inside _ (held_in v)) as Iv.
  destruct (interp1d_inside earth_fV 0 2040 _ fV_nodup Iu) as (a & Ea & _). destruct (interp1d_inside earth_fV 0 2040 _ fV_nodup Iv) as (b & Eb & _). rewrite Ea, Eb.
  eapply Rle_trans; [|apply held_lip]. rewrite <- (Rmult_1_l (Rabs (held u - held v))). apply (PropPlanet.C03_lipschitz earth_fV 0 2040 1 (held v) (held u) b a); auto; [apply fV_nodup|].
  intros p q (Hp & Hq & L & _). cbn in Hp, Hq. apply Rabs_le.
  repeat (destruct Hp as [<-|Hp]; [repeat (destruct Hq as [<-|Hq]; [cbn [fst snd] in *; lra|]); contradiction|]). contradiction.
Qed.
Lemma lip_cont : forall F K f t, (forall u v, Rabs (F u - F v) <= K * Rabs (u - v)) -> continuity_pt f t -> continuity_pt (fun u => F (f u)) t.
Proof.
  intros F K f t L C. apply (continuity_pt_comp f F); auto. intros e He. exists (e / (Rabs K + 1)). pose proof (Rabs_pos K). assert (0 < e / (Rabs K + 1)) by (apply Rdiv_lt_0_compat; lra). split; auto.
  intros s (_ & Hs). cbn in *. unfold R_dist in *. eapply Rle_lt_trans; [apply L|]. pose proof (Rle_abs K). assert (e / (Rabs K + 1) * (Rabs K + 1) = e) by (field; lra). pose proof (Rabs_pos (s - f t)). nra.
Qed.
Lemma cont2_earth : forall RN, cont2 (fun rho v => 47360 * Rpower RN 0.6 * Rpower rho 1.22 * fast_fV v).
Proof.
  intros RN f g t Cf Cg Pf Pg. apply (continuity_pt_mult (fun u => 47360 * Rpower RN 0.6 * Rpower (f u) 1.22) (fun u => fast_fV (g u))).
  - apply (continuity_pt_scal (fun u => Rpower (f u) 1.22)). apply cont_Rpower; auto.
  - apply (lip_cont fast_fV 1); auto. intros u v. rewrite Rmult_1_l. apply fast_fV_lip.
Qed.

(** The heating of a planet as a whole. *)
Definition heating (id : string) (RN rho v : R) : option R :=
  match con_law id, rad_law id with
  | Some c, Some r => match c RN rho v, r RN rho v with Some a, Some b => Some (a + b) | _, _ => None end
  | _, _ => None
  end.
(** The heating of [id] is [P j] for the piece [j] the speed is in, and the piece changes only at the speeds listed. *)
Definition in_pieces (id : string) (RN : R) (P : nat -> R -> R -> R) (ix : R -> nat) : Prop :=
  (forall v, (ix v < 3)%nat) /\ (forall rho v, 0 < rho -> 0 < v -> heating id RN rho v = Some (P (ix v) rho v)) /\ (forall j, (j < 3)%nat -> cont2 (P j)) /\
  forall v v', ix v <> ix v' -> exists b, In b (heat_breaks id) /\ (v <= b <= v' \/ v' <= b <= v).
Lemma one_piece : forall id RN c (r : correlation) , In c convective -> co_planet c = id -> 0 < co_refv c -> 0 < RN ->
  ((forall rho v, 0 < rho -> 0 < v -> exists f, rad_law id = Some f /\ f RN rho v = Some (value r RN rho v)) /\ 0 < co_refv r -> exists P ix, in_pieces id RN P ix) /\
  (rad_law id = Some rad_zero -> exists P ix, in_pieces id RN P ix).
Proof.
  intros id RN c r HI Hid Hc HR. split.
  - intros (Hr & Hr2). exists (fun _ rho v => value c RN rho v + value r RN rho v), (fun _ => 0%nat). split; [intros; lia|]. split; [|split].
    + intros rho v Hrho Hv. unfold heating. destruct (C88_convective c RN rho v HI HR Hrho Hv) as (f & Ef & Ev). rewrite Hid in Ef. destruct (Hr rho v Hrho Hv) as (g & Eg & Egv). rewrite Ef, Eg, Ev, Egv. reflexivity.
    + intros j _. apply (cont2_plus (fun rho v => value c RN rho v) (fun rho v => value r RN rho v)); apply cont2_value; auto.
    + intros v v' H. congruence.
  - intros Hr. exists (fun _ rho v => value c RN rho v + 0), (fun _ => 0%nat). split; [intros; lia|]. split; [|split].
    + intros rho v Hrho Hv. unfold heating. destruct (C88_convective c RN rho v HI HR Hrho Hv) as (f & Ef & Ev). rewrite Hid in Ef. rewrite Ef, Hr, Ev. reflexivity.
    + intros j _. apply (cont2_plus (fun rho v => value c RN rho v) (fun _ _ => 0)); [apply cont2_value; auto|apply cont2_zero].
    + intros v v' H. congruence.
Qed.
Definition venus_piece (j : nat) : correlation :=
  match j with 0%nat => mkCorr "VENUS" 3.33e-34 1 0.49 1.2 1 10 0 (Some 8000) | 1%nat => mkCorr "VENUS" 1.22e-16 1 0.49 1.2 1 5.5 8000 (Some 10000) | _ => mkCorr "VENUS" 3.07e-48 1 0.49 1.2 1 13.4 10000 None end.
Definition venus_ix (v : R) : nat := if Rlt_dec v 8000 then 0%nat else if Rlt_dec v 10000 then 1%nat else 2%nat.
Definition earth_ix (v : R) : nat := if Rlt_dec v 9000 then 0%nat else 1%nat.
Lemma law_pieces : forall id RN, known id -> 0 < RN -> exists P ix, in_pieces id RN P ix.
Proof.
  intros id RN HK HR. assert (Z : co_refv (sutton "VENUS" 1) = 1) by reflexivity.
  known_cases HK.
  - set (c := sutton "VENUS" 1.896e-8). assert (HI : In c convective) by (left; reflexivity).
    exists (fun j rho v => value c RN rho v + value (venus_piece j) RN rho v), venus_ix. split; [intros v; unfold venus_ix; destruct (Rlt_dec v 8000); [lia|]; destruct (Rlt_dec v 10000); lia|]. split; [|split].
    + intros rho v Hrho Hv. unfold heating. destruct (C88_convective c RN rho v HI HR Hrho Hv) as (f & Ef & Ev). cbn [co_planet c sutton] in Ef. rewrite Ef, Ev.
      assert (A : In (venus_piece (venus_ix v)) radiative /\ applies (venus_piece (venus_ix v)) v /\ co_planet (venus_piece (venus_ix v)) = "VENUS"%string).
      { unfold venus_ix. destruct (Rlt_dec v 8000); [|destruct (Rlt_dec v 10000)]; cbn [venus_piece]; (split; [cbn [In radiative]; auto 10|split; [unfold applies; cbn [co_from co_upto]; lra|reflexivity]]). }
      destruct A as (A1 & A2 & A3). destruct (C88_radiative _ RN rho v A1 A2 HR Hrho Hv) as (g & Eg & Egv). rewrite A3 in Eg. rewrite Eg, Egv. reflexivity.
    + intros j _. apply (cont2_plus (fun rho v => value c RN rho v) (fun rho v => value (venus_piece j) RN rho v)); apply cont2_value; [cbn; lra|]. destruct j as [|[|j]]; cbn; lra.
    + intros v v' H. unfold heat_breaks. cbn [string_dec]. destruct (string_dec "VENUS" "VENUS"); [|congruence]. unfold venus_ix in H.
      destruct (Rlt_dec v 8000), (Rlt_dec v' 8000); try congruence; [exists 8000; cbn [In]; split; [auto|lra]|exists 8000; cbn [In]; split; [auto|lra]|].
      destruct (Rlt_dec v 10000), (Rlt_dec v' 10000); try congruence; exists 10000; cbn [In]; (split; [auto|lra]).
  - set (c := sutton "EARTH" 1.7623e-8). assert (HI : In c convective) by (right; left; reflexivity).
    exists (fun j rho v => value c RN rho v + match j with 0%nat => 0 | _ => 47360 * Rpower RN 0.6 * Rpower rho 1.22 * fast_fV v end), earth_ix. split; [intros v; unfold earth_ix; destruct (Rlt_dec v 9000); lia|]. split; [|split].
    + intros rho v Hrho Hv. unfold heating. destruct (C88_convective c RN rho v HI HR Hrho Hv) as (f & Ef & Ev). cbn [co_planet c sutton] in Ef. rewrite Ef, Ev.
      assert (EL : rad_law "EARTH" = Some rad_earth) by reflexivity. rewrite EL. unfold rad_earth. rewrite !np_pow_pos by auto. cbn [obind]. destruct (earth_fV_cases v) as (y & Ey & _ & Y0 & _). rewrite Ey. f_equal. f_equal.
      unfold earth_ix. destruct (Rlt_dec v 9000) as [L|L]; [rewrite (Y0 L); ring|]. rewrite <- (fast_fV_is v y); auto; lra.
    + intros [|j] _.
      * apply (cont2_plus (fun rho v => value c RN rho v) (fun _ _ => 0)); [apply cont2_value; cbn; lra|apply cont2_zero].
      * apply (cont2_plus (fun rho v => value c RN rho v) (fun rho v => 47360 * Rpower RN 0.6 * Rpower rho 1.22 * fast_fV v)); [apply cont2_value; cbn; lra|apply cont2_earth].
    + intros v v' H. unfold heat_breaks. destruct (string_dec "EARTH" "VENUS"); [congruence|]. destruct (string_dec "EARTH" "EARTH"); [|congruence]. unfold earth_ix in H. exists 9000. split; [left; auto|].
      destruct (Rlt_dec v 9000), (Rlt_dec v' 9000); try congruence; lra.
  - refine (proj2 (one_piece "MARS" RN (sutton "MARS" 1.898e-8) (sutton "MARS" 1) _ _ _ _) _); auto; [do 2 right; left; reflexivity|cbn; lra].
  - assert (A : In (mkCorr "JUPITER" 9.7632379e-41 0.5 (-0.17905) 1.763827469 1 10.993852 0 None) radiative) by (do 3 right; left; reflexivity).
    refine (proj1 (one_piece "JUPITER" RN (sutton "JUPITER" 6.556e-9) (mkCorr "JUPITER" 9.7632379e-41 0.5 (-0.17905) 1.763827469 1 10.993852 0 None) _ _ _ _) _); auto; [do 3 right; left; reflexivity|cbn; lra|].
    split; [intros rho v Hrho Hv; apply (C88_radiative _ RN rho v A); auto; unfold applies; cbn [co_from co_upto]; split; [lra|exact I]|cbn; lra].
  - assert (A : In (mkCorr "SATURN" 9.7632379e-41 0.5 (-0.17905) 1.763827469 1 10.993852 0 None) radiative) by (do 4 right; left; reflexivity).
    refine (proj1 (one_piece "SATURN" RN (sutton "SATURN" 6.356e-9) (mkCorr "SATURN" 9.7632379e-41 0.5 (-0.17905) 1.763827469 1 10.993852 0 None) _ _ _ _) _); auto; [do 4 right; left; reflexivity|cbn; lra|].
    split; [intros rho v Hrho Hv; apply (C88_radiative _ RN rho v A); auto; unfold applies; cbn [co_from co_upto]; split; [lra|exact I]|cbn; lra].
  - refine (proj2 (one_piece "TITAN" RN (sutton "TITAN" 1.7407e-8) (sutton "TITAN" 1) _ _ _ _) _); auto; [do 5 right; left; reflexivity|cbn; lra].
  - assert (A : In (mkCorr "URANUS" 8.125812e-3 0.291 1 0.49814 10000 15.113 0 None) radiative) by (do 5 right; left; reflexivity).
    refine (proj1 (one_piece "URANUS" RN (mkCorr "URANUS" 2.24008e-7 0.291 (-0.5) 0.45213 1 2.6918 0 None) (mkCorr "URANUS" 8.125812e-3 0.291 1 0.49814 10000 15.113 0 None) _ _ _ _) _); auto; [do 6 right; left; reflexivity|cbn; lra|].
    split; [intros rho v Hrho Hv; apply (C88_radiative _ RN rho v A); auto; unfold applies; cbn [co_from co_upto]; split; [lra|exact I]|cbn; lra].
  - assert (A : In (mkCorr "NEPTUNE" 8.125812e-3 0.291 1 0.49814 10000 15.113 0 None) radiative) by (do 6 right; left; reflexivity).
    refine (proj1 (one_piece "NEPTUNE" RN (mkCorr "NEPTUNE" 2.24008e-7 0.291 (-0.5) 0.45213 1 2.6918 0 None) (mkCorr "NEPTUNE" 8.125812e-3 0.291 1 0.49814 10000 15.113 0 None) _ _ _ _) _); auto; [do 7 right; left; reflexivity|cbn; lra|].
    split; [intros rho v Hrho Hv; apply (C88_radiative _ RN rho v A); auto; unfold applies; cbn [co_from co_upto]; split; [lra|exact I]|cbn; lra].
Qed.
