(** C117: the unit conversions in rounded arithmetic. *)
From Coq Require Import List Lia Lra Arith.
Require Import Verif.Base Verif.Numpy Verif.PlanetModel Verif.AeroModel Verif.TrajectoryModel Verif.RunningSpec Verif.UnitsModel Verif.UnitsSpec.
Import ListNotations.
Local Open Scope R_scope.

(** ** Without rounding this is the model of the other properties, and the conversions undo each other *)
Theorem C117_exact : forall p i, 0 < RP p -> 0 < GM p ->
  entry_state_r (fun x => x) PI (RP p) (Vref p) i = entry_state p i /\
  first_sample_r (fun x => x) PI (/ 1000) (RP p) (Vref p) i = i /\
  (forall t y load, let q := convertToPlotUnits p [t] [s_r (snd (dimensionalize p t y))] [s_v (snd (dimensionalize p t y))] [s_phi y] [s_psi y] [s_theta y] [s_gamma y] [s_drange (snd (dimensionalize p t y))] in
     let r := report_r (fun x => x) PI (/ 1000) (RP p) (Vref p) load y in
     p_h q = [h0_km r] /\ p_v q = [v0_kms r] /\ p_phi q = [phi0_deg r] /\ p_psi q = [psi0_deg r] /\ p_theta q = [theta0_deg r] /\ p_gamma q = [gamma0_deg r] /\ p_drange q = [drange0_km r]).
Proof.
  intros p [h th ph v ps ga dr l] HR HG. assert (HV : 0 < Vref p) by (unfold Vref; apply sqrt_lt_R0; apply Rdiv_lt_0_compat; auto).
  assert (HP := PI_RGT_0). split; [reflexivity|]. split.
  - unfold first_sample_r, report_r, entry_state_r, rad_r, deg_r. cbn [h0_km theta0_deg phi0_deg v0_kms psi0_deg gamma0_deg drange0_km heatLoad0 s_r s_theta s_phi s_v s_psi s_gamma s_drange].
    f_equal; field; lra.
  - intros t [r th' ph' v' ps' ga' dr'] load. cbn.
    repeat split; apply f_equal2; auto; unfold rad_r; field; lra.
Qed.

(** ** How deviations add up *)
Section Off.
  Variables (rnd : R -> R) (e eta : R).
  Hypothesis A : arithmetic rnd e eta.
  Let E : 0 <= e := ar_e _ _ _ A.
  Lemma pw1 : forall k, 1 <= (1 + e) ^ k.
  Proof. intros k. apply pow_R1_Rle. lra. Qed.
  Lemma off_refl : forall f x, 0 <= f -> off e 0 f x x.
  Proof. intros f x _. unfold off. rewrite Rminus_diag_eq, Rabs_R0 by reflexivity. cbn. lra. Qed.
  Lemma off_round : forall k f x y, off e k f x y -> eta <= e * f -> off e (S k) f x (rnd y).
  Proof.
    unfold off. intros k f x y H Hf. pose proof (ar_err _ _ _ A y) as R1. pose proof (pw1 k) as P. cbn [pow].
    replace (rnd y - x) with ((rnd y - y) + (y - x)) by ring. eapply Rle_trans; [apply Rabs_triang|].
    assert (Y : Rabs y <= Rabs x + ((1 + e) ^ k - 1) * (Rabs x + f)).
    { replace y with (x + (y - x)) at 1 by ring. eapply Rle_trans; [apply Rabs_triang|]. lra. }
    assert (e * Rabs y <= e * (Rabs x + ((1 + e) ^ k - 1) * (Rabs x + f))) by (apply Rmult_le_compat_l; auto). lra.
  Qed.
  Lemma off_scale : forall k f x y c, 0 < c -> off e k f x y -> off e k (f * c) (x * c) (y * c).
  Proof.
    unfold off. intros k f x y c Hc H. replace (y * c - x * c) with ((y - x) * c) by ring. rewrite !Rabs_mult, (Rabs_pos_eq c) by lra.
    apply (Rmult_le_compat_r c) in H; lra.
  Qed.
  Lemma off_div : forall k f x y c, 0 < c -> off e k f x y -> off e k (f / c) (x / c) (y / c).
  Proof. intros k f x y c Hc H. apply (off_scale k f x y (/ c)); auto. apply Rinv_0_lt_compat; auto. Qed.
  Lemma off_const : forall k f x y c m, 0 < c -> 0 <= f -> Rabs (m - c) <= e * c -> off e k f x y -> off e (S k) (f * c) (x * c) (y * m).
  Proof.
    unfold off. intros k f x y c m Hc F Hm H. pose proof (pw1 k) as P. cbn [pow].
    replace (y * m - x * c) with (y * (m - c) + (y - x) * c) by ring. eapply Rle_trans; [apply Rabs_triang|].
    rewrite !Rabs_mult, (Rabs_pos_eq c) by lra.
    assert (Y : Rabs y <= Rabs x + ((1 + e) ^ k - 1) * (Rabs x + f)).
    { replace y with (x + (y - x)) at 1 by ring. eapply Rle_trans; [apply Rabs_triang|]. lra. }
    assert (Y2 : Rabs y * Rabs (m - c) <= (Rabs x + ((1 + e) ^ k - 1) * (Rabs x + f)) * (e * c)) by (apply Rmult_le_compat; auto; apply Rabs_pos).
    apply (Rmult_le_compat_r c) in H; [|lra].
    assert (0 <= e * f * c) by (apply Rmult_le_pos; [apply Rmult_le_pos|]; lra). nra.
  Qed.
  Lemma off_shift : forall k f x y c, off e k f x y -> off e k (f + Rabs c) (x + c) (y + c).
  Proof.
    unfold off. intros k f x y c H. replace (y + c - (x + c)) with (y - x) by ring. pose proof (pw1 k) as P.
    assert (Rabs x <= Rabs (x + c) + Rabs c). { replace x with ((x + c) + - c) at 1 by ring. eapply Rle_trans; [apply Rabs_triang|]. rewrite Rabs_Ropp. lra. }
    eapply Rle_trans; [exact H|]. apply Rmult_le_compat_l; lra.
  Qed.
  Lemma off_trans : forall j k f x y z, off e j f x y -> off e k f y z -> off e (j + k) f x z.
  Proof.
    unfold off. intros j k f x y z H1 H2. rewrite pow_add. pose proof (pw1 j) as P. pose proof (pw1 k) as Q.
    assert (Y : Rabs y + f <= (1 + e) ^ j * (Rabs x + f)).
    { replace y with (x + (y - x)) by ring. pose proof (Rabs_triang x (y - x)). lra. }
    assert (((1 + e) ^ k - 1) * (Rabs y + f) <= ((1 + e) ^ k - 1) * ((1 + e) ^ j * (Rabs x + f))) by (apply Rmult_le_compat_l; lra).
    replace (z - x) with ((z - y) + (y - x)) by ring. eapply Rle_trans; [apply Rabs_triang|]. lra.
  Qed.
  Lemma off_more : forall j k f g x y, (j <= k)%nat -> 0 <= f <= g -> off e j f x y -> off e k g x y.
  Proof.
    unfold off. intros j k f g x y L F H. pose proof (pw1 j) as P. assert (Q : (1 + e) ^ j <= (1 + e) ^ k) by (apply Rle_pow; [lra|auto]).
    eapply Rle_trans; [exact H|]. pose proof (Rabs_pos x). apply Rmult_le_compat; lra.
  Qed.
End Off.

Section Conversions.
  Variables (rnd : R -> R) (e eta pi milli rp vref f : R).
  Hypothesis A : arithmetic rnd e eta.
  Hypothesis C : constants e pi milli.
  Hypothesis Hrp : 1 <= rp.
  Hypothesis Hv : 0 < vref.
  Hypothesis Hf : 0 < f <= / 1000.
  Hypothesis Heta : eta * (180 + rp + vref) <= e * f.
  Let E : 0 <= e := ar_e _ _ _ A.
  Let N : 0 <= eta := ar_eta _ _ _ A.
  Let Hpi : 3 <= pi <= 4 := co_pi _ _ _ C.
  Lemma eta_small : eta <= e * f /\ eta * 180 <= e * f /\ eta * rp <= e * f /\ eta * vref <= e * f.
  Proof. assert (0 <= eta * rp) by nra. assert (0 <= eta * vref) by nra. lra. Qed.
  Lemma eta_div : forall c, 0 < c -> eta * c <= e * f -> eta <= e * (f / c).
  Proof. intros c Hc H. unfold Rdiv. rewrite <- Rmult_assoc. apply Rmult_le_reg_r with c; [auto|]. rewrite Rmult_assoc, Rinv_l by lra. lra. Qed.
  Lemma eta_ge : forall g, f <= g -> eta <= e * g.
  Proof. intros g H. destruct eta_small as [H1 _]. assert (e * f <= e * g) by (apply Rmult_le_compat_l; lra). lra. Qed.

  Lemma angle_trip : forall x, off e 4 f x (rad_r rnd pi (deg_r rnd pi x)).
  Proof.
    intros x. unfold rad_r, deg_r. destruct eta_small as (H1 & H2 & H3 & H4).
    replace x with (x * pi / 180 * 180 / pi) at 1 by (field; lra). replace f with (f * pi / 180 * 180 / pi) at 1 by (field; lra).
    assert (Q : f <= f * pi) by nra.
    apply (off_round _ _ _ A); [|replace (f * pi / 180 * 180 / pi) with f by (field; lra); apply eta_ge; lra]. apply off_div; [lra|].
    apply (off_round _ _ _ A); [|replace (f * pi / 180 * 180) with (f * pi) by field; apply eta_ge; lra]. apply (off_scale e _ (f * pi / 180) (x * pi / 180)); [lra|].
    apply (off_round _ _ _ A); [|]. 2:{ assert (e * (f / 180) <= e * (f * pi / 180)) by (apply Rmult_le_compat_l; lra). pose proof (eta_div 180 ltac:(lra) H2). lra. }
    apply off_div; [lra|]. apply (off_round _ _ _ A); [|apply eta_ge; lra]. apply off_scale; [lra|]. apply off_refl. lra.
  Qed.
  Lemma radian_trip : forall x, off e 4 f x (deg_r rnd pi (rad_r rnd pi x)).
  Proof.
    intros x. unfold rad_r, deg_r.
    replace x with (x * 180 / pi * pi / 180) at 1 by (field; lra). replace f with (f * 180 / pi * pi / 180) at 1 by (field; lra).
    apply (off_round _ _ _ A); [|replace (f * 180 / pi * pi / 180) with f by (field; lra); apply eta_ge; lra]. apply off_div; [lra|].
    apply (off_round _ _ _ A); [|replace (f * 180 / pi * pi) with (f * 180) by (field; lra); apply eta_ge; lra]. apply (off_scale e _ (f * 180 / pi) (x * 180 / pi)); [lra|].
    apply (off_round _ _ _ A). 2:{ apply eta_ge. apply Rmult_le_reg_r with pi; [lra|]. unfold Rdiv. rewrite Rmult_assoc, Rinv_l by lra. nra. }
    apply off_div; [lra|]. apply (off_round _ _ _ A); [|apply eta_ge; lra]. apply off_scale; [lra|]. apply off_refl. lra.
  Qed.
  (** A length or speed in thousands, divided by a reference, multiplied by it again and by 0.001. *)
  Lemma scale_trip : forall c x, 0 < c -> eta * c <= e * f -> off e 5 f x (rnd (rnd (rnd (rnd (x * 1e3) / c) * c) * milli)).
  Proof.
    intros c x Hc He.
    replace x with (x * 1e3 / c * c * / 1000) at 1 by (field; lra). replace f with (f * 1e3 / c * c * / 1000) at 1 by (field; lra).
    assert (F : f * 1e3 / c * c = f * 1e3) by (field; lra).
    apply (off_round _ _ _ A); [|rewrite F; apply eta_ge; lra].
    apply (off_const _ _ _ A _ _ _ _ (/ 1000)); [lra|rewrite F; lra|apply C|].
    apply (off_round _ _ _ A); [|rewrite F; apply eta_ge; lra]. apply (off_scale e _ (f * 1e3 / c) (x * 1e3 / c)); [lra|].
    apply (off_round _ _ _ A). 2:{ pose proof (eta_div c Hc He) as H. assert (f / c <= f * 1e3 / c) by (apply Rmult_le_compat_r; [apply Rlt_le, Rinv_0_lt_compat; auto|lra]).
      assert (e * (f / c) <= e * (f * 1e3 / c)) by (apply Rmult_le_compat_l; lra). lra. }
    apply off_div; [lra|]. apply (off_round _ _ _ A); [|apply eta_ge; lra]. apply off_scale; [lra|]. apply off_refl. lra.
  Qed.
  Lemma scale_trip_back : forall c y, 0 < c -> eta * c <= e * f -> off e 5 (1e3 * f / c) y (rnd (rnd (rnd (rnd (y * c) * milli) * 1e3) / c)).
  Proof.
    intros c y Hc He. set (g := 1e3 * f / c).
    assert (F : g * c = 1e3 * f) by (unfold g; field; lra).
    assert (Hg : eta <= e * g).
    { pose proof (eta_div c Hc He) as H. assert (f / c <= g) by (apply Rmult_le_compat_r; [apply Rlt_le, Rinv_0_lt_compat; auto|lra]).
      assert (e * (f / c) <= e * g) by (apply Rmult_le_compat_l; lra). lra. }
    replace y with (y * c * / 1000 * 1e3 / c) at 1 by (field; lra). replace g with (g * c * / 1000 * 1e3 / c) by (field; lra).
    apply (off_round _ _ _ A); [|replace (g * c * / 1000 * 1e3 / c) with g by (field; lra); exact Hg]. apply off_div; [lra|].
    apply (off_round _ _ _ A); [|rewrite F; apply eta_ge; lra]. apply (off_scale e _ (g * c * / 1000) (y * c * / 1000)); [lra|].
    apply (off_round _ _ _ A); [|rewrite F; apply eta_ge; lra].
    apply (off_const _ _ _ A _ _ _ _ (/ 1000)); [lra|rewrite F; lra|apply C|].
    apply (off_round _ _ _ A); [|rewrite F; apply eta_ge; lra]. apply off_scale; [lra|]. apply off_refl. unfold g. apply Rlt_le. apply Rdiv_lt_0_compat; lra.
  Qed.
  Lemma height_trip : forall h, off e 7 (f + rp / 500) h (rnd (rnd (rnd (rnd (rnd (rp + rnd (h * 1e3)) / rp) * rp) - rp) * milli)).
  Proof.
    intros h. destruct eta_small as (H1 & H2 & H3 & H4).
    replace h with (((rp + h * 1e3) / rp * rp - rp) * / 1000) at 1 by (field; lra).
    set (g := 1e3 * f + rp).
    assert (G : eta <= e * (g / rp)).
    { apply eta_ge. unfold g. replace ((1e3 * f + rp) / rp) with (1 + 1e3 * f / rp) by (field; lra). assert (0 < 1e3 * f / rp) by (apply Rdiv_lt_0_compat; lra). lra. }
    assert (GG : g / rp * rp = g) by (field; lra).
    replace (f + rp / 500) with ((g / rp * rp + rp) * / 1000) by (rewrite GG; unfold g; lra).
    apply (off_round _ _ _ A); [|rewrite GG; apply eta_ge; unfold g; lra].
    apply (off_const _ _ _ A _ _ _ _ (/ 1000)); [lra|rewrite GG; unfold g; lra|apply C|].
    apply (off_round _ _ _ A); [|rewrite GG; apply eta_ge; unfold g; lra].
    unfold Rminus. rewrite <- (Rabs_pos_eq rp) at 3 by lra. rewrite <- (Rabs_Ropp rp). apply (off_shift _ _ _ A).
    apply (off_round _ _ _ A); [|rewrite GG; apply eta_ge; unfold g; lra]. apply (off_scale e _ (g / rp) ((rp + h * 1e3) / rp)); [lra|].
    apply (off_round _ _ _ A); [|exact G]. apply off_div; [lra|].
    apply (off_round _ _ _ A); [|apply eta_ge; unfold g; lra]. rewrite (Rplus_comm rp (rnd _)), (Rplus_comm rp (h * 1e3)).
    unfold g. rewrite <- (Rabs_pos_eq rp) at 1 by lra. apply (off_shift _ _ _ A).
    apply (off_round _ _ _ A); [|apply eta_ge; lra]. rewrite (Rmult_comm 1e3 f). apply off_scale; [lra|]. apply off_refl. lra.
  Qed.
  Lemma radius_trip : forall y, off e 7 (2 + f) y (rnd (rnd (rp + rnd (rnd (rnd (rnd (y * rp) - rp) * milli) * 1e3)) / rp)).
  Proof.
    intros y. set (g := f * rp). assert (Hg : f <= g) by (unfold g; nra).
    replace y with ((rp + (y * rp - rp) * / 1000 * 1e3) / rp) at 1 by (field; lra).
    replace (2 + f) with (((g + rp) * / 1000 * 1e3 + rp) / rp) by (unfold g; field; lra).
    apply (off_round _ _ _ A). 2:{ apply eta_ge. replace (((g + rp) * / 1000 * 1e3 + rp) / rp) with (2 + f) by (unfold g; field; lra). lra. }
    apply off_div; [lra|].
    apply (off_round _ _ _ A); [|apply eta_ge; lra]. rewrite (Rplus_comm rp (rnd _)), (Rplus_comm rp ((y * rp - rp) * / 1000 * 1e3)).
    rewrite <- (Rabs_pos_eq rp) at 2 by lra. apply (off_shift _ _ _ A).
    apply (off_round _ _ _ A); [|apply eta_ge; lra]. apply (off_scale e _ ((g + rp) * / 1000) ((y * rp - rp) * / 1000)); [lra|].
    apply (off_round _ _ _ A); [|apply eta_ge].
    2:{ lra. }
    apply (off_const _ _ _ A _ _ _ _ (/ 1000)); [lra|lra|apply C|].
    apply (off_round _ _ _ A); [|apply eta_ge; lra].
    unfold Rminus. rewrite <- (Rabs_pos_eq rp) at 1 by lra. rewrite <- (Rabs_Ropp rp). apply (off_shift _ _ _ A).
    apply (off_round _ _ _ A); [|apply eta_ge; lra]. unfold g. apply off_scale; [lra|]. apply off_refl. lra.
  Qed.
End Conversions.

(** ** The theorems *)
(** [i'] is [i] up to the roundings of the conversions: seven for the altitude, measured against the altitude and
    the planet's diameter, five for lengths and speeds, four for angles.  [f] is a floor for numbers near zero. *)
Definition same_conditions (e f rp : R) (n : nat) (i i' : init) : Prop :=
  off e (n * 7) (f + rp / 500) (h0_km i) (h0_km i') /\ off e (n * 5) f (v0_kms i) (v0_kms i') /\ off e (n * 5) f (drange0_km i) (drange0_km i') /\
  off e (n * 4) f (theta0_deg i) (theta0_deg i') /\ off e (n * 4) f (phi0_deg i) (phi0_deg i') /\
  off e (n * 4) f (psi0_deg i) (psi0_deg i') /\ off e (n * 4) f (gamma0_deg i) (gamma0_deg i') /\ heatLoad0 i' = heatLoad0 i.

Theorem C117_many_restarts : forall rnd e eta pi milli rp vref f, arithmetic rnd e eta -> constants e pi milli -> 1 <= rp -> 0 < vref ->
  0 < f <= / 1000 -> eta * (180 + rp + vref) <= e * f ->
  forall n i, same_conditions e f rp n i (Nat.iter n (first_sample_r rnd pi milli rp vref) i).
Proof.
  intros rnd e eta pi milli rp vref f A C Hr Hv Hf He n i.
  destruct (eta_small rnd e eta rp vref f A Hr Hv Hf He) as (H1 & H2 & H3 & H4).
  induction n as [|n (I1 & I2 & I3 & I4 & I5 & I6 & I7 & I8)].
  - unfold same_conditions. cbn [Nat.mul Nat.iter nat_rect]. assert (0 < rp / 500) by lra. repeat split; apply off_refl; lra.
  - change (Nat.iter (S n) (first_sample_r rnd pi milli rp vref) i) with (first_sample_r rnd pi milli rp vref (Nat.iter n (first_sample_r rnd pi milli rp vref) i)).
    set (j := Nat.iter n (first_sample_r rnd pi milli rp vref) i) in *. unfold same_conditions, first_sample_r, report_r, entry_state_r.
    cbn [h0_km theta0_deg phi0_deg v0_kms psi0_deg gamma0_deg drange0_km heatLoad0 s_r s_theta s_phi s_v s_psi s_gamma s_drange].
    rewrite (Nat.mul_succ_l n 7), (Nat.mul_succ_l n 5), (Nat.mul_succ_l n 4).
    split; [|split; [|split; [|split; [|split; [|split; [|split; [|exact I8]]]]]]];
      (eapply (off_trans _ _ _ A); [eassumption|]);
      first [eapply height_trip; eassumption | eapply scale_trip; eauto; lra | eapply angle_trip; eassumption].
Qed.
Theorem C117_first_sample : forall rnd e eta pi milli rp vref f, arithmetic rnd e eta -> constants e pi milli -> 1 <= rp -> 0 < vref ->
  0 < f <= / 1000 -> eta * (180 + rp + vref) <= e * f ->
  forall i, same_conditions e f rp 1 i (first_sample_r rnd pi milli rp vref i).
Proof. intros. apply (C117_many_restarts rnd e eta pi milli rp vref f H H0 H1 H2 H3 H4 1 i). Qed.

(** The state handed from one cycle of a guided flight to the next. *)
Theorem C117_hand_over : forall rnd e eta pi milli rp vref f, arithmetic rnd e eta -> constants e pi milli -> 1 <= rp -> 0 < vref ->
  0 < f <= / 1000 -> eta * (180 + rp + vref) <= e * f ->
  forall load y, let y' := hand_over_r rnd pi milli rp vref load y in
  off e 7 (2 + f) (s_r y) (s_r y') /\ off e 5 (1e3 * f / vref) (s_v y) (s_v y') /\ off e 5 (1e3 * f / rp) (s_drange y) (s_drange y') /\
  off e 4 f (s_theta y) (s_theta y') /\ off e 4 f (s_phi y) (s_phi y') /\ off e 4 f (s_psi y) (s_psi y') /\ off e 4 f (s_gamma y) (s_gamma y').
Proof.
  intros rnd e eta pi milli rp vref f A C Hr Hv Hf He load y.
  destruct (eta_small rnd e eta rp vref f A Hr Hv Hf He) as (H1 & H2 & H3 & H4).
  unfold hand_over_r, report_r, entry_state_r.
  cbn [h0_km theta0_deg phi0_deg v0_kms psi0_deg gamma0_deg drange0_km heatLoad0 s_r s_theta s_phi s_v s_psi s_gamma s_drange]. cbv zeta.
  split; [|split; [|split; [|split; [|split; [|split]]]]];
    first [eapply radius_trip; eassumption | eapply scale_trip_back; eauto; lra | eapply radian_trip; eassumption].
Qed.
