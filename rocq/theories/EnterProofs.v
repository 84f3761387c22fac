(** Flights that start at the top of the atmosphere, where the density jumps, and descend into it. *)
From Coq Require Import String List Classical.
Require Import Verif.Base Verif.Numpy Verif.PlanetModel Verif.AeroModel Verif.TrajectoryModel Verif.PlanetProofs Verif.FlightSpec Verif.FlightProofs Verif.PropFlight Verif.TrajectorySpec Verif.TrajectoryProofs Verif.ExactSpec Verif.ExactProofs
  Verif.DetSpec Verif.DetProofs Verif.PropDet Verif.NearSpec Verif.NearProofs Verif.ExistSpec Verif.ExistProofs Verif.ExitSpec Verif.ExitProofs.
Import ListNotations.
Local Open Scope R_scope.

Lemma EOM_field : forall V delta x, vh_user V = false -> s_r x <> 0 -> s_v x <> 0 -> cos (s_phi x) <> 0 -> cos (s_gamma x) + 1e-2 <> 0 -> EOM V x delta = Ok (Some (field V delta x)).
Proof.
  intros V delta x Hu Hr Hv Hc Hg. assert (A : a_sbar V (s_r x) (s_theta x) (s_phi x) (s_v x) delta = Ok (fas V x)) by (unfold a_sbar, Dbar, CD_scalar; rewrite Hu; reflexivity).
  destruct (EOM_some V x delta _ A Hr Hv Hc Hg) as (d & Ed). destruct (field_is _ _ _ _ Hu Ed) as (-> & _). exact Ed.
Qed.
Lemma way_passage : forall V i d T y, way V i d T y -> passage V i d T y.
Proof. intros V i d T y (Y0 & S & I). split; auto. split; auto. intros t Ht. left. auto. Qed.
(** After the start it is inside. *)
Lemma inside_after : forall p y t, inside p y t -> 0 < t -> in_air p (y t).
Proof. intros p y t [I|(E & _)] Ht; [auto|lra]. Qed.
Lemma inside_height : forall p y t, 0 < h_thres p -> inside p y t -> 0 < height p (y t) <= h_thres p.
Proof. intros p y t H0 [I|(-> & E & _)]; [unfold in_air in I; unfold height; lra|rewrite E; lra]. Qed.
Lemma passage_way : forall V i d T y, in_air (vh_planet V) (entry_state (vh_planet V) i) -> passage V i d T y -> way V i d T y.
Proof. intros V i d T y A (Y0 & S & I). split; auto. split; auto. intros t Ht. destruct (Req_dec t 0) as [->|N]; [rewrite Y0; auto|apply (inside_after _ y); [apply I; auto|lra]]. Qed.
(** A flight that starts inside stays inside for a while, and until it leaves. *)
Lemma air_leaves : forall V i d T y, leaves V i d T y -> in_air (vh_planet V) (entry_state (vh_planet V) i) -> 0 < T.
Proof.
  intros V i d T y (HT & Y0 & _ & _ & E & _) A. destruct (Req_dec T 0) as [->|]; [|lra]. exfalso. rewrite Y0 in E. unfold in_air in A. unfold height in E. lra.
Qed.
Lemma leaves_air : forall V i d T y, leaves V i d T y -> in_air (vh_planet V) (entry_state (vh_planet V) i) -> forall t, 0 <= t < T -> in_air (vh_planet V) (y t).
Proof. intros V i d T y (_ & Y0 & _ & I & _) A t Ht. destruct (Req_dec t 0) as [->|N]; [rewrite Y0; auto|apply (inside_after _ y); [apply I; auto|lra]]. Qed.
(** A solution that starts at the top, descending, is below the top for a while. *)
Lemma falls_in : forall V delta u T, vh_user V = false -> 0 < RP (vh_planet V) -> 0 < h_thres (vh_planet V) -> solves (fun x => EOM V x delta) u T -> 0 < T ->
  height (vh_planet V) (u 0) = h_thres (vh_planet V) -> s_v (u 0) * sin (s_gamma (u 0)) < 0 ->
  exists a, 0 < a <= T /\ forall t, 0 < t <= a -> 0 < height (vh_planet V) (u t) < h_thres (vh_planet V).
Proof.
  intros V delta u T Hu HR H0 (l & Sy) HT E Hd. set (p := vh_planet V) in *. destruct (ll_pos (fun a => 0 - f1 a) (u 0) ltac:(unfold f1; ll) ltac:(unfold f1; lra)) as (e & He & P). cbv beta in P.
  destruct (ll_pos (height p) (u 0) ltac:(unfold height; ll) ltac:(rewrite E; auto)) as (e' & He' & P').
  destruct (curve_near u 0 (Rmin e e') ltac:(apply Rmin_glb_lt; auto)) as (a & Ha & CN); [apply (Sy 0); lra|]. pose proof (Rmin_l e e'). pose proof (Rmin_r e e').
  set (b := Rmin (a / 2) T). assert (Hb : 0 < b) by (apply Rmin_glb_lt; lra). pose proof (Rmin_l (a / 2) T : b <= _). pose proof (Rmin_r (a / 2) T : b <= _).
  assert (CN' : forall t, 0 <= t <= b -> dist (u 0) (u t) < Rmin e e') by (intros t Ht; apply CN; rewrite Rminus_0_r, Rabs_right; lra).
  exists b. split; [lra|]. intros t Ht. split; [apply P'; specialize (CN' t ltac:(lra)); lra|]. rewrite <- E. assert (- s_r (u 0) < - s_r (u t)); [|unfold height; nra].
  apply (strictly_up (fun w => - s_r (u w)) l 0 t); [lra|intros c Hc; apply (continuity_pt_opp (fun w => s_r (u w))); apply (Sy c); lra|]. intros c Hc Hn. destruct (Sy c ltac:(lra)) as (_ & x & Ex & M). specialize (M ltac:(lra) Hn). destruct (field_is _ _ _ _ Hu Ex) as (Ex' & _).
  exists (- s_r x). split; [apply (derivable_pt_lim_opp (fun w => s_r (u w))); apply M|]. rewrite Ex'. cbn [s_r]. assert (0 < 0 - f1 (u c)) by (apply P; specialize (CN' c ltac:(lra)); lra). lra.
Qed.
(** Below the top it is a solution for the profile continued upwards. *)
Lemma solves_capped : forall V delta u T, vh_user V = false -> (forall t, 0 <= t <= T -> 0 <= height (vh_planet V) (u t) <= h_thres (vh_planet V)) -> solves (fun x => EOM V x delta) u T -> solves (fun x => EOM (capped V) x delta) u T.
Proof.
  intros V delta u T Hu B (l & Sy). exists l. intros t Ht. destruct (Sy t Ht) as (C & x & Ex & M). split; auto. destruct (field_is _ _ _ _ Hu Ex) as (Ex' & R1 & R2 & R3 & R4).
  exists (field (capped V) delta (u t)). split; [apply EOM_field; auto|]. intros Ht1 Hn. rewrite capped_field by auto. unfold field. rewrite <- Ex'. auto.
Qed.
(** Two solutions from the same state are the same while the first passes through the atmosphere. *)
Lemma unique_inside : forall V delta y z T, vh_user V = false -> 0 < RP (vh_planet V) -> 0 < h_thres (vh_planet V) -> lipschitz_air (vh_planet V) (vh_atm V) ->
  solves (fun x => EOM V x delta) y T -> solves (fun x => EOM V x delta) z T -> y 0 = z 0 -> (forall t, 0 <= t <= T -> inside (vh_planet V) y t) ->
  forall t, 0 <= t <= T -> y t = z t.
Proof.
  intros V delta y z T Hu HR H0 HL Sy Sz E0 HI t Ht. destruct (Req_dec t 0) as [->|Nt]; auto. destruct (HI 0 ltac:(lra)) as [A0|(_ & E & Hd)].
  - apply (unique V delta y z T); auto. intros s Hs. destruct (Req_dec s 0) as [->|N]; auto. apply (inside_after _ y); [auto|lra].
  - set (p := vh_planet V) in *. destruct (falls_in V delta y T Hu HR H0 Sy ltac:(lra) E Hd) as (a & Ha & Fa). destruct (falls_in V delta z T Hu HR H0 Sz ltac:(lra)) as (b & Hb & Fb); [fold p; rewrite <- E0; auto|rewrite <- E0; auto|]. fold p in Fa, Fb.
    set (s := Rmin a b). assert (Hs : 0 < s) by (apply Rmin_glb_lt; lra). pose proof (Rmin_l a b : s <= _). pose proof (Rmin_r a b : s <= _).
    assert (Q : forall u, 0 <= u <= s -> y u = z u).
    { apply (unique (capped V) delta y z s); auto.
      - apply capped_lip; auto. fold p. lra.
      - apply solves_capped; auto; [|eapply solves_upto; [exact Sy|lra]]. intros u Hu'. fold p. destruct (Req_dec u 0) as [->|N]; [rewrite E; lra|specialize (Fa u ltac:(lra)); lra].
      - apply solves_capped; auto; [|eapply solves_upto; [exact Sz|lra]]. intros u Hu'. fold p. destruct (Req_dec u 0) as [->|N]; [rewrite <- E0, E; lra|specialize (Fb u ltac:(lra)); lra].
      - intros u Hu'. unfold in_air. cbn [capped rigged vh_planet higher RP h_thres]. fold p. assert (B : 0 < height p (y u) <= h_thres p) by (destruct (Req_dec u 0) as [->|N]; [rewrite E; lra|specialize (Fa u ltac:(lra)); lra]). unfold height in B. lra. }
    destruct (Rle_or_lt t s) as [L|L]; [apply Q; lra|]. replace t with (s + (t - s)) by ring.
    apply (unique V delta (fun u => y (s + u)) (fun u => z (s + u)) (T - s)); auto; [apply solves_shift; auto; lra|apply solves_shift; auto; lra|rewrite Rplus_0_r; apply Q; lra| |lra].
    intros u Hu'. apply (inside_after _ y); [apply HI; lra|lra].
Qed.
(** From every start at the top, descending, there is a passage for some time. *)
Lemma enters : forall V i d, vh_user V = false -> 0 < RP (vh_planet V) -> 0 < h_thres (vh_planet V) -> lipschitz_air (vh_planet V) (vh_atm V) -> at_top (vh_planet V) (entry_state (vh_planet V) i) ->
  s_v (entry_state (vh_planet V) i) * sin (s_gamma (entry_state (vh_planet V) i)) < 0 -> exists T y, 0 < T /\ passage V i d T y.
Proof.
  intros V i d Hu HR H0 HL AT Hd. set (p := vh_planet V) in *. set (x := entry_state p i) in *. set (dl := d * PI / 180).
  destruct (exist_near (capped V) dl x Hu HR (capped_lip V HL ltac:(fold p; lra)) (top_regular V _ x H0 AT)) as (rho & h & Hrho & Hh & EX). destruct (EX x ltac:(rewrite dist_self; lra)) as (z & Ez & Hz).
  assert (Sz : solves (fun x => EOM (capped V) x dl) z (h / 2)).
  { exists nil. intros t Ht. destruct (Hz t ltac:(apply Rabs_def1; lra)) as (M & Rg). split; [apply (moving_continuous _ _ _ M)|]. exists (field (capped V) dl (z t)). split; [apply field_there; auto|auto]. }
  assert (Down : exists a, 0 < a <= h / 2 /\ forall t, 0 < t <= a -> 0 < height p (z t) < h_thres p).
  { pose proof AT as (E & _). destruct (ll_pos (fun a => 0 - f1 a) x ltac:(unfold f1; ll) ltac:(unfold f1; lra)) as (e & He & P). cbv beta in P. destruct (ll_pos (height p) x ltac:(unfold height; ll) ltac:(rewrite E; auto)) as (e' & He' & P').
    destruct (curve_near z 0 (Rmin e e') ltac:(apply Rmin_glb_lt; auto) (moving_continuous _ _ _ (proj1 (Hz 0 ltac:(rewrite Rabs_R0; auto))))) as (a0 & Ha0 & CN). rewrite Ez in CN. pose proof (Rmin_l e e'). pose proof (Rmin_r e e').
    set (b := Rmin (a0 / 2) (h / 2)). assert (Hb : 0 < b) by (apply Rmin_glb_lt; lra). pose proof (Rmin_l (a0 / 2) (h / 2) : b <= _). pose proof (Rmin_r (a0 / 2) (h / 2) : b <= _).
    assert (CN' : forall t, 0 <= t <= b -> dist x (z t) < Rmin e e') by (intros t Ht; apply CN; rewrite Rminus_0_r, Rabs_right; lra).
    exists b. split; [lra|]. intros t Ht. split; [apply P'; specialize (CN' t ltac:(lra)); lra|]. rewrite <- E. destruct (MVT_cor2 (fun u => s_r (z u)) (fun u => f1 (z u)) 0 t ltac:(lra)) as (c & Ec & Hc).
    - intros c Hcc. apply (Hz c). apply Rabs_def1; lra.
    - assert (0 < 0 - f1 (z c)) by (apply P; specialize (CN' c ltac:(lra)); lra). cbv beta in Ec. rewrite Ez in Ec. unfold height. assert (s_r (z t) < s_r x) by nra. nra. }
  destruct Down as (a & Ha & Fa). exists a, z. split; [lra|]. split; [auto|]. split.
  - exists nil. intros t Ht. destruct (Hz t ltac:(apply Rabs_def1; lra)) as (M & (_ & R1 & R2 & R3 & R4)). split; [apply (moving_continuous _ _ _ M)|]. exists (field V dl (z t)). split; [apply EOM_field; auto|]. intros Ht1 _. rewrite <- capped_field; auto. fold p. specialize (Fa t ltac:(lra)). lra.
  - intros t Ht. fold p. destruct (Req_dec t 0) as [->|N]; [right; rewrite Ez; split; auto; split; [apply AT|auto]|left]. specialize (Fa t ltac:(lra)). unfold in_air. unfold height in Fa. exact Fa.
Qed.
