(** C94: the commanded bank angle where there is no air. *)
From Coq Require Import String ZArith List.
Require Import Verif.Base Verif.Numpy Verif.TableSpec Verif.NumpyProofs Verif.PlanetModel Verif.AeroModel Verif.HeatModel
  Verif.TrajectoryModel Verif.GuidanceModel Verif.GuidanceSpec Verif.PropControl.

Lemma xdiv0 : forall x, xdiv (Fin x) (Fin 0) = if Reqb x 0 then NaN else xinf (Rltb 0 x).
Proof. intros x. unfold xdiv. destruct (Reqb_spec 0 0); [reflexivity|lra]. Qed.
Lemma bank_pinf : bank_command PInf = Some 0.
Proof. unfold bank_command, xgtb. cbn [obind]. f_equal. unfold Rdiv. ring. Qed.
Lemma bank_ninf : bank_command NInf = Some 180.
Proof. unfold bank_command, xgtb, xltb. cbn [obind]. f_equal. field. pose proof PI_RGT_0. lra. Qed.
Lemma bank_nan : bank_command NaN = None.
Proof. reflexivity. Qed.

(** At zero dynamic pressure a lifting vehicle is commanded full lift up exactly when it flies slower than the
    circular speed and descends, full lift down exactly when it flies faster than the circular speed and climbs
    (with positive gains), and in every other case the command is not a number. *)
Theorem C94_vacuum : forall V P vi ri hdoti, 0 < RP (vh_planet V) -> 0 < GM (vh_planet V) -> 0 < ri ->
  0 < vh_mass V -> 0 < vh_CL V -> 0 < vh_A V ->
  let p := vh_planet V in let g := GM p / (RP p * RP p) in
  exists qref, qref_of V vi ri = Ok qref /\
  let cmd := bank_command (cosDeltaCMD V P vi ri 0 hdoti qref) in
  (cmd = Some 0 <-> vi * vi < g * ri /\ g_Ghdot P * hdoti < 0 /\ 0 < g_Gq P) /\
  (cmd = Some 180 <-> g * ri < vi * vi /\ 0 < g_Ghdot P * hdoti /\ 0 < g_Gq P) /\
  (cmd = None \/ cmd = Some 0 \/ cmd = Some 180).
Proof.
  intros V P vi ri hdoti HRP HGM Hr Hm HC HA p g.
  assert (Eg : surface_g p = g) by (unfold surface_g, g; field; apply Rgt_not_eq; auto).
  assert (Hg : 0 < g) by (unfold g; apply Rdiv_lt_0_compat; auto; fold p in HRP; nra).
  assert (Hgr : 0 < g * ri) by (apply Rmult_lt_0_compat; auto).
  set (e := 1 - vi * vi / (g * ri)).
  assert (Eb : balance p vi ri = Fin e).
  { unfold balance. rewrite Eg. unfold xdiv. destruct (Reqb_spec (g * ri) 0); [lra|]. cbn [xsub xneg xadd]. f_equal. unfold e. cbn [pow]. rewrite Rmult_1_r. lra. }
  assert (He : e * (g * ri) = g * ri - vi * vi) by (unfold e; field; split; apply Rgt_not_eq; auto).
  set (k := vh_mass V * g / (0.75 * vh_CL V * vh_A V)).
  assert (HCA : 0 < 0.75 * vh_CL V * vh_A V) by (apply Rmult_lt_0_compat; auto; apply Rmult_lt_0_compat; auto; lra).
  assert (Hmg : 0 < vh_mass V * g) by (apply Rmult_lt_0_compat; auto).
  assert (Hk : 0 < k) by (unfold k; apply Rdiv_lt_0_compat; auto).
  assert (Eq : qref_of V vi ri = Ok (Fin (- k * e))).
  { unfold qref_of. fold p. destruct (Reqb_spec (0.75 * vh_CL V * vh_A V) 0) as [Z|Z].
    - exfalso. lra.
    - rewrite Eb, Eg. unfold xmul. do 2 f_equal. f_equal. unfold k, Rdiv. ring. }
  exists (Fin (- k * e)). split; auto. cbv zeta.
  assert (Hke : 0 - - k * e = k * e) by ring.
  unfold cosDeltaCMD. fold p. rewrite Eb, Eg. replace (vh_CL V * 0 * vh_A V) with 0 by ring. rewrite !xdiv0.
  change (xsub (Fin 0) (Fin (- k * e))) with (Fin (0 + - (- k * e))). replace (0 + - (- k * e)) with (k * e) by ring. rewrite xdiv0.
  set (h := g_Ghdot P * hdoti). set (q := g_Gq P).
  destruct (Reqb_spec (vh_mass V * g) 0); [lra|]. destruct (Rltb_spec 0 (vh_mass V * g)); [|lra]. cbn [xinf xmul].
  assert (n0 : 0 <> 180) by lra.
  destruct (Rtotal_order e 0) as [L|[L|L]].
  - assert (Hke2 : k * e < 0) by nra. assert (Hv : g * ri < vi * vi) by nra.
    destruct (Reqb_spec e 0); [lra|]. destruct (Rltb_spec 0 e); [lra|]. cbn [Bool.eqb xinf].
    destruct (Reqb_spec (k * e) 0); [lra|]. destruct (Rltb_spec 0 (k * e)); [lra|]. cbn [Bool.eqb xinf].
    destruct (Reqb_spec q 0); destruct (Rltb_spec 0 q); try lra; destruct (Reqb_spec h 0); destruct (Rltb_spec 0 h); try lra;
      cbn [Bool.eqb xinf xsub xneg xadd]; rewrite ?bank_nan, ?bank_ninf, ?bank_pinf; (split; [split|split; [split|]]);
      intros; try discriminate; try lra; try tauto; try (repeat split; lra); try (left; reflexivity); try (exfalso; lra);
      try (match goal with H : Some _ = Some _ |- _ => injection H; intros; exfalso; lra end).
  - rewrite L. replace (k * 0) with 0 by ring. destruct (Reqb_spec 0 0); [|lra].
    assert (N : forall a b, xadd (xsub NaN a) b = NaN) by (intros [?| | |] [?| | |]; reflexivity). rewrite N, bank_nan.
    assert (vi * vi = g * ri) by nra. (split; [split|split; [split|]]); intros; try discriminate; try (exfalso; lra). left; reflexivity.
  - assert (Hke2 : 0 < k * e) by nra. assert (Hv : vi * vi < g * ri) by nra.
    destruct (Reqb_spec e 0); [lra|]. destruct (Rltb_spec 0 e); [|lra]. cbn [Bool.eqb xinf].
    destruct (Reqb_spec (k * e) 0); [lra|]. destruct (Rltb_spec 0 (k * e)); [|lra]. cbn [Bool.eqb xinf].
    destruct (Reqb_spec q 0); destruct (Rltb_spec 0 q); try lra; destruct (Reqb_spec h 0); destruct (Rltb_spec 0 h); try lra;
      cbn [Bool.eqb xinf xsub xneg xadd]; rewrite ?bank_nan, ?bank_ninf, ?bank_pinf; (split; [split|split; [split|]]);
      intros; try discriminate; try lra; try tauto; try (repeat split; lra); try (left; reflexivity); try (exfalso; lra);
      try (match goal with H : Some _ = Some _ |- _ => injection H; intros; exfalso; lra end).
Qed.

(** So above the atmosphere, a vehicle faster than circular speed that descends with positive gains (the normal
    aerocapture entry) gets no bank command. *)
Theorem C94_entry_above_the_air : forall V P vi ri hdoti qref, 0 < RP (vh_planet V) -> 0 < GM (vh_planet V) -> 0 < ri ->
  0 < vh_mass V -> 0 < vh_CL V -> 0 < vh_A V ->
  GM (vh_planet V) / (RP (vh_planet V) * RP (vh_planet V)) * ri < vi * vi -> 0 < g_Ghdot P -> hdoti <= 0 ->
  qref_of V vi ri = Ok qref -> bank_command (cosDeltaCMD V P vi ri 0 hdoti qref) = None.
Proof.
  intros V P vi ri hdoti qref HRP HGM Hr Hm HC HA Hv HG Hh Hq.
  destruct (C94_vacuum V P vi ri hdoti HRP HGM Hr Hm HC HA) as (q' & Eq & A & B & C).
  rewrite Hq in Eq. injection Eq as <-. destruct C as [C|[C|C]]; auto; exfalso.
  - destruct (proj1 A C) as (K & _). lra.
  - destruct (proj1 B C) as (_ & K & _). nra.
Qed.

Example C94_witness : exists V, Vehicle 300 50 0.3 4.5 0 1.5 VENUS (mkAtm (fun _ => 0.001) (fun _ => 0) (fun _ => 0) (fun _ => 0)) false = Ok V /\
  0 < RP (vh_planet V) /\ 0 < GM (vh_planet V) /\ 0 < vh_mass V /\ 0 < vh_CL V /\ 0 < vh_A V /\
  GM (vh_planet V) / (RP (vh_planet V) * RP (vh_planet V)) * (RP (vh_planet V) + 150000) < 11000 * 11000.
Proof.
  unfold Vehicle. destruct (Reqb_spec 300 0); [lra|]. destruct (Reqb_spec (50 * 4.5) 0); [lra|]. eexists. split; [reflexivity|].
  cbn [vh_planet vh_CL vh_A vh_mass]. unfold VENUS. cbn [RP GM]. repeat split; try lra.
Qed.
