(** C134: a search whose answer is next to an entry angle where the verdict turns. *)
From Coq Require Import String List Reals Lra Lia Classical.
Require Import Verif.Base Verif.Numpy Verif.NumpyProofs Verif.PlanetModel Verif.PlanetProofs Verif.AeroModel Verif.HeatModel Verif.PropHeat Verif.TrajectoryModel Verif.TrajectorySpec Verif.TrajectoryProofs Verif.PropTrajectory Verif.FlightProofs Verif.PropFlight
  Verif.ExactSpec Verif.ExactProofs Verif.PropExact Verif.DetSpec Verif.DetProofs Verif.PropDet Verif.NearSpec Verif.NearProofs Verif.PropNear Verif.ExistSpec Verif.ExistProofs Verif.PropExist Verif.PropExistEx Verif.ExitSpec Verif.ExitProofs Verif.EnterProofs Verif.PropExit Verif.PropTrap Verif.PropExitRun
  Verif.CorridorModel Verif.CorridorSpec Verif.CorridorProofs Verif.PropCorridor Verif.PropExitOrbit Verif.VerdictSpec Verif.VerdictProofs Verif.PropVerdict Verif.PropVerdictEx Verif.NearExitSpec Verif.NearExitProofs Verif.PropNearExit Verif.PropNearVerdict Verif.PropNearExitEx
  Verif.FlowProofs Verif.FlowExitProofs Verif.BoundarySpec Verif.PropBoundary.
Import ListNotations.
Local Open Scope R_scope.

(** A flight with a verdict lasts. *)
Lemma verdict_flies : forall name V i d target secs a, Planet name = Ok (vh_planet V) -> from_inside (vh_planet V) i -> verdict V i d target secs a -> exists T y, 0 < T /\ passage V i d T y.
Proof.
  intros name V i d target secs a HP FI H.
  assert (Q : (exists T y, leaves V i d T y) \/ lost V i d secs).
  { destruct H as [(_ & T & T2 & y & (L & _) & _)|(_ & [(T & T2 & y & (L & _) & _)|L])]; [left; exists T, y; exact L|left; exists T, y; exact L|right; exact L]. }
  destruct Q as [(T & y & L)|(T & T2 & y & PA & HT & _)]; [|exists T2, y; split; [lra|exact PA]].
  pose proof (inside_leaves name V i d T y HP FI L) as HT. destruct L as (_ & Y0 & S & I & _). exists (T / 2), y. split; [lra|]. split; auto. split; [apply (solves_upto _ _ T); [auto|lra]|]. intros t Ht. apply I. lra.
Qed.
Example C134_witness : exists V i target secs, Vehicle 300 50 0.3 4.5 0 1.5 VENUS thick false = Ok V /\ lipschitz_air VENUS thick /\ (forall g, from_inside VENUS (with_gamma0 i g)) /\
  (exists T y, 0 < T /\ passage V (with_gamma0 i 30) 180 T y) /\ (exists a, verdict V (with_gamma0 i 30) 180 target secs a /\ verdict V (with_gamma0 i 90) 180 target secs (- a)) /\
  (exists delta, 0 < delta /\ forall dt, 0 < dt < delta -> exists o b, findOverShootLimit ideal 1 (mkObj V i 1 None None) secs dt 30 90 30 target = Some (o, Ok (60, 1)) /\ Rabs (60 - b) < 30 /\ 30 < b < 90 /\ undecided V (with_gamma0 i b) 180 target secs) /\
  
  (forall eta bank, 0 < eta -> nearby eta ideal V V i i bank bank) /\ exists so su : R -> R, (forall g, division 30 90 1 g -> verdict V (with_gamma0 i g) 180 target secs (so g) /\ verdict V (with_gamma0 i g) 0 target secs (su g)) /\ so 30 = - so 90 /\ su 30 = - su 90.
Proof.
  destruct C131_witness as (V & b & target & secs & s & HV & Hs & FI & TO & TU & NB & delta & Hd & RUN). destruct thick_facts as (_ & HL). destruct (Vehicle_inv _ _ _ _ _ _ _ _ _ _ HV) as (_ & _ & _ & _ & _ & _ & _ & EP & EA & EU & _).
  assert (HP : Planet "VENUS" = Ok (vh_planet V)) by (rewrite EP; reflexivity). assert (HL' : lipschitz_air (vh_planet V) (vh_atm V)) by (rewrite EP, EA; exact HL).
  assert (TT : forall bank, true_boundary V (below s 45) bank target secs 30 90 1 b -> exists truth : R -> R, (forall g, division 30 90 1 g -> verdict V (with_gamma0 (below s 45) g) bank target secs (truth g)) /\ truth 30 = - truth 90).
  { intros bank (Hb & Nd & c & HS). exists (fun g => if Rlt_dec g b then c else - c). split; [|destruct (Rlt_dec 30 b), (Rlt_dec 90 b); lra].
    intros g D. destruct (HS g D) as (K1 & K2). destruct (Rlt_dec g b); [auto|]. destruct (Req_dec g b) as [->|]; [contradiction|]. apply K2. lra. }
  destruct (TT 180 TO) as (so & VO & SO). destruct (TT 0 TU) as (su & VU & SU). destruct (division_ends 30 90 1) as (D1 & D2).
  assert (FI' : forall x, from_inside (vh_planet V) (with_gamma0 (below s 45) x)) by (rewrite EP; exact FI).
  exists V, (below s 45), target, secs. split; auto. split; auto. split; auto. split; [apply (verdict_flies "VENUS" V _ 180 target secs (so 30) HP (FI' 30) (VO 30 D1))|]. split; [exists (so 30); split; [auto|]; rewrite SO, Ropp_involutive; auto|]. split.
  - destruct (C134_limit "VENUS" V (below s 45) 180 target secs 30 90 30 1 so HP ltac:(discriminate) EU HL' ltac:(intros; apply FI') ltac:(rewrite Rabs_right by lra; cbn; lra) VO SO) as (eta & He & G). exists (Rmin delta eta). split; [apply Rmin_glb_lt; auto|]. intros dt Hdt. pose proof (Rmin_l delta eta). pose proof (Rmin_r delta eta).
    destruct (RUN dt ltac:(lra)) as (o & R1 & _). exists o. destruct (G ideal V (below s 45) (fun n o low high tol => findOverShootLimit ideal n o secs dt low high tol target) 1 None None dt 1%nat o 60 1 ideal_ok (NB eta 180 He) ltac:(lra) (or_introl eq_refl) R1) as (_ & other & b' & _ & B1 & B2 & (_ & U & _)).
    exists b'. split; auto. split; auto. split; [unfold between in B1; lra|auto].
  - split; [intros; apply NB; auto|]. exists so, su. split; [intros g D; split; auto|auto].
Qed.
(** A flight that leaves in time and stays out, and a target that makes it one without a verdict. *)
Example C134_on_target_witness : exists V i secs T T2 y target, Vehicle 300 50 0.3 4.5 0 1.5 VENUS thick false = Ok V /\ stays_out V i 30 T T2 y /\ tau VENUS * T < secs < tau VENUS * T2 /\ undecided V i 30 target secs.
Proof.
  destruct C130_answer_witness as (V & HV & HL & (i & secs & target & Hs & _ & TL) & _). destruct (Vehicle_inv _ _ _ _ _ _ _ _ _ _ HV) as (_ & _ & _ & _ & _ & _ & _ & EP & EA & EU & _).
  assert (HP : Planet "VENUS" = Ok (vh_planet V)) by (rewrite EP; reflexivity). assert (HL' : lipschitz_air (vh_planet V) (vh_atm V)) by (rewrite EP, EA; exact HL).
  destruct TL as (T & T2 & y & SO & Hts & _ & (L & ra & A & _)). exists V, i, secs, T, T2, y, ((ra - RP (vh_planet V)) / 1000). split; auto. split; auto. split; [rewrite EP in Hts; exact Hts|].
  apply (C134_on_target "VENUS" V i 30 _ secs T T2 y HP EU HL' SO Hts). right. split; [exact L|]. exists ra. split; [exact A|reflexivity].
Qed.
