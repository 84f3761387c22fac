(** C134: flights from nearby starts exist and share their fate, so between two entry angles with different verdicts there is one where the verdict turns. *)
From Coq Require Import String List Reals Lra Lia Classical.
Require Import Verif.Base Verif.Numpy Verif.NumpyProofs Verif.PlanetModel Verif.PlanetProofs Verif.AeroModel Verif.HeatModel Verif.PropHeat Verif.TrajectoryModel Verif.TrajectorySpec Verif.TrajectoryProofs Verif.PropTrajectory Verif.FlightProofs Verif.PropFlight
  Verif.ExactSpec Verif.ExactProofs Verif.PropExact Verif.DetSpec Verif.DetProofs Verif.PropDet Verif.NearSpec Verif.NearProofs Verif.PropNear Verif.ExistSpec Verif.ExistProofs Verif.PropExist Verif.ExitSpec Verif.ExitProofs Verif.EnterProofs Verif.PropExit Verif.PropTrap Verif.PropExitRun
  Verif.FrameModel Verif.FrameProofs Verif.ConicSpec Verif.ConicProofs Verif.OrbitScalarModel Verif.OrbiterModel Verif.OrbiterProofs Verif.OrbitModel Verif.OrbitSpec Verif.OrbitProofs Verif.PropOrbit
  Verif.CorridorModel Verif.CorridorSpec Verif.CorridorProofs Verif.PropCorridor Verif.PropExitOrbit Verif.VerdictSpec Verif.VerdictProofs Verif.PropVerdict Verif.NearExitSpec Verif.NearExitProofs Verif.PropNearExit Verif.PropNearVerdict
  Verif.FlowProofs Verif.FlowExitProofs Verif.BoundarySpec.
Import ListNotations.
Local Open Scope R_scope.

Lemma near_start : forall name V i (d : R) kap, Planet name = Ok (vh_planet V) -> vh_user V = false -> 0 < kap -> exists eta, 0 < eta /\ forall i', starts_near eta (vh_planet V) i i' ->
  dist (entry_state (vh_planet V) i) (entry_state (vh_planet V) i') <= kap /\ height (vh_planet V) (entry_state (vh_planet V) i') <= h_thres (vh_planet V).
Proof.
  intros name V i d kap HP Hu Hk. pose proof (Rmin_l kap 1) as K1. pose proof (Rmin_r kap 1) as K2. destruct (near_inputs name V i d (Rmin kap 1) HP) as (eta & He & NI). { split; [apply Rmin_glb_lt; lra|auto]. }
  exists eta. split; [lra|]. intros i' Hi. destruct (NI eta V i' d ltac:(lra) (within_self eta V ltac:(lra) Hu) Hi ltac:(rewrite Rminus_diag_eq, Rabs_R0 by reflexivity; lra)) as (_ & D & H). split; [lra|auto].
Qed.
(** Near a flight through the atmosphere there are flights from all starts near its own, for as long. *)
Theorem C134_flights : forall name V i d T y eps, Planet name = Ok (vh_planet V) -> vh_user V = false -> lipschitz_air (vh_planet V) (vh_atm V) -> passage V i d T y -> 0 <= T -> 0 < eps ->
  exists eta, 0 < eta /\ forall i', starts_near eta (vh_planet V) i i' -> exists z, passage V i' d T z /\ forall t, 0 <= t <= T -> NearSpec.within eps (y t) (z t).
Proof.
  intros name V i d T y eps HP Hu HL (Y0 & Sy & I) HT He. destruct (ref_facts _ _ HP) as (_ & _ & _ & _ & HR & _ & Hr0). destruct (Planet_facts _ _ HP) as (_ & _ & _ & _ & (Ht0 & Hts) & Hthr & _).
  destruct (flow_passage V (d * PI / 180) y T Hu HR Hr0 ltac:(lra) HL HT Sy I eps He) as (kap & Hk & F). rewrite Y0 in F. destruct (near_start name V i d kap HP Hu Hk) as (eta & Heta & NS). exists eta. split; auto. intros i' Hi.
  destruct (NS i' Hi) as (D & H). destruct (F _ D H) as (z & Ez & Sz & Iz & Dz). exists z. split; [split; auto|]. intros t Ht. apply dist_within. specialize (Dz t Ht). lra.
Qed.
(** If it leaves the atmosphere and stays out, so do they, at nearly the same time and in nearly the same state. *)
Theorem C134_leaves : forall name V i d T T2 y eps, Planet name = Ok (vh_planet V) -> vh_user V = false -> lipschitz_air (vh_planet V) (vh_atm V) -> from_inside (vh_planet V) i -> stays_out V i d T T2 y -> 0 < eps ->
  exists eta, 0 < eta /\ forall i', starts_near eta (vh_planet V) i i' -> exists z T', stays_out V i' d T' (T' + (T2 - T)) z /\ Rabs (T' - T) <= eps /\ NearSpec.within eps (y T) (z T').
Proof.
  intros name V i d T T2 y eps HP Hu HL FI SO He. destruct (flow_out name V i d T T2 y HP Hu HL SO (inside_leaves name V i d T y HP FI (proj1 SO)) eps He) as (kap & Hk & F).
  destruct (near_start name V i d kap HP Hu Hk) as (eta & Heta & NS). exists eta. split; auto. intros i' Hi. destruct (NS i' Hi) as (D & H). destruct (F i' D H) as (z & T' & S' & _ & Q1 & Q2). exists z, T'. split; auto. split; [lra|apply dist_within; lra].
Qed.
(** A verdict that is reached holds for all starts nearby. *)
Lemma lost_open : forall name V i d secs, Planet name = Ok (vh_planet V) -> vh_user V = false -> lipschitz_air (vh_planet V) (vh_atm V) -> from_inside (vh_planet V) i -> lost V i d secs ->
  exists eta, 0 < eta /\ forall i', starts_near eta (vh_planet V) i i' -> lost V i' d secs.
Proof.
  intros name V i d secs HP Hu HL FI (T & T2 & y & PA & HT & SK & Hs). destruct (ref_facts _ _ HP) as (_ & _ & Ht & _ & HR & _ & Hr0). destruct (Planet_facts _ _ HP) as (_ & _ & _ & _ & (Ht0 & Hts) & Hthr & _). set (p := vh_planet V) in *.
  pose proof (inside_sinks name V i d T2 T y HP FI PA ltac:(lra) SK) as HT0. set (q := (secs - tau p * T) / tau p). assert (Hq : 0 < q) by (apply Rdiv_lt_0_compat; lra). assert (Eq : tau p * q = secs - tau p * T) by (unfold q; field; lra).
  destruct (flow_sinks V i d T2 y T Hu HR Hr0 ltac:(fold p; lra) HL PA ltac:(lra) SK q Hq) as (kap & Hk & F). destruct (near_start name V i d kap HP Hu Hk) as (eta & Heta & NS). exists eta. split; auto. intros i' Hi. destruct (NS i' Hi) as (D & H).
  destruct (F i' D H) as (z & T' & PZ & HT' & SZ & Q). exists T', T2, z. split; auto. split; auto. split; auto. fold p. apply Rabs_def2 in Q. assert (tau p * T' < tau p * (T + q)) by (apply Rmult_lt_compat_l; lra). lra.
Qed.
Lemma out_open : forall name V i d (J : state -> Prop) secs T T2 y, Planet name = Ok (vh_planet V) -> vh_user V = false -> lipschitz_air (vh_planet V) (vh_atm V) -> from_inside (vh_planet V) i -> let p := vh_planet V in
  stays_out V i d T T2 y -> tau p * T < secs < tau p * T2 -> (exists e, 0 < e /\ forall a, dist (y T) a < e -> J a) ->
  exists eta, 0 < eta /\ forall i', starts_near eta p i i' -> exists T' T2' z, stays_out V i' d T' T2' z /\ tau p * T' < secs < tau p * T2' /\ J (z T').
Proof.
  intros name V i d J secs T T2 y HP Hu HL FI p SO Hs (e & He & HJ). destruct (ref_facts _ _ HP) as (_ & _ & Ht & _). fold p in Ht.
  set (q1 := (secs - tau p * T) / tau p). assert (Hq1 : 0 < q1) by (apply Rdiv_lt_0_compat; lra). assert (Eq1 : tau p * q1 = secs - tau p * T) by (unfold q1; field; lra).
  set (q2 := (tau p * T2 - secs) / tau p). assert (Hq2 : 0 < q2) by (apply Rdiv_lt_0_compat; lra). assert (Eq2 : tau p * q2 = tau p * T2 - secs) by (unfold q2; field; lra).
  set (q := Rmin e (Rmin q1 q2)). assert (Hq : 0 < q) by (repeat apply Rmin_glb_lt; auto). pose proof (Rmin_l e (Rmin q1 q2) : q <= _) as M1. pose proof (Rmin_r e (Rmin q1 q2) : q <= _) as M2. pose proof (Rmin_l q1 q2) as M3. pose proof (Rmin_r q1 q2) as M4.
  destruct (flow_out name V i d T T2 y HP Hu HL SO (inside_leaves name V i d T y HP FI (proj1 SO)) q Hq) as (kap & Hk & F).
  destruct (near_start name V i d kap HP Hu Hk) as (eta & Heta & NS). exists eta. split; auto. intros i' Hi. destruct (NS i' Hi) as (D & H). destruct (F i' D H) as (z & T' & S' & _ & Q1 & Q2). exists T', (T' + (T2 - T)), z. split; auto. split; [|apply HJ; lra].
  apply Rabs_def2 in Q1. assert (tau p * T' < tau p * (T + q1)) by (apply Rmult_lt_compat_l; lra). assert (tau p * (T2 - q2) < tau p * (T' + (T2 - T))) by (apply Rmult_lt_compat_l; lra). lra.
Qed.
Theorem C134_stable : forall name V i d target secs, Planet name = Ok (vh_planet V) -> vh_user V = false -> lipschitz_air (vh_planet V) (vh_atm V) -> from_inside (vh_planet V) i ->
  (forall two, too_high two V i d target secs -> exists eta, 0 < eta /\ forall i', starts_near eta (vh_planet V) i i' -> too_high two V i' d target secs) /\
  (forall two, too_low two V i d target secs -> exists eta, 0 < eta /\ forall i', starts_near eta (vh_planet V) i i' -> too_low two V i' d target secs) /\
  (lost V i d secs -> exists eta, 0 < eta /\ forall i', starts_near eta (vh_planet V) i i' -> lost V i' d secs).
Proof.
  intros name V i d target secs HP Hu HL FI. destruct (ref_facts _ _ HP) as (_ & _ & _ & _ & HR & _). destruct (Planet_facts _ _ HP) as (_ & _ & _ & _ & (Ht0 & Hts) & Hthr & _). set (p := vh_planet V) in *.
  assert (Rp : forall T T2 y, stays_out V i d T T2 y -> 0 < s_r (y T)). { intros T T2 y ((_ & _ & _ & _ & Et & _) & _). fold p in Et. unfold height in Et. assert (0 < RP p * s_r (y T)) by lra. destruct (Rlt_or_le 0 (s_r (y T))); auto. nra. }
  split; [|split; [|apply (lost_open name); auto]].
  - intros two (T & T2 & y & SO & Hs & Hj & Ho). fold p in Hs, Hj, Ho. destruct (verdict_open name two p (y T) target HP (Rp _ _ _ SO) Hj) as (VO & _).
    assert (JO : exists e, 0 < e /\ forall a, dist (y T) a < e -> judged two p a <> vzero /\ overshoots p (position p a) (judged two p a) target) by (destruct (VO Ho) as (e & He & B); exists e; split; auto; intros a Ha; apply (B a Ha)).
    destruct (out_open name V i d (fun a => judged two p a <> vzero /\ overshoots p (position p a) (judged two p a) target) secs T T2 y HP Hu HL FI SO Hs JO) as (eta & He & G).
    exists eta. split; [exact He|]. intros i' Hi. destruct (G i' Hi) as (T' & T2' & z & A1 & A2 & A3 & A4). exists T', T2', z. auto.
  - intros two (T & T2 & y & SO & Hs & Hj & Ho). fold p in Hs, Hj, Ho. destruct (verdict_open name two p (y T) target HP (Rp _ _ _ SO) Hj) as (_ & VO).
    assert (JO : exists e, 0 < e /\ forall a, dist (y T) a < e -> judged two p a <> vzero /\ undershoots p (position p a) (judged two p a) target) by (destruct (VO Ho) as (e & He & B); exists e; split; auto; intros a Ha; apply (B a Ha)).
    destruct (out_open name V i d (fun a => judged two p a <> vzero /\ undershoots p (position p a) (judged two p a) target) secs T T2 y HP Hu HL FI SO Hs JO) as (eta & He & G).
    exists eta. split; [exact He|]. intros i' Hi. destruct (G i' Hi) as (T' & T2' & z & A1 & A2 & A3 & A4). exists T', T2', z. auto.
Qed.
Lemma verdict_stable : forall name V i d target secs a, Planet name = Ok (vh_planet V) -> vh_user V = false -> lipschitz_air (vh_planet V) (vh_atm V) -> from_inside (vh_planet V) i -> verdict V i d target secs a ->
  exists eta, 0 < eta /\ forall i', starts_near eta (vh_planet V) i i' -> verdict V i' d target secs a.
Proof.
  intros name V i d target secs a HP Hu HL FI. destruct (C134_stable name V i d target secs HP Hu HL FI) as (S1 & S2 & S3). intros [(-> & H)|(-> & [H|H])].
  - destruct (S1 false H) as (eta & He & G). exists eta. split; auto. intros i' Hi. left. auto.
  - destruct (S2 false H) as (eta & He & G). exists eta. split; auto. intros i' Hi. right. auto.
  - destruct (S3 H) as (eta & He & G). exists eta. split; auto. intros i' Hi. right. auto.
Qed.
(** No flight has two verdicts. *)
Lemma exits_same : forall V i d T y T' y', vh_user V = false -> 0 < RP (vh_planet V) -> 0 < h_thres (vh_planet V) -> lipschitz_air (vh_planet V) (vh_atm V) -> leaves V i d T y -> leaves V i d T' y' -> T = T' /\ y T = y' T'.
Proof.
  assert (W : forall V i d T y T' y', vh_user V = false -> 0 < RP (vh_planet V) -> 0 < h_thres (vh_planet V) -> lipschitz_air (vh_planet V) (vh_atm V) -> leaves V i d T y -> leaves V i d T' y' -> T <= T' -> T = T' /\ y T = y' T').
  { intros V i d T y T' y' Hu HR H0 HL L L' HT. pose proof L as (HT0 & Y0 & S & I & Et & Hc). pose proof L' as (_ & Y0' & S' & I' & Et' & Hc'). assert (E := leaves_same V i d T y y' T' Hu HR H0 HL L Y0' S' T ltac:(lra) HT).
    destruct (Req_dec T T') as [<-|N]; [auto|exfalso]. destruct (I' T ltac:(lra)) as [Q|(-> & Q1 & Q2)]; [rewrite E in Q; unfold in_air in Q; unfold height in Et; lra|]. rewrite E in Q2. lra. }
  intros V i d T y T' y' Hu HR H0 HL L L'. destruct (Rle_or_lt T T') as [H|H]; [apply (W V i d); auto|]. destruct (W V i d T' y' T y) as (A & B); auto. lra.
Qed.
Lemma not_lost : forall name V i d T T2 y secs, Planet name = Ok (vh_planet V) -> vh_user V = false -> lipschitz_air (vh_planet V) (vh_atm V) -> stays_out V i d T T2 y -> tau (vh_planet V) * T < secs < tau (vh_planet V) * T2 -> ~ lost V i d secs.
Proof.
  intros name V i d T T2 y secs HP Hu HL (L & _) Hs (T' & T2' & z & (Z0 & Sz & Iz) & _ & _ & Hs'). destruct (ref_facts _ _ HP) as (_ & _ & Ht & _ & HR & _). destruct (Planet_facts _ _ HP) as (_ & _ & _ & _ & (Ht0 & Hts) & Hthr & _). set (p := vh_planet V) in *.
  assert (HT : T < T2') by (apply (Rmult_lt_reg_l (tau p)); lra). assert (E := leaves_same V i d T y z T2' Hu HR ltac:(fold p; lra) HL L Z0 Sz T). destruct L as (HT0 & _ & _ & _ & Et & Hc). fold p in Et. specialize (E ltac:(lra) ltac:(lra)).
  destruct (Iz T ltac:(lra)) as [Q|(-> & Q1 & Q2)]; [rewrite E in Q; unfold in_air in Q; unfold height in Et; lra|]. rewrite E in Q2. lra.
Qed.
Lemma not_both : forall p r v target, overshoots p r v target -> undershoots p r v target -> False.
Proof. intros p r v target [H|(_ & ra & A & B)] (H' & ra' & A' & B'); [lra|]. rewrite (apoapsis_unique _ _ _ _ _ A A') in B. lra. Qed.
Theorem C134_single : forall name V i d target secs a a', Planet name = Ok (vh_planet V) -> vh_user V = false -> lipschitz_air (vh_planet V) (vh_atm V) -> verdict V i d target secs a -> verdict V i d target secs a' -> a = a'.
Proof.
  intros name V i d target secs a a' HP Hu HL. destruct (ref_facts _ _ HP) as (_ & _ & Ht & _ & HR & _). destruct (Planet_facts _ _ HP) as (_ & _ & _ & _ & (Ht0 & Hts) & Hthr & _).
  assert (X : too_high false V i d target secs -> too_low false V i d target secs \/ lost V i d secs -> False).
  { intros (T & T2 & y & SO & Hs & Hj & Ho) [(T' & T2' & y' & SO' & Hs' & Hj' & Ho')|H]; [|exact (not_lost name V i d T T2 y secs HP Hu HL SO Hs H)].
    destruct (exits_same V i d T y T' y' Hu HR ltac:(lra) HL (proj1 SO) (proj1 SO')) as (_ & E). rewrite <- E in Ho'. exact (not_both _ _ _ _ Ho Ho'). }
  intros [(-> & H)|(-> & H)] [(-> & H')|(-> & H')]; auto; exfalso; auto.
Qed.
(** Between two entry angles with opposite verdicts there is one at which the verdict turns. *)
Lemma gamma_near : forall eta p i g g', h0_km i * 1000 <= h_thres p -> 0 < eta -> Rabs (g - g') <= eta -> starts_near eta p (with_gamma0 i g) (with_gamma0 i g').
Proof. intros eta p i g g' H He Hg. split; [|exact H]. unfold start_within, with_gamma0. cbn [h0_km theta0_deg phi0_deg v0_kms psi0_deg gamma0_deg drange0_km]. assert (Z : forall x, Rabs (x - x) <= eta) by (intros x; rewrite Rminus_diag_eq, Rabs_R0 by reflexivity; lra). repeat split; auto. Qed.
Lemma first_change : forall (P Q : R -> Prop) lo hi, lo < hi -> P lo -> Q hi -> (forall g, ~ (P g /\ Q g)) ->
  (forall g, lo <= g <= hi -> P g -> exists e, 0 < e /\ forall g', Rabs (g - g') <= e -> P g') -> (forall g, lo <= g <= hi -> Q g -> exists e, 0 < e /\ forall g', Rabs (g - g') <= e -> Q g') ->
  exists b, lo < b < hi /\ ~ P b /\ ~ Q b /\ forall x, lo <= x < b -> P x.
Proof.
  intros P Q lo hi HL P0 Q0 X OP OQ. set (E := fun s => lo <= s <= hi /\ forall x, lo <= x <= s -> P x).
  assert (E0 : E lo) by (split; [lra|]; intros x Hx; replace x with lo by lra; auto). destruct (completeness E) as (b & Ub & Lb). { exists hi. intros s (Hs & _). lra. } { exists lo. auto. }
  assert (Hb : lo <= b <= hi) by (split; [apply Ub; auto|apply Lb; intros s (Hs & _); lra]).
  assert (Bel : forall x, lo <= x < b -> P x). { intros x Hx. apply NNPP. intros N. assert (b <= x); [|lra]. apply Lb. intros s (Hs & Ps). apply Rnot_lt_le. intros L. apply N, Ps. lra. }
  assert (NP : ~ P b).
  { intros Pb. destruct (OP b Hb Pb) as (e & He & Oe). destruct (Req_dec b hi) as [->|N]; [apply (X hi); auto|]. assert (Es : E (Rmin hi (b + e))).
    { pose proof (Rmin_l hi (b + e)). pose proof (Rmin_r hi (b + e)). split; [split; [apply Rmin_glb; lra|auto]|]. intros x Hx. destruct (Rlt_or_le x b) as [L|L]; [apply Bel; lra|]. apply Oe. rewrite Rabs_left1; lra. }
    specialize (Ub _ Es). unfold Rmin in Ub. destruct (Rle_dec hi (b + e)); lra. }
  assert (Hlo : lo < b) by (destruct (Req_dec lo b) as [<-|]; [contradiction|lra]).
  assert (NQ : ~ Q b). { intros Qb. destruct (OQ b Hb Qb) as (e & He & Oe). apply (X (Rmax lo (b - e))). pose proof (Rmax_l lo (b - e)). pose proof (Rmax_r lo (b - e)). assert (Rmax lo (b - e) < b) by (apply Rmax_lub_lt; lra). split; [apply Bel; lra|]. apply Oe. rewrite Rabs_right; lra. }
  exists b. split; [|auto]. split; [auto|]. destruct (Req_dec b hi) as [->|]; [contradiction|lra].
Qed.
Theorem C134_turns : forall name V i bank target secs g g' a, Planet name = Ok (vh_planet V) -> vh_user V = false -> lipschitz_air (vh_planet V) (vh_atm V) ->
  (forall x, CorridorSpec.within g g' x -> from_inside (vh_planet V) (with_gamma0 i x)) -> verdict V (with_gamma0 i g) bank target secs a -> verdict V (with_gamma0 i g') bank target secs (- a) ->
  exists b, turns_at V i bank target secs g g' a b.
Proof.
  intros name V i bank target secs g g' a HP Hu HL FI0 Vg Vg'.
  assert (FI : forall x, x = g \/ between g x g' \/ x = g' -> from_inside (vh_planet V) (with_gamma0 i x)) by (intros x Hx; apply FI0; unfold between, CorridorSpec.within, Rmin, Rmax in *; repeat destruct (Rle_dec _ _); lra).
  set (F := fun a x => verdict V (with_gamma0 i x) bank target secs a).
  assert (Ha : a = -1 \/ a = 1) by (destruct Vg as [(-> & _)|(-> & _)]; auto). assert (Htop : h0_km i * 1000 <= h_thres (vh_planet V)). { destruct (FI g ltac:(auto)) as (_ & [Q|(Q & _)]); cbn [with_gamma0 h0_km] in Q; lra. }
  assert (Op : forall c x, x = g \/ between g x g' \/ x = g' -> F c x -> exists e, 0 < e /\ forall x', Rabs (x - x') <= e -> F c x').
  { intros c x Hx Fx. destruct (verdict_stable name V _ bank target secs c HP Hu HL (FI x Hx) Fx) as (eta & He & G). exists eta. split; auto. intros x' Hx'. apply G, gamma_near; auto. }
  assert (X : forall x, ~ (F a x /\ F (- a) x)). { intros x (A & B). pose proof (C134_single name V _ bank target secs a (- a) HP Hu HL A B). lra. }
  assert (Un : forall b, ~ F a b -> ~ F (- a) b -> undecided V (with_gamma0 i b) bank target secs).
  { intros b N1 N2 c Vc. assert (Hc : c = -1 \/ c = 1) by (destruct Vc as [(-> & _)|(-> & _)]; auto). destruct (Req_dec c a) as [->|N]; [apply N1; auto|]. apply N2. replace (- a) with c by lra. auto. }
  destruct (Rtotal_order g g') as [L|[->|L]].
  - destruct (first_change (F a) (F (- a)) g g' L Vg Vg' X) as (b & Hb & N1 & N2 & B); [intros x Hx; apply Op; unfold between; lra..|]. exists b. split; [left; auto|]. split; [apply Un; auto|]. intros x [Hx|Hx]; [apply B; auto|lra].
  - exfalso. apply (X g'). auto.
  - destruct (first_change (fun x => F a (- x)) (fun x => F (- a) (- x)) (- g) (- g')) as (b & Hb & N1 & N2 & B); [lra|rewrite Ropp_involutive; auto..|intros x; apply X| | |].
    + intros x Hx Fx. destruct (Op a (- x) ltac:(unfold between; lra) Fx) as (e & He & G). exists e. split; auto. intros x' Hx'. apply G. replace (- x - - x') with (- (x - x')) by ring. rewrite Rabs_Ropp. auto.
    + intros x Hx Fx. destruct (Op (- a) (- x) ltac:(unfold between; lra) Fx) as (e & He & G). exists e. split; auto. intros x' Hx'. apply G. replace (- x - - x') with (- (x - x')) by ring. rewrite Rabs_Ropp. auto.
    + exists (- b). split; [right; lra|]. split; [apply Un; auto|]. intros x [Hx|Hx]; [lra|]. specialize (B (- x) ltac:(lra)). cbv beta in B. rewrite Ropp_involutive in B. exact B.
Qed.
(** A flight that leaves in time and stays out has no verdict just when its orbit has its apoapsis at the target, or zero energy. *)
Theorem C134_on_target : forall name V i d target secs T T2 y, Planet name = Ok (vh_planet V) -> vh_user V = false -> lipschitz_air (vh_planet V) (vh_atm V) -> let p := vh_planet V in stays_out V i d T T2 y -> tau p * T < secs < tau p * T2 ->
  let r := position p (y T) in let v := air_velocity p (y T) in let E := energy (GM p) r v in
  undecided V i d target secs <-> E = 0 \/ E < 0 /\ exists ra, is_apoapsis (GM p) E (norm (ang_mom r v)) ra /\ (ra - RP p) / 1000 = target.
Proof.
  intros name V i d target secs T T2 y HP Hu HL p SO Hs r v E. destruct (ref_facts _ _ HP) as (HV & _ & _ & _ & HR & HG & _). destruct (Planet_facts _ _ HP) as (_ & _ & _ & _ & (Ht0 & Hts) & Hthr & _). fold p in HV, HR, HG, Ht0, Hts, Hthr. split.
  - intros UN. pose proof SO as ((_ & _ & _ & _ & Et & Hc) & _). fold p in Et. assert (Hr : 0 < s_r (y T)). { unfold height in Et. assert (0 < RP p * s_r (y T)) by lra. destruct (Rlt_or_le 0 (s_r (y T))); auto. nra. }
    assert (NZ : judged false p (y T) <> vzero) by (apply moving_air; [auto|intros Z; rewrite Z in Hc; lra]).
    assert (N1 : ~ overshoots p r v target) by (intros O; apply (UN (-1)); left; split; auto; exists T, T2, y; auto). assert (N2 : ~ undershoots p r v target) by (intros O; apply (UN 1); right; split; auto; left; exists T, T2, y; auto).
    destruct (Rtotal_order E 0) as [L|[L|L]]; [right|left; auto|exfalso; apply N1; left; exact L].
    split; auto. assert (Hn : 0 < norm r) by (unfold r, position; rewrite sph_norm by nra; nra). destruct (apoapsis_of p r v HG Hn L) as (_ & A). fold E in A. set (ra := - GM p / (2 * E) * _) in A. exists ra. split; auto.
    destruct (Rtotal_order ((ra - RP p) / 1000) target) as [Q|[Q|Q]]; auto; exfalso; [apply N2; split; auto; exists ra; auto|apply N1; right; split; auto; exists ra; auto].
  - intros EQ. assert (NO : ~ overshoots p r v target /\ ~ undershoots p r v target).
    { unfold overshoots, undershoots. fold E. destruct EQ as [Z|(L & ra & A & B)]; [rewrite Z; split; [intros [K|(K & _)]|intros (K & _)]; lra|]. split; [intros [K|(_ & ra' & A' & B')]; [lra|]|intros (_ & ra' & A' & B')]; rewrite (apoapsis_unique _ _ _ _ _ A' A) in B'; lra. }
    destruct NO as (N1 & N2). assert (EX : forall T' T2' y', stays_out V i d T' T2' y' -> y' T' = y T). { intros T' T2' y' SO'. symmetry. apply (exits_same V i d T y T' y' Hu HR ltac:(fold p; lra) HL (proj1 SO) (proj1 SO')). }
    intros a [(_ & T' & T2' & y' & SO' & _ & _ & O)|(_ & [(T' & T2' & y' & SO' & _ & _ & O)|O])]; [rewrite (EX _ _ _ SO') in O; exact (N1 O)|rewrite (EX _ _ _ SO') in O; exact (N2 O)|exact (not_lost name V i d T T2 y secs HP Hu HL SO Hs O)].
Qed.
(** If all flights between leave in time and stay out, one of them hits the target exactly, or leaves with zero energy. *)
Theorem C134_hits : forall name V i bank target secs g g' a, Planet name = Ok (vh_planet V) -> vh_user V = false -> lipschitz_air (vh_planet V) (vh_atm V) ->
  let p := vh_planet V in (forall x, CorridorSpec.within g g' x -> from_inside p (with_gamma0 i x)) -> verdict V (with_gamma0 i g) bank target secs a -> verdict V (with_gamma0 i g') bank target secs (- a) ->
  (forall x, between g x g' -> exists T T2 y, stays_out V (with_gamma0 i x) bank T T2 y /\ tau p * T < secs < tau p * T2) ->
  exists b T T2 y, between g b g' /\ stays_out V (with_gamma0 i b) bank T T2 y /\ tau p * T < secs < tau p * T2 /\
    let r := position p (y T) in let v := air_velocity p (y T) in let E := energy (GM p) r v in E = 0 \/ E < 0 /\ exists ra, is_apoapsis (GM p) E (norm (ang_mom r v)) ra /\ (ra - RP p) / 1000 = target.
Proof.
  intros name V i bank target secs g g' a HP Hu HL p FI V1 V2 OUT. destruct (C134_turns name V i bank target secs g g' a HP Hu HL FI V1 V2) as (b & B & U & _). destruct (OUT b B) as (T & T2 & y & SO & Hs).
  exists b, T, T2, y. split; auto. split; auto. split; auto. apply (C134_on_target name V (with_gamma0 i b) bank target secs T T2 y HP Hu HL SO Hs). exact U.
Qed.
Lemma division_within : forall low high n g, division low high n g -> CorridorSpec.within low high g.
Proof.
  intros low high n g (k & Hk & ->). assert (Pn : 0 < 2 ^ n) by (apply pow_lt; lra). assert (Hk' : 0 <= INR k <= 2 ^ n). { split; [apply pos_INR|]. apply le_INR in Hk. rewrite pow_INR in Hk. replace (INR 2) with 2 in Hk by (cbn; lra). auto. }
  set (t := INR k / 2 ^ n). assert (Ht : 0 <= t <= 1). { unfold t. split; [apply Rmult_le_pos; [lra|left; apply Rinv_0_lt_compat; auto]|]. apply (Rmult_le_reg_r (2 ^ n)); auto. unfold Rdiv. rewrite Rmult_assoc, Rinv_l by lra. lra. }
  replace (low + INR k * ((high - low) / 2 ^ n)) with (low + t * (high - low)) by (unfold t; field; lra). unfold CorridorSpec.within, Rmin, Rmax. destruct (Rle_dec low high); nra.
Qed.
(** The angle that a corridor search returns is within the tolerance of one where the verdict turns. *)
Theorem C134_limit : forall name V i bank target secs low high tol n (truth : R -> R), Planet name = Ok (vh_planet V) -> name <> "URANUS"%string -> vh_user V = false -> lipschitz_air (vh_planet V) (vh_atm V) ->
  (forall x, CorridorSpec.within low high x -> from_inside (vh_planet V) (with_gamma0 i x)) ->
  Rabs (high - low) / 2 ^ n <= tol -> (forall g, division low high n g -> verdict V (with_gamma0 i g) bank target secs (truth g)) -> truth low = - truth high ->
  exists eta, 0 < eta /\ forall E V' i' find tl fl ht dt fuel o lim flag, engine_ok E -> nearby eta E V V' i i' bank bank -> 0 < dt < eta -> In (find, bank) (by_air E secs dt target) ->
    find fuel (mkObj V' i' tl fl ht) low high tol = Some (o, Ok (lim, flag)) ->
    flag = 1 /\ exists other b, Rabs (lim - other) <= tol /\ between low b high /\ Rabs (lim - b) < tol /\ turns_at V i bank target secs lim other (truth lim) b.
Proof.
  intros name V i bank target secs low high tol n truth HP HN Hu HL FI Hn HV HO. assert (FD : forall g, division low high n g -> from_inside (vh_planet V) (with_gamma0 i g)) by (intros g D; apply FI, (division_within _ _ n), D).
  destruct (C131_limit name V i bank target secs low high tol n truth HP HN Hu HL FD Hn HV) as (eta & He & G). exists eta. split; auto.
  intros E V' i' find tl fl ht dt fuel o lim flag HE HX Hdt HI H. destruct (G E V' i' find tl fl ht dt fuel o lim flag HE HX Hdt HI H) as [(-> & _ & other & D1 & D2 & T1 & W1 & W2 & TO)|(_ & _ & Q)].
  2:{ exfalso. destruct (division_ends low high n) as (D1 & _). destruct (HV low D1) as [(K & _)|(K & _)]; lra. }
  split; auto. assert (V2 := HV other D2). rewrite TO in V2.
  assert (FI' : forall x, CorridorSpec.within lim other x -> from_inside (vh_planet V) (with_gamma0 i x)). { intros x Hx. apply FI. unfold CorridorSpec.within, Rmin, Rmax in *. repeat destruct (Rle_dec _ _); lra. }
  destruct (C134_turns name V i bank target secs lim other (truth lim) HP Hu HL FI' (HV lim D1) V2) as (b & TB). exists other, b. split; auto. pose proof TB as (B & _).
  split; [|split; auto]; unfold between, CorridorSpec.within, Rmin, Rmax, Rabs in *; repeat destruct (Rle_dec _ _); repeat destruct (Rcase_abs _); lra.
Qed.
(** The corridor width that is returned is the distance between two such angles, to within the two tolerances. *)
Theorem C134_width : forall name V i target secs lo ho lu hu to tu no nu (so su : R -> R), Planet name = Ok (vh_planet V) -> name <> "URANUS"%string -> vh_user V = false -> lipschitz_air (vh_planet V) (vh_atm V) ->
  (forall x, CorridorSpec.within lo ho x \/ CorridorSpec.within lu hu x -> from_inside (vh_planet V) (with_gamma0 i x)) ->
  Rabs (ho - lo) / 2 ^ no <= to -> (forall g, division lo ho no g -> verdict V (with_gamma0 i g) 180 target secs (so g)) -> so lo = - so ho ->
  Rabs (hu - lu) / 2 ^ nu <= tu -> (forall g, division lu hu nu g -> verdict V (with_gamma0 i g) 0 target secs (su g)) -> su lu = - su hu ->
  exists eta, 0 < eta /\ forall E V' i' tl fl ht dt fuel o w, engine_ok E -> nearby eta E V V' i i' 180 180 -> nearby eta E V V' i i' 0 0 -> 0 < dt < eta ->
    computeTCW E fuel (mkObj V' i' tl fl ht) secs dt lo ho lu hu to tu target = Some (o, Ok w) ->
    exists bo bu, between lo bo ho /\ undecided V (with_gamma0 i bo) 180 target secs /\ between lu bu hu /\ undecided V (with_gamma0 i bu) 0 target secs /\ Rabs (w - (bo - bu)) < to + tu.
Proof.
  intros name V i target secs lo ho lu hu to tu no nu so su HP HN Hu HL FI Ho VO SO Hlu VU SU.
  destruct (C134_limit name V i 180 target secs lo ho to no so HP HN Hu HL ltac:(intros; apply FI; auto) Ho VO SO) as (d1 & Hd1 & G1). destruct (C134_limit name V i 0 target secs lu hu tu nu su HP HN Hu HL ltac:(intros; apply FI; auto) Hlu VU SU) as (d2 & Hd2 & G2).
  exists (Rmin d1 d2). split; [apply Rmin_glb_lt; auto|]. pose proof (Rmin_l d1 d2) as N1. pose proof (Rmin_r d1 d2) as N2. intros E V' i' tl fl ht dt fuel o w HE HX HY Hdt K. unfold computeTCW in K.
  destruct (then_ok _ _ _ _ K) as (o1 & [l1 f1] & E1 & K1). cbv beta in K1. destruct (then_ok _ _ _ _ K1) as (o2 & [l2 f2] & E2 & K2). cbn [fst] in K2. injection K2 as _ <-.
  assert (I1 : In (fun n o low high tol => findOverShootLimit E n o secs dt low high tol target, 180) (by_air E secs dt target)) by (left; reflexivity).
  assert (I2 : In (fun n o low high tol => findUnderShootLimit E n o secs dt low high tol target, 0) (by_air E secs dt target)) by (right; left; reflexivity).
  destruct (C49_restored E secs dt target (fun n o low high tol => findOverShootLimit E n o secs dt low high tol target) (fun o => hitsTargetApoapsis E o secs dt 180 target) fuel (mkObj V' i' tl fl ht) _ _ _ _ _ ltac:(left; reflexivity) E1) as (_ & R1 & R2 & R3).
  cbn [ob_veh ob_init ob_tol] in R1, R2, R3. destruct o1 as [V1 i1 t1 fl1 ht1]. cbn [ob_veh ob_init ob_tol] in R1, R2, R3. subst V1 i1 t1.
  destruct (G1 E V' i' _ tl fl ht dt fuel _ l1 f1 HE (nearby_mono _ _ _ _ _ _ _ _ _ N1 HX) ltac:(lra) I1 E1) as (_ & x1 & bo & _ & P1 & B1 & (_ & U1 & _)). destruct (G2 E V' i' _ tl fl1 ht1 dt fuel _ l2 f2 HE (nearby_mono _ _ _ _ _ _ _ _ _ N2 HY) ltac:(lra) I2 E2) as (_ & x2 & bu & _ & P2 & B2 & (_ & U2 & _)).
  exists bo, bu. do 4 (split; auto). apply Rabs_def2 in B1. apply Rabs_def2 in B2. apply Rabs_def1; lra.
Qed.
