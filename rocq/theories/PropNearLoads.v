(** C135: what the instruments read depends continuously on the start, the vehicle, the bank angle, the atmosphere and the integrator's error. *)
From Coq Require Import String List Ranalysis Rpower.
Require Import Verif.Base Verif.Numpy Verif.PlanetModel Verif.PlanetProofs Verif.AeroModel Verif.HeatModel Verif.TrajectoryModel Verif.TrajectorySpec Verif.TrajectoryProofs Verif.FlightProofs
  Verif.PropTrajectory Verif.PropFlight Verif.ReportSpec Verif.ExactSpec Verif.ExactProofs Verif.DetSpec Verif.DetProofs Verif.PropDet Verif.NearSpec Verif.NearProofs Verif.PropNear Verif.NearLoadSpec
  Verif.PropHeat Verif.HeatIntSpec Verif.HeatIntProofs Verif.ExitSpec Verif.NearExitSpec Verif.ExistProofs Verif.PropExist Verif.PropNearTop.
Import ListNotations.
Local Open Scope R_scope.

Section Limits.
  Variable X : Type.
  Variable close : R -> X -> Prop.
  Hypothesis mono : forall e e' x, e <= e' -> close e x -> close e' x.
  Definition soon (P : X -> Prop) : Prop := exists e, 0 < e /\ forall x, close e x -> P x.
  Definition tends (g : X -> R) (l : R) : Prop := forall eps, 0 < eps -> soon (fun x => Rabs (g x - l) < eps).
  Definition otends (g : X -> option R) (l : R) : Prop := exists g', tends g' l /\ soon (fun x => g x = Some (g' x)).
  Lemma soon_and : forall P Q : X -> Prop, soon P -> soon Q -> soon (fun x => P x /\ Q x).
  Proof.
    intros P Q (e1 & H1 & A) (e2 & H2 & B). exists (Rmin e1 e2). split; [apply Rmin_glb_lt; auto|]. intros x Hx.
    split; [apply A|apply B]; (eapply mono; [|exact Hx]); [apply Rmin_l|apply Rmin_r].
  Qed.
  Lemma soon_mono : forall P Q : X -> Prop, (forall x, P x -> Q x) -> soon P -> soon Q.
  Proof. intros P Q H (e & He & A). exists e. auto. Qed.
  Lemma tends_const : forall c, tends (fun _ => c) c.
  Proof. intros c eps He. exists 1. split; [lra|]. intros x _. rewrite Rminus_diag_eq, Rabs_R0; auto. Qed.
  Lemma tends_plus : forall g h a b, tends g a -> tends h b -> tends (fun x => g x + h x) (a + b).
  Proof.
    intros g h a b A B eps He. eapply soon_mono; [|apply soon_and; [apply (A (eps / 2)); lra|apply (B (eps / 2)); lra]].
    intros x (U & W). replace (g x + h x - (a + b)) with ((g x - a) + (h x - b)) by ring. eapply Rle_lt_trans; [apply Rabs_triang|]. lra.
  Qed.
  Lemma tends_comp : forall g a F, continuity_pt F a -> tends g a -> tends (fun x => F (g x)) (F a).
  Proof.
    intros g a F C A eps He. destruct (C eps He) as (d & Hd & K). eapply soon_mono; [|apply (A d Hd)]. intros x U.
    destruct (Req_dec a (g x)) as [<-|N]; [rewrite Rminus_diag_eq, Rabs_R0; auto|]. apply (K (g x)). split; [split; [exact I|auto]|exact U].
  Qed.
  Lemma tends_opp : forall g a, tends g a -> tends (fun x => - g x) (- a).
  Proof. intros g a A. apply (tends_comp g a (fun u => - u)); auto. reg. Qed.
  Lemma tends_scal : forall c g a, tends g a -> tends (fun x => c * g x) (c * a).
  Proof. intros c g a A. apply (tends_comp g a (fun u => c * u)); auto. reg. Qed.
  Lemma tends_ext : forall g h a b, (forall x, g x = h x) -> a = b -> tends g a -> tends h b.
  Proof. intros g h a b E <- A eps He. eapply soon_mono; [|apply (A eps He)]. intros x U. rewrite <- E. exact U. Qed.
  Lemma tends_sqr : forall g a, tends g a -> tends (fun x => g x * g x) (a * a).
  Proof. intros g a A. apply (tends_comp g a (fun u => u * u)); auto. reg. Qed.
  Lemma tends_mult : forall g h a b, tends g a -> tends h b -> tends (fun x => g x * h x) (a * b).
  Proof.
    intros g h a b A B. pose proof (tends_sqr _ _ (tends_plus _ _ _ _ A B)) as P. pose proof (tends_sqr _ _ (tends_plus _ _ _ _ A (tends_opp _ _ B))) as Q.
    eapply tends_ext; [| |exact (tends_scal (1 / 4) _ _ (tends_plus _ _ _ _ P (tends_opp _ _ Q)))]; [intros x|]; cbv beta; field.
  Qed.
  Lemma tends_pos : forall g a, tends g a -> 0 < a -> soon (fun x => 0 < g x).
  Proof. intros g a A Ha. eapply soon_mono; [|apply (A a Ha)]. intros x U. apply Rabs_def2 in U. lra. Qed.
  Lemma tends_neg : forall g a, tends g a -> a < 0 -> soon (fun x => g x < 0).
  Proof. intros g a A Ha. eapply soon_mono; [|apply (A (- a)); lra]. intros x U. apply Rabs_def2 in U. lra. Qed.
  Lemma tends_below : forall g a c, tends g a -> a < c -> soon (fun x => g x < c).
  Proof. intros g a c A Ha. eapply soon_mono; [|apply (A (c - a)); lra]. intros x U. apply Rabs_def2 in U. lra. Qed.
  Lemma tends_over : forall g a c, tends g a -> c < a -> soon (fun x => c < g x).
  Proof. intros g a c A Ha. eapply soon_mono; [|apply (A (a - c)); lra]. intros x U. apply Rabs_def2 in U. lra. Qed.
  Lemma otends_some : forall g a, tends g a -> otends (fun x => Some (g x)) a.
  Proof. intros g a A. exists g. split; auto. exists 1. split; [lra|auto]. Qed.
  Lemma otends_bind : forall g a (F : X -> R -> option R) b, otends g a -> (forall h, tends h a -> otends (fun x => F x (h x)) b) -> otends (fun x => obind (g x) (F x)) b.
  Proof.
    intros g a F b (g' & A & S) H. destruct (H g' A) as (h & B & S'). exists h. split; auto. eapply soon_mono; [|apply (soon_and _ _ S S')].
    intros x (-> & U). exact U.
  Qed.
  Lemma otends_soon : forall g h a, soon (fun x => g x = h x) -> otends g a -> otends h a.
  Proof. intros g h a S (g' & A & S'). exists g'. split; auto. eapply soon_mono; [|apply (soon_and _ _ S S')]. intros x (<- & U). exact U. Qed.
  Lemma otends_pow : forall g a y, 0 < a -> tends g a -> otends (fun x => np_pow (g x) y) (Rpower a y).
  Proof.
    intros g a y Ha A. exists (fun x => Rpower (g x) y). split.
    - apply (tends_comp g a (fun u => Rpower u y)); auto. apply derivable_continuous_pt. exists (y * Rpower a (y - 1)). apply derivable_pt_lim_power. auto.
    - eapply soon_mono; [|apply (tends_pos g a A Ha)]. intros x U. unfold np_pow. apply Rltb_true in U. rewrite U. reflexivity.
  Qed.
  Lemma otends_sqrt : forall g a, 0 < a -> tends g a -> otends (fun x => np_sqrt (g x)) (sqrt a).
  Proof.
    intros g a Ha A. exists (fun x => sqrt (g x)). split.
    - apply (tends_comp g a sqrt); auto. apply continuity_pt_sqrt. lra.
    - eapply soon_mono; [|apply (tends_pos g a A Ha)]. intros x U. apply np_sqrt_some. lra.
  Qed.
  Lemma otends_div : forall g h a b, 0 < b -> tends g a -> tends h b -> otends (fun x => np_div (g x) (h x)) (a / b).
  Proof.
    intros g h a b Hb A B. exists (fun x => g x / h x). split.
    - apply tends_mult; auto. apply (tends_comp h b (fun u => / u)); auto. reg. lra.
    - eapply soon_mono; [|apply (tends_pos h b B Hb)]. intros x U. unfold np_div. destruct (Reqb_spec (h x) 0); [lra|reflexivity].
  Qed.
End Limits.

(** One point of another flight: its vehicle, bank angle in degrees, altitude and speed. *)
Record probe := mkProbe { b_veh : vehicle; b_bank : R; b_h : R; b_v : R }.
Definition beside (V : vehicle) (d h v eta : R) (x : probe) : Prop :=
  vehicle_within eta V (b_veh x) /\ build_within eta V (b_veh x) /\ Rabs (d - b_bank x) <= eta /\ Rabs (h - b_h x) <= eta /\ Rabs (v - b_v x) <= eta /\ 0 < b_h x <= h_thres (vh_planet V).
Lemma beside_mono : forall V d h v e e' x, e <= e' -> beside V d h v e x -> beside V d h v e' x.
Proof.
  intros V d h v e e' x Hl ((A1 & A2 & A3 & A4 & A5) & (B1 & B2 & B3 & B4) & C & D & F & I1 & I2).
  assert (Q : forall u, u <= e -> u <= e') by (intros; lra). unfold beside, vehicle_within, build_within. repeat split; auto.
Qed.
Section Readings.
  Variables (V : vehicle) (d h v : R).
  Hypothesis Hh : 0 < h <= h_thres (vh_planet V).
  Hypothesis HL : lipschitz_air (vh_planet V) (vh_atm V).
  Let T := tends probe (beside V d h v).
  Let M := beside_mono V d h v.
  Lemma by_bound : forall (g : probe -> R) a, (forall eta x, beside V d h v eta x -> Rabs (a - g x) <= eta) -> T g a.
  Proof. intros g a H eps He. exists (eps / 2). split; [lra|]. intros x Hx. specialize (H _ _ Hx). rewrite Rabs_minus_sym. lra. Qed.
  Lemma at_h : T b_h h. Proof. apply by_bound. intros eta x H. apply H. Qed.
  Lemma at_v : T b_v v. Proof. apply by_bound. intros eta x H. apply H. Qed.
  Lemma at_d : T b_bank d. Proof. apply by_bound. intros eta x H. apply H. Qed.
  Lemma at_drag : T (fun x => vh_A (b_veh x) * vh_CD (b_veh x) / vh_mass (b_veh x)) (vh_A V * vh_CD V / vh_mass V).
  Proof. apply by_bound. intros eta x H. apply H. Qed.
  Lemma at_lift : T (fun x => vh_A (b_veh x) * vh_CL (b_veh x) / vh_mass (b_veh x)) (vh_A V * vh_CL V / vh_mass V).
  Proof. apply by_bound. intros eta x H. apply H. Qed.
  Lemma at_nose : T (fun x => vh_RN (b_veh x)) (vh_RN V).
  Proof. apply by_bound. intros eta x H. apply H. Qed.
  Lemma at_profile : forall read : atmosphere -> R -> R, (exists L, forall a b, 0 <= a <= h_thres (vh_planet V) -> 0 <= b <= h_thres (vh_planet V) -> Rabs (read (vh_atm V) a - read (vh_atm V) b) <= L * Rabs (a - b)) ->
    (forall eta x, beside V d h v eta x -> forall a, 0 <= a <= h_thres (vh_planet V) -> Rabs (read (vh_atm V) a - read (vh_atm (b_veh x)) a) <= eta) ->
    T (fun x => read (vh_atm (b_veh x)) (b_h x)) (read (vh_atm V) h).
  Proof.
    intros read (L & HLr) Hn eps He. set (K := Rabs L + 1). pose proof (Rabs_pos L). assert (HK : 0 < K) by (unfold K; lra).
    set (e := eps / (2 * (K + 1))). assert (He0 : 0 < e) by (apply Rdiv_lt_0_compat; lra).
    assert (H3 : (K + 1) * e < eps).
    { assert ((K + 1) * e = eps / 2) by (unfold e; field; lra). lra. }
    exists e. split; auto. intros x Hx. pose proof Hx as (_ & _ & _ & Dh & _ & Ih0).
    assert (Ih : 0 <= b_h x <= h_thres (vh_planet V)) by lra.
    specialize (Hn _ _ Hx _ Ih). specialize (HLr h (b_h x) ltac:(lra) Ih).
    assert (L * Rabs (h - b_h x) <= K * e).
    { pose proof (Rle_abs L). pose proof (Rabs_pos (h - b_h x)). unfold K. apply Rle_trans with ((Rabs L + 1) * Rabs (h - b_h x)); [apply Rmult_le_compat_r; lra|apply Rmult_le_compat_l; lra]. }
    replace (read (vh_atm (b_veh x)) (b_h x) - read (vh_atm V) h) with (- ((read (vh_atm V) h - read (vh_atm V) (b_h x)) + (read (vh_atm V) (b_h x) - read (vh_atm (b_veh x)) (b_h x)))) by ring.
    rewrite Rabs_Ropp. eapply Rle_lt_trans; [apply Rabs_triang|]. lra.
  Qed.
  Lemma at_rho : T (fun x => density_int (vh_atm (b_veh x)) (b_h x)) (density_int (vh_atm V) h).
  Proof. apply (at_profile density_int HL). intros eta x H. apply H. Qed.
  Lemma at_pressure : lipschitz_pressure (vh_planet V) (vh_atm V) -> T (fun x => pressure_int (vh_atm (b_veh x)) (b_h x)) (pressure_int (vh_atm V) h).
  Proof. intros HLp. apply (at_profile pressure_int HLp). intros eta x H. apply H. Qed.
  Lemma at_q : T (fun x => density_int (vh_atm (b_veh x)) (b_h x) * b_v x * b_v x / 2) (density_int (vh_atm V) h * v * v / 2).
  Proof. unfold Rdiv. apply tends_mult; [exact M| |apply tends_const]. repeat (apply tends_mult; [exact M| |exact at_v]). exact at_rho. Qed.
  Lemma at_acc : forall C : vehicle -> R, T (fun x => vh_A (b_veh x) * C (b_veh x) / vh_mass (b_veh x)) (vh_A V * C V / vh_mass V) ->
    T (fun x => density_int (vh_atm (b_veh x)) (b_h x) * b_v x * b_v x / 2 * vh_A (b_veh x) * C (b_veh x) / vh_mass (b_veh x)) (density_int (vh_atm V) h * v * v / 2 * vh_A V * C V / vh_mass V).
  Proof. intros C H. eapply tends_ext; [| |exact (tends_mult _ _ M _ _ _ _ at_q H)]; [intros x|]; unfold Rdiv; ring. Qed.
  Lemma at_net : T (fun x => let q := density_int (vh_atm (b_veh x)) (b_h x) * b_v x * b_v x / 2 in
      let D := q * vh_A (b_veh x) * vh_CD (b_veh x) / vh_mass (b_veh x) in let G := q * vh_A (b_veh x) * vh_CL (b_veh x) / vh_mass (b_veh x) in
      D * D + (G * cos (b_bank x * PI / 180)) * (G * cos (b_bank x * PI / 180)) + 2 * (G * sin (b_bank x * PI / 180)))
    (let q := density_int (vh_atm V) h * v * v / 2 in let D := q * vh_A V * vh_CD V / vh_mass V in let G := q * vh_A V * vh_CL V / vh_mass V in
      D * D + (G * cos (d * PI / 180)) * (G * cos (d * PI / 180)) + 2 * (G * sin (d * PI / 180))).
  Proof.
    cbv zeta. pose proof (at_acc vh_CD at_drag) as A. pose proof (at_acc vh_CL at_lift) as B.
    assert (C : T (fun x => cos (b_bank x * PI / 180)) (cos (d * PI / 180))) by (apply (tends_comp _ _ b_bank d (fun u => cos (u * PI / 180))); [reg|exact at_d]).
    assert (S : T (fun x => sin (b_bank x * PI / 180)) (sin (d * PI / 180))) by (apply (tends_comp _ _ b_bank d (fun u => sin (u * PI / 180))); [reg|exact at_d]).
    apply tends_plus; [exact M|apply tends_plus; [exact M| |]|].
    - apply tends_mult; [exact M| |]; exact A.
    - apply tends_mult; [exact M| |]; (apply tends_mult; [exact M|exact B|exact C]).
    - apply tends_scal. apply tends_mult; [exact M|exact B|exact S].
  Qed.
End Readings.
(** The load reading near a radicand. *)
Lemma load_near : forall X (close : R -> X -> Prop) (g : X -> R) a eps, (forall e e' x, e <= e' -> close e x -> close e' x) -> tends X close g a -> 0 < eps ->
  soon X close (fun x => forall u w, load_is a u -> load_is (g x) w -> u = Some 0 \/ numbers_within eps u w \/ u = None /\ w = None).
Proof.
  intros X close g a eps M A He. destruct (Rtotal_order a 0) as [N|[->|P]].
  - eapply soon_mono; [|exact (tends_neg _ _ _ _ A N)]. intros x Hx u w (_ & U) (_ & W). right. right. split; auto.
  - exists 1. split; [lra|]. intros x _ u w (U & _) _. left. rewrite U, sqrt_0 by lra. f_equal. lra.
  - assert (S : tends X close (fun x => sqrt (g x) / 9.80665) (sqrt a / 9.80665)).
    { apply (tends_comp _ _ g a (fun u => sqrt u / 9.80665)); auto. apply (continuity_pt_mult sqrt (fun _ => / 9.80665)); [apply continuity_pt_sqrt; lra|reg]. }
    eapply soon_mono; [|exact (soon_and _ _ M _ _ (tends_pos _ _ _ _ A P) (S eps He))]. intros x (Hx & D) u w (U & _) (W & _). right. left.
    exists (sqrt a / 9.80665), (sqrt (g x) / 9.80665). split; [apply U; lra|]. split; [apply W; lra|]. rewrite Rabs_minus_sym. exact D.
Qed.
(** Numbers the laws of heating give near a point. *)
Lemma number_near : forall X (close : R -> X -> Prop) (g : X -> option R) l eps, (forall e e' x, e <= e' -> close e x -> close e' x) -> otends X close g l -> 0 < eps ->
  soon X close (fun x => numbers_within eps (Some l) (g x)).
Proof.
  intros X close g l eps M (g' & A & S) He. eapply soon_mono; [|exact (soon_and _ _ M _ _ S (A eps He))]. intros x (-> & D). exists l, (g' x). split; auto. split; auto. rewrite Rabs_minus_sym. exact D.
Qed.
Lemma con_continuous : forall id law X (close : R -> X -> Prop) (N rho v : X -> R) N0 r0 v0, (forall e e' x, e <= e' -> close e x -> close e' x) -> con_law id = Some law ->
  tends X close N N0 -> tends X close rho r0 -> tends X close v v0 -> 0 < N0 -> 0 < r0 -> 0 < v0 ->
  exists l, law N0 r0 v0 = Some l /\ otends X close (fun x => law (N x) (rho x) (v x)) l.
Proof.
  intros id law X close N rho v N0 r0 v0 M HC AN AR AV PN PR PV.
  assert (SG : forall k, exists l, con_sutton_graves k N0 r0 v0 = Some l /\ otends X close (fun x => con_sutton_graves k (N x) (rho x) (v x)) l).
  { intros k. unfold con_sutton_graves. exists (k * sqrt (r0 / N0) * v0 ^ 3). assert (0 < r0 / N0) by (apply Rdiv_lt_0_compat; auto). split.
    - unfold np_div. destruct (Reqb_spec N0 0); [lra|]. cbn [obind]. rewrite np_sqrt_some by lra. reflexivity.
    - apply (otends_bind _ _ M _ (r0 / N0)); [apply otends_div; auto|]. intros q Q. apply (otends_bind _ _ M _ (sqrt (r0 / N0))); [apply otends_sqrt; auto|]. intros s S'.
      apply otends_some. apply tends_mult; [exact M|apply tends_scal; exact S'|]. apply (tends_comp _ _ v v0 (fun u => u ^ 3)); [reg|exact AV]. }
  assert (IG : exists l, con_ice_giant N0 r0 v0 = Some l /\ otends X close (fun x => con_ice_giant (N x) (rho x) (v x)) l).
  { unfold con_ice_giant. exists (2.24008e-7 * Rpower r0 0.452130 * Rpower v0 2.691800 * sqrt (0.291 / N0)). assert (0 < 0.291 / N0) by (apply Rdiv_lt_0_compat; lra). split.
    - unfold np_pow, np_div. apply Rltb_true in PR. apply Rltb_true in PV. rewrite PR, PV. destruct (Reqb_spec N0 0); [lra|]. cbn [obind]. rewrite np_sqrt_some by lra. reflexivity.
    - apply (otends_bind _ _ M _ (Rpower r0 0.452130)); [apply otends_pow; auto|]. intros a A. apply (otends_bind _ _ M _ (Rpower v0 2.691800)); [apply otends_pow; auto|]. intros b B.
      apply (otends_bind _ _ M _ (0.291 / N0)); [apply otends_div; auto; apply tends_const|]. intros q Q. apply (otends_bind _ _ M _ (sqrt (0.291 / N0))); [apply otends_sqrt; auto|]. intros s S'.
      apply otends_some. apply tends_mult; [exact M| |exact S']. apply tends_mult; [exact M|apply tends_scal; exact A|exact B]. }
  unfold con_law in HC. repeat (destruct (string_dec _ _) in HC; [injection HC as <-; auto|]). discriminate.
Qed.
(** Everywhere but where the laws of VENUS and EARTH change form. *)
Lemma rad_continuous : forall id law X (close : R -> X -> Prop) (N rho v : X -> R) N0 r0 v0, (forall e e' x, e <= e' -> close e x -> close e' x) -> rad_law id = Some law ->
  ~ In v0 (heat_breaks id) ->
  tends X close N N0 -> tends X close rho r0 -> tends X close v v0 -> 0 < N0 -> 0 < r0 -> 0 < v0 ->
  exists l, law N0 r0 v0 = Some l /\ otends X close (fun x => law (N x) (rho x) (v x)) l.
Proof.
  intros id law X close N rho v N0 r0 v0 M HC NB AN AR AV PN PR PV.
  assert (PW : forall a y, 0 < a -> np_pow a y = Some (Rpower a y)) by (intros a y Ha; unfold np_pow; apply Rltb_true in Ha; rewrite Ha; reflexivity).
  assert (Z : exists l, rad_zero N0 r0 v0 = Some l /\ otends X close (fun x => rad_zero (N x) (rho x) (v x)) l) by (exists 0; split; [reflexivity|]; unfold rad_zero; apply otends_some; apply tends_const).
  assert (GG : exists l, rad_gas_giant N0 r0 v0 = Some l /\ otends X close (fun x => rad_gas_giant (N x) (rho x) (v x)) l).
  { unfold rad_gas_giant. eexists. split; [rewrite !PW by lra; cbn [obind]; reflexivity|].
    apply (otends_bind _ _ M _ (Rpower (2 * N0) (-0.17905))); [apply otends_pow; [lra|apply tends_scal; exact AN]|]. intros a A.
    apply (otends_bind _ _ M _ (Rpower r0 1.763827469)); [apply otends_pow; auto|]. intros b B. apply (otends_bind _ _ M _ (Rpower v0 10.993852)); [apply otends_pow; auto|]. intros c C.
    apply otends_some. unfold Rdiv. repeat (apply tends_mult; [exact M| |first [exact C|exact B|apply tends_const]]). apply tends_scal. exact A. }
  assert (IG : exists l, rad_ice_giant N0 r0 v0 = Some l /\ otends X close (fun x => rad_ice_giant (N x) (rho x) (v x)) l).
  { unfold rad_ice_giant. eexists. split; [rewrite !PW by lra; cbn [obind]; reflexivity|].
    apply (otends_bind _ _ M _ (Rpower r0 0.498140)); [apply otends_pow; auto|]. intros b B.
    apply (otends_bind _ _ M _ (Rpower (v0 / 10000) 15.113)); [apply otends_pow; [lra|]; unfold Rdiv; apply tends_mult; [exact M|exact AV|apply tends_const]|]. intros c C.
    apply otends_some. apply tends_mult; [exact M| |unfold Rdiv; apply tends_mult; [exact M|exact AN|apply tends_const]]. apply tends_mult; [exact M|apply tends_scal; exact B|exact C]. }
  assert (VN : id = "VENUS"%string -> exists l, rad_venus N0 r0 v0 = Some l /\ otends X close (fun x => rad_venus (N x) (rho x) (v x)) l).
  { intros ->. assert (NV : v0 <> 8000 /\ v0 <> 10000) by (split; intros ->; apply NB; cbn; auto).
    set (F := fun u => if Rltb u 8000 then Some (3.33e-34 * u ^ 10) else if Rltb u 10000 then leto b := np_pow u 5.5 in Some (1.22e-16 * b) else leto b := np_pow u 13.4 in Some (3.07e-48 * b)).
    assert (FC : exists a, F v0 = Some a /\ otends X close (fun x => F (v x)) a).
    { destruct (Rlt_le_dec v0 8000) as [L1|L1]; [|destruct (Rlt_le_dec v0 10000) as [L2|L2]].
      - exists (3.33e-34 * v0 ^ 10). split; [unfold F; apply Rltb_true in L1; rewrite L1; reflexivity|].
        apply (otends_soon _ _ M (fun x => Some (3.33e-34 * v x ^ 10))); [|apply otends_some; apply tends_scal; apply (tends_comp _ _ v v0 (fun u => u ^ 10)); [reg|exact AV]].
        eapply soon_mono; [|exact (tends_below _ _ _ _ _ AV L1)]. intros x Hx. unfold F. apply Rltb_true in Hx. rewrite Hx. reflexivity.
      - exists (1.22e-16 * Rpower v0 5.5). split; [unfold F; rewrite (proj2 (Rltb_false v0 8000)) by lra; rewrite (proj2 (Rltb_true v0 10000)) by lra; rewrite PW by lra; reflexivity|].
        apply (otends_soon _ _ M (fun x => leto b := np_pow (v x) 5.5 in Some (1.22e-16 * b))); [|apply (otends_bind _ _ M _ (Rpower v0 5.5)); [apply otends_pow; auto|]; intros b B; apply otends_some; apply tends_scal; exact B].
        assert (L3 : 8000 < v0) by lra. eapply soon_mono; [|exact (soon_and _ _ M _ _ (tends_over _ _ _ _ _ AV L3) (tends_below _ _ _ _ _ AV L2))]. intros x (H1 & H2). unfold F. rewrite (proj2 (Rltb_false _ 8000)) by lra. rewrite (proj2 (Rltb_true _ 10000)) by lra. reflexivity.
      - exists (3.07e-48 * Rpower v0 13.4). split; [unfold F; rewrite (proj2 (Rltb_false v0 8000)) by lra; rewrite (proj2 (Rltb_false v0 10000)) by lra; rewrite PW by lra; reflexivity|].
        apply (otends_soon _ _ M (fun x => leto b := np_pow (v x) 13.4 in Some (3.07e-48 * b))); [|apply (otends_bind _ _ M _ (Rpower v0 13.4)); [apply otends_pow; auto|]; intros b B; apply otends_some; apply tends_scal; exact B].
        assert (L3 : 10000 < v0) by lra. eapply soon_mono; [|exact (tends_over _ _ _ _ _ AV L3)]. intros x H1. unfold F. rewrite (proj2 (Rltb_false _ 8000)) by lra. rewrite (proj2 (Rltb_false _ 10000)) by lra. reflexivity. }
    destruct FC as (a & EA & AA). exists (a * Rpower r0 1.2 * Rpower N0 0.49). split.
    - unfold rad_venus. fold (F v0). rewrite EA, !PW by lra. reflexivity.
    - unfold rad_venus. apply (otends_bind _ _ M (fun x => F (v x)) a (fun x a => leto b := np_pow (rho x) 1.2 in leto c := np_pow (N x) 0.49 in Some (a * b * c))); [exact AA|]. intros g G.
      apply (otends_bind _ _ M _ (Rpower r0 1.2)); [apply otends_pow; auto|]. intros b B. apply (otends_bind _ _ M _ (Rpower N0 0.49)); [apply otends_pow; auto|]. intros c C.
      apply otends_some. apply tends_mult; [exact M|apply tends_mult; [exact M|exact G|exact B]|exact C]. }
  assert (EN : id = "EARTH"%string -> exists l, rad_earth N0 r0 v0 = Some l /\ otends X close (fun x => rad_earth (N x) (rho x) (v x)) l).
  { intros ->. assert (NV : v0 <> 9000) by (intros ->; apply NB; cbn; auto).
    set (F := fun u => match interp1d earth_fV 0 2040 u with Ok f => f | Err _ => 0 end).
    assert (FE : forall u, interp1d earth_fV 0 2040 u = Ok (F u)) by (intros u; unfold F; destruct (earth_fV_cases u) as (y & -> & _); reflexivity).
    assert (FC : tends X close (fun x => F (v x)) (F v0)).
    { destruct (Rlt_le_dec v0 9000) as [L1|L1].
      - assert (F0 : forall u, u < 9000 -> F u = 0) by (intros u Hu; unfold F; destruct (earth_fV_cases u) as (y & -> & _ & Y & _); auto).
        intros eps He. eapply soon_mono; [|exact (tends_below _ _ _ _ _ AV L1)]. intros x Hx. rewrite !F0 by lra. rewrite Rminus_diag_eq, Rabs_R0; auto.
      - assert (L3 : 9000 < v0) by lra. assert (FF : forall u, 9000 <= u -> F u = fast_fV u) by (intros u Hu; apply fast_fV_is; auto).
        intros eps He. eapply soon_mono; [|exact (soon_and _ _ M _ _ (tends_over _ _ _ _ _ AV L3) (AV eps He))]. intros x (H1 & H2). rewrite !FF by lra. eapply Rle_lt_trans; [apply fast_fV_lip|exact H2]. }
    unfold rad_earth. exists (4.736e4 * Rpower N0 0.6 * Rpower r0 1.22 * F v0). split; [rewrite !PW by lra; cbn [obind]; rewrite FE; reflexivity|].
    apply (otends_bind _ _ M _ (Rpower N0 0.6)); [apply otends_pow; auto|]. intros a A. apply (otends_bind _ _ M _ (Rpower r0 1.22)); [apply otends_pow; auto|]. intros b B.
    apply (otends_soon _ _ M (fun x => Some (4.736e4 * a x * b x * F (v x)))); [exists 1; split; [lra|]; intros x _; rewrite FE; reflexivity|].
    apply otends_some. apply tends_mult; [exact M| |exact FC]. apply tends_mult; [exact M|apply tends_scal; exact A|exact B]. }
  unfold rad_law in HC. repeat (destruct (string_dec _ _) in HC; [injection HC as <-; auto|]). discriminate.
Qed.

(** One length of time small enough for every point of a flight. *)
Lemma common_points : forall (P : nat -> R -> Prop) n, (forall k e e', e <= e' -> P k e' -> P k e) -> (forall k, (k < n)%nat -> exists e, 0 < e /\ P k e) -> exists e, 0 < e /\ forall k, (k < n)%nat -> P k e.
Proof.
  intros P n Dn. induction n as [|n IH]; intros H; [exists 1; split; [lra|intros; lia]|].
  destruct IH as (e1 & H1 & P1); [intros k Hk; apply H; lia|]. destruct (H n ltac:(lia)) as (e2 & H2 & P2). exists (Rmin e1 e2). split; [apply Rmin_glb_lt; auto|].
  intros k Hk. destruct (Nat.eq_dec k n) as [->|]; [apply (Dn n _ e2); [apply Rmin_r|auto]|apply (Dn k _ e1); [apply Rmin_l|apply P1; lia]].
Qed.
(** An integrator with a smaller error is one with a larger error. *)
Lemma exact_more : forall a b E f, a <= b -> exact_within a E f -> exact_within b E f.
Proof.
  intros a b E f L (X1 & X2).
  assert (N : forall y T, nearly_solves a f y T -> nearly_solves b f y T).
  { intros y T (l & S). exists l. intros t Ht. destruct (S t Ht) as (C & dd & Ed & D). split; auto. exists dd. split; auto. intros Hi Hl. destruct (D Hi Hl) as (e & Me & (W1 & W2 & W3 & W4 & W5 & W6 & W7)). exists e. split; auto. unfold within. repeat split; lra. }
  split; intros.
  - destruct (X1 x0 ts tol xs H H0) as (y & Y0 & S & X). exists y. auto.
  - destruct (X2 te x0 ts ev tol us xs H H0) as (y & Y0 & S & X). exists y. auto.
Qed.
(** Nearby flights pass beside every point of the exact one. *)
Lemma passes_beside : forall (two : bool) E name V i tol secs dt d o f y T (P : nat -> probe -> Prop), engine_ok E -> exact E -> Planet name = Ok (vh_planet V) -> 0 < dt ->
  vh_user V = false -> lipschitz_air (vh_planet V) (vh_atm V) -> passage V i d T y -> 0 <= T ->
  (if two then propogateEntry2 else propogateEntry) E (mkObj V i tol None None) secs dt d = (o, Ok tt) -> ob_flight o = Some f ->
  (forall k, (k < length (p_t (f_plot f)))%nat -> time_of (vh_planet V) (f_plot f) k <= T -> 0 < altitude_at f k <= h_thres (vh_planet V) -> soon probe (beside V d (altitude_at f k) (speed_at f k)) (P k)) ->
  exists eta, 0 < eta /\ forall (two' : bool) E' V' i' d' tol' secs' dt' o' f', engine_ok E' -> exact_within eta E' (fun x => EOM V' x (d' * PI / 180)) -> 0 < dt' ->
    vehicle_within eta V V' -> build_within eta V V' -> starts_near eta (vh_planet V) i i' -> Rabs (d - d') <= eta ->
    (if two' then propogateEntry2 else propogateEntry) E' (mkObj V' i' tol' None None) secs' dt' d' = (o', Ok tt) -> ob_flight o' = Some f' ->
    forall k k', (k < length (p_t (f_plot f)))%nat -> (k' < length (p_t (f_plot f')))%nat -> nth k (p_t (f_plot f)) 0 = nth k' (p_t (f_plot f')) 0 ->
    time_of (vh_planet V) (f_plot f) k <= T -> P k (mkProbe V' d' (altitude_at f' k') (speed_at f' k')).
Proof.
  intros two E name V i tol secs dt d o f y T P HE HX HP Hdt Hu HL W HT0 H Hf HS.
  destruct (common_points (fun k e => time_of (vh_planet V) (f_plot f) k <= T -> forall x, beside V d (altitude_at f k) (speed_at f k) e x -> P k x) (length (p_t (f_plot f)))) as (e & He & G).
  { intros k a b L K HT x Hx. apply K; auto. eapply beside_mono; eauto. }
  { intros k Hk. destruct (Rle_lt_dec (time_of (vh_planet V) (f_plot f) k) T) as [HT|HT]; [|exists 1; split; [lra|intros; lra]].
    pose proof (C125_nearby_from_the_top two E name V i tol secs dt d o f y T 1 HE HX HP Hdt Hu HL W HT0 ltac:(lra) H Hf) as (e & He & N).
    destruct (N two E V i d tol secs dt o f) with (k := k) (k' := k) as (_ & A & _); auto; [apply exact_nearly; auto; lra|apply within_self; auto; lra|split; [apply start_self; lra|]|rewrite Rminus_diag_eq, Rabs_R0 by reflexivity; lra|].
    { destruct (Planet_facts _ _ HP) as (_ & _ & _ & _ & (Ht0 & Hts) & Hthr & _). pose proof (passage_height V i d T y ltac:(lra) W 0 ltac:(lra)) as B. pose proof W as (Y0 & _). rewrite Y0 in B. destruct (entry_clear name _ i HP) as (E1 & _). unfold height in B. lra. }
    clear N e He.
    destruct (HS k Hk HT) as (e & He & K); [exact A|]. exists e. auto. }
  destruct (C125_nearby_from_the_top two E name V i tol secs dt d o f y T (e / 1000) HE HX HP Hdt Hu HL W HT0 ltac:(lra) H Hf) as (e2 & He2 & N). exists (Rmin e e2). split; [apply Rmin_glb_lt; auto|].
  pose proof (Rmin_l e e2) as M1. pose proof (Rmin_r e e2) as M2.
  intros two' E' V' i' d' tol' secs' dt' o' f' HE' HX' Hdt' HV HB HI Hd H' Hf' k k' Hk Hk' Et HT.
  assert (PW : point_within (e / 1000) (f_plot f) k (f_plot f') k' /\ 0 < nth k (p_h (f_plot f)) 0 * 1000 <= h_thres (vh_planet V) /\ 0 < nth k' (p_h (f_plot f')) 0 * 1000 <= h_thres (vh_planet V)).
  { apply (N two' E' V' i' d' tol' secs' dt' o' f'); auto; try lra; [eapply exact_more; eauto|destruct HV as (A1 & A2 & A3 & A4 & A5); split; [auto|]; split; [auto|]; split; [lra|]; split; [lra|]; intros h Hh; specialize (A5 h Hh); lra|].
    destruct HI as ((A1 & A2 & A3 & A4 & A5 & A6 & A7) & A8). split; [repeat split; lra|exact A8]. }
  apply (G k Hk HT). destruct PW as ((B1 & B2 & _) & _ & B3). destruct HV as (A1 & A2 & A3 & A4 & A5). destruct HB as (C1 & C2 & C3 & C4).
  assert (K : forall u w, Rabs (u - w) < e / 1000 -> Rabs (u * 1000 - w * 1000) <= e) by (intros u w Hw; replace (u * 1000 - w * 1000) with ((u - w) * 1000) by ring; rewrite Rabs_mult, (Rabs_right 1000) by lra; lra).
  assert (Q : forall u, u <= Rmin e e2 -> u <= e) by (intros; lra).
  unfold beside, vehicle_within, build_within, altitude_at, speed_at. cbn [b_veh b_bank b_h b_v]. split; [repeat split; auto|]. split; [repeat split; auto|]. split; auto.
Qed.
(** Pressures and loads. *)
Theorem C135_loads : forall (two : bool) E name V i tol secs dt d o f y T eps, engine_ok E -> exact E -> Planet name = Ok (vh_planet V) -> 0 < dt ->
  vh_user V = false -> lipschitz_air (vh_planet V) (vh_atm V) -> lipschitz_pressure (vh_planet V) (vh_atm V) -> passage V i d T y -> 0 <= T -> 0 < eps ->
  (if two then propogateEntry2 else propogateEntry) E (mkObj V i tol None None) secs dt d = (o, Ok tt) -> ob_flight o = Some f ->
  exists eta, 0 < eta /\ forall (two' : bool) E' V' i' d' tol' secs' dt' o' f', engine_ok E' -> exact_within eta E' (fun x => EOM V' x (d' * PI / 180)) -> 0 < dt' ->
    vehicle_within eta V V' -> build_within eta V V' -> starts_near eta (vh_planet V) i i' -> Rabs (d - d') <= eta ->
    (if two' then propogateEntry2 else propogateEntry) E' (mkObj V' i' tol' None None) secs' dt' d' = (o', Ok tt) -> ob_flight o' = Some f' ->
    forall k k', (k < length (p_t (f_plot f)))%nat -> (k' < length (p_t (f_plot f')))%nat -> nth k (p_t (f_plot f)) 0 = nth k' (p_t (f_plot f')) 0 ->
    time_of (vh_planet V) (f_plot f) k <= T -> loads_within eps f k f' k'.
Proof.
  intros two E name V i tol secs dt d o f y T eps HE HX HP Hdt Hu HL HLp W HT0 He H Hf. pose proof (beside_mono V d) as M.
  destruct (flight_laws two E name V i tol secs dt d o f HE HP Hu H Hf) as (_ & _ & R).
  destruct (passes_beside two E name V i tol secs dt d o f y T (fun k x => forall f' k', altitude_at f' k' = b_h x -> speed_at f' k' = b_v x -> reported (b_veh x) (b_bank x * PI / 180) f' k' -> loads_within eps f k f' k') HE HX HP Hdt Hu HL W HT0 H Hf) as (eta & Heta & G).
  - intros k Hk HT Hh. specialize (R k Hk). specialize (M (altitude_at f k) (speed_at f k)). set (h := altitude_at f k) in *. set (v := speed_at f k) in *.
    pose proof (at_q V d h v Hh HL) as Q. pose proof (at_pressure V d h v Hh HLp) as PQ. pose proof (tends_plus _ _ M _ _ _ _ PQ Q) as SQ. pose proof (at_acc V d h v Hh HL vh_CD (at_drag V d h v)) as DQ. pose proof (at_net V d h v Hh HL) as NQ.
    assert (AQ : tends probe (beside V d h v) (fun x => Rabs (density_int (vh_atm (b_veh x)) (b_h x) * b_v x * b_v x / 2 * vh_A (b_veh x) * vh_CD (b_veh x) / vh_mass (b_veh x)) / 9.80665) (Rabs (density_int (vh_atm V) h * v * v / 2 * vh_A V * vh_CD V / vh_mass V) / 9.80665)).
    { apply (tends_comp _ _ _ _ (fun u => Rabs u / 9.80665) ltac:(apply (continuity_pt_mult Rabs (fun _ => / 9.80665)); [apply Rcontinuity_abs|reg]) DQ). }
    eapply soon_mono; [|exact (soon_and _ _ M _ _ (soon_and _ _ M _ _ (Q eps He) (SQ eps He)) (soon_and _ _ M _ _ (AQ eps He) (load_near _ _ _ _ eps M NQ He)))].
    intros x ((U1 & U2) & U3 & U4) f' k' Eh Ev R'. unfold reported in R, R'. cbv zeta in R, R'. rewrite Eh, Ev in R'. fold h v in R.
    destruct R as (A1 & A2 & A3 & A4 & _). destruct R' as (B1 & B2 & B3 & B4 & _).
    assert (Sm : forall a b a' b', a * 101325 = a' -> b * 101325 = b' -> Rabs (b' - a') < eps -> Rabs (a - b) < eps).
    { intros a b a' b' Ea Eb D. rewrite Rabs_minus_sym. replace (b' - a') with ((b - a) * 101325) in D by (rewrite <- Ea, <- Eb; ring). rewrite Rabs_mult, (Rabs_right 101325) in D by lra. pose proof (Rabs_pos (b - a)). lra. }
    split; [exact (Sm _ _ _ _ A1 B1 U1)|]. split; [exact (Sm _ _ _ _ A2 B2 U2)|]. split; [do 2 eexists; split; [exact A3|split; [exact B3|]]; rewrite Rabs_minus_sym; exact U3|].
    exact (U4 _ _ A4 B4).
  - exists eta. split; auto. intros two' E' V' i' d' tol' secs' dt' o' f' HE' HX' Hdt' HV HB HI Hd H' Hf' k k' Hk Hk' Et HT.
    assert (HP' : Planet name = Ok (vh_planet V')) by (destruct HV as (-> & _); exact HP).
    destruct (flight_laws two' E' name V' i' tol' secs' dt' d' o' f' HE' HP' ltac:(apply HV) H' Hf') as (_ & _ & R').
    exact (G two' E' V' i' d' tol' secs' dt' o' f' HE' HX' Hdt' HV HB HI Hd H' Hf' k k' Hk Hk' Et HT f' k' eq_refl eq_refl (R' k' Hk')).
Qed.
(** Heating rates, wherever there is air and motion and the radiative law does not change form. *)
Theorem C135_heating : forall (two : bool) E name V i tol secs dt d o f y T eps, engine_ok E -> exact E -> Planet name = Ok (vh_planet V) -> 0 < dt ->
  vh_user V = false -> lipschitz_air (vh_planet V) (vh_atm V) -> some_air (vh_planet V) (vh_atm V) -> 0 < vh_RN V -> passage V i d T y -> 0 <= T -> 0 < eps ->
  (if two then propogateEntry2 else propogateEntry) E (mkObj V i tol None None) secs dt d = (o, Ok tt) -> ob_flight o = Some f ->
  exists eta, 0 < eta /\ forall (two' : bool) E' V' i' d' tol' secs' dt' o' f', engine_ok E' -> exact_within eta E' (fun x => EOM V' x (d' * PI / 180)) -> 0 < dt' ->
    vehicle_within eta V V' -> build_within eta V V' -> starts_near eta (vh_planet V) i i' -> Rabs (d - d') <= eta ->
    (if two' then propogateEntry2 else propogateEntry) E' (mkObj V' i' tol' None None) secs' dt' d' = (o', Ok tt) -> ob_flight o' = Some f' ->
    forall k k', (k < length (p_t (f_plot f)))%nat -> (k' < length (p_t (f_plot f')))%nat -> nth k (p_t (f_plot f)) 0 = nth k' (p_t (f_plot f')) 0 ->
    time_of (vh_planet V) (f_plot f) k <= T -> 0 < speed_at f k -> ~ In (speed_at f k) (heat_breaks (ID (vh_planet V))) -> heating_within eps f k f' k'.
Proof.
  intros two E name V i tol secs dt d o f y T eps HE HX HP Hdt Hu HL SA PN W HT0 He H Hf. pose proof (beside_mono V d) as M.
  destruct (flight_laws two E name V i tol secs dt d o f HE HP Hu H Hf) as ((lc & Hc) & (lr & Hr) & R).
  destruct (passes_beside two E name V i tol secs dt d o f y T (fun k x => 0 < speed_at f k -> ~ In (speed_at f k) (heat_breaks (ID (vh_planet V))) -> vh_planet (b_veh x) = vh_planet V ->
    forall f' k', altitude_at f' k' = b_h x -> speed_at f' k' = b_v x -> reported (b_veh x) (b_bank x * PI / 180) f' k' -> heating_within eps f k f' k') HE HX HP Hdt Hu HL W HT0 H Hf) as (eta & Heta & G).
  - intros k Hk HT Hh. specialize (R k Hk). specialize (M (altitude_at f k) (speed_at f k)). set (h := altitude_at f k) in *. set (v := speed_at f k) in *.
    destruct (Rlt_le_dec 0 v) as [PV|NV]; [|exists 1; split; [lra|intros; lra]]. destruct (In_dec Req_EM_T v (heat_breaks (ID (vh_planet V)))) as [I|NI]; [exists 1; split; [lra|intros; contradiction]|].
    pose proof (at_rho V d h v Hh HL) as AR. pose proof (at_v V d h v) as AV. pose proof (at_nose V d h v) as AN. pose proof (SA h ltac:(lra)) as PR.
    destruct (con_continuous _ _ _ _ _ _ _ _ _ _ M Hc AN AR AV PN PR PV) as (l1 & E1 & O1). destruct (rad_continuous _ _ _ _ _ _ _ _ _ _ M Hr NI AN AR AV PN PR PV) as (l2 & E2 & O2).
    assert (He2 : 0 < eps / 2) by lra.
    eapply soon_mono; [|exact (soon_and _ _ M _ _ (number_near _ _ _ _ (eps / 2) M O1 He2) (number_near _ _ _ _ (eps / 2) M O2 He2))].
    intros x ((a & b & A1 & A2 & A3) & (a2 & b2 & B1 & B2 & B3)) _ _ EP f' k' Eh Ev R'. unfold reported in R, R'. cbv zeta in R, R'. rewrite Eh, Ev in R'. fold h v in R. rewrite EP in R'.
    injection A1 as <-. injection B1 as <-.
    destruct R as (_ & _ & _ & _ & C1 & C2 & C3). destruct R' as (_ & _ & _ & _ & D1 & D2 & D3). specialize (C1 _ Hc). specialize (C2 _ Hr). specialize (D1 _ Hc). specialize (D2 _ Hr).
    rewrite E1 in C1. rewrite E2 in C2. rewrite A2 in D1. rewrite B2 in D2. rewrite C1, C2 in C3. rewrite D1, D2 in D3.
    unfold heating_within. rewrite C1, C2, C3, D1, D2, D3. split; [exists l1, b; repeat split; lra|]. split; [exists l2, b2; repeat split; lra|]. exists (l1 + l2), (b + b2). split; auto. split; auto.
    replace (l1 + l2 - (b + b2)) with ((l1 - b) + (l2 - b2)) by ring. eapply Rle_lt_trans; [apply Rabs_triang|]. lra.
  - exists eta. split; auto. intros two' E' V' i' d' tol' secs' dt' o' f' HE' HX' Hdt' HV HB HI Hd H' Hf' k k' Hk Hk' Et HT PV NI.
    assert (HP' : Planet name = Ok (vh_planet V')) by (destruct HV as (-> & _); exact HP).
    destruct (flight_laws two' E' name V' i' tol' secs' dt' d' o' f' HE' HP' ltac:(apply HV) H' Hf') as (_ & _ & R').
    exact (G two' E' V' i' d' tol' secs' dt' o' f' HE' HX' Hdt' HV HB HI Hd H' Hf' k k' Hk Hk' Et HT PV NI (proj1 HV) f' k' eq_refl eq_refl (R' k' Hk')).
Qed.
