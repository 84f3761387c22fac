(** C60: onboard predictions do not disturb the flying vehicle. *)
From Coq Require Import String List.
Require Import Verif.Base Verif.Numpy Verif.PlanetModel Verif.AeroModel Verif.HeatModel Verif.TrajectoryModel
  Verif.OrbiterModel Verif.OrbitModel Verif.GuidanceModel Verif.HeapModel.

(** Every object that existed before is the same object with the same attributes. *)
Definition kept (h h' : heap) : Prop := forall a, (a < length h)%nat -> nth_error h' a = nth_error h a.
Lemma write_nth : forall h a c b, nth_error (write h a c) b = if Nat.eqb a b then (if Nat.ltb a (length h) then Some c else None) else nth_error h b.
Proof.
  induction h as [|x h IH]; intros a c b; cbn [write].
  - destruct (Nat.eqb_spec a b); auto. cbn [length]. destruct b; reflexivity.
  - destruct a as [|a]; destruct b as [|b]; cbn [nth_error Nat.eqb length]; auto. rewrite IH. destruct (Nat.eqb a b); auto.
Qed.
Lemma write_len : forall h a c, length (write h a c) = length h.
Proof. induction h as [|x h IH]; intros [|a] c; cbn; auto. Qed.
Lemma write_kept : forall h h' a c, kept h h' -> (length h <= a)%nat -> kept h (write h' a c).
Proof. intros h h' a c H Ha b Hb. rewrite write_nth. destruct (Nat.eqb_spec a b); [lia|]. auto. Qed.
Lemma kept_refl : forall h, kept h h. Proof. intros h a Ha. auto. Qed.
Lemma alloc_kept : forall h h' c, kept h h' -> (length h <= length h')%nat -> kept h (h' ++ [c]).
Proof. intros h h' c H L a Ha. rewrite nth_error_app1 by lia. auto. Qed.
Lemma setd_kept : forall h h' a f, kept h h' -> (length h <= a)%nat -> kept h (set_density_int h' a f).
Proof. intros h h' a f H L. unfold set_density_int. destruct (nth_error h' a) as [[?|?]|]; auto; apply write_kept; auto. Qed.
Lemma setd_len : forall h a f, length (set_density_int h a f) = length h.
Proof. intros h a f. unfold set_density_int. destruct (nth_error h a) as [[?|?]|]; auto; apply write_len. Qed.
Lemma setp_kept : forall h h' a f, kept h h' -> (length h <= a)%nat -> kept h (set_planetObj h' a f).
Proof. intros h h' a f H L. unfold set_planetObj. destruct (nth_error h' a) as [[?|?]|]; auto; apply write_kept; auto. Qed.
Lemma setb_kept : forall h h' a b c, kept h h' -> (length h <= a)%nat -> kept h (set_beta_CD h' a b c).
Proof. intros h h' a b c H L. unfold set_beta_CD. destruct (nth_error h' a) as [[?|?]|]; auto; apply write_kept; auto. Qed.
Lemma dummy_kept : forall h self d h' copy, dummyVehicle h self d = Ok (h', copy) -> kept h h' /\ (length h <= copy)%nat.
Proof.
  intros h self d h' copy H. unfold dummyVehicle, deepcopy_vehicle, deepcopy_planet, get_planetObj, alloc in H.
  destruct (nth_error h self) as [[?|o pr b1 br]|] eqn:E1; cbn [rbind] in H; try discriminate.
  destruct (nth_error h pr) as [[p at_|?]|] eqn:E2; cbn [rbind fst snd] in H; try discriminate.
  set (h2 := set_density_int (h ++ [PlanetObj p at_]) (length h) d) in *.
  assert (K2 : kept h h2) by (apply setd_kept; [apply alloc_kept; [apply kept_refl|lia]|lia]).
  assert (L2 : length h2 = S (length h)) by (unfold h2; rewrite setd_len, app_length; cbn; lia).
  destruct (nth_error h2 self) as [[?|o' pr' b1' br']|]; cbn [rbind] in H; try discriminate.
  destruct (nth_error h2 pr') as [[p' at_'|?]|]; cbn [rbind fst snd] in H; try discriminate.
  injection H as <- <-. rewrite app_length. cbn [length]. split; [|lia]. apply setp_kept; [|lia]. apply alloc_kept; [|rewrite app_length; lia]. apply alloc_kept; [|lia]. auto.
Qed.
(** Whatever the engine does, whatever the heap (also when the call raises), every object that existed
    before the prediction is unchanged. *)
Theorem C60_undisturbed : forall solve h self i heat0 t_sec dt delta_deg dens,
  kept h (fst (predict_withLiftUp solve h self i heat0 t_sec dt delta_deg dens)) /\
  kept h (fst (predict_afterJettision solve h self i heat0 t_sec dt delta_deg dens)).
Proof.
  intros solve h self i heat0 t_sec dt delta_deg dens. unfold predict_withLiftUp, predict_afterJettision.
  destruct (dummyVehicle h self dens) as [[h' copy]|] eqn:E; cbn [fst]; [|split; apply kept_refl].
  destruct (dummy_kept _ _ _ _ _ E) as (K & L). split; auto.
  unfold jettison. destruct (nth_error h' self) as [[?|o pr [b1|] [br|]]|]; cbn [fst]; auto.
  destruct (Reqb _ 0); cbn [fst]; apply setb_kept; auto.
Qed.
(** So every vehicle, seen with its planet, is the same before and after. *)
Theorem C60_vehicles_same : forall solve h self i heat0 t_sec dt delta_deg dens a o, view h a = Some o ->
  view (fst (predict_withLiftUp solve h self i heat0 t_sec dt delta_deg dens)) a = Some o /\
  view (fst (predict_afterJettision solve h self i heat0 t_sec dt delta_deg dens)) a = Some o.
Proof.
  intros solve h self i heat0 t_sec dt delta_deg dens a o H.
  assert (G : forall h', kept h h' -> view h' a = Some o).
  { intros h' K. rewrite <- H. unfold view in *. destruct (nth_error h a) as [c|] eqn:E; [|discriminate].
    assert (La : (a < length h)%nat) by (apply nth_error_Some; congruence). rewrite (K a La), E.
    destruct c as [?|o' pr b1 br]; [discriminate|]. destruct (nth_error h pr) as [c'|] eqn:E'; [|discriminate].
    assert (Lp : (pr < length h)%nat) by (apply nth_error_Some; congruence). rewrite (K pr Lp), E'. reflexivity. }
  destruct (C60_undisturbed solve h self i heat0 t_sec dt delta_deg dens) as (A & B). auto.
Qed.
(** Seeing a vehicle with its planet changes nothing else about it. *)
Theorem C60_view_is_the_vehicle : forall h a o pr b1 br, nth_error h a = Some (VehicleObj o pr b1 br) ->
  nth_error h pr = Some (PlanetObj (vh_planet (ob_veh o)) (vh_atm (ob_veh o))) -> view h a = Some o.
Proof. intros h a [[] i tol f q] pr b1 br H K. unfold view. rewrite H, K. reflexivity. Qed.
(** What is predicted: the apoapsis the vehicle would reach in the measured atmosphere. *)
Lemma dummy_view : forall h self o d, view h self = Some o -> exists h' copy o' pr b1 br p a, dummyVehicle h self d = Ok (h', copy) /\
  nth_error h' self = nth_error h self /\ nth_error h self = Some (VehicleObj o' pr b1 br) /\ nth_error h pr = Some (PlanetObj p a) /\ o = on_planet o' p a /\
  nth_error h' copy = Some (VehicleObj o' (length h) b1 br) /\ nth_error h' (length h) = Some (PlanetObj p (mkAtm d (temp_int a) (pressure_int a) (sonic_int a))).
Proof.
  intros h self o d H. unfold view in H. destruct (nth_error h self) as [[?|o' pr b1 br]|] eqn:E1; try discriminate.
  destruct (nth_error h pr) as [[p a|?]|] eqn:E2; try discriminate. injection H as <-.
  assert (Ls : (self < length h)%nat) by (apply nth_error_Some; congruence). assert (Lp : (pr < length h)%nat) by (apply nth_error_Some; congruence).
  destruct (dummyVehicle h self d) as [[h' copy]|e] eqn:Ed.
  - exists h', copy, o', pr, b1, br, p, a. destruct (dummy_kept _ _ _ _ _ Ed) as (K & L). split; auto. split; [rewrite K; auto|]. do 3 (split; auto).
    unfold dummyVehicle, deepcopy_vehicle, deepcopy_planet, get_planetObj, alloc in Ed. rewrite E1 in Ed. cbn [rbind] in Ed. rewrite E2 in Ed. cbn [rbind fst snd] in Ed.
    unfold set_density_int in Ed. rewrite (nth_error_app2 h) in Ed by lia. rewrite Nat.sub_diag in Ed. cbn [nth_error] in Ed.
    rewrite !write_nth in Ed. destruct (Nat.eqb_spec (length h) self); [lia|]. rewrite (nth_error_app1 h) in Ed by lia. rewrite E1 in Ed. cbn [rbind] in Ed.
    rewrite !write_nth in Ed. destruct (Nat.eqb_spec (length h) pr); [lia|]. rewrite (nth_error_app1 h) in Ed by lia. rewrite E2 in Ed. cbn [rbind fst snd] in Ed.
    unfold set_planetObj in Ed. injection Ed as <- <-. set (h2 := write _ _ _) in *.
    assert (L2 : length h2 = S (length h)) by (unfold h2; rewrite write_len, app_length; cbn; lia).
    assert (N : nth_error ((h2 ++ [PlanetObj p a]) ++ [VehicleObj o' (length h2) b1 br]) (length (h2 ++ [PlanetObj p a])) = Some (VehicleObj o' (length h2) b1 br)) by (rewrite nth_error_app2 by lia; rewrite Nat.sub_diag; reflexivity).
    rewrite N. rewrite !write_nth, Nat.eqb_refl. rewrite !app_length. cbn [length]. destruct (Nat.ltb_spec (length h2 + 1) (length h2 + 1 + 1)); [|lia]. split; auto.
    destruct (Nat.eqb_spec (length h2 + 1) (length h)); [lia|]. rewrite !nth_error_app1 by (rewrite ?app_length; lia). unfold h2. rewrite write_nth, Nat.eqb_refl.
    rewrite app_length. cbn [length]. destruct (Nat.ltb_spec (length h) (length h + 1)); [auto|lia].
  - exfalso. unfold dummyVehicle, deepcopy_vehicle, deepcopy_planet, get_planetObj, alloc in Ed. rewrite E1 in Ed. cbn [rbind] in Ed. rewrite E2 in Ed. cbn [rbind fst snd] in Ed.
    unfold set_density_int in Ed. rewrite (nth_error_app2 h) in Ed by lia. rewrite Nat.sub_diag in Ed. cbn [nth_error] in Ed.
    rewrite !write_nth in Ed. destruct (Nat.eqb_spec (length h) self); [lia|]. rewrite (nth_error_app1 h) in Ed by lia. rewrite E1 in Ed. cbn [rbind] in Ed.
    rewrite !write_nth in Ed. destruct (Nat.eqb_spec (length h) pr); [lia|]. rewrite (nth_error_app1 h) in Ed by lia. rewrite E2 in Ed. discriminate.
Qed.
Theorem C60_prediction : forall solve h self o h_km theta phi v gamma psi drange heat0 t_sec dt delta_deg dens, view h self = Some o ->
  snd (predict_withLiftUp solve h self (mkInit h_km theta phi v psi gamma drange 0) heat0 t_sec dt delta_deg dens) =
  predictApoapsis solve (ob_veh o) (ob_tol o) h_km theta phi v gamma psi drange heat0 t_sec dt delta_deg dens.
Proof.
  intros solve h self o h_km theta phi v gamma psi drange heat0 t_sec dt delta_deg dens H.
  unfold predict_withLiftUp. destruct (dummy_view h self o dens H) as (h' & copy & o' & pr & b1 & br & p & a & -> & _ & _ & _ & -> & Ec & Ep).
  cbn [snd]. unfold predict_on, view. rewrite Ec, Ep. reflexivity.
Qed.
(** After jettison: the same, flown with the drag coefficient of ballistic coefficient beta1*betaRatio. *)
Theorem C60_prediction_jettison : forall solve h self o h_km theta phi v gamma psi drange heat0 t_sec dt delta_deg dens o' pr b1 br,
  view h self = Some o -> nth_error h self = Some (VehicleObj o' pr (Some b1) (Some br)) -> b1 * br * vh_A (ob_veh o) <> 0 ->
  let V := ob_veh o in let b := b1 * br in
  snd (predict_afterJettision solve h self (mkInit h_km theta phi v psi gamma drange 0) heat0 t_sec dt delta_deg dens) =
  predictApoapsis solve (mkVehicle (vh_mass V) b (vh_LD V) (vh_A V) (vh_alpha V) (vh_RN V) (vh_planet V) (vh_atm V) (vh_user V) (vh_CDMach V)
    (vh_Abar V) (vh_mbar V) (vh_mass V / (b * vh_A V)) (vh_CL V)) (ob_tol o) h_km theta phi v gamma psi drange heat0 t_sec dt delta_deg dens.
Proof.
  intros solve h self o h_km theta phi v gamma psi drange heat0 t_sec dt delta_deg dens o' pr b1 br H Hs Hb V b.
  unfold predict_afterJettision. destruct (dummy_view h self o dens H) as (h' & copy & o2 & pr2 & b12 & br2 & p & a & -> & Es & Es2 & Epr & Eo & Ec & Ep).
  rewrite Hs in Es2. injection Es2 as <- <- <- <-. unfold jettison. rewrite Es, Hs.
  assert (EA : vh_A (ob_veh o') = vh_A V) by (unfold V; rewrite Eo; reflexivity). assert (EM : vh_mass (ob_veh o') = vh_mass V) by (unfold V; rewrite Eo; reflexivity).
  fold b. rewrite EA, EM. destruct (Reqb_spec (b * vh_A V) 0); [contradiction|]. cbn [snd]. unfold set_beta_CD. rewrite Ec. unfold predict_on, view.
  assert (Lc : (copy < length h')%nat) by (apply nth_error_Some; congruence).
  rewrite (write_nth _ copy _ copy), Nat.eqb_refl. destruct (Nat.ltb_spec copy (length h')); [|lia].
  rewrite (write_nth _ copy _ (length h)).
  destruct (Nat.eqb_spec copy (length h)) as [Z|Z]; [rewrite Z in Ec; congruence|]. rewrite Ep. subst V b. rewrite Eo. reflexivity.
Qed.
Example C60_witness : exists h o, view h 1 = Some o /\ h = [PlanetObj VENUS (mkAtm (fun _ => 1) (fun _ => 1) (fun _ => 1) (fun _ => 1));
  VehicleObj o 0 (Some 20) (Some 5)] /\ 20 * 5 * vh_A (ob_veh o) <> 0.
Proof.
  set (at_ := mkAtm (fun _ => 1) (fun _ => 1) (fun _ => 1) (fun _ => 1)).
  set (o := mkObj (mkVehicle 300 20 0 2 0 1 VENUS at_ false None 1 1 7.5 0) (mkInit 150 0 0 11 0 (-6) 0 0) 1e-6 None None).
  exists [PlanetObj VENUS at_; VehicleObj o 0 (Some 20) (Some 5)], o. split; [reflexivity|]. split; [reflexivity|]. cbn. lra.
Qed.
