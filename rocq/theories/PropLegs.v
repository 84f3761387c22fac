(** C103: a guided flight is a chain of plain flights, and its histories are theirs, end to end. *)
From Coq Require Import String List ZArith.
Require Import Verif.Base Verif.Numpy Verif.NumpyProofs Verif.PlanetModel Verif.PlanetProofs Verif.AeroModel Verif.FlightProofs Verif.HeatModel Verif.TrajectoryModel Verif.TrajectorySpec
  Verif.TrajectoryProofs Verif.PropTrajectory Verif.OrbitScalarModel Verif.OrbiterModel Verif.OrbitModel Verif.CorridorModel Verif.PropCorridor
  Verif.GuidanceModel Verif.GuidanceSpec Verif.GuidanceProofs Verif.PropControl Verif.PropGuidance Verif.PropGuidanceEx Verif.DragModel Verif.PropDrag Verif.PropDragEx Verif.LegSpec.
Local Open Scope R_scope.

Lemma last_append : forall {A} (l m : list A) d, last (l ++ m) d = last m (last l d).
Proof.
  intros A l m d. destruct m as [|x m _] using rev_ind; [rewrite app_nil_r; reflexivity|]. rewrite app_assoc, !last_last. reflexivity.
Qed.
Lemma last_default : forall {A} (l : list A) d e, l <> [] -> last l d = last l e.
Proof. intros A l d e H. destruct (exists_last H) as (m & x & ->). rewrite !last_last. reflexivity. Qed.
Lemma clocked_snoc : forall L l t0, clocked t0 (L ++ [l]) = clocked t0 L ++ map (fun t => last (clocked t0 L) t0 + t) (p_t (f_plot (lg_flight l))).
Proof.
  induction L as [|m L IH]; intros l t0; cbn [app clocked].
  - cbn [last]. rewrite app_nil_r. reflexivity.
  - rewrite IH, <- app_assoc. f_equal. f_equal. rewrite last_append. reflexivity.
Qed.
Lemma joined_snoc : forall {A} (c : flight -> list A) L l, joined_up c (L ++ [l]) = joined_up c L ++ c (lg_flight l).
Proof. intros A c L l. unfold joined_up. rewrite flat_map_app. cbn [flat_map]. rewrite app_nil_r. reflexivity. Qed.
Lemma joined_last : forall {A} (c : flight -> list A) L l d, c (lg_flight l) <> [] -> last (joined_up c (L ++ [l])) d = last (c (lg_flight l)) d.
Proof. intros A c L l d H. rewrite joined_snoc, last_append. apply last_default, H. Qed.
Lemma chained_snoc : forall L l m, chained (L ++ [l]) -> continues l m -> chained ((L ++ [l]) ++ [m]).
Proof.
  intros L l m H C k a b Ha Hb. destruct (Nat.lt_ge_cases (S k) (length (L ++ [l]))) as [Hk|Hk].
  - rewrite nth_error_app1 in Ha, Hb by lia. eapply H; eauto.
  - assert (Hl : (S k < length ((L ++ [l]) ++ [m]))%nat) by (apply nth_error_Some; congruence). rewrite !app_length in *. cbn [length] in *.
    assert (k = length L) as -> by lia. rewrite nth_error_app2 in Hb by (rewrite app_length; cbn [length]; lia). rewrite app_length in Hb. cbn [length] in Hb.
    replace (S (length L) - (length L + 1))%nat with 0%nat in Hb by lia. injection Hb as <-.
    rewrite nth_error_app1 in Ha by (rewrite app_length; cbn [length]; lia). rewrite nth_error_app2, Nat.sub_diag in Ha by lia. injection Ha as <-. exact C.
Qed.

(** The state of the loops, explained by the legs flown so far: [L] all of them but the last one, [l]. *)
Definition explained (s : gst) (L : list leg) (l : leg) (D : list leg) : Prop :=
  made_of (s_hist s) (L ++ [l]) D /\ chained (L ++ [l]) /\ a_delta (s_arr s) = map lg_bank (L ++ [l]) /\
  (1 <= f_index (lg_flight l))%nat /\ plot_len (f_plot (lg_flight l)) (f_index (lg_flight l)) /\ length (lg_heat l) = f_index (lg_flight l) /\
  ob_heat (s_obj s) = Some (lg_heat l).
Lemma last_point : forall s L l D J, explained s L l D -> continues l (mkLeg (last_init (y_plot (s_hist s)) J) 0 None (lg_flight l) []).
Proof.
  intros s L l D J (M & _ & _ & Hn & PL & _). destruct M as (_ & M1 & M2 & M3 & M4 & M5 & M6 & M7 & _).
  destruct PL as (_ & P1 & P2 & P3 & P4 & P5 & P6 & P7).
  assert (NE : forall c : list R, length c = f_index (lg_flight l) -> c <> []) by (intros c E Z; rewrite Z in E; cbn [length] in E; lia).
  unfold continues, last_init. cbn [lg_init h0_km theta0_deg phi0_deg v0_kms psi0_deg gamma0_deg drange0_km]. cbv zeta.
  rewrite M1, M2, M3, M4, M5, M6, M7. rewrite !joined_last by (apply NE; assumption). auto 10.
Qed.
Lemma heat_given : forall q j, heatLoad0 (last_init q (Some j)) = j. Proof. reflexivity. Qed.
Lemma made_snoc : forall H L D l, made_of H L D -> made_of (hist_app H (lg_flight l) (lg_heat l)) (L ++ [l]) (D ++ [l]).
Proof.
  intros H L D l (M0 & M1 & M2 & M3 & M4 & M5 & M6 & M7 & M8 & M9 & M10 & M11 & M12 & M13).
  unfold made_of, hist_app. cbn [y_plot y_net y_drag y_dyn y_stag y_qtot y_heat p_t p_h p_v p_phi p_psi p_theta p_gamma p_drange].
  rewrite !joined_snoc, flat_map_app. cbn [flat_map]. rewrite app_nil_r, clocked_snoc, M0, M1, M2, M3, M4, M5, M6, M7, M8, M9, M10, M11, M12, M13.
  split; [|repeat split]. f_equal. apply map_ext. intros t. apply Rplus_comm.
Qed.

(** One more leg. *)
Lemma propagated : forall two E X name o secs dt d o', engine_ok E -> nan_ok X -> Planet name = Ok (vh_planet (ob_veh o)) ->
  propagate two E X o secs dt d = (o', Ok tt) -> forall f h, ob_flight o' = Some f -> ob_heat o' = Some h ->
  plain_leg two E (ob_veh o) (ob_tol o) dt (mkLeg (ob_init o) secs d f h) /\ (1 <= f_index f)%nat /\ plot_len (f_plot f) (f_index f) /\ length h = f_index f /\
  ob_veh o' = ob_veh o /\ ob_tol o' = ob_tol o.
Proof.
  intros two E X name o secs dt d o' HE HX HP H f h Hf Hh.
  destruct (propagate_ok two E X name o secs dt d o' HE HX HP H) as (A1 & A2 & A3 & f' & h' & Hf' & Hh' & FA & _).
  rewrite Hf in Hf'. rewrite Hh in Hh'. injection Hf' as <-. injection Hh' as <-. destruct FA as (B1 & _ & B2 & _ & _ & _ & _ & _ & _ & _ & B3 & _).
  split; [|auto 8]. intros e He. cbn [lg_bank lg_init lg_secs lg_flight lg_heat] in *. subst d. cbn [propagate] in H.
  destruct o as [V i tol fo ho]. cbn [ob_veh ob_init ob_tol] in *.
  assert (G : forall r h0 o', store (mkObj V i tol fo ho) r h0 = (o', Ok tt) -> ob_flight o' = Some f -> ob_heat o' = Some h ->
    exists o2, store (mkObj V i tol None None) r h0 = (o2, Ok tt) /\ ob_flight o2 = Some f /\ ob_heat o2 = Some h).
  { clear. intros r h0 o' H Hf Hh. unfold store in *. destruct r as [g|]; [|discriminate]. destruct (ocumtrapz (f_qtot g) (c_t (f_si g)) h0) as [heat|]; [|discriminate].
    injection H as <-. cbn [set_heat set_flight ob_flight ob_heat] in *. eexists. split; [reflexivity|]. split; assumption. }
  destruct two; unfold propogateEntry, propogateEntry2 in *; cbn [ob_veh ob_init ob_tol] in *; eapply G; eassumption.
Qed.
Lemma grown : forall two E X name s s' L l D J secs dt d f h, engine_ok E -> nan_ok X -> Planet name = Ok (vh_planet (ob_veh (s_obj s))) ->
  explained s L l D -> propagate two E X (restarted s J) secs dt d = (s_obj s', Ok tt) -> ob_flight (s_obj s') = Some f -> ob_heat (s_obj s') = Some h ->
  a_delta (s_arr s') = a_delta (s_arr s) ++ [d] ->
  let m := mkLeg (last_init (y_plot (s_hist s)) J) secs d f h in
  plain_leg two E (ob_veh (s_obj s)) (ob_tol (s_obj s)) dt m /\ ob_veh (s_obj s') = ob_veh (s_obj s) /\ ob_tol (s_obj s') = ob_tol (s_obj s) /\
  made_of (hist_app (s_hist s) f h) ((L ++ [l]) ++ [m]) (D ++ [m]) /\
  forall D', made_of (s_hist s') ((L ++ [l]) ++ [m]) D' -> explained s' (L ++ [l]) m D'.
Proof.
  intros two E X name s s' L l D J secs dt d f h HE HX HP Ex Hp Hf Hh Ha m.
  destruct (propagated two E X name (restarted s J) secs dt d _ HE HX HP Hp f h Hf Hh) as (A1 & A2 & A3 & A4 & A5 & A6).
  split; [exact A1|]. split; [exact A5|]. split; [exact A6|]. split; [apply (made_snoc _ _ _ m); apply Ex|].
  intros D' M. split; [exact M|]. split; [apply chained_snoc; [apply Ex|exact (last_point s L l D J Ex)]|].
  split; [rewrite Ha, map_app; f_equal; apply Ex|]. auto.
Qed.
Lemma eg_grown : forall two E X P name timeStep dt maxTime s s' b L l D, engine_ok E -> nan_ok X -> Planet name = Ok (vh_planet (ob_veh (s_obj s))) ->
  explained s L l D -> eg_step two E X P timeStep dt maxTime s = (s', Ok b) ->
  exists m, explained s' (L ++ [l]) m (D ++ [m]) /\ plain_leg two E (ob_veh (s_obj s)) (ob_tol (s_obj s)) dt m /\ lg_secs m = timeStep /\ heat_from l m /\
    ob_veh (s_obj s') = ob_veh (s_obj s) /\ ob_tol (s_obj s') = ob_tol (s_obj s).
Proof.
  intros two E X P name timeStep dt maxTime s s' b L l D HE HX HP Ex B.
  destruct (eg_step_inv _ _ _ _ _ _ _ _ _ _ B) as (qref & f & heat & apo & _ & Hp & Hf & Hh & Hy & Ha & _). cbv zeta in *.
  destruct (grown two E X name s s' L l D (cur_heat s) timeStep dt (s_delta s') f heat HE HX HP Ex Hp Hf Hh) as (A1 & A2 & A3 & A4 & A5); [rewrite Ha; reflexivity|].
  eexists. split; [apply A5; rewrite Hy; exact A4|]. split; [exact A1|]. split; [reflexivity|]. split; [|auto].
  intros j Hj. cbn [lg_init]. unfold cur_heat. destruct Ex as (_ & _ & _ & _ & _ & _ & ->). rewrite Hj. reflexivity.
Qed.
Lemma d_grown : forall two E X dm P name timeStep dt maxTime s s' b L l D, engine_ok E -> Planet name = Ok (vh_planet (ob_veh (s_obj s))) ->
  explained s L l D -> d_step two E X dm P timeStep dt maxTime s = (s', Ok b) ->
  exists m, explained s' (L ++ [l]) m (D ++ [m]) /\ plain_leg two E (ob_veh (s_obj s)) (ob_tol (s_obj s)) dt m /\ lg_secs m = timeStep /\ heat_from l m /\
    ob_veh (s_obj s') = ob_veh (s_obj s) /\ ob_tol (s_obj s') = ob_tol (s_obj s).
Proof.
  intros two E X dm P name timeStep dt maxTime s s' b L l D HE HP Ex B.
  destruct (d_step_inv _ _ _ _ _ _ _ _ _ _ _ B) as (f & heat & apo & Hp & Hf & Hh & Hy & Ha & _). cbv zeta in *.
  change (propagate two E (no_nan X) (restarted s (cur_heat s)) timeStep dt (Some 0) = (s_obj s', Ok tt)) in Hp.
  destruct (grown two E (no_nan X) name s s' L l D (cur_heat s) timeStep dt (Some 0) f heat HE (no_nan_ok X) HP Ex Hp Hf Hh) as (A1 & A2 & A3 & A4 & A5); [rewrite Ha; reflexivity|].
  eexists. split; [apply A5; rewrite Hy; exact A4|]. split; [exact A1|]. split; [reflexivity|]. split; [|auto].
  intros j Hj. cbn [lg_init]. unfold cur_heat. destruct Ex as (_ & _ & _ & _ & _ & _ & ->). rewrite Hj. reflexivity.
Qed.
Lemma made_exit : forall (H : hist) s L D m f h H', H' = hist_app (s_hist s) f h -> made_of H' L (D ++ [m]) -> forall D0, made_of (s_hist s) D0 D ->
  y_plot H = y_plot H' -> y_net H = y_net H' -> y_drag H = y_drag (s_hist s) -> y_dyn H = y_dyn H' -> y_stag H = y_stag H' -> y_qtot H = y_qtot H' -> y_heat H = y_heat H' ->
  made_of H L D.
Proof.
  intros H s L D m f h H' _ (M0 & M1 & M2 & M3 & M4 & M5 & M6 & M7 & M8 & M9 & M10 & M11 & M12 & M13) D0 N Y1 Y2 Y3 Y4 Y5 Y6 Y7.
  unfold made_of. rewrite Y1, Y2, Y3, Y4, Y5, Y6, Y7. destruct N as (_ & _ & _ & _ & _ & _ & _ & _ & _ & N & _). auto 20.
Qed.
Lemma exit_grown : forall two E X P name timeStep dt hd Ji s s' b L l D, engine_ok E -> nan_ok X -> Planet name = Ok (vh_planet (ob_veh (s_obj s))) ->
  explained s L l D -> exit_step two E X P timeStep dt hd Ji s = (s', Ok b) ->
  exists m, explained s' (L ++ [l]) m D /\ plain_leg two E (ob_veh (s_obj s)) (ob_tol (s_obj s)) dt m /\ lg_secs m = timeStep /\
    (forall j, Ji = Some j -> heatLoad0 (lg_init m) = j) /\ ob_veh (s_obj s') = ob_veh (s_obj s) /\ ob_tol (s_obj s') = ob_tol (s_obj s).
Proof.
  intros two E X P name timeStep dt hd Ji s s' b L l D HE HX HP Ex B.
  destruct (exit_step_inv _ _ _ _ _ _ _ _ _ _ _ B) as (f & heat & Hp & Hf & Hh & Y1 & Y2 & Y3 & Y4 & Y5 & Y6 & Y7 & Ha & _).
  destruct (grown two E X name s s' L l D Ji timeStep dt (s_delta s') f heat HE HX HP Ex Hp Hf Hh) as (A1 & A2 & A3 & A4 & A5); [rewrite Ha; reflexivity|].
  eexists. split; [apply A5; eapply made_exit; [reflexivity|exact A4|apply Ex|assumption..]|]. split; [exact A1|]. split; [reflexivity|]. split; [|auto].
  intros j ->. reflexivity.
Qed.
Lemma dexit_grown : forall two E X name timeStep dt hd Ji s s' b L l D, engine_ok E -> Planet name = Ok (vh_planet (ob_veh (s_obj s))) ->
  explained s L l D -> dexit_step two E X timeStep dt hd Ji s = (s', Ok b) ->
  exists m, explained s' (L ++ [l]) m D /\ plain_leg two E (ob_veh (s_obj s)) (ob_tol (s_obj s)) dt m /\ lg_secs m = timeStep /\
    (forall j, Ji = Some j -> heatLoad0 (lg_init m) = j) /\ ob_veh (s_obj s') = ob_veh (s_obj s) /\ ob_tol (s_obj s') = ob_tol (s_obj s).
Proof.
  intros two E X name timeStep dt hd Ji s s' b L l D HE HP Ex B.
  destruct (dexit_step_inv _ _ _ _ _ _ _ _ _ _ B) as (f & heat & Hp & Hf & Hh & Y1 & Y2 & Y3 & Y4 & Y5 & Y6 & Y7 & Ha & _).
  change (propagate two E (no_nan X) (restarted s Ji) timeStep dt (Some 0) = (s_obj s', Ok tt)) in Hp.
  destruct (grown two E (no_nan X) name s s' L l D Ji timeStep dt (Some 0) f heat HE (no_nan_ok X) HP Ex Hp Hf Hh) as (A1 & A2 & A3 & A4 & A5); [rewrite Ha; reflexivity|].
  eexists. split; [apply A5; eapply made_exit; [reflexivity|exact A4|apply Ex|assumption..]|]. split; [exact A1|]. split; [reflexivity|]. split; [|auto].
  intros j ->. reflexivity.
Qed.

(** Many more legs. *)
Lemma carried_snoc : forall L l m, heat_carried (L ++ [l]) -> heat_from l m -> heat_carried ((L ++ [l]) ++ [m]).
Proof.
  intros L l m H C k a b Ha Hb. destruct (Nat.lt_ge_cases (S k) (length (L ++ [l]))) as [Hk|Hk].
  - rewrite nth_error_app1 in Ha, Hb by lia. eapply H; eauto.
  - assert (Hl : (S k < length ((L ++ [l]) ++ [m]))%nat) by (apply nth_error_Some; congruence). rewrite !app_length in *. cbn [length] in *.
    assert (k = length L) as -> by lia. rewrite nth_error_app2 in Hb by (rewrite app_length; cbn [length]; lia). rewrite app_length in Hb. cbn [length] in Hb.
    replace (S (length L) - (length L + 1))%nat with 0%nat in Hb by lia. injection Hb as <-.
    rewrite nth_error_app1 in Ha by (rewrite app_length; cbn [length]; lia). rewrite nth_error_app2, Nat.sub_diag in Ha by lia. injection Ha as <-. exact C.
Qed.
Definition phase_legs (two : bool) (E : engine) (V : vehicle) (tol dt secs : R) (G : list leg) : Prop := Forall (fun m => plain_leg two E V tol dt m /\ lg_secs m = secs) G.
(** First phase: the drag load is recorded and the heat load handed on. *)
Lemma first_phase : forall body two E V tol dt secs,
  (forall s s' b L l D, ob_veh (s_obj s) = V -> ob_tol (s_obj s) = tol -> explained s L l D -> body s = (s', Ok b) ->
    exists m, explained s' (L ++ [l]) m (D ++ [m]) /\ plain_leg two E (ob_veh (s_obj s)) (ob_tol (s_obj s)) dt m /\ lg_secs m = secs /\ heat_from l m /\
      ob_veh (s_obj s') = ob_veh (s_obj s) /\ ob_tol (s_obj s') = ob_tol (s_obj s)) ->
  forall k s s' l, passes_or_break body k s s' -> explained s [] l [l] -> ob_veh (s_obj s) = V -> ob_tol (s_obj s) = tol ->
  exists G L' l', l :: G = L' ++ [l'] /\ explained s' L' l' (l :: G) /\ phase_legs two E V tol dt secs G /\ heat_carried (l :: G) /\
    ob_veh (s_obj s') = V /\ ob_tol (s_obj s') = tol.
Proof.
  intros body two E V tol dt secs Hb k s s' l Hk Ex HV Ht.
  set (I := fun s' => exists G L' l', l :: G = L' ++ [l'] /\ explained s' L' l' (l :: G) /\ phase_legs two E V tol dt secs G /\ heat_carried (l :: G) /\ ob_veh (s_obj s') = V /\ ob_tol (s_obj s') = tol).
  apply (pob_invariant I body) with (k := k) (s := s); [|exact Hk|].
  - intros s1 s2 b (G & L' & l' & E1 & Ex1 & Ph & Hc & V1 & T1) B. destruct (Hb s1 s2 b L' l' _ V1 T1 Ex1 B) as (m & A1 & A2 & A3 & A4 & A5 & A6).
    exists (G ++ [m]), (l :: G), m. split; [reflexivity|]. split; [rewrite <- E1 in A1; exact A1|]. split; [apply Forall_app; split; [exact Ph|constructor; [|constructor]]|].
    { rewrite <- V1, <- T1. auto. }
    split; [|split; congruence]. change (heat_carried ((l :: G) ++ [m])). rewrite E1. apply carried_snoc; [rewrite <- E1; exact Hc|exact A4].
  - exists [], [], l. split; [reflexivity|]. split; [exact Ex|]. split; [constructor|]. split; [|auto]. intros j a b Ha Hb'. destruct j; discriminate.
Qed.
(** Exit phase: the drag load is not recorded, and every leg is given the same heat load. *)
Lemma second_phase : forall body two E V tol dt secs Ji L0 D,
  (forall s s' b L l D, ob_veh (s_obj s) = V -> ob_tol (s_obj s) = tol -> explained s L l D -> body s = (s', Ok b) ->
    exists m, explained s' (L ++ [l]) m D /\ plain_leg two E (ob_veh (s_obj s)) (ob_tol (s_obj s)) dt m /\ lg_secs m = secs /\
      (forall j, Ji = Some j -> heatLoad0 (lg_init m) = j) /\ ob_veh (s_obj s') = ob_veh (s_obj s) /\ ob_tol (s_obj s') = ob_tol (s_obj s)) ->
  forall k s s' L l, L0 = L ++ [l] -> passes_or_break body k s s' -> explained s L l D -> ob_veh (s_obj s) = V -> ob_tol (s_obj s) = tol ->
  exists G L' l', L0 ++ G = L' ++ [l'] /\ explained s' L' l' D /\ phase_legs two E V tol dt secs G /\
    Forall (fun m => forall j, Ji = Some j -> heatLoad0 (lg_init m) = j) G /\ ob_veh (s_obj s') = V /\ ob_tol (s_obj s') = tol.
Proof.
  intros body two E V tol dt secs Ji L0 D Hb k s s' L l EL Hk Ex HV Ht.
  set (I := fun s' => exists G L' l', L0 ++ G = L' ++ [l'] /\ explained s' L' l' D /\ phase_legs two E V tol dt secs G /\
    Forall (fun m => forall j, Ji = Some j -> heatLoad0 (lg_init m) = j) G /\ ob_veh (s_obj s') = V /\ ob_tol (s_obj s') = tol).
  apply (pob_invariant I body) with (k := k) (s := s); [|exact Hk|].
  - intros s1 s2 b (G & L' & l' & E1 & Ex1 & Ph & Hc & V1 & T1) B. destruct (Hb s1 s2 b L' l' _ V1 T1 Ex1 B) as (m & A1 & A2 & A3 & A4 & A5 & A6).
    exists (G ++ [m]), (L0 ++ G), m. split; [apply app_assoc|]. split; [rewrite E1; exact A1|]. split; [apply Forall_app; split; [exact Ph|constructor; [|constructor]]|].
    { rewrite <- V1, <- T1. auto. }
    split; [apply Forall_app; split; [exact Hc|constructor; [exact A4|constructor]]|split; congruence].
  - exists [], L, l. split; [rewrite app_nil_r; exact EL|]. split; [exact Ex|]. split; [constructor|]. split; [constructor|auto].
Qed.
Lemma start_explained : forall two E X name o hr dt o1 s, engine_ok E -> nan_ok X -> Planet name = Ok (vh_planet (ob_veh o)) -> eg_start two E X o hr dt = (o1, Ok s) ->
  exists l, explained s [] l [l] /\ lg_init l = ob_init o /\ lg_secs l = 1 /\ lg_bank l = Some 0 /\ plain_leg two E (ob_veh o) (ob_tol o) dt l /\
    ob_veh (s_obj s) = ob_veh o /\ ob_tol (s_obj s) = ob_tol o.
Proof.
  intros two E X name o hr dt o1 s HE HX HP H. destruct (start_keeps _ _ _ _ _ _ _ _ H) as (K1 & K2). destruct (start_inv _ _ _ _ _ _ _ _ H) as (Hp & f & h & Hf & Hh & ->).
  destruct (propagated two E X name o 1 dt (Some 0) o1 HE HX HP Hp f h Hf Hh) as (A1 & A2 & A3 & A4 & _).
  exists (mkLeg (ob_init o) 1 (Some 0) f h). split; [|do 3 (split; [reflexivity|]); auto].
  split.
  { unfold made_of, joined_up, hist_of. cbn [s_hist app clocked flat_map lg_flight lg_heat y_plot y_net y_drag y_dyn y_stag y_qtot y_heat]. rewrite !app_nil_r.
    split; [|repeat split]. rewrite <- (map_id (p_t (f_plot f))) at 1. apply map_ext. intros t. ring. }
  split; [intros j a b Ha Hb; destruct j; discriminate|]. split; [reflexivity|]. auto.
Qed.
Lemma last_heat : forall s L l D, explained s L l D -> last (y_heat (s_hist s)) None = last (lg_heat l) None.
Proof.
  intros s L l D (M & _ & _ & Hn & _ & Hl & _). destruct M as (_ & _ & _ & _ & _ & _ & _ & _ & _ & _ & _ & _ & _ & ->).
  rewrite flat_map_app. cbn [flat_map]. rewrite app_nil_r, last_append. apply last_default. intros Z. rewrite Z in Hl. cbn [length] in Hl. lia.
Qed.
Lemma explained_exit : forall s L l D, explained s L l D -> explained (exit_start s) L l D. Proof. intros s L l D H. exact H. Qed.
Lemma explained_obj : forall s o L l D, ob_heat o = ob_heat (s_obj s) -> explained s L l D -> explained (set_obj s o) L l D.
Proof. intros s o L l D Ho (A1 & A2 & A3 & A4 & A5 & A6 & A7). unfold explained. cbn [set_obj s_hist s_arr s_obj]. rewrite Ho. auto 10. Qed.

(** * C103 *)
(** A guided flight with lift modulation. *)
Theorem C103_lift_flight : forall two E X P name timeStep dt maxTime n o hdotref o' s s' rep, engine_ok E -> nan_ok X ->
  Planet name = Ok (vh_planet (ob_veh o)) ->
  propogateGuidedEntry two E X P timeStep dt maxTime n o hdotref = Some (o', Ok (s, s', rep)) ->
  exists first glide last_glide exits, let L := first :: glide ++ exits in
    lg_init first = ob_init o /\ lg_secs first = 1 /\ lg_bank first = Some 0 /\
    Forall (fun m => lg_secs m = timeStep) (glide ++ exits) /\ Forall (plain_leg two E (ob_veh o) (ob_tol o) dt) L /\
    chained L /\ a_delta (s_arr s') = map lg_bank L /\
    made_of (s_hist s) (first :: glide) (first :: glide) /\ made_of (s_hist s') L (first :: glide) /\
    heat_carried (first :: glide) /\ last (first :: glide) first = last_glide /\ Forall (heat_from last_glide) exits.
Proof.
  intros two E X P name timeStep dt maxTime n o hdotref o' s s' rep HE HX HP H. unfold propogateGuidedEntry, propogateEquilibriumGlide in H.
  destruct (eg_start two E X o hdotref dt) as [o1 [s0|]] eqn:E0; [|discriminate].
  destruct (while_loop (eg_guard P) _ n s0) as [[s1 [[]|]]|] eqn:E1; try discriminate. unfold propogateExitPhase in H.
  destruct (while_loop exit_guard _ n (exit_start s1)) as [[s2 [[]|]]|] eqn:E2; try discriminate. injection H as <- <- <- <-.
  destruct (while_passes _ _ _ _ _ E1) as (k1 & P1). destruct (while_passes _ _ _ _ _ E2) as (k2 & P2).
  destruct (start_explained two E X name o hdotref dt o1 s0 HE HX HP E0) as (l & Ex0 & S1 & S2 & S3 & S4 & V0 & T0).
  assert (St1 : forall s s' b L l D, ob_veh (s_obj s) = ob_veh o -> ob_tol (s_obj s) = ob_tol o -> explained s L l D -> eg_step two E X P timeStep dt maxTime s = (s', Ok b) ->
    exists m, explained s' (L ++ [l]) m (D ++ [m]) /\ plain_leg two E (ob_veh (s_obj s)) (ob_tol (s_obj s)) dt m /\ lg_secs m = timeStep /\ heat_from l m /\
      ob_veh (s_obj s') = ob_veh (s_obj s) /\ ob_tol (s_obj s') = ob_tol (s_obj s)).
  { intros a a' b L0 l0 D0 V1 T1 X1 B. eapply (eg_grown two E X P name); eauto. rewrite V1. exact HP. }
  destruct (first_phase _ two E (ob_veh o) (ob_tol o) dt timeStep St1 k1 s0 s1 l P1 Ex0 V0 T0) as (G & L' & l' & EG & Ex1 & Ph & Hc & V1 & T1).
  set (Ji := last (y_heat (s_hist s1)) None) in *.
  assert (St2 : forall s s' b L l D, ob_veh (s_obj s) = ob_veh o -> ob_tol (s_obj s) = ob_tol o -> explained s L l D -> exit_step two E X P timeStep dt (last (a_hdot (s_arr s1)) 0) Ji s = (s', Ok b) ->
    exists m, explained s' (L ++ [l]) m D /\ plain_leg two E (ob_veh (s_obj s)) (ob_tol (s_obj s)) dt m /\ lg_secs m = timeStep /\
      (forall j, Ji = Some j -> heatLoad0 (lg_init m) = j) /\ ob_veh (s_obj s') = ob_veh (s_obj s) /\ ob_tol (s_obj s') = ob_tol (s_obj s)).
  { intros a a' b L0 l0 D0 V2 T2 X1 B. eapply (exit_grown two E X P name); eauto. rewrite V2. exact HP. }
  destruct (second_phase _ two E (ob_veh o) (ob_tol o) dt timeStep Ji (l :: G) (l :: G) St2 k2 (exit_start s1) s2 L' l' EG P2 Ex1 V1 T1) as (G2 & L2 & l2 & EG2 & Ex2 & Ph2 & Hc2 & _ & _).
  exists l, G, l', G2. cbv zeta. change (l :: G ++ G2) with ((l :: G) ++ G2).
  assert (EF : forall G, phase_legs two E (ob_veh o) (ob_tol o) dt timeStep G -> Forall (fun m => lg_secs m = timeStep) G /\ Forall (plain_leg two E (ob_veh o) (ob_tol o) dt) G).
  { intros G0 F. split; eapply Forall_impl; try exact F; cbv beta; tauto. }
  destruct (EF _ Ph) as (F1 & F2). destruct (EF _ Ph2) as (F3 & F4).
  split; [exact S1|]. split; [exact S2|]. split; [exact S3|]. split; [apply Forall_app; split; assumption|]. split; [apply Forall_app; split; [constructor; assumption|assumption]|].
  split; [rewrite EG2; apply Ex2|]. split; [rewrite EG2; apply Ex2|]. split; [rewrite EG at 1; apply Ex1|]. split; [rewrite EG2; apply Ex2|]. split; [exact Hc|].
  split; [rewrite EG; apply last_last|]. eapply Forall_impl; [|exact Hc2]. cbv beta. intros m Hm j Hj. apply Hm. unfold Ji. rewrite (last_heat _ _ _ _ Ex1). exact Hj.
Qed.
(** A guided flight with drag modulation: beta1 before the skirt is dropped, beta1 times the ratio after it. *)
Theorem C103_drag_flight : forall two E X b1 ratio P name timeStepEntry timeStepExit dt maxTime n o hdotref o' s s' rep, engine_ok E ->
  Planet name = Ok (vh_planet (ob_veh o)) ->
  propogateGuidedEntryD two E X (Some (b1, ratio)) P timeStepEntry timeStepExit dt maxTime n o hdotref = Some (o', Ok (s, s', rep)) ->
  let V := ob_veh o in
  let W b := mkVehicle (vh_mass V) b (vh_LD V) (vh_A V) (vh_alpha V) (vh_RN V) (vh_planet V) (vh_atm V) (vh_user V) (vh_CDMach V)
               (vh_Abar V) (vh_mbar V) (vh_mass V / (b * vh_A V)) (vh_CL V) in
  exists first entry last_entry exits, let L := first :: entry ++ exits in
    lg_init first = ob_init o /\ lg_secs first = 1 /\ Forall (fun m => lg_bank m = Some 0) L /\
    Forall (fun m => lg_secs m = timeStepEntry) entry /\ Forall (fun m => lg_secs m = timeStepExit) exits /\
    Forall (plain_leg two E (W b1) (ob_tol o) dt) (first :: entry) /\ Forall (plain_leg two E (W (b1 * ratio)) (ob_tol o) dt) exits /\
    chained L /\ a_delta (s_arr s') = map lg_bank L /\
    made_of (s_hist s) (first :: entry) (first :: entry) /\ made_of (s_hist s') L (first :: entry) /\
    heat_carried (first :: entry) /\ last (first :: entry) first = last_entry /\ Forall (heat_from last_entry) exits.
Proof.
  intros two E X b1 ratio P name tE tX dt maxTime n o hdotref o' s s' rep HE HP H V W.
  destruct (C76_left_behind _ _ _ _ _ _ _ _ _ _ _ _ _ _ _ _ H) as (b1' & ratio' & Edm & N1 & N2 & _ & _ & _ & Zero). injection Edm as <- <-.
  unfold propogateGuidedEntryD, propogateEntryPhaseD in H. cbn [fst] in H.
  destruct (set_ballistic o b1) as [o0 [[]|]] eqn:B0; [|discriminate]. destruct (eg_start two E X o0 hdotref dt) as [o1 [s0|]] eqn:E0; [|discriminate].
  destruct (while_loop (eg_guard P) _ n s0) as [[s1 [[]|]]|] eqn:E1; try discriminate.
  unfold propogateExitPhaseD in H. destruct (set_ballistic (s_obj s1) (b1 * ratio)) as [o2 [[]|]] eqn:B1; [|discriminate].
  destruct (while_loop exit_guard _ n (exit_start (set_obj s1 o2))) as [[s2 [[]|]]|] eqn:E2; try discriminate. injection H as <- <- <- <-.
  destruct (while_passes _ _ _ _ _ E1) as (k1 & P1). destruct (while_passes _ _ _ _ _ E2) as (k2 & P2).
  destruct (set_ballistic_ok _ _ _ B0) as (Eo0 & _). destruct (set_ballistic_ok _ _ _ B1) as (Eo2 & _).
  assert (E0' : eg_start two E (no_nan X) o0 hdotref dt = (o1, Ok s0)) by exact E0.
  assert (VW : ob_veh o0 = W b1) by (rewrite Eo0; reflexivity). assert (TW : ob_tol o0 = ob_tol o) by (rewrite Eo0; reflexivity).
  destruct (start_explained two E (no_nan X) name o0 hdotref dt o1 s0 HE (no_nan_ok X)) as (l & Ex0 & S1 & S2 & S3 & S4 & V0 & T0); [rewrite VW; exact HP|exact E0'|].
  rewrite VW, TW in *.
  assert (St1 : forall s s' b L l D, ob_veh (s_obj s) = W b1 -> ob_tol (s_obj s) = ob_tol o -> explained s L l D -> d_step two E X (b1, ratio) P tE dt maxTime s = (s', Ok b) ->
    exists m, explained s' (L ++ [l]) m (D ++ [m]) /\ plain_leg two E (ob_veh (s_obj s)) (ob_tol (s_obj s)) dt m /\ lg_secs m = tE /\ heat_from l m /\
      ob_veh (s_obj s') = ob_veh (s_obj s) /\ ob_tol (s_obj s') = ob_tol (s_obj s)).
  { intros a a' b L0 l0 D0 V1 T1 X1 B. eapply (d_grown two E X (b1, ratio) P name); eauto. rewrite V1. exact HP. }
  destruct (first_phase _ two E (W b1) (ob_tol o) dt tE St1 k1 s0 s1 l P1 Ex0 V0 T0) as (G & L' & l' & EG & Ex1 & Ph & Hc & V1 & T1).
  set (Ji := last (y_heat (s_hist s1)) None) in *.
  assert (VW2 : ob_veh o2 = W (b1 * ratio)) by (rewrite Eo2; cbn [set_veh ob_veh]; rewrite V1; reflexivity). assert (TW2 : ob_tol o2 = ob_tol o) by (rewrite Eo2; exact T1).
  assert (HW2 : ob_heat o2 = ob_heat (s_obj s1)) by (rewrite Eo2; reflexivity).
  assert (St2 : forall s s' b L l D, ob_veh (s_obj s) = W (b1 * ratio) -> ob_tol (s_obj s) = ob_tol o -> explained s L l D -> dexit_step two E X tX dt (last (a_hdot (s_arr s1)) 0) Ji s = (s', Ok b) ->
    exists m, explained s' (L ++ [l]) m D /\ plain_leg two E (ob_veh (s_obj s)) (ob_tol (s_obj s)) dt m /\ lg_secs m = tX /\
      (forall j, Ji = Some j -> heatLoad0 (lg_init m) = j) /\ ob_veh (s_obj s') = ob_veh (s_obj s) /\ ob_tol (s_obj s') = ob_tol (s_obj s)).
  { intros a a' b L0 l0 D0 V2 T2 X1 B. eapply (dexit_grown two E X name); eauto. rewrite V2. exact HP. }
  destruct (second_phase _ two E (W (b1 * ratio)) (ob_tol o) dt tX Ji (l :: G) (l :: G) St2 k2 (exit_start (set_obj s1 o2)) s2 L' l' EG P2 (explained_obj s1 o2 L' l' _ HW2 Ex1) VW2 TW2)
    as (G2 & L2 & l2 & EG2 & Ex2 & Ph2 & Hc2 & _ & _).
  exists l, G, l', G2. cbv zeta. change (l :: G ++ G2) with ((l :: G) ++ G2).
  assert (EF : forall V secs G, phase_legs two E V (ob_tol o) dt secs G -> Forall (fun m => lg_secs m = secs) G /\ Forall (plain_leg two E V (ob_tol o) dt) G).
  { intros V2 secs G0 F. split; eapply Forall_impl; try exact F; cbv beta; tauto. }
  destruct (EF _ _ _ Ph) as (F1 & F2). destruct (EF _ _ _ Ph2) as (F3 & F4).
  assert (EA : a_delta (s_arr s2) = map lg_bank ((l :: G) ++ G2)) by (rewrite EG2; apply Ex2).
  split; [rewrite S1, Eo0; reflexivity|]. split; [exact S2|]. split; [rewrite EA in Zero; apply Forall_map in Zero; exact Zero|]. split; [exact F1|]. split; [exact F3|].
  split; [constructor; assumption|]. split; [exact F4|].
  split; [rewrite EG2; apply Ex2|]. split; [exact EA|]. split; [rewrite EG at 1; apply Ex1|]. split; [rewrite EG2; apply Ex2|]. split; [exact Hc|].
  split; [rewrite EG; apply last_last|]. eapply Forall_impl; [|exact Hc2]. cbv beta. intros m Hm j Hj. apply Hm. unfold Ji. rewrite (last_heat _ _ _ _ Ex1). exact Hj.
Qed.
(** Both kinds of flight exist, and consist of several legs. *)
Example C103_witness : exists X o' s s' rep first glide exits, nan_ok X /\ engine_ok (brake 1) /\ Planet "VENUS" = Ok (vh_planet glider) /\
  propogateGuidedEntry false (brake 1) X (glide_params 5) 1 1 600 5 (mkObj glider (mkInit 179 0 0 11 0 0 0 0) 1 None None) [] = Some (o', Ok (s, s', rep)) /\
  made_of (s_hist s') (first :: glide ++ exits) (first :: glide) /\ length (first :: glide ++ exits) = 3%nat.
Proof.
  destruct C59_witness as (X & o' & s & s' & rep & HX & HE & _ & H & Ha). exists X, o', s, s', rep.
  destruct (C103_lift_flight _ _ _ _ "VENUS" _ _ _ _ (mkObj glider (mkInit 179 0 0 11 0 0 0 0) 1 None None) _ _ _ _ _ HE HX eq_refl H) as (l & G & l' & G2 & A). cbv zeta in A. destruct A as (_ & _ & _ & _ & _ & _ & A & _ & B & _).
  exists l, G, G2. do 3 (split; [auto; reflexivity|]). split; [exact H|]. split; [exact B|].
  destruct (C59_guided_arrays _ _ _ _ _ _ _ _ _ _ _ _ _ _ H) as (n & m & C). cbv zeta in C. destruct C as (C1 & C2 & _). rewrite A, map_length in C2. lia.
Qed.
Example C103_drag_witness : exists X o' s s' rep first entry exits, engine_ok (brake 1) /\ Planet "VENUS" = Ok (vh_planet glider) /\
  propogateGuidedEntryD false (brake 1) X (Some (50, 4)) (glide_params 5) 1 1 1 600 5 (mkObj glider (mkInit 179.4 0 0 11 0 0 0 0) 1 None None) [] = Some (o', Ok (s, s', rep)) /\
  made_of (s_hist s') (first :: entry ++ exits) (first :: entry) /\ length (first :: entry ++ exits) = 3%nat.
Proof.
  destruct C76_witness as (X & o' & s & s' & rep & HE & H & Ha & _). exists X, o', s, s', rep.
  destruct (C103_drag_flight _ _ _ _ _ _ "VENUS" _ _ _ _ _ (mkObj glider (mkInit 179.4 0 0 11 0 0 0 0) 1 None None) _ _ _ _ _ HE eq_refl H) as (l & G & l' & G2 & A). cbv zeta in A. destruct A as (_ & _ & _ & _ & _ & _ & _ & _ & A & _ & B & _).
  exists l, G, G2. do 2 (split; [auto; reflexivity|]). split; [exact H|]. split; [exact B|].
  destruct (C59_drag_arrays _ _ _ _ _ _ _ _ _ _ _ _ _ _ _ _ H) as (n & m & C). cbv zeta in C. destruct C as (C1 & C2 & _). rewrite A, map_length in C2. lia.
Qed.
