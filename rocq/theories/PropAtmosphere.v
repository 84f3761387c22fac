(** Property C85: what loading an atmosphere table does; and the numbers of the catalogue (C06). *)
From Coq Require Import String List.
Require Import Verif.Base Verif.Numpy Verif.NumpyProofs Verif.TableSpec Verif.PlanetModel Verif.PlanetProofs Verif.HeatModel Verif.PropPlanet Verif.PropHeat Verif.AtmosphereModel Verif.AtmosphereSpec.

(** * C06 *)
Theorem C06_constants : forall f, In f catalogue -> exists p, Planet (fa_name f) = Ok p /\
  ID p = fa_name f /\ RP p = fa_radius f * 1000 /\ OMEGA p = fa_spin f / 1e6 /\ GM p = fa_GM f * 1e9 /\ rho0 p = fa_rho0 f /\ CPCV p = fa_cpcv f /\
  J2 p = fa_J2 f / 1e6 /\ J3 p = fa_J3 f / 1e6 /\ a0 p = fa_ra f * (PI / 180) /\ d0 p = fa_dec f * (PI / 180) /\
  h_thres p = fa_top f * 1000 /\ h_skip p = fa_skip f * 1000 /\ h_trap p = fa_trap f * 1000 /\ h_low p = option_map (fun x => x * 1000) (fa_low f).
Proof.
  intros f HI. unfold catalogue in HI. cbn [In] in HI.
  repeat (destruct HI as [<-|HI]; [eexists; split; [reflexivity|]; cbn [fa_name fa_radius fa_spin fa_GM fa_rho0 fa_cpcv fa_J2 fa_J3 fa_ra fa_dec fa_top fa_skip fa_trap fa_low option_map
    ID RP OMEGA GM rho0 CPCV J2 J3 a0 d0 h_thres h_skip h_trap h_low VENUS EARTH MARS JUPITER SATURN TITAN URANUS NEPTUNE]; unfold deg;
    repeat (split; [first [reflexivity|lra]|]); first [reflexivity|f_equal; lra]|]). contradiction.
Qed.
(** The catalogue is complete, and the surface gravity of each world is its own. *)
Theorem C06_surface_gravity : forall name p, Planet name = Ok p ->
  In name (map fa_name catalogue) /\ exists g, In (name, g) surface_gravity /\ 0.98 * g <= GM p / (RP p * RP p) <= 1.02 * g.
Proof.
  intros name p H. split; [each_planet H; subst; cbn; auto 10|].
  each_planet H; eexists; (split; [cbn [In surface_gravity]; repeat first [left; reflexivity|right]|]); cbn [GM RP VENUS EARTH MARS JUPITER SATURN TITAN URANUS NEPTUNE]; lra.
Qed.
(** Earth's standard gravity, the unit of every reported load. *)
Theorem C06_standard_gravity : EARTHG * 100000 = 980665.
Proof. unfold EARTHG. lra. Qed.
Example C06_constants_witness : length catalogue = 8%nat /\ length surface_gravity = 8%nat. Proof. split; reflexivity. Qed.

(** ** Columns *)
Lemma column_ok : forall rows w c l, rectangular rows w -> column rows c = Ok l -> l = map (fun row => cell row c) rows.
Proof.
  intros rows w c l Hw H. unfold column in H. destruct rows as [|r [|r2 rows]]; try discriminate. set (all := r :: r2 :: rows) in *.
  assert (Lr : length r = w) by (apply Hw; left; auto). rewrite Lr in H. destruct (Z.of_nat w <=? 1)%Z; [discriminate|]. destruct (_ && _)%bool; [|discriminate]. injection H as <-.
  change (map (fun row => nth (Z.to_nat (if (c <? 0)%Z then (c + Z.of_nat w)%Z else c)) row 0) all = map (fun row => cell row c) all).
  apply map_ext_in. intros row HI. unfold cell. rewrite (Hw row HI). reflexivity.
Qed.
Lemma column_raises : forall rows c l e, column rows c = Err e -> e = IndexError /\ (column rows c = Ok l -> False).
Proof. intros rows c l e H. split; [|congruence]. unfold column in H. destruct rows as [|r [|r2 rows]]; [congruence|congruence|]. destruct (_ <=? 1)%Z; [congruence|]. destruct (_ && _)%bool; congruence. Qed.
Lemma column_defined : forall rows w c, rectangular rows w -> (2 <= length rows)%nat -> (2 <= w)%nat ->
  (exists l, column rows c = Ok l) <-> (- Z.of_nat w <= c < Z.of_nat w)%Z.
Proof.
  intros rows w c Hw Hn H2. unfold column. destruct rows as [|r [|r2 rows]]; cbn [length] in Hn; try lia. assert (Lr : length r = w) by (apply Hw; left; auto). rewrite Lr.
  destruct (Z.leb_spec (Z.of_nat w) 1); [lia|]. destruct (Z.ltb_spec c 0).
  - destruct (Z.leb_spec 0 (c + Z.of_nat w)), (Z.ltb_spec (c + Z.of_nat w) (Z.of_nat w)); cbn [andb]; split; intros X; try (eexists; reflexivity); try lia; destruct X as (l & X); discriminate.
  - destruct (Z.leb_spec 0 c), (Z.ltb_spec c (Z.of_nat w)); cbn [andb]; split; intros X; try (eexists; reflexivity); try lia; destruct X as (l & X); discriminate.
Qed.
Lemma atm_height_metres : forall km l, atm_height km l = map (metres km) l.
Proof. intros [] l; unfold atm_height, metres; [apply map_ext; intros; lra|symmetry; apply map_id]. Qed.

(** What a successful load has put in place. *)
Lemma load_ok : forall K o rows w hc tc pc dc km o', rectangular rows w -> loadAtmosphereModel K o (Ok rows) hc tc pc dc km = (o', Ok tt) ->
  let hs := map (fun row => metres km (cell row hc)) rows in
  let col c := map (fun row => Some (cell row c)) rows in
  let ss := map (fun row => atm_sonic (po_planet o) (cell row pc) (cell row dc)) rows in
  rows <> [] /\ ik_make K hs = Ok tt /\ po_planet o' = po_planet o /\
  po_temp_int o' = Some (interpolant K hs (col tc) 0) /\ po_pressure_int o' = Some (interpolant K hs (col pc) 0) /\
  po_density_int o' = Some (interpolant K hs (col dc) 0) /\ po_sonic_int o' = Some (interpolant K hs ss 1e20).
Proof.
  intros K o rows w hc tc pc dc km o' Hw H. cbv zeta. unfold loadAtmosphereModel in H. destruct o as [p A h t pr d s ti pi di si]. cbn [po_planet].
  destruct (column rows hc) as [hcol|] eqn:E1; [|discriminate]. destruct (column rows tc) as [ts|] eqn:E2; [|discriminate]. destruct (column rows pc) as [ps|] eqn:E3; [|discriminate]. destruct (column rows dc) as [ds|] eqn:E4; [|discriminate].
  assert (NE : rows <> []) by (intros ->; discriminate).
  apply (column_ok _ _ _ _ Hw) in E1, E2, E3, E4. subst. rewrite atm_height_metres, map_map in H. destruct (ik_make K _) as [[]|] eqn:Em; [|discriminate]. injection H as <-. cbn [po_planet po_temp_int po_pressure_int po_density_int po_sonic_int].
  rewrite !map_map. split; [exact NE|]. split; [first [exact Em|reflexivity]|]. do 4 (split; [reflexivity|]). f_equal. f_equal.
  clear. induction rows as [|r l IH]; cbn [map combine fst snd]; congruence.
Qed.
Lemma in_range : forall xs x, In x xs -> Rltb x (list_min xs) || Rltb (list_max xs) x = false.
Proof. intros xs x H. pose proof (list_max_ge _ _ H). pose proof (list_min_le _ _ H). rcases; auto; lra. Qed.
Lemma combine_map : forall {A B C} (f : A -> B) (g : A -> C) l, combine (map f l) (map g l) = map (fun a => (f a, g a)) l.
Proof. intros A B C f g l. induction l as [|a l IH]; cbn; congruence. Qed.
Lemma node_value : forall K (rows : list (list R)) (h : list R -> R) (v : list R -> option R) fill row y, exact_at_nodes K -> NoDup (map h rows) -> (forall r, In r rows -> v r <> None) ->
  In row rows -> v row = Some y -> interpolant K (map h rows) (map v rows) fill (h row) = Some y.
Proof.
  intros K rows h v fill row y HK ND HV HI Hy. unfold interpolant. rewrite in_range by (apply in_map; auto). rewrite combine_map. apply HK.
  - rewrite map_map. cbn [fst]. exact ND.
  - intros q Hq. apply in_map_iff in Hq. destruct Hq as (r & <- & Hr). cbn [snd]. auto.
  - apply in_map_iff. exists row. rewrite Hy. auto.
Qed.

(** * C85 *)
(** At every row of the table, whatever the interpolation as long as it goes through its points: the
    loaded temperature, pressure and density are those of the row, at the height of the row in metres. *)
Theorem C85_rows : forall K o rows w hc tc pc dc km o', exact_at_nodes K -> rectangular rows w -> NoDup (map (fun row => cell row hc) rows) ->
  loadAtmosphereModel K o (Ok rows) hc tc pc dc km = (o', Ok tt) -> forall row, In row rows ->
  let h := metres km (cell row hc) in
  says (po_temp_int o') h (cell row tc) /\ says (po_pressure_int o') h (cell row pc) /\ says (po_density_int o') h (cell row dc).
Proof.
  intros K o rows w hc tc pc dc km o' HK Hw ND H row HI h. destruct (load_ok _ _ _ _ _ _ _ _ _ _ Hw H) as (_ & _ & _ & T & P & D & _).
  assert (ND' : NoDup (map (fun row => metres km (cell row hc)) rows)).
  { rewrite <- (map_map (fun row => cell row hc) (metres km)). apply FinFun.Injective_map_NoDup; auto. intros a b E. unfold metres in E. destruct km; lra. }
  unfold says. rewrite T, P, D. split; [|split]; (eexists; split; [reflexivity|]);
    (apply (node_value K rows (fun row => metres km (cell row hc))); [exact HK|exact ND'|discriminate|exact HI|reflexivity]).
Qed.
(** The speed of sound at a row is that of a perfect gas, a^2 = gamma p / rho. *)
Theorem C85_sound : forall K o rows w hc tc pc dc km o', exact_at_nodes K -> rectangular rows w -> NoDup (map (fun row => cell row hc) rows) ->
  (forall row, In row rows -> 0 < cell row dc /\ 0 <= cell row pc) -> 0 <= CPCV (po_planet o) ->
  loadAtmosphereModel K o (Ok rows) hc tc pc dc km = (o', Ok tt) -> forall row, In row rows ->
  exists a, says (po_sonic_int o') (metres km (cell row hc)) a /\ 0 <= a /\ a * a * cell row dc = CPCV (po_planet o) * cell row pc.
Proof.
  intros K o rows w hc tc pc dc km o' HK Hw ND Pos Hc H row HI. destruct (load_ok _ _ _ _ _ _ _ _ _ _ Hw H) as (_ & _ & _ & _ & _ & _ & S).
  assert (ND' : NoDup (map (fun row => metres km (cell row hc)) rows)).
  { rewrite <- (map_map (fun row => cell row hc) (metres km)). apply FinFun.Injective_map_NoDup; auto. intros a b E. unfold metres in E. destruct km; lra. }
  assert (V : forall r, In r rows -> atm_sonic (po_planet o) (cell r pc) (cell r dc) = Some (sqrt (CPCV (po_planet o) * cell r pc / cell r dc)) /\ 0 <= CPCV (po_planet o) * cell r pc / cell r dc).
  { intros r Hr. destruct (Pos r Hr) as (A & B). assert (Q : 0 <= CPCV (po_planet o) * cell r pc / cell r dc) by (apply Rmult_le_pos; [apply Rmult_le_pos; auto|left; apply Rinv_0_lt_compat; auto]).
    split; auto. unfold atm_sonic. rewrite np_div_some by lra. cbn [obind]. unfold np_sqrt. destruct (Rltb_spec (CPCV (po_planet o) * cell r pc / cell r dc) 0); [lra|reflexivity]. }
  destruct (V row HI) as (Va & Vq). exists (sqrt (CPCV (po_planet o) * cell row pc / cell row dc)). split; [|split; [apply sqrt_pos|]].
  - unfold says. rewrite S. eexists. split; [reflexivity|]. apply (node_value K rows (fun row => metres km (cell row hc)) (fun row => atm_sonic (po_planet o) (cell row pc) (cell row dc))); auto.
    intros r Hr. rewrite (proj1 (V r Hr)). discriminate.
  - rewrite sqrt_sqrt by auto. field. destruct (Pos row HI). lra.
Qed.
(** Outside the range of heights of the table: no temperature, pressure or density, and a speed of sound
    of 1e20, so that Mach numbers are practically zero there. *)
Theorem C85_outside : forall K o rows w hc tc pc dc km o' h, rectangular rows w -> loadAtmosphereModel K o (Ok rows) hc tc pc dc km = (o', Ok tt) ->
  (forall row, In row rows -> h < metres km (cell row hc)) \/ (forall row, In row rows -> metres km (cell row hc) < h) ->
  says (po_temp_int o') h 0 /\ says (po_pressure_int o') h 0 /\ says (po_density_int o') h 0 /\ says (po_sonic_int o') h 1e20.
Proof.
  intros K o rows w hc tc pc dc km o' h Hw H Out. destruct (load_ok _ _ _ _ _ _ _ _ _ _ Hw H) as (NE & _ & _ & T & P & D & S).
  set (hs := map (fun row => metres km (cell row hc)) rows) in *. assert (NH : hs <> []) by (unfold hs; destruct rows; [congruence|discriminate]).
  assert (B : Rltb h (list_min hs) || Rltb (list_max hs) h = true).
  { destruct Out as [O|O].
    - pose proof (list_min_in _ NH) as I. unfold hs in I at 2. apply in_map_iff in I. destruct I as (row & E & I). specialize (O row I). rewrite E in O. rcases; auto; lra.
    - pose proof (list_max_in _ NH) as I. unfold hs in I at 2. apply in_map_iff in I. destruct I as (row & E & I). specialize (O row I). rewrite E in O. rcases; auto; lra. }
  unfold says. rewrite T, P, D, S. unfold interpolant. split; [|split; [|split]]; (eexists; split; [reflexivity|]); cbv beta; rewrite B; reflexivity.
Qed.
(** The four functions change together or not at all; the planet's constants never change. *)
Theorem C85_all_or_nothing : forall K o file hc tc pc dc km o' r, loadAtmosphereModel K o file hc tc pc dc km = (o', r) ->
  po_planet o' = po_planet o /\
  (forall e, r = Err e -> po_temp_int o' = po_temp_int o /\ po_pressure_int o' = po_pressure_int o /\ po_density_int o' = po_density_int o /\ po_sonic_int o' = po_sonic_int o) /\
  (r = Ok tt -> forall o2, po_planet o2 = po_planet o -> loadAtmosphereModel K o2 file hc tc pc dc km = (o', Ok tt)).
Proof.
  intros K o file hc tc pc dc km o' r H. destruct o as [p A h t pr d s ti pi di si]. unfold loadAtmosphereModel in H.
  assert (G : forall q : planet_obj * res unit, q = (o', r) ->
    (exists A h t pr d s e, q = (mkPlanetObj p A h t pr d s ti pi di si, Err e)) -> po_planet o' = p /\
     (forall e, r = Err e -> po_temp_int o' = ti /\ po_pressure_int o' = pi /\ po_density_int o' = di /\ po_sonic_int o' = si) /\ (r = Ok tt -> False)).
  { intros q -> (A1 & h1 & t1 & pr1 & d1 & s1 & e & E). injection E as -> ->. cbn [po_planet po_temp_int po_pressure_int po_density_int po_sonic_int]. split; [auto|]. split; [auto|discriminate]. }
  assert (Done : forall X : Prop, (po_planet o' = p /\ (forall e, r = Err e -> po_temp_int o' = ti /\ po_pressure_int o' = pi /\ po_density_int o' = di /\ po_sonic_int o' = si) /\ (r = Ok tt -> False)) ->
     po_planet o' = p /\ (forall e, r = Err e -> po_temp_int o' = ti /\ po_pressure_int o' = pi /\ po_density_int o' = di /\ po_sonic_int o' = si) /\ (r = Ok tt -> X)) by tauto.
  cbn [po_planet po_temp_int po_pressure_int po_density_int po_sonic_int].
  destruct file as [rows|e]; [|apply Done, (G _ H); repeat eexists].
  destruct (column rows hc) as [hcol|] eqn:E1; [|apply Done, (G _ H); repeat eexists]. destruct (column rows tc) as [ts|] eqn:E2; [|apply Done, (G _ H); repeat eexists].
  destruct (column rows pc) as [ps|] eqn:E3; [|apply Done, (G _ H); repeat eexists]. destruct (column rows dc) as [ds|] eqn:E4; [|apply Done, (G _ H); repeat eexists].
  destruct (ik_make K (atm_height km hcol)) as [[]|] eqn:Em; [|apply Done, (G _ H); repeat eexists].
  injection H as <- <-. cbn [po_planet po_temp_int po_pressure_int po_density_int po_sonic_int]. split; [reflexivity|]. split; [discriminate|]. intros _ [p2 A2 h2 t2 pr2 d2 s2 ti2 pi2 di2 si2] Hp. cbn [po_planet] in Hp. subst p2. unfold loadAtmosphereModel. rewrite E1, E2, E3, E4, Em. reflexivity.
Qed.
(** Which loads succeed: those of a table with at least two rows and two columns that has the four
    columns, if the interpolation can be built for its heights. *)
Theorem C85_succeeds_iff : forall K o rows w hc tc pc dc km, rectangular rows w ->
  (exists o', loadAtmosphereModel K o (Ok rows) hc tc pc dc km = (o', Ok tt)) <->
  (2 <= length rows)%nat /\ (2 <= w)%nat /\ (forall c, In c [hc; tc; pc; dc] -> (- Z.of_nat w <= c < Z.of_nat w)%Z) /\
  ik_make K (map (fun row => metres km (cell row hc)) rows) = Ok tt.
Proof.
  intros K o rows w hc tc pc dc km Hw. split.
  - intros (o' & H). destruct (load_ok _ _ _ _ _ _ _ _ _ _ Hw H) as (_ & M & _). unfold loadAtmosphereModel in H. destruct o as [p A h t pr d s ti pi di si].
    destruct (column rows hc) as [hcol|] eqn:E1; [|discriminate]. destruct (column rows tc) as [ts|] eqn:E2; [|discriminate]. destruct (column rows pc) as [ps|] eqn:E3; [|discriminate]. destruct (column rows dc) as [ds|] eqn:E4; [|discriminate].
    assert (N : (2 <= length rows)%nat /\ (2 <= w)%nat).
    { unfold column in E1. destruct rows as [|r [|r2 l]]; try discriminate. assert (Lr : length r = w) by (apply Hw; left; auto). rewrite Lr in E1. destruct (Z.leb_spec (Z.of_nat w) 1); [discriminate|]. cbn [length]. lia. }
    split; [tauto|]. split; [tauto|]. split; [|exact M]. intros c [<-|[<-|[<-|[<-|[]]]]]; apply (column_defined rows w); try tauto; eauto.
  - intros (N1 & N2 & C & M). unfold loadAtmosphereModel. destruct o as [p A h t pr d s ti pi di si].
    assert (G : forall c, In c [hc; tc; pc; dc] -> exists l, column rows c = Ok l) by (intros c Hc; apply (column_defined rows w); auto).
    destruct (G hc ltac:(cbn; auto)) as (l1 & E1). destruct (G tc ltac:(cbn; auto)) as (l2 & E2). destruct (G pc ltac:(cbn; auto)) as (l3 & E3). destruct (G dc ltac:(cbn; auto 10)) as (l4 & E4).
    rewrite E1, E2, E3, E4. apply (column_ok _ _ _ _ Hw) in E1. subst l1. rewrite atm_height_metres, map_map, M. eexists. reflexivity.
Qed.
(** Linear interpolation is such an interpolation, and stays between neighbouring rows. *)
Theorem C85_linear : forall nanf, exact_at_nodes (linear nanf) /\ between_nodes (linear nanf).
Proof.
  intros nanf.
  assert (F : forall tab, (forall q : R * option R, In q tab -> snd q <> None) -> exists t, all_some (map snd tab) = Some (map snd t) /\ combine (map fst tab) (map snd t) = t /\ tab = map (fun q : R * R => (fst q, Some (snd q))) t).
  { induction tab as [|[x [y|]] tab IH]; intros H.
    - exists []. auto.
    - destruct (IH (fun q Hq => H q (or_intror Hq))) as (t & A & B & ->). exists ((x, y) :: t). cbn [map fst snd all_some]. rewrite A. cbn [obind combine]. rewrite map_map in *. cbn [fst] in *. rewrite B. auto.
    - exfalso. apply (H (x, None)); [left|]; auto. }
  split.
  - intros tab x y ND Fin HI. destruct (F tab Fin) as (t & A & B & ->). cbn [linear ik_value]. rewrite A, B. rewrite map_map in ND. cbn [fst] in ND.
    apply in_map_iff in HI. destruct HI as ([x' y'] & E & HI). cbn [fst snd] in E. injection E as -> ->. assert (NE : t <> []) by (intros ->; contradiction).
    rewrite (proj1 (proj2 (proj2 (proj2 (C03_table_lookup t 0 0 x ND NE)))) y HI). reflexivity.
  - intros tab x x0 y0 x1 y1 ND Fin H0 H1 Adj Hx. destruct (F tab Fin) as (t & A & B & ->). cbn [linear ik_value]. rewrite A, B. rewrite map_map in ND. cbn [fst] in ND.
    apply in_map_iff in H0. destruct H0 as ([a b] & E & H0). cbn [fst snd] in E. injection E as -> ->. apply in_map_iff in H1. destruct H1 as ([a b] & E & H1). cbn [fst snd] in E. injection E as -> ->.
    destruct (Req_dec x0 x1) as [Eq|Ne].
    + assert (x = x0) by lra. subst x. assert (T : t <> []) by (intros ->; contradiction). rewrite (proj1 (proj2 (proj2 (proj2 (C03_table_lookup t 0 0 x0 ND T)))) y0 H0). exists y0. split; auto. unfold Rmin, Rmax. destruct (Rle_dec y0 y1); lra.
    + destruct (C03_between_neighbours t 0 0 x (x0, y0) (x1, y1) ND) as (y & Hy & L); [|exact Hx|].
      * unfold adjacent. split; [exact H0|]. split; [exact H1|]. cbn [fst]. split; [lra|]. intros q Hq L. assert (I : In (fst q, Some (snd q)) (map (fun q => (fst q, Some (snd q))) t)) by (apply in_map_iff; exists q; auto). destruct (Adj _ I) as [K|K]; cbn [fst] in K; lra.
      * rewrite Hy. exists y. auto.
Qed.
(** The heights checkAtmProfiles plots: h_thres/dh of them from h0 to h_thres, evenly spaced, so that
    starting from the surface the interval is larger than the dh asked for. *)
Theorem C85_check_grid : forall p T P D A dh n, 0 < dh -> (2 <= n)%nat -> h_thres p = INR n * dh ->
  exists hs, checkAtmProfiles p T P D A 0 dh = Ok (hs, map T hs, map P hs, map D hs, map A hs) /\ length hs = n /\
    nth 0 hs 0 = 0 /\ nth (n - 1) hs 0 = h_thres p /\
    forall i, (S i < n)%nat -> nth (S i) hs 0 - nth i hs 0 = dh * (INR n / (INR n - 1)) /\ dh < nth (S i) hs 0 - nth i hs 0.
Proof.
  intros p T P D A dh n Hd Hn Hh.
  assert (E : py_int (h_thres p / dh) = Z.of_nat n).
  { rewrite Hh. replace (INR n * dh / dh) with (INR n) by (field; lra). destruct (py_int_pos (INR n)) as (k & -> & K); [apply pos_INR|]. f_equal. apply (floor_unique k n (INR n)); lra. }
  unfold checkAtmProfiles, check_heights. destruct (Reqb_spec dh 0); [lra|]. rewrite E. destruct (Z.ltb_spec (Z.of_nat n) 0); [lia|]. rewrite Nat2Z.id. cbn [rbind].
  eexists. split; [reflexivity|].
  assert (N2 : 2 <= INR n) by (apply (le_INR 2); auto). assert (N1 : INR (n - 1) = INR n - 1) by (rewrite minus_INR by lia; reflexivity).
  split; [apply linspace_length|]. split; [rewrite linspace_nth by lia; cbn [INR]; lra|]. split; [rewrite linspace_nth, N1 by lia; field; lra|].
  intros i Hi. rewrite !linspace_nth by lia. rewrite N1, S_INR, Hh. assert (X : 0 + (INR i + 1) * ((INR n * dh - 0) / (INR n - 1)) - (0 + INR i * ((INR n * dh - 0) / (INR n - 1))) = dh * (INR n / (INR n - 1))) by (field; lra).
  rewrite X. split; auto. assert (1 < INR n / (INR n - 1)); [|nra]. apply (Rmult_lt_reg_r (INR n - 1)); [lra|]. unfold Rdiv. rewrite Rmult_assoc, Rinv_l by lra. lra.
Qed.
(** It raises exactly for a zero step and for a negative one no longer than the atmosphere is high. *)
Theorem C85_check_error : forall name p T P D A h0 dh e, Planet name = Ok p ->
  (checkAtmProfiles p T P D A h0 dh = Err e <-> (dh = 0 /\ e = ZeroDivisionError) \/ (- h_thres p <= dh < 0 /\ e = ValueError)).
Proof.
  intros name p T P D A h0 dh e Hp. destruct (Planet_facts _ _ Hp) as (_ & _ & _ & _ & HT & HS & _). unfold checkAtmProfiles, check_heights. destruct (Reqb_spec dh 0) as [->|N].
  - cbn [rbind]. split; [intros X; left; split; congruence|]. intros [(_ & ->)|(X & _)]; [reflexivity|lra].
  - destruct (Rlt_le_dec 0 dh) as [Hd|Hd].
    + destruct (py_int_pos (h_thres p / dh)) as (k & -> & _). { apply Rlt_le, Rdiv_lt_0_compat; lra. } destruct (Z.ltb_spec (Z.of_nat k) 0); [lia|]. cbn [rbind].
      split; [discriminate|]. intros [(X & _)|(X & _)]; lra.
    + assert (Q : h_thres p / dh < 0). { unfold Rdiv. assert (/ dh < 0) by (apply Rinv_lt_0_compat; lra). nra. }
      assert (M : h_thres p / dh * dh = h_thres p) by (field; auto). destruct (py_int_neg _ Q) as (k & -> & B1 & B2). destruct (Z.ltb_spec (- Z.of_nat k) 0) as [Z|Z]; cbn [rbind].
      * assert (K : 1 <= INR k). { replace 1 with (INR 1) by reflexivity. apply le_INR. lia. }
        assert (- h_thres p <= dh) by nra. split; [intros X; right; split; [lra|congruence]|]. intros [(X & _)|(_ & ->)]; [lra|reflexivity].
      * assert (k = 0)%nat by lia. subst k. cbn [INR] in B1, B2. split; [discriminate|]. intros [(X & _)|(X & _)]; nra.
Qed.

(** A table in kilometres with columns in another order, read with a negative column number. *)
Example C85_witness : forall nanf, let rows := [[300; 100000; 0; 1.2]; [290; 90000; 1; 1.1]; [280; 80000; 2; 1.0]] in
  rectangular rows 4 /\ NoDup (map (fun row => cell row 2) rows) /\ (forall row, In row rows -> 0 < cell row (-1) /\ 0 <= cell row 1) /\
  exists o', loadAtmosphereModel (linear nanf) (new_planet_obj EARTH) (Ok rows) 2 0 1 (-1) true = (o', Ok tt) /\
    says (po_density_int o') 1000 1.1 /\ says (po_temp_int o') 2000 280 /\ says (po_temp_int o') 2001 0.
Proof.
  intros nanf rows. assert (Rc : rectangular rows 4) by (intros row [<-|[<-|[<-|[]]]]; reflexivity).
  assert (ND : NoDup (map (fun row => cell row 2) rows)). { change (NoDup [0; 1; 2]). constructor; [cbn; intros [X|[X|[]]]; lra|]. constructor; [cbn; intros [X|[]]; lra|]. constructor; [cbn; auto|constructor]. }
  split; [exact Rc|]. split; [exact ND|]. split; [intros row [<-|[<-|[<-|[]]]]; [change (0 < 1.2 /\ 0 <= 100000)|change (0 < 1.1 /\ 0 <= 90000)|change (0 < 1.0 /\ 0 <= 80000)]; lra|].
  destruct (proj2 (C85_succeeds_iff (linear nanf) (new_planet_obj EARTH) rows 4 2 0 1 (-1) true Rc)) as (o' & H).
  { split; [cbn; lia|]. split; [lia|]. split; [intros c [<-|[<-|[<-|[<-|[]]]]]; lia|reflexivity]. }
  exists o'. split; [exact H|]. destruct (C85_linear nanf) as (L & _).
  destruct (C85_rows _ _ _ _ _ _ _ _ _ _ L Rc ND H [290; 90000; 1; 1.1]) as (_ & _ & D1); [cbn; auto|]. destruct (C85_rows _ _ _ _ _ _ _ _ _ _ L Rc ND H [280; 80000; 2; 1.0]) as (T2 & _ & _); [cbn; auto|].
  destruct (C85_outside _ _ _ _ _ _ _ _ _ _ 2001 Rc H) as (T3 & _). { right. intros row [<-|[<-|[<-|[]]]]; [change (1000 * 0 < 2001)|change (1000 * 1 < 2001)|change (1000 * 2 < 2001)]; lra. }
  change (says (po_density_int o') (1000 * 1) 1.1) in D1. change (says (po_temp_int o') (1000 * 2) 280) in T2. replace (1000 * 1) with 1000 in D1 by lra. replace (1000 * 2) with 2000 in T2 by lra. auto.
Qed.
