(** Model of /repo/AMAT/orbiter.py.  Conventions as in ApproachModel: scalars or vectors that may be
    NaN are options.  Simplification: exact reals. *)
Require Import Verif.Base Verif.Numpy Verif.PlanetModel Verif.ApproachModel Verif.OrbitScalarModel.
From Coq Require Import String.
From Coq Require Import List.

(** Python list/array subscript [l[k]] for an integer k, negative k counting from the end. *)
Definition py_get (l : list R) (k : Z) : res R :=
  let j := if Z.ltb k 0 then (k + Z.of_nat (length l))%Z else k in
  if Z.ltb j 0 then Err IndexError
  else match nth_error l (Z.to_nat j) with Some x => Ok x | None => Err IndexError end.

(** The attributes of a propagated Vehicle that Orbiter reads (orbiter.py:271-276, 257, 315). *)
Record flown := mkFlown { fl_planet : planet; fl_index : nat;
  fl_r : list R; fl_theta : list R; fl_phi : list R; fl_v : list R; fl_gamma : list R; fl_psi : list R }.

Record exit_state := mkExit { x_r : R; x_theta : R; x_phi : R; x_v : R; x_g : R; x_psi : R }.

(** compute_exit_state_atm_relative, orbiter.py:265-276. *)
Definition exit_state_atm (w : flown) : res exit_state :=
  let k := (Z.of_nat (fl_index w) - 1)%Z in
  letr r := py_get (fl_r w) k in letr th := py_get (fl_theta w) k in letr ph := py_get (fl_phi w) k in
  letr v := py_get (fl_v w) k in letr g := py_get (fl_gamma w) k in letr ps := py_get (fl_psi w) k in
  Ok (mkExit r th ph v g ps).

(** terminal_r_vec, orbiter.py:284-285. *)
Definition exit_r_vec (x : exit_state) : vec :=
  vscale (x_r x) (V3 (cos (x_phi x) * cos (x_theta x)) (cos (x_phi x) * sin (x_theta x)) (sin (x_phi x))).
(** v_pr_x, v_pr_y, v_pr_z, orbiter.py:291-304. *)
Definition exit_v_vec (x : exit_state) : vec :=
  let v := x_v x in let g := x_g x in let ph := x_phi x in let th := x_theta x in let ps := x_psi x in
  V3 (v * sin g * cos ph * cos th + v * cos g * cos ps * (-1 * sin th) + v * cos g * sin ps * (-1 * sin ph * cos th))
     (v * sin g * cos ph * sin th + v * cos g * cos ps * cos th + v * cos g * sin ps * (-1 * sin ph * sin th))
     (v * sin g * sin ph + v * cos g * sin ps * cos ph).
(** v_ie_x, v_ie_y, v_ie_z, orbiter.py:309-321. *)
Definition exit_v_ie (p : planet) (x : exit_state) : vec :=
  let w := exit_v_vec x in
  V3 (vx w + x_r x * OMEGA p * cos (x_phi x) * sin (x_theta x) * (-1))
     (vy w + x_r x * OMEGA p * cos (x_phi x) * cos (x_theta x))
     (vz w).

(** 90 - (180/pi) arccos(r_hat . v_hat), converted to radians, orbiter.py:328-331, 680-682, 811-813. *)
Definition fpa_ie (rv vv : vec) : option R :=
  leto ru := unit_of rv in leto vu := unit_of vv in leto a := np_arccos (dot ru vu) in
  Some ((90 - (180 / PI) * a) * PI / 180).

(** a, e, h, i, OMEGA, omega of an orbit. *)
Record orb := mkOrb { o_a : option R; o_e : option R; o_h : option R;
                      o_i : option R; o_OMEGA : option R; o_omega : option R }.
Definition orb_nan : orb := mkOrb None None None None None None.

(** Elements of a state vector: compute_coast_orbital_elements orbiter.py:346-375 (r, v the scalar
    terminal radius and speed), and the same block at 685-718 and 816-848 (r, v the norms). *)
Definition orbit_elements (p : planet) (rv vv : vec) (r v : R) : orb :=
  let fpa := fpa_ie rv vv in
  let E := computeEnergyScalar p r v in
  let h0 := leto g := fpa in Some (computeAngMomScalar r v g) in
  let a := leto en := E in computeSemiMajorAxisScalar p en in
  let e := leto k := h0 in leto en := E in computeEccScalar p k en in
  let h := leto sm := a in leto ec := e in np_sqrt (sm * GM p * (1 - ec * ec)) in
  let hv := cross rv vv in
  let i := leto u := unit_of hv in np_arccos (vz u) in
  let nu := unit_of (cross zaxis hv) in
  let Om := leto n := nu in OMEGA_of n in
  let ev := leto q := np_div (GM p) r in
            Some (vscale (1 / GM p) (vsub (vscale (v * v - q) rv) (vscale (dot rv vv) vv))) in
  let om := leto n := nu in leto w := ev in leto u := unit_of w in omega_of n u in
  mkOrb a e h i Om om.

(** r_mag_bi, orbiter.py:381-397 and 917-933. *)
Definition orb_r (p : planet) (o : orb) (th : R) : option R :=
  leto h := o_h o in leto e := o_e o in np_div (h * h / GM p) (1 + e * cos th).
(** The direction vector assembled in pos_vec_bi, orbiter.py:417-421; [ci], [si] are the values used
    as cos(i) and sin(i). *)
Definition dir_vec (Om ci si theta : R) : vec :=
  V3 (cos Om * cos theta - sin Om * ci * sin theta)
     (sin Om * cos theta + cos Om * ci * sin theta)
     (si * sin theta).
(** pos_vec_bi, orbiter.py:399-423 and 935-959. *)
Definition orb_pos (p : planet) (o : orb) (th : R) : option vec :=
  leto r := orb_r p o th in leto om := o_omega o in leto Om := o_OMEGA o in leto i := o_i o in
  Some (vscale r (dir_vec Om (cos i) (sin i) (th + om))).
(** Velocity assembled from speed, radius and elements: orbiter.py:494-512, 532-550, 978-996.
    [sg] is 1 (vel_vec_bi) or -1 (vel_vec_bi_probe). *)
Definition orb_vel_at (p : planet) (sg : R) (o : orb) (r th : R) : option vec :=
  leto a := o_a o in leto h := o_h o in leto om := o_omega o in leto Om := o_OMEGA o in leto i := o_i o in
  leto q := np_div 2 r in leto k := np_div 1 a in
  leto v := np_sqrt (GM p * (q - k)) in
  leto c := np_div h (r * v * 1.0000001) in
  leto g := np_arccos c in
  let gamma := sg * g in
  let vr := v * sin gamma in let vt := v * cos gamma in
  let theta := th + om in
  Some (V3
    (vr * (cos theta * cos Om - sin theta * cos i * sin Om) + vt * (- sin theta * cos Om - cos theta * cos i * sin Om))
    (vr * (cos theta * sin Om + sin theta * cos i * cos Om) + vt * (cos theta * cos i * cos Om - sin theta * sin Om))
    (vr * sin theta * sin i + vt * cos theta * sin i)).
(** vel_vec_bi, orbiter.py:477-513 and 961-997. *)
Definition orb_vel (p : planet) (o : orb) (th : R) : option vec :=
  leto r := orb_r p o th in orb_vel_at p 1 o r th.

(** Entry attributes set by compute_probe_targeting_trajectory, orbiter.py:724-757. *)
Record probe_entry := mkPE {
  pe_r_EI : R; pe_theta : option R; pe_r : option vec; pe_v : option vec; pe_gamma_inertial : option R;
  pe_lat : option R; pe_lon : option R; pe_v_atm : option vec; pe_gamma_atm : option R; pe_heading : option R }.

(** The Orbiter object.  [ob_theta_entry]: None = the attribute theta_star_probe_entry does not exist;
    Some t = it exists with value t. *)
Record orbiter := mkOrbiter {
  ob_planet : planet; ob_rp : R; ob_exit : exit_state; ob_r_vec : vec; ob_v_ie : vec;
  ob_coast : orb; ob_theta_exit : option R; ob_coast_arr : list (option vec);
  ob_r_apo : option R; ob_v_coast : option vec;
  ob_orb : orb; ob_v_orbit : option vec; ob_PRM_dv : option vec; ob_PRM_dv_mag : option R;
  ob_orbit_arr : list (option vec);
  ob_probe : option orb; ob_theta_entry : option (option R); ob_entry : option probe_entry;
  ob_probe_arr : option (list (option vec)); ob_defl : option orb; ob_defl_arr : option (list (option vec)) }.

(** numpy.linspace with a start or stop that may be NaN: every entry is NaN except that the last is
    the stop value (numpy sets it when num > 1). *)
Definition linspace_opt (a b : option R) (n : nat) : list (option R) :=
  match a, b with
  | Some x, Some y => map Some (linspace x y n)
  | _, _ => match n with
            | O => []
            | S O => [None]
            | S m => repeat None m ++ [b]
            end
  end.
(** pos_vec_bi(array) / RP, orbiter.py:567, 614, 761, 851. *)
Definition scaled (p : planet) (pos : R -> option vec) (ths : list (option R)) : list (option vec) :=
  map (fun t => leto th := t in leto r := pos th in Some (vscale (1 / RP p) r)) ths.

(** compute_theta_star_exit, orbiter.py:378-379. *)
Definition theta_exit_of (p : planet) (o : orb) (r : R) : option R :=
  leto h := o_h o in leto e := o_e o in leto q := np_div (h * h) (GM p * r) in
  leto k := np_div 1 e in np_arccos ((q - 1) * k).

(** Orbiter.__init__ from the exit state on, orbiter.py:257-263 with 278-379, 552-618. *)
Definition orbiter_of (p : planet) (rp : R) (x : exit_state) : orbiter :=
  let rv := exit_r_vec x in
  let vv := exit_v_ie p x in
  let co := orbit_elements p rv vv (x_r x) (norm vv) in
  let te := theta_exit_of p co (x_r x) in
  let carr := scaled p (orb_pos p co) (linspace_opt te (Some PI) 301) in
  let ra := leto u := last carr None in Some (norm u * RP p) in
  let vc := orb_vel p co PI in
  let e := leto r := ra in np_div (r - rp) (r + rp) in
  let a := leto r := ra in leto ec := e in np_div r (1 + ec) in
  let h := leto sm := a in leto ec := e in np_sqrt (sm * GM p * (1 - ec * ec)) in
  let o := mkOrb a e h (o_i co) (o_OMEGA co) (o_omega co) in
  let vo := orb_vel p o PI in
  let dv := leto v1 := vo in leto v0 := vc in Some (vsub v1 v0) in
  let dvm := leto d := dv in Some (norm d) in
  mkOrbiter p rp x rv vv co te carr ra vc o vo dv dvm
        (scaled p (orb_pos p o) (linspace_opt (Some PI) (Some (3 * PI)) 601))
        None None None None None None.
(** Orbiter.__init__, orbiter.py:241-263. *)
Definition Orbiter (w : flown) (peri_alt_km : R) : res orbiter :=
  let p := fl_planet w in
  letr x := exit_state_atm w in
  Ok (orbiter_of p (peri_alt_km * 1e3 + RP p) x).

(** The attributes terminal_r_bi ... terminal_psi_bi of a constructed Orbiter, orbiter.py:333-338: the
    radius, longitude, latitude and heading are copied, speed and flight-path angle are inertial. *)
Record bi_state := mkBI { bi_r : R; bi_theta : R; bi_phi : R; bi_v : R; bi_g : option R; bi_psi : R }.
Definition exit_bi (ob : orbiter) : bi_state :=
  let x := ob_exit ob in
  mkBI (x_r x) (x_theta x) (x_phi x) (norm (ob_v_ie ob)) (fpa_ie (ob_r_vec ob) (ob_v_ie ob)) (x_psi x).

(** Methods of a constructed Orbiter. *)
Definition ob_pos (ob : orbiter) := orb_pos (ob_planet ob) (ob_orb ob).
Definition ob_vel (ob : orbiter) := orb_vel (ob_planet ob) (ob_orb ob).

(** pos_vec_bi_probe, orbiter.py:425-449: the orbiter's omega and cos(i), the probe orbit's h, e, OMEGA
    and sin(i).  Simplification: without a probe orbit the call raises AttributeError; here None. *)
Definition pos_vec_bi_probe (ob : orbiter) (th : R) : option vec :=
  leto o := ob_probe ob in
  leto r := orb_r (ob_planet ob) o th in leto om := o_omega (ob_orb ob) in leto Om := o_OMEGA o in
  leto i := o_i (ob_orb ob) in leto ip := o_i o in
  Some (vscale r (dir_vec Om (cos i) (sin ip) (th + om))).
(** pos_vec_bi_orbiter_defl, orbiter.py:451-475: the orbiter's omega with the deflection orbit's elements. *)
Definition pos_vec_bi_orbiter_defl (ob : orbiter) (th : R) : option vec :=
  leto o := ob_defl ob in
  leto r := orb_r (ob_planet ob) o th in leto om := o_omega (ob_orb ob) in leto Om := o_OMEGA o in
  leto i := o_i o in
  Some (vscale r (dir_vec Om (cos i) (sin i) (th + om))).
(** vel_vec_bi_probe, orbiter.py:515-551. *)
Definition vel_vec_bi_probe (ob : orbiter) (th : R) : option vec :=
  leto o := ob_probe ob in leto rv := pos_vec_bi_probe ob th in
  orb_vel_at (ob_planet ob) (-1) o (norm rv) th.

(** v1 + dV v1/|v1|, orbiter.py:671 and 802. *)
Definition after_burn (v : vec) (dV : R) : option vec :=
  leto k := np_div 1 (norm v) in Some (vadd v (vscale (dV * k) v)).

(** The entry block, orbiter.py:724-757 (ob already carries the probe orbit [o]). *)
Definition probe_entry_of (ob : orbiter) (o : orb) : probe_entry :=
  let p := ob_planet ob in
  let rE := RP p + h_skip p in
  let th := leto a := theta_exit_of p o rE in Some (2 * PI - a) in
  let rv := leto t := th in pos_vec_bi_probe ob t in
  let ru := leto r := rv in unit_of r in
  let vv := leto t := th in vel_vec_bi_probe ob t in
  let vu := leto v := vv in unit_of v in
  let gi := leto h := o_h o in leto v := vv in leto c := np_div h (rE * norm v) in leto a := np_arccos c in Some (-1 * a) in
  let lat := leto r := ru in np_arcsin (vz r) in
  let lon := leto r := ru in atan_ratio (vy r) (vx r) in
  let va := leto v := vv in leto r := rv in leto la := lat in leto lo := lon in Some (vel_vec_entry_atm p v (norm r) la lo) in
  let vau := leto v := va in unit_of v in
  let ga := leto r := ru in leto v := vu in leto a := np_arccos (dot r v) in Some (PI / 2 - a) in
  let hd := leto r := ru in leto v := vau in leto lo := lon in
            np_arccos (dot (vsub v (vscale (dot v r) r)) (V3 (- sin lo) (cos lo) 0)) in
  mkPE rE th rv vv gi lat lon va ga hd.

Definition set_probe (ob : orbiter) (o : orb) : orbiter :=
  mkOrbiter (ob_planet ob) (ob_rp ob) (ob_exit ob) (ob_r_vec ob) (ob_v_ie ob) (ob_coast ob) (ob_theta_exit ob)
    (ob_coast_arr ob) (ob_r_apo ob) (ob_v_coast ob) (ob_orb ob) (ob_v_orbit ob) (ob_PRM_dv ob) (ob_PRM_dv_mag ob)
    (ob_orbit_arr ob) (Some o) (ob_theta_entry ob) (ob_entry ob) (ob_probe_arr ob) (ob_defl ob) (ob_defl_arr ob).
Definition set_entry (ob : orbiter) (e : probe_entry) : orbiter :=
  mkOrbiter (ob_planet ob) (ob_rp ob) (ob_exit ob) (ob_r_vec ob) (ob_v_ie ob) (ob_coast ob) (ob_theta_exit ob)
    (ob_coast_arr ob) (ob_r_apo ob) (ob_v_coast ob) (ob_orb ob) (ob_v_orbit ob) (ob_PRM_dv ob) (ob_PRM_dv_mag ob)
    (ob_orbit_arr ob) (ob_probe ob) (Some (pe_theta e)) (Some e) (ob_probe_arr ob) (ob_defl ob) (ob_defl_arr ob).
Definition set_probe_arr (ob : orbiter) (l : list (option vec)) : orbiter :=
  mkOrbiter (ob_planet ob) (ob_rp ob) (ob_exit ob) (ob_r_vec ob) (ob_v_ie ob) (ob_coast ob) (ob_theta_exit ob)
    (ob_coast_arr ob) (ob_r_apo ob) (ob_v_coast ob) (ob_orb ob) (ob_v_orbit ob) (ob_PRM_dv ob) (ob_PRM_dv_mag ob)
    (ob_orbit_arr ob) (ob_probe ob) (ob_theta_entry ob) (ob_entry ob) (Some l) (ob_defl ob) (ob_defl_arr ob).
Definition set_defl (ob : orbiter) (o : orb) : orbiter :=
  mkOrbiter (ob_planet ob) (ob_rp ob) (ob_exit ob) (ob_r_vec ob) (ob_v_ie ob) (ob_coast ob) (ob_theta_exit ob)
    (ob_coast_arr ob) (ob_r_apo ob) (ob_v_coast ob) (ob_orb ob) (ob_v_orbit ob) (ob_PRM_dv ob) (ob_PRM_dv_mag ob)
    (ob_orbit_arr ob) (ob_probe ob) (ob_theta_entry ob) (ob_entry ob) (ob_probe_arr ob) (Some o) (ob_defl_arr ob).
Definition set_defl_arr (ob : orbiter) (l : list (option vec)) : orbiter :=
  mkOrbiter (ob_planet ob) (ob_rp ob) (ob_exit ob) (ob_r_vec ob) (ob_v_ie ob) (ob_coast ob) (ob_theta_exit ob)
    (ob_coast_arr ob) (ob_r_apo ob) (ob_v_coast ob) (ob_orb ob) (ob_v_orbit ob) (ob_PRM_dv ob) (ob_PRM_dv_mag ob)
    (ob_orbit_arr ob) (ob_probe ob) (ob_theta_entry ob) (ob_entry ob) (ob_probe_arr ob) (ob_defl ob) (Some l).

(** The orbit after a burn dV at a state, orbiter.py:666-718 and 797-848. *)
Definition orbit_after (p : planet) (r1 v1 : option vec) (dV : R) : orb :=
  match r1, (leto v := v1 in after_burn v dV) with
  | Some r2, Some v2 => orbit_elements p r2 v2 (norm r2) (norm v2)
  | _, _ => orb_nan
  end.
(** h_periapsis_probe, orbiter.py:720-722, 846-848. *)
Definition periapsis_alt (p : planet) (o : orb) : option R :=
  leto a := o_a o in leto e := o_e o in Some (a * (1 - e) - RP p).
Definition below (x : option R) (y : R) : bool := match x with Some z => Rltb z y | None => false end.

(** compute_probe_targeting_trajectory, orbiter.py:647-765.  Returns the object left behind and the
    outcome: line 760 reads theta_star_probe_entry, which may not exist. *)
Definition compute_probe_targeting_trajectory (ob : orbiter) (theta_star dV : R) (num_points : nat) : orbiter * res unit :=
  let p := ob_planet ob in
  let o := orbit_after p (ob_pos ob theta_star) (ob_vel ob theta_star) dV in
  let ob1 := set_probe ob o in
  let ob2 := if below (periapsis_alt p o) (h_skip p) then set_entry ob1 (probe_entry_of ob1 o) else ob1 in
  match ob_theta_entry ob2 with
  | None => (ob2, Err AttributeError)
  | Some t => (set_probe_arr ob2 (scaled p (pos_vec_bi_probe ob2) (linspace_opt (Some theta_star) t num_points)), Ok tt)
  end.

(** compute_orbiter_deflection_trajectory, orbiter.py:767-858: needs the probe orbit attributes. *)
Definition compute_orbiter_deflection_trajectory (ob : orbiter) (theta_star dV : R) (num_points : nat) : orbiter * res unit :=
  match ob_probe ob with
  | None => (ob, Err AttributeError)
  | Some _ =>
    let p := ob_planet ob in
    let o := orbit_after p (pos_vec_bi_probe ob theta_star) (vel_vec_bi_probe ob theta_star) dV in
    let ob1 := set_defl ob o in
    (set_defl_arr ob1 (scaled p (pos_vec_bi_orbiter_defl ob1) (linspace_opt (Some 0) (Some (2 * PI)) num_points)), Ok tt)
  end.

(** PropulsiveOrbiter, orbiter.py:861-1041. *)
Record prop_orbiter := mkPO {
  po_planet : planet; po_rp : R; po_ra : R; po_orb : orb; po_v_rp : option vec;
  po_vp_vec : option vec; po_DV_OI_vec : option vec; po_DV_OI_mag : option R;
  po_vp_check : option R; po_DV_OI_mag_check : option R; po_arr : list (option vec) }.

(** PropulsiveOrbiter.__init__, orbiter.py:866-915 (simplification: a zero denominator is [None], also where it raises ZeroDivisionError): r_vec_rp_bi exists only on an Approach built with
    is_entrySystem=False (approach.py:291-295). *)
Definition PropulsiveOrbiter (A : approach) (tail : approach_tail) (apoapsis_alt_km : R) : res prop_orbiter :=
  match tail with
  | Entry _ => Err AttributeError
  | Periapsis r_rp v_rp =>
    let p := ap_planet A in
    let rp := ap_rp A in
    let ra := RP p + apoapsis_alt_km * 1e3 in
    let a := (rp + ra) / 2 in
    let e := np_div (ra - rp) (ra + rp) in
    let h := leto ec := e in np_sqrt (a * GM p * (1 - ec * ec)) in
    let o := mkOrb (Some a) e h (ap_i A) (ap_OMEGA A) (ap_omega A) in
    let vp := orb_vel p o 0 in
    let dv := leto v := v_rp in leto w := vp in Some (vsub v w) in
    let vpc := leto q := np_div 2 rp in leto k := np_div 1 a in np_sqrt (GM p * (q - k)) in
    Ok (mkPO p rp ra o v_rp vp dv (leto d := dv in Some (norm d)) vpc
          (leto v := v_rp in leto c := vpc in Some (norm v - c))
          (scaled p (orb_pos p o) (linspace_opt (Some 0) (Some (2 * PI)) 601)))
  end.

(** compute_theta_star, orbiter.py:1039-1040.  numpy's tan at the double nearest to an odd multiple of
    pi/2 is a huge finite number whose arctan is +-pi/2: the value at the pole is modelled as pi. *)
Definition compute_theta_star (e E : R) : option R :=
  leto q := np_div (1 + e) (1 - e) in leto s := np_sqrt q in
  Some (if Reqb (cos (E / 2)) 0 then PI else 2 * atan (s * tan (E / 2))).

(** compute_timed_orbit_trajectory, orbiter.py:1001-1034.  [newton e M] is scipy.optimize.newton on
    E - e sin E - M from x0 = M (line 1036): an external engine: OracleError when it raises or is given NaN
    (simplification: also when the period is NaN and no points are asked for). *)
Definition compute_timed_orbit_trajectory (newton : R -> R -> res R) (po : prop_orbiter) (t_seconds : R) (num_points : nat)
  : res (list R * list (option R) * list (option vec)) :=
  let p := po_planet po in
  let P := leto a := o_a (po_orb po) in leto s := np_sqrt (a * a * a / GM p) in Some (2 * PI * s) in
  let ts := linspace 0 t_seconds num_points in
  match P, o_e (po_orb po) with
  | Some P, Some e =>
      letr ths := fold_right (fun t acc => letr E := newton e (2 * PI * t / P) in letr l := acc in
                                           Ok (compute_theta_star e E :: l)) (Ok []) ts in
      Ok (ts, ths, scaled p (orb_pos p (po_orb po)) ths)
  | _, _ => Err OracleError
  end.
