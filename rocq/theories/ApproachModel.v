(** Model of /repo/AMAT/approach.py.  Scalars and vectors that may be NaN are options ([None] = not
    finite; a vector with one NaN entry is [None] as a whole).  Simplifications: exact reals; signed
    zeros are not distinguished (np.arctan2(0., -0.) etc.). *)
Require Import Verif.Base Verif.PlanetModel Verif.FrameModel.
From Coq Require Import String.
From Coq Require Import List.

(** numpy.arctan2(y, x), approach.py:180, 184, 185. *)
Definition atan2 (y x : R) : R :=
  if Rltb 0 x then atan (y / x)
  else if Rltb x 0 then (if Rleb 0 y then atan (y / x) + PI else atan (y / x) - PI)
  else if Rltb 0 y then PI / 2 else if Rltb y 0 then - (PI / 2) else 0.

(** numpy.arctan(y / x) where y/0 = +-inf and 0/0 = NaN, approach.py:269-271. *)
Definition atan_ratio (y x : R) : option R :=
  if Reqb x 0 then (if Rltb 0 y then Some (PI / 2) else if Rltb y 0 then Some (- (PI / 2)) else None)
  else Some (atan (y / x)).

(** The fields set by Approach.__init__ before the entry branch, approach.py:159-245. *)
Record approach := mkApproach {
  ap_planet : planet; ap_rp : R; ap_psi : R;
  v_inf_mag : R; ap_a : option R; ap_e : option R; ap_beta : option R;
  v_inf_bi : vec; v_inf_unit : option vec; phi_1 : R; phi_2 : R; phi_2_analytic : R;
  rp_unit : option vec; rp_vec : option vec; rp_vec_dprime : option vec; rp_vec_dprime_analytic : option vec;
  e_unit : option vec; ap_h : option R; h_vec : option vec; h_unit : option vec;
  ap_i : option R; N_unit : option vec; ap_OMEGA : option R; ap_omega : option R;
  T_unit : option vec; R_unit : option vec; b_mag : option R; b_plane_angle : R; B_unit : option vec }.

Definition zaxis : vec := V3 0 0 1.

(** Unit periapsis vector, approach.py:189-199. *)
Definition rp_unit_of (phi1 phi2 beta psi : R) : vec :=
  V3 (cos phi1 * (sin beta * cos psi * cos phi2 + cos beta * sin phi2) - sin phi1 * sin beta * sin psi)
     (sin phi1 * (sin beta * cos psi * cos phi2 + cos beta * sin phi2) + cos phi1 * sin beta * sin psi)
     (cos beta * cos phi2 - sin beta * cos psi * sin phi2).

(** Ascending node and argument of periapsis branches, approach.py:219-227. *)
Definition OMEGA_of (n : vec) : option R :=
  leto a := np_arccos (vx n) in Some (if Rleb 0 (vy n) then a else 2 * PI - a).
Definition omega_of (n e : vec) : option R :=
  leto a := np_arccos (dot n e) in Some (if Rleb 0 (vz e) then a else 2 * PI - a).

(** Approach.__init__, approach.py:154-245. *)
Definition Approach_core (p : planet) (v_inf_icrf_kms : vec) (rp psi : R) : approach :=
  let vmag := norm v_inf_icrf_kms * 1e3 in
  let a := np_div (- GM p) (vmag * vmag) in
  (* at zero excess speed a is -inf, so rp/a is -0 and e is 1 *)
  let e := match a with Some x => leto q := np_div rp x in Some (1 - q) | None => Some 1 end in
  let bet := leto x := e in leto q := np_div 1 x in np_arccos q in
  let vbi_kms := ICRF_to_BI (a0 p) (d0 p) v_inf_icrf_kms in
  let vbi := vscale 1e3 vbi_kms in
  let vunit := unit_of vbi_kms in
  let p1 := atan2 (vy vbi) (vx vbi) in
  let vprime := mvmul (R3 p1) vbi in
  let p2 := atan2 (vx vprime) (vz vprime) in
  let p2a := atan2 (vx vbi * cos p1 + vy vbi * sin p1) (vz vbi) in
  let ru := leto b := bet in Some (rp_unit_of p1 p2 b psi) in
  let rv := leto u := ru in Some (vscale rp u) in
  let rvd := leto u := rv in Some (BI_to_BI_dprime p1 p2 u) in
  let rvda := leto b := bet in Some (vscale rp (V3 (sin b * cos psi) (sin b * sin psi) (cos b))) in
  let eu := leto x := e in leto u := ru in unit_of (vscale x u) in
  let h := leto x := a in leto y := e in np_sqrt (x * GM p * (1 - y * y)) in
  let hv := leto u := rv in Some (cross u vbi) in
  let hu := leto u := hv in unit_of u in
  let i := leto u := hu in np_arccos (vz u) in
  let nu := leto u := hv in unit_of (cross zaxis u) in
  let Om := leto u := nu in OMEGA_of u in
  let om := leto u := nu in leto w := eu in omega_of u w in
  let T := cross vbi zaxis in
  let Rv := cross vbi T in
  let bm := leto x := a in leto y := e in leto s := np_sqrt (y * y - 1) in Some (Rabs x * s) in
  let Bu := leto u := hv in unit_of (cross vbi u) in
  mkApproach p rp psi vmag a e bet vbi vunit p1 p2 p2a ru rv rvd rvda eu h hv hu i nu Om om
    (unit_of T) (unit_of Rv) bm (psi + PI / 2) Bu.

(** Radius at a true anomaly, approach.py:459 (and 408). *)
Definition r_mag_bi (A : approach) (theta : R) : option R :=
  leto h := ap_h A in leto e := ap_e A in np_div (h * h / GM (ap_planet A)) (1 + e * cos theta).

(** approach.py:391-416 *)
Definition pos_vec_bi (A : approach) (theta_star : R) : option vec :=
  leto r := r_mag_bi A theta_star in leto om := ap_omega A in leto Om := ap_OMEGA A in leto i := ap_i A in
  let theta := theta_star + om in
  Some (vscale r (V3 (cos Om * cos theta - sin Om * cos i * sin theta)
                     (sin Om * cos theta + cos Om * cos i * sin theta)
                     (sin i * sin theta))).

(** approach.py:419-441 *)
Definition pos_vec_bi_dprime (A : approach) (theta_star : R) : option vec :=
  leto r := pos_vec_bi A theta_star in Some (mvmul (R2 (phi_2 A)) (mvmul (R3 (phi_1 A)) r)).

(** approach.py:462-495 *)
Definition vel_vec_bi (A : approach) (theta_star : R) : option vec :=
  leto r := r_mag_bi A theta_star in
  leto q := np_div (2 * GM (ap_planet A)) r in
  leto v := np_sqrt (v_inf_mag A * v_inf_mag A + q) in
  leto h := ap_h A in
  leto c := np_div h (r * v) in
  leto g := np_arccos c in
  let gamma := -1 * g in
  let vr := v * sin gamma in
  let vt := v * cos gamma in
  leto om := ap_omega A in leto Om := ap_OMEGA A in leto i := ap_i A in
  let theta := theta_star + om in
  Some (V3
    (vr * (cos theta * cos Om - sin theta * cos i * sin Om) +
     vt * (- sin theta * cos Om - cos theta * cos i * sin Om))
    (vr * (cos theta * sin Om + sin theta * cos i * cos Om) +
     vt * (cos theta * cos i * cos Om - sin theta * sin Om))
    (vr * sin theta * sin i + vt * cos theta * sin i)).

(** Entry fields, approach.py:248-290. *)
Record entry_state := mkEntry {
  r_EI : R; theta_entry : option R; r_entry : option vec; r_entry_unit : option vec; r_entry_mag : option R;
  v_entry_mag : option R; gamma_entry : option R; v_entry : option vec; gamma_entry_check : option R;
  lat_entry : option R; lon_entry : option R; lat_entry_analytic : option R;
  v_entry_atm : option vec; v_entry_atm_mag : option R; gamma_entry_atm : option R; heading_entry_atm : option R }.

(** vel_vec_entry_atm, approach.py:512-521; also vel_vec_probe_entry_atm, orbiter.py:620-644. *)
Definition vel_vec_entry_atm (p : planet) (v : vec) (rmag lat lon : R) : vec :=
  V3 (vx v - rmag * OMEGA p * cos lat * (- sin lon))
     (vy v - rmag * OMEGA p * cos lat * cos lon)
     (vz v).

Definition Approach_entry (A : approach) (h_EI : R) : entry_state :=
  let p := ap_planet A in
  let rE := RP p + h_EI in
  let th := leto h := ap_h A in leto e := ap_e A in leto q := np_div (h * h) (GM p * rE) in
            leto k := np_div 1 e in leto a := np_arccos ((q - 1) * k) in Some (-1 * a) in
  let rv := leto t := th in pos_vec_bi A t in
  let ru := leto r := rv in unit_of r in
  let rm := leto r := rv in Some (norm r) in
  let vm := leto q := np_div (2 * GM p) rE in np_sqrt (v_inf_mag A * v_inf_mag A + q) in
  let g := leto h := ap_h A in leto v := vm in leto c := np_div h (rE * v) in
           leto a := np_arccos c in Some (-1 * a) in
  let vv := leto t := th in vel_vec_bi A t in
  let vu := leto v := vv in unit_of v in
  let gc := leto r := ru in leto v := vu in leto a := np_arccos (dot r v) in Some (PI / 2 - a) in
  let lat := leto r := ru in np_arcsin (vz r) in
  let lon := leto r := ru in atan_ratio (vy r) (vx r) in
  let lata := leto r := ru in leto xi := lon in atan_ratio (vz r) (vx r * cos xi + vy r * sin xi) in
  let va := leto v := vv in leto m := rm in leto la := lat in leto lo := lon in Some (vel_vec_entry_atm p v m la lo) in
  let vam := leto v := va in Some (norm v) in
  let vau := leto v := va in unit_of v in
  let ga := leto r := ru in leto v := vau in leto a := np_arccos (dot r v) in Some (PI / 2 - a) in
  let hd := leto r := ru in leto v := vau in leto lo := lon in
            let proj := vsub v (vscale (dot v r) r) in
            np_arccos (dot proj (V3 (- sin lo) (cos lo) 0)) in
  mkEntry rE th rv ru rm vm g vv gc lat lon lata va vam ga hd.

(** Approach.__init__, approach.py:128-295: construction, with the entry branch (247) and its
    TypeError for a missing h_EI (RP + None, line 249), or the periapsis branch (291-295). *)
Inductive approach_tail := Entry (s : entry_state) | Periapsis (r v : option vec).
Definition Approach (name : string) (v_inf_icrf_kms : vec) (rp psi : R) (is_entrySystem : bool) (h_EI : option R)
  : res (approach * approach_tail) :=
  letr p := Planet name in
  let A := Approach_core p v_inf_icrf_kms rp psi in
  if is_entrySystem then
    match h_EI with
    | Some h => Ok (A, Entry (Approach_entry A h))
    | None => Err TypeError
    end
  else Ok (A, Periapsis (rp_vec A) (vel_vec_bi A 0)).
