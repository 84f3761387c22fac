(** Model of /repo/AMAT/maneuver.py.  As in ApproachModel, [None] is a non-finite value; dividing a
    vector by a scalar is multiplication by the reciprocal. *)
Require Import Verif.Base Verif.PlanetModel Verif.ApproachModel.
From Coq Require Import String.

(** numpy.arctanh, maneuver.py:139, 269, 275: finite only inside (-1, 1). *)
Definition np_arctanh (x : R) : option R :=
  if Rltb (-1) x && Rltb x 1 then Some (ln ((1 + x) / (1 - x)) / 2) else None.
(** numpy.tan: sin/cos, not finite where cos = 0. *)
Definition np_tan (x : R) : option R := np_div (sin x) (cos x).

(** True anomaly at the maneuver radius, maneuver.py:104-105 (also 240-243, 367-368). *)
Definition theta_star_dv (A : approach) (mu r_dv : R) : option R :=
  leto h := ap_h A in leto e := ap_e A in
  leto q := np_div (h * h) (mu * r_dv) in leto k := np_div 1 e in
  leto c := np_arccos ((q - 1) * k) in Some (-1 * c).

(** Lagrange coefficients and departure velocity, maneuver.py:116-119 (also 251-262, 130-133, 382-401). *)
Definition lagrange_f (r2 p d : R) : option R :=
  leto q := np_div r2 p in Some (1 - q * (1 - cos d)).
Definition lagrange_g (mu r1 r2 p d : R) : option R :=
  leto s := np_sqrt (mu * p) in leto q := np_div (r1 * r2) s in Some (q * sin d).
Definition lagrange_v (r2v : vec) (f : R) (r1v : vec) (g : R) : option vec :=
  leto k := np_div 1 g in Some (vscale k (vsub r2v (vscale f r1v))).

(** Departure velocity of an arc with semi-latus rectum p and transfer angle d to A's periapsis. *)
Definition arc_velocity (A : approach) (mu r_dv : R) (r1 : vec) (p d : R) : option vec :=
  leto f := lagrange_f (ap_rp A) p d in
  leto g := lagrange_g mu r_dv (ap_rp A) p d in
  leto r2 := rp_vec A in lagrange_v r2 f r1 g.

(** P_probe = a*(1 - e**2), maneuver.py:114, 250, 255. *)
Definition P_conic (A : approach) : option R :=
  leto a := ap_a A in leto e := ap_e A in Some (a * (1 - e * e)).

(** Lambert quantities, maneuver.py:121-129 (also 375-381, 388-394). *)
Definition chord (r2 r1 d : R) : option R := np_sqrt (r2 * r2 + r1 * r1 - 2 * r2 * r1 * cos d).
Definition semiperimeter (r2 r1 c : R) : R := 0.5 * (r2 + r1 + c).
Definition half_angle (x a : R) : option R :=
  leto q := np_div x (2 * Rabs a) in leto s := np_sqrt q in Some (2 * arcsinh s).
Record lambert := mkLambert { lb_C : R; lb_S : R; alpha' : R; beta' : R; lb_P : R }.
Definition lambert_of (A : approach) (r_dv d : R) : option lambert :=
  leto a := ap_a A in
  leto C := chord (ap_rp A) r_dv d in
  let S := semiperimeter (ap_rp A) r_dv C in
  leto al := half_angle S a in
  leto be := half_angle (S - C) a in
  leto P1 := np_div (4 * Rabs a * (S - ap_rp A) * (S - r_dv)) (C * C) in
  let P2 := sinh (0.5 * (al + be)) in
  Some (mkLambert C S al be (P1 * (P2 * P2))).

(** Time of flight of the conic leg, maneuver.py:138-144 (also 267-278). *)
Definition TOF_conic (A : approach) (mu d : R) : option R :=
  leto e := ap_e A in leto a := ap_a A in
  leto k := np_div (e - 1) (e + 1) in leto s := np_sqrt k in
  leto t := np_tan (0.5 * d) in
  leto H := np_arctanh (s * t) in
  let Hdv := 2 * H in
  leto q := np_div (Rabs a ^ 3) mu in leto T1 := np_sqrt q in
  Some (T1 * Rabs (e * sinh Hdv - Hdv) / 86400).
(** Time of flight of the Lambert leg, maneuver.py:146-149 (also 403-409). *)
Definition TOF_lambert (A : approach) (mu : R) (L : lambert) : option R :=
  leto a := ap_a A in
  leto q := np_div (Rabs a ^ 3) mu in leto U1 := np_sqrt q in
  Some (U1 * ((sinh (alpha' L) - alpha' L) - (sinh (beta' L) - beta' L)) / 86400).

(** ProbeOrbiterDeflection.__init__, maneuver.py:98-149.  An Approach object is shown in two parts: the
    attributes every approach has, and those only an entry system or only a fly-by has ([.._at]). *)
Record po_deflection := mkPO {
  po_probe : approach; po_space : approach; po_r_dv : R; po_theta : option R; po_r_vec : option vec;
  po_delta_probe : option R; po_delta_space : option R; po_lambert : option lambert;
  po_v_probe : option vec; po_v_space : option vec; po_dv : option vec; po_dv_mag : option R;
  po_TOF_probe : option R; po_TOF_space : option R; po_probe_at : approach_tail; po_space_at : approach_tail }.
Definition angle_to (A : approach) (r : vec) : option R :=
  leto u := rp_unit A in leto w := unit_of r in np_arccos (dot u w).
Definition vdiff (a b : option vec) : option vec := leto x := a in leto y := b in Some (vsub x y).
Definition onorm (a : option vec) : option R := leto x := a in Some (norm x).
Definition ProbeOrbiterDeflection (name : string) (v : vec) (rp_probe psi_probe h_EI rp_space psi_space r_dv_rp : R)
  : res po_deflection :=
  letr p := Planet name in
  letr pr := Approach name v rp_probe psi_probe true (Some h_EI) in
  letr sp := Approach name v rp_space psi_space false None in
  let A := fst pr in let B := fst sp in
  let mu := GM p in let r_dv := r_dv_rp * RP p in
  let th := theta_star_dv A mu r_dv in
  let r1 := leto t := th in pos_vec_bi A t in
  let dp := leto t := th in Some (Rabs t) in
  let ds := leto r := r1 in angle_to B r in
  let vp := leto r := r1 in leto d := dp in leto P := P_conic A in arc_velocity A mu r_dv r P d in
  let L := leto d := ds in lambert_of B r_dv d in
  let vs := leto r := r1 in leto d := ds in leto l := L in arc_velocity B mu r_dv r (lb_P l) d in
  let dv := vdiff vs vp in
  Ok (mkPO A B r_dv th r1 dp ds L vp vs dv (onorm dv)
    (leto d := dp in TOF_conic A mu d) (leto l := L in TOF_lambert B mu l) (snd pr) (snd sp)).

(** ProbeProbeDeflection.__init__, maneuver.py:234-278. *)
Record pp_deflection := mkPP {
  pp_probe1 : approach; pp_probe2 : approach; pp_r_dv : R; pp_theta1 : option R; pp_theta2 : option R;
  pp_r_vec : option vec; pp_v1 : option vec; pp_v2 : option vec; pp_dv : option vec; pp_dv_mag : option R;
  pp_TOF1 : option R; pp_TOF2 : option R; pp_probe1_at : approach_tail; pp_probe2_at : approach_tail }.
Definition ProbeProbeDeflection (name : string) (v : vec) (rp1 psi1 h1 rp2 psi2 h2 r_dv_rp : R) : res pp_deflection :=
  letr p := Planet name in
  letr x1 := Approach name v rp1 psi1 true (Some h1) in
  letr x2 := Approach name v rp2 psi2 true (Some h2) in
  let A := fst x1 in let B := fst x2 in
  let mu := GM p in let r_dv := r_dv_rp * RP p in
  let t1 := theta_star_dv A mu r_dv in
  let t2 := theta_star_dv B mu r_dv in
  let r1 := leto t := t1 in pos_vec_bi A t in
  let v1 := leto r := r1 in leto t := t1 in leto P := P_conic A in arc_velocity A mu r_dv r P (Rabs t) in
  let v2 := leto r := r1 in leto t := t2 in leto P := P_conic B in arc_velocity B mu r_dv r P (Rabs t) in
  let dv := vdiff v2 v1 in
  Ok (mkPP A B r_dv t1 t2 r1 v1 v2 dv (onorm dv)
    (leto t := t1 in TOF_conic A mu (Rabs t)) (leto t := t2 in TOF_conic B mu (Rabs t)) (snd x1) (snd x2)).

(** OrbiterOrbiterDeflection.__init__, maneuver.py:362-409. *)
Record oo_deflection := mkOO {
  oo_space1 : approach; oo_space2 : approach; oo_r_dv : R; oo_theta : option R; oo_r_vec : option vec;
  oo_delta1 : option R; oo_delta2 : option R; oo_lambert1 : option lambert; oo_lambert2 : option lambert;
  oo_v1 : option vec; oo_v2 : option vec; oo_dv : option vec; oo_dv_mag : option R;
  oo_TOF1 : option R; oo_TOF2 : option R; oo_space1_at : approach_tail; oo_space2_at : approach_tail }.
Definition OrbiterOrbiterDeflection (name : string) (v : vec) (rp1 psi1 rp2 psi2 r_dv_rp : R) : res oo_deflection :=
  letr p := Planet name in
  letr x1 := Approach name v rp1 psi1 false None in
  letr x2 := Approach name v rp2 psi2 false None in
  let A := fst x1 in let B := fst x2 in
  let mu := GM p in let r_dv := r_dv_rp * RP p in
  let th := theta_star_dv A mu r_dv in
  let r1 := leto t := th in pos_vec_bi A t in
  let d1 := leto r := r1 in angle_to A r in
  let d2 := leto r := r1 in angle_to B r in
  let L1 := leto d := d1 in lambert_of A r_dv d in
  let v1 := leto r := r1 in leto d := d1 in leto l := L1 in arc_velocity A mu r_dv r (lb_P l) d in
  let L2 := leto d := d2 in lambert_of B r_dv d in
  let v2 := leto r := r1 in leto d := d2 in leto l := L2 in arc_velocity B mu r_dv r (lb_P l) d in
  let dv := vdiff v2 v1 in
  Ok (mkOO A B r_dv th r1 d1 d2 L1 L2 v1 v2 dv (onorm dv)
    (leto l := L1 in TOF_lambert A mu l) (leto l := L2 in TOF_lambert B mu l) (snd x1) (snd x2)).
