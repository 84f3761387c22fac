(** Model of /repo/AMAT/planet.py. *)
Require Import Verif.Base Verif.Numpy.
From Coq Require Import String.
From Coq Require Import List.

(** Attributes set by Planet.__init__ (planet.py:93-234).  [h_low] is absent for JUPITER
    and SATURN (planet.py:144-173 never assign it), hence an option. *)
Record planet := mkPlanet {
  ID : string; RP : R; OMEGA : R; GM : R; rho0 : R; CPCV : R; J2 : R; J3 : R;
  a0 : R; d0 : R; h_thres : R; h_skip : R; h_trap : R; h_low : option R }.

(** degrees * np.pi / 180.0 *)
Definition deg (x : R) : R := x * PI / 180.

(** planet.py:93-108 *)
Definition VENUS := mkPlanet "VENUS"%string 6051.8e3 (-2.99237e-7) 3.248599e14 64.790 1.289 4.458e-6 0
  (deg 272.76) (deg 67.16) 180000 180000 10000 (Some 60e3).
(** planet.py:110-125 *)
Definition EARTH := mkPlanet "EARTH" 6371e3 7.272205e-5 3.986004e14 1.2250 1.4 1082.6e-6 (-2.532e-6)
  (deg 0) (deg 90) 120e3 120e3 10e3 (Some 50e3).
(** planet.py:127-142 *)
Definition MARS := mkPlanet "MARS" 3389.5e3 7.088253e-5 4.282837e13 0.02 1.289 1960.45e-6 31.5e-6
  (deg 317.68143) (deg 52.88650) 120e3 120e3 10e3 (Some 50e3).
(** planet.py:144-158 *)
Definition JUPITER := mkPlanet "JUPITER" 69911e3 1.758518e-4 1.26686534e17 0.16288 1.4348 14736e-6 0
  (deg 268.056595) (deg 64.495303) 1000e3 1000e3 50e3 None.
(** planet.py:160-173 *)
Definition SATURN := mkPlanet "SATURN" 58232e3 1.6379e-4 3.7931187e16 0.19847 1.4348 16298e-6 0
  (deg 40.589) (deg 83.537) 1000e3 1000e3 50e3 None.
(** planet.py:175-190 *)
Definition TITAN := mkPlanet "TITAN" 2575e3 4.5451280e-6 8.978e12 5.435 1.4 31.808e-6 (-1.880e-6)
  (deg 39.4827) (deg 83.4279) 1000e3 1000e3 30e3 (Some 300e3).
(** planet.py:192-206 *)
Definition URANUS := mkPlanet "URANUS" 25559e3 (-1.01237e-4) 5.793939e15 0.3788 1.45 3343.3e-6 0
  (deg 257.311) (deg (-15.175)) 1500e3 1500e3 10e3 (Some 10e3).
(** planet.py:208-222 *)
Definition NEPTUNE := mkPlanet "NEPTUNE" 24622e3 1.083385e-4 6.8365299e15 0.44021 1.45 3411e-6 0
  (deg 299.36) (deg 43.36) 1000e3 1000e3 10e3 (Some 100e3).

(** Planet.__init__ dispatch, planet.py:93-227. *)
Definition Planet (planetID : string) : res planet :=
  if string_dec planetID "VENUS" then Ok VENUS
  else if string_dec planetID "EARTH" then Ok EARTH
  else if string_dec planetID "MARS" then Ok MARS
  else if string_dec planetID "JUPITER" then Ok JUPITER
  else if string_dec planetID "SATURN" then Ok SATURN
  else if string_dec planetID "TITAN" then Ok TITAN
  else if string_dec planetID "URANUS" then Ok URANUS
  else if string_dec planetID "NEPTUNE" then Ok NEPTUNE
  else Err ValueError.

(** Derived reference values, planet.py:230-234. *)
Definition Vref (p : planet) : R := sqrt (GM p / RP p).
Definition tau (p : planet) : R := RP p / Vref p.
Definition OMEGAbar (p : planet) : R := OMEGA p * tau p.
Definition EARTHG : R := 9.80665.

(** Speed of sound column, planet.py:290: np.sqrt(CPCV*pressure/density), row by row.
    [None] stands for NaN/inf (zero density, negative ratio). *)
Definition atm_sonic (p : planet) (pressure density : R) : option R :=
  leto q := np_div (CPCV p * pressure) density in np_sqrt q.

(** Height column, planet.py:278-282. *)
Definition atm_height (heightInKmFlag : bool) (col : list R) : list R :=
  if heightInKmFlag then map (fun x => x * 1e3) col else col.

(** Planet.density, planet.py:310-344.  [density_int] is the loaded interpolant
    (any kind), already converted to a Python float. *)
Definition density (p : planet) (density_int : R -> R) (h : R) : R :=
  if Rleb 0 h && Rleb h (h_thres p) then density_int h
  else if Rltb (h_thres p) h then 0
  else rho0 p.

(** planet.py:387-406: np array version. *)
Definition densityvectorized (density_int : R -> R) (h : list R) : list R := map density_int h.
(** planet.py:346-365, 367-385, 408-427: same shape for temperature, pressure, sound speed. *)
Definition tempvectorized (temp_int : R -> R) (h : list R) : list R := map temp_int h.
Definition presvectorized (pressure_int : R -> R) (h : list R) : list R := map pressure_int h.
Definition avectorized (sonic_int : R -> R) (h : list R) : list R := map sonic_int h.

(** planet.py:429-453 (theta and phi are unused by the code). *)
Definition rho (p : planet) (density_int : R -> R) (r theta phi : R) : R :=
  density p density_int (r - RP p).
(** planet.py:455-476 *)
Definition rhovectorized (p : planet) (density_int : R -> R) (r : list R) : list R :=
  map (fun x => density_int (x - RP p)) r.
(** planet.py:478-542 *)
Definition pressurevectorized (p : planet) (pressure_int : R -> R) (r : list R) : list R :=
  map (fun x => pressure_int (x - RP p)) r.
Definition temperaturevectorized (p : planet) (temp_int : R -> R) (r : list R) : list R :=
  map (fun x => temp_int (x - RP p)) r.
Definition sonicvectorized (p : planet) (sonic_int : R -> R) (r : list R) : list R :=
  map (fun x => sonic_int (x - RP p)) r.
(** planet.py:544-559 *)
Definition rbar_of (p : planet) (r : R) : R := r / RP p.
(** planet.py:561-584 *)
Definition rho2 (p : planet) (density_int : R -> R) (rbar theta phi : R) : R :=
  rho p density_int (rbar * RP p) theta phi.
(** planet.py:586-608 *)
Definition rhobar (p : planet) (density_int : R -> R) (rbar theta phi : R) : R :=
  rho2 p density_int rbar theta phi / rho0 p.

(** planet.py:685-701, 703-719 *)
Definition computeR (p : planet) (h : R) : R := RP p + h.
Definition computeH (p : planet) (r : R) : R := r - RP p.

(** A vehicle state in the order used by the code: r, theta, phi, v, psi, gamma, drange. *)
Record state := mkState {
  s_r : R; s_theta : R; s_phi : R; s_v : R; s_psi : R; s_gamma : R; s_drange : R }.

(** planet.py:721-765 *)
Definition nonDimState (p : planet) (s : state) : state :=
  mkState (s_r s / RP p) (s_theta s) (s_phi s) (s_v s / Vref p) (s_psi s) (s_gamma s) (s_drange s / RP p).
(** planet.py:767-814 *)
Definition dimensionalize (p : planet) (tbar : R) (s : state) : R * state :=
  (tau p * tbar,
   mkState (s_r s * RP p) (s_theta s) (s_phi s) (s_v s * Vref p) (s_psi s) (s_gamma s) (s_drange s * RP p)).

(** Python's int(x): the fraction is cut off.  [slice_from k l]: l[k:], where a negative k counts from the end. *)
Definition py_int (x : R) : Z := if Rleb 0 x then Int_part x else (- Int_part (- x))%Z.
Definition slice_from {A} (k : Z) (l : list A) : list A :=
  if (k <? 0)%Z then skipn (length l - Z.to_nat (- k)) l else skipn (Z.to_nat k) l.

(** Planet.scaleHeight(h, density_int), planet.py:816-845.  [own_int] is self.density_int;
    [arg_int] is the parameter, which the body never mentions.  0/0 is [None].  h_skip is positive. *)
Definition scaleHeight (p : planet) (own_int : R -> R) (h : R) (arg_int : R -> R) : res (option R) :=
  let h_array := linspace 0 (h_skip p) (Z.to_nat (py_int (h_skip p / 1000))) in
  let d_array := densityvectorized own_int h_array in
  let k := py_int (h / 1000) in
  letr integ := cumtrapz (slice_from k d_array) (slice_from k h_array) 0 in
  Ok (np_div (last integ 0) (density p own_int h - density p own_int (h_skip p))).

(** planet.py:960-979, 981-1000 *)
Definition pSigmaFunc (x : R) : R := if Rleb 0 x then 1 else 0.
Definition nSigmaFunc (x : R) : R := if Rltb x 0 then 1 else 0.

(** One row of the Monte Carlo density file as returned by loadMonteCarloDensityFile2/3. *)
Record mcrow := mkRow { mc_h : R; mc_low : R; mc_avg : R; mc_high : R; mc_pert : R }.

(** planet.py:886-903: columns (height, low, avg, high, total); flag converts km to m. *)
Definition mc_row_file2 (km : bool) (height low avg high total : R) : mcrow :=
  mkRow (if km then height * 1e3 else height) low avg high (total - avg).
(** planet.py:942-958: columns (height, avg, sd percent, total). *)
Definition mc_row_file3 (km : bool) (height avg sd total : R) : mcrow :=
  mkRow (if km then height * 1e3 else height) (avg - avg * sd * 0.01) avg (avg + avg * sd * 0.01) (total - avg).

(** Python slice l[(i-1)*NPOS : i*NPOS] for i >= 1 (planet.py:1036-1043). *)
Definition mc_block {A} (npos i : nat) (rows : list A) : list A :=
  firstn npos (skipn ((i - 1) * npos) rows).

(** Density of one row for a given sigma, planet.py:1036-1043 (with the perturbation). *)
Definition mc_density5 (sigma : R) (w : mcrow) : R :=
  let nSigma := mc_avg w - mc_low w in
  let pSigma := mc_high w - mc_avg w in
  mc_avg w + pSigma * pSigmaFunc sigma * sigma + nSigma * nSigmaFunc sigma * sigma + mc_pert w.
(** planet.py:1080-1086 (without the perturbation). *)
Definition mc_density6 (sigma : R) (w : mcrow) : R :=
  let nSigma := mc_avg w - mc_low w in
  let pSigma := mc_high w - mc_avg w in
  mc_avg w + pSigma * pSigmaFunc sigma * sigma + nSigma * nSigmaFunc sigma * sigma.

(** loadAtmosphereModel5 / 6, planet.py:1002-1046, 1048-1089: the interpolant. *)
Definition loadAtmosphereModel5 (rows : list mcrow) (sigma : R) (npos i : nat) (h : R) : res R :=
  interp1d (map (fun w => (mc_h w, mc_density5 sigma w)) (mc_block npos i rows)) 0 0 h.
Definition loadAtmosphereModel6 (rows : list mcrow) (sigma : R) (npos i : nat) (h : R) : res R :=
  interp1d (map (fun w => (mc_h w, mc_density6 sigma w)) (mc_block npos i rows)) 0 0 h.
