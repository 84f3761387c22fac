(** Model of the force model and the equations of motion of /repo/AMAT/vehicle.py, lines 317-1671.
    Exact reals stand for floats; [None] is a result that is not a finite number. *)
Require Import Verif.Base Verif.Numpy Verif.PlanetModel.

(** The interpolants a Planet object holds after loadAtmosphereModel (planet.py:286-297). *)
Record atmosphere := mkAtm { density_int : R -> R; temp_int : R -> R; pressure_int : R -> R; sonic_int : R -> R }.

(** Attributes of a Vehicle that the force model reads (vehicle.py:345-359, 513): note that CD, CL,
    Abar and mbar are computed once, by the constructor.  [vh_CDMach] is None until setCDMachFunction. *)
Record vehicle := mkVehicle {
  vh_mass : R; vh_beta : R; vh_LD : R; vh_A : R; vh_alpha : R; vh_RN : R;
  vh_planet : planet; vh_atm : atmosphere; vh_user : bool; vh_CDMach : option (R -> R);
  vh_Abar : R; vh_mbar : R; vh_CD : R; vh_CL : R }.

(** Vehicle.__init__, vehicle.py:345-359.  Python float division by zero raises. *)
Definition Vehicle (mass beta LD A alpha RN : R) (p : planet) (atm : atmosphere) (user : bool) : res vehicle :=
  if Reqb mass 0 then Err ZeroDivisionError
  else if Reqb (beta * A) 0 then Err ZeroDivisionError
  else let CD := mass / (beta * A) in
    Ok (mkVehicle mass beta LD A alpha RN p atm user None (A / (mass / (rho0 p * RP p))) (mass / mass) CD (LD * CD)).

(** setCDMachFunction, vehicle.py:501-513. *)
Definition setCDMachFunction (V : vehicle) (f : R -> R) : vehicle :=
  mkVehicle (vh_mass V) (vh_beta V) (vh_LD V) (vh_A V) (vh_alpha V) (vh_RN V) (vh_planet V) (vh_atm V) (vh_user V) (Some f)
    (vh_Abar V) (vh_mbar V) (vh_CD V) (vh_CL V).

(** Planet-relative density of the air at a position, scalar and vectorised (planet.py:429-476). *)
Definition rho_at (V : vehicle) (r theta phi : R) : R := rho (vh_planet V) (density_int (vh_atm V)) r theta phi.
Definition rho_vec (V : vehicle) (r : list R) : list R := rhovectorized (vh_planet V) (density_int (vh_atm V)) r.
Definition rhobar_at (V : vehicle) (rbar theta phi : R) : R := rhobar (vh_planet V) (density_int (vh_atm V)) rbar theta phi.

(** computeMachScalar, vehicle.py:2236: calls np.float, which does not exist in the pinned numpy. *)
Definition computeMachScalar (V : vehicle) (r v : R) : res R := Err AttributeError.
(** computeMach, vehicle.py:2211-2217. *)
Definition computeMach (V : vehicle) (rc vc : list R) : list (option R) :=
  map (fun q => np_div (snd q) (sonic_int (vh_atm V) (fst q - RP (vh_planet V)))) (combine rc vc).

(** The drag coefficient D and Dbar use, vehicle.py:882-886 and 979-982: self.CDMach is looked up first
    (AttributeError when absent), then computeMachScalar is called. *)
Definition CD_scalar (V : vehicle) (r v : R) : res R :=
  if vh_user V then
    match vh_CDMach V with
    | None => Err AttributeError
    | Some f => letr m := computeMachScalar V r v in Ok (f m)
    end
  else Ok (vh_CD V).

(** vehicle.py:825, 854-857 *)
Definition Lift (V : vehicle) (r theta phi v : R) : R := 0.5 * rho_at V r theta phi * v ^ 2 * vh_A V * vh_CL V.
Definition Lvectorized (V : vehicle) (r v : list R) : list R :=
  map (fun q => 0.5 * fst q * snd q ^ 2 * vh_A V * vh_CL V) (combine (rho_vec V r) v).
(** vehicle.py:882-889 *)
Definition Drag (V : vehicle) (r theta phi v : R) : res R :=
  letr c := CD_scalar V r v in Ok (0.5 * rho_at V r theta phi * v ^ 2 * vh_A V * c).
(** vehicle.py:917-927, for a vehicle without a user-defined drag law (CD_vec = CD * ones). *)
Definition Dvectorized (V : vehicle) (r v : list R) : list R :=
  map (fun q => 0.5 * fst q * snd q ^ 2 * vh_A V * vh_CD V) (combine (rho_vec V r) v).
(** vehicle.py:953, 979-985 *)
Definition Lbar (V : vehicle) (rbar theta phi vbar : R) : R := 0.5 * rhobar_at V rbar theta phi * vbar ^ 2 * vh_Abar V * vh_CL V.
Definition Dbar (V : vehicle) (rbar theta phi vbar : R) : res R :=
  letr c := CD_scalar V (rbar * RP (vh_planet V)) (vbar * Vref (vh_planet V)) in
  Ok (0.5 * rhobar_at V rbar theta phi * vbar ^ 2 * vh_Abar V * c).

(** Accelerations along, normal to and across the velocity: vehicle.py:1017, 1082, 1147 and, as arrays,
    1046-1050, 1110-1114, 1175-1179. *)
Definition a_s (V : vehicle) (r theta phi v delta : R) : res R :=
  letr d := Drag V r theta phi v in Ok (0 * cos (vh_alpha V) - d / vh_mass V).
Definition a_n (V : vehicle) (r theta phi v delta : R) : R :=
  (Lift V r theta phi v + 0 * sin (vh_alpha V)) * cos delta / vh_mass V.
Definition a_w (V : vehicle) (r theta phi v delta : R) : R :=
  (Lift V r theta phi v + 0 * sin (vh_alpha V)) * sin delta / vh_mass V.
Definition a_svectorized (V : vehicle) (r v : list R) (delta : R) : list R :=
  map (fun d => 0 * cos (vh_alpha V) - d / vh_mass V) (Dvectorized V r v).
Definition a_nvectorized (V : vehicle) (r v : list R) (delta : R) : list R :=
  map (fun l => (l + 0 * sin (vh_alpha V)) * cos delta / vh_mass V) (Lvectorized V r v).
Definition a_wvectorized (V : vehicle) (r v : list R) (delta : R) : list R :=
  map (fun l => (l + 0 * sin (vh_alpha V)) * sin delta / vh_mass V) (Lvectorized V r v).
(** vehicle.py:1211, 1244, 1277 *)
Definition a_sbar (V : vehicle) (rbar theta phi vbar delta : R) : res R :=
  letr d := Dbar V rbar theta phi vbar in Ok ((0 * cos (vh_alpha V) - d) / vh_mbar V).
Definition a_nbar (V : vehicle) (rbar theta phi vbar delta : R) : R :=
  (Lbar V rbar theta phi vbar + 0 * sin (vh_alpha V)) * cos delta / vh_mbar V.
Definition a_wbar (V : vehicle) (rbar theta phi vbar delta : R) : R :=
  (Lbar V rbar theta phi vbar + 0 * sin (vh_alpha V)) * sin delta / vh_mbar V.

(** Centrifugal and Coriolis terms, vehicle.py:1307, 1337, 1367, 1394, 1421. *)
Definition cfvbar (p : planet) (rbar phi vbar psi gamma : R) : R :=
  OMEGAbar p ^ 2 * rbar * cos phi * (sin gamma * cos phi - cos gamma * sin phi * sin psi).
Definition cfpsibar (p : planet) (rbar phi vbar psi gamma : R) : option R :=
  leto q := np_div (-1 * OMEGAbar p ^ 2 * rbar) (vbar * (cos gamma + 1e-2)) in Some (q * sin phi * cos phi * cos psi).
Definition cfgammabar (p : planet) (rbar phi vbar psi gamma : R) : option R :=
  leto q := np_div (OMEGAbar p ^ 2 * rbar) vbar in Some (q * cos phi * (cos gamma * cos phi + sin gamma * sin phi * sin psi)).
Definition copsibar (p : planet) (rbar phi vbar psi gamma : R) : option R :=
  leto q := np_div (sin gamma) (cos gamma + 1e-2) in Some (2 * OMEGAbar p * (q * cos phi * sin psi - sin phi)).
Definition cogammabar (p : planet) (rbar phi vbar psi gamma : R) : R := 2 * OMEGAbar p * cos phi * cos psi.

(** Gravity, vehicle.py:1445-1449, 1472, 1493-1497. *)
Definition grbar (p : planet) (rbar phi : R) : option R :=
  leto term1 := np_div (-1) (rbar ^ 2) in
  leto q2 := np_div (1.5 * J2 p) (rbar ^ 4) in
  leto q3 := np_div (2 * J3 p) (rbar ^ 5) in
  Some (term1 + q2 * (3 * sin phi * sin phi - 1) + q3 * (5 * sin phi ^ 3 - 3 * sin phi)).
Definition gthetabar (p : planet) (rbar phi : R) : R := 0.
Definition gphibar (p : planet) (rbar phi : R) : option R :=
  leto q1 := np_div (-3 * J2 p) (rbar ^ 4) in
  leto q2 := np_div (1.5 * J3 p) (rbar ^ 5) in
  Some (q1 * sin phi * cos phi + q2 * cos phi * (1 - 5 * sin phi * sin phi)).
(** vehicle.py:1520-1524, 1548-1552, 1576-1579 *)
Definition gnbar (p : planet) (rbar phi gamma psi : R) : option R :=
  leto gr := grbar p rbar phi in leto gp := gphibar p rbar phi in
  Some (cos gamma * gr + -1 * sin gamma * cos psi * gthetabar p rbar phi + -1 * sin gamma * sin psi * gp).
Definition gsbar (p : planet) (rbar phi gamma psi : R) : option R :=
  leto gr := grbar p rbar phi in leto gp := gphibar p rbar phi in
  Some (sin gamma * gr + cos gamma * cos psi * gthetabar p rbar phi + cos gamma * sin psi * gp).
Definition gwbar (p : planet) (rbar phi gamma psi : R) : option R :=
  leto gp := gphibar p rbar phi in
  Some (-1 * sin psi * gthetabar p rbar phi + cos psi * gp).

(** EOM and EOM2, vehicle.py:1611-1628 and 1654-1671 (the two bodies are the same; the argument order
    differs).  The state is (rbar, theta, phi, vbar, psi, gamma, drangebar). *)
Definition EOM (V : vehicle) (y : state) (delta : R) : res (option state) :=
  let p := vh_planet V in
  let rbar := s_r y in let theta := s_theta y in let phi := s_phi y in
  let vbar := s_v y in let psi := s_psi y in let gamma := s_gamma y in
  letr asb := a_sbar V rbar theta phi vbar delta in
  Ok (
    leto dtheta := np_div (vbar * cos gamma * cos psi) (rbar * cos phi) in
    leto dphi := np_div (vbar * cos gamma * sin psi) rbar in
    leto gs := gsbar p rbar phi gamma psi in
    leto gw := gwbar p rbar phi gamma psi in
    leto gn := gnbar p rbar phi gamma psi in
    leto lat := np_div (a_wbar V rbar theta phi vbar delta + gw) (vbar * (cos gamma + 1e-2)) in
    leto vr := np_div vbar rbar in
    leto tanphi := np_div (sin phi) (cos phi) in
    leto cfpsi := cfpsibar p rbar phi vbar psi gamma in
    leto copsi := copsibar p rbar phi vbar psi gamma in
    leto nrm := np_div (a_nbar V rbar theta phi vbar delta + gn) vbar in
    leto cfg := cfgammabar p rbar phi vbar psi gamma in
    Some (mkState (vbar * sin gamma) dtheta dphi
      (asb + gs + cfvbar p rbar phi vbar psi gamma)
      (lat - vr * cos gamma * cos psi * tanphi + cfpsi + copsi)
      (nrm + vr * cos gamma + cfg + cogammabar p rbar phi vbar psi gamma)
      (vbar * cos gamma))).
