(** Independent vocabulary for the heating correlations: published power laws as data. *)
From Coq Require Import String List.
Require Import Verif.Base.
Local Open Scope string_scope.

(** q = coeff * (RN/refRN)^a * rho^b * (v/refv)^c in W/cm^2, for speeds from [from] up to [upto] (not included). *)
Record correlation := mkCorr { co_planet : string; co_coeff : R; co_refRN : R; co_RN : R; co_rho : R; co_refv : R; co_v : R; co_from : R; co_upto : option R }.
Definition value (c : correlation) (RN rho v : R) : R :=
  co_coeff c * Rpower (RN / co_refRN c) (co_RN c) * Rpower rho (co_rho c) * Rpower (v / co_refv c) (co_v c).
Definition applies (c : correlation) (v : R) : Prop := co_from c <= v /\ match co_upto c with Some u => v < u | None => True end.

(** Convective: Sutton and Graves (RN^-1/2 rho^1/2 v^3) with a coefficient per gas, and a fit for the ice giants. *)
Definition sutton (name : string) (k : R) : correlation := mkCorr name k 1 (-0.5) 0.5 1 3 0 None.
Definition convective : list correlation :=
  [sutton "VENUS" 1.896e-8; sutton "EARTH" 1.7623e-8; sutton "MARS" 1.898e-8; sutton "JUPITER" 6.556e-9; sutton "SATURN" 6.356e-9; sutton "TITAN" 1.7407e-8;
   mkCorr "URANUS" 2.24008e-7 0.291 (-0.5) 0.45213 1 2.6918 0 None; mkCorr "NEPTUNE" 2.24008e-7 0.291 (-0.5) 0.45213 1 2.6918 0 None].
(** Radiative, where it is a power law. *)
Definition radiative : list correlation :=
  [mkCorr "VENUS" 3.33e-34 1 0.49 1.2 1 10 0 (Some 8000); mkCorr "VENUS" 1.22e-16 1 0.49 1.2 1 5.5 8000 (Some 10000); mkCorr "VENUS" 3.07e-48 1 0.49 1.2 1 13.4 10000 None;
   mkCorr "JUPITER" 9.7632379e-41 0.5 (-0.17905) 1.763827469 1 10.993852 0 None; mkCorr "SATURN" 9.7632379e-41 0.5 (-0.17905) 1.763827469 1 10.993852 0 None;
   mkCorr "URANUS" 8.125812e-3 0.291 1 0.49814 10000 15.113 0 None; mkCorr "NEPTUNE" 8.125812e-3 0.291 1 0.49814 10000 15.113 0 None].
(** Radiative for Earth: the tabulated velocity function of Tauber and Sutton, (m/s, value). *)
Definition tauber_sutton : list (R * R) :=
  [(9000, 1.5); (10000, 35); (11000, 151); (12000, 359); (13000, 660); (14000, 1065); (15000, 1550); (16000, 2040)].
