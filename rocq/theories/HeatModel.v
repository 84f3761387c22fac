(** Model of the stagnation-point heating of /repo/AMAT/vehicle.py, lines 579-800 and 2270-2312.
    [None] is a value that is not a finite number.  Simplification: a nose radius that is not positive
    gives [None] (Python would also raise ZeroDivisionError or form a complex number). *)
From Coq Require Import String List.
Require Import Verif.Base Verif.Numpy Verif.PlanetModel Verif.AeroModel.

(** numpy x ** y for a non-integer exponent y: NaN for negative x, inf for 0 ** negative. *)
Definition np_pow (x y : R) : option R :=
  if Rltb 0 x then Some (Rpower x y) else if Reqb x 0 && Rltb 0 y then Some 0 else None.

(** k * (rho/RN)**0.5 * v**3.0, vehicle.py:604, 610, 616, 622, 628, 634. *)
Definition con_sutton_graves (k RN rho v : R) : option R :=
  leto q := np_div rho RN in leto s := np_sqrt q in Some (k * s * v ^ 3).
(** vehicle.py:640, 646 *)
Definition con_ice_giant (RN rho v : R) : option R :=
  leto a := np_pow rho 0.452130 in leto b := np_pow v 2.691800 in
  leto q := np_div 0.291 RN in leto s := np_sqrt q in Some (2.24008e-7 * a * b * s).
(** The branch taken by qStagConvective, vehicle.py:601-650; [None]: no branch. *)
Definition con_law (id : string) : option (R -> R -> R -> option R) :=
  if string_dec id "VENUS" then Some (con_sutton_graves 1.8960e-8)
  else if string_dec id "EARTH" then Some (con_sutton_graves 1.7623e-8)
  else if string_dec id "MARS" then Some (con_sutton_graves 1.8980e-8)
  else if string_dec id "JUPITER" then Some (con_sutton_graves 0.6556e-8)
  else if string_dec id "SATURN" then Some (con_sutton_graves 0.6356e-8)
  else if string_dec id "TITAN" then Some (con_sutton_graves 1.7407e-8)
  else if string_dec id "URANUS" then Some con_ice_giant
  else if string_dec id "NEPTUNE" then Some con_ice_giant
  else None.

(** vehicle.py:689-695 *)
Definition rad_venus (RN rho v : R) : option R :=
  leto a := (if Rltb v 8000 then Some (3.33e-34 * v ^ 10)
             else if Rltb v 10000 then leto b := np_pow v 5.5 in Some (1.22e-16 * b)
             else leto b := np_pow v 13.4 in Some (3.07e-48 * b)) in
  leto b := np_pow rho 1.2 in leto c := np_pow RN 0.49 in Some (a * b * c).
(** vehicle.py:708-718 *)
Definition earth_fV : table :=
  [(9000, 1.5); (10000, 35); (11000, 151); (12000, 359); (13000, 660); (14000, 1065); (15000, 1550); (16000, 2040)].
Definition rad_earth (RN rho v : R) : option R :=
  leto a := np_pow RN 0.6 in leto b := np_pow rho 1.22 in
  match interp1d earth_fV 0 2040 v with Ok f => Some (4.736e4 * a * b * f) | Err _ => None end.
(** vehicle.py:723-726, 749-752 *)
Definition rad_zero (RN rho v : R) : option R := Some 0.
(** vehicle.py:733, 743 *)
Definition rad_gas_giant (RN rho v : R) : option R :=
  leto a := np_pow (2 * RN) (-0.17905) in leto b := np_pow rho 1.763827469 in leto c := np_pow v 10.993852 in
  Some (9.7632379e-40 * a * b * c * 1e3 / 1e4).
(** vehicle.py:760, 771 *)
Definition rad_ice_giant (RN rho v : R) : option R :=
  leto a := np_pow rho 0.498140 in leto b := np_pow (v / 10000) 15.113 in
  Some (8.125812e-3 * a * b * (RN / 0.291)).
(** The branch taken by qStagRadiative, vehicle.py:682-775. *)
Definition rad_law (id : string) : option (R -> R -> R -> option R) :=
  if string_dec id "VENUS" then Some rad_venus
  else if string_dec id "EARTH" then Some rad_earth
  else if string_dec id "MARS" then Some rad_zero
  else if string_dec id "JUPITER" then Some rad_gas_giant
  else if string_dec id "SATURN" then Some rad_gas_giant
  else if string_dec id "TITAN" then Some rad_zero
  else if string_dec id "URANUS" then Some rad_ice_giant
  else if string_dec id "NEPTUNE" then Some rad_ice_giant
  else None.

(** One heating history.  For an unknown planet the method prints a message and returns None, and every
    use of that None raises TypeError: modelled as raising at once. *)
Definition heat_history (law : string -> option (R -> R -> R -> option R)) (V : vehicle) (r v : list R) : res (list (option R)) :=
  match law (ID (vh_planet V)) with
  | Some f => Ok (map (fun q => f (vh_RN V) (fst q) (snd q)) (combine (rho_vec V r) v))
  | None => Err TypeError
  end.
Definition qStagConvective := heat_history con_law.
Definition qStagRadiative := heat_history rad_law.
(** Elementwise sum of two arrays that may hold NaN. *)
Definition oadd (a b : option R) : option R := leto x := a in leto y := b in Some (x + y).
Definition vsum (a b : list (option R)) : list (option R) := map (fun q => oadd (fst q) (snd q)) (combine a b).
(** vehicle.py:796-800 *)
Definition qStagTotal (V : vehicle) (r v : list R) : res (list (option R)) :=
  letr a := qStagConvective V r v in letr b := qStagRadiative V r v in Ok (vsum a b).

(** cumulative_trapezoid of an array that may hold NaN: NaN spreads to every later sum. *)
Fixpoint otrapz_from (acc y0 : option R) (x0 : R) (ys : list (option R)) (xs : list R) : list (option R) :=
  match ys, xs with
  | y1 :: ys', x1 :: xs' =>
      let acc' := leto a := acc in leto p := y0 in leto q := y1 in Some (a + (x1 - x0) * (p + q) / 2) in
      acc' :: otrapz_from acc' y1 x1 ys' xs'
  | _, _ => []
  end.
Definition ocumtrapz (y : list (option R)) (x : list R) (init : R) : res (list (option R)) :=
  match y, x with
  | [], _ => Err ValueError
  | y0 :: ys, [] => Err ValueError
  | y0 :: ys, x0 :: xs =>
      if negb (Nat.eqb (length ys) (length xs)) then Err ValueError
      else if negb (Reqb init 0) then Err ValueError
      else Ok (Some 0 :: otrapz_from (Some 0) y0 x0 ys xs)
  end.

(** Python's max of a numpy array: a NaN in front wins, one further on never does. *)
Fixpoint pymax_from (m : option R) (l : list (option R)) : option R :=
  match l with
  | [] => m
  | x :: l' => pymax_from (match m, x with Some a, Some b => if Rltb a b then x else m | _, _ => m end) l'
  end.
Definition pymax (l : list (option R)) : res (option R) := match l with [] => Err ValueError | x :: l' => Ok (pymax_from x l') end.

(** The numbers of an array, if none of them is NaN. *)
Fixpoint all_some (l : list (option R)) : option (list R) :=
  match l with
  | [] => Some []
  | None :: _ => None
  | Some x :: l' => leto t := all_some l' in Some (x :: t)
  end.
Definition set_RN (V : vehicle) (x : R) : vehicle :=
  mkVehicle (vh_mass V) (vh_beta V) (vh_LD V) (vh_A V) (vh_alpha V) x (vh_planet V) (vh_atm V) (vh_user V) (vh_CDMach V)
    (vh_Abar V) (vh_mbar V) (vh_CD V) (vh_CL V).

(** The loop of computeHeatingForMultipleRN, vehicle.py:2302-2308: the vehicle left behind and the rows. *)
Fixpoint rn_loop (V : vehicle) (tc rc vc : list R) (rns : list R) : vehicle * res (list (option R * option R)) :=
  match rns with
  | [] => (V, Ok [])
  | x :: rest =>
      let V1 := set_RN V x in
      match (letr q := qStagTotal V1 rc vc in letr m := pymax q in letr h := ocumtrapz q tc 0 in Ok (m, last h None)) with
      | Err e => (V1, Err e)
      | Ok row => let (V2, out) := rn_loop V1 tc rc vc rest in (V2, letr rows := out in Ok (row :: rows))
      end
  end.
(** computeHeatingForMultipleRN, vehicle.py:2296-2312. *)
Definition computeHeatingForMultipleRN (V : vehicle) (tc rc vc rns : list R) : vehicle * res (list (option R * option R)) :=
  let temp := vh_RN V in
  let (V1, out) := rn_loop V tc rc vc rns in
  match out with
  | Err e => (V1, Err e)
  | Ok rows => (set_RN V1 temp, Ok rows)
  end.
