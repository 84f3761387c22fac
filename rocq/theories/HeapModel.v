(** Model of the onboard predictions of /repo/AMAT/vehicle.py with object identity: a heap of objects,
    references between them, copy.deepcopy, and attribute assignment (lines 2604-2786, 2866-2943, 4611-4670,
    6447-6517, 6602-6693, 6775-6865).  Simplification: the only objects are Planets and Vehicles; the other
    attributes are immutable values. *)
From Coq Require Import List.
Require Import Verif.Base Verif.Numpy Verif.PlanetModel Verif.AeroModel Verif.HeatModel Verif.TrajectoryModel
  Verif.OrbiterModel Verif.OrbitModel Verif.GuidanceModel.

(** A Planet object holds its constants and its atmosphere functions; a Vehicle object holds its own
    attributes and a reference to a Planet object (the planet and atmosphere stored in the vehicle record
    are not used: they are looked up through the reference).  [beta1], [betaRatio]: the attributes set by
    setDragModulationVehicleParams; None until then. *)
Inductive cell :=
| PlanetObj (p : planet) (a : atmosphere)
| VehicleObj (o : vobj) (planetObj : nat) (beta1 betaRatio : option R).
Definition heap := list cell.
Definition alloc (h : heap) (c : cell) : heap * nat := (h ++ [c], length h).
Fixpoint write (h : heap) (a : nat) (c : cell) : heap :=
  match h, a with
  | [], _ => []
  | _ :: h', O => c :: h'
  | x :: h', S a' => x :: write h' a' c
  end.

(** The vehicle's attributes seen through the reference. *)
Definition on_planet (o : vobj) (p : planet) (a : atmosphere) : vobj :=
  let V := ob_veh o in
  mkObj (mkVehicle (vh_mass V) (vh_beta V) (vh_LD V) (vh_A V) (vh_alpha V) (vh_RN V) p a (vh_user V) (vh_CDMach V)
           (vh_Abar V) (vh_mbar V) (vh_CD V) (vh_CL V)) (ob_init o) (ob_tol o) (ob_flight o) (ob_heat o).
Definition view (h : heap) (a : nat) : option vobj :=
  match nth_error h a with
  | Some (VehicleObj o pr _ _) => match nth_error h pr with Some (PlanetObj p at_) => Some (on_planet o p at_) | _ => None end
  | _ => None
  end.

(** copy.deepcopy of a Planet and of a Vehicle: new objects, the latter with its own copy of the Planet. *)
Definition deepcopy_planet (h : heap) (a : nat) : res (heap * nat) :=
  match nth_error h a with Some (PlanetObj p at_) => Ok (alloc h (PlanetObj p at_)) | _ => Err AttributeError end.
Definition deepcopy_vehicle (h : heap) (a : nat) : res (heap * nat) :=
  match nth_error h a with
  | Some (VehicleObj o pr b1 br) => letr hp := deepcopy_planet h pr in Ok (alloc (fst hp) (VehicleObj o (snd hp) b1 br))
  | _ => Err AttributeError
  end.
Definition get_planetObj (h : heap) (a : nat) : res nat :=
  match nth_error h a with Some (VehicleObj _ pr _ _) => Ok pr | _ => Err AttributeError end.
(** planet.density_int = f, and vehicle.planetObj = planet. *)
Definition set_density_int (h : heap) (a : nat) (f : R -> R) : heap :=
  match nth_error h a with
  | Some (PlanetObj p at_) => write h a (PlanetObj p (mkAtm f (temp_int at_) (pressure_int at_) (sonic_int at_)))
  | _ => h
  end.
Definition set_planetObj (h : heap) (a pr : nat) : heap :=
  match nth_error h a with Some (VehicleObj o _ b1 br) => write h a (VehicleObj o pr b1 br) | _ => h end.
(** vehicle.beta = b; vehicle.CD = c. *)
Definition set_beta_CD (h : heap) (a : nat) (b c : R) : heap :=
  match nth_error h a with
  | Some (VehicleObj o pr b1 br) =>
      let V := ob_veh o in
      write h a (VehicleObj (mkObj (mkVehicle (vh_mass V) b (vh_LD V) (vh_A V) (vh_alpha V) (vh_RN V) (vh_planet V) (vh_atm V) (vh_user V)
        (vh_CDMach V) (vh_Abar V) (vh_mbar V) c (vh_CL V)) (ob_init o) (ob_tol o) (ob_flight o) (ob_heat o)) pr b1 br)
  | _ => h
  end.

(** dummyVehicle, vehicle.py:2620-2626, and the same lines of the propogateEntry_util functions: the heap
    with the copies, and the copy's address. *)
Definition dummyVehicle (h : heap) (self : nat) (density_mes_int : R -> R) : res (heap * nat) :=
  letr pr := get_planetObj h self in
  letr h1 := deepcopy_planet h pr in
  let planetCopy := snd h1 in
  let h2 := set_density_int (fst h1) planetCopy density_mes_int in
  letr h3 := deepcopy_vehicle h2 self in
  let vehicleCopy := snd h3 in
  Ok (set_planetObj (fst h3) vehicleCopy planetCopy, vehicleCopy).
(** propogateEntry_utilD additionally sets the copy's ballistic coefficient: vehicle.py:6613-6614, 6786-6787.
    Python floats: a zero beta*A raises, and None*x raises TypeError. *)
Definition jettison (h : heap) (self copy : nat) : heap * res unit :=
  match nth_error h self with
  | Some (VehicleObj o _ (Some b1) (Some br)) =>
      let V := ob_veh o in let b := b1 * br in
      if Reqb (b * vh_A V) 0 then (set_beta_CD h copy b (vh_CD V), Err ZeroDivisionError)
      else (set_beta_CD h copy b (vh_mass V / (b * vh_A V)), Ok tt)
  | _ => (h, Err TypeError)
  end.

(** The prediction from the copy: vehicle.py:2728-2786 and 4616-4621 (and the D lines 6629-6693, 6453-6459). *)
Definition predict_on (solve : vehicle -> R -> state -> R -> R -> R -> res traj) (h : heap) (copy : nat) (i : init) (heat0 : option R)
    (t_sec dt delta_deg : R) : res (option R) :=
  match view h copy with
  | None => Err AttributeError
  | Some o =>
      letr f := fly solve (ob_veh o) (ob_tol o) i t_sec dt delta_deg in
      letr hl := (match heat0 with Some j => ocumtrapz (f_qtot f) (c_t (f_si f)) j | None => Err ValueError end) in
      Ok (compute_ApoapsisAltitudeKm (vh_planet (ob_veh o)) (plot_last (vh_planet (ob_veh o)) (f_plot f)))
  end.
(** predictApoapsisAltitudeKm_withLiftUp (solve = solveTrajectory) and its version 2. *)
Definition predict_withLiftUp solve (h : heap) (self : nat) (i : init) (heat0 : option R) (t_sec dt delta_deg : R) (dens : R -> R) : heap * res (option R) :=
  match dummyVehicle h self dens with
  | Err e => (h, Err e)
  | Ok (h', copy) => (h', predict_on solve h' copy i heat0 t_sec dt delta_deg)
  end.
(** predictApoapsisAltitudeKm_afterJettision (initial=0, so heat0 = Some 0) and its version 2. *)
Definition predict_afterJettision solve (h : heap) (self : nat) (i : init) (heat0 : option R) (t_sec dt delta_deg : R) (dens : R -> R) : heap * res (option R) :=
  match dummyVehicle h self dens with
  | Err e => (h, Err e)
  | Ok (h', copy) =>
      match jettison h' self copy with
      | (h2, Err e) => (h2, Err e)
      | (h2, Ok _) => (h2, predict_on solve h2 copy i heat0 t_sec dt delta_deg)
      end
  end.
