(** Model of the figures of /repo/AMAT/vehicle.py (makeBasicEntryPlots, createQPlot) and of /repo/AMAT/planet.py
    (checkAtmProfiles): which points are drawn in which panel under which labels.
    Simplified: line styles, fonts, ticks, annotations and logarithmic scales are left out; an atmosphere has been
    loaded.  matplotlib 3.10.8 (/repo/uv.lock) raises ValueError on None and on arrays of different lengths. *)
From Coq Require Import String List ZArith.
Require Import Verif.Base Verif.Numpy Verif.PlanetModel Verif.AeroModel Verif.HeatModel Verif.TrajectoryModel.
Open Scope string_scope.

(** A panel: labels of the two axes and the points in order; [None] is nan, at which the line has a gap. *)
Record panel := mkPanel { pn_xlabel : string; pn_ylabel : string; pn_points : list (option R * option R) }.

(** plt.plot(x, y), with an attribute that may still be None. *)
Definition draw (xlabel ylabel : string) (x y : option (list (option R))) : res panel :=
  match x, y with
  | Some x, Some y => if Nat.eqb (length x) (length y) then Ok (mkPanel xlabel ylabel (combine x y)) else Err ValueError
  | _, _ => Err ValueError
  end.

(** Attributes of the last propagation, None before the first: vehicle.py:394-410. *)
Definition attr (o : vobj) (get : flight -> list (option R)) : option (list (option R)) := option_map get (ob_flight o).
Definition nums (l : list R) : list (option R) := map Some l.

(** makeBasicEntryPlots, vehicle.py:2960-3006. *)
Definition makeBasicEntryPlots (o : vobj) : res (list panel) :=
  let t := attr o (fun f => nums (p_t (f_plot f))) in
  letr a := draw "Time, min" "Altitude, km" t (attr o (fun f => nums (p_h (f_plot f)))) in
  letr b := draw "Time, min" "Velocity (km/s)" t (attr o (fun f => nums (p_v (f_plot f)))) in
  letr c := draw "Time, min" "Deceleration (Earth g)" t (attr o f_acc_net) in
  letr d := draw "Time, min" "Stag. point heat-rate (W/cm2)" t (attr o f_qtot) in
  Ok [a; b; c; d].

(** createQPlot, vehicle.py:4237-4284: the flight is propagated, then drawn; the axes are limited to 100 km .. 700 km
    and 0 .. 12500 Pa.  The straight line of lines 4241-4245 is computed but not drawn. *)
Record qplot := mkQ { qp_panel : panel; qp_xlim : R * R; qp_ylim : R * R }.
Definition createQPlot (E : engine) (o : vobj) (t_sec dt delta_deg : R) : vobj * res qplot :=
  match propogateEntry E o t_sec dt delta_deg with
  | (o', Err e) => (o', Err e)
  | (o', Ok _) =>
      (o', letr c := draw "Altitude, m" "Dynamic pressure, Pa " (attr o' (fun f => nums (map (fun x => x * 1e3) (p_h (f_plot f)))))
                       (attr o' (fun f => nums (map (fun x => x * 1.01325e5) (f_dyn f)))) in
           Ok (mkQ c (100e3, 700e3) (0, 12500)))
  end.

(** checkAtmProfiles, planet.py:628-683.  Python's division of floats raises on zero; np.linspace refuses a negative
    number of points. *)
Definition checkAtmProfiles (p : planet) (a : atmosphere) (h0 dh : R) : res (list panel) :=
  if Reqb dh 0 then Err ZeroDivisionError
  else
    let n := py_int (h_thres p / dh) in
    if (n <? 0)%Z then Err ValueError
    else
      let h_array := linspace h0 (h_thres p) (Z.to_nat n) in
      let h_km := Some (nums (map (fun x => x * 1e-3) h_array)) in
      letr T := draw "Temperature, K" "Altitude, km" (Some (nums (tempvectorized (temp_int a) h_array))) h_km in
      letr P := draw "Pressure, kPa" "Altitude, km" (Some (nums (map (fun x => x * 1e-3) (presvectorized (pressure_int a) h_array)))) h_km in
      letr r := draw "Density, kg/m3" "Altitude, km" (Some (nums (densityvectorized (density_int a) h_array))) h_km in
      letr s := draw "Speed of Sound, m/s" "Altitude, km" (Some (nums (avectorized (sonic_int a) h_array))) h_km in
      Ok [T; P; r; s].
