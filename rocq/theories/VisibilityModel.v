(** Model of /repo/AMAT/visibility.py.  The ephemeris (astropy get_body_barycentric_posvel) is an
    arbitrary function [eph] from body names to ICRF positions in km; the orbiter's timed positions
    (PropulsiveOrbiter.compute_timed_orbit_trajectory, in planet radii) are an arbitrary list. *)
Require Import Verif.Base Verif.Numpy Verif.PlanetModel Verif.LauncherModel Verif.FrameModel.
From Coq Require Import String.
From Coq Require Import List.

(** Lander position, visibility.py:203-209, 302-304; angles in degrees. *)
Definition lander_pos (rp latitude longitude : R) : vec :=
  V3 (rp * cos (deg latitude) * cos (deg longitude))
     (rp * cos (deg latitude) * sin (deg longitude))
     (rp * sin (deg latitude)).

(** Python max(0, x) where NaN compares false. *)
Definition max0 (x : option R) : R :=
  match x with Some v => if Rltb 0 v then v else 0 | None => 0 end.

(** Angle, elevation and visibility flag for a zenith and a direction (None: not finite),
    visibility.py:212-219 and 326-332. *)
Record sight := mkSight { beta : option R; elev : R; visible : bool }.
Definition look (zenith direction : option vec) : sight :=
  let b := leto z := zenith in leto d := direction in leto a := np_arccos (dot z d) in Some (a * 180 / PI) in
  let e := max0 (leto x := b in Some (90 - x)) in
  mkSight b e (Rltb 0 e).

(** Titan is looked up as Saturn, visibility.py:164-167, 396-399. *)
Definition ephemeris_name (observer : string) : string :=
  if string_dec observer "TITAN" then "SATURN"%string else observer.

(** Observer-to-target unit vector in the observer's body frame, visibility.py:172-191, 403-424. *)
Definition target_direction (eph : string -> vec) (p : planet) (target observer : string) : option vec :=
  leto u := unit_of (vsub (eph target) (eph (ephemeris_name observer))) in
  Some (ICRF_to_BI (a0 p) (d0 p) u).
Definition target_range (eph : string -> vec) (target observer : string) : R :=
  norm (vsub (eph target) (eph (ephemeris_name observer))) * 1e3.

Record lander_view := mkView { lv_lon : list R; lv_t : list R; lv_sights : list sight; lv_range : R }.

(** LanderToPlanet.__init__, visibility.py:154-221. *)
Definition LanderToPlanet (eph : string -> vec) (target observer : string) (latitude : R) (num_points : nat)
  : res lander_view :=
  letr p := Planet observer in
  let d := target_direction eph p target observer in
  let lons := linspace 0 360 num_points in
  let ts := linspace 0 (2 * PI / OMEGA p) num_points in
  Ok (mkView lons ts (map (fun lon => look (unit_of (lander_pos (RP p) latitude lon)) d) lons)
        (target_range eph target observer)).

(** LanderToOrbiter.__init__, visibility.py:281-339: time, range and sight per grid point.
    [orbit] is the orbiter position in planet radii at each grid point. *)
Definition LanderToOrbiter (name : string) (latitude : R) (orbit : list vec) (t_seconds : R) (num_points : nat)
  : res (list R * list R * list (R * sight)) :=
  letr p := Planet name in
  let ts := linspace 0 t_seconds num_points in
  let rate := 360 / ((2 * PI) / OMEGA p) in
  let lons := linspace 0 (rate * t_seconds) num_points in
  letr pts := mapr (fun i =>
      match nth_error lons i, nth_error orbit i with
      | Some lon, Some o =>
          let l := lander_pos (RP p) latitude lon in
          let w := vsub (vscale (RP p) o) l in
          Ok (norm w, look (unit_of l) (unit_of w))
      | _, _ => Err IndexError
      end) (seq 0 num_points) in
  Ok (ts, lons, pts).

(** Visibility flag of the target from one orbiter position, visibility.py:434-448. *)
Definition orbiter_sees (n a : vec) : R * bool :=
  let d := norm (cross (vsub vzero a) n) in
  (d, if Rltb d 1 && Rltb 0 (dot n (vscale (-1) a)) then false else true).

(** OrbiterToPlanet.__init__, visibility.py:381-454.  A non-finite direction (target equals observer)
    makes every comparison false, hence visible = True. *)
Definition OrbiterToPlanet (eph : string -> vec) (target observer : string) (orbit : list vec)
  (t_seconds : R) (num_points : nat) : res (list R * list bool) :=
  letr p := Planet observer in
  let ts := linspace 0 t_seconds num_points in
  let n := target_direction eph p target observer in
  letr vis := mapr (fun i =>
      match nth_error orbit i with
      | Some a => Ok (match n with Some n => snd (orbiter_sees n a) | None => true end)
      | None => Err IndexError
      end) (seq 0 num_points) in
  Ok (ts, vis).
(** The range and d_array attributes of OrbiterToPlanet, visibility.py:417 and 434-453. *)
Definition OrbiterToPlanet_distances (eph : string -> vec) (target observer : string) (orbit : list vec)
  (num_points : nat) : res (R * list (option R)) :=
  letr p := Planet observer in
  let n := target_direction eph p target observer in
  letr ds := mapr (fun i =>
      match nth_error orbit i with
      | Some a => Ok (leto n := n in Some (fst (orbiter_sees n a)))
      | None => Err IndexError
      end) (seq 0 num_points) in
  Ok (target_range eph target observer, ds).
