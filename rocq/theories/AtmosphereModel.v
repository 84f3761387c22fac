(** Model of Planet.loadAtmosphereModel and the planet object's atmosphere, /repo/AMAT/planet.py:236-308,
    and of the height grid of checkAtmProfiles, planet.py:627-634.
    Simplification: of the module scipy.interpolate an arbitrary pair of functions is kept per kind of
    interpolation: whether interp1d can be built for these heights (it raises for too few points, and for
    repeated heights if the kind is not linear), and the value it returns within the range of heights. *)
From Coq Require Import String List.
Require Import Verif.Base Verif.Numpy Verif.PlanetModel Verif.HeatModel.

(** Values are [None] where they are not finite numbers. *)
Record ikind := mkKind { ik_make : list R -> res unit; ik_value : list (R * option R) -> R -> option R }.
(** kind='linear'; a table with a NaN in it is left to [nanf]. *)
Definition linear (nanf : list (R * option R) -> R -> option R) : ikind :=
  mkKind (fun xs => match xs with [] => Err ValueError | _ => Ok tt end)
    (fun tab x => match all_some (map snd tab) with
                  | Some ys => match interp1d (combine (map fst tab) ys) 0 0 x with Ok y => Some y | Err _ => None end
                  | None => nanf tab x
                  end).

(** interp1d(x, y, kind=.., fill_value=fill, bounds_error=False), planet.py:305-308, as a function of the query. *)
Definition interpolant (K : ikind) (xs : list R) (ys : list (option R)) (fill x : R) : option R :=
  if Rltb x (list_min xs) || Rltb (list_max xs) x then Some fill else ik_value K (combine xs ys) x.

(** The attributes, planet.py:236-245; None before the first load. *)
Record planet_obj := mkPlanetObj {
  po_planet : planet; po_ATM : option (list (list R)); po_height : option (list R); po_temp : option (list R);
  po_pressure : option (list R); po_density : option (list R); po_sonic : option (list (option R));
  po_temp_int : option (R -> option R); po_pressure_int : option (R -> option R);
  po_density_int : option (R -> option R); po_sonic_int : option (R -> option R) }.
(** planet.py:236-245 *)
Definition new_planet_obj (p : planet) : planet_obj := mkPlanetObj p None None None None None None None None None None.

(** ATM[:, c] of what loadtxt returned: a table with one row or one column is one-dimensional and cannot be
    indexed twice; negative column numbers count from the right. *)
Definition column (rows : list (list R)) (c : Z) : res (list R) :=
  match rows with
  | [] | [_] => Err IndexError
  | r :: _ =>
      let w := Z.of_nat (length r) in
      if (w <=? 1)%Z then Err IndexError
      else let k := if (c <? 0)%Z then (c + w)%Z else c in
           if (0 <=? k)%Z && (k <? w)%Z then Ok (map (fun row => nth (Z.to_nat k) row 0) rows) else Err IndexError
  end.

(** loadAtmosphereModel, planet.py:276-308.  [file] is the result of np.loadtxt(datfile): rows of equal
    length, or the exception it raises.  Every assignment made before an exception stays. *)
Definition loadAtmosphereModel (K : ikind) (o : planet_obj) (file : res (list (list R))) (heightCol tempCol presCol densCol : Z) (heightInKmFlag : bool)
  : planet_obj * res unit :=
  let '(mkPlanetObj p A h t pr d s ti pi di si) := o in
  match file with
  | Err e => (o, Err e)
  | Ok rows =>
  let A := Some rows in
  match column rows heightCol with
  | Err e => (mkPlanetObj p A h t pr d s ti pi di si, Err e)
  | Ok hc =>
  let hs := atm_height heightInKmFlag hc in
  let h := Some hs in
  match column rows tempCol with
  | Err e => (mkPlanetObj p A h t pr d s ti pi di si, Err e)
  | Ok ts =>
  let t := Some ts in
  match column rows presCol with
  | Err e => (mkPlanetObj p A h t pr d s ti pi di si, Err e)
  | Ok ps =>
  let pr := Some ps in
  match column rows densCol with
  | Err e => (mkPlanetObj p A h t pr d s ti pi di si, Err e)
  | Ok ds =>
  let d := Some ds in
  let ss := map (fun q => atm_sonic p (fst q) (snd q)) (combine ps ds) in
  let s := Some ss in
  match ik_make K hs with
  | Err e => (mkPlanetObj p A h t pr d s ti pi di si, Err e)
  | Ok _ =>
  (mkPlanetObj p A h t pr d s (Some (interpolant K hs (map Some ts) 0)) (Some (interpolant K hs (map Some ps) 0))
     (Some (interpolant K hs (map Some ds) 0)) (Some (interpolant K hs ss 1e20)), Ok tt)
  end end end end end end.

(** h_array of checkAtmProfiles, planet.py:628: h_thres and dh are Python floats, so a zero step raises; so does
    a negative number of points. *)
Definition check_heights (p : planet) (h0 dh : R) : res (list R) :=
  if Reqb dh 0 then Err ZeroDivisionError
  else let n := py_int (h_thres p / dh) in
       if (n <? 0)%Z then Err ValueError else Ok (linspace h0 (h_thres p) (Z.to_nat n)).
(** T_array, P_array, r_array, a_array, planet.py:632-635. *)
Definition checkAtmProfiles (p : planet) (T P D A : R -> R) (h0 dh : R) : res (list R * list R * list R * list R * list R) :=
  letr h := check_heights p h0 dh in Ok (h, tempvectorized T h, presvectorized P h, densityvectorized D h, avectorized A h).
