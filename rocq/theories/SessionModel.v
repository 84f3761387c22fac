(** Model of a session: any sequence of public calls on one Vehicle object of /repo/AMAT/vehicle.py.
    Simplifications: guided flights, Monte Carlo campaigns and plotting are not requests here; the copies
    h0_km_ref .. heatLoad0_ref that setInitialState also stores (vehicle.py:556-563) are left out, as
    only Monte Carlo campaigns read them. *)
From Coq Require Import String List.
Require Import Verif.Base Verif.Numpy Verif.PlanetModel Verif.AeroModel Verif.HeatModel Verif.TrajectoryModel Verif.OrbitScalarModel Verif.OrbiterModel Verif.CorridorModel.

(** The object together with beta1 and betaRatio, vehicle.py:427-428. *)
Record sess := mkSess { se_obj : vobj; se_dm : dm_params }.

(** Public calls with their arguments; the boolean picks the version whose name ends in 2. *)
Inductive req :=
| SetInitialState (i : init)
| SetSolverParams (tol : R)
| SetDragModulationVehicleParams (beta1 ratio : R)
| PropogateEntry (two : bool) (t dt delta : R)
| IsCaptured (t dt delta : R)
| HitsTargetApoapsis (two : bool) (t dt delta target : R)
| FindOverShootLimit (two : bool) (t dt low high tol target : R)
| FindUnderShootLimit (two : bool) (t dt low high tol target : R)
| ComputeTCW (two : bool) (t dt low_os high_os low_us high_us tol_os tol_us target : R)
| FindEFPALimitD (two : bool) (t dt low high tol target : R)
| FindUnderShootLimitD (two : bool) (t dt low high tol target : R)
| FindOverShootLimitD (two : bool) (t dt low high tol target : R)
| ComputeTCWD (two : bool) (t dt low high tol target : R)
| ComputeHeatingForMultipleRN (tc rc vc rns : list R).

(** What a call returns: nothing, a number, (limit, exit flag), or the two arrays of the nose-radius sweep. *)
Inductive ans :=
| Nothing
| Number (x : R)
| Limit (x : R * R)
| Rows (x : list (option R * option R)).

(** Wrapping of results. *)
Definition rmap {A B} (f : A -> B) (r : res A) : res B := match r with Ok a => Ok (f a) | Err e => Err e end.
Definition upd {A} (s : sess) (f : A -> ans) (q : vobj * res A) : option (sess * res ans) :=
  Some (mkSess (fst q) (se_dm s), rmap f (snd q)).
Definition updo {A} (s : sess) (f : A -> ans) (q : option (vobj * res A)) : option (sess * res ans) :=
  match q with None => None | Some q => upd s f q end.

(** One call; None means that a search has not ended within [fuel] rounds.
    setInitialState vehicle.py:547-554, setSolverParams 576, setDragModulationVehicleParams 3756-3757;
    the others are the functions of TrajectoryModel.v and CorridorModel.v. *)
Definition serve (E : engine) (fuel : nat) (c : req) (s : sess) : option (sess * res ans) :=
  let o := se_obj s in let dm := se_dm s in
  match c with
  | SetInitialState i => Some (mkSess (mkObj (ob_veh o) i (ob_tol o) (ob_flight o) (ob_heat o)) dm, Ok Nothing)
  | SetSolverParams tol => Some (mkSess (mkObj (ob_veh o) (ob_init o) tol (ob_flight o) (ob_heat o)) dm, Ok Nothing)
  | SetDragModulationVehicleParams b r => Some (mkSess o (Some (b, r)), Ok Nothing)
  | PropogateEntry two t dt d => upd s (fun _ => Nothing) ((if two then propogateEntry2 else propogateEntry) E o t dt d)
  | IsCaptured t dt d => upd s Number (isCaptured E o t dt d)
  | HitsTargetApoapsis two t dt d x => upd s Number ((if two then hitsTargetApoapsis2 else hitsTargetApoapsis) E o t dt d x)
  | FindOverShootLimit two t dt l h tol x => updo s Limit ((if two then findOverShootLimit2 else findOverShootLimit) E fuel o t dt l h tol x)
  | FindUnderShootLimit two t dt l h tol x => updo s Limit ((if two then findUnderShootLimit2 else findUnderShootLimit) E fuel o t dt l h tol x)
  | ComputeTCW two t dt lo ho lu hu to tu x => updo s Number ((if two then computeTCW2 else computeTCW) E fuel o t dt lo ho lu hu to tu x)
  | FindEFPALimitD two t dt l h tol x => updo s Limit ((if two then findEFPALimitD2 else findEFPALimitD) E fuel o t dt l h tol x)
  | FindUnderShootLimitD two t dt l h tol x => updo s Limit ((if two then findUnderShootLimitD2 else findUnderShootLimitD) E fuel dm o t dt l h tol x)
  | FindOverShootLimitD two t dt l h tol x => updo s Limit ((if two then findOverShootLimitD2 else findOverShootLimitD) E fuel dm o t dt l h tol x)
  | ComputeTCWD two t dt l h tol x => updo s Number ((if two then computeTCWD2 else computeTCWD) E fuel dm o t dt l h tol x)
  | ComputeHeatingForMultipleRN tc rc vc rns =>
      let q := computeHeatingForMultipleRN (ob_veh o) tc rc vc rns in upd s Rows (set_veh o (fst q), snd q)
  end.

(** A session: the calls in order, with the list of what each returned or raised; the caller goes on after
    an exception. *)
Fixpoint run (E : engine) (fuel : nat) (l : list req) (s : sess) : option (sess * list (res ans)) :=
  match l with
  | [] => Some (s, [])
  | c :: l =>
      match serve E fuel c s with
      | None => None
      | Some (s, a) => match run E fuel l s with None => None | Some (s, as_) => Some (s, a :: as_) end
      end
  end.
