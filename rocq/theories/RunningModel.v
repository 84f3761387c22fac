(** The running totals, the bank angle and the clock of /repo/AMAT as the machine computes them: [rnd] is applied after
    every arithmetic operation.  Numpy.v, GuidanceModel.v have the same text with exact arithmetic. *)
From Coq Require Import List.
Require Import Verif.Base Verif.Numpy Verif.PlanetModel Verif.AeroModel Verif.HeatModel Verif.TrajectoryModel Verif.CorridorModel Verif.GuidanceModel.
Import ListNotations.
Local Open Scope R_scope.

(** cumulative_trapezoid(y, x, initial=init), SciPy 1.17: np.cumsum(np.diff(x) * (y[1:] + y[:-1]) / 2.0), summed from left
    to right.  Called at vehicle.py:2307, 2515, 2602, 5915, 7631 and telecom.py:271.  np.cumsum copies its first entry,
    which is the same as adding it to zero. *)
Fixpoint trapz_from_r (rnd : R -> R) (acc y0 x0 : R) (ys xs : list R) : list R :=
  match ys, xs with
  | y1 :: ys', x1 :: xs' =>
      let acc' := rnd (acc + rnd (rnd (rnd (x1 - x0) * rnd (y0 + y1)) / 2)) in
      acc' :: trapz_from_r rnd acc' y1 x1 ys' xs'
  | _, _ => []
  end.
Definition cumtrapz_r (rnd : R -> R) (y x : list R) (init : R) : res (list R) :=
  match y, x with
  | [], _ => Err ValueError
  | y0 :: ys, [] => Err ValueError
  | y0 :: ys, x0 :: xs =>
      if negb (Nat.eqb (length ys) (length xs)) then Err ValueError
      else if negb (Reqb init 0) then Err ValueError
      else Ok (0 :: trapz_from_r rnd 0 y0 x0 ys xs)
  end.

(** psuedoController, vehicle.py:4556-4574. *)
Definition psuedoController_r (rnd : R -> R) (rate cmd ini timestep : R) : R :=
  let s := np_sign (rnd (cmd - ini)) in
  if Rltb (rnd (rate * timestep)) (Rabs (rnd (cmd - ini))) then rnd (ini + rnd (rnd (s * rate) * timestep))
  else rnd (ini + rnd (rnd (s * rate) * timestep)).
(** Bank angle after a sequence of commands (vehicle.py:4912, 5343). *)
Definition bank_after_r (rnd : R -> R) (rate timestep b : R) (cmds : list R) : R :=
  fold_left (fun b c => psuedoController_r rnd rate c b timestep) cmds b.

(** The clock t_min of a guided flight: the times of each cycle's flight are added to the last time reached
    (vehicle.py:4936, 4952, 5166, 5182, 5368, 5381, 5558, 5571, 6122, 6333). *)
Definition clock_app (rnd : R -> R) (clock leg : list R) : list R := clock ++ map (fun x => rnd (x + last clock 0)) leg.
Definition clock_of (rnd : R -> R) (legs : list (list R)) : list R := fold_left (clock_app rnd) legs [].
