(** Linear table lookup as the machine computes it: the same text as Numpy.interp1d with a rounding after every operation.
    scipy 1.17.1 hands linear interpolation without extrapolation to numpy.interp; numpy 2.4.2 returns the tabulated value at
    a tabulated abscissa and evaluates slope*(x - x0) + y0 elsewhere.  Used at launcher.py:37, planet.py:305-308 (linear
    kind), 1045, 1088, vehicle.py:713, 4502, 4514.  Simplified: numbers too large for the machine are left out, and so are
    compilers that fuse the product and the sum. *)
From Coq Require Import List.
Require Import Verif.Base Verif.Numpy Verif.PlanetModel.

(** Between the rows [p] and [q]. *)
Definition lin_r (rnd : R -> R) (p q : R * R) (x : R) : R :=
  rnd (rnd (rnd (rnd (snd q - snd p) / rnd (fst q - fst p)) * rnd (x - fst p)) + snd p).
(** numpy.interp on a sorted table, for queries not left of the first abscissa. *)
Fixpoint interp_sorted_r (rnd : R -> R) (t : table) (x : R) : R :=
  match t with
  | [] => 0
  | p :: t' =>
      match t' with
      | [] => snd p
      | q :: _ => if Rltb x (fst q) then (if Reqb x (fst p) then snd p else lin_r rnd p q x) else interp_sorted_r rnd t' x
      end
  end.
Definition interp1d_r (rnd : R -> R) (t : table) (lo hi : R) (x : R) : res R :=
  match sort_rows t with
  | [] => Err ValueError
  | (p :: _) as s => Ok (if Rltb x (fst p) then lo else if Rltb (last_x s) x then hi else interp_sorted_r rnd s x)
  end.
(** Planet.density, planet.py:310-344, with such a table. *)
Definition density_r (rnd : R -> R) (p : planet) (t : table) (h : R) : R :=
  density p (fun x => match interp1d_r rnd t 0 0 x with Ok y => y | Err _ => 0 end) h.
