(** The parts of numpy 2.4 / scipy 1.17 that the code calls, on lists of reals.
    These are models of library calls (versions from /repo/uv.lock), not of /repo code;
    each cites the calls in /repo it stands for.  Simplification: exact reals for floats. *)
Require Import Verif.Base.

(** numpy.linspace(a, b, n): planet.py:837 (scaleHeight), telecom.py:289, visibility.py:194-195.
    step = (b-a)/(n-1); start + arange(n)*step, last entry set to [b] when n > 1. *)
Definition linspace (a b : R) (n : nat) : list R :=
  match n with
  | O => []
  | S O => [a]
  | S m => map (fun i => a + INR i * ((b - a) / INR m)) (seq 0 m) ++ [b]
  end.

(** numpy.arange(n)-style diff: np.diff. *)
Fixpoint diff (l : list R) : list R :=
  match l with
  | a :: ((b :: _) as t) => (b - a) :: diff t
  | _ => []
  end.

(** Running trapezoid sums after the first point. *)
Fixpoint trapz_from (acc y0 x0 : R) (ys xs : list R) : list R :=
  match ys, xs with
  | y1 :: ys', x1 :: xs' =>
      let acc' := acc + (x1 - x0) * (y0 + y1) / 2 in
      acc' :: trapz_from acc' y1 x1 ys' xs'
  | _, _ => []
  end.

(** scipy.integrate.cumulative_trapezoid(y, x, initial=init), SciPy 1.17:
    empty y, mismatching lengths, and non-zero [init] raise ValueError.
    Calls: telecom.py:271, planet.py:841, vehicle.py:2515, 2602, 2786, 2943. *)
Definition cumtrapz (y x : list R) (init : R) : res (list R) :=
  match y, x with
  | [], _ => Err ValueError
  | y0 :: ys, [] => Err ValueError
  | y0 :: ys, x0 :: xs =>
      if negb (Nat.eqb (length ys) (length xs)) then Err ValueError
      else if negb (Reqb init 0) then Err ValueError
      else Ok (0 :: trapz_from 0 y0 x0 ys xs)
  end.

(** A two-column table: (abscissa, ordinate) rows, as read by np.loadtxt. *)
Definition table := list (R * R).

(** interp1d sorts its abscissae with a stable sort (assume_sorted=False). *)
Fixpoint insert_row (p : R * R) (t : table) : table :=
  match t with
  | [] => [p]
  | q :: t' => if Rleb (fst p) (fst q) then p :: t else q :: insert_row p t'
  end.
Fixpoint sort_rows (t : table) : table :=
  match t with
  | [] => []
  | p :: t' => insert_row p (sort_rows t')
  end.

(** numpy.interp on a sorted table, for queries not left of the first abscissa. *)
Fixpoint interp_sorted (t : table) (x : R) : R :=
  match t with
  | [] => 0
  | (x0, y0) :: t' =>
      match t' with
      | [] => y0
      | (x1, y1) :: _ =>
          if Rltb x x1 then (y1 - y0) / (x1 - x0) * (x - x0) + y0 else interp_sorted t' x
      end
  end.

Definition last_x (t : table) : R := fst (last t (0, 0)).

(** scipy interp1d(x, y, kind='linear', bounds_error=False, fill_value=(lo,hi)) applied to a query:
    launcher.py:37, planet.py:1044, 1087, vehicle.py:751, 4517.
    An empty table raises ValueError (at construction in SciPy; here at the query). *)
Definition interp1d (t : table) (lo hi : R) (x : R) : res R :=
  match sort_rows t with
  | [] => Err ValueError
  | ((x0, _) :: _) as s =>
      Ok (if Rltb x x0 then lo else if Rltb (last_x s) x then hi else interp_sorted s x)
  end.

(** np.argmax of a boolean array: index of the first True, 0 if there is none
    (vehicle.py:1972, 1988; raises ValueError on an empty array). *)
Fixpoint first_true (l : list bool) : option nat :=
  match l with
  | [] => None
  | true :: _ => Some 0%nat
  | false :: l' => option_map S (first_true l')
  end.
Definition argmax_bool (l : list bool) : nat :=
  match first_true l with Some i => i | None => 0%nat end.

(** Python max/min of a non-empty list. *)
Fixpoint list_max (l : list R) : R :=
  match l with [] => 0 | x :: [] => x | x :: l' => Rmax x (list_max l') end.
Fixpoint list_min (l : list R) : R :=
  match l with [] => 0 | x :: [] => x | x :: l' => Rmin x (list_min l') end.
