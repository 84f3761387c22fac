(** Model of /repo/AMAT/launcher.py and of the computations in /repo/AMAT/interplanetary.py. *)
Require Import Verif.Base Verif.Numpy.

(** Launcher.launchMass, launcher.py:37 and 55: linear table, fill 0 on both sides. *)
Definition launchMass (XY : table) (C3 : R) : res R := interp1d XY 0 0 C3.

(** Map that stops at the first exception. *)
Fixpoint mapr {A B} (f : A -> res B) (l : list A) : res (list B) :=
  match l with
  | [] => Ok []
  | a :: l' => letr b := f a in letr bs := mapr f l' in Ok (b :: bs)
  end.

(** Interplanetary.compute_launch_capability, interplanetary.py:62-74. *)
Definition compute_launch_capability (XY : table) (C3s : list R) : res (list R) := mapr (launchMass XY) C3s.

(** sorted(set(l)): insertion into a strictly sorted list. *)
Fixpoint insert_set (x : R) (l : list R) : list R :=
  match l with
  | [] => [x]
  | y :: l' => if Rltb x y then x :: l else if Reqb x y then l else y :: insert_set x l'
  end.
Fixpoint sorted_set (l : list R) : list R :=
  match l with [] => [] | x :: l' => insert_set x (sorted_set l') end.

(** Lower axis limit before subtracting 100: max(0, sorted(set(Lcmass))[1]),
    interplanetary.py:103, 252, 317, 387. *)
Definition axis_floor (masses : list R) : res R :=
  match sorted_set masses with
  | _ :: y :: _ => Ok (Rmax 0 y)
  | _ => Err IndexError
  end.
