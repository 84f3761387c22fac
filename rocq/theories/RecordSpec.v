(** Independent vocabulary for what a Monte Carlo run records. *)
From Coq Require Import List.
Require Import Verif.Base.

(** [None] is NaN.  The recorded maximum [m] of a history: NaN exactly when the history starts with NaN, and
    otherwise the greatest of its numbers, NaN entries left out. *)
Definition recorded_max (l : list (option R)) (m : option R) : Prop :=
  match l with
  | [] => False
  | None :: _ => m = None
  | Some _ :: _ => exists x, m = Some x /\ In (Some x) l /\ forall y, In (Some y) l -> y <= x
  end.
(** The integral of [q] over the times [t] from point 0 to point [k] by trapezoids; NaN if it meets one. *)
Fixpoint load_upto (q : list (option R)) (t : list R) (k : nat) : option R :=
  match k with
  | O => Some 0
  | S j => match load_upto q t j, nth j q None, nth (S j) q None with
           | Some a, Some x, Some y => Some (a + (nth (S j) t 0 - nth j t 0) * (x + y) / 2)
           | _, _, _ => None
           end
  end.
