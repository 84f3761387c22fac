(** Independent vocabulary for C115: what is assumed of floating-point arithmetic, and the exact sums. *)
From Coq Require Import List.
Require Import Verif.Base.
Import ListNotations.
Local Open Scope R_scope.

(** [rnd] rounds like a machine without overflow: larger numbers are not rounded lower, numbers of the machine are kept,
    zero and signs are kept, every result is off by at most [e] times itself plus [eta] (underflow), sums of numbers
    of the machine have no underflow error, and halving has no other. *)
Record arithmetic (rnd : R -> R) (e eta : R) : Prop := mkArithmetic {
  ar_e : 0 <= e;
  ar_eta : 0 <= eta;
  ar_mono : forall x y, x <= y -> rnd x <= rnd y;
  ar_keep : forall x, rnd (rnd x) = rnd x;
  ar_neg : forall x, rnd (- x) = - rnd x;
  ar_err : forall x, Rabs (rnd x - x) <= e * Rabs x + eta;
  ar_add : forall x y, rnd x = x -> rnd y = y -> Rabs (rnd (x + y) - (x + y)) <= e * Rabs (x + y);
  ar_half : forall x, rnd x = x -> Rabs (rnd (x / 2) - x / 2) <= eta }.

Fixpoint sum_below (f : nat -> R) (n : nat) : R := match n with O => 0 | S n => sum_below f n + f n end.
(** The integral of [y] over [x] from point 0 to point [k] by trapezoids. *)
Definition trapezoids (y x : list R) (k : nat) : R :=
  sum_below (fun i => (nth (S i) x 0 - nth i x 0) * (nth i y 0 + nth (S i) y 0) / 2) k.
Definition never_falls (l : list R) : Prop := forall j k, (j <= k < length l)%nat -> nth j l 0 <= nth k l 0.
