(** What is assumed of floating-point arithmetic where rounding matters: no definition of the model is used. *)
Require Import Verif.Base.

(** [rnd] rounds a real number to a number of the machine: larger numbers are not rounded lower, numbers of the
    machine are kept, the double of a number of the machine is one too, and numbers of size at most [M] are moved by at
    most [u]. *)
Record rounding (rnd : R -> R) (u M : R) : Prop := mkRounding {
  rd_mono : forall x y, x <= y -> rnd x <= rnd y;
  rd_keep : forall x, rnd (rnd x) = rnd x;
  rd_twice : forall x, rnd x = x -> rnd (2 * x) = 2 * x;
  rd_err : forall x, Rabs x <= M -> Rabs (rnd x - x) <= u }.
(** [x] is a number of the machine. *)
Definition machine (rnd : R -> R) (x : R) : Prop := rnd x = x.
(** Different numbers of the machine within [a, b] are at least [d] apart. *)
Definition spaced (rnd : R -> R) (a b d : R) : Prop :=
  forall x y, machine rnd x -> machine rnd y -> a <= x <= b -> a <= y <= b -> x <> y -> d <= Rabs (x - y).
(** Away from zero ([m] is the smallest normal number) the rounding error is at most [e] times the number, and
    zero is kept. *)
Record relative (rnd : R -> R) (e m : R) : Prop := mkRelative {
  rl_zero : rnd 0 = 0;
  rl_err : forall x, m <= Rabs x -> Rabs (rnd x - x) <= e * Rabs x }.
