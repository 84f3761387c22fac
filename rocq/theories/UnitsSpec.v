(** Independent vocabulary for C117: what is assumed of the machine's constants, and how a deviation is measured. *)
Require Import Verif.Base.
Local Open Scope R_scope.

(** [pi] is the machine's number for pi, [milli] its number for 0.001; neither needs to be exact. *)
Record constants (e pi milli : R) : Prop := mkConstants {
  co_pi : 3 <= pi <= 4;
  co_milli : Rabs (milli - / 1000) <= e * / 1000 }.
(** [y] is [x] up to [k] roundings, measured against the size of [x] plus [f]. *)
Definition off (e : R) (k : nat) (f x y : R) : Prop := Rabs (y - x) <= ((1 + e) ^ k - 1) * (Rabs x + f).
