(** What a plotted trajectory array must be: no definition of the model is used. *)
From Coq Require Import List.
Require Import Verif.Base Verif.ConicSpec.
Import ListNotations.
Local Open Scope R_scope.

(** [l] lists [n] points of the curve [f], in units of [R0], at arguments evenly spaced from [a] to [b]:
    point [k] times [R0] is the point of the curve, and it is missing (NaN) exactly when the curve has no
    point there. *)
Definition samples (R0 : R) (f : R -> option vec) (a b : R) (n : nat) (l : list (option vec)) : Prop :=
  length l = n /\
  forall k, (k < n)%nat ->
    match nth k l None, f (a + INR k * ((b - a) / INR (n - 1))) with
    | Some q, Some r => vscale R0 q = r
    | None, None => True
    | _, _ => False
    end.

(** The distance of a plotted point, in metres. *)
Definition plotted_distance (R0 : R) (l : list (option vec)) (k : nat) (d : R) : Prop :=
  exists q, nth k l None = Some q /\ R0 * norm q = d.

(** The first and the last plotted points coincide: the curve is drawn closed. *)
Definition closed_curve (l : list (option vec)) : Prop := hd None l = last l None.
