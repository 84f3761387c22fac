(** Independent vocabulary for C123. *)
From Coq Require Import List ZArith.
From Flocq Require Import Core.
Require Import Verif.Base Verif.RoundSpec Verif.TableSpec Verif.PropRound64.
Local Open Scope R_scope.

(** The rows are numbers of the machine. *)
Definition machine_table (t : list (R * R)) : Prop := forall p, In p t -> machine b64 (fst p) /\ machine b64 (snd p).
(** The abscissae are whole numbers (altitudes in metres), and if some are negative, zero is one of them. *)
Definition whole_metres (t : list (R * R)) : Prop :=
  (forall p, In p t -> exists k, fst p = IZR k /\ (Z.abs k < 2 ^ 53)%Z) /\ ((exists y, In (0, y) t) \/ forall p, In p t -> 0 <= fst p).
(** Neighbouring values are equal, or the slope between them is not so small that the machine loses digits (2^-1021 is about
    4e-308). *)
Definition no_underflow (t : list (R * R)) : Prop := forall p q, adjacent t p q -> snd p = snd q \/ bpow radix2 (-1021) * (fst q - fst p) <= Rabs (snd q - snd p).
Definition decreasing (t : list (R * R)) : Prop := forall p q, In p t -> In q t -> fst p <= fst q -> snd q <= snd p.
(** From one row to the next the value does not fall below half. *)
Definition gentle (t : list (R * R)) : Prop := forall p q, adjacent t p q -> snd p <= 2 * snd q.
