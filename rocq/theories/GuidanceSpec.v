(** Independent vocabulary for the guidance properties. *)
From Coq Require Import ZArith.
Require Import Verif.Base Verif.GuidanceModel.

(** The bank angle after a history of commands (oldest first), one control cycle each. *)
Definition bank_after (rate timestep b : R) (cmds : list R) : R := fold_left (fun x c => psuedoController rate c x timestep) cmds b.
(** [x] is [b] plus a whole number of steps. *)
Definition on_lattice (step b x : R) : Prop := exists k : Z, x = b + IZR k * step.
(** Clamp to [-1, 1]. *)
Definition clamp1 (x : R) : R := Rmax (-1) (Rmin 1 x).

(** [passes body k s s']: [k] passes of a loop body, none of which raised or left the loop, lead from [s] to [s']. *)
Inductive passes (body : gst -> gst * res bool) : nat -> gst -> gst -> Prop :=
| passes_0 : forall s, passes body 0 s s
| passes_S : forall k s s1 s2, passes body k s s1 -> body s1 = (s2, Ok false) -> passes body (S k) s s2.
(** The same, the last pass possibly leaving the loop. *)
Definition passes_or_break (body : gst -> gst * res bool) (k : nat) (s s' : gst) : Prop :=
  passes body k s s' \/ exists j s1, k = S j /\ passes body j s s1 /\ body s1 = (s', Ok true).

(** Non-decreasing lists. *)
Definition nondec (l : list R) : Prop := forall i j, (i <= j)%nat -> (j < length l)%nat -> nth i l 0 <= nth j l 0.
(** The bank angle, in whole steps, after [m] cycles commanded to zero: it moves one step at a time and stays there. *)
Definition toward_zero (k : Z) (m : nat) : Z := if (0 <=? k)%Z then Z.max 0 (k - Z.of_nat m) else Z.min 0 (k + Z.of_nat m).
