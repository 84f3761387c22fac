(** Independent vocabulary for C118: what a number is on the machine and what lies on disk, byte by byte. *)
From Coq Require Import String List.
Require Import Verif.Base Verif.RoundSpec Verif.PropRound64 Verif.MonteModel Verif.TextModel.
Local Open Scope list_scope.

(** The number is a finite binary64 number or nan. *)
Definition storable (v : option R) : Prop := forall x, v = Some x -> machine b64 x.
(** The bytes of the file [p]: all of its text if it was closed, some beginning of it if it was still being written. *)
Definition on_disk (F : fs) (p : path) (t : text) : Prop :=
  match F p with
  | Some (File (Nums l)) => t = print_column l
  | Some (Torn (Nums l)) => exists rest, t ++ rest = print_column l
  | _ => False
  end.
(** What a reader of a cut-off column of numbers can be told: an exception, or the right numbers up to some place and at most
    one other number after them, no more numbers in all than there were. *)
Definition cut_reading (l : list (option R)) (r : res (list (option R))) : Prop :=
  r = Err ValueError \/ exists k ys, r = Ok (firstn k l ++ ys) /\ (length ys <= 1)%nat /\ (k + length ys <= length l)%nat.
