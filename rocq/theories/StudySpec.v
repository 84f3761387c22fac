(** Specification side of the properties about several campaigns. *)
From Coq Require Import String List.
Require Import Verif.Base Verif.TrajectoryModel Verif.GuidanceModel Verif.MonteModel Verif.MonteSpec Verif.MonteProofs Verif.StudyModel.
Local Open Scope list_scope.

(** A campaign that can be called: its main folder has a name, and whatever a propagation at a NaN bank angle
    does, it keeps the vehicle. *)
Definition callable (c : campaign) : Prop := cp_main c <> [] /\ nan_keeps (w_X (cp_world c)).
(** The outcome of run [j] of a campaign, flown on its own. *)
Definition outcome (c : campaign) (j : nat) :=
  flown_alone (cp_mode c) (cp_world c) (cp_setup c) (cp_rnd c) (ob_veh (v_obj (cp_mem c))) (ob_tol (v_obj (cp_mem c))) j.

(** Neither folder lies in the other, nor are they the same. *)
Definition apart (a b : path) : Prop := (forall r, a <> b ++ r) /\ (forall r, b <> a ++ r).
(** No two of the campaigns share a folder, nor does one write inside another's. *)
Definition all_apart (cs : list campaign) : Prop := forall i j c d, i <> j -> nth_error cs i = Some c -> nth_error cs j = Some d -> apart (cp_main c) (cp_main d).
(** The folder that is to hold the main folder exists, and the main folder does not. *)
Definition can_start (F : fs) (c : campaign) : Prop :=
  F (cp_main c) = None /\ forall t x r, cp_main c = t ++ x :: r -> F t = Some Dir.
(** The process has nothing more to do on disk. *)
Definition ended (P : proc) : Prop := pr_exn P <> None \/ (pr_todo P = [] /\ pr_pend P = []).
