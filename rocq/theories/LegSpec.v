(** Independent vocabulary for C103: a guided flight as a chain of plain flights. *)
From Coq Require Import List.
Require Import Verif.Base Verif.Numpy Verif.AeroModel Verif.HeatModel Verif.TrajectoryModel Verif.GuidanceModel.
Local Open Scope R_scope.

(** One leg: where it starts, how many seconds are asked for, at which bank angle ([None]: NaN), and what came out of it. *)
Record leg := mkLeg { lg_init : init; lg_secs : R; lg_bank : option R; lg_flight : flight; lg_heat : list (option R) }.

(** The leg is what the public propagation method (version 1 or 2) leaves on a fresh vehicle started there. *)
Definition plain_leg (two : bool) (E : engine) (V : vehicle) (tol dt : R) (l : leg) : Prop :=
  forall d, lg_bank l = Some d -> exists o,
    (if two then propogateEntry2 else propogateEntry) E (mkObj V (lg_init l) tol None None) (lg_secs l) dt d = (o, Ok tt) /\
    ob_flight o = Some (lg_flight l) /\ ob_heat o = Some (lg_heat l).

(** The next leg starts where the previous one ended. *)
Definition continues (l m : leg) : Prop :=
  let q := f_plot (lg_flight l) in let i := lg_init m in
  h0_km i = last (p_h q) 0 /\ theta0_deg i = last (p_theta q) 0 /\ phi0_deg i = last (p_phi q) 0 /\ v0_kms i = last (p_v q) 0 /\
  psi0_deg i = last (p_psi q) 0 /\ gamma0_deg i = last (p_gamma q) 0 /\ drange0_km i = last (p_drange q) 0.
Definition chained (L : list leg) : Prop := forall k l m, nth_error L k = Some l -> nth_error L (S k) = Some m -> continues l m.
(** The leg [m] is given the heat load [l] ended with (when that is a number). *)
Definition heat_from (l m : leg) : Prop := forall j, last (lg_heat l) None = Some j -> heatLoad0 (lg_init m) = j.
Definition heat_carried (L : list leg) : Prop := forall k l m, nth_error L k = Some l -> nth_error L (S k) = Some m -> heat_from l m.

(** The clock runs on from leg to leg. *)
Fixpoint clocked (t0 : R) (L : list leg) : list R :=
  match L with
  | [] => []
  | l :: L => let ts := map (fun t => t0 + t) (p_t (f_plot (lg_flight l))) in ts ++ clocked (last ts t0) L
  end.
Definition joined_up {A} (c : flight -> list A) (L : list leg) : list A := flat_map (fun l => c (lg_flight l)) L.
(** A history made of the legs [L], end to end; the drag load only of the legs [D]. *)
Definition made_of (H : hist) (L D : list leg) : Prop :=
  p_t (y_plot H) = clocked 0 L /\
  p_h (y_plot H) = joined_up (fun f => p_h (f_plot f)) L /\ p_v (y_plot H) = joined_up (fun f => p_v (f_plot f)) L /\
  p_phi (y_plot H) = joined_up (fun f => p_phi (f_plot f)) L /\ p_psi (y_plot H) = joined_up (fun f => p_psi (f_plot f)) L /\
  p_theta (y_plot H) = joined_up (fun f => p_theta (f_plot f)) L /\ p_gamma (y_plot H) = joined_up (fun f => p_gamma (f_plot f)) L /\
  p_drange (y_plot H) = joined_up (fun f => p_drange (f_plot f)) L /\
  y_net H = joined_up f_acc_net L /\ y_drag H = joined_up f_acc_drag D /\ y_dyn H = joined_up f_dyn L /\ y_stag H = joined_up f_stag L /\
  y_qtot H = joined_up f_qtot L /\ y_heat H = flat_map lg_heat L.
