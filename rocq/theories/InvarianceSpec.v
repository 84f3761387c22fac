(** Comparing two propagations, field by field of what they store. *)
Require Import Verif.Base Verif.TrajectoryModel.

(** The same trajectory: cut index, exit flag, SI and plotted channels. *)
Definition same_path (f g : flight) : Prop :=
  f_index f = f_index g /\ f_exitflag f = f_exitflag g /\ f_si f = f_si g /\ f_plot f = f_plot g.
(** The same deceleration loads and dynamic pressure. *)
Definition same_loads (f g : flight) : Prop :=
  f_acc_net f = f_acc_net g /\ f_acc_drag f = f_acc_drag g /\ f_dyn f = f_dyn g.
(** The same heating rates. *)
Definition same_heating (f g : flight) : Prop :=
  f_qcon f = f_qcon g /\ f_qrad f = f_qrad g /\ f_qtot f = f_qtot g.

(** Two calls with the same outcome (returned, or the same exception), whose stored flights, if any, are related. *)
Definition same_outcome (P : flight -> flight -> Prop) (a b : vobj * res unit) : Prop :=
  snd a = snd b /\
  match ob_flight (fst a), ob_flight (fst b) with
  | Some f, Some g => P f g
  | None, None => True
  | _, _ => False
  end.
