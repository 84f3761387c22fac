(** Specification side of the figures: words used in the statements of C120. *)
From Coq Require Import String List.
Require Import Verif.Base Verif.PlanetModel Verif.AeroModel Verif.TrajectoryModel Verif.GuidanceModel Verif.FigureModel.
Local Open Scope R_scope.
Open Scope string_scope.

(** The panel has these labels and exactly [n] points; point [k] is (x k, y k). *)
Definition plots (pn : panel) (xl yl : string) (n : nat) (x y : nat -> option R) : Prop :=
  pn_xlabel pn = xl /\ pn_ylabel pn = yl /\ length (pn_points pn) = n /\
  forall k, (k < n)%nat -> nth_error (pn_points pn) k = Some (x k, y k).

(** The four panels show flight [f] around planet [p]: altitude, speed, load and heating rate over time. *)
Definition entry_figure (p : planet) (f : flight) (ps : list panel) : Prop :=
  let n := f_index f in let time k := Some (nth k (c_t (f_si f)) 0 / 60) in
  exists a b c d, ps = [a; b; c; d] /\
    plots a "Time, min" "Altitude, km" n time (fun k => Some ((nth k (c_r (f_si f)) 0 - RP p) / 1000)) /\
    plots b "Time, min" "Velocity (km/s)" n time (fun k => Some (nth k (c_v (f_si f)) 0 / 1000)) /\
    plots c "Time, min" "Deceleration (Earth g)" n time (fun k => nth k (f_acc_net f) None) /\
    plots d "Time, min" "Stag. point heat-rate (W/cm2)" n time (fun k => nth k (f_qtot f) None).

(** Flight [f] is what one of the two integrations gives for some vehicle at planet [p] from some initial state. *)
Definition really_flown (E : engine) (p : planet) (f : flight) : Prop :=
  exists (two : bool) V tol i t_sec dt delta, vh_planet V = p /\
    fly (if two then solveTrajectory2 E else solveTrajectory E) V tol i t_sec dt delta = Ok f.

(** A point lies within the limits of the axes of createQPlot. *)
Definition visible (q : qplot) (x y : R) : Prop := fst (qp_xlim q) <= x <= snd (qp_xlim q) /\ fst (qp_ylim q) <= y <= snd (qp_ylim q).

(** Flight [f] is only the end of the trajectory [H] that a guided entry has put together: before it come the points
    [bt] ([bh], [bv], [bn], [bq] in the other channels), and its clock is [T] minutes behind. *)
Definition only_the_end (H : hist) (f : flight) (bt : list R) (T : R) : Prop :=
  let q := y_plot H in
  exists bh bv bn bq, length bh = length bt /\ length bv = length bt /\ length bn = length bt /\ length bq = length bt /\
    (p_t q = bt ++ map (fun t => t + T) (p_t (f_plot f)) /\ p_h q = bh ++ p_h (f_plot f) /\ p_v q = bv ++ p_v (f_plot f) /\
    y_net H = bn ++ f_acc_net f /\ y_qtot H = bq ++ f_qtot f)%list.
