(** Independent vocabulary for C128: what a reported quantity is along the true flight, and its peak. *)
From Coq Require Import List.
Require Import Verif.Base Verif.PlanetModel Verif.AeroModel Verif.TrajectoryModel Verif.HeatIntSpec.
Local Open Scope R_scope.

(** Total stagnation-point heating (W/cm^2), net load and drag load (Earth g), dynamic pressure (atm), depth (minus the altitude, km). *)
Inductive gauge := Heat | Load | DragLoad | Pressure | Depth.
(** What the stored flight says at point [k]. *)
Definition reads (f : flight) (g : gauge) (k : nat) : option R :=
  match g with
  | Heat => nth k (f_qtot f) None
  | Load => nth k (f_acc_net f) None
  | DragLoad => nth k (f_acc_drag f) None
  | Pressure => Some (nth k (f_dyn f) 0)
  | Depth => Some (- nth k (p_h (f_plot f)) 0)
  end.
(** What it is in state [x] with bank angle [delta]; the code's net load is not a number where its radicand is negative. *)
Definition truth (V : vehicle) (delta : R) (g : gauge) (x : state) : option R :=
  let p := vh_planet V in let h := RP p * s_r x - RP p in let v := Vref p * s_v x in
  let q := density_int (vh_atm V) h * v * v / 2 in let drag := q * vh_A V * vh_CD V / vh_mass V in let lift := q * vh_A V * vh_CL V / vh_mass V in
  let rad := drag * drag + (lift * cos delta) * (lift * cos delta) + 2 * (lift * sin delta) in
  match g with
  | Heat => heat_rate V x
  | Load => if Rle_dec 0 rad then Some (sqrt rad / 9.80665) else None
  | DragLoad => Some (Rabs drag / 9.80665)
  | Pressure => Some (q / 101325)
  | Depth => Some (- (h / 1000))
  end.
(** [M] is the highest value along [y] up to [T], taken at [t0]. *)
Definition peak (V : vehicle) (delta : R) (g : gauge) (y : R -> state) (T t0 M : R) : Prop :=
  0 <= t0 <= T /\ truth V delta g (y t0) = Some M /\ forall t m, 0 <= t <= T -> truth V delta g (y t) = Some m -> m <= M.
(** The peak is not at a jump of the radiative heating law, nor at a net load of zero. *)
Definition plain_peak (V : vehicle) (g : gauge) (x : state) (M : R) : Prop :=
  match g with Heat => ~ In (Vref (vh_planet V) * s_v x) (heat_breaks (ID (vh_planet V))) | Load => 0 < M | _ => True end.
