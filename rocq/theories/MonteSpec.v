(** What a Monte Carlo campaign has to leave on disk, independently of how the model writes it. *)
From Coq Require Import String List.
Require Import Verif.Base Verif.Numpy Verif.PlanetModel Verif.AeroModel Verif.HeatModel Verif.TrajectoryModel
  Verif.OrbitScalarModel Verif.OrbiterModel Verif.OrbitModel Verif.CorridorModel Verif.GuidanceModel Verif.DragModel Verif.MonteModel.
Local Open Scope R_scope.
Local Open Scope list_scope.

(** A run flown on its own: run number [i] (counted from 0) of the campaign, by a new object for the vehicle
    [V], with nothing left over from another flight. *)
Definition flown_alone (m : mode) (W : world) (S : mc_setup) (rnd : random) (V : vehicle) (tol : R) (i : nat) : option (res (draw * mc_result)) :=
  snd (mc_run m W S rnd i (mkMem (mkObj V (mc_copy S) tol None None) [])).
(** Two runs with the same outcome but for the recorded lift-to-drag ratio. *)
Definition same_but_LD (x y : option (res (draw * mc_result))) : Prop :=
  match x, y with
  | None, None => True
  | Some (Err e), Some (Err e') => e = e'
  | Some (Ok (d, q)), Some (Ok (d', q')) => q = q' /\ d_file d = d_file d' /\ d_profile d = d_profile d' /\ d_efpa d = d_efpa d' /\ d_sigma d = d_sigma d'
  | _, _ => False
  end.

(** Run number [j] is stored in the folder named # and its number counted from 1. *)
Definition folder (main : path) (j : nat) : path := main ++ [String.append "#" (str (j + 1))].
Definition run_table (d : draw) (q : mc_result) : list (string * content) :=
  [("atmfile.txt"%string, Names [d_file d]);
   ("profile.txt"%string, Nums [Some (INR (d_profile d))]);
   ("efpa.txt"%string, Nums [Some (d_efpa d)]);
   ("atmSigma.txt"%string, Nums [Some (d_sigma d)]);
   ("LD.txt"%string, Nums [Some (d_LD d)]);
   ("terminal_apoapsis.txt"%string, Nums [r_apo (q_rep q)]);
   ("apoapsis_error.txt"%string, Nums [r_perc (q_rep q)]);
   ("terminal_periapsis.txt"%string, Nums [r_peri (q_rep q)]);
   ("periapsis_raise_DV.txt"%string, Nums [r_DVperi (q_rep q)]);
   ("apoapsis_raise_DV.txt"%string, Nums [r_DVapo (q_rep q)])].
Definition summary_table : list (string * (mc_result -> option R)) :=
  [("terminal_apoapsis_arr.txt"%string, fun q => r_apo (q_rep q));
   ("terminal_periapsis_arr.txt"%string, fun q => r_peri (q_rep q));
   ("periapsis_raise_DV_arr.txt"%string, fun q => r_DVperi (q_rep q));
   ("apoapsis_raise_DV_arr.txt"%string, fun q => r_DVapo (q_rep q));
   ("acc_net_g_max_arr.txt"%string, q_acc); ("q_stag_max_arr.txt"%string, q_q); ("heatload_max_arr.txt"%string, q_heat)].
(** The values of the finished runs, then zeros, [N] numbers in all. *)
Definition column (N : nat) (f : mc_result -> option R) (xs : list (draw * mc_result)) : content :=
  Nums (map (fun x => f (snd x)) xs ++ repeat (Some 0) (N - length xs)).
Definition stored (F : fs) (main : path) (j : nat) (x : draw * mc_result) : Prop :=
  F (folder main j) = Some Dir /\ forall n c, In (n, c) (run_table (fst x) (snd x)) -> F (folder main j ++ [n]) = Some (File c).
(** A file whose writing has begun and not ended. *)
Definition half_written (F : fs) (p : path) : Prop := exists c, F p = Some (Torn c).
(** Nothing lies under a path that does not exist. *)
Definition sane (F : fs) : Prop := forall p r, F p = None -> F (p ++ r) = None.

(** Setups that differ in the numbers for LD and for the ballistic coefficient only. *)
Definition with_LD (S : mc_setup) (LD beta1 : R * R) : mc_setup :=
  mkMC (mc_npos S) (mc_nmonte S) (mc_files S) (col_height S) (col_low S) (col_avg S) (col_high S) (col_sd S) (col_total S) (mc_km S)
    (mc_efpa S) LD beta1 (mc_sigma S) (mc_copy S) (mc_stepEntry S) (mc_stepExit S) (mc_dt S) (mc_maxTime S).
(** Random sources that differ in the third normal number of each run only. *)
Definition same_but_third (rnd rnd' : random) : Prop :=
  (forall j, py rnd j = py rnd' j) /\ forall i k, (k < 2)%nat -> nz rnd (3 * i + k) = nz rnd' (3 * i + k).
(** File systems that differ in the contents of the files LD.txt of the runs only. *)
Definition same_kind (a b : option node) : Prop :=
  match a, b with Some (File _), Some (File _) => True | Some (Torn _), Some (Torn _) => True | _, _ => False end.
Definition same_files_but_LD (main : path) (F F' : fs) : Prop :=
  forall p, F p = F' p \/ (exists j, p = folder main j ++ ["LD.txt"%string]) /\ same_kind (F p) (F' p).
