(** Model of the Monte Carlo campaigns of /repo/AMAT/vehicle.py (lines 5671-5950, 7295-7776), with the random
    draws, the atmosphere files and the file system.
    Simplifications: the unset attributes of a vehicle without setup are not modelled; the atmosphere files
    are read through an oracle and are not among the files written; printing is not modelled. *)
From Coq Require Import String List Arith DecimalString.
Require Import Verif.Base Verif.Numpy Verif.PlanetModel Verif.AeroModel Verif.HeatModel Verif.TrajectoryModel
  Verif.OrbitScalarModel Verif.OrbiterModel Verif.OrbitModel Verif.CorridorModel Verif.GuidanceModel Verif.DragModel.
Local Open Scope string_scope.
Local Open Scope list_scope.

(** runMonteCarlo, runMonteCarlo2, runMonteCarloD, runMonteCarloD2, runMonteCarloD_Earth. *)
Inductive mode := MC | MC2 | MCD | MCD2 | MCD_Earth.
Definition is_drag (m : mode) : bool := match m with MC | MC2 => false | _ => true end.
Definition is_two (m : mode) : bool := match m with MC2 | MCD2 => true | _ => false end.

(** What setupMonteCarloSimulation (vehicle.py:5716-5739), setupMonteCarloSimulationD (7347-7370) and
    setupMonteCarloSimulationD_Earth (7423-7445) store.  [mc_copy]: the initial state of vehicleCopy, the
    deep copy of the vehicle made at setup.  [mc_beta1]: nominalbeta1 and beta1_1sigma_value.  [col_sd]: the
    column densSD_percCol.  The lift versions have one time step. *)
Record mc_setup := mkMC { mc_npos : nat; mc_nmonte : nat; mc_files : list string;
  col_height : nat; col_low : nat; col_avg : nat; col_high : nat; col_sd : nat; col_total : nat; mc_km : bool;
  mc_efpa : R * R; mc_LD : R * R; mc_beta1 : R * R; mc_sigma : R; mc_copy : init;
  mc_stepEntry : R; mc_stepExit : R; mc_dt : R; mc_maxTime : R }.
Definition setupMonteCarloSimulation (o : vobj) (npos nmonte : nat) (files : list string) (hcol lcol acol hicol tcol : nat) (km : bool)
    (efpa LD : R * R) (timeStep dt maxTime sigmaFactor : R) : mc_setup :=
  mkMC npos nmonte files hcol lcol acol hicol 0 tcol km efpa LD (0, 0) sigmaFactor (ob_init o) timeStep timeStep dt maxTime.
Definition setupMonteCarloSimulationD (o : vobj) (npos nmonte : nat) (files : list string) (hcol lcol acol hicol tcol : nat) (km : bool)
    (efpa beta1 : R * R) (timeStepEntry timeStepExit dt maxTime : R) : mc_setup :=
  mkMC npos nmonte files hcol lcol acol hicol 0 tcol km efpa (0, 0) beta1 1 (ob_init o) timeStepEntry timeStepExit dt maxTime.
Definition setupMonteCarloSimulationD_Earth (o : vobj) (npos nmonte : nat) (files : list string) (hcol acol sdcol tcol : nat) (km : bool)
    (efpa beta1 : R * R) (timeStepEntry timeStepExit dt maxTime : R) : mc_setup :=
  mkMC npos nmonte files hcol 0 acol 0 sdcol tcol km efpa (0, 0) beta1 1 (ob_init o) timeStepEntry timeStepExit dt maxTime.

(** The random sources: successive integers of Python's random, reduced to the range asked for, and
    successive standard normal numbers of NumPy. *)
Record random := mkRandom { py : nat -> nat; nz : nat -> R }.
Definition choice {A} (l : list A) (u : nat) : res A :=
  match nth_error l (u mod (length l)) with Some x => Ok x | None => Err IndexError end.
Definition randint1 (n u : nat) : res nat := if Nat.eqb n 0 then Err ValueError else Ok (1 + u mod n)%nat.
Definition normal (ms : R * R) (z : R) : res R := if Rltb (snd ms) 0 then Err ValueError else Ok (fst ms + snd ms * z).
(** Draws of run [i], vehicle.py:5774-5778, 7482-7491.  A run draws two integers, and three normal numbers
    (lift) or two (drag modulation, where LD is recorded as 0.0). *)
Record draw := mkDraw { d_file : string; d_profile : nat; d_efpa : R; d_sigma : R; d_LD : R }.
Definition draws (m : mode) (S : mc_setup) (rnd : random) (i : nat) : res draw :=
  let k := if is_drag m then 2%nat else 3%nat in
  letr f := choice (mc_files S) (py rnd (2 * i)) in
  letr pr := randint1 (mc_nmonte S) (py rnd (2 * i + 1)) in
  letr e := normal (mc_efpa S) (nz rnd (k * i)) in
  letr s := normal (0, if is_drag m then 1 else mc_sigma S) (nz rnd (k * i + 1)) in
  letr l := (if is_drag m then Ok 0 else normal (mc_LD S) (nz rnd (k * i + 2))) in
  Ok (mkDraw f pr e s l).

(** Column [c] of a table read by numpy.loadtxt: ATM[:, c].  [loadtxt]: an oracle.  Tables of one row or one
    column are squeezed to one dimension, and the index expression raises. *)
Fixpoint collect {A B} (f : A -> res B) (l : list A) : res (list B) :=
  match l with [] => Ok [] | x :: l' => letr y := f x in letr r := collect f l' in Ok (y :: r) end.
Definition entry (row : list R) (c : nat) : res R := match nth_error row c with Some x => Ok x | None => Err IndexError end.
(** loadMonteCarloDensityFile2 and loadMonteCarloDensityFile3, planet.py:886-903, 942-958. *)
Definition load_rows (earth : bool) (S : mc_setup) (loadtxt : string -> res (list (list R))) (file : string) : res (list mcrow) :=
  letr rows := loadtxt file in
  if Nat.leb (length rows) 1 then Err IndexError
  else if forallb (fun r => Nat.leb (length r) 1) rows then Err IndexError
  else collect (fun row =>
    letr h := entry row (col_height S) in
    letr a := entry row (col_avg S) in
    letr t := entry row (col_total S) in
    if earth then letr sd := entry row (col_sd S) in Ok (mc_row_file3 (mc_km S) h a sd t)
    else letr l := entry row (col_low S) in letr u := entry row (col_high S) in Ok (mc_row_file2 (mc_km S) h l a u t)) rows.
(** self.planetObj.density_int = loadAtmosphereModel5(...), vehicle.py:5780-5787, 7493-7501, 7714-7723. *)
Definition load_density (earth : bool) (S : mc_setup) (loadtxt : string -> res (list (list R))) (d : draw) : res (R -> R) :=
  letr rows := load_rows earth S loadtxt (d_file d) in
  letr y := loadAtmosphereModel5 rows (d_sigma d) (mc_npos S) (d_profile d) 0 in
  Ok (fun h => match loadAtmosphereModel5 rows (d_sigma d) (mc_npos S) (d_profile d) h with Ok r => r | Err _ => 0 end).

(** What a run records, vehicle.py:5793-5809, 5900-5915: version 2 integrates the heat load itself and
    divides by 1000. *)
Record mc_result := mkRes { q_rep : report; q_acc : option R; q_q : option R; q_heat : option R }.
Definition mc_read (two : bool) (rep : report) (H : hist) : res mc_result :=
  letr a := pymax (y_net H) in
  letr q := pymax (y_qtot H) in
  letr h := (if two then letr l := ocumtrapz (y_qtot H) (map (fun t => t * 60) (p_t (y_plot H))) 0 in
                         letr x := pymax l in Ok (leto v := x in Some (v / 1e3))
             else pymax (y_heat H)) in
  Ok (mkRes rep a q h).

(** The world of a campaign: integrator, oracles, guidance and drag-modulation parameters, and the bound on
    guidance cycles after which a flight counts as not ending. *)
Record world := mkWorld { w_E : engine; w_X : gext; w_P : gparams; w_dm : dm_params; w_load : string -> res (list (list R)); w_fuel : nat }.
(** The memory of the process that a run uses and changes: the vehicle and the reference array. *)
Record mem := mkMem { v_obj : vobj; v_href : list (option R) }.

(** The computation of run [i], vehicle.py:5774-5809, 5874-5915, 7482-7524, 7588-7631, 7703-7746.  [None]: a
    guidance loop does not end. *)
Definition mc_run (m : mode) (W : world) (S : mc_setup) (rnd : random) (i : nat) (s : mem) : mem * option (res (draw * mc_result)) :=
  match draws m S rnd i with
  | Err e => (s, Some (Err e))
  | Ok d =>
      match load_density (match m with MCD_Earth => true | _ => false end) S (w_load W) d with
      | Err e => (s, Some (Err e))
      | Ok f =>
          let o := v_obj s in let c := mc_copy S in
          let o1 := mkObj (with_density (ob_veh o) f)
                      (mkInit (h0_km c) (theta0_deg c) (phi0_deg c) (v0_kms c) (psi0_deg c) (d_efpa d) (drange0_km c) (heatLoad0 c))
                      (ob_tol o) (ob_flight o) (ob_heat o) in
          match (if is_drag m
                 then propogateGuidedEntryD (is_two m) (w_E W) (w_X W) (w_dm W) (w_P W) (mc_stepEntry S) (mc_stepExit S) (mc_dt S) (mc_maxTime S) (w_fuel W) o1 (v_href s)
                 else propogateGuidedEntry (is_two m) (w_E W) (w_X W) (w_P W) (mc_stepEntry S) (mc_dt S) (mc_maxTime S) (w_fuel W) o1 (v_href s)) with
          | None => (mkMem o1 (v_href s), None)
          | Some (o2, Err e) => (mkMem o2 (v_href s), Some (Err e))
          | Some (o2, Ok (_, s2, rep)) => (mkMem o2 (a_hdotref (s_arr s2)), Some (letr q := mc_read (is_two m) rep (s_hist s2) in Ok (d, q)))
          end
      end
  end.

(** The file system.  A file being written by np.savetxt holds an unspecified beginning of its text ([Torn])
    until it is closed.  Numbers stand for their text: C118 proves that the text that is written determines them. [None] is nan. *)
Definition path := list string.
Inductive content := Nums (l : list (option R)) | Names (l : list string).
Inductive node := Dir | File (c : content) | Torn (c : content).
Definition fs := path -> option node.
Inductive op := Mkdir (p : path) | Open (p : path) (c : content) | Close (p : path) (c : content).
Definition path_dec : forall p q : path, {p = q} + {p <> q} := list_eq_dec string_dec.
Definition put (F : fs) (p : path) (n : node) : fs := fun q => if path_dec p q then Some n else F q.
Definition apply (F : fs) (x : op) : fs := match x with Mkdir p => put F p Dir | Open p c => put F p (Torn c) | Close p c => put F p (File c) end.
Definition applies (F : fs) (l : list op) : fs := fold_left apply l F.

(** os.makedirs: the missing ancestors, then the directory; FileExistsError if it is there already. *)
Fixpoint mk_parents (F : fs) (done todo : path) : res (list op) :=
  match F done with
  | Some Dir => match todo with [] => Ok [] | x :: t => mk_parents F (done ++ [x]) t end
  | Some _ => Err OracleError (* NotADirectoryError *)
  | None => letr l := (match todo with [] => Ok [] | x :: t => mk_parents F (done ++ [x]) t end) in Ok (Mkdir done :: l)
  end.
Definition makedirs (F : fs) (p : path) : res (list op) :=
  match F p with
  | Some _ => Err FileExistsError
  | None => letr l := mk_parents F [] (removelast p) in Ok (l ++ [Mkdir p])
  end.
(** np.savetxt: open (creating or truncating the file), write, close. *)
Definition savetxt (F : fs) (p : path) (c : content) : res (list op) :=
  match F (removelast p) with
  | Some Dir => match F p with Some Dir => Err OracleError | _ => Ok [Open p c; Close p c] end
  | _ => Err OracleError
  end.

(** The state of a campaign: memory, the summary arrays, the file system and the operations done on it. *)
Record camp := mkCamp { k_mem : mem; k_arr : list (list (option R)); k_fs : fs; k_ops : list op }.
Definition perform (s : camp) (a : fs -> res (list op)) : camp * res unit :=
  match a (k_fs s) with
  | Err e => (s, Err e)
  | Ok l => (mkCamp (k_mem s) (k_arr s) (applies (k_fs s) l) (k_ops s ++ l), Ok tt)
  end.
Fixpoint perform_all (s : camp) (l : list (fs -> res (list op))) : camp * res unit :=
  match l with
  | [] => (s, Ok tt)
  | a :: l' => match perform s a with (s', Ok _) => perform_all s' l' | (s', Err e) => (s', Err e) end
  end.
Definition upd {A} (i : nat) (x : A) (l : list A) : list A :=
  match skipn i l with [] => l | _ :: t => firstn i l ++ x :: t end.

(** str(i) *)
Definition str (n : nat) : string := NilZero.string_of_uint (Nat.to_uint n).
Definition run_folder (main : path) (i : nat) : path := main ++ ["#" ++ str (i + 1)]%string.
(** vehicle.py:5818-5829: the files of one run. *)
Definition run_files (d : draw) (q : mc_result) : list (string * content) :=
  let one x := Nums [x] in
  [("atmfile.txt", Names [d_file d]); ("profile.txt", one (Some (INR (d_profile d)))); ("efpa.txt", one (Some (d_efpa d)));
   ("atmSigma.txt", one (Some (d_sigma d))); ("LD.txt", one (Some (d_LD d)));
   ("terminal_apoapsis.txt", one (r_apo (q_rep q))); ("apoapsis_error.txt", one (r_perc (q_rep q)));
   ("terminal_periapsis.txt", one (r_peri (q_rep q)));
   ("periapsis_raise_DV.txt", one (r_DVperi (q_rep q))); ("apoapsis_raise_DV.txt", one (r_DVapo (q_rep q)))].
(** vehicle.py:5755-5761, 5801-5809, 5832-5840: the summary arrays and their files. *)
Definition summary_names : list string := ["terminal_apoapsis_arr.txt"; "terminal_periapsis_arr.txt"; "periapsis_raise_DV_arr.txt";
  "apoapsis_raise_DV_arr.txt"; "acc_net_g_max_arr.txt"; "q_stag_max_arr.txt"; "heatload_max_arr.txt"].
Definition summary_row (q : mc_result) : list (option R) :=
  [r_apo (q_rep q); r_peri (q_rep q); r_DVperi (q_rep q); r_DVapo (q_rep q); q_acc q; q_q q; q_heat q].
Definition record (i : nat) (q : mc_result) (arr : list (list (option R))) : list (list (option R)) :=
  map (fun al => upd i (fst al) (snd al)) (combine (summary_row q) arr).
Definition write_run (main : path) (i : nat) (d : draw) (q : mc_result) (arr : list (list (option R))) : list (fs -> res (list op)) :=
  (fun F => makedirs F (run_folder main i)) ::
  map (fun nc F => savetxt F (run_folder main i ++ [fst nc]) (snd nc)) (run_files d q) ++
  map (fun na F => savetxt F (main ++ [fst na]) (Nums (snd na))) (combine summary_names arr).

(** The loop over runs [i], [i+1], ... [i+n-1], vehicle.py:5773-5840. *)
Fixpoint mc_loop (m : mode) (W : world) (S : mc_setup) (rnd : random) (main : path) (n i : nat) (s : camp) : camp * option (res unit) :=
  match n with
  | O => (s, Some (Ok tt))
  | Datatypes.S n' =>
      match mc_run m W S rnd i (k_mem s) with
      | (mm, None) => (mkCamp mm (k_arr s) (k_fs s) (k_ops s), None)
      | (mm, Some (Err e)) => (mkCamp mm (k_arr s) (k_fs s) (k_ops s), Some (Err e))
      | (mm, Some (Ok (d, q))) =>
          let arr := record i q (k_arr s) in
          match perform_all (mkCamp mm arr (k_fs s) (k_ops s)) (write_run main i d q arr) with
          | (s', Err e) => (s', Some (Err e))
          | (s', Ok _) => mc_loop m W S rnd main n' (i + 1) s'
          end
      end
  end.
(** runMonteCarlo(N, mainFolder) and its variants, vehicle.py:5755-5840, 5855-5950, 7462-7554, 7569-7666, 7683-7776. *)
Definition runMonteCarlo (m : mode) (W : world) (S : mc_setup) (rnd : random) (N : nat) (main : path) (s : mem) (F : fs) : camp * option (res unit) :=
  let s0 := mkCamp s (map (fun _ => repeat (Some 0) N) summary_names) F [] in
  match perform s0 (fun F => makedirs F main) with
  | (s1, Err e) => (s1, Some (Err e))
  | (s1, Ok _) => mc_loop m W S rnd main N 0 s1
  end.
