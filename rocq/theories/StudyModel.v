(** Several Monte Carlo campaigns of /repo/AMAT/vehicle.py on one file system: one after another, any of them
    cut short, or at the same time in several processes.

    Simplified: file-system calls are atomic (a directory is made, a file is opened empty, a file is
    complete); the folder that holds a concurrent campaign's main folder exists when the processes start, so
    that os.makedirs (vehicle.py:5771, 5871, 7478, 7585, 7699) is one mkdir. *)
From Coq Require Import String List Arith.
Require Import Verif.Base Verif.TrajectoryModel Verif.GuidanceModel Verif.MonteModel.
Local Open Scope list_scope.

(** The arguments and the surroundings of one campaign: which method, world, setup, random source, number of
    runs, main folder, and the memory of the process when it is called. *)
Record campaign := mkCpn { cp_mode : mode; cp_world : world; cp_setup : mc_setup; cp_rnd : random; cp_N : nat;
  cp_main : path; cp_mem : mem }.
(** The campaign on its own, from disk [F]: runMonteCarlo and its variants, vehicle.py:5755-5840, 5855-5950,
    7462-7554, 7569-7666, 7683-7776. *)
Definition on_its_own (c : campaign) (F : fs) : camp * option (res unit) :=
  runMonteCarlo (cp_mode c) (cp_world c) (cp_setup c) (cp_rnd c) (cp_N c) (cp_main c) (cp_mem c) F.

(** A study: campaigns one after another, each with the number of file operations after which its process is
    killed, if it is. *)
Definition event := (campaign * option nat)%type.
Definition after_event (F : fs) (v : event) : fs :=
  let ops := k_ops (fst (on_its_own (fst v) F)) in
  match snd v with None => k_fs (fst (on_its_own (fst v) F)) | Some n => applies F (firstn n ops) end.
Definition after_study (F : fs) (l : list event) : fs := fold_left after_event l F.

(** * Several processes *)
(** A file-system request of a process: what it does depends on the disk at that moment. *)
Definition request := fs -> res (list op).
(** The requests of the loop over runs, vehicle.py:5773-5840: computing a run needs no file of the campaign.
    A run that raises is a request that raises; a run that never ends makes no further request. *)
Fixpoint loop_requests (m : mode) (W : world) (S : mc_setup) (rnd : random) (main : path) (n i : nat) (s : mem)
    (arr : list (list (option R))) : list request :=
  match n with
  | O => []
  | Datatypes.S n' =>
      match mc_run m W S rnd i s with
      | (_, None) => []
      | (_, Some (Err e)) => [fun _ => Err e]
      | (s', Some (Ok (d, q))) =>
          let arr' := record i q arr in
          write_run main i d q arr' ++ loop_requests m W S rnd main n' (i + 1) s' arr'
      end
  end.
Definition requests (c : campaign) : list request :=
  (fun F => makedirs F (cp_main c)) ::
  loop_requests (cp_mode c) (cp_world c) (cp_setup c) (cp_rnd c) (cp_main c) (cp_N c) 0 (cp_mem c)
    (map (fun _ => repeat (Some 0) (cp_N c)) summary_names).

(** A process: requests to come, operations of the request being served, operations done, exception. *)
Record proc := mkProc { pr_todo : list request; pr_pend : list op; pr_done : list op; pr_exn : option exn }.
Definition start (c : campaign) : proc := mkProc (requests c) [] [] None.
(** One step of a process: the next operation of the current request, or the first of the next one. *)
Definition pstep (F : fs) (P : proc) : fs * proc :=
  match pr_exn P, pr_pend P, pr_todo P with
  | Some _, _, _ => (F, P)
  | None, x :: l, t => (apply F x, mkProc t l (pr_done P ++ [x]) None)
  | None, [], [] => (F, P)
  | None, [], a :: t =>
      match a F with
      | Err e => (F, mkProc t [] (pr_done P) (Some e))
      | Ok [] => (F, mkProc t [] (pr_done P) None)
      | Ok (x :: l) => (apply F x, mkProc t l (pr_done P ++ [x]) None)
      end
  end.
(** A system of processes, and a schedule: the number of the process that makes each step. *)
Definition sstep (s : fs * list proc) (i : nat) : fs * list proc :=
  match nth_error (snd s) i with
  | None => s
  | Some P => let (F', P') := pstep (fst s) P in (F', upd i P' (snd s))
  end.
Definition sched (F : fs) (ps : list proc) (l : list nat) : fs * list proc := fold_left sstep l (F, ps).
