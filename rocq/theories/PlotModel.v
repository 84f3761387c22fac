(** Model of the plotting methods of /repo/AMAT/interplanetary.py: which figure each of them draws,
    and which files it leaves on disk.

    Simplified: a figure is its title, its data, its colour scale and its vertical limits; fonts,
    ticks, grid lines and the legend are left out.  Dates are numbers.  The directory '../plots/' is
    taken to exist and to be writable.  A saved file holds the figure that was current when it was saved;
    matplotlib 3.10.8 (/repo/uv.lock) refuses an unknown keyword of savefig with TypeError before it
    opens the file. *)
Require Import Verif.Base Verif.Numpy Verif.LauncherModel.
From Coq Require Import String.
Open Scope string_scope.

(** What Interplanetary.__init__ stores, interplanetary.py:53-60. *)
Record dataset := mkDs {
  ds_ID : string; ds_Lcdate : list R; ds_C3 : list R; ds_TOF : list R; ds_Avinf : list R }.

(** What Launcher.__init__ stores, launcher.py:35-37. *)
Record launcher := mkLa { la_ID : string; la_XY : table }.

(** The data of a figure: title, horizontal and vertical data, colour data with the values at the
    two ends of the colour scale, limits of the vertical axis where the code sets them. *)
Record figure := mkFig {
  fg_title : string; fg_x : list R; fg_y : list R;
  fg_colour : option (list R * R * R); fg_ylim : option (R * R) }.

(** max(l), Python's builtin; it raises ValueError on an empty list. *)
Fixpoint pymax (l : list R) : res R :=
  match l with
  | [] => Err ValueError
  | [x] => Ok x
  | x :: l' => letr m := pymax l' in Ok (Rmax x m)
  end.

(** Series.min() and Series.max(), interplanetary.py:370; NaN on an empty series, which cannot be
    reached here: with no rows the axis limits fail.  The model gives 0. *)
Fixpoint smin (l : list R) : R :=
  match l with [] => 0 | [x] => x | x :: l' => Rmin x (smin l') end.
Fixpoint smax (l : list R) : R :=
  match l with [] => 0 | [x] => x | x :: l' => Rmax x (smax l') end.

(** The six plotting calls. *)
Inductive plotcall :=
| MassVsDate (d : dataset) (l : launcher)            (* plot_launch_mass_vs_launch_date *)
| TOFVsDate (d : dataset)                            (* plot_TOF_vs_launch_date *)
| AvinfVsDate (d : dataset)                          (* plot_Avinf_vs_launch_date *)
| AvinfVsDateMass (d : dataset) (l : launcher)       (* plot_Avinf_vs_launch_date_with_launch_mass_colorbar *)
| MassVsTOF (d : dataset) (l : launcher)             (* plot_launch_mass_vs_TOF *)
| MassVsTOFAvinf (d : dataset) (l : launcher).       (* plot_launch_mass_vs_TOF_with_vinf_colorbar *)

(** plt.ylim(max(0, sorted(set(Lcmass))[1])-100, max(Lcmass)+100), interplanetary.py:103, 317, 387. *)
Definition mass_ylim (m : list R) : res (R * R) :=
  letr f := axis_floor m in letr t := pymax m in Ok (f - 100, t + 100).

(** The figure drawn before anything is saved: interplanetary.py:90-123 (MassVsDate), 139-171
    (TOFVsDate), 187-219 (AvinfVsDate), 248-285 (AvinfVsDateMass), 302-338 (MassVsTOF), 366-408
    (MassVsTOFAvinf). *)
Definition draw (q : plotcall) : res figure :=
  match q with
  | MassVsDate d l =>
      letr m := compute_launch_capability (la_XY l) (ds_C3 d) in
      letr lim := mass_ylim m in
      Ok (mkFig (ds_ID d ++ " : " ++ la_ID l) (ds_Lcdate d) m None (Some lim))
  | TOFVsDate d => Ok (mkFig (ds_ID d) (ds_Lcdate d) (ds_TOF d) None None)
  | AvinfVsDate d => Ok (mkFig (ds_ID d) (ds_Lcdate d) (ds_Avinf d) None None)
  | AvinfVsDateMass d l =>
      letr m := compute_launch_capability (la_XY l) (ds_C3 d) in
      letr f := axis_floor m in
      letr t := pymax m in
      Ok (mkFig (ds_ID d) (ds_Lcdate d) (ds_Avinf d) (Some (m, f, t)) None)
  | MassVsTOF d l =>
      letr m := compute_launch_capability (la_XY l) (ds_C3 d) in
      letr lim := mass_ylim m in
      Ok (mkFig (ds_ID d ++ " : " ++ la_ID l) (ds_TOF d) m None (Some lim))
  | MassVsTOFAvinf d l =>
      letr m := compute_launch_capability (la_XY l) (ds_C3 d) in
      letr lim := mass_ylim m in
      Ok (mkFig (ds_ID d ++ " : " ++ la_ID l) (ds_TOF d) m
                (Some (ds_Avinf d, smin (ds_Avinf d), smax (ds_Avinf d))) (Some lim))
  end.

(** A savefig call: the file name, and whether every keyword it is given is one savefig knows. *)
Definition savecall := (string * bool)%type.

(** The savefig calls of each method in order: interplanetary.py:125-127, 173-175, 221-223, 287-289,
    340-342 (the first with the keyword box_inches), 410-412. *)
Definition saves (q : plotcall) : list savecall :=
  match q with
  | MassVsDate d l =>
      [ ("../plots/" ++ ds_ID d ++ "_" ++ la_ID l ++ "_" ++ "launch_mass_vs_launch_date" ++ ".png", true);
        ("../plots/" ++ ds_ID d ++ "_" ++ la_ID l ++ "_" ++ "launch_mass_vs_launch_date" ++ ".pdf", true);
        ("../plots/" ++ ds_ID d ++ "_" ++ la_ID l ++ "_" ++ "launch_mass_vs_launch_date" ++ ".eps", true) ]
  | TOFVsDate d =>
      [ ("../plots/" ++ ds_ID d ++ "_" ++ "TOF_vs_launch_date" ++ ".png", true);
        ("../plots/" ++ ds_ID d ++ "_" ++ "TOF_vs_launch_date" ++ ".pdf", true);
        ("../plots/" ++ ds_ID d ++ "_" ++ "TOF_vs_launch_date" ++ ".eps", true) ]
  | AvinfVsDate d =>
      [ ("../plots/" ++ ds_ID d ++ "_" ++ "Avinf_vs_launch_date" ++ ".png", true);
        ("../plots/" ++ ds_ID d ++ "_" ++ "Avinf_vs_launch_date" ++ ".pdf", true);
        ("../plots/" ++ ds_ID d ++ "_" ++ "Avinf_vs_launch_date" ++ ".eps", true) ]
  | AvinfVsDateMass d _ =>
      [ ("../plots/" ++ ds_ID d ++ "_" ++ "Avinf_vs_launch_date_launch_mass_colorbar" ++ ".png", true);
        ("../plots/" ++ ds_ID d ++ "_" ++ "Avinf_vs_launch_date_launch_mass_colorbar" ++ ".pdf", true);
        ("../plots/" ++ ds_ID d ++ "_" ++ "Avinf_vs_launch_date_launch_mass_colorbar" ++ ".eps", true) ]
  | MassVsTOF d l =>
      [ ("../plots/" ++ ds_ID d ++ "_" ++ la_ID l ++ "_" ++ "launch_mass_vs_TOF" ++ ".png", false);
        ("../plots/" ++ ds_ID d ++ "_" ++ la_ID l ++ "_" ++ "launch_mass_vs_TOF" ++ ".pdf", true);
        ("../plots/" ++ ds_ID d ++ "_" ++ la_ID l ++ "_" ++ "launch_mass_vs_TOF" ++ ".eps", true) ]
  | MassVsTOFAvinf d _ =>
      [ ("../plots/" ++ ds_ID d ++ "_" ++ "launch_mass_vs_TOF_Avinf_colorbar" ++ ".png", true);
        ("../plots/" ++ ds_ID d ++ "_" ++ "launch_mass_vs_TOF_Avinf_colorbar" ++ ".pdf", true);
        ("../plots/" ++ ds_ID d ++ "_" ++ "launch_mass_vs_TOF_Avinf_colorbar" ++ ".eps", true) ]
  end.

(** The savefig calls run in order; the first one with an unknown keyword raises. *)
Fixpoint run_saves (ss : list savecall) : list string * res unit :=
  match ss with
  | [] => ([], Ok tt)
  | (_, false) :: _ => ([], Err TypeError)
  | (f, true) :: ss' => let (w, r) := run_saves ss' in (f :: w, r)
  end.

(** A plotting call: the files it writes in order, each with the figure, and how it ends. *)
Definition plot (q : plotcall) : list (string * figure) * res unit :=
  match draw q with
  | Err e => ([], Err e)
  | Ok f => let (w, r) := run_saves (saves q) in (map (fun n => (n, f)) w, r)
  end.

(** The disk: file name to the figure it shows. *)
Definition disk := string -> option figure.
Definition write (k : disk) (w : string * figure) : disk :=
  fun n => if String.eqb n (fst w) then Some (snd w) else k n.
Definition writes (k : disk) (ws : list (string * figure)) : disk := fold_left write ws k.

(** A history of calls; a call that raises leaves what it has written, and the next call goes on. *)
Definition run (k : disk) (qs : list plotcall) : disk :=
  fold_left (fun k q => writes k (fst (plot q))) qs k.
