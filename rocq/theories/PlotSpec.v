(** Specification side of the plotting property: words used in its statement. *)
Require Import Verif.Base Verif.Numpy Verif.LauncherModel Verif.PlotModel.
From Coq Require Import String Ascii.
Open Scope string_scope.

(** The file formats a plot is saved in. *)
Inductive format := Png | Pdf | Eps.
Definition ext_of (x : format) : string := match x with Png => ".png" | Pdf => ".pdf" | Eps => ".eps" end.

(** The name, without directory and format, that the caller finds a plot under. *)
Definition plot_name (q : plotcall) : string :=
  match q with
  | MassVsDate d l => ds_ID d ++ "_" ++ la_ID l ++ "_launch_mass_vs_launch_date"
  | TOFVsDate d => ds_ID d ++ "_TOF_vs_launch_date"
  | AvinfVsDate d => ds_ID d ++ "_Avinf_vs_launch_date"
  | AvinfVsDateMass d _ => ds_ID d ++ "_Avinf_vs_launch_date_launch_mass_colorbar"
  | MassVsTOF d l => ds_ID d ++ "_" ++ la_ID l ++ "_launch_mass_vs_TOF"
  | MassVsTOFAvinf d _ => ds_ID d ++ "_launch_mass_vs_TOF_Avinf_colorbar"
  end.
Definition file_of (q : plotcall) (x : format) : string := "../plots/" ++ plot_name q ++ ext_of x.

(** The same method was called. *)
Definition same_method (q q' : plotcall) : Prop :=
  match q, q' with
  | MassVsDate _ _, MassVsDate _ _ | TOFVsDate _, TOFVsDate _ | AvinfVsDate _, AvinfVsDate _
  | AvinfVsDateMass _ _, AvinfVsDateMass _ _ | MassVsTOF _ _, MassVsTOF _ _
  | MassVsTOFAvinf _ _, MassVsTOFAvinf _ _ => True
  | _, _ => False
  end.

Definition dataset_of (q : plotcall) : dataset :=
  match q with
  | MassVsDate d _ | TOFVsDate d | AvinfVsDate d | AvinfVsDateMass d _ | MassVsTOF d _ | MassVsTOFAvinf d _ => d
  end.

(** The launcher of the call, when its name is part of the file name. *)
Definition named_launcher (q : plotcall) : option launcher :=
  match q with MassVsDate _ l | MassVsTOF _ l => Some l | _ => None end.

(** The call is plot_launch_mass_vs_TOF. *)
Definition is_mass_vs_TOF (q : plotcall) : Prop := match q with MassVsTOF _ _ => True | _ => False end.

(** No underscore in a name. *)
Definition no_underscore (s : string) : Prop := forall n, String.get n s <> Some "_"%char.
