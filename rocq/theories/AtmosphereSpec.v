(** Specification for C85 (loading an atmosphere table) and the numbers of C06. *)
From Coq Require Import String List.
Require Import Verif.Base Verif.AtmosphereModel.
Local Open Scope string_scope.

(** The catalogue as a user would look it up: name, radius (km), spin (micro-rad/s), GM (km^3/s^2), reference density
    (kg/m3), ratio of specific heats, J2 and J3 (millionths), right ascension and declination of the pole
    (degrees), top of the atmosphere, skip-out, trap and lowest altitudes (km). *)
Record facts := mkFacts { fa_name : string; fa_radius : R; fa_spin : R; fa_GM : R; fa_rho0 : R; fa_cpcv : R; fa_J2 : R; fa_J3 : R;
  fa_ra : R; fa_dec : R; fa_top : R; fa_skip : R; fa_trap : R; fa_low : option R }.
Definition catalogue : list facts := [
  mkFacts "VENUS" 6051.8 (-0.299237) 324859.9 64.79 1.289 4.458 0 272.76 67.16 180 180 10 (Some 60);
  mkFacts "EARTH" 6371 72.72205 398600.4 1.225 1.4 1082.6 (-2.532) 0 90 120 120 10 (Some 50);
  mkFacts "MARS" 3389.5 70.88253 42828.37 0.02 1.289 1960.45 31.5 317.68143 52.8865 120 120 10 (Some 50);
  mkFacts "JUPITER" 69911 175.8518 126686534 0.16288 1.4348 14736 0 268.056595 64.495303 1000 1000 50 None;
  mkFacts "SATURN" 58232 163.79 37931187 0.19847 1.4348 16298 0 40.589 83.537 1000 1000 50 None;
  mkFacts "TITAN" 2575 4.545128 8978 5.435 1.4 31.808 (-1.88) 39.4827 83.4279 1000 1000 30 (Some 300);
  mkFacts "URANUS" 25559 (-101.237) 5793939 0.3788 1.45 3343.3 0 257.311 (-15.175) 1500 1500 10 (Some 10);
  mkFacts "NEPTUNE" 24622 108.3385 6836529.9 0.44021 1.45 3411 0 299.36 43.36 1000 1000 10 (Some 100) ].
(** Surface gravity in m/s2, to two per cent. *)
Definition surface_gravity : list (string * R) :=
  [("VENUS", 8.87); ("EARTH", 9.82); ("MARS", 3.73); ("JUPITER", 25.92); ("SATURN", 11.19); ("TITAN", 1.354); ("URANUS", 8.87); ("NEPTUNE", 11.28)].

(** The cell of a table row in column c, negative numbers counting from the right. *)
Definition cell (row : list R) (c : Z) : R := nth (Z.to_nat (if (c <? 0)%Z then c + Z.of_nat (length row) else c)) row 0.
Definition has_column (row : list R) (c : Z) : Prop := (- Z.of_nat (length row) <= c < Z.of_nat (length row))%Z.
(** np.loadtxt gives rows of equal length. *)
Definition rectangular (rows : list (list R)) (w : nat) : Prop := forall row, In row rows -> length row = w.
(** The height in metres. *)
Definition metres (km : bool) (h : R) : R := if km then 1000 * h else h.

(** The stored function is there and answers v at h. *)
Definition says (f : option (R -> option R)) (h : R) (v : R) : Prop := exists g, f = Some g /\ g h = Some v.

(** An interpolation that goes through its points. *)
Definition exact_at_nodes (K : ikind) : Prop :=
  forall tab x y, NoDup (map fst tab) -> (forall q, In q tab -> snd q <> None) -> In (x, Some y) tab -> ik_value K tab x = Some y.
(** ... and between two neighbouring points stays between their values. *)
Definition between_nodes (K : ikind) : Prop :=
  forall tab x x0 y0 x1 y1, NoDup (map fst tab) -> (forall q, In q tab -> snd q <> None) -> In (x0, Some y0) tab -> In (x1, Some y1) tab ->
    (forall q, In q tab -> fst q <= x0 \/ x1 <= fst q) -> x0 <= x <= x1 -> exists y, ik_value K tab x = Some y /\ Rmin y0 y1 <= y <= Rmax y0 y1.
