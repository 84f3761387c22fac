(** Independent vocabulary for the telecom properties: no definition of the model is used. *)
Require Import Verif.Base.

(** Decibels of a positive power ratio, and back. *)
Definition dB (x : R) : R := 10 * (ln x / ln 10).
Definition from_dB (g : R) : R := Rpower 10 (g / 10).

(** Received energy per bit over noise density (textbook link equation):
    power, transmit gain, receive gain, wavelength, distance, system temperature, bit rate. *)
Definition boltzmann : R := 1.38e-23.
Definition eb_over_n0 (P Gt Gr lambda d T rate : R) : R :=
  P * Gt * Gr * (lambda / (4 * PI * d)) ^ 2 / (boltzmann * T * rate).

(** Gain of a dish of diameter D and efficiency e. *)
Definition dish_gain (e D lambda : R) : R := e * (PI * D / lambda) ^ 2.

(** A time is inside a closed window. *)
Definition in_window (t : R) (w : R * R) : Prop := fst w <= t <= snd w.
