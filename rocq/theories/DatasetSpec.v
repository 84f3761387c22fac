(** Independent vocabulary for C122: the calendar, and how dates are written in a trajectory spreadsheet. *)
From Coq Require Import ZArith List Ascii.
Require Import Verif.Base Verif.TextModel Verif.DatasetModel.
Local Open Scope Z_scope.

Definition leap (y : Z) : Prop := (4 | y) /\ (~ (100 | y) \/ (400 | y)).
(** The length of a month of the Gregorian calendar. *)
Inductive month_length (y : Z) : Z -> Z -> Prop :=
| Long : forall m, In m [1; 3; 5; 7; 8; 10; 12] -> month_length y m 31
| Short : forall m, In m [4; 6; 9; 11] -> month_length y m 30
| FebLeap : leap y -> month_length y 2 29
| Feb : ~ leap y -> month_length y 2 28.
(** A day of a year with four digits. *)
Definition calendar (t : date) : Prop := let '(y, m, d) := t in 1000 <= y <= 9999 /\ exists n, month_length y m n /\ 1 <= d <= n.
(** The day after. *)
Inductive next_day : date -> date -> Prop :=
| SameMonth : forall y m d n, month_length y m n -> 1 <= d < n -> next_day (y, m, d) (y, m, d + 1)
| NextMonth : forall y m n, month_length y m n -> m < 12 -> next_day (y, m, n) (y, m + 1, 1)
| NextYear : forall y, next_day (y, 12, 31) (y + 1, 1, 1).
(** The whole number a date is written as: year, two digits of the month, two digits of the day. *)
Definition yyyymmdd (t : date) : Z := let '(y, m, d) := t in 10000 * y + 100 * m + d.
(** The columns the class asks for. *)
Definition has (sh : sheet) (name : text) (l : list cell) : Prop := column sh name = Some l.
(** What is assumed of str() of a number that is not whole or too large: it has a character other than digits and blanks, and is not a word for a missing value. *)
Definition prints_point (fstr : R -> text) : Prop := forall x, (exists c, In c (fstr x) /\ is_digit c = false /\ c <> " "%char) /\ existsb (text_eqb (fstr x)) nat_words = false.
