(** Model of Interplanetary.__init__, /repo/AMAT/interplanetary.py:38-60: what becomes of a spreadsheet.

    pandas 3.0.1 (/repo/uv.lock) is part of the trusted base as described here.  pd.read_excel takes the first row for the
    names of the columns (a repeated name is altered, so the first column of a name has it) and gives every column a type:
    integers if all its cells are whole numbers, floating-point numbers if they are numbers or empty, objects if there is
    text.  A cell with a whole number is read as an integer even if the spreadsheet stores it with a fraction of zero.
    Simplified: text is taken not to be a number nor one of pandas' words for a missing value; cells with Excel dates,
    logical values or errors are left out; columns have a cell for every row. *)
From Coq Require Import ZArith List Ascii Bool.
From Flocq Require Import Core Digits.
Require Import Verif.Base Verif.TextModel.
Import ListNotations.
Local Open Scope Z_scope.

Inductive cell := CInt (z : Z) | CNum (x : R) | CText (t : text) | CBlank.
Definition sheet := list (text * list cell).
(** df[name]: KeyError if there is no such column. *)
Definition column (sh : sheet) (name : text) : option (list cell) :=
  match find (fun c => text_eqb (fst c) name) sh with Some c => Some (snd c) | None => None end.

(** str(n) of an integer. *)
Definition py_int (z : Z) : text := (if z <? 0 then ["-"%char] else []) ++ digits (Nat.max 1 (Z.to_nat (Zdigits radix10 (Z.abs z)))) (Z.abs z).
(** list(map(str, column.values)), interplanetary.py:57: in a column of floating-point numbers every number is printed as
    one.  [fstr] is str() of numbers that are not whole, or too large to be printed without an exponent. *)
Definition is_int (c : cell) : bool := match c with CInt _ => true | _ => false end.
Definition is_text (c : cell) : bool := match c with CText _ => true | _ => false end.
Definition nan_text : text := ["n"; "a"; "n"]%char.
Definition cell_str (fstr : R -> text) (floats : bool) (c : cell) : text :=
  match c with
  | CInt z => if floats then (if Z.abs z <? 10 ^ 16 then py_int z ++ ["."; "0"]%char else fstr (IZR z)) else py_int z
  | CNum x => fstr x
  | CText t => t
  | CBlank => nan_text
  end.
Definition column_strs (fstr : R -> text) (l : list cell) : list text :=
  map (cell_str fstr (negb (forallb is_int l) && negb (existsb is_text l))) l.

(** The regular expression pandas makes of the format '%Y%m%d', matched at the beginning of the string; alternatives are
    tried in this order, the first month for which a day can be found counts. *)
Definition date := (Z * Z * Z)%type.
Definition among (lo hi : Z) (c : ascii) : bool := is_digit c && (lo <=? value c) && (value c <=? hi).
Definition two (p q : ascii -> bool) (l : text) : list (Z * text) :=
  match l with a :: b :: r => if p a && q b then [(10 * value a + value b, r)] else [] | _ => [] end.
Definition one (p : ascii -> bool) (l : text) : list (Z * text) := match l with a :: r => if p a then [(value a, r)] else [] | [] => [] end.
Definition months (l : text) : list (Z * text) := two (among 1 1) (among 0 2) l ++ two (among 0 0) (among 1 9) l ++ one (among 1 9) l.
Definition days (l : text) : list (Z * text) :=
  two (among 3 3) (among 0 1) l ++ two (among 1 2) (among 0 9) l ++ two (among 0 0) (among 1 9) l ++ one (among 1 9) l ++
  match l with a :: r => if Ascii.eqb a " " then one (among 1 9) r else [] | [] => [] end.
Definition month_day (l : text) : option (Z * Z * text) :=
  hd_error (flat_map (fun mr => map (fun dr => (fst mr, fst dr, snd dr)) (days (snd mr))) (months l)).
(** datetime.date(year, month, day) raises ValueError for days the month does not have. *)
Definition is_leap (y : Z) : bool := (y mod 4 =? 0) && (negb (y mod 100 =? 0) || (y mod 400 =? 0)).
Definition days_in_month (y m : Z) : Z := if m =? 2 then (if is_leap y then 29 else 28) else if (m =? 4) || (m =? 6) || (m =? 9) || (m =? 11) then 30 else 31.
(** pd.to_datetime of one string with the format '%Y%m%d': [Some None] is NaT, [None] ValueError.  The faster parser pandas
    tries first accepts the eight-digit strings that are dates, and reads them in the same way. *)
Definition nat_words : list text := [["n"; "a"; "n"]; ["N"; "a"; "N"]; ["N"; "A"; "N"]; ["n"; "a"; "t"]; ["N"; "a"; "T"]; ["N"; "A"; "T"]]%char.
Definition parse_date (t : text) : option (option date) :=
  if existsb (text_eqb t) nat_words then Some None
  else match t with
  | a :: b :: c :: d :: r =>
      if forallb is_digit [a; b; c; d] then
        match month_day r with
        | Some (m, dd, []) => let y := number [a; b; c; d] in if (1 <=? y) && (dd <=? days_in_month y m) then Some (Some (y, m, dd)) else None
        | _ => None
        end
      else None
  | _ => None
  end.
Fixpoint all_dates (l : list text) : option (list (option date)) :=
  match l with [] => Some [] | t :: r => match parse_date t, all_dates r with Some d, Some ds => Some (d :: ds) | _, _ => None end end.

Record trajectories := mkTraj { tj_date : list (option date); tj_C3 : list cell; tj_TOF : list cell; tj_Avinf : list cell }.
Inductive loaded := Loaded (t : trajectories) | KeyError (name : text) | BadDate.
Definition n_Lcdate : text := ["L"; "c"; "d"; "a"; "t"; "e"]%char.
Definition n_LC3 : text := ["L"; "C"; "3"]%char.
Definition n_TOF : text := ["T"; "O"; "F"]%char.
Definition n_Avinf : text := ["A"; "v"; "i"; "n"; "f"]%char.
(** The constructor with Lcdate_format="%Y%m%d", interplanetary.py:56-60; [BadDate] is pandas' ValueError. *)
Definition load (fstr : R -> text) (sh : sheet) : loaded :=
  match column sh n_Lcdate with
  | None => KeyError n_Lcdate
  | Some lc =>
      match all_dates (column_strs fstr lc) with
      | None => BadDate
      | Some ds =>
          match column sh n_LC3 with None => KeyError n_LC3 | Some c3 =>
          match column sh n_TOF with None => KeyError n_TOF | Some tof =>
          match column sh n_Avinf with None => KeyError n_Avinf | Some av => Loaded (mkTraj ds c3 tof av) end end end
      end
  end.

(** The number matplotlib plots a date at, days since 1970 (date2num): datetime.date.toordinal() less 719163. *)
Definition days_before_month (y m : Z) : Z :=
  fold_left (fun s k => s + (if k <? m then days_in_month y k else 0)) [1; 2; 3; 4; 5; 6; 7; 8; 9; 10; 11] 0.
Definition date_num (d : date) : Z :=
  let '(y, m, dd) := d in let p := y - 1 in p * 365 + p / 4 - p / 100 + p / 400 + days_before_month y m + dd - 719163.
