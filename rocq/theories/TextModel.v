(** The text of the files that np.savetxt writes and np.loadtxt reads, character by character (NumPy 2.4.2). *)
From Coq Require Import ZArith Reals List Ascii String.
From Flocq Require Import Core.
Require Import Verif.Base Verif.RoundSpec Verif.PropRound64 Verif.LauncherModel.
Import ListNotations.
Local Open Scope R_scope.

Definition radix10 : radix := Build_radix 10 eq_refl.
Definition text := list ascii.
(** [n] decimal digits of [m], most significant first. *)
Definition digit (z : Z) : ascii := ascii_of_nat (48 + Z.to_nat z).
Fixpoint digits (n : nat) (m : Z) : text := match n with O => [] | S n => digits n (m / 10) ++ [digit (m mod 10)] end.
(** The 19 significant digits of [x] as an integer and the decimal exponent: the exact value is rounded to nearest,
    ties to even, and carried if that gives a twentieth digit (C's printf, which Python's % follows). *)
Definition sci (x : R) : Z * Z :=
  let k := (mag radix10 x - 1)%Z in
  let m := ZnearestE (Rabs x * bpow radix10 (18 - k)) in
  if Z.eqb m (10 ^ 19) then ((10 ^ 18)%Z, (k + 1)%Z) else (m, k).
(** '%.18e' % v, the default format of np.savetxt (vehicle.py:5819-5840, 5926-5950, 7533-7554, 7642-7666, 7755-7776).  [None] is nan.
    Infinities and the sign of a zero are not modelled. *)
Definition fmt18e (v : option R) : text :=
  match v with
  | None => ["n"; "a"; "n"]%char
  | Some x =>
      let '(m, k) := if Reqb x 0 then (0, 0)%Z else sci x in
      (if Rltb x 0 then ["-"%char] else []) ++ digits 1 (m / 10 ^ 18) ++ ["."%char] ++ digits 18 (m mod 10 ^ 18) ++
      ["e"; if (k <? 0)%Z then "-" else "+"]%char ++ digits (Nat.max 2 (Z.to_nat (Zdigits radix10 (Z.abs k)))) (Z.abs k)
  end.
Definition newline : ascii := ascii_of_nat 10.
(** np.savetxt(file, array of one dimension): one number per line. *)
Definition print_column (l : list (option R)) : text := concat (map (fun v => fmt18e v ++ [newline]) l).

(** float(s) for a decimal number or nan: sign, digits, point, digits, exponent; the exact value is rounded to binary64.
    Other spellings of nan, infinities, underscores and blanks do not occur in the files above. *)
Definition is_digit (c : ascii) : bool := let n := nat_of_ascii c in Nat.leb 48 n && Nat.leb n 57.
Definition value (c : ascii) : Z := Z.of_nat (nat_of_ascii c) - 48.
Fixpoint span (l : text) : text * text :=
  match l with
  | [] => ([], [])
  | c :: l' => if is_digit c then let '(a, b) := span l' in (c :: a, b) else ([], l)
  end.
Definition number (ds : text) : Z := fold_left (fun a c => a * 10 + value c)%Z ds 0%Z.
Definition sign_of (l : text) : bool * text :=
  match l with
  | c :: l' => if Ascii.eqb c "-" then (true, l') else if Ascii.eqb c "+" then (false, l') else (false, l)
  | [] => (false, [])
  end.
Definition parse_exp (l : text) : option Z :=
  match l with
  | [] => Some 0%Z
  | c :: l' =>
      if Ascii.eqb c "e" then
        let '(neg, l2) := sign_of l' in
        let '(ds, rest) := span l2 in
        match ds, rest with
        | _ :: _, [] => Some (if neg then - number ds else number ds)%Z
        | _, _ => None
        end
      else None
  end.
Definition text_eqb (a b : text) : bool := if list_eq_dec Ascii.ascii_dec a b then true else false.
Definition py_float (l : text) : res (option R) :=
  let '(neg, l1) := sign_of l in
  if text_eqb l1 ["n"; "a"; "n"]%char then Ok None
  else
    let '(i, l2) := span l1 in
    let '(f, l3) := match l2 with c :: l' => if Ascii.eqb c "." then span l' else ([], l2) | [] => ([], []) end in
    match i ++ f, parse_exp l3 with
    | _ :: _, Some k => Ok (Some (b64 ((if neg then -1 else 1) * IZR (number (i ++ f)) * bpow radix10 (k - Z.of_nat (List.length f)))))
    | _, _ => Err ValueError
    end.
(** np.loadtxt of a file with one column (planet.py:276, 887, 943 read such files with several columns): empty lines are skipped. *)
Fixpoint lines (cur l : text) : list text :=
  match l with
  | [] => [cur]
  | c :: l' => if Ascii.eqb c newline then cur :: lines [] l' else lines (cur ++ [c]) l'
  end.
Definition load_column (t : text) : res (list (option R)) :=
  mapr py_float (filter (fun s => match s with [] => false | _ => true end) (lines [] t)).
