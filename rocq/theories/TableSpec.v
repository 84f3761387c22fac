(** Specification of linear table lookup, independent of sorting or searching. *)
Require Import Verif.Base.

(** [p] and [q] are neighbouring rows: no row's abscissa lies strictly between theirs. *)
Definition adjacent (t : list (R * R)) (p q : R * R) : Prop :=
  In p t /\ In q t /\ fst p < fst q /\ forall r, In r t -> ~ (fst p < fst r < fst q).

(** (x,y) lies on the straight segment joining rows [p] and [q]. *)
Definition on_segment (p q : R * R) (x y : R) : Prop :=
  fst p <= x <= fst q /\ (y - snd p) * (fst q - fst p) = (snd q - snd p) * (x - fst p).

(** (x,y) is on the piecewise-linear curve through the rows of [t]. *)
Definition Interpolates (t : list (R * R)) (x y : R) : Prop :=
  In (x, y) t \/ exists p q, adjacent t p q /\ on_segment p q x y.

(** x is inside the tabulated range. *)
Definition inside (t : list (R * R)) (x : R) : Prop :=
  exists p q, In p t /\ In q t /\ fst p <= x <= fst q.
(** x is left / right of every row. *)
Definition left_of (t : list (R * R)) (x : R) : Prop := forall p, In p t -> x < fst p.
Definition right_of (t : list (R * R)) (x : R) : Prop := forall p, In p t -> fst p < x.
