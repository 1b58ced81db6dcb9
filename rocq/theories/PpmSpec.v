(** Vocabulary for parabolic reconstruction. *)
From Coq Require Import Reals.
Open Scope R_scope.

(** the parabola on [0,1] with mean q and the values l and r at the ends *)
Definition parabola (q l r x : R) : R := l + x * (r - l + 6 * (q - (l + r) / 2) * (1 - x)).
Definition parabola_primitive (q l r x : R) : R := l * x + (r - l + 6 * (q - (l + r) / 2)) * x ^ 2 / 2 - 6 * (q - (l + r) / 2) * x ^ 3 / 3.
(** values in order, either way *)
Definition ordered (up : bool) (a b : R) : Prop := if up then a <= b else b <= a.
Definition ordered5 (up : bool) (x1 x2 x3 x4 x5 : R) : Prop := ordered up x1 x2 /\ ordered up x2 x3 /\ ordered up x3 x4 /\ ordered up x4 x5.
Definition strict (up : bool) (a b : R) : Prop := if up then a < b else b < a.
Definition strict5 (up : bool) (x1 x2 x3 x4 x5 : R) : Prop := strict up x1 x2 /\ strict up x2 x3 /\ strict up x3 x4 /\ strict up x4 x5.
(** the edge values are between the zone and its neighbours and the parabola through
    them is monotone over the zone *)
Definition good (up : bool) (x2 x3 x4 l r : R) : Prop :=
  ordered up x2 l /\ ordered up l x3 /\ ordered up x3 r /\ ordered up r x4 /\
  forall x y, 0 <= x -> x <= y -> y <= 1 -> ordered up (parabola x3 l r x) (parabola x3 l r y).
