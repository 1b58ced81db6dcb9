(** Vocabulary for inverting a table in one of its variables. *)
From Coq Require Import Reals ZArith List.
From Verif Require Import IntLib.
Open Scope R_scope.

(** the entries of an n1 by n2 by n3 table grow along the second index by between m and
    L per unit of the second axis, whose spacing is d *)
Definition rising (n1 n2 n3 : Z) (tab : list R) (d m L : R) : Prop :=
  forall i j k t0 t1, (0 <= i < n1)%Z -> (0 <= j)%Z -> (j + 1 < n2)%Z -> (0 <= k < n3)%Z ->
    rd tab (n1 * (k * n2 + j) + i)%Z = Some t0 -> rd tab (n1 * (k * n2 + (j + 1)) + i)%Z = Some t1 ->
    m * d <= t1 - t0 <= L * d.
(** f grows by between m and L per unit *)
Definition grows (m L : R) (f : R -> R) : Prop := forall a b, a <= b -> m * (b - a) <= f b - f a <= L * (b - a).
(** x within err of y *)
Definition near (err x y : R) : Prop := Rabs (x - y) <= err.
