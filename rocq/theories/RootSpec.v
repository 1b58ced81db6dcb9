(** Specification vocabulary for root finding. *)
From Coq Require Import Reals.
Open Scope R_scope.

(** [f] crosses (or touches) level [y] between the end points. *)
Definition crosses (f : R -> R) (y a b : R) : Prop := (f a - y) * (f b - y) <= 0.
(** relative error of a function value, as the code measures it *)
Definition rel_error (f : R -> R) (y tol x : R) : R := Rabs (f x - y) / (Rabs (f x) + tol).
(** central difference quotient *)
Definition quotient (f : R -> R) (h x : R) : R := (f (x + h) - f (x - h)) / (2 * h).
