(** Waves and light. *)
From Coq Require Import Reals.
From Verif Require Import GeomSpec.
Open Scope R_scope.

(** Covector of the surfaces x^js - v t = const. *)
Definition front (js : nat) (v : R) : nat -> R := fun mu => if Nat.eqb mu js then 1 else if Nat.eqb mu 0 then - v else 0.
Definition pair (k u : nat -> R) : R := sigma4 (fun mu => k mu * u mu).
(** Surfaces with covector [k] move at speed sqrt c2 in the rest frame of [u]: frequency squared is
    c2 times the square of the part of [k] orthogonal to [u]. *)
Definition wave (gcon : nat -> nat -> R) (u : nat -> R) (c2 : R) (k : nat -> R) : Prop :=
  pair k u * pair k u = c2 * (inner gcon k k + pair k u * pair k u).
(** Future-directed and not faster than light; on the light cone. *)
Definition causal (G : nat -> nat -> R) (K : nat -> R) : Prop := inner G K K <= 0 /\ 0 < K 0%nat.
Definition lightlike (G : nat -> nat -> R) (K : nat -> R) : Prop := inner G K K = 0 /\ 0 < K 0%nat.
(** Relativistic composition of the sound and Alfven speeds (squares). *)
Definition fast2 (cs2 va2 : R) : R := 1 - (1 - cs2) * (1 - va2).
