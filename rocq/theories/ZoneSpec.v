(** Vectors in the rest frame of an observer, and the composition of matter. *)
From Coq Require Import Reals.
From Verif Require Import GeomSpec.
Open Scope R_scope.

(** The part of v orthogonal to the unit timelike vector u. *)
Definition rest_part (G : nat -> nat -> R) (u v : nat -> R) : nat -> R := fun i => v i + inner G v u * u i.
(** theta is the angle between v and w in the rest frame of u. *)
Definition rest_angle (G : nat -> nat -> R) (u v w : nat -> R) (theta : R) : Prop :=
  let p := rest_part G u v in let q := rest_part G u w in
  0 <= theta <= PI /\ inner G p q = sqrt (inner G p p) * sqrt (inner G q q) * cos theta.
(** n particles of A nucleons each, in matter whose nucleons weigh between lo and hi, can make up the mass density m. *)
Definition weighs (n A lo hi m : R) : Prop := n * A * lo <= m <= n * A * hi.
